(** Specification vocabulary of C19 and C20, independent of the proofs. *)
From Coq Require Import Reals.
From Verif Require Import Word Float32 Float32Facts TrackArray.
Local Open Scope N_scope.

(** the output indices of the tracks that are not stripped, in track order *)
Definition outputs (ts : list track) : list N :=
  filter (fun o => negb (o =? k_invalid_track_index)) (map output_index ts).

(** what makes one track acceptable: no data at all, or a finite positive sample rate and finite non-negative
    precision (and shell distance, and a sane default value, for transforms) *)
Definition track_ok (t : track) : Prop :=
  has_data t = false \/
  (num_samples t <> 0xFFFFFFFF /\
   (ffinite (sample_rate t) = true /\ (0 < FR (sample_rate t))%R) /\
   (ffinite (precision t) = true /\ (0 <= FR (precision t))%R) /\
   (transform t = true -> (ffinite (shell_distance t) = true /\ (0 <= FR (shell_distance t))%R) /\
                          default_finite t = true /\ default_normalized t = true)).

(** [ancestor parents a b]: a is b or a transform above it *)
Inductive ancestor (parents : list N) : N -> N -> Prop :=
| anc_self b : b < N.of_nat (length parents) -> ancestor parents b b
| anc_up a b p : nth_error parents (N.to_nat b) = Some p -> p <> k_invalid_track_index -> ancestor parents a p -> ancestor parents a b.

(** following the parents from b reaches a root *)
Inductive rooted (parents : list N) : N -> Prop :=
| rooted_root b : nth_error parents (N.to_nat b) = Some k_invalid_track_index -> rooted parents b
| rooted_up b p : nth_error parents (N.to_nat b) = Some p -> p <> k_invalid_track_index -> rooted parents p -> rooted parents b.

(** a transform is a leaf when it is nobody's parent *)
Definition is_leaf (parents : list N) (b : N) : Prop :=
  b < N.of_nat (length parents) /\ ~ In b parents.

(** what track_array::is_valid guarantees about the parents *)
Definition parents_in_range (parents : list N) : Prop :=
  Forall (fun p => p = k_invalid_track_index \/ p < N.of_nat (length parents)) parents.
(** every parent comes before its children in the track list *)
Definition parents_come_first (parents : list N) : Prop :=
  forall b p, nth_error parents (N.to_nat b) = Some p -> p = k_invalid_track_index \/ p < b.
(** x is listed before y *)
Definition before (l : list N) (x y : N) : Prop := exists l1 l2 l3, l = l1 ++ x :: l2 ++ y :: l3.
