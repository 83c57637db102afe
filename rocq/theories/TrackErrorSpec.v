(** Vocabulary of the measure of the compression error (C48). *)
From Coq Require Import Reals.
From Verif Require Import Word Float32 Float32Facts Interp TrackArray ScalarEnc ScalarDec ScalarSpec TrackError.
Local Open Scope N_scope.

(** the largest distance of the components *)
Definition is_distance (x y : list f32) (e : f32) : Prop :=
  length x = length y /\
  (forall j a b, nth_error x j = Some a -> nth_error y j = Some b -> fle (fabs (fsub a b)) e = true) /\
  (exists j a b, nth_error x j = Some a /\ nth_error y j = Some b /\ e = fabs (fsub a b)).
(** the same numbers (zeros may differ in sign) *)
Definition same_values (x y : list f32) : Prop := Forall2 (fun a b => ffinite a = true /\ FR a = FR b) x y.
(** track [i] is part of the compressed clip, as output track [o] *)
Definition kept_as (ts : list strack) (i : nat) (t : strack) : Prop := nth_error ts i = Some t /\ output_index (st_track t) <> k_invalid_track_index.
Definition measured (n : N) (ts : list strack) (k : N) (i : nat) : Prop := k < n /\ exists t, kept_as ts i t.
(** [e] is the largest of the errors [err k i] of the tracks [i] at the key frames [k], with the first key frame and the first track
    that have it; without any track to measure it is a negative error *)
Definition worst (n : N) (rate : f32) (ts : list strack) (err : N -> nat -> f32) (e : track_error) : Prop :=
  ((forall k i, ~ measured n ts k i) /\ e = te_start) \/
  (exists k i, measured n ts k i /\ te_index e = N.of_nat i /\ te_time e = fdiv (f_of_N k) rate /\ te_error e = err k i /\
    (forall k' i', measured n ts k' i' -> fle (err k' i') (te_error e) = true) /\
    (forall k' i', measured n ts k' i' -> k' < k \/ (k' = k /\ (i' < i)%nat) -> flt (err k' i') (te_error e) = true)).
