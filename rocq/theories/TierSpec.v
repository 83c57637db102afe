(** Specification vocabulary of C21. *)
From Coq Require Import ZArith NArith List Bool Permutation Sorted.
From Verif Require Import Word Float32 StripOrder SeekSpec StripSpec DbTiers.
Import ListNotations.
Local Open Scope N_scope.

(** A clip is given to the database builder with the sizes of its segments. *)
Definition clip_ok (sizes : list N) (c : db_clip) : Prop :=
  dc_num_samples c = sumN sizes /\ sumN sizes < 2 ^ 32 /\ (1 <= length sizes)%nat /\
  (2 <= sumN sizes -> 2 * N.of_nat (length sizes) <= sumN sizes) /\ Forall (fun z => 1 <= z <= 32) sizes /\
  length (dc_starts c) = length sizes /\ length (dc_pose_bits c) = length sizes /\ length (dc_data c) = length sizes /\
  (forall s, (s < length sizes)%nat -> nth_error (dc_starts c) s = Some (start_of sizes s)) /\
  exists order, dc_order c = Some order /\ clip_order sizes order.

(** every key frame of every clip as (clip, segment, key frame of the segment) *)
Definition frames_of (c : N) (sizes : list N) : list (N * N * N) :=
  flat_map (fun s => map (fun f => (c, N.of_nat s, f)) (upto (nth s sizes 0))) (seq 0 (length sizes)).
Definition all_frames (sizes : list (list N)) : list (N * N * N) :=
  flat_map (fun c => frames_of (N.of_nat c) (nth c sizes [])) (seq 0 (length sizes)).
Definition key (m : frame_mapping) : N * N * N := (fm_tracks m, fm_segment m, fm_segment_frame m).
Definition key_lt (a b : N * N * N) : Prop :=
  fst (fst a) < fst (fst b) \/
  (fst (fst a) = fst (fst b) /\ (snd (fst a) < snd (fst b) \/ (snd (fst a) = snd (fst b) /\ snd a < snd b))).

Definition total_frames (sizes : list (list N)) : N := sumN (map sumN sizes).
(** how many key frames may leave the clips, as the builder counts them *)
Definition clip_movable (sizes : list N) : N := if 2 <=? sumN sizes then sumN sizes - 2 * N.of_nat (length sizes) else 0.
Definition total_movable (sizes : list (list N)) : N := sumN (map clip_movable sizes).

(** a mapping points at the data of its segment and knows the size of a pose *)
Definition mapping_ok (sizes : list (list N)) (clips : list db_clip) (m : frame_mapping) : Prop :=
  exists c z, nth_error clips (N.to_nat (fm_tracks m)) = Some c /\ nth_error sizes (N.to_nat (fm_tracks m)) = Some z /\
    (exists d, nth_error (dc_data c) (N.to_nat (fm_segment m)) = Some d /\ fm_data m = Some d) /\
    nth_error (dc_pose_bits c) (N.to_nat (fm_segment m)) = Some (fm_bits m) /\
    fm_clip_frame m = start_of z (N.to_nat (fm_segment m)) + fm_segment_frame m.
(** neither the first nor the last key frame of its segment *)
Definition mapping_interior (sizes : list (list N)) (m : frame_mapping) : Prop :=
  0 < fm_segment_frame m /\ fm_segment_frame m + 1 < nth (N.to_nat (fm_segment m)) (nth (N.to_nat (fm_tracks m)) sizes []) 0.

(** The sequence in which the key frames are taken, the low tier first: the next one is the next of its clip's stripping
    order, and (but for the highest tier) no other clip's next one has a smaller error. *)
Definition taken_of (c : N) (l : list frame_mapping) : nat := length (filter (fun m => fm_tracks m =? c) l).
Definition picks (clips : list db_clip) (greedy_until : nat) (l : list frame_mapping) : Prop :=
  forall i m, nth_error l i = Some m ->
    exists c order k, nth_error clips (N.to_nat (fm_tracks m)) = Some c /\ dc_order c = Some order /\
      nth_error order (taken_of (fm_tracks m) (firstn i l)) = Some k /\
      fm_segment m = kf_segment k /\ fm_clip_frame m = kf_index k /\ fm_error m = kf_error k /\
      ((i < greedy_until)%nat -> forall c' cl' order' k', nth_error clips (N.to_nat c') = Some cl' -> dc_order cl' = Some order' ->
         nth_error order' (taken_of c' (firstn i l)) = Some k' -> fle (kf_error k) (kf_error k') = true).
