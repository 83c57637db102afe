(** Specification vocabulary of C37 and C21: what a stripping order is. *)
From Coq Require Import ZArith NArith List Bool Permutation.
From Verif Require Import Word Float32 StripOrder SeekSpec.
Import ListNotations.
Local Open Scope N_scope.

(** an error that compares below +infinity: any number *)
Definition below_inf (x : f32) : Prop := flt x f_inf = true.

(** 0, 1, ..., n - 1 *)
Definition upto (n : N) : list N := map N.of_nat (seq 0 (N.to_nat n)).

(** The key frames of one segment of [n] samples in the order they are to be removed: every key frame once; the ones that
    can be removed come first, with an error; the first and the last one of the segment come at the end with an infinite
    error. *)
Definition segment_order (n s : N) (l : list keyframe) : Prop :=
  Permutation (map kf_index l) (upto n) /\
  Forall (fun k => kf_segment k = s) l /\
  forall i k, nth_error l i = Some k ->
    ((i < N.to_nat n - 2)%nat -> 0 < kf_index k < n - 1 /\ below_inf (kf_error k)) /\
    ((N.to_nat n - 2 <= i)%nat -> (kf_index k = 0 \/ kf_index k = n - 1) /\ kf_error k = f_inf /\ kf_trivial k = false).

(** The removals are greedy: when a key frame is removed its error (and whether it is trivial) is the one of interpolating
    between its retained neighbours, and no other key frame still there had a smaller one. *)
Definition retained (removed : list keyframe) (f : N) : Prop := ~ In f (map kf_index removed).
Definition enclosing (n : N) (removed : list keyframe) (f a b : N) : Prop :=
  a < f < b /\ b < n /\ retained removed a /\ retained removed b /\
  forall j, a < j < b -> j <> f -> ~ retained removed j.
Definition greedy (err : N -> N -> f32 * bool) (n s : N) (l : list keyframe) : Prop :=
  forall i k, nth_error l i = Some k -> (i < N.to_nat n - 2)%nat ->
    let removed := firstn i l in
    retained removed (kf_index k) /\
    (exists a b, enclosing n removed (kf_index k) a b /\ err a b = (kf_error k, kf_trivial k)) /\
    forall j a b, 0 < j < n - 1 -> retained removed j -> enclosing n removed j a b -> flt (fst (err a b)) (kf_error k) = false.

(** A clip whose segments have these sizes: its key frames as (segment, clip key frame) pairs. *)
Definition clip_frames (sizes : list N) : list (N * N) :=
  flat_map (fun s => map (fun f => (N.of_nat s, start_of sizes s + f)) (upto (nth s sizes 0))) (seq 0 (length sizes)).
(** how many key frames are neither the first nor the last of their segment *)
Definition movable (sizes : list N) : N := sumN (map (fun z => z - 2) sizes).
Definition first_of (sizes : list N) (s : N) : N := start_of sizes (N.to_nat s).
Definition last_of (sizes : list N) (s : N) : N := start_of sizes (N.to_nat s) + nth (N.to_nat s) sizes 0 - 1.

(** The order of the clip is the greedy merge of the orders of its segments: the next key frame is the next one of some
    segment, and no other segment's next one has a smaller error. *)
Definition taken (s : N) (l : list keyframe) : nat := length (filter (fun k => kf_segment k =? s) l).
Definition merge_of (segs : list seg_errors) (order : list keyframe) : Prop :=
  forall i k, nth_error order i = Some k ->
    exists sg e, nth_error segs (N.to_nat (kf_segment k)) = Some sg /\
      nth_error (se_errors sg) (taken (kf_segment k) (firstn i order)) = Some e /\
      kf_index k = kf_index e + se_offset sg /\ kf_error k = kf_error e /\ kf_trivial k = kf_trivial e /\
      forall s' sg' e', nth_error segs (N.to_nat s') = Some sg' -> nth_error (se_errors sg') (taken s' (firstn i order)) = Some e' ->
        fle (kf_error e) (kf_error e') = true.

(** The same as [segment_order] for the whole clip. *)
Definition clip_order (sizes : list N) (order : list keyframe) : Prop :=
  Permutation (map (fun k => (kf_segment k, kf_index k)) order) (clip_frames sizes) /\
  forall i k, nth_error order i = Some k ->
    kf_strip k = N.of_nat i /\
    (N.of_nat i < movable sizes -> first_of sizes (kf_segment k) < kf_index k < last_of sizes (kf_segment k) /\ below_inf (kf_error k)) /\
    (movable sizes <= N.of_nat i ->
       (kf_index k = first_of sizes (kf_segment k) \/ kf_index k = last_of sizes (kf_segment k)) /\ kf_error k = f_inf /\ kf_trivial k = false).

(** The segments [segs] of a clip after the first [n] key frames of the order were stripped: [segs'] has the retained key
    frames of each segment (key frame 0 in the most significant bit) and the size of what is left of its data. *)
Definition strippable (sizes : list N) (segs : list strip_seg) : Prop :=
  length segs = length sizes /\
  forall s sg, nth_error segs s = Some sg ->
    1 <= nth s sizes 0 <= 32 /\ st_num_samples sg = nth s sizes 0 /\ st_offset sg = start_of sizes s /\ st_hard sg = [0] /\ st_pose_bits sg < 2 ^ 26.
Definition stripped_key_frames (order : list keyframe) (n : N) : list (N * N) :=
  map (fun k => (kf_segment k, kf_index k)) (firstn (N.to_nat n) order).
Definition stripped_to (sizes : list N) (order : list keyframe) (n : N) (segs segs' : list strip_seg) : Prop :=
  length segs' = length segs /\
  forall s sg sg', nth_error segs s = Some sg -> nth_error segs' s = Some sg' ->
    st_num_samples sg' = st_num_samples sg /\ st_offset sg' = st_offset sg /\ st_pose_bits sg' = st_pose_bits sg /\
    exists mask, st_hard sg' = [mask] /\ mask < 2 ^ 32 /\
      (forall f, f < 32 -> (present mask f = true <-> f < nth s sizes 0 /\ ~ In (N.of_nat s, start_of sizes s + f) (stripped_key_frames order n))) /\
      st_data_size sg' = (if (taken (N.of_nat s) (firstn (N.to_nat n) order) =? 0)%nat
                          then st_data_size sg
                          else (st_pose_bits sg * N.of_nat (length (stored_frames mask)) + 7) / 8).
(** [b] is where a scan starting at [a] stops: at the first key frame that does not satisfy [p], or at [m]. *)
Definition scan (p : keyframe -> bool) (order : list keyframe) (m a b : N) : Prop :=
  a <= b <= m /\ (forall i k, a <= i < b -> nth_error order (N.to_nat i) = Some k -> p k = true) /\
  (b = m \/ exists k, nth_error order (N.to_nat b) = Some k /\ p k = false).
(** the bits the first [n] key frames of the order take *)
Definition saved_bits (segs : list strip_seg) (order : list keyframe) (n : N) : N :=
  sumN (map (fun k => match nth_error segs (N.to_nat (kf_segment k)) with Some sg => st_pose_bits sg | None => 0 end) (firstn (N.to_nat n) order)).
