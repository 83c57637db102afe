(** Properties C13-C16: segmenting, seeking, stripped key frames, sub-track types. *)
From Coq Require Import ZArith NArith Reals Lra Lia List.
From Verif Require Import Word Float32 Float32Facts Interp Segment SegmentFacts SubTracks SubTracksFacts Strip SeekSpec StripFacts SeekFacts.
Import ListNotations.
Local Open Scope N_scope.

(** * C13.  [sizes] lists the number of samples of each segment, in order; segment i starts at the sum of the sizes before it. *)
Theorem C13_segments_partition_the_clip : forall n ideal max,
  1 <= ideal <= max -> max < 2 ^ 32 -> n + ideal <= 2 ^ 32 ->
  exists sizes, split_samples_per_segment n ideal max = Ok sizes /\
    (n <= max -> sizes = []) /\
    (max < n -> fold_right N.add 0 sizes = n /\ Forall (fun s => 1 <= s <= max) sizes /\ (2 <= length sizes)%nat).
Proof. exact split_partition. Qed.
Print Assumptions C13_segments_partition_the_clip.

(** the written start indices: every sample belongs to exactly one segment *)
Theorem C13_every_sample_in_one_segment : forall n ideal max sizes,
  1 <= ideal <= max -> max < n -> n + ideal < 2 ^ 32 -> split_samples_per_segment n ideal max = Ok sizes ->
  let starts := segment_offsets 0 sizes in
  length starts = length sizes /\
  forall k, k < n -> exists i, (i < length sizes)%nat /\ nth i starts 0 <= k < nth i starts 0 + nth i sizes 0 /\
    (forall j, (j < length sizes)%nat -> nth j starts 0 <= k < nth j starts 0 + nth j sizes 0 -> j = i).
Proof.
  intros n ideal max sizes Hi Hm Ho Hs starts. split; [apply segment_offsets_length |]. intros k Hk.
  destruct (split_partition n ideal max) as (sizes' & P1 & _ & P3); try lia.
  rewrite Hs in P1. injection P1 as <-. destruct (P3 Hm) as (Psum & _ & _).
  assert (St : forall i, (i < length sizes)%nat -> nth i starts 0 = sumN (firstn i sizes)).
  { intros i Hi'. apply nth_error_nth. unfold starts. rewrite segment_offsets_nth by (auto; lia). reflexivity. }
  destruct (cover_exists sizes k) as (i & I1 & I2); [lia |]. exists i. split; auto. split; [now rewrite St |].
  intros j J1 J2. rewrite St in J2 by auto. apply (cover_unique sizes j i k); auto.
Qed.
Print Assumptions C13_every_sample_in_one_segment.

Example C13_sat : split_samples_per_segment 100 16 31 = Ok [17; 17; 17; 17; 16; 16] /\
  split_samples_per_segment 31 16 31 = Ok [] /\ split_samples_per_segment 32 16 31 = Ok [16; 16] /\
  split_samples_per_segment 33 16 20 = Ok [17; 16].
Proof. repeat split; reflexivity. Qed.

(** * C14.  Default settings are ideal = 16, max = 31.  [start_of sizes s] is the first sample of segment s. *)
Theorem C14_seek_finds_the_segments : forall wrapping n ideal max sizes k0 k1,
  2 <= ideal -> ideal <= max -> 2 * ideal <= max + 1 -> max < n -> n < 2 ^ 30 -> n / ideal * (max - ideal) < 2 ^ 32 ->
  split_samples_per_segment n ideal max = Ok sizes ->
  k0 < n -> k1 < n -> (k1 = k0 \/ k1 = k0 + 1 \/ (wrapping = true /\ k1 = 0)) ->
  exists s0 s1 f0 f1,
    find_segments wrapping n (N.of_nat (length sizes)) (segment_start_indices sizes) k0 k1
      = Ok (N.of_nat s0, f0, N.of_nat s1, f1) /\
    (s0 < length sizes)%nat /\ (s1 < length sizes)%nat /\
    f0 < nth s0 sizes 0 /\ start_of sizes s0 + f0 = k0 /\
    f1 < nth s1 sizes 0 /\ start_of sizes s1 + f1 = k1.
Proof. exact seek_finds_segments. Qed.
Print Assumptions C14_seek_finds_the_segments.

Theorem C14_default_settings : forall wrapping n sizes k0 k1,
  31 < n -> n < 2 ^ 28 -> split_samples_per_segment n 16 31 = Ok sizes ->
  k0 < n -> k1 < n -> (k1 = k0 \/ k1 = k0 + 1 \/ (wrapping = true /\ k1 = 0)) ->
  exists s0 s1 f0 f1,
    find_segments wrapping n (N.of_nat (length sizes)) (segment_start_indices sizes) k0 k1
      = Ok (N.of_nat s0, f0, N.of_nat s1, f1) /\
    (s0 < length sizes)%nat /\ (s1 < length sizes)%nat /\
    f0 < nth s0 sizes 0 /\ start_of sizes s0 + f0 = k0 /\
    f1 < nth s1 sizes 0 /\ start_of sizes s1 + f1 = k1.
Proof.
  intros wrapping n sizes k0 k1 H1 H2 H3 H4 H5 H6.
  apply (seek_finds_segments wrapping n 16 31); auto; try lia.
Qed.
Print Assumptions C14_default_settings.

Definition unwrap_sizes (o : outcome (list N)) : list N := match o with Ok l => l | _ => [] end.

Example C14_sat : let sizes := unwrap_sizes (split_samples_per_segment 100 16 31) in
  length sizes = 6%nat /\
  find_segments true 100 6 (segment_start_indices sizes) 67 68 = Ok (3, 16, 4, 0) /\
  find_segments true 100 6 (segment_start_indices sizes) 99 0 = Ok (5, 15, 0, 0).
Proof. repeat split; reflexivity. Qed.

(** The settings validation also accepts settings without slack, e.g. ideal = max = 16 (segment_context.h:70-79); the
    search then reads past the sentinel of the start indices: 1585 samples, last key frame. *)
Theorem C14_no_slack_refuted : exists sizes,
  split_samples_per_segment 1585 16 16 = Ok sizes /\
  find_segments true 1585 (N.of_nat (length sizes)) (segment_start_indices sizes) 1584 1584 = UB.
Proof. exists (unwrap_sizes (split_samples_per_segment 1585 16 16)). split; vm_compute; reflexivity. Qed.
Print Assumptions C14_no_slack_refuted.

(** * C15.  [present m f]: bit 31 - f of the bit set m; [stored_frames m]: the key frames of m in increasing order.
    One segment: whatever the bit sets of the clip and of the resident tiers, as long as the first and last key frame of
    the segment are available. *)
Theorem C15_one_segment : forall s n k0 k1 al,
  samples_ok s -> 1 <= n <= 32 ->
  present (available_indices s) 0 = true -> present (available_indices s) (n - 1) = true ->
  neighbours n k0 k1 -> ffinite al = true -> (0 <= FR al <= 1)%R ->
  exists c0 c1 a src0 r0 src1 r1,
    seek_stripped_single s k0 k1 al = Ok (c0, c1, a, (src0, r0), (src1, r1)) /\
    c0 < n /\ c1 < n /\
    last_available (present (available_indices s)) k0 c0 /\ first_available (present (available_indices s)) k1 c1 /\
    alpha_consistent al k0 c0 c1 a /\ found_in s c0 src0 r0 /\ found_in s c1 src1 r1.
Proof. exact seek_single_spec. Qed.
Print Assumptions C15_one_segment.

(** several segments *)
Theorem C15_several_segments : forall wrapping n ideal max sizes segs k0 k1 al,
  2 <= ideal <= max -> 2 * ideal <= max + 1 -> max <= 32 -> max < n < 2 ^ 22 ->
  split_samples_per_segment n ideal max = Ok sizes -> length segs = length sizes ->
  (forall i s, nth_error segs i = Some s -> samples_ok s /\ present (available_indices s) 0 = true /\
                present (available_indices s) (nth i sizes 0 - 1) = true) ->
  neighbours n k0 k1 -> (k1 = 0 -> k0 = n - 1 -> wrapping = true) -> (k1 = 0 -> k0 = 0 -> wrapping = true) ->
  ffinite al = true -> (0 <= FR al <= 1)%R ->
  exists s0 s1 g0 g1 f0 f1 c0 c1 a src0 r0 src1 r1,
    seek_stripped_multi wrapping n segs (segment_start_indices sizes) k0 k1 al
      = Ok (start_of sizes s0 + c0, start_of sizes s1 + c1, a, (N.of_nat s0, src0, r0), (N.of_nat s1, src1, r1)) /\
    nth_error segs s0 = Some g0 /\ nth_error segs s1 = Some g1 /\
    start_of sizes s0 + f0 = k0 /\ f0 < nth s0 sizes 0 /\ start_of sizes s1 + f1 = k1 /\ f1 < nth s1 sizes 0 /\
    c0 < nth s0 sizes 0 /\ c1 < nth s1 sizes 0 /\
    last_available (present (available_indices g0)) f0 c0 /\ first_available (present (available_indices g1)) f1 c1 /\
    alpha_consistent al k0 (start_of sizes s0 + c0) (start_of sizes s1 + c1) a /\
    found_in g0 c0 src0 r0 /\ found_in g1 c1 src1 r1.
Proof. exact seek_multi_spec. Qed.
Print Assumptions C15_several_segments.

(** 20 key frames; 0, 7, 19 in the clip, 3 and 12 in the medium tier at offset 64, low tier not resident *)
Definition sat_samples := {| clip_indices := 0x81001000; medium_metadata := 64 * 2 ^ 32 + 0x10080000; low_metadata := 0 |}.
Definition shown_single (o : outcome (N * N * f32 * (source * N) * (source * N))) :=
  match o with Ok (c0, c1, a, l0, l1) => Some (c0, c1, f_bits a, l0, l1) | _ => None end.
Example C15_sat : samples_ok sat_samples /\ present (available_indices sat_samples) 0 = true /\
  present (available_indices sat_samples) 19 = true /\ neighbours 20 9 10 /\
  shown_single (seek_stripped_single sat_samples 9 10 f_half)
   = Some (7, 12, 0x3F000000, (from_clip, 1), (from_medium 64, 1)).
Proof.
  split; [unfold samples_ok; repeat split; vm_compute; reflexivity |]. split; [reflexivity |]. split; [reflexivity |].
  split; [unfold neighbours; lia |]. vm_compute. reflexivity.
Qed.

(** * C16.  [tracks_of c types] lists the indices of the tracks whose type is c, in increasing order. *)
Theorem C16_classes_round_trip : forall types, Forall (fun t => t <= 2) types ->
  let entries := write_packed_sub_track_types types in
  N.of_nat (length entries) = num_sub_track_entries (N.of_nat (length types)) /\
  default_tracks (N.of_nat (length types)) entries = Ok (tracks_of 0 types) /\
  constant_tracks entries = Ok (tracks_of 1 types) /\
  animated_tracks entries = Ok (tracks_of 2 types).
Proof. exact walk_classes. Qed.
Print Assumptions C16_classes_round_trip.

(** single track decompression: the type of the track and how many constant / animated tracks precede it *)
Theorem C16_single_track_lookup : forall types i, Forall (fun t => t <= 2) types -> N.of_nat (length types) < 2 ^ 32 ->
  i < N.of_nat (length types) ->
  let entries := write_packed_sub_track_types types in
  sub_track_type entries i = Ok (nth (N.to_nat i) types 0) /\
  count_before entries 0x55555555 i = Ok (N.of_nat (length (filter (N.eqb 1) (firstn (N.to_nat i) types)))) /\
  count_before entries 0xAAAAAAAA i = Ok (N.of_nat (length (filter (N.eqb 2) (firstn (N.to_nat i) types)))).
Proof.
  intros types i H1 H2 H3 entries. split; [apply sub_track_type_spec; auto |].
  split; apply count_before_spec; auto.
Qed.
Print Assumptions C16_single_track_lookup.

Definition sat_types : list N := [0;1;2;2;1;0;0;0;0;0;0;0;1;2;0;2;0;0;1;0].
Example C16_sat : Forall (fun t => t <= 2) sat_types /\
  write_packed_sub_track_types sat_types = [440402018; 67108864] /\
  default_tracks 20 [440402018; 67108864] = Ok [0; 5; 6; 7; 8; 9; 10; 11; 14; 16; 17; 19] /\
  count_before [440402018; 67108864] 0x55555555 18 = Ok 3.
Proof. split; [repeat constructor; discriminate |]. repeat split; vm_compute; reflexivity. Qed.
