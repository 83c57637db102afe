(** What a context needs to find in the buffer of a clip that is bound to a database, and how it plays it. *)
From Coq Require Import Lia Reals Lra.
From Verif Require Import Word WordFacts Pieces MemoryUtils MemoryFacts Float32 Float32Facts Quant Interp InterpFacts Headers HeadersFacts Packing PackSpec DbBuild ScalarDec ScalarSeekFacts ScalarPlay
  TransDec TransSpec TransRing TransMem TransConst TransAnim TransAnim2 TransPose TransPoseFacts TransSingle TransEnc TransEncSpec TransEncFacts TransEncAnim TransEncAnim2
  TransClipSpec TransClip TransClip2 TransFile TransFileSizes TransFileBytes TransFileFacts TransFileSegs TransFilePack TransFileMeta TransFilePlay TransFilePlay2 TransFilePlay3 Strip Segment SegmentFacts SeekSpec SeekFacts TransSeek TransPlaySpec TransTop BindSpec.
Import ListNotations.
Local Open Scope N_scope.
Ltac Zify.zify_post_hook ::= idtac.

Lemma filter_count {A} (P : A -> bool) l : (length (filter P l) <= length l)%nat.
Proof. induction l as [| x l IH]; cbn [filter length]; [lia |]. destruct (P x); cbn [length]; lia. Qed.
Lemma count_below (P : N -> bool) k : (length (filter P (map N.of_nat (seq 0 k))) <= k)%nat.
Proof. pose proof (filter_count P (map N.of_nat (seq 0 k))) as Q. rewrite map_length, seq_length in Q. exact Q. Qed.
Lemma rank_lt hard r k : nth_error (stored_frames hard) (N.to_nat r) = Some k -> r < 32.
Proof.
  intros E. rewrite stored_frames_eq in E. revert E. generalize (present hard). intros P E. pose proof (count_below P 32) as Q.
  assert (L : (N.to_nat r < length (filter P (map N.of_nat (seq 0 32))))%nat) by (apply nth_error_Some; rewrite E; discriminate). revert L Q. generalize (length (filter P (map N.of_nat (seq 0 32)))). intros x L Q. lia.
Qed.

Section View.
  Context (p : tclip) (out : list content) (m : list N).
  Notation f := (formats_of p).
  Notation F := (formats_size (formats_of p) out).
  Notation R := (if 1 <? num_segments p then 6 * formats_size (formats_of p) out else 0).
  Notation n := (p_num_samples p).
  Notation rate := (p_sample_rate p).
  Notation pose i := (pose_size p out (N.of_nat i)).

  (** segment [i]: its header is the [i]-th from [hd], its data [rel] bytes from the transform header; it keeps the key frames [hard] *)
  Record view_segment (hd : N) (i : nat) (g : tsegment) (rel hard : N) : Prop := {
    vs_header : placed m (hd + 20 * N.of_nat i) (words [pose i; stored_sizes (samples out (N.of_nat i) 0 Rotation); stored_sizes (samples out (N.of_nat i) 0 Translation); rel; hard]);
    vs_ok : segment_ok p out (N.of_nat i) g;
    vs_n : g_num_samples g <= 32;
    vs_hard : hard < 2 ^ 32;
    vs_formats : forall k, k < g_num_samples g -> padded m (32 + rel) (segment_formats f out (N.of_nat i) k);
    vs_ranges : 1 < num_segments p -> forall k, k < g_num_samples g -> padded m (ranges_at F (32 + rel)) (segment_ranges f out (N.of_nat i) k);
    vs_data : forall r k, nth_error (stored_frames hard) (N.to_nat r) = Some k ->
      k < g_num_samples g /\ stream (skipn (N.to_nat (animated_at F R (32 + rel))) m) (r * pose i) (key_frame_samples f out (N.of_nat i) k);
    vs_rel : rel + F + R + 48 < 2 ^ 32;
    vs_pose : 32 * pose i < 2 ^ 32
  }.
  Record view (hd ty co ra : N) (rels hards : list N) : Prop := {
    vw_timing : clip_timing p;
    vw_some : out <> [];
    vw_small : len out + 16 < 2 ^ 32 /\ 6 * F + 6 < 2 ^ 32;
    vw_tracks : h_num_tracks m = Ok (len out);
    vw_samples : h_num_samples m = Ok n;
    vw_rate : h_sample_rate m = Ok rate;
    vw_version : h_version m = Ok 10;
    vw_hash : exists h, h_hash m = Ok h;
    vw_misc : exists misc, h_misc m = Ok misc /\ get_rotation_format misc = rotation_format_code (p_rotation p) /\ get_translation_format misc = b2n (p_translation p) /\ get_scale_format misc = b2n (p_scale p) /\
      get_has_scale misc = b2n (p_has_scale p) /\ get_has_database misc = 1 /\ get_is_wrap_optimized misc = p_wrap p;
    vw_members : forall k w, k <> 7 -> nth_error [num_segments p; F; len (ct_animated Rotation out); len (ct_animated Translation out); len (ct_animated Scale out);
      len (ct_constants Rotation out); len (ct_constants Translation out); 0] (N.to_nat k) = Some w -> read32 m (32 + 4 * k) = Ok w;
    vw_offsets : read32 m 68 = Ok (hd - 32) /\ read32 m 72 = Ok (ty - 32) /\ read32 m 76 = Ok (co - 32) /\ read32 m 80 = Ok (ra - 32) /\ 32 <= hd /\ 32 <= ty /\ 32 <= co /\ 32 <= ra;
    vw_starts : 1 < num_segments p -> map g_start (p_segments p) = segment_offsets 0 (sizes_of p) -> forall j w, nth_error (segment_start_indices (sizes_of p)) j = Some w -> read32 m (84 + 4 * N.of_nat j) = Ok w;
    vw_types : placed m ty (clip_types f out);
    vw_constants : padded m co (clip_constants f out);
    vw_ranges : padded m ra (clip_ranges f out);
    vw_lengths : length rels = length (p_segments p) /\ length hards = length (p_segments p);
    vw_segments : forall i g rel hard, nth_error (p_segments p) i = Some g -> nth_error rels i = Some rel -> nth_error hards i = Some hard -> view_segment hd i g rel hard
  }.

  (** the data of a tier, for segment [i] whose runtime word is [w] *)
  Definition tier_data (i : nat) (g : tsegment) (w : N) (bytes : list N) : Prop :=
    forall r k, nth_error (stored_frames (w mod 2 ^ 32)) (N.to_nat r) = Some k ->
      k < g_num_samples g /\ stream (skipn (N.to_nat (w / 2 ^ 32)) bytes) (r * pose i) (key_frame_samples f out (N.of_nat i) k).
  Definition words_of (d : tdatabase) (i : nat) (hard : N) : segment_samples :=
    {| clip_indices := hard; medium_metadata := fst (t_metadata d (N.of_nat i)); low_metadata := snd (t_metadata d (N.of_nat i)) |}.
  Record tiers_ok (hards : list N) (d : tdatabase) : Prop := {
    tk_samples : forall i g hard, nth_error (p_segments p) i = Some g -> nth_error hards i = Some hard ->
      samples_ok (words_of d i hard) /\ present (available_indices (words_of d i hard)) 0 = true /\ present (available_indices (words_of d i hard)) (g_num_samples g - 1) = true;
    tk_medium : forall i g, nth_error (p_segments p) i = Some g -> tier_data i g (fst (t_metadata d (N.of_nat i))) (t_medium d);
    tk_low : forall i g, nth_error (p_segments p) i = Some g -> tier_data i g (snd (t_metadata d (N.of_nat i))) (t_low d)
  }.
  Definition avail_of (hards : list N) (d : tdatabase) (i : nat) (k : N) : bool := present (available_indices (words_of d i (nth i hards 0))) k.

  Context (hd ty co ra : N) (rels hards : list N).
  Hypothesis V : view hd ty co ra rels hards.
  Notation Time := (vw_timing _ _ _ _ _ _ V).

  Lemma v_lookup i g : nth_error (p_segments p) i = Some g -> exists rel hard, nth_error rels i = Some rel /\ nth_error hards i = Some hard /\ view_segment hd i g rel hard.
  Proof.
    intros E. assert (L : (i < length (p_segments p))%nat) by (apply nth_error_Some; congruence). destruct (vw_lengths _ _ _ _ _ _ V) as [L1 L2].
    destruct (nth_error rels i) as [rel |] eqn:E1; [| apply nth_error_None in E1; lia]. destruct (nth_error hards i) as [hard |] eqn:E2; [| apply nth_error_None in E2; lia].
    exists rel, hard. split; [reflexivity |]. split; [reflexivity |]. apply (vw_segments _ _ _ _ _ _ V); assumption.
  Qed.
  Lemma v_member k w : k <> 7 -> nth_error [num_segments p; F; len (ct_animated Rotation out); len (ct_animated Translation out); len (ct_animated Scale out);
      len (ct_constants Rotation out); len (ct_constants Translation out); 0] (N.to_nat k) = Some w -> read32 m (32 + 4 * k) = Ok w.
  Proof. exact (vw_members _ _ _ _ _ _ V k w). Qed.
  Lemma v_num : read32 m 32 = Ok (num_segments p). Proof. exact (v_member 0 _ ltac:(discriminate) eq_refl). Qed.
  Lemma v_F : read32 m 36 = Ok F. Proof. exact (v_member 1 _ ltac:(discriminate) eq_refl). Qed.

  Lemma v_pointers at_ a b c rel hard : placed m at_ (words [a; b; c; rel; hard]) -> rel + F + R + 48 < 2 ^ 32 -> segment_pointers m at_ = Ok (32 + rel, ranges_at F (32 + rel), animated_at F R (32 + rel)).
  Proof.
    intros P W. unfold segment_pointers. pose proof (geometry F R 0 (32 + rel)) as GE.
    replace (at_ + 12) with (at_ + 4 * 3) by lia. rewrite (read_word m at_ _ 3 rel P) by (try reflexivity; lia). cbn [bindo].
    change (transform_header + 4) with 36. change transform_header with 32. rewrite v_F. cbn [bindo]. rewrite v_num. cbn [bindo]. cbv zeta.
    rewrite align_up2 by (try (right; reflexivity); lia). change (up2 (32 + rel + F)) with (ranges_at F (32 + rel)).
    destruct (vw_small _ _ _ _ _ _ V) as [_ SF].
    assert (E : (if 1 <? num_segments p then mulw 32 6 F else 0) = R) by (destruct (1 <? num_segments p); [rewrite mulw_small by lia; reflexivity | reflexivity]). rewrite E.
    rewrite align_up4' by (try (right; reflexivity); lia). reflexivity.
  Qed.

  (** the key frame found in one of the sources *)
  Lemma v_key_frame d i g rel hard k src r : tiers_ok hards d -> nth_error (p_segments p) i = Some g -> nth_error hards i = Some hard -> view_segment hd i g rel hard -> found_in (words_of d i hard) k src r ->
    exists kf, key_frame_at m (Some d) true true hd (N.of_nat i, src, r) = Ok kf /\ kf_range kf = ranges_at F (32 + rel) /\
      forall c, c_mem c = m -> key_frame_placed f out c kf (N.of_nat i) k.
  Proof.
    intros TK Eg Eh SI [FO FR]. pose proof (vs_header _ _ _ _ _ SI) as H. unfold key_frame_at. rewrite (N.mul_comm (N.of_nat i) 20).
    pose proof (vs_ok _ _ _ _ _ SI) as OK. pose proof (so_pose _ _ _ _ OK) as PB.
    rewrite (v_pointers _ _ _ _ _ _ H (vs_rel _ _ _ _ _ SI)). cbn [bindo].
    assert (SZ : stored_sizes (samples out (N.of_nat i) 0 Rotation) <= pose i /\ stored_sizes (samples out (N.of_nat i) 0 Translation) <= pose i).
    { unfold pose_size, key_frame_samples. rewrite !stored_sizes_app. lia. }
    pose proof (read_word m _ _ 0 _ H eq_refl PB) as R0. rewrite N.mul_0_r, N.add_0_r in R0. rewrite R0. cbn [bindo].
    pose proof (read_word m _ _ 1 _ H eq_refl ltac:(lia)) as R1. change (4 * 1) with 4 in R1. rewrite R1. cbn [bindo].
    pose proof (read_word m _ _ 2 _ H eq_refl ltac:(lia)) as R2. change (4 * 2) with 8 in R2. rewrite R2. cbn [bindo].
    eexists. split; [reflexivity |]. split; [reflexivity |]. intros c Em.
    destruct (so_holds _ _ _ _ OK) as (l & O & HO). pose proof (so_samples _ _ _ _ OK) as NS.
    assert (RB : r * pose i < 2 ^ 32).
    { pose proof (rank_lt _ _ _ FR) as LR. pose proof (vs_pose _ _ _ _ _ SI) as VP. apply N.le_lt_trans with (32 * pose i); [| exact VP]. apply N.mul_le_mono_r. lia. }
    assert (DATA : k < g_num_samples g /\ stream (match src with
              | from_medium o => skipn (N.to_nat o) (t_medium d)
              | from_low o => skipn (N.to_nat o) (t_low d)
              | from_clip => skipn (N.to_nat (animated_at F R (32 + rel))) m
              end) (r * pose i) (key_frame_samples f out (N.of_nat i) k)).
    { destruct src as [| o | o]; cbn [source_offset_ok source_indices words_of clip_indices medium_metadata low_metadata] in FO, FR.
      - exact (vs_data _ _ _ _ _ SI r k FR).
      - subst o. exact (tk_medium _ _ TK i g Eg r k FR).
      - subst o. exact (tk_low _ _ TK i g Eg r k FR). }
    destruct DATA as [Hk ST].
    constructor; cbn [kf_format kf_range kf_data kf_offset kf_rotation_bits kf_translation_bits]; rewrite ?Em.
    - exact (vs_formats _ _ _ _ _ SI k Hk).
    - intros HS. apply (vs_ranges _ _ _ _ _ SI); [| exact Hk]. apply N.ltb_lt. exact HS.
    - rewrite mulw_small by exact RB. destruct src; exact ST.
    - symmetry. apply (same_size f (N.of_nat i) _ l out HO Rotation k 0 Hk). lia.
    - symmetry. apply (same_size f (N.of_nat i) _ l out HO Translation k 0 Hk). lia.
  Qed.

  (** ** The key frames that are found *)
  Lemma v_starts : 1 < num_segments p -> map g_start (p_segments p) = segment_offsets 0 (sizes_of p) ->
    read_words m (transform_header + align_to 32 transform_header_size 4) 4 (N.to_nat (num_segments p + 1)) = Ok (segment_start_indices (sizes_of p)).
  Proof.
    intros H1 E. change (transform_header + align_to 32 transform_header_size 4) with 84.
    assert (L : N.to_nat (num_segments p + 1) = length (segment_start_indices (sizes_of p))). { unfold segment_start_indices. rewrite app_length, offsets_length, num_of. cbn [length]. lia. }
    rewrite L. apply read_words_all. intros j w Ej. exact (vw_starts _ _ _ _ _ _ V H1 E j w Ej).
  Qed.
  Lemma v_hard i hard : nth_error hards i = Some hard -> read32 m (hd + 16 + 20 * N.of_nat i) = Ok hard.
  Proof.
    intros E. assert (L : (i < length hards)%nat) by (apply nth_error_Some; congruence). rewrite (proj2 (vw_lengths _ _ _ _ _ _ V)) in L.
    destruct (nth_error (p_segments p) i) as [g |] eqn:Eg; [| apply nth_error_None in Eg; lia]. destruct (v_lookup i g Eg) as (rel & hard' & _ & E2 & SI).
    rewrite E in E2. injection E2 as <-. pose proof (read_word m _ _ 4 _ (vs_header _ _ _ _ _ SI) eq_refl (vs_hard _ _ _ _ _ SI)) as Q. rewrite <- Q. f_equal. lia.
  Qed.
  Lemma v_hards : read_words m (hd + 16) 20 (N.to_nat (num_segments p)) = Ok hards.
  Proof.
    assert (L : N.to_nat (num_segments p) = length hards) by (rewrite (proj2 (vw_lengths _ _ _ _ _ _ V)); unfold num_segments; lia). rewrite L. apply read_words_all. exact v_hard.
  Qed.
  Lemma segments_words d l : forall a i x, nth_error (map (fun '(j, y) => tier_samples (Some d) j y) (combine (seq a (length l)) l)) i = Some x -> exists hard, nth_error l i = Some hard /\ x = words_of d (a + i) hard.
  Proof.
    induction l as [| y l IH]; intros a i x E; [destruct i; discriminate |]. cbn [length seq combine map] in E. destruct i as [| i].
    - injection E as <-. exists y. split; [reflexivity |]. rewrite Nat.add_0_r. reflexivity.
    - cbn [nth_error] in E. destruct (IH (S a) i x E) as (hard & E1 & E2). exists hard. split; [exact E1 |]. rewrite E2. f_equal. lia.
  Qed.

  Lemma v_found d ds k0 k1 al : tiers_ok hards d -> neighbours n k0 k1 -> (k1 = 0 -> n = 1 \/ is_wrapping_supported ds = true) -> ffinite al = true -> (0 <= FR al <= 1)%R ->
    exists i0 i1 c0 c1 a h0 h1 x0 x1 src0 r0 src1 r1, nth_error (p_segments p) i0 = Some h0 /\ nth_error (p_segments p) i1 = Some h1 /\ nth_error hards i0 = Some x0 /\ nth_error hards i1 = Some x1 /\
      find_key_frames ds m (Some d) true (num_segments p) n hd k0 k1 al = Ok (a, (N.of_nat i0, src0, r0), (N.of_nat i1, src1, r1)) /\
      c0 < g_num_samples h0 /\ found_in (words_of d i0 x0) c0 src0 r0 /\ c1 < g_num_samples h1 /\ found_in (words_of d i1 x1) c1 src1 r1 /\
      chosen_among p (avail_of hards d) k0 k1 al i0 c0 i1 c1 a.
  Proof.
    intros TK NB Wr Fa Ra. pose proof NB as (B0 & B1 & BP). pose proof (ti_samples _ Time) as TS. change (2 ^ 22 - 2) with 4194302 in TS. unfold find_key_frames.
    assert (AV : forall i hard, nth_error hards i = Some hard -> avail_of hards d i = present (available_indices (words_of d i hard))) by (intros i hard E; unfold avail_of; rewrite (nth_error_nth _ _ 0 E); reflexivity).
    destruct (ti_segments _ Time) as [E1 | (ideal & max & T1 & T2 & T3 & T4 & T5 & T6 & T7)].
    - assert (NS : num_segments p = 1) by (rewrite num_of, E1; reflexivity). rewrite NS, N.eqb_refl.
      destruct (segment_lt p 0) as (g & Eg & Sg); [rewrite E1; cbn; lia |]. rewrite E1 in Sg. cbn [nth] in Sg. destruct (v_lookup 0 g Eg) as (rel & hard & Er & Eh & SI).
      pose proof (v_hard 0 hard Eh) as RH. change (20 * N.of_nat 0) with 0 in RH. rewrite N.add_0_r in RH. rewrite RH. cbn [bindo]. change (tier_samples (Some d) 0 hard) with (words_of d 0 hard).
      destruct (tk_samples _ _ TK 0%nat g hard Eg Eh) as (SO & Pf & Pl). rewrite <- Sg in Pl.
      destruct (seek_single_spec (words_of d 0 hard) n k0 k1 al SO) as (c0 & c1 & a & src0 & r0 & src1 & r1 & SE & C0 & C1 & LA & FA & AC & F0 & F1);
        [pose proof (vs_n _ _ _ _ _ SI); lia | exact Pf | exact Pl | exact NB | exact Fa | exact Ra |]. rewrite SE. cbn [bindo].
      exists 0%nat, 0%nat, c0, c1, a, g, g, hard, hard, src0, r0, src1, r1. rewrite <- Sg. repeat (split; [first [assumption | reflexivity] |]).
      exists g, k0, g, k1. rewrite <- Sg. repeat (split; [first [assumption | split; [exact Eg | split; [reflexivity | rewrite <- Sg; assumption]]] |]).
      rewrite (AV 0%nat hard Eh). split; [exact LA |]. split; [exact FA | exact AC].
    - assert (Hov : n / ideal * (max - ideal) < 2 ^ 32).
      { apply N.le_lt_trans with (n * 32); [| change (2 ^ 32) with 4294967296; lia]. apply N.mul_le_mono; [| lia]. apply N.div_le_upper_bound; [lia |]. apply N.le_trans with (1 * n); [lia |]. apply N.mul_le_mono_r. lia. }
      destruct (split_partition n ideal max) as (sizes' & P1 & _ & P3); [lia | change (2 ^ 32) with 4294967296; lia | change (2 ^ 32) with 4294967296; lia |].
      rewrite T6 in P1. injection P1 as <-. destruct (P3 T5) as (Psum & Pfa & Plen). clear P3.
      assert (NS : 1 < num_segments p) by (rewrite num_of; lia). rewrite (proj2 (N.eqb_neq (num_segments p) 1)) by lia. rewrite (v_starts NS T7). cbn [bindo].
      assert (W1 : k1 = 0 -> is_wrapping_supported ds = true) by (intros Z; destruct (Wr Z) as [Q | Q]; [lia | exact Q]).
      rewrite v_hards. cbn [bindo].
      destruct (seek_multi_spec (is_wrapping_supported ds) n ideal max (sizes_of p) (segments_samples (Some d) hards) k0 k1 al) as (s0 & s1 & x0 & x1 & f0 & f1 & c0 & c1 & a & src0 & r0 & src1 & r1 & SE & X0 & X1 & Q0 & L0 & Q1 & L1 & C0 & C1 & LA & FA & AC & F0 & F1).
      { lia. } { lia. } { exact T4. } { change (2 ^ 22) with 4194304. lia. } { exact T6. }
      { unfold segments_samples, sizes_of. rewrite !map_length, combine_length, seq_length, Nat.min_id. exact (proj2 (vw_lengths _ _ _ _ _ _ V)). }
      { intros i x E. destruct (segments_words d hards 0 i x E) as (hard & Eh & ->). assert (L : (i < length hards)%nat) by (apply nth_error_Some; congruence). rewrite (proj2 (vw_lengths _ _ _ _ _ _ V)) in L.
        destruct (nth_error (p_segments p) i) as [g |] eqn:Eg; [| apply nth_error_None in Eg; lia]. rewrite (size_nth p i g Eg). exact (tk_samples _ _ TK i g hard Eg Eh). }
      { exact NB. } { intros Z _. exact (W1 Z). } { intros Z _. exact (W1 Z). } { exact Fa. } { exact Ra. }
      destruct (segments_words d hards 0 s0 x0 X0) as (hard0 & Eh0 & ->). destruct (segments_words d hards 0 s1 x1 X1) as (hard1 & Eh1 & ->). rewrite !Nat.add_0_l in *.
      assert (LL : forall s hard, nth_error hards s = Some hard -> exists g, nth_error (p_segments p) s = Some g).
      { intros s hard E. assert (L : (s < length hards)%nat) by (apply nth_error_Some; congruence). rewrite (proj2 (vw_lengths _ _ _ _ _ _ V)) in L. destruct (nth_error (p_segments p) s) as [g |] eqn:Eg; [eauto | apply nth_error_None in Eg; lia]. }
      destruct (LL _ _ Eh0) as (h0 & E0). destruct (LL _ _ Eh1) as (h1 & E1).
      rewrite (size_nth p s0 h0 E0) in L0, C0. rewrite (size_nth p s1 h1 E1) in L1, C1. rewrite SE. cbn [bindo].
      exists s0, s1, c0, c1, a, h0, h1, hard0, hard1, src0, r0, src1, r1. repeat (split; [first [assumption | reflexivity] |]).
      exists h0, f0, h1, f1. split; [split; [exact E0 | split; assumption] |]. split; [split; [exact E1 | split; assumption] |]. split; [exact C0 |]. split; [exact C1 |]. rewrite (AV _ _ Eh0), (AV _ _ Eh1). split; [exact LA |]. split; [exact FA |]. exact AC.
  Qed.
End View.
