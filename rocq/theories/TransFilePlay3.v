(** Playing the finished buffer of a transform clip. *)
From Coq Require Import Lia Reals Lra.
From Verif Require Import Word WordFacts Pieces MemoryUtils MemoryFacts Float32 Float32Facts Quant Interp InterpFacts Headers HeadersFacts Packing PackSpec DbBuild ScalarDec ScalarSeekFacts ScalarPlay
  TransDec TransSpec TransRing TransMem TransConst TransAnim TransAnim2 TransPose TransPoseFacts TransSingle TransEnc TransEncSpec TransEncFacts TransEncAnim TransEncAnim2
  TransClipSpec TransClip TransClip2 TransFile TransFileSizes TransFileBytes TransFileFacts TransFileSegs TransFilePack TransFileMeta TransFilePlay TransFilePlay2 Strip Segment SegmentFacts SeekSpec SeekFacts TransSeek TransPlaySpec.
Import ListNotations.
Local Open Scope N_scope.
Ltac Zify.zify_post_hook ::= idtac.

(** ** From the layout to the contents *)
Lemma pose_written_shown w c rp f out g0 k0 g1 k1 events : same_formats f c -> c_rounding c = rp ->
  pose_written w c (subs (clip_subs out g0 k0 g1 k1 Rotation) (clip_subs out g0 k0 g1 k1 Translation) (clip_subs out g0 k0 g1 k1 Scale)) events ->
  pose_shown w rp f out g0 k0 g1 k1 events.
Proof.
  intros (F1 & F2 & F3 & F4 & F5) Rp [N D]. split; [exact N |]. intros ch i o. rewrite D.
  assert (E : subs (clip_subs out g0 k0 g1 k1 Rotation) (clip_subs out g0 k0 g1 k1 Translation) (clip_subs out g0 k0 g1 k1 Scale) ch = map (sub_of g0 k0 g1 k1 ch) out) by (destruct ch; reflexivity).
  rewrite E, nth_error_map. clear E D.
  assert (Q : forall x, written w c ch i (sub_of g0 k0 g1 k1 ch x) o <-> tw_skip w ch i = false /\ shown (in_pose f) w rp g0 k0 g1 k1 ch i x o).
  { intros x. unfold written, shown, sub_of. destruct (ct_default x ch); [tauto |]. destruct (ct_constant x ch); [tauto |].
    cbn [x0 x1 xclip]. assert (V : forall s l, sample_value c ch s l = in_pose f ch s l). { intros s l. unfold sample_value, in_pose, rotation_value. rewrite F1, F5. destruct ch; reflexivity. }
    rewrite !V. unfold track_policy, policy_of. rewrite Rp. tauto. }
  destruct (nth_error out (N.to_nat i)) as [x |]; cbn [option_map]; split; intros (s & E & W); try discriminate.
  - injection E as <-. exists x. split; [reflexivity |]. apply Q, W.
  - injection E as <-. exists (sub_of g0 k0 g1 k1 ch x). split; [reflexivity |]. apply Q, W.
Qed.
Lemma track_written_shown w c rp f out i g0 k0 g1 k1 events : same_formats f c -> c_rounding c = rp -> NoDup (map fst events) ->
  (forall ch j o, In (ch, j, o) events <-> j = i /\ exists x, nth_error (subs (clip_subs out g0 k0 g1 k1 Rotation) (clip_subs out g0 k0 g1 k1 Translation) (clip_subs out g0 k0 g1 k1 Scale) ch) (N.to_nat i) = Some x /\ written_alone w c ch i x o) ->
  track_shown w rp f out i g0 k0 g1 k1 events.
Proof.
  intros (F1 & F2 & F3 & F4 & F5) Rp N D. split; [exact N |]. intros ch j o. rewrite D.
  assert (E : subs (clip_subs out g0 k0 g1 k1 Rotation) (clip_subs out g0 k0 g1 k1 Translation) (clip_subs out g0 k0 g1 k1 Scale) ch = map (sub_of g0 k0 g1 k1 ch) out) by (destruct ch; reflexivity).
  rewrite E, nth_error_map. clear E D.
  assert (Q : forall x, written_alone w c ch i (sub_of g0 k0 g1 k1 ch x) o <-> shown (alone f) w rp g0 k0 g1 k1 ch i x o).
  { intros x. unfold written_alone, shown, sub_of, alone. destruct (ct_default x ch); [tauto |]. destruct (ct_constant x ch); [tauto |].
    cbn [x0 x1 xclip]. rewrite F5. unfold track_policy, policy_of. rewrite Rp. tauto. }
  destruct (nth_error out (N.to_nat i)) as [x |]; cbn [option_map]; split; intros (J & s & E & W); (split; [exact J |]); try discriminate.
  - injection E as <-. exists x. split; [reflexivity |]. apply Q, W.
  - injection E as <-. exists (sub_of g0 k0 g1 k1 ch x). split; [reflexivity |]. apply Q, W.
Qed.

Section Play.
  Context (p : tclip) (out : list content) (g0 : tsegment) (rest : list tsegment) (b0 : tbone).
  Hypothesis K : clip_ok p out g0 rest b0.
  Hypothesis Bits : bits_ok p.
  Hypothesis Some_tracks : out <> [].
  Hypothesis Time : clip_timing p.
  Notation f := (formats_of p).
  Notation F := (formats_size (formats_of p) out).
  Notation n := (p_num_samples p).
  Notation rate := (p_sample_rate p).
  Context (prefix m : list N).
  Hypothesis P : packed p out g0 prefix.
  Hypothesis Se : sealed prefix m.
  Notation S32 := (samples_32 p Time).
  Notation member := (read_member p out g0 rest b0 K S32 prefix m P Se).
  Notation found := (segment_found p out g0 rest b0 K S32 prefix m P Se).
  Context (ds : dsettings).

  (** ** The state of a context *)
  Record opened (c : pcontext) : Prop := {
    op_tracks : x_tracks c = m;
    op_db : x_db c = None;
    op_db_hash : x_db_hash c = 0;
    op_hash : h_hash m = Ok (x_hash c);
    op_duration : x_duration c = clip_finite_duration n rate (x_looping c);
    op_looping : is_wrapping_supported ds = false -> x_looping c = lp_clamp;
    op_rotation : x_rotation c = p_rotation p;
    op_translation : x_translation c = p_translation p;
    op_scale : x_scale c = p_scale p;
    op_has_scale : x_has_scale c = p_has_scale p;
    op_has_segments : x_has_segments c = (1 <? num_segments p)
  }.
  (** the key frame of the context is key frame [k] of segment [i] *)
  Definition frame_at (kf : key_frame) (i : nat) (k : N) : Prop :=
    exists g rel, nth_error (p_segments p) i = Some g /\ k < g_num_samples g /\ segment_in p out m i g rel /\ kf_range kf = ranges_at F (32 + rel) /\ (forall t, c_mem t = m -> key_frame_placed f out t kf (N.of_nat i) k).
  Record at_frames (c : pcontext) (i0 : nat) (c0 : N) (i1 : nat) (c1 : N) : Prop := {
    af_time : ffinite (x_time c) = true /\ (0 <= FR (x_time c))%R;
    af_kf0 : frame_at (x_kf0 c) i0 c0;
    af_kf1 : frame_at (x_kf1 c) i1 c1;
    af_single : x_single c = (i0 =? i1)%nat;
    af_range : i0 = i1 -> kf_range (x_kf1 c) = kf_range (x_kf0 c)
  }.

  Lemma misc_bits : exists misc, h_misc m = Ok misc /\ misc < 2 ^ 32 /\ get_rotation_format misc = rotation_format_code (p_rotation p) /\ get_translation_format misc = b2n (p_translation p) /\ get_scale_format misc = b2n (p_scale p) /\
    get_has_scale misc = b2n (p_has_scale p) /\ get_has_database misc = 0 /\ get_has_stripped_keyframes misc = b2n (p_stripped p) /\ get_is_wrap_optimized misc = p_wrap p.
  Proof.
    destruct (read_misc p out g0 rest b0 K Bits Some_tracks prefix m P Se) as (b & E). exists (set_has_metadata (header_bits p) (b2n b)). split; [exact E |]. exact (header_get p b Bits).
  Qed.
  Lemma tracks_read : h_num_tracks m = Ok (len out). Proof. exact (read_num_tracks p out g0 rest b0 K Some_tracks S32 prefix m P Se). Qed.
  Lemma samples_read : h_num_samples m = Ok n. Proof. exact (read_num_samples p out g0 rest b0 K Some_tracks S32 prefix m P Se). Qed.
  Lemma rate_read : h_sample_rate m = Ok rate. Proof. exact (read_rate p out g0 rest b0 K Some_tracks S32 prefix m P Se). Qed.
  Lemma version_read : h_version m = Ok 10. Proof. exact (read_version p out g0 rest b0 K S32 prefix m P Se). Qed.
  Lemma looping_read : clip_looping_policy m = Ok (if p_wrap p =? 0 then lp_clamp else lp_wrap).
  Proof. unfold clip_looping_policy. rewrite version_read. cbn [bindo]. change (10 <=? 7) with false. cbn iota. destruct misc_bits as (misc & E & _ & _ & _ & _ & _ & _ & _ & G). rewrite E. cbn [bindo]. rewrite G. reflexivity. Qed.
  Lemma duration_read lp : finite_duration m lp = Ok (clip_finite_duration n rate lp). Proof. unfold finite_duration. rewrite samples_read, rate_read. reflexivity. Qed.
  Lemma is_set_b2n b : is_set (b2n b) = b. Proof. destruct b; reflexivity. Qed.

  Lemma initialize_ok c0 : exists c, tinitialize ds c0 m None = Ok c /\ opened c /\ x_time c = f_minus_one /\ x_looping c = first_policy ds p.
  Proof.
    destruct misc_bits as (misc & E & _ & G1 & G2 & G3 & G4 & G5 & G6 & G7). destruct (se_hash _ _ Se) as (h & Eh).
    unfold tinitialize. rewrite E. cbn [bindo]. rewrite G1. assert (RF : rotation_format_of (rotation_format_code (p_rotation p)) = Ok (p_rotation p)) by (destruct (p_rotation p); reflexivity).
    rewrite RF. cbn [bindo]. rewrite Eh. cbn [bindo]. pose proof (member 0 _ eq_refl ltac:(discriminate) eq_refl) as M0. change (32 + 4 * 0) with transform_header in M0. rewrite M0. cbn [bindo].
    assert (LP : (if is_wrapping_supported ds then clip_looping_policy m else Ok lp_clamp) = Ok (first_policy ds p)). { unfold first_policy. destruct (is_wrapping_supported ds); [exact looping_read | reflexivity]. }
    rewrite LP. cbn [bindo]. rewrite duration_read. cbn [bindo]. eexists. split; [reflexivity |]. split; [| split; reflexivity].
    constructor; cbn; try reflexivity; try assumption.
    - intros W. unfold first_policy. rewrite W. reflexivity.
    - rewrite G2. apply is_set_b2n.
    - rewrite G3. apply is_set_b2n.
    - rewrite G4. apply is_set_b2n.
  Qed.
  Lemma relocated_ok c : opened c -> exists c', trelocated c m None = Ok (true, c') /\ opened c' /\ x_time c' = f_minus_one /\ x_looping c' = x_looping c.
  Proof.
    intros O. unfold trelocated. rewrite (op_hash _ O). cbn [bindo hash_of]. rewrite N.eqb_refl. cbn [negb]. rewrite (op_db_hash _ O). cbn. eexists. split; [reflexivity |]. split; [| split; reflexivity].
    destruct O. constructor; cbn; try assumption; reflexivity.
  Qed.
  Lemma looping_ok c policy : opened c -> exists c', tset_looping_policy ds c policy = Ok c' /\ opened c' /\ x_time c' = x_time c /\ x_rounding c' = x_rounding c /\ x_alpha c' = x_alpha c /\ x_kf0 c' = x_kf0 c /\ x_kf1 c' = x_kf1 c /\ x_single c' = x_single c.
  Proof.
    intros O. unfold tset_looping_policy. destruct (is_wrapping_supported ds) eqn:W; cbn [negb]; [| exists c; repeat split; try apply O; reflexivity].
    rewrite (op_tracks _ O). assert (Q : exists q, match policy with Some q => Ok q | None => clip_looping_policy m end = Ok q) by (destruct policy; [eauto | rewrite looping_read; eauto]).
    destruct Q as (q & ->). cbn [bindo]. destruct (lp_eqb (x_looping c) q); [exists c; repeat split; try apply O; reflexivity |]. rewrite duration_read. cbn [bindo]. eexists. split; [reflexivity |]. split; [| repeat split; reflexivity].
    destruct O. constructor; cbn; try assumption; try reflexivity. rewrite W. discriminate.
  Qed.

  Lemma duration_R c : opened c -> ffinite (x_duration c) = true /\ (0 <= FR (x_duration c))%R.
  Proof. intros O. rewrite (op_duration _ O). destruct (finite_duration_R n rate (x_looping c) (ti_samples _ Time) (ti_rate _ Time) (ti_sane _ Time)) as (A & _ & _ & B). split; [exact A | apply B]. Qed.
  Lemma sought_R c t : opened c -> time_ok ds (x_duration c) t -> ffinite (sought ds (x_duration c) t) = true /\ (0 <= FR (sought ds (x_duration c) t) <= FR (x_duration c))%R.
  Proof.
    intros O L. destruct (duration_R c O) as [D1 D2]. unfold sought. destruct L as [L | L]; [rewrite L; apply fclamp_any; assumption |]. destruct (clamp_sample_time ds); [apply fclamp_any; assumption | exact L].
  Qed.
  Lemma kf_found i g k : nth_error (p_segments p) i = Some g -> k < g_num_samples g -> kept_of p g k = true ->
    exists kf, key_frame_at m None false (p_stripped p) (headers_at p) (N.of_nat i, from_clip, kept_before (kept_of p g) k) = Ok kf /\ frame_at kf i k.
  Proof.
    intros E Hk Kp. destruct (found i g E) as (rel & SI). destruct (key_frame_read p out g0 rest b0 K Time prefix m P Se i g rel k SI Hk Kp) as (kf & A & B & C).
    exists kf. split; [exact A |]. exists g, rel. auto.
  Qed.
  Lemma header_rel i g r r' : segment_in p out m i g r -> segment_in p out m i g r' -> r = r'.
  Proof.
    intros A B. pose proof (si_header _ _ _ _ _ _ A) as HA. pose proof (si_header _ _ _ _ _ _ B) as HB. pose proof (si_rel _ _ _ _ _ _ A). pose proof (si_rel _ _ _ _ _ _ B).
    pose proof (read_word m _ _ 3 _ HA eq_refl ltac:(lia)) as RA. pose proof (read_word m _ _ 3 _ HB eq_refl ltac:(lia)) as RB. congruence.
  Qed.
  Lemma frame_range kf kf' i k k' : frame_at kf i k -> frame_at kf' i k' -> kf_range kf' = kf_range kf.
  Proof.
    intros (g & r & E & _ & SI & -> & _) (g' & r' & E' & _ & SI' & -> & _). rewrite E in E'. injection E' as <-. rewrite (header_rel i g r r' SI SI'). reflexivity.
  Qed.
  Lemma of_nat_eqb a b : (N.of_nat a =? N.of_nat b) = (a =? b)%nat.
  Proof. destruct (Nat.eqb_spec a b) as [-> | D]; [apply N.eqb_refl |]. apply N.eqb_neq. lia. Qed.

  Lemma seek_ok c t rp : opened c -> time_ok ds (x_duration c) t -> let tt := sought ds (x_duration c) t in
    exists c', tseek ds c t rp = Ok c' /\ opened c' /\ x_looping c' = x_looping c /\
      (feq (x_time c) tt && rp_eqb (x_rounding c) rp = true -> c' = c) /\
      (feq (x_time c) tt && rp_eqb (x_rounding c) rp = false -> x_time c' = tt /\ x_rounding c' = rp /\
        exists k0 k1 al i0 c0 i1 c1, find_linear_interpolation_samples_with_sample_rate n rate tt rp (x_looping c) = Ok (k0, k1, al) /\
          chosen p k0 k1 al i0 c0 i1 c1 (x_alpha c') /\ at_frames c' i0 c0 i1 c1).
  Proof.
    intros O TO tt. destruct (sought_R c t O TO) as [C1 C2]. fold tt in C1, C2. pose proof (op_tracks _ O) as OT. unfold tseek. rewrite OT, tracks_read. cbn [bindo].
    replace (len out =? 0) with false by (symmetry; destruct out; [congruence | reflexivity]). fold (sought ds (x_duration c) t). fold tt. clearbody tt. destruct (feq (x_time c) tt && rp_eqb (x_rounding c) rp).
    { exists c. split; [reflexivity |]. split; [exact O |]. split; [reflexivity |]. split; [reflexivity | discriminate]. }
    rewrite samples_read, rate_read. cbn [bindo].
    assert (LP : (if is_wrapping_supported ds then x_looping c else lp_clamp) = x_looping c) by (destruct (is_wrapping_supported ds) eqn:W; [reflexivity | symmetry; apply (op_looping _ O W)]).
    rewrite LP. rewrite (op_duration _ O) in C2.
    destruct (find_samples_spec n rate tt rp (x_looping c) (ti_samples _ Time) (ti_rate _ Time) (ti_sane _ Time) C1 C2) as (k0 & k1 & al & FE & A1 & A2 & B0 & B1 & BN & _).
    destruct (rounding_spec al rp A1) as (A3 & A4 & _); [lra |]. rewrite FE. cbn [bindo].
    assert (NB : neighbours n k0 k1 /\ (k1 = 0 -> n = 1 \/ is_wrapping_supported ds = true)).
    { destruct (x_looping c) eqn:EL.
      - destruct BN as [BN _]. split; [split; [exact B0 |]; split; [exact B1 |] | intros Z; left; lia].
        destruct (N.eq_dec k0 (n - 1)) as [E | E]; [right; left; lia | left; lia].
      - assert (W : is_wrapping_supported ds = true). { destruct (is_wrapping_supported ds) eqn:W; [reflexivity |]. rewrite (op_looping _ O W) in EL. discriminate. }
        split; [| intros _; right; exact W]. split; [exact B0 |]. split; [exact B1 |]. destruct BN as [[BN _] | (Z0 & Z1 & _)]; [| right; right; right; auto].
        destruct (N.eq_dec k0 (n - 1)) as [E | E].
        + right; right; left. split; [exact E |]. replace (k0 + 1) with n in BN by lia. rewrite N.mod_same in BN by lia. exact BN.
        + left. rewrite N.mod_small in BN by lia. exact BN. }
    destruct NB as [NB Wr].
    destruct misc_bits as (misc & -> & _ & _ & _ & _ & _ & G5 & G6 & _). cbn [bindo].
    pose proof (member 0 _ eq_refl ltac:(discriminate) eq_refl) as M0. change (32 + 4 * 0) with transform_header in M0. rewrite M0. cbn [bindo].
    pose proof (member 9 _ eq_refl ltac:(discriminate) eq_refl) as M9. change (32 + 4 * 9) with (transform_header + 36) in M9. rewrite M9. cbn [bindo]. cbv zeta.
    rewrite G5, G6, is_set_b2n. change (is_set 0) with false. cbn [orb]. rewrite (op_db _ O).
    pose proof (ats_le p out (g_bones g0)) as AL. replace (transform_header + (headers_at p - 32)) with (headers_at p) by (unfold transform_header; lia).
    destruct (keyframes_found p out g0 rest b0 K Time prefix m P Se ds k0 k1 _ NB Wr A3 A4) as (i0 & i1 & c0 & c1 & a & h0 & h1 & E0 & E1 & FK & L0 & Q0 & L1 & Q1 & CH).
    rewrite FK. cbn [bindo]. destruct (kf_found i0 h0 c0 E0 L0 Q0) as (kf0 & KE0 & KF0). destruct (kf_found i1 h1 c1 E1 L1 Q1) as (kf1 & KE1 & KF1). rewrite KE0. cbn [bindo]. rewrite KE1. cbn [bindo fst].
    eexists. split; [reflexivity |]. split; [destruct O; constructor; cbn; try assumption; reflexivity |]. split; [reflexivity |]. split; [discriminate |]. intros _. split; [reflexivity |]. split; [reflexivity |].
    exists k0, k1, (apply_rounding_policy al rp), i0, c0, i1, c1. split; [reflexivity |]. split; [exact CH |].
    constructor; cbn [x_time x_kf0 x_kf1 x_single].
    - split; [exact C1 | apply C2].
    - exact KF0.
    - exact KF1.
    - apply of_nat_eqb.
    - intros <-. apply (frame_range _ _ i0 c0 c1 KF0 KF1).
  Qed.

  (** ** Decompression *)
  Lemma range_padded : padded m (clip_ranges_at p out) (clip_ranges f out).
  Proof.
    pose proof (size_bounds p out g0 rest b0 K S32 prefix m P Se) as SB. pose proof (first_ok p out g0 rest b0 K) as FO. destruct (so_holds _ _ _ _ FO) as (l & O & H).
    apply (sealed_padded prefix m Se); [exact (pk_ranges _ _ _ _ P) | lia |]. unfold segments_at, clip_ranges_size in SB.
    destruct (is_range_reduced p) eqn:E0.
    - pose proof (clip_ranges_blen f _ l out (g_bones g0) _ H O) as LR. lia.
    - rewrite (no_clip_ranges p out E0). change (blen []) with 0. lia.
  Qed.
  Lemma context_ok c i0 c0 i1 c1 : opened c -> at_frames c i0 c0 i1 c1 ->
    exists tc, tcontext_of c = Ok tc /\ clip_placed f out tc (N.of_nat i0) c0 (N.of_nat i1) c1 /\ c_rounding tc = x_rounding c.
  Proof.
    intros O A. unfold tcontext_of. rewrite (op_tracks _ O), tracks_read. cbn [bindo]. rewrite version_read. cbn [bindo]. cbv zeta.
    pose proof (member 2 _ eq_refl ltac:(discriminate) eq_refl) as M2. change (32 + 4 * 2) with (transform_header + 8) in M2. rewrite M2. cbn [bindo].
    pose proof (member 3 _ eq_refl ltac:(discriminate) eq_refl) as M3. change (32 + 4 * 3) with (transform_header + 12) in M3. rewrite M3. cbn [bindo].
    pose proof (member 4 _ eq_refl ltac:(discriminate) eq_refl) as M4. change (32 + 4 * 4) with (transform_header + 16) in M4. rewrite M4. cbn [bindo].
    pose proof (member 5 _ eq_refl ltac:(discriminate) eq_refl) as M5. change (32 + 4 * 5) with (transform_header + 20) in M5. rewrite M5. cbn [bindo].
    pose proof (member 6 _ eq_refl ltac:(discriminate) eq_refl) as M6. change (32 + 4 * 6) with (transform_header + 24) in M6. rewrite M6. cbn [bindo].
    pose proof (member 10 _ eq_refl ltac:(discriminate) eq_refl) as M10. change (32 + 4 * 10) with (transform_header + 40) in M10. rewrite M10. cbn [bindo].
    pose proof (member 11 _ eq_refl ltac:(discriminate) eq_refl) as M11. change (32 + 4 * 11) with (transform_header + 44) in M11. rewrite M11. cbn [bindo].
    pose proof (member 12 _ eq_refl ltac:(discriminate) eq_refl) as M12. change (32 + 4 * 12) with (transform_header + 48) in M12. rewrite M12. cbn [bindo].
    clear M2 M3 M4 M5 M6 M10 M11 M12.
    eexists. split; [reflexivity |]. split; [| reflexivity].
    pose proof (size_bounds p out g0 rest b0 K S32 prefix m P Se) as SB. pose proof (ats_le p out (g_bones g0)) as AL.
    pose proof (first_ok p out g0 rest b0 K) as FO. destruct (so_holds _ _ _ _ FO) as (l & OU & H). pose proof (small_out p out g0 rest b0 K) as SO.
    destruct (af_kf0 _ _ _ _ _ A) as (h0 & r0 & E0 & L0 & SI0 & RG0 & KP0). destruct (af_kf1 _ _ _ _ _ A) as (h1 & r1 & E1 & L1 & SI1 & RG1 & KP1).
    constructor; cbn [c_mem c_num_tracks c_types c_constants c_clip_range c_num_const_rotations c_num_const_translations c_num_anim_rotations c_num_anim_translations c_num_anim_scales c_rotation_format c_translation_variable c_scale_variable c_has_scale c_has_segments c_single_segment c_version c_rounding c_kf0 c_kf1]; try reflexivity.
    - unfold same_formats. cbn. rewrite (op_rotation _ O), (op_translation _ O), (op_scale _ O), (op_has_scale _ O), (op_has_segments _ O). repeat split; reflexivity.
    - discriminate.
    - exact SO.
    - replace (transform_header + (types_at p - 32)) with (types_at p) by (unfold transform_header; lia). apply (sealed_placed prefix m Se); [exact (pk_types _ _ _ _ P) | left; lia].
    - replace (transform_header + (constants_at p out - 32)) with (constants_at p out) by (unfold transform_header; lia). apply (sealed_padded prefix m Se); [exact (pk_constants _ _ _ _ P) | lia |].
      rewrite (clip_constants_blen f _ l out H). fold (clip_ranges_at p out). lia.
    - replace (transform_header + (clip_ranges_at p out - 32)) with (clip_ranges_at p out) by (unfold transform_header; lia). exact range_padded.
    - apply KP0. reflexivity.
    - apply KP1. reflexivity.
    - rewrite (af_single _ _ _ _ _ A). intros E. apply Nat.eqb_eq in E. exact (af_range _ _ _ _ _ A E).
  Qed.
  Lemma frame_holds kf i k : frame_at kf i k -> exists l cnt, Forall2 (bone_holds f (N.of_nat i) cnt) l out /\ k < cnt.
  Proof. intros (g & r & E & Hk & SI & _). destruct (so_holds _ _ _ _ (si_ok _ _ _ _ _ _ SI)) as (l & _ & H). exists l, (g_num_samples g). split; assumption. Qed.

  Lemma layout_at c i0 c0 i1 c1 : opened c -> at_frames c i0 c0 i1 c1 -> exists tc, tcontext_of c = Ok tc /\ c_rounding tc = x_rounding c /\ same_formats f tc /\ c_num_tracks tc = len out /\
    clip_layout tc (clip_subs out (N.of_nat i0) c0 (N.of_nat i1) c1 Rotation) (clip_subs out (N.of_nat i0) c0 (N.of_nat i1) c1 Translation) (clip_subs out (N.of_nat i0) c0 (N.of_nat i1) c1 Scale).
  Proof.
    intros O A. destruct (context_ok c i0 c0 i1 c1 O A) as (tc & E & CP & Rp). exists tc. split; [exact E |]. split; [exact Rp |]. split; [exact (cp_formats _ _ _ _ _ _ _ CP) |]. split; [exact (cp_num _ _ _ _ _ _ _ CP) |].
    destruct (so_holds _ _ _ _ (first_ok p out g0 rest b0 K)) as (lz & _ & Hz). destruct (frame_holds _ _ _ (af_kf0 _ _ _ _ _ A)) as (l0 & n0 & H0 & K0). destruct (frame_holds _ _ _ (af_kf1 _ _ _ _ _ A)) as (l1 & n1 & H1 & K1).
    exact (clip_placed_layout f out tc n0 n1 _ lz l0 l1 _ _ _ _ CP Hz H0 H1 K0 K1).
  Qed.
  Lemma time_positive c i0 c0 i1 c1 : at_frames c i0 c0 i1 c1 -> flt (x_time c) f_zero = false.
  Proof. intros A. destruct (af_time _ _ _ _ _ A) as [T1 T2]. apply flt_Rf; [exact T1 | reflexivity |]. rewrite f_zero_R. exact T2. Qed.
  Lemma out_nonzero : len out =? 0 = false. Proof. destruct out; [congruence | reflexivity]. Qed.
  Lemma play_ok w c i0 c0 i1 c1 : opened c -> at_frames c i0 c0 i1 c1 ->
    exists events, play_tracks w c = Ok events /\ pose_shown w (x_rounding c) f out (N.of_nat i0) c0 (N.of_nat i1) c1 events.
  Proof.
    intros O A. unfold play_tracks. rewrite (op_tracks _ O), tracks_read. cbn [bindo]. rewrite out_nonzero, (time_positive c _ _ _ _ A).
    destruct (layout_at c i0 c0 i1 c1 O A) as (tc & E & Rp & SF & _ & CL). rewrite E. cbn [bindo]. destruct (decompress_tracks_pose w tc _ _ _ CL) as (events & D & PW). exists events. split; [exact D |].
    exact (pose_written_shown w tc (x_rounding c) f out _ _ _ _ events SF Rp PW).
  Qed.
  Lemma play_track_ok w c i i0 c0 i1 c1 : opened c -> at_frames c i0 c0 i1 c1 -> i < len out ->
    exists events, play_track w c i = Ok events /\ track_shown w (x_rounding c) f out i (N.of_nat i0) c0 (N.of_nat i1) c1 events.
  Proof.
    intros O A Hi. unfold play_track. rewrite (op_tracks _ O), tracks_read. cbn [bindo]. rewrite out_nonzero, (time_positive c _ _ _ _ A), (proj2 (N.leb_gt _ _) Hi).
    destruct (layout_at c i0 c0 i1 c1 O A) as (tc & E & Rp & SF & NT & CL). rewrite E. cbn [bindo]. rewrite <- NT in Hi. destruct (decompress_track_written w tc _ _ _ i CL Hi) as (events & D & ND & IN). exists events. split; [exact D |].
    exact (track_written_shown w tc (x_rounding c) f out i _ _ _ _ events SF Rp ND IN).
  Qed.
End Play.
