(** Using a context on the buffer of a clip that is bound to a database. *)
From Coq Require Import Lia Reals Lra.
From Verif Require Import Word WordFacts Pieces MemoryUtils MemoryFacts Float32 Float32Facts Quant Interp InterpFacts Headers HeadersFacts Packing PackSpec DbBuild ScalarDec ScalarSeekFacts ScalarPlay
  TransDec TransSpec TransRing TransMem TransConst TransAnim TransAnim2 TransPose TransPoseFacts TransSingle TransEnc TransEncSpec TransEncFacts TransEncAnim TransEncAnim2
  TransClipSpec TransClip TransClip2 TransFile TransFileSizes TransFileBytes TransFileFacts TransFileSegs TransFilePack TransFileMeta TransFilePlay TransFilePlay2 TransFilePlay3 Strip Segment SegmentFacts SeekSpec SeekFacts TransSeek TransPlaySpec TransTop BindSpec TransView.
Import ListNotations.
Local Open Scope N_scope.
Ltac Zify.zify_post_hook ::= idtac.

Section Play.
  Context (p : tclip) (out : list content) (m : list N) (hd ty co ra : N) (rels hards : list N).
  Hypothesis V : view p out m hd ty co ra rels hards.
  Notation f := (formats_of p).
  Notation F := (formats_size (formats_of p) out).
  Notation n := (p_num_samples p).
  Notation rate := (p_sample_rate p).
  Notation Time := (vw_timing _ _ _ _ _ _ _ _ _ V).
  Context (ds : dsettings) (hash : N).

  Record bopened (c : pcontext) : Prop := {
    bo_tracks : x_tracks c = m;
    bo_db_hash : x_db_hash c = hash;
    bo_hash : h_hash m = Ok (x_hash c);
    bo_duration : x_duration c = clip_finite_duration n rate (x_looping c);
    bo_looping : is_wrapping_supported ds = false -> x_looping c = lp_clamp;
    bo_rotation : x_rotation c = p_rotation p;
    bo_translation : x_translation c = p_translation p;
    bo_scale : x_scale c = p_scale p;
    bo_has_scale : x_has_scale c = p_has_scale p;
    bo_has_segments : x_has_segments c = (1 <? num_segments p)
  }.
  Definition bframe_at (kf : key_frame) (i : nat) (k : N) : Prop :=
    exists g rel hard, nth_error (p_segments p) i = Some g /\ k < g_num_samples g /\ nth_error rels i = Some rel /\ view_segment p out m hd i g rel hard /\ kf_range kf = ranges_at F (32 + rel) /\
      (forall t, c_mem t = m -> key_frame_placed f out t kf (N.of_nat i) k).
  Record bat_frames (c : pcontext) (i0 : nat) (c0 : N) (i1 : nat) (c1 : N) : Prop := {
    ba_time : ffinite (x_time c) = true /\ (0 <= FR (x_time c))%R;
    ba_kf0 : bframe_at (x_kf0 c) i0 c0;
    ba_kf1 : bframe_at (x_kf1 c) i1 c1;
    ba_single : x_single c = (i0 =? i1)%nat;
    ba_range : i0 = i1 -> kf_range (x_kf1 c) = kf_range (x_kf0 c)
  }.
  Lemma bopened_db c d : bopened c -> bopened (with_db c d). Proof. intros []. constructor; assumption. Qed.

  Lemma b_looping : clip_looping_policy m = Ok (if p_wrap p =? 0 then lp_clamp else lp_wrap).
  Proof.
    unfold clip_looping_policy. rewrite (vw_version _ _ _ _ _ _ _ _ _ V). cbn [bindo]. change (10 <=? 7) with false. cbn iota.
    destruct (vw_misc _ _ _ _ _ _ _ _ _ V) as (misc & E & _ & _ & _ & _ & _ & G). rewrite E. cbn [bindo]. rewrite G. reflexivity.
  Qed.
  Lemma b_duration lp : finite_duration m lp = Ok (clip_finite_duration n rate lp).
  Proof. unfold finite_duration. rewrite (vw_samples _ _ _ _ _ _ _ _ _ V). cbn [bindo]. rewrite (vw_rate _ _ _ _ _ _ _ _ _ V). reflexivity. Qed.
  Lemma b_is_set b : is_set (b2n b) = b. Proof. destruct b; reflexivity. Qed.

  Lemma b_initialize c0 d : t_hash d = hash -> exists c, tinitialize ds c0 m (Some d) = Ok c /\ bopened c /\ x_time c = f_minus_one /\ x_looping c = first_policy ds p.
  Proof.
    intros TH. destruct (vw_misc _ _ _ _ _ _ _ _ _ V) as (misc & E & G1 & G2 & G3 & G4 & G5 & G6). destruct (vw_hash _ _ _ _ _ _ _ _ _ V) as (h & Eh).
    unfold tinitialize. rewrite E. cbn [bindo]. rewrite G1. assert (RF : rotation_format_of (rotation_format_code (p_rotation p)) = Ok (p_rotation p)) by (destruct (p_rotation p); reflexivity).
    rewrite RF. cbn [bindo]. rewrite Eh. cbn [bindo]. change transform_header with 32. rewrite (v_num _ _ _ _ _ _ _ _ _ V). cbn [bindo].
    assert (LP : (if is_wrapping_supported ds then clip_looping_policy m else Ok lp_clamp) = Ok (first_policy ds p)). { unfold first_policy. destruct (is_wrapping_supported ds); [exact b_looping | reflexivity]. }
    rewrite LP. cbn [bindo]. rewrite b_duration. cbn [bindo]. eexists. split; [reflexivity |]. split; [| split; reflexivity].
    constructor; cbn; try reflexivity; try assumption.
    - intros W. unfold first_policy. rewrite W. reflexivity.
    - rewrite G2. apply b_is_set.
    - rewrite G3. apply b_is_set.
    - rewrite G4. apply b_is_set.
  Qed.
  Lemma b_relocated c d : bopened c -> t_hash d = hash -> exists c', trelocated c m (Some d) = Ok (true, c') /\ bopened c' /\ x_time c' = f_minus_one /\ x_looping c' = x_looping c.
  Proof.
    intros O TH. unfold trelocated. rewrite (bo_hash _ O). cbn [bindo hash_of]. rewrite N.eqb_refl. cbn [negb]. rewrite (bo_db_hash _ O), TH, N.eqb_refl. cbn. eexists. split; [reflexivity |]. split; [| split; reflexivity].
    destruct O. constructor; cbn; try assumption; reflexivity.
  Qed.
  Lemma b_set_looping c policy : bopened c -> exists c', tset_looping_policy ds c policy = Ok c' /\ bopened c' /\ x_time c' = x_time c /\ x_rounding c' = x_rounding c /\ x_alpha c' = x_alpha c /\ x_kf0 c' = x_kf0 c /\ x_kf1 c' = x_kf1 c /\ x_single c' = x_single c /\
    x_looping c' = if is_wrapping_supported ds then match policy with Some q => q | None => if p_wrap p =? 0 then lp_clamp else lp_wrap end else x_looping c.
  Proof.
    intros O. unfold tset_looping_policy. destruct (is_wrapping_supported ds) eqn:W; cbn [negb]; [| exists c; repeat split; try apply O; reflexivity].
    rewrite (bo_tracks _ O). set (q := match policy with Some q => q | None => if p_wrap p =? 0 then lp_clamp else lp_wrap end).
    assert (Q : match policy with Some q => Ok q | None => clip_looping_policy m end = Ok q) by (destruct policy; [reflexivity | exact b_looping]).
    rewrite Q. cbn [bindo]. destruct (lp_eqb (x_looping c) q) eqn:EL; [exists c; repeat split; try apply O; try reflexivity; apply lp_eqb_eq, EL |]. rewrite b_duration. cbn [bindo]. eexists. split; [reflexivity |]. split; [| repeat split; reflexivity].
    destruct O. constructor; cbn; try assumption; try reflexivity. rewrite W. discriminate.
  Qed.
  Lemma b_duration_R c : bopened c -> ffinite (x_duration c) = true /\ (0 <= FR (x_duration c))%R.
  Proof. intros O. rewrite (bo_duration _ O). destruct (finite_duration_R n rate (x_looping c) (ti_samples _ Time) (ti_rate _ Time) (ti_sane _ Time)) as (A & _ & _ & B). split; [exact A | apply B]. Qed.
  Lemma b_sought_R c t : bopened c -> time_ok ds (x_duration c) t -> ffinite (sought ds (x_duration c) t) = true /\ (0 <= FR (sought ds (x_duration c) t) <= FR (x_duration c))%R.
  Proof.
    intros O L. destruct (b_duration_R c O) as [D1 D2]. unfold sought. destruct L as [L | L]; [rewrite L; apply fclamp_any; assumption |]. destruct (clamp_sample_time ds); [apply fclamp_any; assumption | exact L].
  Qed.
  Lemma b_time_ok c t rp : bopened c -> legal ds p (call_seek t rp) -> time_ok ds (x_duration c) t.
  Proof.
    intros O [L | [FF [L1 L2]]]; [left; exact L | right]. split; [exact FF |]. split; [exact L1 |]. eapply Rle_trans; [exact L2 |]. rewrite (bo_duration _ O).
    pose proof (ti_samples _ Time). rewrite !duration_eq by (try apply Time; assumption). apply fdiv_mono; try apply Time; destruct (x_looping c); lia.
  Qed.
  Lemma b_range kf kf' i k k' : bframe_at kf i k -> bframe_at kf' i k' -> kf_range kf' = kf_range kf.
  Proof. intros (g & r & h & _ & _ & E & _ & -> & _) (g' & r' & h' & _ & _ & E' & _ & -> & _). rewrite E in E'. injection E' as <-. reflexivity. Qed.
  Lemma b_kf d i g hard k src r : tiers_ok p out hards d -> nth_error (p_segments p) i = Some g -> nth_error hards i = Some hard -> k < g_num_samples g -> found_in (words_of d i hard) k src r ->
    exists kf, key_frame_at m (Some d) true true hd (N.of_nat i, src, r) = Ok kf /\ bframe_at kf i k.
  Proof.
    intros TK Eg Eh Hk FI. destruct (v_lookup _ _ _ _ _ _ _ _ _ V i g Eg) as (rel & hard' & Er & Eh' & SI). rewrite Eh in Eh'. injection Eh' as <-.
    destruct (v_key_frame _ _ _ _ _ _ _ _ _ V d i g rel hard k src r TK Eg Eh SI FI) as (kf & A & B & C). exists kf. split; [exact A |]. exists g, rel, hard. auto 6.
  Qed.

  Lemma b_seek c d t rp : bopened c -> tiers_ok p out hards d -> time_ok ds (x_duration c) t -> let tt := sought ds (x_duration c) t in
    exists c', tseek ds (with_db c d) t rp = Ok c' /\ bopened c' /\ x_looping c' = x_looping c /\
      (feq (x_time c) tt && rp_eqb (x_rounding c) rp = true -> c' = with_db c d) /\
      (feq (x_time c) tt && rp_eqb (x_rounding c) rp = false -> x_time c' = tt /\ x_rounding c' = rp /\
        exists k0 k1 al i0 c0 i1 c1, find_linear_interpolation_samples_with_sample_rate n rate tt rp (x_looping c) = Ok (k0, k1, al) /\
          chosen_among p (avail_of hards d) k0 k1 al i0 c0 i1 c1 (x_alpha c') /\ bat_frames c' i0 c0 i1 c1).
  Proof.
    intros O TK TO tt. destruct (b_sought_R c t O TO) as [C1 C2]. fold tt in C1, C2. pose proof (bo_tracks _ O) as OT. unfold tseek, with_db; cbn [x_tracks x_time x_rounding x_duration x_looping x_db]. rewrite OT, (vw_tracks _ _ _ _ _ _ _ _ _ V). cbn [bindo].
    rewrite (nonempty_len out (vw_some _ _ _ _ _ _ _ _ _ V)). fold (sought ds (x_duration c) t). fold tt. clearbody tt. destruct (feq (x_time c) tt && rp_eqb (x_rounding c) rp).
    { eexists. split; [reflexivity |]. rewrite <- OT. split; [rewrite OT; destruct O; constructor; cbn; assumption || reflexivity |]. split; [reflexivity |]. split; [reflexivity | discriminate]. }
    rewrite (vw_samples _ _ _ _ _ _ _ _ _ V), (vw_rate _ _ _ _ _ _ _ _ _ V). cbn [bindo].
    assert (LP : (if is_wrapping_supported ds then x_looping c else lp_clamp) = x_looping c) by (destruct (is_wrapping_supported ds) eqn:W; [reflexivity | symmetry; apply (bo_looping _ O W)]).
    rewrite LP. rewrite (bo_duration _ O) in C2.
    destruct (find_samples_spec n rate tt rp (x_looping c) (ti_samples _ Time) (ti_rate _ Time) (ti_sane _ Time) C1 C2) as (k0 & k1 & al & FE & A1 & A2 & B0 & B1 & BN & _).
    destruct (rounding_spec al rp A1) as (A3 & A4 & _); [lra |]. rewrite FE. cbn [bindo].
    assert (NB : neighbours n k0 k1 /\ (k1 = 0 -> n = 1 \/ is_wrapping_supported ds = true)).
    { destruct (x_looping c) eqn:EL.
      - destruct BN as [BN _]. split; [split; [exact B0 |]; split; [exact B1 |] | intros Z; left; lia].
        destruct (N.eq_dec k0 (n - 1)) as [E | E]; [right; left; lia | left; lia].
      - assert (W : is_wrapping_supported ds = true). { destruct (is_wrapping_supported ds) eqn:W; [reflexivity |]. rewrite (bo_looping _ O W) in EL. discriminate. }
        split; [| intros _; right; exact W]. split; [exact B0 |]. split; [exact B1 |]. destruct BN as [[BN _] | (Z0 & Z1 & _)]; [| right; right; right; auto].
        destruct (N.eq_dec k0 (n - 1)) as [E | E].
        + right; right; left. split; [exact E |]. replace (k0 + 1) with n in BN by lia. rewrite N.mod_same in BN by lia. exact BN.
        + left. rewrite N.mod_small in BN by lia. exact BN. }
    destruct NB as [NB Wr].
    destruct (vw_misc _ _ _ _ _ _ _ _ _ V) as (misc & -> & _ & _ & _ & _ & G5 & _). cbn [bindo].
    change transform_header with 32. rewrite (v_num _ _ _ _ _ _ _ _ _ V). cbn [bindo]. destruct (vw_offsets _ _ _ _ _ _ _ _ _ V) as (M9 & _ & _ & _ & LH & _). change (32 + 36) with 68. rewrite M9. cbn [bindo]. cbv zeta.
    rewrite G5. change (is_set 1) with true. cbn [orb]. replace (32 + (hd - 32)) with hd by lia.
    destruct (v_found _ _ _ _ _ _ _ _ _ V d ds k0 k1 _ TK NB Wr A3 A4) as (i0 & i1 & c0 & c1 & a & h0 & h1 & x0 & x1 & src0 & r0 & src1 & r1 & E0 & E1 & X0 & X1 & FK & L0 & Q0 & L1 & Q1 & CH).
    rewrite FK. cbn [bindo]. destruct (b_kf d i0 h0 x0 c0 src0 r0 TK E0 X0 L0 Q0) as (kf0 & KE0 & KF0). destruct (b_kf d i1 h1 x1 c1 src1 r1 TK E1 X1 L1 Q1) as (kf1 & KE1 & KF1). rewrite KE0. cbn [bindo]. rewrite KE1. cbn [bindo fst].
    eexists. split; [reflexivity |]. split; [destruct O; constructor; cbn; try assumption; reflexivity |]. split; [reflexivity |]. split; [discriminate |]. intros _. split; [reflexivity |]. split; [reflexivity |].
    exists k0, k1, (apply_rounding_policy al rp), i0, c0, i1, c1. split; [reflexivity |]. split; [exact CH |].
    constructor; cbn [x_time x_kf0 x_kf1 x_single].
    - split; [exact C1 | apply C2].
    - exact KF0.
    - exact KF1.
    - apply of_nat_eqb.
    - intros <-. apply (b_range _ _ i0 c0 c1 KF0 KF1).
  Qed.

  (** ** Decompression *)
  Lemma b_context c i0 c0 i1 c1 : bopened c -> bat_frames c i0 c0 i1 c1 ->
    exists tc, tcontext_of c = Ok tc /\ clip_placed f out tc (N.of_nat i0) c0 (N.of_nat i1) c1 /\ c_rounding tc = x_rounding c.
  Proof.
    intros O A. unfold tcontext_of. rewrite (bo_tracks _ O), (vw_tracks _ _ _ _ _ _ _ _ _ V). cbn [bindo]. rewrite (vw_version _ _ _ _ _ _ _ _ _ V). cbn [bindo]. cbv zeta. change transform_header with 32.
    pose proof (v_member _ _ _ _ _ _ _ _ _ V) as MB. destruct (vw_offsets _ _ _ _ _ _ _ _ _ V) as (_ & M10 & M11 & M12 & L0 & L1 & L2 & L3).
    change (32 + 8) with (32 + 4 * 2). rewrite (MB 2 _ ltac:(discriminate) eq_refl). cbn [bindo]. change (32 + 12) with (32 + 4 * 3). rewrite (MB 3 _ ltac:(discriminate) eq_refl). cbn [bindo].
    change (32 + 16) with (32 + 4 * 4). rewrite (MB 4 _ ltac:(discriminate) eq_refl). cbn [bindo]. change (32 + 20) with (32 + 4 * 5). rewrite (MB 5 _ ltac:(discriminate) eq_refl). cbn [bindo].
    change (32 + 24) with (32 + 4 * 6). rewrite (MB 6 _ ltac:(discriminate) eq_refl). cbn [bindo].
    change (32 + 40) with 72. rewrite M10. cbn [bindo]. change (32 + 44) with 76. rewrite M11. cbn [bindo]. change (32 + 48) with 80. rewrite M12. cbn [bindo]. clear MB M10 M11 M12.
    eexists. split; [reflexivity |]. split; [| reflexivity].
    destruct (ba_kf0 _ _ _ _ _ A) as (h0 & r0 & y0 & E0 & K0 & Z0 & SI0 & RG0 & KP0). destruct (ba_kf1 _ _ _ _ _ A) as (h1 & r1 & y1 & E1 & K1 & Z1 & SI1 & RG1 & KP1).
    constructor; cbn [c_mem c_num_tracks c_types c_constants c_clip_range c_num_const_rotations c_num_const_translations c_num_anim_rotations c_num_anim_translations c_num_anim_scales c_rotation_format c_translation_variable c_scale_variable c_has_scale c_has_segments c_single_segment c_version c_rounding c_kf0 c_kf1]; try reflexivity.
    - unfold same_formats. cbn. rewrite (bo_rotation _ O), (bo_translation _ O), (bo_scale _ O), (bo_has_scale _ O), (bo_has_segments _ O). repeat split; reflexivity.
    - discriminate.
    - exact (proj1 (vw_small _ _ _ _ _ _ _ _ _ V)).
    - replace (32 + (ty - 32)) with ty by lia. exact (vw_types _ _ _ _ _ _ _ _ _ V).
    - replace (32 + (co - 32)) with co by lia. exact (vw_constants _ _ _ _ _ _ _ _ _ V).
    - replace (32 + (ra - 32)) with ra by lia. exact (vw_ranges _ _ _ _ _ _ _ _ _ V).
    - apply KP0. reflexivity.
    - apply KP1. reflexivity.
    - rewrite (ba_single _ _ _ _ _ A). intros E. apply Nat.eqb_eq in E. exact (ba_range _ _ _ _ _ A E).
  Qed.
  Lemma b_holds kf i k : bframe_at kf i k -> exists l cnt, Forall2 (bone_holds f (N.of_nat i) cnt) l out /\ k < cnt.
  Proof. intros (g & r & h & E & Hk & _ & SI & _). destruct (so_holds _ _ _ _ (vs_ok _ _ _ _ _ _ _ _ SI)) as (l & _ & H). exists l, (g_num_samples g). split; assumption. Qed.
  Lemma b_first : exists l cnt, Forall2 (bone_holds f 0 cnt) l out.
  Proof.
    destruct (p_segments p) as [| g gs] eqn:E.
    - exfalso. pose proof (ti_samples _ Time) as TS. destruct (ti_segments _ Time) as [Q | (ideal & max & T1 & T2 & T3 & T4 & T5 & T6 & T7)]; [unfold sizes_of in Q; rewrite E in Q; discriminate |].
      assert (Z : sizes_of p = []) by (unfold sizes_of; rewrite E; reflexivity). change (2 ^ 22 - 2) with 4194302 in TS.
      assert (Hov : n / ideal * (max - ideal) < 2 ^ 32).
      { apply N.le_lt_trans with (n * 32); [| change (2 ^ 32) with 4294967296; lia]. apply N.mul_le_mono; [| lia]. apply N.div_le_upper_bound; [lia |]. apply N.le_trans with (1 * n); [lia |]. apply N.mul_le_mono_r. lia. }
      destruct (split_partition n ideal max) as (sizes' & P1 & _ & P3); [lia | change (2 ^ 32) with 4294967296; lia | change (2 ^ 32) with 4294967296; lia |].
      rewrite T6 in P1. injection P1 as <-. destruct (P3 T5) as (_ & _ & PL). rewrite Z in PL. cbn in PL. lia.
    - destruct (v_lookup _ _ _ _ _ _ _ _ _ V 0 g) as (rel & hard & _ & _ & SI); [rewrite E; reflexivity |]. destruct (so_holds _ _ _ _ (vs_ok _ _ _ _ _ _ _ _ SI)) as (l & _ & H). exists l, (g_num_samples g). exact H.
  Qed.
  Lemma b_layout c i0 c0 i1 c1 : bopened c -> bat_frames c i0 c0 i1 c1 -> exists tc, tcontext_of c = Ok tc /\ c_rounding tc = x_rounding c /\ same_formats f tc /\ c_num_tracks tc = len out /\
    clip_layout tc (clip_subs out (N.of_nat i0) c0 (N.of_nat i1) c1 Rotation) (clip_subs out (N.of_nat i0) c0 (N.of_nat i1) c1 Translation) (clip_subs out (N.of_nat i0) c0 (N.of_nat i1) c1 Scale).
  Proof.
    intros O A. destruct (b_context c i0 c0 i1 c1 O A) as (tc & E & CP & Rp). exists tc. split; [exact E |]. split; [exact Rp |]. split; [exact (cp_formats _ _ _ _ _ _ _ CP) |]. split; [exact (cp_num _ _ _ _ _ _ _ CP) |].
    destruct b_first as (lz & nz & Hz). destruct (b_holds _ _ _ (ba_kf0 _ _ _ _ _ A)) as (l0 & n0 & H0 & K0). destruct (b_holds _ _ _ (ba_kf1 _ _ _ _ _ A)) as (l1 & n1 & H1 & K1).
    exact (clip_placed_layout f out tc n0 n1 _ lz l0 l1 _ _ _ _ CP Hz H0 H1 K0 K1).
  Qed.
  Lemma b_positive c i0 c0 i1 c1 : bat_frames c i0 c0 i1 c1 -> flt (x_time c) f_zero = false.
  Proof. intros A. destruct (ba_time _ _ _ _ _ A) as [T1 T2]. apply flt_Rf; [exact T1 | reflexivity |]. rewrite f_zero_R. exact T2. Qed.
  Lemma b_plays c i0 c0 i1 c1 : bopened c -> bat_frames c i0 c0 i1 c1 -> plays p out (x_rounding c) i0 c0 i1 c1 c.
  Proof.
    intros O A w. split; [| split].
    - unfold play_tracks. rewrite (bo_tracks _ O), (vw_tracks _ _ _ _ _ _ _ _ _ V). cbn [bindo]. rewrite (nonempty_len out (vw_some _ _ _ _ _ _ _ _ _ V)), (b_positive c _ _ _ _ A).
      destruct (b_layout c i0 c0 i1 c1 O A) as (tc & E & Rp & SF & _ & CL). rewrite E. cbn [bindo]. destruct (decompress_tracks_pose w tc _ _ _ CL) as (events & D & PW). exists events. split; [exact D |].
      exact (pose_written_shown w tc (x_rounding c) f out _ _ _ _ events SF Rp PW).
    - intros i Hi. unfold play_track. rewrite (bo_tracks _ O), (vw_tracks _ _ _ _ _ _ _ _ _ V). cbn [bindo]. rewrite (nonempty_len out (vw_some _ _ _ _ _ _ _ _ _ V)), (b_positive c _ _ _ _ A), (proj2 (N.leb_gt _ _) Hi).
      destruct (b_layout c i0 c0 i1 c1 O A) as (tc & E & Rp & SF & NT & CL). rewrite E. cbn [bindo]. rewrite <- NT in Hi. destruct (decompress_track_written w tc _ _ _ i CL Hi) as (events & D & ND & IN). exists events. split; [exact D |].
      exact (track_written_shown w tc (x_rounding c) f out i _ _ _ _ events SF Rp ND IN).
    - intros i Hi. unfold play_track. rewrite (bo_tracks _ O), (vw_tracks _ _ _ _ _ _ _ _ _ V). cbn [bindo]. rewrite (nonempty_len out (vw_some _ _ _ _ _ _ _ _ _ V)), (b_positive c _ _ _ _ A), (proj2 (N.leb_le _ _) Hi). reflexivity.
  Qed.

  (** ** Histories *)
  Definition bcall_ok (x : tdatabase * tcall) : Prop := t_hash (fst x) = hash /\ tiers_ok p out hards (fst x) /\ legal ds p (snd x).
  Lemma b_call c x : bopened c -> bcall_ok x -> exists c', bdo ds m c x = Ok c' /\ bopened c'.
  Proof.
    intros O (TH & TK & L). destruct x as [d x]. cbn [fst snd] in *. unfold bdo. destruct x as [t rp | policy |].
    - destruct (b_seek c d t rp O TK (b_time_ok c t rp O L)) as (c' & E & O' & _). exists c'. split; assumption.
    - destruct (b_set_looping (with_db c d) policy (bopened_db c d O)) as (c' & E & O' & _). exists c'. split; assumption.
    - destruct (b_relocated (with_db c d) d (bopened_db c d O) TH) as (c' & E & O' & _). rewrite E. cbn [bindo]. exists c'. split; [reflexivity | exact O'].
  Qed.
  Lemma b_calls l : forall c, bopened c -> Forall bcall_ok l -> exists c', bdo_all ds m c l = Ok c' /\ bopened c'.
  Proof.
    induction l as [| x l IH]; intros c O L; [exists c; split; [reflexivity | exact O] |]. inversion L as [| ? ? L1 L2]; subst. destruct (b_call c x O L1) as (c' & E & O'). cbn [bdo_all]. rewrite E. cbn [bindo]. apply IH; assumption.
  Qed.
  Lemma bdo_app c a b : bdo_all ds m c (a ++ b) = bindo (bdo_all ds m c a) (fun c => bdo_all ds m c b).
  Proof. revert c. induction a as [| x a IH]; intros c; [reflexivity |]. cbn [app bdo_all]. destruct (bdo ds m c x); [| reflexivity | reflexivity]. cbn [bindo]. apply IH. Qed.

  (** after any history, a seek to another time or with another rounding policy *)
  Theorem view_history c0 d0 l d t rp : t_hash d0 = hash -> Forall bcall_ok l -> bcall_ok (d, call_seek t rp) ->
    exists cb c, bused ds c0 m d0 l = Ok cb /\ bused ds c0 m d0 (l ++ [(d, call_seek t rp)]) = Ok c /\ x_looping c = x_looping cb /\
      let tt := sought ds (clip_finite_duration n rate (x_looping c)) t in
      (feq (x_time cb) tt && rp_eqb (x_rounding cb) rp = false ->
        exists k0 k1 al i0 f0 i1 f1, find_linear_interpolation_samples_with_sample_rate n rate tt rp (x_looping c) = Ok (k0, k1, al) /\
          chosen_among p (avail_of hards d) k0 k1 al i0 f0 i1 f1 (x_alpha c) /\ plays p out rp i0 f0 i1 f1 c).
  Proof.
    intros TH L (TH' & TK & Lg). cbn [fst snd] in *. destruct (b_initialize c0 d0 TH) as (ci & EI & OI & _). destruct (b_calls l ci OI L) as (cb & EB & OB).
    destruct (b_seek cb d t rp OB TK (b_time_ok cb t rp OB Lg)) as (c & E & O & LP & _ & H2). exists cb, c. unfold bused. rewrite EI. cbn [bindo]. split; [exact EB |]. rewrite bdo_app, EB. cbn [bindo bdo_all bdo]. rewrite E. cbn [bindo]. split; [reflexivity |]. split; [exact LP |].
    cbv zeta. intros NF. rewrite (bo_duration _ OB) in H2. rewrite LP in *. destruct (H2 NF) as (X1 & X2 & k0 & k1 & al & i0 & f0 & i1 & f1 & EF & CH & AF).
    exists k0, k1, al, i0, f0, i1, f1. split; [exact EF |]. split; [exact CH |]. rewrite <- X2. apply b_plays; assumption.
  Qed.
  (** the first seek, with the looping policy that was set *)
  Lemma b_policies d policies : t_hash d = hash -> forall c, bopened c -> x_time c = f_minus_one ->
    exists c', bdo_all ds m c (map (fun q => (d, call_looping q)) policies) = Ok c' /\ bopened c' /\ x_time c' = f_minus_one /\
      x_looping c' = fold_left (fun lp x => if is_wrapping_supported ds then match x with Some q => q | None => if p_wrap p =? 0 then lp_clamp else lp_wrap end else lp) policies (x_looping c).
  Proof.
    intros TH. induction policies as [| q policies IH]; intros c O T; [exists c; auto |]. cbn [map bdo_all bdo fold_left].
    destruct (b_set_looping (with_db c d) q (bopened_db c d O)) as (c' & E & O' & X1 & _ & _ & _ & _ & _ & X7). rewrite E. cbn [bindo]. cbn in X1, X7. destruct (IH c' O' ltac:(congruence)) as (c2 & E2 & O2 & T2 & L2). exists c2. rewrite X7 in L2. auto.
  Qed.
  Theorem view_plays c0 d policies t rp : bcall_ok (d, call_seek t rp) -> let lp := in_effect ds p policies in
    exists c k0 k1 al i0 f0 i1 f1, bused ds c0 m d (map (fun q => (d, call_looping q)) policies ++ [(d, call_seek t rp)]) = Ok c /\
      find_linear_interpolation_samples_with_sample_rate n rate (sought ds (clip_finite_duration n rate lp) t) rp lp = Ok (k0, k1, al) /\
      chosen_among p (avail_of hards d) k0 k1 al i0 f0 i1 f1 (x_alpha c) /\ plays p out rp i0 f0 i1 f1 c.
  Proof.
    intros (TH & TK & Lg) lp. cbn [fst snd] in *. destruct (b_initialize c0 d TH) as (ci & EI & OI & TI & LI). destruct (b_policies d policies TH ci OI TI) as (cb & EB & OB & TB & LB).
    rewrite LI in LB. fold (in_effect ds p policies) in LB. fold lp in LB.
    pose proof (b_time_ok cb t rp OB Lg) as TO. destruct (b_seek cb d t rp OB TK TO) as (c & E & O & LP & _ & H2). destruct (b_sought_R cb t OB TO) as [F1 [F2 _]].
    assert (NF : feq (x_time cb) (sought ds (x_duration cb) t) = false). { rewrite TB. apply feq_m1. apply flt_Rf; [exact F1 | reflexivity |]. rewrite f_zero_R. exact F2. }
    rewrite NF in H2. cbn [andb] in H2. destruct (H2 eq_refl) as (X1 & X2 & k0 & k1 & al & i0 & f0 & i1 & f1 & EF & CH & AF).
    rewrite (bo_duration _ OB), LB in EF. exists c, k0, k1, al, i0, f0, i1, f1. unfold bused. rewrite EI. cbn [bindo]. rewrite bdo_app, EB. cbn [bindo bdo_all bdo]. rewrite E. cbn [bindo].
    split; [reflexivity |]. split; [exact EF |]. split; [exact CH |]. rewrite <- X2. apply b_plays; assumption.
  Qed.
End Play.
