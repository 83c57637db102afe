(** A clip that is bound to a database has what a context needs to find. *)
From Coq Require Import Lia Sorted.
From Verif Require Import Word WordFacts Pieces MemoryUtils MemoryFacts Float32 Interp Headers HeadersFacts Packing PackSpec PackingFacts DbTiers DbBuild ClipRewrite SeekSpec BuildSpec ByteFacts RewriteFacts DbEndFacts ScalarEnc ScalarDec ScalarWrite ScalarMeta DbStream
  LayoutFacts SubTracks TransDec TransSpec TransRing TransMem TransAnim TransClipSpec TransClip TransEncSpec TransEncAnim2 TransSeek TransEnc TransFile TransFileSizes TransFileBytes TransFileFacts TransFileSegs TransFilePack TransFilePlay TransFilePlay2 Segment TransPlaySpec
  TransView TransBind TransBindMem TransBindSrc TransBindParts TransBindFill.
Import ListNotations.
Local Open Scope N_scope.
Ltac Zify.zify_post_hook ::= idtac.

Lemma range_size_of F n : range_data_size {| tr_variable_sub_tracks := F; tr_num_segments := N.to_nat n |} = if 1 <? n then 6 * F else 0.
Proof. unfold range_data_size. cbn [tr_num_segments tr_variable_sub_tracks]. destruct (N.ltb_spec 1 n) as [H | H]; [rewrite (proj2 (Nat.ltb_lt _ _)) by lia; reflexivity | rewrite (proj2 (Nat.ltb_ge _ _)) by lia; reflexivity]. Qed.
Lemma segment_data_of F n rel : rel + F + (if 1 <? n then 6 * F else 0) + 8 < 2 ^ 32 ->
  get_segment_data {| tr_variable_sub_tracks := F; tr_num_segments := N.to_nat n |} rel = (rel, ranges_at F rel, TransFileFacts.animated_at F (if 1 <? n then 6 * F else 0) rel).
Proof.
  intros H. unfold get_segment_data. rewrite range_size_of. cbn [tr_variable_sub_tracks]. set (R := if 1 <? n then 6 * F else 0) in *. clearbody R. pose proof (geometry F R 0 rel) as G.
  rewrite (align_up2 64 (rel + F)) by (try (right; reflexivity); lia). change (up2 (rel + F)) with (ranges_at F rel). rewrite (align_up4' 64) by (try (right; reflexivity); lia). reflexivity.
Qed.
(** the bits of the parts that follow the header *)
Lemma skipped_same m a src b size : bytes_ok m -> bytes_ok src -> 32 + a + size <= blen m -> 32 + b + size <= blen src -> bits_equal (skipn 32 m) a (skipn 32 src) b size -> same_at m (32 + a) src (32 + b) size.
Proof.
  intros B1 B2 L1 L2 E. apply bits_same_at; try assumption. intros i Hi. specialize (E i Hi). change 32%nat with (N.to_nat 32) in E. rewrite !mbit_skipn in E. replace (8 * (32 + a) + i) with (8 * 32 + (8 * a + i)) by lia. replace (8 * (32 + b) + i) with (8 * 32 + (8 * b + i)) by lia. exact E.
Qed.
Lemma version_same m src : same_at m 8 src 8 20 -> 28 <= blen m -> 28 <= blen src -> h_version m = h_version src.
Proof.
  intros S L1 L2. unfold h_version, load_le. rewrite (same_at_load m 12 src 12 16 2); [reflexivity | exact (same_at_part _ _ _ _ _ 4 16 S ltac:(lia)) | cbn; lia | lia | lia].
Qed.

Lemma keep_all n : kept_before (fun _ => true) n = n.
Proof. unfold kept_before. assert (E : filter (fun _ : N => true) (sample_indices n) = sample_indices n) by (induction (sample_indices n) as [| x l IH]; [reflexivity | cbn [filter]; rewrite IH; reflexivity]). rewrite E. unfold sample_indices. rewrite map_length, seq_length. lia. Qed.
Section BoundView.
  Context (tier : list frame_mapping) (t clip_header : N) (p : tclip) (out : list content) (src : list N) (SA : N) (raws : list raw_segment) (mh e0 e1 e2 e3 e4 : N) (m : list N) (outs : list stripped_header).
  Hypothesis Bi : bindable tier t p out src SA raws mh e0 e1 e2 e3 e4.
  Hypothesis Fi : filled tier t clip_header p out src SA raws m outs.
  Notation So := (bi_source _ _ _ _ _ _ _ _ _ _ _ _ _ Bi).
  Notation f := (formats_of p).
  Notation F := (formats_size (formats_of p) out).
  Notation R := (if 1 <? num_segments p then 6 * formats_size (formats_of p) out else 0).
  Notation tr := {| tr_variable_sub_tracks := formats_size (formats_of p) out; tr_num_segments := N.to_nat (num_segments p) |}.
  Notation n := (num_segments p).
  Notation hd := (88 + starts_size p).
  Notation ty := (88 + starts_size p + 20 * num_segments p).
  Notation co := (88 + starts_size p + 20 * num_segments p + types_size p out).
  Notation ra := (88 + starts_size p + 20 * num_segments p + types_size p out + (clip_ranges_at p out - constants_at p out)).
  Notation data o := (sh_data (st_header o)).

  Lemma bv_segment i g o : nth_error (p_segments p) i = Some g -> nth_error outs i = Some o -> view_segment p out m hd i g (data o) (st_sample_indices o).
  Proof.
    intros Eg Eo. destruct (sr_segments _ _ _ _ _ So i g Eg) as (rel & SI & Er). set (raw := {| w_pose := _; w_rotation := _; w_translation := _; w_data := _ |}) in Er.
    assert (Eh : nth_error (map header_of_raw raws) i = Some (header_of_raw raw)) by (apply map_nth_error, Er).
    destruct (fi_laid _ _ _ _ _ _ _ _ _ _ Fi) as (e & LA & LE). destruct (laid_nth _ _ _ _ _ _ _ _ _ _ _ LA Eh Eo) as (o1 & o2 & SF & G1 & G2). rewrite N.add_0_l in SF.
    pose proof (fi_segments _ _ _ _ _ _ _ _ _ _ Fi i _ o Eh Eo) as SK. destruct (bi_ready _ _ _ _ _ _ _ _ _ _ _ _ _ Bi i _ Eh) as (gn & Gn & RD). rewrite N.add_0_l in RD.
    assert (GN : gn = g_num_samples g). { unfold sizes_of in Gn. rewrite (map_nth_error _ _ _ Eg) in Gn. congruence. } subst gn. destruct RD as (INS & N32 & FR).
    pose proof (fi_bytes _ _ _ _ _ _ _ _ _ _ Fi) as BM. pose proof (sr_bytes _ _ _ _ _ So) as BS. pose proof (fi_small _ _ _ _ _ _ _ _ _ _ Fi) as SMALL.
    pose proof (si_ok _ _ _ _ _ _ SI) as OK. pose proof (si_rel _ _ _ _ _ _ SI) as RL. destruct (so_holds _ _ _ _ OK) as (l & O & HO). pose proof (so_samples _ _ _ _ OK) as NS.
    pose proof (sr_small _ _ _ _ _ So) as SM. assert (SO : len out + 16 < 2 ^ 32) by lia.
    destruct SF as [D1 D2 D3 D4 D5 D6]. unfold segment_kept in SK. unfold segment_inside in INS. rewrite D1 in *. cbn [header_of_raw sh_data sh_pose_bits] in *.
    assert (RW : w_data raw = rel) by reflexivity. assert (PW : w_pose raw = pose_size p out (N.of_nat i)) by reflexivity. rewrite RW, PW in *.
    unfold segment_bound in D6. rewrite range_size_of in D6. cbn [tr_variable_sub_tracks header_of_raw sh_pose_bits] in D6. rewrite PW in D6.
    rewrite (segment_data_of F n rel) in D5, SK, INS by (change (2 ^ 32) with 4294967296 in *; lia).
    assert (OB : o1 + F + R + 8 < 4294967296). 
    { destruct (get_segment_data tr o1) as ((fo, ro), ao) eqn:GO. destruct D5 as (_ & -> & _ & _ & _ & _ & Q0 & Q1 & _ & _ & Q2 & _). rewrite range_size_of in Q0. cbn [tr_variable_sub_tracks] in Q1. clear - Q0 Q1 Q2 G2 LE SMALL. lia. }
    rewrite (segment_data_of F n o1) in D5, SK by (change (2 ^ 32) with 4294967296; exact OB). rewrite range_size_of in D5, SK, INS. cbn [tr_variable_sub_tracks] in D5, SK, INS.
    pose proof (geometry F R 0 rel) as GE. pose proof (geometry F R 0 o1) as GE'.
    destruct (shifted 32 F R 0 rel eq_refl) as (SH1 & SH2 & _). destruct (shifted 32 F R 0 o1 eq_refl) as (SH1' & SH2' & _).
    assert (L32 : 32 <= blen src) by (destruct (sr_ats _ _ _ _ _ So) as (Q1 & Q & _); pose proof (ats_le p out []) as Q2; clear - Q Q1 Q2; lia).
    assert (LS : blen (skipn 32 src) = blen src - 32) by (change 32%nat with (N.to_nat 32); apply skip_blen; exact L32).
    destruct INS as (I1 & I2 & I3 & I4). rewrite LS in I1, I3. destruct SK as (_ & _ & SK1 & SK2 & SK3 & SK4).
    set (RR := R) in *. assert (ER : RR = R) by reflexivity. clearbody RR. set (FF := F) in *. assert (EF : FF = F) by reflexivity. clearbody FF.
    assert (I5 : 32 + TransFileFacts.animated_at FF RR rel <= blen src) by (clear - L32 I3; lia).
    constructor.
    - pose proof (fi_headers _ _ _ _ _ _ _ _ _ _ Fi i raw o Er Eo) as P. unfold stripped_words in P. rewrite D2, D1 in P. exact P.
    - exact OK.
    - exact N32.
    - exact D3.
    - intros k Hk. pose proof (si_formats _ _ _ _ _ _ SI k Hk) as [P _]. pose proof (segment_formats_blen f _ out (N.of_nat i) k Hk SO) as BL.
      assert (LM : 32 + o1 + FF <= blen m) by (clear - D5 G2 LE; lia). assert (LS' : 32 + rel + FF <= blen src) by (clear - GE I5; lia).
      split; [| rewrite BL; clear - D5 G2 LE EF; lia]. apply (same_at_placed m (32 + o1) src (32 + rel) FF); [| exact P | rewrite BL; clear - EF; lia]. apply skipped_same; assumption.
    - intros H1 k Hk. pose proof (si_ranges _ _ _ _ _ _ SI H1 k Hk) as [P _]. pose proof (segment_ranges_blen f _ l out (N.of_nat i) k HO Hk SO) as BL.
      assert (RE : RR = 6 * FF) by (rewrite ER, EF, (proj2 (N.ltb_lt _ _) H1); reflexivity). rewrite <- EF in P |- *. rewrite SH1 in P. rewrite SH1'.
      assert (LM : 32 + ranges_at FF o1 + RR <= blen m) by (clear - D5 G2 LE; lia). assert (LS' : 32 + ranges_at FF rel + RR <= blen src) by (clear - GE I5; lia).
      split; [| rewrite BL, <- EF, <- RE; clear - D5 G2 LE; lia]. apply (same_at_placed m (32 + ranges_at FF o1) src (32 + ranges_at FF rel) RR); [| exact P | rewrite BL, <- EF, <- RE; clear; lia]. apply skipped_same; assumption.
    - intros r k FR'. rewrite D4 in FR'.
      assert (Hk : k < g_num_samples g). { unfold kept in FR'. apply nth_error_In, in_map_iff in FR' as (x & <- & Ix). exact (proj2 (proj1 (Forall_forall _ _) FR x Ix)). }
      split; [exact Hk |].
      pose proof (si_data _ _ _ _ _ _ SI k Hk) as SD. unfold kept_of in SD. rewrite (bi_stripped _ _ _ _ _ _ _ _ _ _ _ _ _ Bi) in SD. specialize (SD eq_refl). change (is_kept false (g_hard g)) with (fun _ : N => true) in SD. rewrite keep_all in SD.
      rewrite <- EF, <- ER, SH2 in SD. rewrite <- EF, <- ER, SH2'. destruct SD as [SB SAt SW SP].
      assert (PS : stored_sizes (key_frame_samples f out (N.of_nat i) k) = pose_size p out (N.of_nat i)) by (apply (same_frame_size f (N.of_nat i) _ l out HO k 0 Hk); clear - NS; lia).
      set (ps := pose_size p out (N.of_nat i)) in *. 
      assert (RB : (r + 1) * ps <= ps * N.of_nat (length (filter (DbBuild.in_segment t (N.of_nat i)) tier))).
      { rewrite N.mul_comm. apply N.mul_le_mono_l. assert (Q : (N.to_nat r < length (kept tier t (N.of_nat i)))%nat) by (apply nth_error_Some; congruence). unfold kept in Q. rewrite map_length in Q. clear - Q. lia. }
      assert (R32 : (r + 1) * ps <= 32 * ps). { apply N.mul_le_mono_r. rewrite <- D4 in FR'. pose proof (rank_lt _ _ _ FR') as Q. clear - Q. lia. }
      rewrite N.mul_add_distr_r, N.mul_1_l in RB, R32.
      assert (AO : 8 * TransFileFacts.animated_at FF RR o1 + (r * ps + ps) <= 8 * o2) by (clear - D5 RB; lia).
      assert (LA' : 32 + TransFileFacts.animated_at FF RR o1 <= blen m) by (clear - D5 G2 LE AO; lia).
      constructor.
      + apply bytes_ok_skipn, BM.
      + eapply stored_at_shift; [| exact SAt]. intros j Hj. rewrite PS in Hj. rewrite !mbit_skipn.
        specialize (SK4 (N.to_nat r) k j FR' Hj). change 32%nat with (N.to_nat 32) in SK4. rewrite !mbit_skipn in SK4. rewrite N2Nat.id in SK4.
        replace (8 * (32 + TransFileFacts.animated_at FF RR o1) + (r * ps + j)) with (8 * 32 + (8 * TransFileFacts.animated_at FF RR o1 + r * ps + j)) by (clear; lia). rewrite SK4. f_equal. clear. lia.
      + rewrite PS. change (2 ^ 32) with 4294967296. change (2 ^ 32) with 4294967296 in I4. clear - R32 I4. lia.
      + rewrite PS. rewrite skip_blen by exact LA'. clear - AO G2 LE LA'. lia.
    - rewrite <- EF, <- ER. change (2 ^ 32) with 4294967296. clear - D5 G2 LE SMALL. lia.
    - change (2 ^ 32) with 4294967296. change (2 ^ 32) with 4294967296 in I4. clear - I4. lia.
  Qed.

  Lemma bv_misc : exists misc, h_misc m = Ok misc /\ get_rotation_format misc = rotation_format_code (p_rotation p) /\ get_translation_format misc = b2n (p_translation p) /\ get_scale_format misc = b2n (p_scale p) /\
      get_has_scale misc = b2n (p_has_scale p) /\ get_has_database misc = 1 /\ get_is_wrap_optimized misc = p_wrap p.
  Proof.
    destruct (fi_misc _ _ _ _ _ _ _ _ _ _ Fi) as (misc & x & y & E & E'). destruct (sr_misc _ _ _ _ _ So) as (BK & b & EM). rewrite EM in E. injection E as <-.
    destruct (header_get p b BK) as (L & G1 & G2 & G3 & G4 & G5 & G6 & G7). set (w := set_has_metadata (header_bits p) (b2n b)) in *. clearbody w.
    assert (BB : forall z, b2n z < 2) by (intros []; cbn; lia).
    assert (L1 : set_has_database w 1 < 2 ^ 32) by (apply (hset_lt HasDatabase w 1 L); reflexivity).
    assert (L2 : set_has_stripped_keyframes (set_has_database w 1) (b2n x) < 2 ^ 32) by (apply (hset_lt HasStrippedKeyframes _ _ L1); apply BB).
    eexists. split; [exact E' |].
    assert (Q : forall g, g <> HasMetadata -> g <> HasStrippedKeyframes -> hget g (set_has_metadata (set_has_stripped_keyframes (set_has_database w 1) (b2n x)) (b2n y)) = hget g (set_has_database w 1)).
    { intros g N1 N2. change (set_has_metadata (set_has_stripped_keyframes (set_has_database w 1) (b2n x)) (b2n y)) with (hset HasMetadata (set_has_stripped_keyframes (set_has_database w 1) (b2n x)) (b2n y)).
      rewrite hget_hset_other; [| exact L2 | apply BB | congruence]. apply (hget_hset_other HasStrippedKeyframes g _ (b2n x) L1); [apply BB | congruence]. }
    assert (Q' : forall g, g <> HasDatabase -> hget g (set_has_database w 1) = hget g w) by (intros g N1; apply (hget_hset_other HasDatabase g w 1 L); [reflexivity | congruence]).
    repeat split.
    - rewrite <- G1. transitivity (hget RotationFormat (set_has_database w 1)); [apply (Q RotationFormat); discriminate | apply (Q' RotationFormat); discriminate].
    - rewrite <- G2. transitivity (hget TranslationFormat (set_has_database w 1)); [apply (Q TranslationFormat); discriminate | apply (Q' TranslationFormat); discriminate].
    - rewrite <- G3. transitivity (hget ScaleFormat (set_has_database w 1)); [apply (Q ScaleFormat); discriminate | apply (Q' ScaleFormat); discriminate].
    - rewrite <- G4. transitivity (hget HasScale (set_has_database w 1)); [apply (Q HasScale); discriminate | apply (Q' HasScale); discriminate].
    - transitivity (hget HasDatabase (set_has_database w 1)); [apply (Q HasDatabase); discriminate |]. apply (hget_hset_same HasDatabase w 1 L). reflexivity.
    - rewrite <- G7. transitivity (hget IsWrapOptimized (set_has_database w 1)); [apply (Q IsWrapOptimized); discriminate | apply (Q' IsWrapOptimized); discriminate].
  Qed.

  Lemma filled_view : view p out m hd ty co ra (map (fun o => data o) outs) (map st_sample_indices outs).
  Proof.
    pose proof (fi_laid _ _ _ _ _ _ _ _ _ _ Fi) as (e & LA & LE). pose proof (laid_le _ _ _ _ _ _ _ _ LA) as LL. pose proof (laid_length _ _ _ _ _ _ _ _ LA) as LG. rewrite map_length, (sr_length _ _ _ _ _ So) in LG.
    destruct (sr_ats _ _ _ _ _ So) as (A1 & A2 & A3 & _). pose proof (ats_le p out []) as AL.
    assert (HA : headers_at p = 84 + starts_size p) by reflexivity. assert (TA : types_at p = 84 + starts_size p + 16 * n).
    { unfold types_at, headers_size, header_stride. rewrite (bi_stripped _ _ _ _ _ _ _ _ _ _ _ _ _ Bi), HA. reflexivity. }
    assert (CA : constants_at p out = types_at p + types_size p out) by reflexivity. assert (RA : clip_ranges_at p out = constants_at p out + constants_size f out) by reflexivity.
    set (HAT := headers_at p) in *. set (TAT := types_at p) in *. set (CAT := constants_at p out) in *. set (RAT := clip_ranges_at p out) in *. set (SEG := segments_at p out []) in *. set (END := clip_end p out []) in *.
    set (CS := constants_size f out) in *. set (TS := types_size p out) in *. set (SS := starts_size p) in *.
    assert (CZ : RAT - CAT = CS) by (clear - RA; lia).
    assert (LM : 88 + SS + 20 * n + TS + CS + (SA - RAT) + 15 <= blen m) by (clear - LE LL A1 A2 TA CA RA AL; lia).
    assert (LS : 84 + SS + 15 <= blen src) by (clear - A1 A2 AL HA; lia).
    pose proof (fi_head _ _ _ _ _ _ _ _ _ _ Fi) as FH. pose proof (fi_members _ _ _ _ _ _ _ _ _ _ Fi) as FM.
    assert (HR : forall x, x + 4 <= 20 -> read32 m (8 + x) = read32 src (8 + x)).
    { intros x Hx. apply (same_at_read m (8 + x) src (8 + x) 4); [exact (same_at_part _ _ _ _ _ x 4 FH Hx) | lia | clear - LM Hx; lia | clear - LS Hx; lia]. }
    assert (SM : len out + 16 < 2 ^ 32) by (pose proof (sr_small _ _ _ _ _ So) as Q; clear - Q; lia).
    constructor.
    - exact (sr_timing _ _ _ _ _ So).
    - exact (sr_some _ _ _ _ _ So).
    - split; [exact SM | exact (sr_F _ _ _ _ _ So)].
    - unfold h_num_tracks. pose proof (HR 8 ltac:(lia)) as Q. change (8 + 8) with 16 in Q. rewrite Q. clear Q. exact (sr_tracks _ _ _ _ _ So).
    - unfold h_num_samples. pose proof (HR 12 ltac:(lia)) as Q. change (8 + 12) with 20 in Q. rewrite Q. clear Q. exact (sr_samples _ _ _ _ _ So).
    - unfold h_sample_rate. pose proof (HR 16 ltac:(lia)) as Q. change (8 + 16) with 24 in Q. rewrite Q. clear Q. exact (sr_rate _ _ _ _ _ So).
    - rewrite (version_same m src FH); [exact (sr_version _ _ _ _ _ So) | clear - LM; lia | clear - LS; lia].
    - exact (fi_hash _ _ _ _ _ _ _ _ _ _ Fi).
    - exact bv_misc.
    - intros k w K7 E. assert (K8 : k < 8). { assert (Q : (N.to_nat k < 8)%nat) by (apply (nth_error_Some [num_segments p; F; len (ct_animated Rotation out); len (ct_animated Translation out); len (ct_animated Scale out); len (ct_constants Rotation out); len (ct_constants Translation out); 0]); congruence). clear - Q. lia. }
      rewrite (same_at_read m (32 + 4 * k) src (32 + 4 * k) 4); [| apply (same_at_part _ _ _ _ _ (4 * k) 4 FM); clear - K8; lia | lia | clear - LM K8; lia | clear - LS K8; lia].
      apply (sr_members _ _ _ _ _ So k w); [clear - K8; lia | exact K7 |]. rewrite <- E. destruct (N.to_nat k) as [| [| [| [| [| [| [| [| q]]]]]]]] eqn:Q; try reflexivity. clear - Q K8. lia.
    - destruct (fi_offsets _ _ _ _ _ _ _ _ _ _ Fi) as (_ & O1 & O2 & O3 & O4). fold SS TS RAT CAT in O1, O2, O3, O4. rewrite O1, O2, O3, O4, CZ. repeat split; try (f_equal; clear; lia); clear; lia.
    - intros H1 E j w Ej. pose proof (sr_starts _ _ _ _ _ So H1) as PS. unfold start_indices in PS. rewrite E in PS. fold (segment_start_indices (sizes_of p)) in PS.
      assert (SZ : SS = 4 * (n + 1)) by (unfold SS, starts_size; rewrite (proj2 (N.ltb_lt _ _) H1); reflexivity).
      assert (Hj : (j < length (segment_start_indices (sizes_of p)))%nat) by (apply nth_error_Some; congruence). 
      assert (L : N.to_nat (num_segments p + 1) = length (segment_start_indices (sizes_of p))). { unfold segment_start_indices. rewrite app_length, offsets_length, num_of. cbn [length]. lia. }
      pose proof (fi_starts _ _ _ _ _ _ _ _ _ _ Fi H1) as FS. fold SS in FS.
      rewrite (same_at_read m (84 + 4 * N.of_nat j) src (84 + 4 * N.of_nat j) 4); [| apply (same_at_part _ _ _ _ _ (4 * N.of_nat j) 4 FS); clear - SZ L Hj; lia | lia | clear - LM SZ L Hj; lia | clear - LS SZ L Hj; lia].
      apply (read_word _ 84 _ (N.of_nat j) w PS); [rewrite Nat2N.id; exact Ej |].
      apply nth_error_In in Ej. unfold segment_start_indices in Ej. apply in_app_or in Ej as [Ej | [<- | []]]; [| reflexivity].
      exact (proj1 (Forall_forall _ _) (offsets_lt (sizes_of p) 0 eq_refl) w Ej).
    - destruct (sr_types _ _ _ _ _ So) as [P B]. apply (same_at_placed _ _ _ _ _ _ (fi_types _ _ _ _ _ _ _ _ _ _ Fi) P). fold TS in B. rewrite B. fold TS. clear; lia.
    - destruct (sr_constants _ _ _ _ _ So) as [P B]. fold CS in B. split; [| rewrite B; clear - LM; lia]. apply (same_at_placed _ _ _ _ _ _ (fi_constants _ _ _ _ _ _ _ _ _ _ Fi) P). fold RAT CAT. rewrite B, CZ. clear; lia.
    - destruct (sr_ranges _ _ _ _ _ So) as [P B]. fold RAT CAT in P, B |- *. fold TS SS RAT CAT in P, B |- *. rewrite CZ. split; [| clear - LM B; lia]. pose proof (fi_ranges _ _ _ _ _ _ _ _ _ _ Fi) as FR. fold SS TS RAT CAT in FR. rewrite CZ in FR. apply (same_at_placed _ _ _ _ _ _ FR P). clear - B; lia.
    - rewrite !map_length. split; exact LG.
    - intros i g rel hard Eg Er Eh. rewrite nth_error_map in Er, Eh. destruct (nth_error outs i) as [o |] eqn:Eo; [| discriminate]. cbn [option_map] in Er, Eh. injection Er as <-. injection Eh as <-. exact (bv_segment i g o Eg Eo).
  Qed.

  (** the key frames that stay in the clip are those of the highest tier *)
  Lemma filled_hard i g : nth_error (p_segments p) i = Some g -> exists hard, nth_error (map st_sample_indices outs) i = Some hard /\ hard < 2 ^ 32 /\ stored_frames hard = kept tier t (N.of_nat i).
  Proof.
    intros Eg. destruct (sr_segments _ _ _ _ _ So i g Eg) as (rel & _ & Er). pose proof (map_nth_error header_of_raw _ _ Er) as Eh.
    destruct (fi_laid _ _ _ _ _ _ _ _ _ _ Fi) as (e & LA & LE). pose proof (laid_length _ _ _ _ _ _ _ _ LA) as LG. 
    assert (L : (i < length (map header_of_raw raws))%nat) by (apply nth_error_Some; congruence). destruct (nth_error outs i) as [o |] eqn:Eo; [| apply nth_error_None in Eo; lia].
    destruct (laid_nth _ _ _ _ _ _ _ _ _ _ _ LA Eh Eo) as (o1 & o2 & SF & G1 & G2). rewrite N.add_0_l in SF. exists (st_sample_indices o). split; [apply map_nth_error, Eo |]. split; [exact (sf_w32 _ _ _ _ _ _ _ _ SF) | exact (sf_kept _ _ _ _ _ _ _ _ SF)].
  Qed.
  (** what a context finds of the database *)
  Lemma filled_database hash s medium low : bound_database m hash s medium low = Ok {| t_hash := hash; t_metadata := fun i => let o := clip_header + 8 + 16 * i in (tier_metadata (rt s DbStream.Medium) o, tier_metadata (rt s DbStream.Lowest) o); t_medium := medium; t_low := low |}.
  Proof.
    unfold bound_database. destruct (fi_offsets _ _ _ _ _ _ _ _ _ _ Fi) as (O0 & _). change (transform_header + 32) with 64. rewrite O0. cbn [bindo]. change transform_header with 32.
    replace (32 + (52 + starts_size p)) with (84 + starts_size p) by lia. rewrite (fi_database _ _ _ _ _ _ _ _ _ _ Fi). reflexivity.
  Qed.
End BoundView.
