(** Binding a clip to a database: what a context finds, for every state of the database. *)
From Coq Require Import Lia Reals Permutation Sorted.
From Verif Require Import Word WordFacts Pieces MemoryUtils MemoryFacts Float32 Float32Facts Interp Headers Packing PackSpec PackingFacts DbTiers DbBuild DbStream Bitset ClipRewrite StripSpec StripFacts StripOrder SeekSpec SeekFacts Strip StreamSpec DbStreamFacts Prop_Stream TierSpec Prop_Tiers BuildSpec ByteFacts RewriteFacts DbEndFacts Prop_Build.
From Verif Require Import ScalarEnc ScalarDec ScalarWrite ScalarMeta
  LayoutFacts SubTracks TransDec TransSpec TransRing TransMem TransAnim TransClipSpec TransClip TransEncSpec TransEncAnim2 TransSeek TransEnc TransFile TransFileSizes TransFileBytes TransFileFacts TransFileSegs TransFilePack TransFilePlay TransFilePlay2 Segment TransPlaySpec TransTop
  TransView TransViewPlay TransBind BindSpec TransBindMem TransBindSrc TransBindParts TransBindFill TransBindFill2 TransBindView TransBindFacts.
Import ListNotations.
Local Open Scope N_scope.
Ltac Zify.zify_post_hook ::= idtac.

(** the metadata of the input: the entries that are there are in order, and the contributing error is one of them *)
Definition metadata_ready (src : list N) (mh e0 e1 e2 e3 e4 : N) : Prop :=
  metadata_header src = Ok mh /\ read32 src mh = Ok e0 /\ read32 src (mh + 4) = Ok e1 /\ read32 src (mh + 8) = Ok e2 /\ read32 src (mh + 12) = Ok e3 /\ read32 src (mh + 16) = Ok e4 /\
  entries_ok 0 [e0; e1; e2; e3; e4] (blen src) /\ ptr_is_valid e4 = true.

Lemma runtime_header files c i : (c <= length files)%nat -> header_of files c i = clip_header_of files c + 8 + 16 * N.of_nat i.
Proof.
  unfold header_of, clip_header_of. revert files. induction c as [| c IH]; intros [| f files] L; cbn [length] in L; try lia; try reflexivity.
  cbn [map firstn runtime_offset]. rewrite IH by lia. unfold runtime_size, sumN. cbn [map fold_right]. lia.
Qed.
Lemma sum_firstn {A} (g : A -> N) c (l : list A) : sumN (map g (firstn c l)) <= sumN (map g l).
Proof. unfold sumN. revert l. induction c as [| c IH]; intros [| x l]; cbn [firstn map fold_right]; try lia. specialize (IH l). lia. Qed.
Lemma clip_header_lt files c : runtime_size (map (fun f => length (cf_headers f)) files) < 2 ^ 32 -> clip_header_of files c < 2 ^ 32.
Proof.
  intros H. unfold clip_header_of, runtime_size in *. rewrite map_map in *. eapply N.le_lt_trans; [apply sum_firstn | exact H].
Qed.
Lemma held_iff tier c s f : held tier c s f = true <-> In (c, s, f) (map key tier).
Proof.
  unfold held. rewrite existsb_exists, in_map_iff. split.
  - intros (x & Ix & E). rewrite !andb_true_iff, !N.eqb_eq in E. exists x. split; [| exact Ix]. unfold key. destruct E as ((-> & ->) & ->). reflexivity.
  - intros (x & E & Ix). exists x. split; [exact Ix |]. unfold key in E. injection E as <- <- <-. rewrite !N.eqb_refl. reflexivity.
Qed.
Lemma present_stored (hard f : N) : f < 32 -> (present hard f = true <-> In f (stored_frames hard)).
Proof. intros L. unfold stored_frames. rewrite filter_In. split; [| tauto]. intros Q. split; auto. apply in_map_iff. exists (N.to_nat f). split; [lia |]. apply in_seq. lia. Qed.
(** only the key frames of the segments matter *)
Lemma chosen_same p a a' k0 k1 al i0 c0 i1 c1 x : (forall i g k, nth_error (p_segments p) i = Some g -> k < g_num_samples g -> a i k = a' i k) -> chosen_among p a k0 k1 al i0 c0 i1 c1 x -> chosen_among p a' k0 k1 al i0 c0 i1 c1 x.
Proof.
  intros H (g0 & f0 & g1 & f1 & S0 & S1 & C0 & C1 & L & F & AL). exists g0, f0, g1, f1. split; [exact S0 |]. split; [exact S1 |]. split; [exact C0 |]. split; [exact C1 |]. split; [| split; [| exact AL]].
  - destruct S0 as (E & _ & LT). destruct L as (L1 & L2 & L3). split; [exact L1 |]. split; [rewrite <- (H _ _ _ E C0); exact L2 |]. intros j Hj. rewrite <- (H _ g0 _ E) by lia. apply L3, Hj.
  - destruct S1 as (E & _ & LT). destruct F as (L1 & L2 & L3). split; [exact L1 |]. split; [rewrite <- (H _ _ _ E C1); exact L2 |]. intros j Hj. rewrite <- (H _ g1 _ E) by lia. apply L3, Hj.
Qed.

Section Bound.
  Context (sizes : list (list N)) (clips : list db_clip) (files : list clip_file) (max : N) (pl pm : f32) (high medium low : list frame_mapping) (mm : list N) (cm : list chunk) (ml : list N) (cl : list chunk).
  Hypothesis BD : built_database sizes clips files max pl pm high medium low mm cm ml cl.
  Notation db := {| db_max_chunk_size := max; db_medium := cm; db_low := cl |}.
  Context (c : nat) (file : clip_file) (src : list N) (p : tclip) (out : list content) (SA : N) (raws : list raw_segment) (mh e0 e1 e2 e3 e4 : N).
  Hypothesis KF : nth_error files c = Some file.
  Hypothesis KZ : nth_error sizes c = Some (sizes_of p).
  Hypothesis So : source p out src SA raws.
  Hypothesis St : p_stripped p = false.
  Hypothesis CP : clip_parts src file.
  Hypothesis Fits : binding_fits src file.
  Hypothesis Me : metadata_ready src mh e0 e1 e2 e3 e4.
  Notation IO := (bd_input _ _ _ _ _ _ _ _ _ _ _ _ _ BD).
  Notation Bt := (bd_tiers _ _ _ _ _ _ _ _ _ _ _ _ _ BD).
  Notation F := (formats_size (formats_of p) out).
  Notation R := (if 1 <? num_segments p then 6 * formats_size (formats_of p) out else 0).
  Notation tr := {| tr_variable_sub_tracks := formats_size (formats_of p) out; tr_num_segments := N.to_nat (num_segments p) |}.

  Lemma parts_found : cf_transforms file = tr /\ cf_bytes file = skipn 32 src /\ cf_headers file = map header_of_raw raws.
  Proof.
    destruct CP as (n & Fv & o & rw & _ & E1 & E2 & E3 & E4 & E5 & E6 & E7).
    pose proof (sr_members _ _ _ _ _ So 0 _ ltac:(lia) ltac:(discriminate) eq_refl) as M0. change (32 + 4 * 0) with 32 in M0. rewrite M0 in E1. injection E1 as <-.
    pose proof (sr_members _ _ _ _ _ So 1 _ ltac:(lia) ltac:(discriminate) eq_refl) as M1. change (32 + 4 * 1) with 36 in M1. rewrite M1 in E2. injection E2 as <-.
    pose proof (sr_members _ _ _ _ _ So 9 _ ltac:(lia) ltac:(discriminate) eq_refl) as M9. change (32 + 4 * 9) with 68 in M9. rewrite M9 in E3. injection E3 as <-.
    pose proof (ats_le p out []) as AL. replace (32 + (headers_at p - 32)) with (headers_at p) in E4 by lia. rewrite (sr_raws _ _ _ _ _ So) in E4. injection E4 as <-. auto.
  Qed.

  Lemma clip_bindable : bindable high (N.of_nat c) p out src SA raws mh e0 e1 e2 e3 e4.
  Proof.
    destruct parts_found as (P1 & P2 & P3). destruct Me as (E1 & E2 & E3 & E4 & E5 & E6 & E7 & E8).
    destruct (tiers_facts _ _ _ _ _ _ _ _ _ IO Bt) as (_ & TF). destruct (TF high ltac:(auto)) as (S0 & M0 & K0). pose proof IO as (LEN & CL & LF & FO & RT & MX & _).
    constructor; try assumption.
    - intros s. exact (kept_increasing high S0 (N.of_nat c) s).
    - intros i h KH. assert (KH' : nth_error (cf_headers file) i = Some h) by (rewrite P3; exact KH).
      assert (SL : (i < length (sizes_of p))%nat). { unfold sizes_of. rewrite map_length, <- (sr_length _ _ _ _ _ So), <- (map_length header_of_raw). apply nth_error_Some. congruence. }
      destruct (nth_error (sizes_of p) i) as [n |] eqn:KN; [| apply nth_error_None in KN; lia]. exists n. split; [reflexivity |]. rewrite N.add_0_l.
      destruct (segment_frames sizes clips files max LEN CL LF FO RT high S0 M0 K0 c i file h _ n KF KH' KZ KN) as (N32 & SI & _ & FF & _). rewrite P1, P2 in SI. split; [exact SI |]. split; [exact N32 |].
      eapply Forall_impl; [| exact FF]. cbn. tauto.
    - unfold binding_fits in Fits. rewrite P1, P3, map_length, (sr_length _ _ _ _ _ So) in Fits. unfold bound_all, segment_bound. exact Fits.
  Qed.

  Lemma clip_bound : exists m outs, bind_clip high (N.of_nat c) (clip_header_of files c) src = Ok m /\ filled high (N.of_nat c) (clip_header_of files c) p out src SA raws m outs /\ metadata_kept src m e0 e1 e2 e3 e4.
  Proof. apply (bind_fills high (N.of_nat c) (clip_header_of files c) p out src SA raws mh e0 e1 e2 e3 e4); [exact clip_bindable |]. apply clip_header_lt. pose proof IO as (_ & _ & _ & _ & RT & _). exact RT. Qed.

  Context (m : list N) (outs : list stripped_header).
  Hypothesis Fi : filled high (N.of_nat c) (clip_header_of files c) p out src SA raws m outs.
  Notation hards := (map st_sample_indices outs).

  (** every state of the database *)
  Context (sh : bool) (n0 n1 : nat) (s : system) (hash : N) (buf_m buf_l : list N).
  Hypothesis Z0 : streamer_size n0.
  Hypothesis Z1 : streamer_size n1.
  Hypothesis RE : reachable db sh n0 n1 s.
  Hypothesis BM : memory_of s DbStream.Medium mm buf_m.
  Hypothesis BL : memory_of s DbStream.Lowest ml buf_l.
  Notation d := {| t_hash := hash; t_metadata := fun i => let o := clip_header_of files c + 8 + 16 * i in (tier_metadata (rt s DbStream.Medium) o, tier_metadata (rt s DbStream.Lowest) o); t_medium := buf_m; t_low := buf_l |}.

  Lemma clip_index : (c <= length files)%nat. Proof. assert ((c < length files)%nat) by (apply nth_error_Some; congruence). lia. Qed.
  Lemma word_at_header t i : tier_metadata (rt s t) (clip_header_of files c + 8 + 16 * N.of_nat i) = tier_metadata (rt s t) (header_of files c i).
  Proof. rewrite (runtime_header files c i clip_index). reflexivity. Qed.

  Lemma the_segment i g : nth_error (p_segments p) i = Some g -> exists rel, segment_in p out src i g rel /\ nth_error (cf_headers file) i = Some {| sh_pose_bits := pose_size p out (N.of_nat i); sh_data := rel |} /\
    BuildSpec.animated_at (cf_transforms file) {| sh_pose_bits := pose_size p out (N.of_nat i); sh_data := rel |} = TransFileFacts.animated_at F R rel /\ nth_error (sizes_of p) i = Some (g_num_samples g) /\ g_num_samples g <= 32 /\ 32 * pose_size p out (N.of_nat i) + 7 < 2 ^ 32.
  Proof.
    intros Eg. destruct (sr_segments _ _ _ _ _ So i g Eg) as (rel & SI & Er). destruct parts_found as (P1 & P2 & P3). exists rel. split; [exact SI |].
    assert (KH : nth_error (cf_headers file) i = Some {| sh_pose_bits := pose_size p out (N.of_nat i); sh_data := rel |}) by (rewrite P3; apply (map_nth_error header_of_raw _ _ Er)). split; [exact KH |].
    assert (KN : nth_error (sizes_of p) i = Some (g_num_samples g)) by (unfold sizes_of; apply map_nth_error, Eg).
    split. { unfold BuildSpec.animated_at. cbn [sh_data]. rewrite P1, segment_data_of; [reflexivity |]. pose proof (si_rel _ _ _ _ _ _ SI) as Q. clear - Q. lia. }
    split; [exact KN |]. destruct (tiers_facts _ _ _ _ _ _ _ _ _ IO Bt) as (_ & TF). destruct (TF high ltac:(auto)) as (S0 & M0 & K0). pose proof IO as (LEN & CL & LF & FO & RT & MX & _).
    destruct (segment_frames sizes clips files max LEN CL LF FO RT high S0 M0 K0 c i file _ _ _ KF KH KZ KN) as (N32 & SI' & _). split; [exact N32 |]. exact (proj2 (proj2 (inside_animated _ _ _ _ SI'))).
  Qed.

  Lemma tier_streams t i g buf : streamable t -> memory_of s t (the_bytes mm ml t) buf -> nth_error (p_segments p) i = Some g -> tier_data p out i g (tier_metadata (rt s t) (header_of files c i)) buf.
  Proof.
    intros ST (B1 & B2 & B3) Eg r k KR. destruct (the_segment i g Eg) as (rel & SI & KH & AT & KN & N32 & PW).
    destruct (tier_found _ _ _ _ _ _ _ _ _ _ _ _ _ IO Bt (bd_medium _ _ _ _ _ _ _ _ _ _ _ _ _ BD) (bd_low _ _ _ _ _ _ _ _ _ _ _ _ _ BD) (bd_streams _ _ _ _ _ _ _ _ _ _ _ _ _ BD) sh n0 n1 s Z0 Z1 RE t c i file _ _ _ ST KF KH KZ KN) as (_ & _ & _ & _ & H).
    destruct (H buf B2 B3 r k KR) as (Hk & PAD & BITS). rewrite AT in BITS. cbn [sh_pose_bits] in *. clear H. split; [exact Hk |].
    pose proof (si_ok _ _ _ _ _ _ SI) as OK. destruct (so_holds _ _ _ _ OK) as (l & O & HO). pose proof (so_samples _ _ _ _ OK) as NS.
    pose proof (si_data _ _ _ _ _ _ SI k Hk) as SD. unfold kept_of in SD. rewrite St in SD. specialize (SD eq_refl). change (is_kept false (g_hard g)) with (fun _ : N => true) in SD. rewrite keep_all in SD.
    destruct (shifted 32 F R 0 rel eq_refl) as (_ & SH2 & _). rewrite SH2 in SD. destruct SD as [SB SAt SW SP].
    assert (PS : stored_sizes (key_frame_samples (formats_of p) out (N.of_nat i) k) = pose_size p out (N.of_nat i)) by (apply (same_frame_size (formats_of p) (N.of_nat i) _ l out HO k 0 Hk); clear - NS; lia).
    set (ps := pose_size p out (N.of_nat i)) in *. set (w := tier_metadata (rt s t) (header_of files c i)) in *. set (q := w / 2 ^ 32) in *. clearbody q.
    assert (RR : (r + 1) * ps <= 32 * ps) by (apply N.mul_le_mono_r; pose proof (rank_lt _ _ _ KR) as Q; clear - Q; lia). rewrite N.mul_add_distr_r, N.mul_1_l in PAD, RR.
    destruct parts_found as (P1 & P2 & P3). rewrite P2 in BITS.
    constructor.
    - apply bytes_ok_skipn, B1.
    - eapply stored_at_shift; [| exact SAt]. intros j Hj. rewrite PS in Hj. rewrite !mbit_skipn. specialize (BITS j Hj). change 32%nat with (N.to_nat 32) in BITS. rewrite mbit_skipn in BITS.
      replace (8 * q + (r * ps + j)) with (8 * q + r * ps + j) by (clear; lia). rewrite BITS. f_equal. clear. lia.
    - rewrite PS. clear - RR PW. lia.
    - rewrite PS, skip_blen by (clear - PAD; lia). clear - PAD. lia.
  Qed.

  Lemma streamed_words_lt t i g : streamable t -> nth_error (p_segments p) i = Some g -> let w := tier_metadata (rt s t) (header_of files c i) in w < 2 ^ 64 /\
    forall f, f < 32 -> (present (w mod 2 ^ 32) f = true <-> w <> 0 /\ In (N.of_nat c, N.of_nat i, f) (map key (the_tier medium low t))).
  Proof.
    intros ST Eg w. destruct (the_segment i g Eg) as (rel & SI & KH & AT & KN & N32 & PW).
    destruct (tier_found _ _ _ _ _ _ _ _ _ _ _ _ _ IO Bt (bd_medium _ _ _ _ _ _ _ _ _ _ _ _ _ BD) (bd_low _ _ _ _ _ _ _ _ _ _ _ _ _ BD) (bd_streams _ _ _ _ _ _ _ _ _ _ _ _ _ BD) sh n0 n1 s Z0 Z1 RE t c i file _ _ _ ST KF KH KZ KN) as (_ & A1 & A2 & A3 & _). fold w in A1, A2, A3.
    split; [exact A3 |]. intros f L. rewrite (present_stored _ f L). destruct (N.eq_dec w 0) as [Zw | NZ].
    - rewrite (A1 Zw). split; [intros [] | intros (Q & _); congruence].
    - rewrite (A2 NZ), kept_in. tauto.
  Qed.
  Lemma available_is i g k : nth_error (p_segments p) i = Some g -> k < 32 ->
    avail_of hards d i k = available_now high medium low (N.of_nat c) (streamed_in files s DbStream.Medium c) (streamed_in files s DbStream.Lowest c) i k.
  Proof.
    intros Eg Hk. destruct (filled_hard _ _ _ _ _ _ _ _ _ _ _ _ _ _ _ _ clip_bindable Fi i g Eg) as (hard & Eh & _ & SF). unfold avail_of. rewrite (nth_error_nth _ _ 0 Eh).
    apply eq_true_iff_eq. rewrite available_present by lia. unfold words_of. cbn [clip_indices medium_metadata low_metadata t_metadata fst snd]. rewrite !word_at_header.
    assert (TB : forall w, N.testbit w (31 - k) = present (w mod 2 ^ 32) k) by (intros w; unfold present; rewrite N.mod_pow2_bits_low by lia; reflexivity).
    unfold available_now. rewrite !orb_true_iff, !andb_true_iff, !held_iff. unfold streamed_in. rewrite Nat2N.id, !negb_true_iff, !N.eqb_neq.
    destruct (streamed_words_lt DbStream.Medium i g ltac:(discriminate) Eg) as (_ & Q1). destruct (streamed_words_lt DbStream.Lowest i g ltac:(discriminate) Eg) as (_ & Q2).
    rewrite !TB, (Q1 k Hk), (Q2 k Hk). change (N.testbit hard (31 - k)) with (present hard k). rewrite (present_stored hard k Hk), SF, kept_in. cbn [the_tier]. tauto.
  Qed.
  Lemma bound_tiers : tiers_ok p out hards d.
  Proof.
    constructor.
    - intros i g hard Eg Eh. destruct (filled_hard _ _ _ _ _ _ _ _ _ _ _ _ _ _ _ _ clip_bindable Fi i g Eg) as (hard' & Eh' & HL & SF). assert (hard' = hard) by congruence. subst hard'.
      destruct (the_segment i g Eg) as (rel & SI & KH & AT & KN & N32 & PW). pose proof IO as (LEN & CL & LF & FO & RT & MX & (F1 & R1) & (F2 & R2) & TT).
      destruct (C21_boundaries_stay sizes clips pl pm high medium low c i _ _ LEN CL F1 R1 F2 R2 TT Bt KZ KN) as (HB & HE).
      pose proof (so_samples _ _ _ _ (si_ok _ _ _ _ _ _ SI)) as NS.
      destruct (streamed_words_lt DbStream.Medium i g ltac:(discriminate) Eg) as (Q1 & _). destruct (streamed_words_lt DbStream.Lowest i g ltac:(discriminate) Eg) as (Q2 & _).
      assert (AV : forall k, k < 32 -> In (N.of_nat c, N.of_nat i, k) (map key high) -> present (available_indices (words_of d i hard)) k = true).
      { intros k Hk I. rewrite available_present by lia. unfold words_of. cbn [clip_indices]. change (N.testbit hard (31 - k)) with (present hard k). rewrite (proj2 (present_stored hard k Hk)); [reflexivity |]. rewrite SF. apply kept_in. exact I. }
      split; [| split; [apply AV; [lia | exact HB] | apply AV; [clear - N32 NS; lia | exact HE]]].
      unfold samples_ok, words_of. cbn [clip_indices medium_metadata low_metadata t_metadata fst snd]. rewrite !word_at_header. auto.
    - intros i g Eg. cbn [t_metadata t_medium fst]. rewrite word_at_header. apply (tier_streams DbStream.Medium i g buf_m); [discriminate | exact BM | exact Eg].
    - intros i g Eg. cbn [t_metadata t_low snd]. rewrite word_at_header. apply (tier_streams DbStream.Lowest i g buf_l); [discriminate | exact BL | exact Eg].
  Qed.
End Bound.
