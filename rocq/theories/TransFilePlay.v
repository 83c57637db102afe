(** What a context reads in the finished buffer of a transform clip. *)
From Coq Require Import Lia Permutation.
From Verif Require Import Word WordFacts Pieces MemoryUtils MemoryFacts RewriteFacts LayoutFacts BitManip BitManipFacts Float32 Quant Headers HeadersFacts Packing PackSpec PackingFacts SubTracks SubTracksFacts DbBuild ScalarWrite ScalarDec ScalarRead ScalarRead
  TransDec TransSpec TransRing TransMem TransConst TransAnim TransAnim2 TransPose TransPoseFacts TransEnc TransEncSpec TransEncFacts TransEncAnim TransEncAnim2 TransEncBytes TransEncBytes2 TransEncBytes3
  TransClipSpec TransClip TransClip2 TransFile TransFileSizes TransFileBytes TransFileFacts TransFileSegs TransFilePack TransMeta TransFileMeta Strip Segment SeekSpec TransSeek.
Local Open Scope N_scope.
Ltac Zify.zify_post_hook ::= idtac.

(** * From the prefix to the clip *)
Section Sealed.
  Context (prefix m : list N).
  Hypothesis S : sealed prefix m.
  Lemma sealed_placed a l : placed prefix a l -> 32 <= a \/ 8 <= a /\ a + blen l <= 28 -> placed m a l.
  Proof.
    intros P Ha k b E. assert (Hk : (k < length l)%nat) by (apply nth_error_Some; congruence). pose proof (P k b E) as Q. rewrite (se_kept _ _ S); [exact Q | | apply nth_error_Some; congruence].
    unfold blen in Ha. lia.
  Qed.
  Lemma sealed_padded a l : placed prefix a l -> 32 <= a -> a + blen l <= blen prefix -> padded m a l.
  Proof. intros P Ha Hl. split; [apply sealed_placed; [exact P | left; exact Ha] |]. pose proof (se_size _ _ S). lia. Qed.
  Lemma sealed_load o n : 8 <= o /\ o + N.of_nat n <= 28 \/ 32 <= o -> o + N.of_nat n <= blen prefix -> load_bytes m o n = load_bytes prefix o n.
  Proof.
    intros Ho Hl. pose proof (se_size _ _ S). unfold load_bytes. rewrite (proj2 (N.leb_le _ _) Hl), (proj2 (N.leb_le (o + N.of_nat n) (blen m))) by lia. f_equal.
    apply list_ext_error. intros j. destruct (Nat.lt_ge_cases j n) as [Hj | Hj].
    - rewrite !nth_error_firstn' by exact Hj. rewrite !nth_error_skipn'. unfold blen in *. apply (se_kept _ _ S); lia.
    - rewrite !(proj2 (nth_error_None _ _)); [reflexivity | |]; rewrite firstn_length; lia.
  Qed.
  Lemma sealed_read o : 8 <= o /\ o + 4 <= 28 \/ 32 <= o -> o + 4 <= blen prefix -> read32 m o = read32 prefix o.
  Proof. intros Ho Hl. unfold read32, load_le. rewrite sealed_load; [reflexivity | exact Ho | exact Hl]. Qed.
  Lemma sealed_stored a bit l : stored_at (skipn (N.to_nat a) prefix) bit l -> 32 <= a -> 8 * a + bit + stored_sizes l <= 8 * blen prefix -> stored_at (skipn (N.to_nat a) m) bit l.
  Proof.
    intros St Ha Hl. apply (stored_at_ext (skipn (N.to_nat a) prefix)); [| exact St]. intros i Hi. rewrite !mbit_skipn. unfold mbit. symmetry.
    set (x := 8 * N.of_nat (N.to_nat a) + i). rewrite (nth_of_error m prefix); [reflexivity |].
    assert (x / 8 < blen prefix) by (apply N.div_lt_upper_bound; lia). assert (a <= x / 8) by (apply N.div_le_lower_bound; lia). apply (se_kept _ _ S); unfold blen in *; lia.
  Qed.
End Sealed.

(** * Segments by index *)
Section Nth.
  Context (p : tclip) (out : list content).
  Notation F := (formats_size (formats_of p) out).
  Notation R := (if 1 <? num_segments p then 6 * formats_size (formats_of p) out else 0).
  Notation hs := (header_stride p).
  Notation D := (data_size p out).
  Lemma segment_nth m gs : forall i0 at_ rel j g, headers_placed p out m i0 gs at_ rel -> segments_placed p out m i0 gs (32 + rel) -> segments_ok p out i0 gs -> nth_error gs j = Some g ->
    exists r, placed m (at_ + hs * N.of_nat j) (words (header_words p out (i0 + N.of_nat j) g r)) /\ segment_placed p out m (i0 + N.of_nat j) g (32 + r) /\ segment_ok p out (i0 + N.of_nat j) g /\
      rel <= r /\ next_base F R (D (i0 + N.of_nat j) g) (32 + r) <= bases_end F R (datas p out i0 gs) (32 + rel).
  Proof.
    induction gs as [| g t IH]; intros i0 at_ rel j g' HP SP SO E; [destruct j; discriminate |]. destruct HP as [HP1 HP2], SP as [SP1 SP2], SO as [SO1 SO2].
    unfold datas. cbn [sizes_from map bases_end]. fold (datas p out (i0 + 1) t). change (z_data (size_of p out i0 g)) with (D i0 g).
    pose proof (geometry F R (D i0 g) rel) as GE. pose proof (shifted 32 F R (D i0 g) rel eq_refl) as (_ & _ & SH).
    destruct j as [| j].
    - injection E as <-. change (N.of_nat 0) with 0. rewrite N.mul_0_r, !N.add_0_r. exists rel. split; [exact HP1 |]. split; [exact SP1 |]. split; [exact SO1 |]. split; [lia |]. apply bases_grow.
    - rewrite SH in SP2. destruct (IH (i0 + 1) (at_ + hs) (next_base F R (D i0 g) rel) j g' HP2 SP2 SO2 E) as (r & A & B & C & L1 & L2).
      replace (i0 + 1 + N.of_nat j) with (i0 + N.of_nat (S j)) in * by lia. replace (at_ + hs + hs * N.of_nat j) with (at_ + hs * N.of_nat (S j)) in A by lia.
      exists r. split; [exact A |]. split; [exact B |]. split; [exact C |]. split; [lia |]. rewrite SH. exact L2.
  Qed.
End Nth.

(** * The header *)
Definition header_fields (p : tclip) (b : bool) : list (hfield * N) :=
  [(RotationFormat, rotation_format_code (p_rotation p)); (TranslationFormat, b2n (p_translation p)); (ScaleFormat, b2n (p_scale p)); (HasScale, b2n (p_has_scale p));
   (DefaultScale, p_default_scale p); (HasDatabase, 0); (HasTrivialDefaults, p_trivial_defaults p); (HasStrippedKeyframes, b2n (p_stripped p)); (IsWrapOptimized, p_wrap p); (HasMetadata, b2n b)].
Definition bits_ok (p : tclip) : Prop := p_default_scale p <= 1 /\ p_trivial_defaults p <= 1 /\ p_wrap p <= 1.
Lemma header_bits_run p : header_bits p = hrun 0 (firstn 9 (header_fields p true)). Proof. reflexivity. Qed.
Lemma sealed_bits_run p b : set_has_metadata (header_bits p) (b2n b) = hrun 0 (header_fields p b). Proof. reflexivity. Qed.
Lemma b2n_lt b : b2n b < 2. Proof. destruct b; reflexivity. Qed.
Lemma fields_fit p b : bits_ok p -> Forall (fun fv => snd fv < hcard (fst fv)) (header_fields p b).
Proof.
  intros (B1 & B2 & B3). unfold header_fields. repeat constructor; cbn [fst snd hcard]; try apply b2n_lt; try lia. destruct (p_rotation p); reflexivity.
Qed.
Lemma header_bits_lt p : bits_ok p -> header_bits p < 2 ^ 32.
Proof.
  intros B. rewrite header_bits_run. apply hrun_spec; [reflexivity |]. pose proof (fields_fit p true B) as FF. rewrite <- (firstn_skipn 9 (header_fields p true)) in FF. apply Forall_app in FF as [FF _]. exact FF.
Qed.
Lemma header_get p b : bits_ok p -> let misc := set_has_metadata (header_bits p) (b2n b) in
  misc < 2 ^ 32 /\ get_rotation_format misc = rotation_format_code (p_rotation p) /\ get_translation_format misc = b2n (p_translation p) /\ get_scale_format misc = b2n (p_scale p) /\
  get_has_scale misc = b2n (p_has_scale p) /\ get_has_database misc = 0 /\ get_has_stripped_keyframes misc = b2n (p_stripped p) /\ get_is_wrap_optimized misc = p_wrap p.
Proof.
  intros B misc. unfold misc. rewrite sealed_bits_run. destruct (hrun_spec (header_fields p b) 0 eq_refl (fields_fit p b B)) as [L G]. split; [exact L |].
  repeat split; [exact (G RotationFormat) | exact (G TranslationFormat) | exact (G ScaleFormat) | exact (G HasScale) | exact (G HasDatabase) | exact (G HasStrippedKeyframes) | exact (G IsWrapOptimized)].
Qed.

Section Play.
  Context (p : tclip) (out : list content) (g0 : tsegment) (rest : list tsegment) (b0 : tbone).
  Hypothesis K : clip_ok p out g0 rest b0.
  Hypothesis Bits : bits_ok p.
  Hypothesis Some_tracks : out <> [].
  Hypothesis Samples : p_num_samples p < 2 ^ 32.
  Notation f := (formats_of p).
  Notation F := (formats_size (formats_of p) out).
  Notation R := (if 1 <? num_segments p then 6 * formats_size (formats_of p) out else 0).
  Notation hs := (header_stride p).
  Notation D := (data_size p out).
  Notation bones := (g_bones g0).
  Context (prefix m : list N).
  Hypothesis P : packed p out g0 prefix.
  Hypothesis S : sealed prefix m.

  Lemma out_len : len out =? 0 = false. Proof. destruct out; [congruence | reflexivity]. Qed.
  Lemma size_bounds : 84 <= headers_at p /\ headers_at p <= types_at p /\ types_at p <= constants_at p out /\ constants_at p out <= clip_ranges_at p out /\ clip_ranges_at p out <= segments_at p out bones /\
    segments_at p out bones <= blen prefix /\ blen prefix + 64 < 2 ^ 32 /\ blen prefix + 15 <= blen m.
  Proof. pose proof (ats_le p out bones) as L. pose proof (pk_size _ _ _ _ P) as E. pose proof (co_end _ _ _ _ _ K). pose proof (se_size _ _ S). lia. Qed.

  Lemma header_words_placed : placed prefix 16 (words [len out; p_num_samples p; f_bits (p_sample_rate p); header_bits p]).
  Proof.
    pose proof (pk_header _ _ _ _ P) as H. unfold raw_header in H. rewrite out_len in H. apply placed_app in H as [_ H]. apply placed_app in H as [_ H]. apply placed_app in H as [_ H].
    rewrite le4_blen in H. unfold blen at 1 in H. rewrite le_bytes_length in H. exact H.
  Qed.
  Lemma read_num_tracks : h_num_tracks m = Ok (len out).
  Proof.
    pose proof size_bounds. unfold h_num_tracks. rewrite (sealed_read prefix m S) by lia. apply (read_word _ 16 _ 0 _ header_words_placed); [reflexivity |]. pose proof (co_tracks _ _ _ _ _ K). lia.
  Qed.
  Lemma read_num_samples : h_num_samples m = Ok (p_num_samples p).
  Proof. pose proof size_bounds. unfold h_num_samples. rewrite (sealed_read prefix m S) by lia. apply (read_word _ 16 _ 1 _ header_words_placed); [reflexivity | exact Samples]. Qed.
  Lemma read_rate : h_sample_rate m = Ok (p_sample_rate p).
  Proof.
    pose proof size_bounds. unfold h_sample_rate. rewrite (sealed_read prefix m S) by lia. change 24 with (16 + 4 * 2). rewrite (read_word _ 16 _ 2 _ header_words_placed eq_refl) by apply TransEncBytes.f_bits_lt. cbn [bindo]. rewrite f_of_bits_bits. reflexivity.
  Qed.
  Lemma read_version : h_version m = Ok 10.
  Proof.
    pose proof size_bounds. unfold h_version, load_le. rewrite (sealed_load prefix m S) by (change (N.of_nat 2) with 2; lia).
    pose proof (pk_header _ _ _ _ P) as H0. unfold raw_header in H0. apply placed_app in H0 as [_ H0]. apply placed_app in H0 as [H0 _]. rewrite le4_blen in H0. change (8 + 4) with 12 in H0.
    destruct (load_bytes_placed prefix 12 (le_bytes 2 version_latest) 2 H0) as (r & -> & Hr); [rewrite le_bytes_length; lia | change (N.of_nat 2) with 2; lia |]. rewrite le_bytes_length in Hr. destruct r; [| cbn in Hr; lia]. reflexivity.
  Qed.
  Lemma read_misc : exists b, h_misc m = Ok (set_has_metadata (header_bits p) (b2n b)).
  Proof. apply (se_misc _ _ S). unfold h_misc. apply (read_word _ 16 _ 3 _ header_words_placed); [reflexivity | apply header_bits_lt, Bits]. Qed.

  Lemma num_segments_lt : num_segments p < 2 ^ 32.
  Proof. pose proof size_bounds as L. unfold types_at, headers_size, header_stride in L. destruct (p_stripped p); lia. Qed.
  Lemma clip_small : len out < 2 ^ 32. Proof. pose proof (co_tracks _ _ _ _ _ K). lia. Qed.
  (** the members of the transform header *)
  Lemma read_member k w : k < 13 -> k <> 7 -> nth_error [num_segments p; F; len (ct_animated Rotation out); len (ct_animated Translation out); len (ct_animated Scale out);
     len (ct_constants Rotation out); len (ct_constants Translation out); 0; 0xFFFFFFFF; headers_at p - 32; types_at p - 32; constants_at p out - 32; clip_ranges_at p out - 32] (N.to_nat k) = Some w ->
    read32 m (32 + 4 * k) = Ok w.
  Proof.
    intros Hk Hk7 E. pose proof size_bounds as SB. rewrite (sealed_read prefix m S) by lia.
    assert (W : w < 2 ^ 32).
    { pose proof num_segments_lt. pose proof clip_small. pose proof (small_F p out g0 rest b0 K).
      assert (A : forall ch, len (ct_animated ch out) <= len out) by (intros ch; apply filter_le). assert (C : forall ch, len (ct_constants ch out) <= len out) by (intros ch; apply filter_le).
      apply nth_error_In in E. cbn [In] in E. pose proof (A Rotation). pose proof (A Translation). pose proof (A Scale). pose proof (C Rotation). pose proof (C Translation).
      repeat (destruct E as [<- | E]; [first [assumption | lia] |]). contradiction. }
    apply (read_word _ 32 _ k w (pk_transform_header _ _ _ _ P)); [| exact W].
    assert (X : k = 0 \/ k = 1 \/ k = 2 \/ k = 3 \/ k = 4 \/ k = 5 \/ k = 6 \/ k = 8 \/ k = 9 \/ k = 10 \/ k = 11 \/ k = 12) by lia.
    decompose [or] X; subst k; exact E.
  Qed.

  (** segment [i] in the clip *)
  Record segment_in (i : nat) (g : tsegment) (rel : N) : Prop := {
    si_header : placed m (headers_at p + hs * N.of_nat i) (words (header_words p out (N.of_nat i) g rel));
    si_ok : segment_ok p out (N.of_nat i) g;
    si_formats : forall k, k < g_num_samples g -> padded m (32 + rel) (segment_formats f out (N.of_nat i) k);
    si_ranges : 1 < num_segments p -> forall k, k < g_num_samples g -> padded m (ranges_at F (32 + rel)) (segment_ranges f out (N.of_nat i) k);
    si_data : forall k, k < g_num_samples g -> kept_of p g k = true ->
      stream (skipn (N.to_nat (animated_at F R (32 + rel))) m) (kept_before (kept_of p g) k * pose_size p out (N.of_nat i)) (key_frame_samples f out (N.of_nat i) k);
    si_rel : rel + F + R + 48 < 2 ^ 32;
    si_pose : pose_size p out (N.of_nat i) * num_stored p g < 2 ^ 32
  }.
  Lemma segment_found i g : nth_error (p_segments p) i = Some g -> exists rel, segment_in i g rel.
  Proof.
    intros E. pose proof size_bounds as SB. pose proof (pk_size _ _ _ _ P) as PS. pose proof (pk_segments _ _ _ _ P) as SP. replace (segments_at p out bones) with (32 + (segments_at p out bones - 32)) in SP by lia.
    destruct (segment_nth p out prefix _ 0 (headers_at p) (segments_at p out bones - 32) i g (pk_headers _ _ _ _ P) SP (co_ok _ _ _ _ _ K) E) as (r & A & B & C & L1 & L2). rewrite N.add_0_l in *.
    replace (32 + (segments_at p out bones - 32)) with (segments_at p out bones) in L2 by lia. fold (clip_end p out bones) in L2. pose proof (geometry F R (D (N.of_nat i) g) (32 + r)) as GE.
    destruct (so_holds _ _ _ _ C) as (l & O & H). pose proof (small_out p out g0 rest b0 K) as SO.
    assert (HL : headers_at p + hs * num_segments p <= segments_at p out bones) by (unfold types_at, headers_size in SB; lia).
    exists r. constructor.
    - apply (sealed_placed prefix m S); [exact A | left; lia].
    - exact C.
    - intros k Hk. apply (sealed_padded prefix m S); [exact (sp_formats _ _ _ _ _ _ B k Hk) | lia |]. rewrite (segment_formats_blen f _ out _ k Hk SO). lia.
    - intros H1 k Hk. apply (sealed_padded prefix m S); [exact (sp_ranges _ _ _ _ _ _ B H1 k Hk) | lia |]. rewrite (segment_ranges_blen f _ l out _ k H Hk SO). apply N.ltb_lt in H1. rewrite H1 in *. lia.
    - intros k Hk Kp. pose proof (frame_end p out SO (small_F p out g0 rest b0 K) (N.of_nat i) g k C Hk Kp) as FE.
      assert (LD : blen (skipn (N.to_nat (animated_at F R (32 + r))) m) = blen m - animated_at F R (32 + r)) by (unfold blen; rewrite skipn_length; lia).
      constructor.
      + apply bytes_ok_skipn, (se_bytes _ _ S).
      + apply (sealed_stored prefix m S); [exact (sp_data _ _ _ _ _ _ B k Hk Kp) | lia | lia].
      + pose proof (so_bits _ _ _ _ C) as WB. pose proof (kept_before_le (kept_of p g) k _ Hk Kp) as KL. fold (num_stored p g) in KL.
        rewrite (same_frame_size f _ _ l out H k 0) by (try exact Hk; lia). change (stored_sizes (key_frame_samples f out (N.of_nat i) 0)) with (pose_size p out (N.of_nat i)).
        set (x := pose_size p out (N.of_nat i)) in *. set (a := kept_before (kept_of p g) k) in *. set (n := num_stored p g) in *. clearbody x a n. nia.
      + rewrite LD. lia.
    - lia.
    - pose proof (so_bits _ _ _ _ C). lia.
  Qed.
End Play.
