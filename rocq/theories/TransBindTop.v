(** Binding a compressed clip to a database: the clip that was compressed is ready for it, and what stays of its metadata. *)
From Coq Require Import Lia Reals.
From Verif Require Import Word WordFacts Pieces MemoryUtils MemoryFacts Float32 Float32Facts Interp Headers Packing PackSpec PackingFacts DbTiers DbBuild DbStream ClipRewrite SeekSpec Strip Segment.
From Verif Require Import ScalarEnc ScalarDec ScalarWrite ScalarMeta TrackArray LayoutSpec LayoutFacts SubTracks TransDec TransSpec TransRing TransMem TransClipSpec TransSeek TransEnc TransFile TransFileSizes TransFileBytes TransFileFacts TransFileSegs TransFilePack TransMeta TransMetaSpec TransMetaFacts TransPlaySpec TransTop
  TransBind BindSpec TransBindMem TransBindSrc TransBindParts TransBindFill TransBindClip.
Import ListNotations.
Local Open Scope N_scope.
Ltac Zify.zify_post_hook ::= idtac.

(** the flags of a clip once it is bound: the contributing error is not kept *)
Definition without_error (f : tflags) : tflags :=
  {| f_list_name := f_list_name f; f_names := f_names f; f_parents := f_parents f; f_descriptions := f_descriptions f; f_error := false |}.

Lemma compress_prefix j f ln tracks error p out src : clip_input ln tracks error p out -> junks_ok j -> compress_transforms j f ln tracks error p = Ok src ->
  exists prefix, transform_clip ln tracks (p_mapping p) error prefix /\ add_metadata f ln tracks (p_mapping p) error prefix = Ok src /\ p_mapping p <> [].
Proof.
  intros I (J1 & J2 & J3) CO. destruct (ci_first _ _ _ _ _ I) as (g0 & b0 & E0 & Eb & PK & CE & FT).
  destruct (p_segments p) as [| g rest] eqn:ES; [discriminate |]. injection E0 as ->.
  assert (K : clip_ok p out g0 rest b0). { constructor; try assumption; [apply (ci_segments _ _ _ _ _ I) | apply (ci_small _ _ _ _ _ I)]. }
  destruct (pack_ok p out g0 rest b0 K _ _ _ J1 J2 J3) as (prefix & EP & P). destruct (packed_header p out g0 rest b0 prefix K (ci_tracks _ _ _ _ _ I) P) as (H1 & H2 & H3).
  exists prefix. split.
  - constructor; try apply I; try assumption; [apply (pk_bytes _ _ _ _ P) |]. rewrite (pk_size _ _ _ _ P). exact FT.
  - split; [unfold compress_transforms in CO; rewrite EP in CO; exact CO |]. pose proof (mapping_len p out g0 rest b0 K) as ML. pose proof (ci_tracks _ _ _ _ _ I) as NE. intros Z. rewrite Z in ML. destruct out; [congruence |]. cbn in ML. unfold len in ML. cbn [length] in ML. lia.
Qed.

Section Meta.
  Context (f : tflags) (ln : list N) (tracks : list ttrack) (mapping error prefix src : list N).
  Hypothesis W : transform_clip ln tracks mapping error prefix.
  Hypothesis E : add_metadata f ln tracks mapping error prefix = Ok src.
  Hypothesis FE : f_error f = true.
  Hypothesis NE : error <> [].
  Hypothesis NM : mapping <> [].

  Lemma the_sections : exists ts h x1 x2 x3 x4 x5, output_tracks tracks mapping = Ok ts /\ metadata_header src = Ok h /\ got f ln mapping error src h ts /\
    read32 src h = Ok (opt (f_list_name f) x1) /\ read32 src (h + 4) = Ok (opt (f_names f) x2) /\ read32 src (h + 8) = Ok (opt (f_descriptions f || f_parents f) x3) /\
    read32 src (h + 12) = Ok (opt (f_descriptions f) x4) /\ read32 src (h + 16) = Ok x5 /\
    x1 + blen (body_of (f_list_name f) [name_chunk ln]) <= x2 /\ x2 + blen (body_of (f_names f) (names_chunks (map tt_name ts))) <= x3 /\ x3 + blen (body_of (f_descriptions f || f_parents f) (map word (parent_words mapping ts))) <= x4 /\ x4 + blen (body_of (f_descriptions f) (desc_bytes ts)) <= x5 /\ x5 <= blen src /\ x5 < 2 ^ 32 - 64.
  Proof.
    destruct (clip_got f ln tracks mapping error prefix W) as (m & ts & EM & OT & HN & HV & CASES). rewrite E in EM. injection EM as <-.
    destruct CASES as [(HM & h & MH & G) | (_ & _ & Q & _)]; [| elim NE; apply Q; exact FE].
    destruct (clip_order f ln tracks mapping error prefix W src ts OT E HM) as (h' & x1 & x2 & x3 & x4 & x5 & MH' & R1 & R2 & R3 & R4 & R5 & L). rewrite MH in MH'. injection MH' as <-.
    exists ts, h, x1, x2, x3, x4, x5. split; [exact OT |]. split; [exact MH |]. split; [exact G |]. cbn [effective_flags f_list_name f_names f_parents f_descriptions f_error] in *. rewrite FE in R5. cbn [opt] in R5. auto 10.
  Qed.
  Lemma meta_ready : exists mh e0 e1 e2 e3 e4, metadata_ready src mh e0 e1 e2 e3 e4.
  Proof.
    destruct the_sections as (ts & h & x1 & x2 & x3 & x4 & x5 & OT & MH & _ & R1 & R2 & R3 & R4 & R5 & L1 & L2 & L3 & L4 & L5 & L6).
    exists h, (opt (f_list_name f) x1), (opt (f_names f) x2), (opt (f_descriptions f || f_parents f) x3), (opt (f_descriptions f) x4), x5.
    split; [exact MH |]. split; [exact R1 |]. split; [exact R2 |]. split; [exact R3 |]. split; [exact R4 |]. split; [exact R5 |]. change (2 ^ 32 - 64) with 4294967232 in L6.
    assert (V5 : ptr_is_valid x5 = true) by (apply (opt_ok true x5); change (2 ^ 32 - 64) with 4294967232; lia). split; [| exact V5].
    cbn [entries_ok]. rewrite V5. rewrite !opt_ok by (change (2 ^ 32 - 64) with 4294967232; lia). clear - L1 L2 L3 L4 L5.
    destruct (f_list_name f), (f_names f), (f_descriptions f || f_parents f), (f_descriptions f); cbn [opt]; lia.
  Qed.

  Context (m : list N) (e0 e1 e2 e3 e4 mh : N).
  Hypothesis Me : metadata_ready src mh e0 e1 e2 e3 e4.
  Hypothesis Mk : metadata_kept src m e0 e1 e2 e3 e4.
  Hypothesis Sm : blen m + 64 < 4294967296.

  Lemma section_copied h on b h' e s : section_at src h on b -> read32 src h = Ok e -> (on = true -> b <> [] /\ blen b <= s) -> (on = false -> b = [] /\ s = 0) -> entry_copied m h' src e s -> section_at m h' on b.
  Proof.
    intros (a & rest & Es & Lb & R) Re T F EC. rewrite R in Re. injection Re as <-. unfold entry_copied in EC. destruct on; cbn [opt] in *.
    - destruct (T eq_refl) as (NB & LS). assert (BN : 0 < blen b) by (destruct b; [congruence | unfold blen; cbn [length]; lia]). destruct (N.eqb_spec s 0) as [Z | Z]; [lia |]. destruct EC as (o & Ro & _ & _ & Lo & SA).
      exists (firstn (N.to_nat o) m), (skipn (N.to_nat o + length b) m). assert (LM : (N.to_nat o + length b <= length m)%nat) by (unfold blen in *; lia).
      assert (BF : blen (firstn (N.to_nat o) m) = o) by (unfold blen; rewrite firstn_length; lia). split; [| split; [rewrite BF; change (2 ^ 32 - 64) with 4294967232; lia | rewrite BF; exact Ro]].
      rewrite <- (firstn_skipn (N.to_nat o) m) at 1. f_equal. rewrite <- (skipn_twice m (length b) (N.to_nat o)).
      rewrite <- (firstn_skipn (length b) (skipn (N.to_nat o) m)) at 1. f_equal.
      apply list_ext. intros k. destruct (Nat.lt_ge_cases k (length b)) as [Hk | Hk].
      + rewrite nth_error_firstn by exact Hk. rewrite nth_error_skipn. rewrite (SA k) by (unfold blen in *; lia). rewrite Es at 1.
        replace (N.to_nat (blen a)) with (length a) by (unfold blen; lia). rewrite nth_error_app2 by lia. rewrite nth_error_app1 by lia. f_equal. lia.
      + rewrite (proj2 (nth_error_None b k) Hk). apply nth_error_None. rewrite firstn_length. lia.
    - destruct (F eq_refl) as (-> & ->). cbn in EC. exists [], m. split; [reflexivity |]. split; [reflexivity | exact EC].
  Qed.

  Lemma word_nonempty (l : list N) : l <> [] -> concat (map word l) <> [].
  Proof. destruct l as [| x l]; [congruence |]. intros _ Z. apply (f_equal blen) in Z. cbn [map concat] in Z. rewrite blen_app in Z. unfold word in Z. rewrite le4_blen in Z. change (blen []) with 0 in Z. lia. Qed.

  Lemma sections_kept ts : output_tracks tracks mapping = Ok ts -> sections_in (without_error f) ln mapping error m ts.
  Proof.
    intros OT. destruct the_sections as (ts' & h & x1 & x2 & x3 & x4 & x5 & OT' & MH & (G1 & G2 & G3 & G4 & _) & R1 & R2 & R3 & R4 & R5 & L1 & L2 & L3 & L4 & L5 & L6). rewrite OT in OT'. injection OT' as <-.
    destruct (output_tracks_nth _ _ _ OT) as [LT _]. pose proof (output_tracks_forall _ _ _ _ (tc_descriptions _ _ _ _ _ W) OT) as D. pose proof (desc_len ts D) as [DL _].
    assert (NT : 0 < N.of_nat (length ts)) by (destruct mapping; [congruence | cbn [length] in LT; lia]).
    destruct Me as (MH' & Q1 & Q2 & Q3 & Q4 & Q5 & _ & V5). rewrite MH in MH'. injection MH' as <-. rewrite R1 in Q1. injection Q1 as <-. rewrite R2 in Q2. injection Q2 as <-. rewrite R3 in Q3. injection Q3 as <-. rewrite R4 in Q4. injection Q4 as <-. rewrite R5 in Q5. injection Q5 as <-.
    cbn [effective_flags f_list_name f_names f_parents f_descriptions f_error] in G1, G2, G3, G4. unfold sections_in, got. cbn [effective_flags without_error f_list_name f_names f_parents f_descriptions f_error].
    set (b1 := body_of (f_list_name f) [name_chunk ln]) in *. set (b2 := body_of (f_names f) (names_chunks (map tt_name ts))) in *. set (b3 := body_of (f_descriptions f || f_parents f) (map word (parent_words mapping ts))) in *. set (b4 := body_of (f_descriptions f) (desc_bytes ts)) in *.
    assert (N1 : f_list_name f = true -> 0 < blen b1). { intros Q. unfold b1. rewrite Q. cbn [body_of concat]. rewrite app_nil_r. unfold name_chunk. rewrite blen_app. change (blen [0]) with 1. lia. }
    assert (N2 : f_names f = true -> 0 < blen b2). { intros Q. unfold b2. rewrite Q. cbn [body_of]. rewrite names_len, map_length. lia. }
    assert (N3 : f_descriptions f || f_parents f = true -> 0 < blen b3). { intros Q. unfold b3. rewrite Q. cbn [body_of]. rewrite parent_words_len. lia. }
    assert (N4 : f_descriptions f = true -> 0 < blen b4). { intros Q. unfold b4. rewrite Q. cbn [body_of]. rewrite DL. lia. }
    assert (O1 : f_list_name f = false -> b1 = []) by (intros Q; unfold b1; rewrite Q; reflexivity). assert (O2 : f_names f = false -> b2 = []) by (intros Q; unfold b2; rewrite Q; reflexivity).
    assert (O3 : f_descriptions f || f_parents f = false -> b3 = []) by (intros Q; unfold b3; rewrite Q; reflexivity). assert (O4 : f_descriptions f = false -> b4 = []) by (intros Q; unfold b4; rewrite Q; reflexivity).
    clearbody b1 b2 b3 b4. change (2 ^ 32 - 64) with 4294967232 in L6.
    set (a2 := f_descriptions f || f_parents f) in *. assert (AD : f_descriptions f = true -> a2 = true) by (intros Q; unfold a2; rewrite Q; reflexivity).
    assert (V : forall b x, x <= x5 -> ptr_is_valid (opt b x) = b) by (intros b x L; apply opt_ok; change (2 ^ 32 - 64) with 4294967232; lia).
    unfold metadata_kept in Mk. cbv zeta in Mk. unfold metadata_span in Mk. cbn [find] in Mk. rewrite !V, V5 in Mk by lia.
    set (s0 := if negb (f_list_name f) then 0 else _) in Mk. set (s1 := if negb (f_names f) then 0 else _) in Mk. set (s2 := if negb a2 then 0 else _) in Mk. set (s3 := if negb (f_descriptions f) then 0 else _) in Mk.
    assert (SW : forall x y, y <= x -> x <= x5 -> subw 32 x y = x - y) by (intros x y K1 K2; apply subw_ge; change (2 ^ 32) with 4294967296; lia).
    assert (S0 : f_list_name f = true -> blen b1 <= s0). { intros Q. unfold s0. rewrite Q. cbn [negb opt]. destruct (f_names f); [| destruct a2; [| destruct (f_descriptions f)]]; cbn [opt]; rewrite SW by (clear - L1 L2 L3 L4; lia); clear - L1 L2 L3 L4; lia. }
    assert (S1 : f_names f = true -> blen b2 <= s1). { intros Q. unfold s1. rewrite Q. cbn [negb opt]. destruct a2; [| destruct (f_descriptions f)]; cbn [opt]; rewrite SW by (clear - L1 L2 L3 L4; lia); clear - L1 L2 L3 L4; lia. }
    assert (S2 : a2 = true -> blen b3 <= s2). { intros Q. unfold s2. rewrite Q. cbn [negb opt]. destruct (f_descriptions f); cbn [opt]; rewrite SW by (clear - L1 L2 L3 L4; lia); clear - L1 L2 L3 L4; lia. }
    assert (S3 : f_descriptions f = true -> blen b4 <= s3). { intros Q. unfold s3. rewrite Q. cbn [negb opt]. rewrite SW by (clear - L1 L2 L3 L4; lia); clear - L1 L2 L3 L4; lia. }
    assert (Z0 : f_list_name f = false -> s0 = 0) by (intros Q; unfold s0; rewrite Q; reflexivity). assert (Z1 : f_names f = false -> s1 = 0) by (intros Q; unfold s1; rewrite Q; reflexivity).
    assert (Z2 : a2 = false -> s2 = 0) by (intros Q; unfold s2; rewrite Q; reflexivity). assert (Z3 : f_descriptions f = false -> s3 = 0) by (intros Q; unfold s3; rewrite Q; reflexivity).
    clearbody s0 s1 s2 s3.
    assert (NB : forall b : list N, 0 < blen b -> b <> []) by (intros b Q ->; change (blen []) with 0 in Q; clear - Q; lia).
    destruct Mk as [(HM & K0 & K1 & K2 & K3) | (HM & h' & MH' & K4 & K0 & K1 & K2 & K3)]; [right | left]; (split; [exact HM |]).
    - split; [destruct (f_list_name f); [specialize (S0 eq_refl); specialize (N1 eq_refl); lia | reflexivity] |]. split; [discriminate |]. intros _.
      split; [destruct (f_names f); [specialize (S1 eq_refl); specialize (N2 eq_refl); lia | reflexivity] |].
      split; [destruct a2; [specialize (S2 eq_refl); specialize (N3 eq_refl); lia | reflexivity] | destruct (f_descriptions f); [specialize (S3 eq_refl); specialize (N4 eq_refl); lia | reflexivity]].
    - exists h'. split; [exact MH' |].
      split; [apply (section_copied h _ _ h' _ s0 G1 R1); [auto | auto | exact K0] |]. split; [apply (section_copied (h + 4) _ _ (h' + 4) _ s1 G2 R2); [auto | auto | exact K1] |].
      split; [apply (section_copied (h + 8) _ _ (h' + 8) _ s2 G3 R3); [auto | auto | exact K2] |]. split; [apply (section_copied (h + 12) _ _ (h' + 12) _ s3 G4 R4); [auto | auto | exact K3] |].
      exists [], m. split; [reflexivity |]. split; [reflexivity | exact K4].
  Qed.
End Meta.
