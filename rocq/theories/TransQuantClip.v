(** Compressing a transform clip from the streams that compact_constant_streams leaves. *)
From Coq Require Import Lia Reals Permutation.
From Verif Require Import Word WordFacts Float32 Float32Facts Quant Interp Headers PackSpec ScalarDec Segment SegmentFacts SeekSpec Strip TransMeta TransMetaSpec TransDec TransSpec TransRing TransMem TransEnc TransEncSpec TransEncAnim2 TransEncBytes TransEncBytes2 TransEncBytes3
  TransClipSpec TransFile TransFileSizes TransFileFacts TransFilePack TransFilePlay TransSeek TransPlaySpec TransTop
  TransQuant TransQuantStream TransQuantRange TransQuantSub TransQuantSpec TransQuantError TransQuantTop TransQuantSize.
Import ListNotations.
Local Open Scope N_scope.
Ltac Zify.zify_post_hook ::= idtac.

(** the settings of compress_transform_track_list: compress.transform.impl.h:182-199 *)
Definition settings_of (p : tclip) : qsettings :=
  {| q_variable := p_variable p; q_full := rotation_full (p_rotation p); q_has_scale := p_has_scale p; q_split := 1 <? num_segments p |}.
Definition set_bones (g : tsegment) (bs : list tbone) : tsegment := {| g_bones := bs; g_num_samples := g_num_samples g; g_start := g_start g; g_hard := g_hard g |}.
Definition with_bones (p : tclip) (bss : list (list tbone)) : tclip :=
  {| p_segments := map (fun '(g, bs) => set_bones g bs) (combine (p_segments p) bss); p_mapping := p_mapping p;
     p_rotation := p_rotation p; p_translation := p_translation p; p_scale := p_scale p; p_has_scale := p_has_scale p; p_stripped := p_stripped p;
     p_num_samples := p_num_samples p; p_sample_rate := p_sample_rate p; p_default_scale := p_default_scale p; p_trivial_defaults := p_trivial_defaults p; p_wrap := p_wrap p |}.
(** compress_transform_track_list, compress.transform.impl.h:206-607, after compact_constant_streams: range reduction, segments and
    quantization, then the buffer.  [p]: the clip; the bones of its segments are ignored, they are what quantization gives.
    [rates]: what the search for bit rates finds, per segment and bone; [junk]: the contents of the allocations *)
Definition compress_sources (junk : N -> N -> channel -> N -> list N) (j : junks) (f : tflags) (list_name : list N) (tracks : list ttrack) (error : list N)
    (rates : N -> N -> channel -> N) (l : list source) (p : tclip) : outcome (list N) :=
  bindo (quantize_segments junk (settings_of p) rates l 0 0 (sizes_of p)) (fun bss => compress_transforms j f list_name tracks error (with_bones p bss)).

(** the input: the bones of the clip, of which at least one is output; bit rates from 0 to 24, and 0 only in clips that are split;
    [tracks], the names: the metadata *)
Record sources_input (list_name : list N) (tracks : list ttrack) (error : list N) (rates : N -> N -> channel -> N) (l : list source) (p : tclip) : Prop := {
  si_outputs : p_mapping p <> [];
  si_mapping : mapping_ok l (p_mapping p);
  si_sources : Forall (source_ok (settings_of p) (p_num_samples p)) l;
  si_rates : forall g i o ch, nth_error l (N.to_nat i) = Some o -> g < num_segments p -> o_constant o ch = false -> p_variable p ch = true -> rate_ok (settings_of p) (rates g i ch);
  si_size : (len l + 1) * (p_num_samples p + 1) < 2 ^ 22;
  si_bits : bits_ok p;
  si_timing : clip_timing p;
  si_hard : p_stripped p = true -> Forall (fun g => g_num_samples g <= 32 /\ g_hard g < 2 ^ 32 /\ forall k, g_num_samples g <= k < 32 -> N.testbit (g_hard g) (31 - k) = false) (p_segments p);
  si_count : length tracks = length l;
  si_descriptions : Forall (fun t => length (tt_description t) = 12%nat) tracks;
  si_names : bytes_ok list_name /\ Forall (fun t => bytes_ok (tt_name t)) tracks /\ bytes_ok error;
  si_text : blen list_name + blen error + output_names_size tracks (p_mapping p) < 2 ^ 30
}.
Definition contents (rates : N -> N -> channel -> N) (l : list source) (p : tclip) : list content := output_contents (settings_of p) (sizes_of p) rates l (p_mapping p).

Lemma settings_ok p : settings_match (settings_of p) (formats_of p).
Proof. constructor; [intros []; reflexivity | intros []; cbn; [destruct (p_rotation p) | |]; reflexivity | reflexivity | reflexivity]. Qed.
Lemma combine_fst {A B} (a : list A) (b : list B) : length b = length a -> map fst (combine a b) = a.
Proof. revert b. induction a as [| x a IH]; intros [| y b] H; try discriminate H; [reflexivity |]. cbn. f_equal. apply IH. injection H as H. exact H. Qed.
Lemma with_bones_map {A} (h : tsegment -> A) p bss : (forall g bs, h (set_bones g bs) = h g) -> length bss = length (p_segments p) -> map h (p_segments (with_bones p bss)) = map h (p_segments p).
Proof. intros H L. cbn [with_bones p_segments]. rewrite map_map. rewrite <- (combine_fst (p_segments p) bss L) at 2. rewrite map_map. apply map_ext. intros [g bs]. apply H. Qed.
Lemma with_bones_count p bss : length bss = length (p_segments p) -> num_segments (with_bones p bss) = num_segments p.
Proof. intros L. unfold num_segments. cbn [with_bones p_segments]. rewrite map_length, combine_length, L, Nat.min_id. reflexivity. Qed.
Lemma with_bones_formats p bss : length bss = length (p_segments p) -> formats_of (with_bones p bss) = formats_of p.
Proof. intros L. unfold formats_of. rewrite with_bones_count by exact L. reflexivity. Qed.
Lemma with_bones_timing p bss : length bss = length (p_segments p) -> clip_timing p -> clip_timing (with_bones p bss).
Proof.
  intros L [T1 T2 T3 T4 T5]. assert (ES : sizes_of (with_bones p bss) = sizes_of p) by (apply with_bones_map; [reflexivity | exact L]).
  constructor; try assumption.
  - rewrite ES. replace (map g_start (p_segments (with_bones p bss))) with (map g_start (p_segments p)) by (symmetry; apply with_bones_map; [reflexivity | exact L]). exact T4.
  - intros St. specialize (T5 St). set (h := fun g => (g_num_samples g, g_hard g)). set (P := fun x : N * N => present (snd x) 0 = true /\ present (snd x) (fst x - 1) = true).
    assert (Q : Forall P (map h (p_segments p))) by (rewrite Forall_map; exact T5). rewrite <- (with_bones_map h p bss) in Q; [| reflexivity | exact L]. rewrite Forall_map in Q. exact Q.
Qed.
Lemma combine_nth_error {A B} (a : list A) (b : list B) k x y : nth_error a k = Some x -> nth_error b k = Some y -> nth_error (combine a b) k = Some (x, y).
Proof. revert b k. induction a as [| z a IH]; intros [| w b] [| k] E1 E2; try discriminate; cbn in *; [congruence | apply IH; assumption]. Qed.
Lemma with_bones_nth p bss k g bs : nth_error (p_segments p) k = Some g -> nth_error bss k = Some bs -> nth_error (p_segments (with_bones p bss)) k = Some (set_bones g bs).
Proof. intros E1 E2. cbn [with_bones p_segments]. rewrite nth_error_map, (combine_nth_error _ _ _ _ _ E1 E2). reflexivity. Qed.
Lemma timing_split p : clip_timing p -> split_ok (settings_of p) (p_num_samples p) (sizes_of p) /\ (1 <= length (p_segments p))%nat.
Proof.
  intros T. pose proof (ti_samples _ T) as N1. change (2 ^ 22) with 4194304 in N1.
  assert (LS : length (sizes_of p) = length (p_segments p)) by apply map_length.
  assert (A : sumN (sizes_of p) = p_num_samples p /\ Forall (fun n => 1 <= n) (sizes_of p) /\ (1 <= length (p_segments p))%nat).
  { destruct (ti_segments _ T) as [E | (ideal & mx & H1 & H2 & H3 & H4 & H5 & H6 & _)].
    - rewrite E in *. cbn [sumN length] in *. split; [lia |]. split; [repeat constructor; lia | lia].
    - destruct (split_partition (p_num_samples p) ideal mx) as (sizes & E & _ & Q); [lia | change (2 ^ 32) with 4294967296; lia | change (2 ^ 32) with 4294967296; lia |]. rewrite H6 in E. injection E as <-. destruct (Q H5) as (Q1 & Q2 & Q3).
      split; [exact Q1 |]. split; [| lia]. eapply Forall_impl; [| exact Q2]. cbn beta. intros; lia. }
  destruct A as (A1 & A2 & A3). split; [| exact A3]. constructor; [exact A1 | exact A2 | | change (2 ^ 32) with 4294967296; lia].
  cbn [settings_of q_split]. intros Q. apply N.ltb_ge in Q. unfold num_segments in Q. lia.
Qed.
Lemma segments_from p out gs : forall i0, (forall k g, nth_error gs k = Some g -> segment_ok p out (i0 + N.of_nat k) g) -> segments_ok p out i0 gs.
Proof.
  induction gs as [| g gs IH]; intros i0 H; [exact I |]. split; [specialize (H 0%nat g eq_refl); change (N.of_nat 0) with 0 in H; rewrite N.add_0_r in H; exact H |].
  apply IH. intros k g' E. specialize (H (S k) g' E). replace (i0 + 1 + N.of_nat k) with (i0 + N.of_nat (S k)) by lia. exact H.
Qed.
Lemma sumN_ge l x : In x l -> x <= sumN l.
Proof. induction l as [| y l IH]; intros []; cbn [sumN]; [subst; lia | specialize (IH H); lia]. Qed.
Lemma count_le_sum l : Forall (fun n => 1 <= n) l -> N.of_nat (length l) <= sumN l.
Proof. induction 1 as [| x l H _ IH]; cbn [length sumN]; lia. Qed.

Theorem quantized_input junk list_name tracks error rates l p : sources_input list_name tracks error rates l p -> (forall g i ch, allocator_ok (junk g i ch)) ->
  exists bss, quantize_segments junk (settings_of p) rates l 0 0 (sizes_of p) = Ok bss /\ length bss = length (p_segments p) /\ clip_input list_name tracks error (with_bones p bss) (contents rates l p).
Proof.
  intros I AL. pose proof (si_timing _ _ _ _ _ _ I) as T. destruct (timing_split p T) as [SP NS]. set (q := settings_of p) in *. set (sizes := sizes_of p) in *.
  assert (LS : length sizes = length (p_segments p)) by apply map_length.
  destruct (quantize_segments_ok q (formats_of p) (p_num_samples p) sizes rates junk l (settings_ok p) SP AL (si_sources _ _ _ _ _ _ I)) with (rest := sizes) (pre := @nil N) as (bss & E & L & H).
  { intros g Hg k o ch Ek C V. rewrite N.add_0_l. apply (si_rates _ _ _ _ _ _ I _ _ o); [rewrite Nat2N.id; exact Ek | unfold num_segments; lia | exact C | exact V]. }
  { reflexivity. }
  cbn [length sumN] in E. change (N.of_nat 0) with 0 in E. cbn [length Nat.add] in H. cbv zeta in H. rewrite LS in L, H. exists bss. split; [exact E |]. split; [exact L |].
  set (p' := with_bones p bss). assert (EF : formats_of p' = formats_of p) by (apply with_bones_formats, L). assert (EN : num_segments p' = num_segments p) by (apply with_bones_count, L).
  assert (ESZ : sizes_of p' = sizes) by (apply with_bones_map; [reflexivity | exact L]).
  set (out := contents rates l p). pose proof (si_mapping _ _ _ _ _ _ I) as MP. pose proof (si_size _ _ _ _ _ _ I) as SZ. change (2 ^ 22) with 4194304 in SZ. pose proof (ti_samples _ T) as TS.
  assert (OL : len out = N.of_nat (length (p_mapping p))) by (unfold out, contents, output_contents, len; rewrite map_length; reflexivity).
  assert (IN : forall k, In k (p_mapping p) -> (N.to_nat k < length l)%nat). { intros k Hk. apply (mapping_in l _ k MP) in Hk as (o & Eo & _). apply nth_error_Some. congruence. }
  assert (ML : len out <= len l).
  { rewrite OL. unfold len. assert (length (map N.to_nat (p_mapping p)) <= length (seq 0 (length l)))%nat; [| rewrite map_length, seq_length in H0; lia].
    apply NoDup_incl_length; [apply FinFun.Injective_map_NoDup; [intros a b; apply N2Nat.inj | apply (mapping_nodup l), MP] |]. intros k Hk. apply in_map_iff in Hk as (x & <- & Hx). apply in_seq. specialize (IN x Hx). lia. }
  assert (LB : (len l + 1) * (p_num_samples p + 1) = len l * p_num_samples p + len l + p_num_samples p + 1) by lia.
  (* one segment *)
  assert (SEG : forall k g', nth_error (p_segments p') k = Some g' -> exists g bs, nth_error (p_segments p) k = Some g /\ nth_error bss k = Some bs /\ g' = set_bones g bs /\
    len bs = len l /\ Forall2 (bone_holds (formats_of p) (N.of_nat k) (g_num_samples g)) bs (contents_from q sizes rates 0 l) /\
    outputs bs (p_mapping p) (map (fun k => nth (N.to_nat k) bs blank_bone) (p_mapping p)) /\
    Forall2 (bone_holds (formats_of p) (N.of_nat k) (g_num_samples g)) (map (fun k => nth (N.to_nat k) bs blank_bone) (p_mapping p)) out).
  { intros k g' Ek. assert (Hk : (k < length (p_segments p))%nat). { assert (k < length (p_segments p'))%nat by (apply nth_error_Some; congruence). cbn [p' with_bones p_segments] in H0. rewrite map_length, combine_length in H0. lia. }
    destruct (H k Hk) as (bs & Eb & F1 & F2). destruct (nth_error (p_segments p) k) as [g |] eqn:Eg; [| apply nth_error_None in Eg; lia].
    assert (Eg' := with_bones_nth p bss k g bs Eg Eb). fold p' in Eg'. rewrite Ek in Eg'. injection Eg' as ->. assert (EK : nth k sizes 0 = g_num_samples g) by (unfold sizes, sizes_of; apply nth_error_nth; rewrite nth_error_map, Eg; reflexivity). rewrite EK in F2.
    pose proof (F2_length _ _ _ F1) as LL. exists g, bs. split; [reflexivity |]. split; [exact Eb |]. split; [reflexivity |]. split; [unfold len; rewrite LL; reflexivity |]. split; [exact F2 |]. split; [apply (outputs_ok bs l), MP; exact F1 |].
    apply selected; [exact F2 |]. intros x Hx. rewrite LL. apply IN, Hx. }
  assert (POS : forall k g, nth_error (p_segments p) k = Some g -> 1 <= g_num_samples g <= p_num_samples p).
  { intros k g Eg. assert (Is : In (g_num_samples g) sizes) by (apply in_map, (nth_error_In _ k), Eg). pose proof (sp_each _ _ _ SP) as F. rewrite Forall_forall in F. split; [apply F, Is |]. rewrite <- (sp_sum _ _ _ SP). apply sumN_ge, Is. }
  assert (POSE : forall k g', nth_error (p_segments p') k = Some g' -> pose_size p' out (N.of_nat k) <= 384 * len out).
  { intros k g' Ek. destruct (SEG k g' Ek) as (g & bs & Eg & _ & _ & _ & _ & _ & F). rewrite <- EF in F. apply (pose_bits_le p' _ out _ (g_num_samples g) (proj1 (POS k g Eg)) F). }
  constructor.
  - intros EQ. apply (si_outputs _ _ _ _ _ _ I). destruct (p_mapping p); [reflexivity |]. unfold len in OL. rewrite EQ in OL. cbn [length] in OL. lia.
  - change (2 ^ 32) with 4294967296. lia.
  - apply segments_from. intros k g' Ek. rewrite N.add_0_l. destruct (SEG k g' Ek) as (g & bs & Eg & _ & E' & _ & _ & O & F). pose proof (POSE k g' Ek) as P. pose proof (POS k g Eg) as PG. pose proof (stored_le p' g') as ST. rewrite E' in ST. cbn [set_bones g_num_samples] in ST. rewrite E'. clear g' Ek E'.
    constructor; cbn [set_bones g_bones g_num_samples g_hard].
    + lia.
    + exists (map (fun k => nth (N.to_nat k) bs blank_bone) (p_mapping p)). rewrite EF. split; [exact O | exact F].
    + set (ps := pose_size p' out (N.of_nat k)) in *. set (st := num_stored p' (set_bones g bs)) in *. clearbody ps st. change (2 ^ 32) with 4294967296.
      assert (ps * st <= 384 * len out * p_num_samples p) by (apply N.mul_le_mono; lia). assert (len out * p_num_samples p <= len l * p_num_samples p) by (apply N.mul_le_mono_r; lia). lia.
    + change (2 ^ 32) with 4294967296. lia.
    + intros St. pose proof (si_hard _ _ _ _ _ _ I St) as HH. rewrite Forall_forall in HH. apply HH. eapply nth_error_In, Eg.
  - destruct (p_segments p') as [| g' rest] eqn:Ep. { exfalso. assert (length (p_segments p') = length (p_segments p)) by (cbn [p' with_bones p_segments]; rewrite map_length, combine_length; lia). rewrite Ep in H0. cbn in H0. lia. }
    destruct (SEG 0%nat g' eq_refl) as (g & bs & Eg & Eb & E' & BL & F & O & _). rewrite E'.
    assert (NB : bs <> []). { intros Z. rewrite Z in BL. change (len []) with 0 in BL. assert (Z0 : N.of_nat (length (p_mapping p)) = 0) by lia. apply (si_outputs _ _ _ _ _ _ I). destruct (p_mapping p); [reflexivity | discriminate Z0]. }
    destruct bs as [| b0 bs]; [congruence |]. exists (set_bones g (b0 :: bs)), b0. split; [reflexivity |]. split; [reflexivity |]. cbn [set_bones g_bones].
    assert (CE : clip_end p' out (b0 :: bs) <= 128 * ((len (b0 :: bs) + 1) * (p_num_samples p + 1))).
    { apply clip_end_le.
      - intros i Hi. rewrite <- (N2Nat.id i). assert (Li : (N.to_nat i < length (p_segments p'))%nat) by (unfold num_segments in Hi; lia).
        destruct (nth_error (p_segments p') (N.to_nat i)) as [gi |] eqn:Ei; [| apply nth_error_None in Ei; lia]. rewrite Ep in Ei. exact (POSE _ gi Ei).
      - rewrite BL. exact ML.
      - rewrite ESZ. apply (sp_sum _ _ _ SP).
      - rewrite EN. unfold num_segments. rewrite <- LS. rewrite <- (sp_sum _ _ _ SP). apply count_le_sum, (sp_each _ _ _ SP). }
    rewrite BL in CE. pose proof (si_text _ _ _ _ _ _ I) as TX. change (2 ^ 30) with 1073741824 in TX. change (2 ^ 32) with 4294967296. cbn [p' with_bones p_mapping p_rotation]. split; [| split; [fold p'; lia |]].
    + intros V. destruct (contents_from q sizes rates 0 l) as [| c0 cs]; inversion F as [| ? ? ? ? F0 _]; subst. rewrite (bh_packed _ _ _ _ _ F0). cbn. destruct (p_rotation p); try discriminate V. discriminate.
    + fold p'. rewrite <- OL. lia.
  - exact (si_bits _ _ _ _ _ _ I).
  - apply with_bones_timing; [exact L | exact T].
  - cbn [p' with_bones p_mapping]. split; [apply Forall_forall; intros k Hk; specialize (IN k Hk); rewrite (si_count _ _ _ _ _ _ I); lia | apply (mapping_nodup l), MP].
  - exact (si_descriptions _ _ _ _ _ _ I).
  - rewrite (si_count _ _ _ _ _ _ I). unfold len in *. change (2 ^ 32) with 4294967296. lia.
  - exact (si_names _ _ _ _ _ _ I).
Qed.
