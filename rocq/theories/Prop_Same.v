(** C45: compression is deterministic. The bytes of a compressed clip do not depend on what memory contained before: the buffers that the
    writers leave uninitialized, and the streams that are allocated for the quantized samples.
    Model: TransList.v, TransQuant.v, TransFile.v, TransEnc.v. Vocabulary: as for C44 (Prop_List.v); [junks]: the contents of the local buffers
    (TransTop.v); [allocator_ok]: an allocation of n bytes is n bytes (TransQuantStream.v). *)
From Coq Require Import Lia Permutation.
From Verif Require Import Word WordFacts Float32 Quant Interp Segment SeekSpec Strip TransMeta TransMetaSpec TransDec TransRing TransEnc TransEncSpec TransEncBytes2
  TransClipSpec TransFile TransFileSizes TransFileFacts TransFilePack TransPlaySpec TransTop TransQuant TransQuantStream TransQuantSub TransQuantTop TransQuantClip TransSame TransSame2
  TransList TransListSpec TransListFacts TransListTop TransListClip TransExample Prop_Trans Prop_Quant Prop_List.
Import ListNotations.
Local Open Scope N_scope.
Ltac Zify.zify_post_hook ::= idtac.

(** Tracks that can be compressed have one compressed form: [m] is chosen before the contents of memory are. *)
Theorem C45_one_compressed_form : forall R M s additive1 stripped hard lp n rate ts list_name tracks error f,
  list_input R s n rate ts -> finite_samples R s ts -> described list_name tracks error ts ->
  exists p n' wrapped fates,
    clip_of s additive1 n' wrapped stripped hard rate p /\ loops R M s lp n ts n' wrapped /\
    (forall i y, nth_error ts i = Some y -> forall ch, fate_ok R M s (N.of_nat i) n' (y_default y) (prepared_samples R s n' y) (fates i) ch) /\
    forall rates, stripping_ok p -> rates_legal p rates fates ->
    exists m, forall junk j, (forall g i ch, allocator_ok (junk g i ch)) -> junks_ok j ->
      compress_list R M s additive1 stripped hard rates junk j f list_name tracks error lp rate ts = Ok (Some m).
Proof.
  intros R M s additive1 stripped hard lp n rate ts list_name tracks error f I FIN DE.
  destruct (prepare_ok R M s additive1 stripped hard lp n rate ts I (proj2 (finite_iff _ _ _ _ _ I) FIN)) as (x & n' & wr & EP & CO & B & W1 & W2 & LS & SO & NE & MP & HS & TI & TD).
  assert (TD1 : p_trivial_defaults (pr_clip x) <= 1) by (rewrite TD; destruct (has_trivial_default_values _ _ _ _); lia).
  exists (pr_clip x), n', wr, (fates_of R s n' ts (pr_sources x)). split; [exact CO |]. split; [split; assumption |].
  split; [intros i y Ey; eapply fates_right; eassumption |].
  intros rates ST RL. assert (SI : sources_input list_name tracks error rates (pr_sources x) (pr_clip x)) by (eapply tracks_input; eassumption).
  destruct (quantized_input ex_allocator list_name tracks error rates _ _ SI ex_allocator_ok) as (bss & EQ & L & CI).
  destruct (compress_made ex_junks f list_name tracks error (with_bones (pr_clip x) bss) (contents rates (pr_sources x) (pr_clip x)) CI ex_junks_ok) as (m & EC & MD). exists m.
  intros junk j AL J. unfold compress_list. rewrite EP. cbn [bindo]. rewrite (sources_same ex_allocator junk ex_junks j f list_name tracks error rates _ _ SI ex_allocator_ok AL ex_junks_ok J).
  unfold compress_sources. rewrite EQ. cbn [bindo]. rewrite EC. reflexivity.
Qed.
Print Assumptions C45_one_compressed_form.

(** From the streams of the sub-tracks on *)
Theorem C45_same_sources_same_bytes : forall junk junk' j j' f list_name tracks error rates l p, sources_input list_name tracks error rates l p ->
  (forall g i ch, allocator_ok (junk g i ch)) -> (forall g i ch, allocator_ok (junk' g i ch)) -> junks_ok j -> junks_ok j' ->
  exists m, compress_sources junk j f list_name tracks error rates l p = Ok m /\ compress_sources junk' j' f list_name tracks error rates l p = Ok m.
Proof.
  intros junk junk' j j' f list_name tracks error rates l p I A A' J J'. rewrite (sources_same junk junk' j j' f list_name tracks error rates l p I A A' J J').
  destruct (quantized_input junk list_name tracks error rates _ _ I A) as (bss & EQ & L & CI). destruct (compress_made j f list_name tracks error _ _ CI J) as (m & EC & _).
  exists m. unfold compress_sources. rewrite EQ. cbn [bindo]. split; exact EC.
Qed.
(** From the quantized streams on: clips of the same shape that hold the same samples, whatever else is in their streams *)
Theorem C45_same_contents_same_bytes : forall j j' f list_name tracks error p bss bss' out, length bss = length (p_segments p) -> length bss' = length (p_segments p) ->
  clip_input list_name tracks error (with_bones p bss) out -> clip_input list_name tracks error (with_bones p bss') out ->
  (** bones that are not output still count in the size of the ranges: they are constant alike *)
  map (map b_constant) (firstn 1 bss') = map (map b_constant) (firstn 1 bss) -> junks_ok j -> junks_ok j' ->
  exists m, compress_transforms j f list_name tracks error (with_bones p bss) = Ok m /\ compress_transforms j' f list_name tracks error (with_bones p bss') = Ok m.
Proof.
  intros j j' f list_name tracks error p bss bss' out L L' CI CI' CO J J'. destruct (compress_made j f list_name tracks error _ _ CI J) as (m & EC & _). exists m. split; [exact EC |]. rewrite <- EC.
  destruct J as (J1 & J2 & J3), J' as (J1' & J2' & J3'). unfold compress_transforms. change (p_mapping (with_bones p bss')) with (p_mapping (with_bones p bss)). f_equal.
  destruct (ci_first _ _ _ _ _ CI) as (g0 & b0 & E0 & Eb & PK & CE & _). destruct (ci_first _ _ _ _ _ CI') as (g0' & b0' & E0' & Eb' & PK' & CE' & _).
  destruct (p_segments p) as [| g gs] eqn:EP; [cbn [with_bones p_segments] in E0; rewrite EP in E0; discriminate |]. destruct bss as [| b bss]; [discriminate |]. destruct bss' as [| b' bss']; [discriminate |].
  assert (SG : exists r, p_segments (with_bones p (b :: bss)) = set_bones g b :: r) by (cbn [with_bones p_segments]; rewrite EP; cbn [combine map]; eauto). destruct SG as (r & SG).
  assert (SG' : exists r, p_segments (with_bones p (b' :: bss')) = set_bones g b' :: r) by (cbn [with_bones p_segments]; rewrite EP; cbn [combine map]; eauto). destruct SG' as (r' & SG').
  rewrite SG in E0. rewrite SG' in E0'. injection E0 as <-. injection E0' as <-. cbn [set_bones g_bones] in *.
  set (P := with_bones p (b :: bss)) in *. set (P' := with_bones p (b' :: bss')) in *.
  assert (K : clip_ok P out (set_bones g b) r b0). { constructor; try assumption; [apply (ci_segments _ _ _ _ _ CI) | apply (ci_small _ _ _ _ _ CI)]. }
  assert (K' : clip_ok P' out (set_bones g b') r' b0'). { constructor; try assumption; [apply (ci_segments _ _ _ _ _ CI') | apply (ci_small _ _ _ _ _ CI')]. }
  assert (RS : ranges_size (formats_of P) (g_bones (set_bones g b')) = ranges_size (formats_of P) (g_bones (set_bones g b))) by (apply ranges_size_constant; cbn [firstn map] in CO; injection CO as CO; exact CO).
  rewrite <- EP in L, L'. exact (pack_same P out (p_segments P') _ _ r r' b0 b0' K K' (set_bones_shape _ _ _ L L') RS _ _ _ _ _ _ J1 J2 J3 J1' J2' J3').
Qed.
Print Assumptions C45_same_contents_same_bytes.

(** the example of C43, with memory that contains 0xCD bytes and with memory that contains 0x55 bytes *)
Definition ex_allocator2 (_ _ : N) (_ : channel) (n : N) : list N := repeat 0x55 (N.to_nat n).
Lemma ex_allocator2_ok g i ch : allocator_ok (ex_allocator2 g i ch).
Proof. intros n. split; [apply Forall_forall; intros x H; apply repeat_spec in H; subst x; reflexivity |]. unfold blen, ex_allocator2. rewrite repeat_length. apply N2Nat.id. Qed.
Definition ex_junks2 : junks := {| j_words := [11; 22; 33; 44]; j_lanes := repeat [f_of_N 9; f_one; f_one; f_one] 4; j_group := repeat 85 64 |}.
Lemma ex_junks2_ok : junks_ok ex_junks2.
Proof. split; [reflexivity |]. split; [reflexivity |]. split; [| reflexivity]. repeat constructor. Qed.
(** the quantized streams differ ... *)
Definition stream_bytes (r : outcome (list (list tbone))) : outcome (list (list (list (list N)))) :=
  bindo r (fun bss => Ok (map (map (fun b => map (fun ch => ts_data (b_stream b ch)) [Rotation; Translation; Scale])) bss)).
Example C45_example_streams_differ :
  stream_bytes (quantize_segments ex_allocator (settings_of (ex_tclip false)) ex_rates ex_sources 0 0 (sizes_of (ex_tclip false))) <>
  stream_bytes (quantize_segments ex_allocator2 (settings_of (ex_tclip false)) ex_rates ex_sources 0 0 (sizes_of (ex_tclip false))).
Proof. vm_compute. discriminate. Qed.
(** ... and the files do not *)
Example C45_example : exists m, compress_sources ex_allocator ex_junks ex_flags [97] ex_ttracks ex_error ex_rates ex_sources (ex_tclip false) = Ok m /\
  compress_sources ex_allocator2 ex_junks2 ex_flags [97] ex_ttracks ex_error ex_rates ex_sources (ex_tclip false) = Ok m.
Proof.
  apply C45_same_sources_same_bytes; [exact (ex_sources_input false) | exact ex_allocator_ok | exact ex_allocator2_ok | exact ex_junks_ok | exact ex_junks2_ok].
Qed.
(** the tracks of C44 *)
Example C45_example_list : exists m, forall junk j, (forall g i ch, allocator_ok (junk g i ch)) -> junks_ok j ->
  compress_list ex_R ex_M ex_ls false false (fun _ => 0) ex_five junk j ex_flags [97] ex_names ex_error lp_clamp ex_list_rate ex_list = Ok (Some m).
Proof.
  destruct (C45_one_compressed_form ex_R ex_M ex_ls false false (fun _ => 0) lp_clamp 4 ex_list_rate ex_list [97] ex_names ex_error ex_flags ex_list_input ex_list_finite ex_described) as (p & n' & w & fates & CO & LO & FO & H).
  apply H.
  - intros E. rewrite (co_stripped _ _ _ _ _ _ _ _ CO) in E. discriminate E.
  - intros g i ch _ _ _. unfold ex_five. split; [lia | discriminate].
Qed.
