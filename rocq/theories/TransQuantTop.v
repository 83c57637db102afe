(** Quantizing all the bones of a transform clip gives a clip that can be packed. *)
From Coq Require Import Lia Reals Permutation.
From Verif Require Import Word WordFacts Float32 Float32Facts Quant Headers PackSpec SegmentFacts SeekSpec TransDec TransSpec TransRing TransMem TransEnc TransEncSpec TransEncAnim2 TransEncBytes TransEncBytes2 TransEncBytes3
  TransClipSpec TransFile TransFileSizes TransFileFacts TransFilePack TransFilePlay TransPlaySpec TransTop
  TransQuant TransQuantStream TransQuantRange TransQuantSub TransQuantError.
From Verif Require ScalarEnc ScalarWrite.
Import ListNotations.
Local Open Scope N_scope.
Ltac Zify.zify_post_hook ::= idtac.

(** what the segments of the clip store of a bone; [sizes]: the numbers of samples of the segments, [rates]: the bit rates of the bone *)
Definition content_of (q : qsettings) (sizes : list N) (rates : N -> channel -> N) (o : source) : content :=
  {| ct_default := o_default o; ct_constant := o_constant o;
     ct_words := fun ch => lanes (q_components q ch) (nth 0 (o_lossy o ch) []);
     ct_clip := clip_bits q o;
     ct_sample := fun g k ch => stored_sample q (start_of sizes (N.to_nat g)) (nth (N.to_nat g) sizes 0) (rates g ch) o ch k |}.

(** the formats are those of the settings *)
Record settings_match (q : qsettings) (f : formats) : Prop := {
  sm_variable : forall ch, q_variable q ch = variable f ch;
  sm_components : forall ch, q_components q ch = components f ch;
  sm_scale : q_has_scale q = fm_has_scale f;
  sm_split : q_split q = fm_has_segments f
}.
Lemma match_full q f : settings_match q f -> q_variable q Rotation = true -> q_full q = false.
Proof.
  intros M V. rewrite (sm_variable _ _ M) in V. pose proof (sm_components _ _ M Rotation) as E. unfold variable, components in *. cbn in E. destruct (fm_rotation f); try discriminate V. destruct (q_full q); [discriminate E | reflexivity].
Qed.

(** the clip range has its lanes even when it is not used *)
Lemma track_range_full (samples : list vec) is4 : Forall full_vec samples -> full_vec (r_min (calculate_track_range samples is4)) /\ full_vec (r_extent (calculate_track_range samples is4)).
Proof.
  intros F. assert (M : forall f (a b : vec), full_vec a -> full_vec b -> full_vec (map2 f a b)) by (intros f a b A B; unfold full_vec in *; rewrite map2_length; congruence).
  assert (Z : forall v, full_vec v -> full_vec (zero_w v)) by (intros v Hv; apply (zero_w_lane v 0 ltac:(lia) Hv)).
  assert (S0 : forall x, full_vec (splat x)) by reflexivity.
  unfold calculate_track_range. destruct samples as [| s t] eqn:E; [split; [apply S0 |]; apply M; apply S0 |]. rewrite <- E in *. clear E s t.
  assert (FD : forall f init, full_vec init -> full_vec (fold_left (fun m s => map2 f m s) samples init)) by (intros f init HI; apply (fold_lane f samples 0 ltac:(lia) F init HI)).
  destruct is4; cbn [from_min_max r_min r_extent]; (split; [| apply M]); try apply Z; apply FD; reflexivity.
Qed.

Section Bone.
  Context (q : qsettings) (f : formats) (total : N) (sizes : list N) (rates : N -> channel -> N) (o : source) (g : nat).
  Hypotheses (M : settings_match q f) (K : source_ok q total o).
  Local Notation start := (start_of sizes g).
  Local Notation n := (nth g sizes 0).
  Hypothesis Fit : segment_fits q total start n.
  Hypothesis RO : forall ch, o_constant o ch = false -> q_variable q ch = true -> rate_ok q (rates (N.of_nat g) ch).

  Lemma clip_full_any ch : o_constant o ch = false -> full_vec (r_min (clip_range q o ch)) /\ full_vec (r_extent (clip_range q o ch)).
  Proof.
    intros C. unfold clip_range. rewrite C. destruct (animated_range q total o K ch (o_lossy o ch) C) as [is4 ->]. apply track_range_full, K.
  Qed.
  Lemma range_words_all ch : in_words 8 6 (range_bytes q o ch (samples_of q start n o ch)).
  Proof.
    destruct (o_constant o ch) eqn:C; [| exact (range_words_any q total o K ch start n C Fit)]. unfold range_bytes. rewrite C, andb_false_r. split; [reflexivity | repeat constructor].
  Qed.
  Lemma stored_range rate ch k : s_range (stored_sample q start n rate o ch k) = range_bytes q o ch (samples_of q start n o ch).
  Proof. unfold stored_sample, variable_stored. destruct (q_variable q ch); [| reflexivity]. destruct (rate =? 0); [reflexivity |]. destruct (rate =? 24); reflexivity. Qed.

  Lemma quantize_bone_ok junk : (forall ch, allocator_ok (junk ch)) ->
    exists b, quantize_bone junk q start n (rates (N.of_nat g)) o = Ok b /\ b_output_index b = o_output_index o /\ bone_holds f (N.of_nat g) n b (content_of q sizes rates o).
  Proof.
    intros AL. pose proof (match_full q f M) as QF.
    assert (Q : forall ch, exists t r, quantized (junk ch) q start n (rates (N.of_nat g) ch) o ch = Ok (t, r) /\ quantized_as q o ch start n (rates (N.of_nat g) ch) t r).
    { intros ch. apply (quantized_ok q total o K); [apply AL | exact QF | exact Fit | apply RO]. }
    destruct (Q Rotation) as (tr & rr & Er & Ar). destruct (Q Translation) as (tt & rt & Et & At). destruct (Q Scale) as (ts & rs & Es & As). clear Q.
    unfold quantize_bone. rewrite Er. cbn [bindo]. rewrite Et. cbn [bindo]. rewrite Es. cbn [bindo fst snd].
    eexists. split; [reflexivity |]. split; [reflexivity |].
    assert (A : forall ch, quantized_as q o ch start n (rates (N.of_nat g) ch) (by_channel tr tt ts ch) (by_channel rr rt rs ch)) by (intros []; assumption).
    assert (SX : forall k ch, ct_sample (content_of q sizes rates o) (N.of_nat g) k ch = stored_sample q start n (rates (N.of_nat g) ch) o ch k) by (intros k ch; cbn [content_of ct_sample]; rewrite Nat2N.id; reflexivity).
    constructor; cbn [b_default b_constant b_stream b_clip_min b_clip_extent]; intros ch.
    - reflexivity.
    - reflexivity.
    - apply (ok_default _ _ _ K).
    - apply (ok_no_scale _ _ _ K). rewrite (sm_scale _ _ M). exact ch.
    - rewrite (qa_packed _ _ _ _ _ _ _ _ (A ch)), (sm_components _ _ M). reflexivity.
    - cbn [content_of ct_default ct_constant ct_words]. intros D C _. destruct (qa_constant _ _ _ _ _ _ _ _ (A ch) D C) as (X1 & X2 & X3 & X4). rewrite <- (sm_components _ _ M). split; [exact X1 |]. split; [exact X2 |]. split; [exact X3 |]. split; [| exact X4].
      apply lanes_words. apply four_le; [apply components_34 |]. pose proof (ok_constant _ _ _ K ch C) as L. pose proof (ok_lossy _ _ _ K ch) as FL. destruct (o_lossy o ch) as [| v0 t]; [discriminate L |]. inversion FL; assumption.
    - cbn [content_of ct_constant]. intros C. unfold is_bit_rate_variable. cbn [b_stream]. rewrite (qa_rate _ _ _ _ _ _ _ _ (A ch) C). rewrite <- (sm_variable _ _ M). destruct (q_variable q ch) eqn:V; [| reflexivity].
      destruct (RO ch C V) as [R _]. destruct (N.eqb_spec (rates (N.of_nat g) ch) k_invalid_bit_rate) as [E | _]; [| reflexivity]. rewrite E in R. exfalso. revert R. vm_compute. auto.
    - intros k C Hk. rewrite SX. exact (qa_sample _ _ _ _ _ _ _ _ (A ch) k C Hk).
    - intros k. rewrite SX, stored_range. apply range_words_all.
    - intros k C V HS Hk. rewrite SX. unfold bone_range. rewrite stored_range. split; [apply range_words_all |]. intros _. rewrite <- (sm_variable _ _ M) in V. rewrite <- (sm_split _ _ M) in HS. pose proof (qa_range _ _ _ _ _ _ _ _ (A ch) C V HS) as X. cbn [b_segment_min b_segment_extent]. destruct ch; exact X.
    - cbn [content_of ct_constant]. intros C HS. rewrite (qa_rate _ _ _ _ _ _ _ _ (A ch) C). rewrite <- (sm_split _ _ M) in HS. destruct (q_variable q ch) eqn:V; [| discriminate]. apply (RO ch C V), HS.
    - cbn [content_of ct_constant ct_clip]. intros C. destruct (clip_full_any ch C) as [F1 F2]. split; [split; [exact F1 | exact F2] | reflexivity].
  Qed.
End Bone.

(** ** The bones and the segments *)
Definition blank_content : content :=
  {| ct_default := fun _ => true; ct_constant := fun _ => true; ct_words := fun _ => []; ct_clip := fun _ => []; ct_sample := fun _ _ _ => {| s_bits := 32; s_vals := []; s_range := [] |} |}.
Fixpoint contents_from (q : qsettings) (sizes : list N) (rates : N -> N -> channel -> N) (i : N) (l : list source) : list content :=
  match l with [] => [] | o :: t => content_of q sizes (fun g => rates g i) o :: contents_from q sizes rates (i + 1) t end.
Lemma contents_length q sizes rates l : forall i, length (contents_from q sizes rates i l) = length l.
Proof. induction l as [| o l IH]; intros i; cbn; [reflexivity | f_equal; apply IH]. Qed.
Lemma contents_nth q sizes rates l : forall i k o, nth_error l k = Some o -> nth_error (contents_from q sizes rates i l) k = Some (content_of q sizes (fun g => rates g (i + N.of_nat k)) o).
Proof.
  induction l as [| x l IH]; intros i [| k] o E; cbn [nth_error contents_from] in *; try discriminate.
  - injection E as <-. change (N.of_nat 0) with 0. rewrite N.add_0_r. reflexivity.
  - rewrite (IH _ _ _ E). replace (i + N.of_nat (S k)) with (i + 1 + N.of_nat k) by lia. reflexivity.
Qed.
(** the bit rates of the bones are legal: [i] is the index of the first bone *)
Definition rates_ok (q : qsettings) (rates : N -> N -> channel -> N) (g i : N) (l : list source) : Prop :=
  forall k o ch, nth_error l k = Some o -> o_constant o ch = false -> q_variable q ch = true -> rate_ok q (rates g (i + N.of_nat k) ch).

Lemma quantize_bones_ok q f total sizes rates junk g : settings_match q f -> segment_fits q total (start_of sizes g) (nth g sizes 0) -> (forall i ch, allocator_ok (junk i ch)) ->
  forall l i, Forall (source_ok q total) l -> rates_ok q rates (N.of_nat g) i l ->
  exists bs, quantize_bones junk q (start_of sizes g) (nth g sizes 0) (rates (N.of_nat g)) i l = Ok bs /\
    Forall2 (fun b o => b_output_index b = o_output_index o) bs l /\ Forall2 (bone_holds f (N.of_nat g) (nth g sizes 0)) bs (contents_from q sizes rates i l).
Proof.
  intros M Fit AL l. induction l as [| o l IH]; intros i SO RO; [exists []; repeat split; constructor |]. inversion SO as [| ? ? K SO']; subst.
  destruct (quantize_bone_ok q f total sizes (fun g => rates g i) o g M K Fit) with (junk := junk i) as (b & E & X & H).
  - intros ch C V. specialize (RO 0%nat o ch eq_refl C V). change (N.of_nat 0) with 0 in RO. rewrite N.add_0_r in RO. exact RO.
  - apply AL.
  - destruct (IH (i + 1) SO') as (bs & E' & X' & H').
    + intros k o' ch Ek C V. specialize (RO (S k) o' ch Ek C V). replace (i + 1 + N.of_nat k) with (i + N.of_nat (S k)) by lia. exact RO.
    + exists (b :: bs). cbn [quantize_bones]. rewrite E. cbn [bindo]. rewrite E'. cbn [bindo]. split; [reflexivity |]. split; constructor; assumption.
Qed.

(** the clip is split in segments *)
Record split_ok (q : qsettings) (total : N) (sizes : list N) : Prop := {
  sp_sum : sumN sizes = total;
  sp_each : Forall (fun n => 1 <= n) sizes;
  sp_one : q_split q = false -> length sizes = 1%nat;
  sp_small : 16 * total < 2 ^ 32
}.
Lemma split_fits q total sizes g : split_ok q total sizes -> (g < length sizes)%nat -> segment_fits q total (start_of sizes g) (nth g sizes 0).
Proof.
  intros [S1 S2 S3 S4] H. unfold start_of. pose proof (sumN_firstn_S sizes g H) as E. pose proof (sumN_firstn_le sizes (S g) (length sizes) H) as L. rewrite firstn_all in L.
  rewrite Forall_forall in S2. specialize (S2 (nth g sizes 0) (nth_In _ _ H)). change (2 ^ 32) with 4294967296 in *.
  split; [exact S2 |]. split; [lia |]. split; [| lia]. intros Q. specialize (S3 Q). assert (g = 0%nat) by lia. subst g. destruct sizes as [| n [| ? ?]]; try discriminate S3. cbn [firstn sumN nth] in *. lia.
Qed.

Lemma quantize_segments_ok q f total sizes rates junk l : settings_match q f -> split_ok q total sizes -> (forall g i ch, allocator_ok (junk g i ch)) -> Forall (source_ok q total) l ->
  (forall g, (g < length sizes)%nat -> rates_ok q rates (N.of_nat g) 0 l) ->
  forall rest pre, sizes = pre ++ rest ->
  exists bss, quantize_segments junk q rates l (N.of_nat (length pre)) (sumN pre) rest = Ok bss /\ length bss = length rest /\
    forall k, (k < length rest)%nat -> let g := (length pre + k)%nat in exists bs, nth_error bss k = Some bs /\
      Forall2 (fun b o => b_output_index b = o_output_index o) bs l /\ Forall2 (bone_holds f (N.of_nat g) (nth g sizes 0)) bs (contents_from q sizes rates 0 l).
Proof.
  intros M SP AL SO RO. induction rest as [| n rest IH]; intros pre E; [exists []; split; [reflexivity |]; split; [reflexivity |]; intros k Hk; cbn in Hk; lia |].
  assert (G : (length pre < length sizes)%nat) by (rewrite E, app_length; cbn [length]; lia).
  assert (E1 : start_of sizes (length pre) = sumN pre) by (unfold start_of; rewrite E, firstn_app, Nat.sub_diag, firstn_O, app_nil_r, firstn_all; reflexivity).
  assert (E2 : nth (length pre) sizes 0 = n) by (rewrite E, app_nth2, Nat.sub_diag by lia; reflexivity).
  destruct (quantize_bones_ok q f total sizes rates (junk (N.of_nat (length pre))) (length pre) M (split_fits _ _ _ _ SP G) (AL _) l 0 SO (RO _ G)) as (bs & Eb & X & H).
  rewrite E1, E2 in Eb.
  destruct (IH (pre ++ [n])) as (bss & Es & L & N0); [rewrite <- app_assoc; exact E |].
  assert (SM : sumN pre + n < 2 ^ 32).
  { pose proof (split_fits _ _ _ _ SP G) as (_ & B & _). rewrite E1, E2 in B. pose proof (sp_small _ _ _ SP). lia. }
  exists (bs :: bss). cbn [quantize_segments]. rewrite Eb. cbn [bindo]. rewrite addw_small by exact SM.
  replace (N.of_nat (length pre) + 1) with (N.of_nat (length (pre ++ [n]))) by (rewrite app_length; cbn [length]; lia).
  replace (sumN pre + n) with (sumN (pre ++ [n])) by (rewrite sumN_app; cbn [sumN]; lia). rewrite Es. cbn [bindo]. split; [reflexivity |]. split; [cbn; lia |].
  cbv zeta. intros [| k] Hk.
  - rewrite Nat.add_0_r, E2 in *. exists bs. split; [reflexivity |]. split; assumption.
  - destruct (N0 k ltac:(cbn in Hk; lia)) as (bs' & A & B & C). exists bs'. rewrite app_length in C. cbn [length] in C. replace (length pre + 1 + k)%nat with (length pre + S k)%nat in C by lia. split; [exact A |]. split; assumption.
Qed.

(** ** The output tracks *)
(** create_output_track_mapping (C19): output track [j] is bone [k] *)
Definition mapping_ok (l : list source) (mapping : list N) : Prop :=
  forall j k, nth_error mapping (N.to_nat j) = Some k <-> exists o, nth_error l (N.to_nat k) = Some o /\ o_output_index o = j /\ j <> 0xFFFFFFFF.
Lemma mapping_nodup l mapping : mapping_ok l mapping -> NoDup mapping.
Proof.
  intros M. apply NoDup_nth_error. intros a b Ha E. destruct (nth_error mapping a) as [k |] eqn:Ea; [| apply nth_error_None in Ea; lia]. symmetry in E.
  rewrite <- (Nat2N.id a) in Ea. rewrite <- (Nat2N.id b) in E. apply M in Ea as (o & E1 & E2 & _). apply M in E as (o' & E1' & E2' & _). rewrite E1 in E1'. injection E1' as <-. rewrite E2 in E2'. lia.
Qed.
Lemma mapping_in l mapping k : mapping_ok l mapping -> (In k mapping <-> exists o, nth_error l (N.to_nat k) = Some o /\ o_output_index o <> 0xFFFFFFFF).
Proof.
  intros M. split.
  - intros I. apply In_nth_error in I as [j E]. rewrite <- (Nat2N.id j) in E. apply M in E as (o & E1 & E2 & E3). exists o. rewrite E2. auto.
  - intros (o & E1 & E2). apply (nth_error_In mapping (N.to_nat (o_output_index o))). apply M. eauto.
Qed.
Definition blank_bone : tbone :=
  {| b_stream := fun _ => {| ts_rate := 0; ts_sample_size := 0; ts_packed_size := 0; ts_num_samples := 0; ts_data := [] |}; b_default := fun _ => true; b_constant := fun _ => true; b_output_index := 0xFFFFFFFF;
     b_clip_min := fun _ => []; b_clip_extent := fun _ => []; b_segment_min := fun _ => []; b_segment_extent := fun _ => [] |}.
Lemma F2_length {A B} (R : A -> B -> Prop) a b : Forall2 R a b -> length a = length b. Proof. induction 1; cbn; congruence. Qed.
Lemma filter_map_comm {A B} (g : A -> B) (P : B -> bool) l : filter P (map g l) = map g (filter (fun x => P (g x)) l).
Proof. induction l as [| x l IH]; [reflexivity |]. cbn [map filter]. rewrite IH. destruct (P (g x)); reflexivity. Qed.
Lemma seq_nth_map {A} (d : A) l : map (fun i => nth i l d) (seq 0 (length l)) = l.
Proof.
  induction l as [| x l IH]; [reflexivity |]. cbn [length seq map nth]. f_equal. rewrite <- seq_shift, map_map. exact IH.
Qed.
Lemma outputs_ok bs l mapping : Forall2 (fun b o => b_output_index b = o_output_index o) bs l -> mapping_ok l mapping -> outputs bs mapping (map (fun k => nth (N.to_nat k) bs blank_bone) mapping).
Proof.
  intros F M. pose proof (F2_length _ _ _ F) as LEN. split.
  - unfold mapped. assert (I : forall k, In k mapping -> (N.to_nat k < length bs)%nat). { intros k Hk. apply (mapping_in l mapping k M) in Hk as (o & E & _). rewrite LEN. apply nth_error_Some. congruence. }
    clear M. induction mapping as [| k mapping IH]; cbn [map]; constructor; [apply nth_error_nth', I; left; reflexivity | apply IH; intros; apply I; right; assumption].
  - assert (FE : filter is_output bs = map (fun i => nth i bs blank_bone) (filter (fun i => is_output (nth i bs blank_bone)) (seq 0 (length bs)))) by (rewrite <- filter_map_comm, seq_nth_map; reflexivity).
    rewrite FE. rewrite <- (map_map N.to_nat (fun i => nth i bs blank_bone)). apply Permutation_map. apply NoDup_Permutation.
    + apply FinFun.Injective_map_NoDup; [intros a b; apply N2Nat.inj | apply (mapping_nodup l), M].
    + apply NoDup_filter, seq_NoDup.
    + intros k. rewrite filter_In, in_seq. assert (Q : In k (map N.to_nat mapping) <-> In (N.of_nat k) mapping). { rewrite in_map_iff. split; [intros (x & <- & I); rewrite N2Nat.id; exact I | intros I; exists (N.of_nat k); rewrite Nat2N.id; auto]. }
      rewrite Q, (mapping_in l mapping _ M), Nat2N.id. pose proof (Forall2_nth _ _ _ F k) as R. unfold is_output. rewrite negb_true_iff, N.eqb_neq. split.
      * intros (o & E & X). assert (Hk : (k < length bs)%nat) by (rewrite LEN; apply nth_error_Some; congruence). rewrite E in R. destruct (nth_error bs k) as [b |] eqn:Eb; [| destruct R]. rewrite (nth_error_nth _ _ _ Eb), R. split; [lia | exact X].
      * intros [Hk X]. destruct (nth_error bs k) as [b |] eqn:Eb; [| apply nth_error_None in Eb; lia]. destruct (nth_error l k) as [o |] eqn:Eo; [| destruct R]. rewrite (nth_error_nth _ _ _ Eb), R in X. exists o. auto.
Qed.
Definition output_contents (q : qsettings) (sizes : list N) (rates : N -> N -> channel -> N) (l : list source) (mapping : list N) : list content :=
  map (fun k => nth (N.to_nat k) (contents_from q sizes rates 0 l) blank_content) mapping.
Lemma selected {A B} (R : A -> B -> Prop) (a : list A) (b : list B) da db (mapping : list N) : Forall2 R a b -> (forall k, In k mapping -> (N.to_nat k < length a)%nat) ->
  Forall2 R (map (fun k => nth (N.to_nat k) a da) mapping) (map (fun k => nth (N.to_nat k) b db) mapping).
Proof.
  intros F H. induction mapping as [| k mapping IH]; cbn [map]; constructor; [| apply IH; intros; apply H; right; assumption].
  specialize (H k (or_introl eq_refl)). pose proof (Forall2_nth _ _ _ F (N.to_nat k)) as Q. rewrite (nth_error_nth' a da H) in Q. destruct (nth_error b (N.to_nat k)) as [y |] eqn:E; [| destruct Q]. rewrite (nth_error_nth _ _ _ E). exact Q.
Qed.
Lemma output_contents_nth q sizes rates l mapping j k o : nth_error mapping j = Some k -> nth_error l (N.to_nat k) = Some o ->
  nth_error (output_contents q sizes rates l mapping) j = Some (content_of q sizes (fun g => rates g k) o).
Proof.
  intros E1 E2. unfold output_contents. rewrite nth_error_map, E1. cbn [option_map]. f_equal. apply nth_error_nth. rewrite (contents_nth _ _ _ _ _ _ _ E2), N2Nat.id, N.add_0_l. reflexivity.
Qed.
