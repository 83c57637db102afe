(** From a list of transform tracks to the sources that C43 is about. *)
From Coq Require Import ZArith NArith Bool Reals Lra Lia List Permutation.
From Flocq Require Import Core IEEE754.Binary IEEE754.Bits IEEE754.BinarySingleNaN.
From Verif Require Import Word WordFacts Float32 Float32Facts ScalarLanes Interp InterpFacts Segment SegmentFacts SeekSpec Strip TransMeta TransMetaSpec TransDec TransEnc TransEncSpec TransRing TransFile TransFilePlay TransPlaySpec TransTop
  TransQuant TransQuantStream TransQuantRange TransQuantSub TransQuantSpec TransQuantClip TransQuantTop TrackArray TrackArrayFacts TransList TransListSpec TransListFacts.
From Verif Require ScalarEnc TrackSpec TransFloat.
Import ListNotations.
Local Open Scope N_scope.
Ltac Zify.zify_post_hook ::= idtac.

(** ** Negation *)
Lemma m_one_R : ffinite (ScalarEnc.fneg f_one) = true /\ FR (ScalarEnc.fneg f_one) = (-1)%R.
Proof. split; [reflexivity |]. transitivity (IZR (-8388608) * bpow radix2 (-23))%R; [reflexivity |]. change (bpow radix2 (-23)) with (/ IZR 8388608)%R. change (IZR (-8388608)) with (- IZR 8388608)%R. field. Qed.
Lemma negated_R a : ffinite a = true -> ffinite (fmul a (ScalarEnc.fneg f_one)) = true /\ FR (fmul a (ScalarEnc.fneg f_one)) = (- FR a)%R.
Proof.
  intros A. destruct m_one_R as [Z E]. generalize (Binary.Bmult_correct 24 128 (eq_refl _) (eq_refl _) binop_nan_pl32 mode_NE a (ScalarEnc.fneg f_one)).
  change (Binary.B2R 24 128 (ScalarEnc.fneg f_one)) with (FR (ScalarEnc.fneg f_one)). change (Binary.B2R 24 128 a) with (FR a). rewrite E. replace (FR a * -1)%R with (- FR a)%R by lra.
  rewrite rnd_ok2; [| rewrite rnd_opp, Rabs_Ropp, rnd_id by apply FR_f32; apply FR_lt].
  intros (P & B & _). split; [unfold ffinite, fmul, b32_mult in *; rewrite B, A, Z; reflexivity |].
  etransitivity; [exact P |]. change (rnd (- FR a) = - FR a)%R. rewrite rnd_opp, rnd_id by apply FR_f32. reflexivity.
Qed.
Lemma positive_w_eq v : positive_w v = ensure_positive_w v.
Proof. unfold positive_w, ensure_positive_w. assert (E : f_of_bits 0xBF800000 = ScalarEnc.fneg f_one) by (apply TransFloat.f_bits_inj; vm_compute; reflexivity). rewrite E. reflexivity. Qed.
Lemma positive_w_small v c : full_vec v -> (c < 4)%nat -> small c v -> small c (ensure_positive_w v).
Proof.
  intros F C [S1 S2]. unfold ensure_positive_w. destruct (fge (lane 3 v) f_zero); [split; assumption |]. unfold small, component. change (nth c (map (fun x => fmul x (ScalarEnc.fneg f_one)) v) f_zero) with (lane c (map (fun x => fmul x (ScalarEnc.fneg f_one)) v)).
  rewrite map_lane by assumption. destruct (negated_R _ S1) as [N1 N2]. unfold lane, component in *. rewrite N2, Rabs_Ropp. split; assumption.
Qed.
Lemma positive_w_full v : full_vec v -> full_vec (ensure_positive_w v).
Proof. unfold full_vec, ensure_positive_w. intros F. destruct (fge (lane 3 v) f_zero); [exact F | rewrite map_length; exact F]. Qed.

(** ** The samples *)
Section Samples.
  Context (R : rtm) (s : lsettings) (n : N) (rate : f32) (ts : list qtrack).
  Hypothesis I : list_input R s n rate ts.
  Hypothesis VALID : samples_are_valid R s ts = true.

  Lemma initial_eq ch x : (match ch with Rotation => if rotation_full (l_rotation s) && quat_is_normalized R (v_rotation x) then v_rotation x else quat_normalize R (v_rotation x) | _ => part ch x end) = initial_sample R s ch x.
  Proof. destruct ch; cbn; [| reflexivity | reflexivity]. destruct (rotation_full (l_rotation s)), (quat_is_normalized R (v_rotation x)); reflexivity. Qed.
  Lemma prepared_eq ch x : prepared_sample R s ch x = (match ch with Rotation => if rotation_full (l_rotation s) then initial_sample R s Rotation x else ensure_positive_w (initial_sample R s Rotation x) | _ => initial_sample R s ch x end).
  Proof. destruct ch; [| reflexivity | reflexivity]. unfold prepared_sample. rewrite (initial_eq Rotation x). cbv zeta. rewrite positive_w_eq. reflexivity. Qed.
  Lemma finite_sample y x : In y ts -> In x (y_samples y) -> sample_is_finite R s x = true.
  Proof. intros Iy Ix. unfold samples_are_valid in VALID. rewrite forallb_forall in VALID. specialize (VALID y Iy). rewrite forallb_forall in VALID. apply VALID, Ix. Qed.
  Lemma nth_finite (v : vec) c : (c < length v)%nat -> forallb ffinite v = true -> ffinite (component c v) = true.
  Proof. intros C H. rewrite forallb_forall in H. apply H, nth_In, C. Qed.
  Lemma initial_full y x ch : In y ts -> In x (y_samples y) -> full_vec (initial_sample R s ch x).
  Proof.
    intros Iy Ix. pose proof (in_vectors _ _ _ _ _ I) as V. rewrite Forall_forall in V. destruct (V y Iy) as [V1 _]. rewrite Forall_forall in V1. pose proof (V1 x Ix) as L. unfold full_vec. destruct ch; [| exact (L Translation) | exact (L Scale)].
    cbn [initial_sample]. destruct (_ || _); [apply (in_rtm _ _ _ _ _ I), (L Rotation) | exact (L Rotation)].
  Qed.
  Lemma initial_small y x ch c : In y ts -> In x (y_samples y) -> (c < width ch)%nat -> small c (initial_sample R s ch x).
  Proof.
    intros Iy Ix C. pose proof (finite_sample y x Iy Ix) as F. unfold sample_is_finite in F. apply andb_prop in F as [F F3]. apply andb_prop in F as [F1 F2]. pose proof (in_small _ _ _ _ _ I y x ch c Iy Ix C) as SM. pose proof (initial_full y x ch Iy Ix) as L.
    destruct ch; cbn [width] in C.
    - assert (FI : ffinite (component c (initial_sample R s Rotation x)) = true) by (apply nth_finite; [rewrite L; exact C | exact F1]). cbn [initial_sample] in *. destruct (_ || _); [| apply SM, FI].
      pose proof (in_vectors _ _ _ _ _ I) as V. rewrite Forall_forall in V. destruct (V y Iy) as [V1 _]. rewrite Forall_forall in V1. apply (in_rtm _ _ _ _ _ I); [exact (V1 x Ix Rotation) | exact C | exact FI].
    - apply SM. cbn [initial_sample part] in *. assert (Q : component c (v_translation x) = component c (firstn 3 (v_translation x))) by (unfold component; rewrite nth_firstn_lt; [reflexivity | exact C]). rewrite Q. apply nth_finite; [unfold full_vec in L; rewrite firstn_length, L; exact C | exact F2].
    - apply SM. cbn [initial_sample part] in *. assert (Q : component c (v_scale x) = component c (firstn 3 (v_scale x))) by (unfold component; rewrite nth_firstn_lt; [reflexivity | exact C]). rewrite Q. apply nth_finite; [unfold full_vec in L; rewrite firstn_length, L; exact C | exact F3].
  Qed.
  Lemma prepared_full y x ch : In y ts -> In x (y_samples y) -> full_vec (prepared_sample R s ch x).
  Proof.
    intros Iy Ix. rewrite prepared_eq. destruct ch; [| apply (initial_full y); assumption | apply (initial_full y); assumption].
    destruct (rotation_full (l_rotation s)); [| apply positive_w_full]; apply (initial_full y); assumption.
  Qed.
  Lemma prepared_small y x ch c : In y ts -> In x (y_samples y) -> (c < width ch)%nat -> small c (prepared_sample R s ch x).
  Proof.
    intros Iy Ix C. rewrite prepared_eq. destruct ch; [| apply (initial_small y); assumption | apply (initial_small y); assumption].
    destruct (rotation_full (l_rotation s)); [apply (initial_small y); assumption |]. apply positive_w_small; [apply (initial_full y); assumption | exact C | apply (initial_small y); assumption].
  Qed.
End Samples.

(** ** Loops *)
Lemma looping_iff M last bones : forall i, is_clip_looping M last i bones = true <->
  forall k st, nth_error bones k = Some st -> fgt (m_loop_error M (i + N.of_nat k) (qvv_at st 0) (qvv_at st last)) (m_precision M (i + N.of_nat k)) = false.
Proof.
  induction bones as [| st t IH]; intros i; cbn [is_clip_looping]; [split; [intros _ [| k] x E; discriminate | reflexivity] |].
  destruct (fgt (m_loop_error M i (qvv_at st 0) (qvv_at st last)) (m_precision M i)) eqn:E.
  - split; [discriminate |]. intros H. specialize (H 0%nat st eq_refl). change (N.of_nat 0) with 0 in H. rewrite N.add_0_r in H. congruence.
  - rewrite IH. split.
    + intros H [| k] x Ex; cbn [nth_error] in Ex; [injection Ex as <-; change (N.of_nat 0) with 0; rewrite N.add_0_r; exact E |]. specialize (H k x Ex). replace (i + N.of_nat (S k)) with (i + 1 + N.of_nat k) by lia. exact H.
    + intros H k x Ex. specialize (H (S k) x Ex). replace (i + N.of_nat (S k)) with (i + 1 + N.of_nat k) in H by lia. exact H.
Qed.
Definition streams_of (R : rtm) (s : lsettings) (n : N) (st : streams) (y : qtrack) : Prop := forall ch, st ch = map (initial_sample R s ch) (firstn (N.to_nat n) (y_samples y)).
Lemma all_raw s : l_raw s Rotation && l_raw s Translation && l_raw s Scale = true <-> forall ch, l_raw s ch = true.
Proof. rewrite !andb_true_iff. split; [intros [[A B] C] []; assumption | intros H; auto]. Qed.
Lemma loop_ok R M s lp n ts : Forall (fun y => N.of_nat (length (y_samples y)) = n) ts -> 1 <= n ->
  exists n' lp' bones, optimize_looping M s lp n (map (initial_streams R s) ts) = (n', lp', bones) /\ Forall2 (streams_of R s n') bones ts /\ 1 <= n' <= n /\
    (wraps R M s lp n ts -> n' = n - 1 /\ lp' = lp_wrap) /\ (~ wraps R M s lp n ts -> n' = n /\ lp' = lp).
Proof.
  intros LEN N1. set (bones := map (initial_streams R s) ts).
  assert (SAME : Forall2 (streams_of R s n) bones ts).
  { subst bones. clear - LEN. induction LEN as [| y ts Hy F IH]; cbn [map]; constructor; [| exact IH]. intros ch. unfold initial_streams. rewrite firstn_all2 by lia. reflexivity. }
  assert (KEEP : ~ wraps R M s lp n ts -> optimize_looping M s lp n bones = (n, lp, bones) -> exists n' lp' bones', optimize_looping M s lp n bones = (n', lp', bones') /\ Forall2 (streams_of R s n') bones' ts /\ 1 <= n' <= n /\
    (wraps R M s lp n ts -> n' = n - 1 /\ lp' = lp_wrap) /\ (~ wraps R M s lp n ts -> n' = n /\ lp' = lp)).
  { intros NW E. exists n, lp, bones. split; [exact E |]. split; [exact SAME |]. split; [lia |]. split; [intros W; contradiction | auto]. }
  destruct (l_optimize_loops s) eqn:O; [| apply KEEP; [intros (W & _); congruence | unfold optimize_looping; rewrite O; reflexivity]].
  destruct lp eqn:LP; [| apply KEEP; [intros (_ & W & _); discriminate | unfold optimize_looping; rewrite O; reflexivity]].
  destruct (l_raw s Rotation && l_raw s Translation && l_raw s Scale) eqn:RW; [apply KEEP; [intros (_ & _ & W & _); apply W, all_raw, RW | unfold optimize_looping; rewrite O, RW; reflexivity] |].
  destruct (N.leb_spec n 1) as [L | L]; [apply KEEP; [intros (_ & _ & _ & W & _); lia | unfold optimize_looping; rewrite O, RW; destruct (N.leb_spec n 1); [reflexivity | lia]] |].
  destruct ts as [| y0 ts']; [apply KEEP; [intros (_ & _ & _ & _ & W & _); apply W; reflexivity | unfold optimize_looping; rewrite O, RW; destruct (N.leb_spec n 1); reflexivity] |].
  assert (EO : optimize_looping M s lp_clamp n bones = if is_clip_looping M (n - 1) 0 bones then (n - 1, lp_wrap, map strip_last_sample bones) else (n, lp_clamp, bones)).
  { unfold optimize_looping. rewrite O, RW. destruct (N.leb_spec n 1); [lia |]. reflexivity. }
  remember (y0 :: ts') as ts eqn:Ets.
  assert (W : is_clip_looping M (n - 1) 0 bones = true <-> wraps R M s lp_clamp n ts).
  { rewrite looping_iff. unfold wraps. rewrite O. assert (NR : ~ (forall ch, l_raw s ch = true)) by (rewrite <- all_raw; congruence). assert (NE : ts <> []) by (subst ts; discriminate).
    assert (Q : forall k y, nth_error ts k = Some y -> nth_error bones k = Some (initial_streams R s y) /\ forall j, (j < N.to_nat n)%nat -> qvv_at (initial_streams R s y) (N.of_nat j) = (let x := nth j (y_samples y) (Qvv [] [] []) in
      Qvv (if rotation_full (l_rotation s) && quat_is_normalized R (v_rotation x) then v_rotation x else quat_normalize R (v_rotation x)) (v_translation x) (v_scale x))).
    { intros k y Ey. split; [unfold bones; rewrite nth_error_map, Ey; reflexivity |]. intros j Hj. cbv zeta. rewrite (initial_eq R s Rotation). unfold qvv_at, initial_streams. rewrite Nat2N.id.
      assert (Ly : (j < length (y_samples y))%nat). { rewrite Forall_forall in LEN. specialize (LEN y (nth_error_In _ _ Ey)). lia. }
      assert (NM : forall ch, nth j (map (initial_sample R s ch) (y_samples y)) [] = initial_sample R s ch (nth j (y_samples y) (Qvv [] [] []))). { intros ch. rewrite (nth_indep _ [] (initial_sample R s ch (Qvv [] [] []))) by (rewrite map_length; exact Ly). apply map_nth. }
      rewrite !NM. reflexivity. }
    split.
    - intros H. repeat (split; [first [reflexivity | assumption | lia] |]). intros k y Ey. cbv zeta. destruct (Q k y Ey) as [Eb Qj]. specialize (H k _ Eb). rewrite N.add_0_l in H. cbv zeta in Qj.
      rewrite <- (Qj 0%nat) by lia. rewrite <- (Qj (N.to_nat n - 1)%nat) by lia. change (N.of_nat 0) with 0. replace (N.of_nat (N.to_nat n - 1)) with (n - 1) by lia. exact H.
    - intros (_ & _ & _ & _ & _ & H) k st Est. assert (Lk : (k < length ts)%nat). { assert (k < length bones)%nat by (apply nth_error_Some; congruence). unfold bones in H0. rewrite map_length in H0. exact H0. }
      destruct (nth_error ts k) as [y |] eqn:Ey; [| apply nth_error_None in Ey; lia]. destruct (Q k y Ey) as [Eb Qj]. rewrite Est in Eb. injection Eb as ->. specialize (H k y Ey). cbv zeta in H, Qj. rewrite N.add_0_l.
      rewrite <- (Qj 0%nat) in H by lia. rewrite <- (Qj (N.to_nat n - 1)%nat) in H by lia. change (N.of_nat 0) with 0 in H. replace (N.of_nat (N.to_nat n - 1)) with (n - 1) in H by lia. exact H. }
  destruct (is_clip_looping M (n - 1) 0 bones) eqn:EL.
  - exists (n - 1), lp_wrap, (map strip_last_sample bones). split; [exact EO |]. split; [| split; [lia |]; split; [auto | intros NW; exfalso; apply NW, W; reflexivity]].
    subst bones. clear - LEN N1 L. induction LEN as [| y ts Hy F IH]; cbn [map]; constructor; [| exact IH]. intros ch. unfold strip_last_sample, initial_streams. rewrite map_length, firstn_map. f_equal. f_equal. lia.
  - apply KEEP; [intros H; apply W in H; discriminate | exact EO].
Qed.

(** ** The compacted bones *)
Lemma fate_ok_ext R M s i n default x x' fates ch : (forall a, x a = x' a) -> fate_ok R M s i n default x fates ch -> fate_ok R M s i n default x' fates ch.
Proof.
  intros H. assert (TA : forall c k, transform_at R s x fates c k = transform_at R s x' fates c k) by (intros c k; unfold transform_at; rewrite !H; reflexivity).
  assert (CR : forall c v, can_replace R M s i n x fates c v <-> can_replace R M s i n x' fates c v).
  { intros c v. unfold can_replace. rewrite H. destruct (l_raw s c); [reflexivity |]. split; intros Q k K; specialize (Q k K); cbv zeta in *; [rewrite <- TA | rewrite TA]; exact Q. }
  unfold fate_ok. cbv zeta. rewrite H. destruct (fates ch); rewrite ?CR; auto.
Qed.
Lemma fate_ok_fates R M s i n default x fates fates' ch : (forall a, fates a = fates' a) -> fate_ok R M s i n default x fates ch -> fate_ok R M s i n default x fates' ch.
Proof.
  intros H. assert (TA : forall c k, transform_at R s x fates c k = transform_at R s x fates' c k) by (intros c k; unfold transform_at; rewrite !H; reflexivity).
  assert (CR : forall c v, can_replace R M s i n x fates c v <-> can_replace R M s i n x fates' c v).
  { intros c v. unfold can_replace. destruct (l_raw s c); [reflexivity |]. split; intros Q k K; specialize (Q k K); cbv zeta in *; [rewrite <- TA | rewrite TA]; exact Q. }
  unfold fate_ok. cbv zeta. rewrite H. destruct (fates' ch); rewrite ?CR; auto.
Qed.
(** what a source is: the sub-tracks of a track, and what becomes of them *)
Definition source_fate (y : qtrack) (o : source) (x : channel -> list vec) (ch : channel) : fate :=
  if o_default o ch then Defaulted (part ch (y_default y)) else if o_constant o ch then Held (nth 0 (x ch) []) else Animated.
Record source_of (R : rtm) (M : metric) (s : lsettings) (n i : N) (y : qtrack) (o : source) : Prop := {
  sf_fate : forall ch, fate_ok R M s i n (y_default y) (prepared_samples R s n y) (source_fate y o (prepared_samples R s n y)) ch;
  sf_lossy : forall ch, o_lossy o ch = match collapsed (source_fate y o (prepared_samples R s n y) ch) with Some v => [v] | None => prepared_samples R s n y ch end;
  sf_raw : forall ch, o_raw o ch = prepared_samples R s n y ch;
  sf_default : forall ch, o_default o ch = true -> o_constant o ch = true;
  sf_output : o_output_index o = y_output_index y
}.
Lemma convert_ok R s n st y : streams_of R s n st y -> forall ch, convert_streams s st ch = prepared_samples R s n y ch.
Proof.
  intros H ch. unfold prepared_samples. destruct ch; unfold convert_streams; [| rewrite (H Translation); apply map_ext; intros x; rewrite prepared_eq; reflexivity | rewrite (H Scale); apply map_ext; intros x; rewrite prepared_eq; reflexivity].
  rewrite (H Rotation). destruct (rotation_full (l_rotation s)) eqn:F; [apply map_ext; intros x; rewrite prepared_eq, F; reflexivity |].
  etransitivity; [apply map_map | apply map_ext; intros x; rewrite prepared_eq, F; reflexivity].
Qed.

(** the bones *)
Section Bones.
  Context (R : rtm) (M : metric) (s : lsettings) (n0 n : N) (rate : f32) (all : list qtrack).
  Hypothesis I : list_input R s n0 rate all.
  Hypothesis VALID : samples_are_valid R s all = true.
  Hypothesis N1 : 1 <= n <= n0.

  Lemma first_in {A} k (l : list A) x : In x (firstn k l) -> In x l.
  Proof. intros H. rewrite <- (firstn_skipn k l). apply in_or_app. left. exact H. Qed.
  Lemma track_prepared y : In y all -> (forall ch, N.of_nat (length (prepared_samples R s n y ch)) = n) /\ (forall ch, Forall full_vec (prepared_samples R s n y ch)) /\
    (forall ch c, (c < width ch)%nat -> bounded 10000000000 c (prepared_samples R s n y ch)) /\ (forall ch, full_vec (part ch (y_default y))).
  Proof.
    intros Iy. unfold prepared_samples. split.
    { intros ch. rewrite map_length, firstn_length. pose proof (in_count _ _ _ _ _ I) as L. rewrite Forall_forall in L. specialize (L y Iy). lia. }
    split. { intros ch. rewrite Forall_map. apply Forall_forall. intros x Ix. apply (prepared_full R s n0 rate all I y); [exact Iy | eapply first_in, Ix]. }
    split. { intros ch c C. unfold bounded. rewrite Forall_map. apply Forall_forall. intros x Ix. apply (prepared_small R s n0 rate all I VALID y); [exact Iy | eapply first_in, Ix | exact C]. }
    intros ch. pose proof (in_vectors _ _ _ _ _ I) as V. rewrite Forall_forall in V. apply (V y Iy).
  Qed.
  Lemma bone_ok i y st : In y all -> streams_of R s n st y ->
    let x := convert_streams s st in let c := compact_bone R M s i n (y_default y) x in
    source_of R M s n i y {| o_default := k_default c; o_constant := k_constant c; o_lossy := k_streams c; o_raw := x; o_output_index := y_output_index y |}.
  Proof.
    intros Iy ST x c. pose proof (convert_ok R s n st y ST) as CE. fold x in CE. destruct (track_prepared y Iy) as (P1 & P2 & P3 & P4).
    destruct (compact_bone_ok R M s i n (y_default y) x) as (F1 & F2 & F3); [lia | intros ch; rewrite CE; apply P1 | intros ch; rewrite CE; apply P2 | exact P4 | intros ch a _ C; rewrite CE; apply P3, C |].
    fold (bone R M s i n (y_default y) x) in c. change (bone R M s i n (y_default y) x) with c in F1, F2, F3. 
    set (o := {| o_default := k_default c; o_constant := k_constant c; o_lossy := k_streams c; o_raw := x; o_output_index := y_output_index y |}).
    assert (FE : forall ch, fate_of (y_default y) x c ch = source_fate y o (prepared_samples R s n y) ch) by (intros ch; unfold fate_of, source_fate; rewrite CE; reflexivity).
    constructor.
    - intros ch. apply (fate_ok_fates _ _ _ _ _ _ _ _ _ _ FE), (fate_ok_ext _ _ _ _ _ _ _ _ _ _ CE), F1.
    - intros ch. rewrite <- FE, <- CE. apply F2.
    - exact CE.
    - exact F3.
    - reflexivity.
  Qed.
  Lemma bones_ok ts : (forall y, In y ts -> In y all) -> forall sts i, Forall2 (streams_of R s n) sts ts ->
    let l := compact_bones R M s i n (combine ts sts) in
    length l = length ts /\ forall k y, nth_error ts k = Some y -> exists o, nth_error l k = Some o /\ source_of R M s n (i + N.of_nat k) y o.
  Proof.
    induction ts as [| y ts IH]; intros SUB sts i F; inversion F as [| st ? sts' ? F0 F1]; subst; cbv zeta; [split; [reflexivity | intros [|]; discriminate] |].
    destruct (IH (fun z Z => SUB z (or_intror Z)) sts' (i + 1) F1) as [L H]. cbn [combine compact_bones length]. split; [rewrite L; reflexivity |].
    intros [| k] z E; cbn [nth_error] in *.
    - injection E as <-. eexists. split; [reflexivity |]. change (N.of_nat 0) with 0. rewrite N.add_0_r. apply bone_ok; [apply SUB; left; reflexivity | exact F0].
    - destruct (H k z E) as (o & Eo & S0). exists o. split; [exact Eo |]. replace (i + N.of_nat (S k)) with (i + 1 + N.of_nat k) by lia. exact S0.
  Qed.
End Bones.
