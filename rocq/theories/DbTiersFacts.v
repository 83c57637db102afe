(** Proofs about the assignment of key frames to tiers. *)
From Coq Require Import Lia Permutation Sorted Reals.
From Flocq Require Import Core.
From Verif Require Import Word WordFacts Float32 Float32Facts FloatOrder StripOrder SeekSpec StripSpec StripOrderFacts ClipOrderFacts StripKeyFacts SubTracksFacts DbTiers TierSpec.
Local Open Scope N_scope.
Ltac Zify.zify_post_hook ::= idtac.

Section TIERS.
Variables (sizes : list (list N)) (clips : list db_clip).
Hypothesis LEN : length clips = length sizes.
Hypothesis CLIPS : forall i z c, nth_error sizes i = Some z -> nth_error clips i = Some c -> clip_ok z c.

Definition order_at (i : nat) (order : list keyframe) : Prop := exists c, nth_error clips i = Some c /\ dc_order c = Some order.

Lemma clip_at i c : nth_error clips i = Some c -> exists z, nth_error sizes i = Some z /\ clip_ok z c.
Proof.
  intros H. destruct (nth_error sizes i) as [z|] eqn:E; [exists z; eauto|]. apply nth_error_None in E.
  assert (X : (i < length clips)%nat) by (apply nth_error_Some; congruence). lia.
Qed.

(** the mapping made for key frame [k] of clip [i] *)
Definition mapping_of (i : nat) (c : db_clip) (k : keyframe) (m : frame_mapping) : Prop :=
  exists start bits data, nth_error (dc_starts c) (N.to_nat (kf_segment k)) = Some start /\
    nth_error (dc_pose_bits c) (N.to_nat (kf_segment k)) = Some bits /\ nth_error (dc_data c) (N.to_nat (kf_segment k)) = Some data /\
    m = {| fm_data := Some data; fm_tracks := N.of_nat i; fm_segment := kf_segment k; fm_clip_frame := kf_index k;
           fm_segment_frame := subw 32 (kf_index k) start; fm_bits := bits; fm_error := kf_error k |}.
Definition cand (assigned : list N) (i : nat) (m : frame_mapping) : Prop :=
  exists c a order k, nth_error clips i = Some c /\ nth_error assigned i = Some a /\ dc_order c = Some order /\
    nth_error order (N.to_nat a) = Some k /\ mapping_of i c k m.

Lemma mapping_exists i c z order j k : nth_error clips i = Some c -> clip_ok z c -> dc_order c = Some order -> nth_error order j = Some k ->
  exists m, mapping_of i c k m.
Proof.
  intros H (Z1 & Z2 & Z3 & Z4 & Z5 & Z6 & Z7 & Z8 & Z9 & order' & O1 & O2) O K. rewrite O in O1. inversion O1; subst order'.
  destruct (order_valid z order Z2 O2 j k K) as (V & _).
  destruct (nth_error (dc_pose_bits c) (N.to_nat (kf_segment k))) as [bits|] eqn:E1; [|apply nth_error_None in E1; lia].
  destruct (nth_error (dc_data c) (N.to_nat (kf_segment k))) as [data|] eqn:E2; [|apply nth_error_None in E2; lia].
  eexists. exists (start_of z (N.to_nat (kf_segment k))), bits, data. rewrite (Z9 _ V). auto.
Qed.
Lemma mapping_fun i c k m m' : mapping_of i c k m -> mapping_of i c k m' -> m = m'.
Proof. intros (a & b & d & A & B & D & ->) (a' & b' & d' & A' & B' & D' & ->). congruence. Qed.

Lemma cand_num assigned i m : cand assigned i m -> is_num (fm_error m) = true.
Proof.
  intros (c & a & order & k & C & A & O & K & M). destruct (clip_at _ _ C) as (z & Z & OK). destruct OK as (_ & _ & _ & _ & _ & _ & _ & _ & _ & order' & O1 & O2).
  rewrite O in O1. inversion O1; subst order'. destruct M as (x & y & w & _ & _ & _ & ->). cbn [fm_error].
  destruct O2 as (_ & O2). destruct (O2 _ _ K) as (_ & P1 & P2). destruct (N.lt_ge_cases (N.of_nat (N.to_nat a)) (movable z)) as [L|L].
  - destruct (P1 L) as (_ & B). apply (flt_num _ _ B).
  - destruct (P2 L) as (_ & B & _). rewrite B. reflexivity.
Qed.

Lemma best_frame_ok hi assigned : length assigned = length clips ->
  forall l l' o best, skipn o clips = l -> skipn o assigned = l' -> is_num (fm_error best) = true ->
  (hi = false -> forall i m, (i < o)%nat -> cand assigned i m -> fle (fm_error best) (fm_error m) = true) ->
  exists b, best_frame hi l l' (N.of_nat o) best = Ok b /\ (b = best \/ exists i, cand assigned i b) /\
    (hi = false -> forall i m, cand assigned i m -> fle (fm_error b) (fm_error m) = true) /\
    (hi = true -> (exists i m, (o <= i)%nat /\ cand assigned i m) -> exists i, cand assigned i b).
Proof.
  intros LA. induction l as [|c l IH]; intros l' o best E1 E2 NB LB.
  - assert (LO : (length clips <= o)%nat). { assert (X : length (skipn o clips) = 0%nat) by (rewrite E1; auto). rewrite skipn_length in X. lia. }
    assert (NC : forall i m, cand assigned i m -> (i < length clips)%nat) by (intros i m (c & a & A & B & C & _); apply nth_error_Some; congruence).
    exists best. split; [destruct l'; reflexivity|]. split; auto. split.
    + intros H i m C. apply (LB H i); auto. apply NC in C. lia.
    + intros _ (i & m & L & C). apply NC in C. lia.
  - destruct (skipn_cons _ _ _ _ E1) as (CC & E1').
    assert (OL : (o < length clips)%nat) by (apply nth_error_Some; congruence).
    destruct l' as [|a l'].
    { exfalso. assert (X : length (skipn o assigned) = 0%nat) by (rewrite E2; auto). rewrite skipn_length in X. lia. }
    destruct (skipn_cons _ _ _ _ E2) as (CA & E2').
    destruct (clip_at _ _ CC) as (z & Z & OK). pose proof OK as (Z1 & Z2 & Z3 & Z4 & Z5 & Z6 & Z7 & Z8 & Z9 & order & O1 & O2).
    pose proof (order_length z order O2) as OLen.
    cbn [best_frame]. rewrite Z1, O1. replace (N.of_nat o + 1) with (N.of_nat (S o)) by lia.
    destruct (N.leb_spec (sumN z) a) as [L|L].
    + assert (NC : forall m, ~ cand assigned o m).
      { intros m (c' & a' & order' & k & A1 & A2 & A3 & A4 & _). rewrite CC in A1. inversion A1; subst c'. rewrite CA in A2. inversion A2; subst a'.
        rewrite O1 in A3. inversion A3; subst order'. assert (X : (N.to_nat a < length order)%nat) by (apply nth_error_Some; congruence). lia. }
      destruct (IH l' (S o) best E1' E2' NB) as (b & B1 & B2 & B3 & B4).
      { intros H i m I C. destruct (Nat.eq_dec i o) as [-> |]; [exfalso; eapply NC; eauto | apply (LB H i); auto; lia]. }
      exists b. split; auto. split; auto. split; auto. intros H (i & m & I & C). apply B4; auto. exists i, m. split; auto.
      destruct (Nat.eq_dec i o) as [-> |]; [exfalso; eapply NC; eauto | lia].
    + destruct (nth_error order (N.to_nat a)) as [k|] eqn:K; [|apply nth_error_None in K; lia].
      destruct (mapping_exists o c z order (N.to_nat a) k CC OK O1 K) as (mk & MK).
      assert (CM : cand assigned o mk) by (exists c, a, order, k; auto).
      assert (UN : forall m, cand assigned o m -> m = mk).
      { intros m (c' & a' & order' & k' & A1 & A2 & A3 & A4 & A5). rewrite CC in A1. inversion A1; subst c'. rewrite CA in A2. inversion A2; subst a'.
        rewrite O1 in A3. inversion A3; subst order'. rewrite K in A4. inversion A4; subst k'. eapply mapping_fun; eauto. }
      pose proof (cand_num _ _ _ CM) as NM. destruct MK as (start & bits & data & M1 & M2 & M3 & ME). rewrite M1, M2, M3. rewrite <- ME.
      assert (EE : kf_error k = fm_error mk) by (rewrite ME; reflexivity). rewrite EE.
      destruct (flt (fm_error mk) (fm_error best) || hi) eqn:FL.
      * destruct (IH l' (S o) mk E1' E2' NM) as (b & B1 & B2 & B3 & B4).
        { intros H i m I C. destruct (Nat.eq_dec i o) as [-> |]; [rewrite (UN _ C); apply fle_refl; auto|].
          rewrite H, orb_false_r in FL. eapply fle_trans; [apply flt_fle; exact FL|]. apply (LB H i); auto; lia. }
        exists b. split; auto. split; [right; destruct B2 as [-> |B2]; auto; exists o; auto|]. split; auto.
        intros H _. destruct B2 as [-> |B2]; auto. exists o. auto.
      * apply orb_false_iff in FL. destruct FL as (FL & ->).
        destruct (IH l' (S o) best E1' E2' NB) as (b & B1 & B2 & B3 & B4).
        { intros H i m I C. destruct (Nat.eq_dec i o) as [-> |]; [|apply (LB H i); auto; lia]. rewrite (UN _ C).
          destruct (fle (fm_error best) (fm_error mk)) eqn:F; auto. apply fle_flt_total in F; auto. congruence. }
        exists b. split; auto. split; auto. split; auto. intros H. discriminate H.
Qed.

Definition valid_frame (m : frame_mapping) : Prop := fm_tracks m < N.of_nat (length clips).
Definition samples_at (i : nat) : N := sumN (nth i sizes []).
Definition movable_at (i : nat) : N := clip_movable (nth i sizes []).

Lemma taken_of_app c a b : taken_of c (a ++ b) = (taken_of c a + taken_of c b)%nat.
Proof. unfold taken_of. rewrite filter_app, app_length. reflexivity. Qed.
Lemma taken_of_one c m : taken_of c [m] = if fm_tracks m =? c then 1%nat else 0%nat.
Proof. unfold taken_of. cbn [filter]. destruct (fm_tracks m =? c); reflexivity. Qed.
Lemma taken_of_sum (n : nat) : forall l, Forall (fun m => fm_tracks m < N.of_nat n) l ->
  sumN (map (fun s => N.of_nat (taken_of (N.of_nat s) l)) (seq 0 n)) = N.of_nat (length l).
Proof.
  intros l F. pose (tok := fun m => {| kf_index := 0; kf_segment := fm_tracks m; kf_strip := 0; kf_error := f_zero; kf_trivial := false |}).
  assert (E : forall s, taken_of s l = taken s (map tok l)).
  { intros s. unfold taken_of, taken. clear F. induction l as [|a l IH]; auto. cbn [map filter]. cbn [kf_segment tok].
    destruct (fm_tracks a =? s); cbn [length]; auto. }
  rewrite <- (map_length tok l), <- (taken_sum n (map tok l)).
  - f_equal. apply map_ext. intros s. f_equal. apply E.
  - apply Forall_map. exact F.
Qed.

Record state (done : list frame_mapping) (assigned : list N) : Prop := {
  s_len : length assigned = length clips;
  s_asg : forall i, (i < length clips)%nat -> nth_error assigned i = Some (N.of_nat (taken_of (N.of_nat i) done));
  s_valid : Forall valid_frame done;
  s_le : forall i, N.of_nat (taken_of (N.of_nat i) done) <= samples_at i }.

(** what is shown of the i-th pick *)
Definition pick_ok (hi : bool) (l : list frame_mapping) (i : nat) (m : frame_mapping) : Prop :=
  exists j c order k, fm_tracks m = N.of_nat j /\ nth_error clips j = Some c /\ dc_order c = Some order /\
    nth_error order (taken_of (fm_tracks m) (firstn i l)) = Some k /\ mapping_of j c k m /\
    (hi = false -> below_inf (kf_error k) /\
       forall c' cl' order' k', nth_error clips (N.to_nat c') = Some cl' -> dc_order cl' = Some order' ->
         nth_error order' (taken_of c' (firstn i l)) = Some k' -> fle (kf_error k) (kf_error k') = true).

Lemma clip_movable_le z c : clip_ok z c -> clip_movable z <= movable z /\ movable z <= sumN z.
Proof.
  intros (_ & _ & _ & Z4 & _). split; [|apply movable_le]. unfold clip_movable. destruct (N.leb_spec 2 (sumN z)) as [L|L]; [|lia]. specialize (Z4 L).
  unfold movable. clear L. assert (G : sumN z <= sumN (map (fun x => x - 2) z) + 2 * N.of_nat (length z)); [|lia].
  clear Z4. induction z as [|a l IH]; cbn [map sumN length]; lia.
Qed.

Lemma assign_ok (hi : bool) : forall num done assigned, state done assigned ->
  N.of_nat (length done + num) <= (if hi then total_frames sizes else total_movable sizes) ->
  exists rest assigned', assign_loop num hi clips assigned = Ok (rest, assigned') /\ length rest = num /\ state (done ++ rest) assigned' /\
    forall i m, (length done <= i)%nat -> nth_error (done ++ rest) i = Some m -> pick_ok hi (done ++ rest) i m.
Proof.
  induction num as [|num IH]; intros done assigned ST BOUND; cbn [assign_loop].
  - exists [], assigned. rewrite app_nil_r. split; auto. split; auto. split; auto. intros i m L K.
    assert (X : (i < length done)%nat) by (apply nth_error_Some; congruence). lia.
  - destruct ST as [S1 S2 S3 S4].
    assert (CANDC : forall i z c, nth_error sizes i = Some z -> nth_error clips i = Some c -> N.of_nat (taken_of (N.of_nat i) done) < sumN z ->
      exists m, cand assigned i m /\ (N.of_nat (taken_of (N.of_nat i) done) < movable z -> below_inf (fm_error m))).
    { intros i z c Z C L. assert (OK := CLIPS _ _ _ Z C). pose proof OK as (_ & _ & _ & _ & _ & _ & _ & _ & _ & order & O1 & O2).
      pose proof (order_length z order O2) as OL. destruct (nth_error order (taken_of (N.of_nat i) done)) as [k|] eqn:K; [|apply nth_error_None in K; lia].
      destruct (mapping_exists i c z order _ k C OK O1 K) as (m & M). exists m. split.
      - exists c, (N.of_nat (taken_of (N.of_nat i) done)), order, k. split; auto. split; [apply S2; apply nth_error_Some; congruence|]. split; auto.
        rewrite Nat2N.id. auto.
      - intros LM. destruct M as (x & y & w & _ & _ & _ & ->). cbn [fm_error]. destruct O2 as (_ & O2). apply (O2 _ _ K). exact LM. }
    destruct (best_frame_ok hi assigned S1 clips assigned 0 no_mapping eq_refl eq_refl eq_refl) as (b & B1 & B2 & B3 & B4); [intros; lia|].
    change (N.of_nat 0) with 0 in B1. rewrite B1. cbn [bindo].
    assert (SUM := taken_of_sum (length clips) done S3).
    assert (CB : (exists i, cand assigned i b) /\ (hi = false -> below_inf (fm_error b))).
    { destruct hi.
      - destruct (sum_lt (fun s => N.of_nat (taken_of (N.of_nat s) done)) (fun s => samples_at s) (seq 0 (length clips))) as (i & I1 & I2).
        { rewrite SUM. replace (sumN (map (fun s => samples_at s) (seq 0 (length clips)))) with (total_frames sizes).
          - lia.
          - unfold total_frames, samples_at. rewrite LEN. f_equal. rewrite <- (map_map (fun s => nth s sizes []) sumN). f_equal.
            clear. induction sizes as [|a l IHl]; auto. cbn [length seq map nth]. f_equal. rewrite <- seq_shift, map_map. exact IHl. }
        apply in_seq in I1. destruct (nth_error clips i) as [c|] eqn:C; [|apply nth_error_None in C; lia]. destruct (clip_at _ _ C) as (z & Z & _).
        unfold samples_at in I2. rewrite (nth_error_nth _ _ [] Z) in I2. destruct (CANDC i z c Z C I2) as (m & M & _).
        split; [|intros; discriminate]. apply B4; auto. exists i, m. split; [lia | auto].
      - destruct (sum_lt (fun s => N.of_nat (taken_of (N.of_nat s) done)) (fun s => movable_at s) (seq 0 (length clips))) as (i & I1 & I2).
        { rewrite SUM. replace (sumN (map (fun s => movable_at s) (seq 0 (length clips)))) with (total_movable sizes).
          - lia.
          - unfold total_movable, movable_at. rewrite LEN. f_equal. rewrite <- (map_map (fun s => nth s sizes []) clip_movable). f_equal.
            clear. induction sizes as [|a l IHl]; auto. cbn [length seq map nth]. f_equal. rewrite <- seq_shift, map_map. exact IHl. }
        apply in_seq in I1. destruct (nth_error clips i) as [c|] eqn:C; [|apply nth_error_None in C; lia]. destruct (clip_at _ _ C) as (z & Z & OK).
        unfold movable_at in I2. rewrite (nth_error_nth _ _ [] Z) in I2. destruct (clip_movable_le z c OK) as (ML1 & ML2).
        destruct (CANDC i z c Z C ltac:(lia)) as (m & M & BM). specialize (BM ltac:(lia)).
        assert (FB : below_inf (fm_error b)) by (unfold below_inf in *; eapply fle_lt_trans; [apply (B3 eq_refl _ _ M) | exact BM]).
        split; auto. destruct B2 as [-> |B2]; auto. discriminate FB. }
    destruct CB as ((j & CB) & FB). pose proof CB as (c & a & order & k & C1 & C2 & C3 & C4 & C5).
    assert (TJ : fm_tracks b = N.of_nat j) by (destruct C5 as (x & y & w & _ & _ & _ & ->); reflexivity).
    assert (JL : (j < length clips)%nat) by (apply nth_error_Some; congruence).
    rewrite TJ, Nat2N.id, C2. pose proof (S2 j JL) as SJ. rewrite C2 in SJ. inversion SJ as [AE]. rewrite AE, Nat2N.id in C4.
    destruct (clip_at _ _ C1) as (z & Z & OK). pose proof OK as (Z1 & Z2 & _ & _ & _ & _ & _ & _ & _ & order' & O1 & O2).
    rewrite C3 in O1. inversion O1; subst order'. pose proof (order_length z order O2) as OL.
    assert (TL : (taken_of (N.of_nat j) done < length order)%nat) by (apply nth_error_Some; congruence).
    change (2 ^ 32) with 4294967296 in Z2. rewrite addw_small by (change (2 ^ 32) with 4294967296; lia).
    destruct (IH (done ++ [b]) (upd assigned j (N.of_nat (taken_of (N.of_nat j) done) + 1))) as (rest & asg' & R1 & R2 & R3 & R4).
    + constructor.
      * rewrite upd_length. auto.
      * intros i I. rewrite nth_error_upd by lia. rewrite taken_of_app, taken_of_one, TJ. destruct (Nat.eqb_spec i j) as [-> |NE].
        { rewrite N.eqb_refl. f_equal. lia. }
        { destruct (N.eqb_spec (N.of_nat j) (N.of_nat i)); [lia|]. rewrite Nat.add_0_r. apply S2. auto. }
      * apply Forall_app. split; auto. constructor; auto. unfold valid_frame. rewrite TJ. lia.
      * intros i. rewrite taken_of_app, taken_of_one, TJ. destruct (N.eqb_spec (N.of_nat j) (N.of_nat i)) as [E|NE].
        { replace i with j by lia. unfold samples_at. rewrite (nth_error_nth _ _ [] Z). lia. }
        { rewrite Nat.add_0_r. apply S4. }
    + rewrite app_length. cbn [length]. rewrite <- Nat.add_assoc. exact BOUND.
    + rewrite R1. cbn [bindo fst snd]. exists (b :: rest), asg'. split; auto. split; [cbn [length]; lia|].
      rewrite <- app_assoc in R3, R4. cbn [app] in R3, R4. split; auto. intros i m L K.
      assert (D : (length done + 1 <= i)%nat \/ i = length done) by lia. destruct D as [D| ->].
      * apply R4; auto. rewrite app_length. cbn [length]. exact D.
      * rewrite nth_error_app2 in K by lia. rewrite Nat.sub_diag in K. cbn in K. inversion K; subst m.
        unfold pick_ok. rewrite firstn_app, Nat.sub_diag, firstn_all. cbn [firstn]. rewrite app_nil_r. exists j, c, order, k.
        split; auto. split; auto. split; auto. split; [rewrite TJ; auto|]. split; auto. intros H.
        assert (EB : fm_error b = kf_error k) by (destruct C5 as (x & y & w & _ & _ & _ & ->); reflexivity).
        split; [rewrite <- EB; apply FB; auto|]. intros c' cl' o' k' Q1 Q2 Q3.
        destruct (clip_at _ _ Q1) as (z' & Z' & OK'). destruct (mapping_exists _ _ _ _ _ _ Q1 OK' Q2 Q3) as (m' & M').
        assert (EM : fm_error m' = kf_error k') by (destruct M' as (x & y & w & _ & _ & _ & ->); reflexivity). rewrite <- EB, <- EM.
        apply (B3 H (N.to_nat c')). exists cl', (N.of_nat (taken_of c' done)), o', k'. split; auto.
        split; [rewrite S2 by (apply nth_error_Some; congruence); rewrite N2Nat.id; reflexivity|]. split; auto. rewrite Nat2N.id. auto.
Qed.

(** what a pick is *)
Lemma pick_facts hi l i m : pick_ok hi l i m -> mapping_ok sizes clips m /\ In (key m) (all_frames sizes) /\ (hi = false -> mapping_interior sizes m).
Proof.
  intros (j & c & order & k & TJ & C & O & K & M & G). destruct (clip_at _ _ C) as (z & Z & OK).
  pose proof OK as (Z1 & Z2 & Z3 & Z4 & Z5 & Z6 & Z7 & Z8 & Z9 & order' & O1 & O2). rewrite O in O1. inversion O1; subst order'.
  destruct (order_valid z order Z2 O2 _ _ K) as (V1 & V2 & V3). pose proof (start_of_next z (N.to_nat (kf_segment k))) as SN.
  destruct M as (start & bits & data & M1 & M2 & M3 & E). rewrite (Z9 _ V1) in M1. inversion M1 as [M1']. clear M1.
  assert (KL : kf_index k < 2 ^ 32) by (eapply N.lt_le_trans; [exact V3|]; apply N.lt_le_incl in Z2; eapply N.le_trans; [exact SN | exact Z2]).
  assert (SF : fm_segment_frame m = kf_index k - start_of z (N.to_nat (kf_segment k))).
  { rewrite E. cbn [fm_segment_frame]. rewrite <- M1'. apply subw_ge; auto. }
  assert (E1 : fm_segment m = kf_segment k) by (rewrite E; reflexivity).
  assert (E2 : fm_clip_frame m = kf_index k) by (rewrite E; reflexivity).
  assert (E3 : fm_data m = Some data) by (rewrite E; reflexivity).
  assert (E4 : fm_bits m = bits) by (rewrite E; reflexivity). clear E.
  split; [|split].
  - exists c, z. rewrite TJ, Nat2N.id, E1, E2, E3, E4, SF. split; auto. split; auto. split; [eauto|]. split; auto. lia.
  - unfold all_frames. apply in_flat_map. exists j. split; [apply in_seq; assert (j < length sizes)%nat by (apply nth_error_Some; congruence); lia|].
    rewrite (nth_error_nth _ _ [] Z). unfold frames_of. apply in_flat_map. exists (N.to_nat (kf_segment k)). split; [apply in_seq; lia|].
    apply in_map_iff. exists (fm_segment_frame m). split; [unfold key; rewrite TJ, E1, N2Nat.id; reflexivity|]. apply upto_in. lia.
  - intros H. destruct (G H) as (B & _). destruct O2 as (_ & O2). destruct (O2 _ _ K) as (_ & P1 & P2).
    destruct (N.lt_ge_cases (N.of_nat (taken_of (fm_tracks m) (firstn i l))) (movable z)) as [L|L].
    + destruct (P1 L) as ((Q1 & Q2) & _). unfold first_of, last_of in Q1, Q2. unfold mapping_interior. rewrite TJ, Nat2N.id, (nth_error_nth _ _ [] Z), E1, SF. lia.
    + destruct (P2 L) as (_ & Q & _). rewrite Q in B. discriminate B.
Qed.

Lemma firstn_S {A} (l : list A) i x : nth_error l i = Some x -> firstn (S i) l = firstn i l ++ [x].
Proof. revert i. induction l as [|a l IH]; intros [|i] H; try discriminate H; cbn in *; [congruence|]. f_equal. auto. Qed.
Lemma taken_of_le c (l : list frame_mapping) i j : (i <= j)%nat -> (taken_of c (firstn i l) <= taken_of c (firstn j l))%nat.
Proof.
  intros L. replace j with (i + (j - i))%nat by lia. rewrite firstn_add, taken_of_app. lia.
Qed.

Lemma picks_distinct hi l : (forall i m, nth_error l i = Some m -> pick_ok (hi i) l i m) -> NoDup (map key l).
Proof.
  intros P. apply NoDup_nth_error. rewrite map_length. intros i j L E.
  assert (W : forall i j mi mj, (i < j)%nat -> nth_error l i = Some mi -> nth_error l j = Some mj -> key mi = key mj -> False).
  { clear i j L E. intros i j mi mj L EI EJ E. destruct (P _ _ EI) as (a & c & order & k & T & C & O & K & M & _).
    destruct (P _ _ EJ) as (a' & c' & order' & k' & T' & C' & O' & K' & M' & _).
    unfold key in E. inversion E as [[E1 E2 E3]]. rewrite T, T' in E1. assert (a' = a) by lia. subst a'.
    rewrite C in C'. inversion C'; subst c'. rewrite O in O'. inversion O'; subst order'. rewrite T in K. rewrite T' in K'.
    destruct (clip_at _ _ C) as (z & Z & OK). pose proof OK as (Z1 & Z2 & Z3 & Z4 & Z5 & Z6 & Z7 & Z8 & Z9 & order' & O1 & O2). rewrite O in O1. inversion O1; subst order'.
    destruct (order_valid z order Z2 O2 _ _ K) as (V1 & V2 & V3). destruct (order_valid z order Z2 O2 _ _ K') as (V1' & V2' & V3').
    pose proof (start_of_next z (N.to_nat (kf_segment k))) as SN. pose proof (start_of_next z (N.to_nat (kf_segment k'))) as SN'.
    destruct M as (x & y & w & M1 & M2 & M3 & ->). destruct M' as (x' & y' & w' & M1' & M2' & M3' & ->). cbn [fm_segment fm_segment_frame fm_tracks] in *.
    rewrite (Z9 _ V1) in M1. inversion M1; subst x. rewrite (Z9 _ V1') in M1'. inversion M1'; subst x'. change (2 ^ 32) with 4294967296 in Z2.
    rewrite !subw_ge in E3 by (change (2 ^ 32) with 4294967296; lia). rewrite E2 in *.
    assert (KI : kf_index k = kf_index k') by lia.
    pose proof (order_nodup z order ltac:(change (2 ^ 32) with 4294967296; exact Z2) O2) as ND.
    assert (TT : taken_of (N.of_nat a) (firstn i l) = taken_of (N.of_nat a) (firstn j l)).
    { eapply (proj1 (NoDup_nth_error _) ND).
      - rewrite map_length. apply nth_error_Some. congruence.
      - rewrite !nth_error_map, K, K'. cbn. congruence. }
    pose proof (taken_of_le (N.of_nat a) l (S i) j L) as LE. rewrite (firstn_S _ _ _ EI), taken_of_app, taken_of_one in LE. cbn [fm_tracks] in LE.
    rewrite N.eqb_refl in LE. lia. }
  rewrite !nth_error_map in E. destruct (nth_error l i) as [mi|] eqn:EI; [|apply nth_error_None in EI; lia].
  destruct (nth_error l j) as [mj|] eqn:EJ; [|discriminate E]. cbn [option_map] in E. assert (E' : key mi = key mj) by congruence.
  destruct (Nat.lt_trichotomy i j) as [D|[D|D]]; auto; exfalso; [exact (W i j mi mj D EI EJ E') | exact (W j i mj mi D EJ EI (eq_sym E'))].
Qed.

Lemma frames_of_length c z : length (frames_of c z) = N.to_nat (sumN z).
Proof.
  unfold frames_of. rewrite flat_map_concat_map.
  assert (G : forall l, length (concat (map (fun s => map (fun f => (c, N.of_nat s, f)) (upto (nth s z 0))) l)) = N.to_nat (sumN (map (fun s => nth s z 0) l))).
  { induction l as [|a l IH]; auto. cbn [map concat sumN]. rewrite app_length, map_length. unfold upto at 1. rewrite map_length, seq_length, IH. lia. }
  rewrite G, map_nth_seq. reflexivity.
Qed.
Lemma all_frames_length : length (all_frames sizes) = N.to_nat (total_frames sizes).
Proof.
  unfold all_frames, total_frames. rewrite flat_map_concat_map.
  assert (G : forall l, length (concat (map (fun c => frames_of (N.of_nat c) (nth c sizes [])) l)) = N.to_nat (sumN (map (fun s => sumN (nth s sizes [])) l))).
  { induction l as [|a l IH]; auto. cbn [map concat sumN]. rewrite app_length, frames_of_length, IH. lia. }
  rewrite G. f_equal. f_equal. rewrite <- (map_map (fun s => nth s sizes []) sumN). f_equal.
  clear. induction sizes as [|a l IHl]; auto. cbn [length seq map nth]. f_equal. rewrite <- seq_shift, map_map. exact IHl.
Qed.

Lemma start_state : state [] (repeat 0 (length clips)).
Proof.
  constructor.
  - apply repeat_length.
  - intros i L. cbn. apply nth_error_repeat. auto.
  - constructor.
  - intros i. cbn. lia.
Qed.

Lemma pick_ok_app hi l l' i m : (i < length l)%nat -> pick_ok hi l i m -> pick_ok hi (l ++ l') i m.
Proof. intros L. unfold pick_ok. rewrite firstn_app. replace (i - length l)%nat with 0%nat by lia. cbn [firstn]. rewrite app_nil_r. auto. Qed.

Lemma tiers_ok nh nm nl : nl + nm <= total_movable sizes -> nl + nm + nh = total_frames sizes ->
  exists ph pm pl, assign_frames_to_tiers clips nh nm nl = Ok (sort_frames ph, sort_frames pm, sort_frames pl) /\
    length pl = N.to_nat nl /\ length pm = N.to_nat nm /\ length ph = N.to_nat nh /\
    picks clips (length (pl ++ pm)) (pl ++ pm ++ ph) /\
    Permutation (map key (pl ++ pm ++ ph)) (all_frames sizes) /\
    Forall (mapping_ok sizes clips) (pl ++ pm ++ ph) /\ Forall (mapping_interior sizes) (pl ++ pm).
Proof.
  intros B1 B2. unfold assign_frames_to_tiers.
  destruct (assign_ok false (N.to_nat nl) [] _ start_state) as (pl & s1 & R1 & L1 & S1 & P1); [cbn [length]; lia|]. rewrite R1. cbn [bindo fst snd].
  cbn [app] in S1, P1.
  destruct (assign_ok false (N.to_nat nm) pl s1 S1) as (pm & s2 & R2 & L2 & S2 & P2); [cbv iota; lia|]. rewrite R2. cbn [bindo fst snd].
  destruct (assign_ok true (N.to_nat nh) (pl ++ pm) s2 S2) as (ph & s3 & R3 & L3 & S3 & P3); [cbv iota; rewrite app_length; lia|]. rewrite R3. cbn [bindo fst snd].
  exists ph, pm, pl. split; auto. split; auto. split; auto. split; auto.
  assert (ALL : forall i m, nth_error (pl ++ pm ++ ph) i = Some m -> pick_ok (negb (i <? length (pl ++ pm))%nat) (pl ++ pm ++ ph) i m).
  { intros i m K. rewrite app_assoc in *. destruct (Nat.ltb_spec i (length (pl ++ pm))) as [L|L]; cbn [negb]; [|apply P3; auto].
    apply pick_ok_app; auto. rewrite nth_error_app1 in K by auto. destruct (Nat.lt_ge_cases i (length pl)) as [L'|L']; [|apply P2; auto].
    rewrite nth_error_app1 in K by auto. apply pick_ok_app; auto. apply P1; auto. cbn [length]. lia. }
  split.
  { intros i m K. destruct (ALL _ _ K) as (j & c & order & k & TJ & C & O & KK & M & G). exists c, order, k.
    split; [rewrite TJ, Nat2N.id; auto|]. split; auto. split; auto.
    destruct M as (x & y & w & _ & _ & _ & E). split; [rewrite E; reflexivity|]. split; [rewrite E; reflexivity|]. split; [rewrite E; reflexivity|].
    intros L. apply Nat.ltb_lt in L. rewrite L in G. destruct (G eq_refl) as (_ & G2). exact G2. }
  split.
  { apply NoDup_Permutation_bis.
    - apply (picks_distinct (fun i => negb (i <? length (pl ++ pm))%nat)). exact ALL.
    - rewrite all_frames_length, map_length, !app_length. lia.
    - intros p I. apply in_map_iff in I. destruct I as (m & <- & I). apply In_nth_error in I. destruct I as (i & I). apply (pick_facts _ _ _ _ (ALL _ _ I)). }
  split.
  { apply Forall_forall. intros m I. apply In_nth_error in I. destruct I as (i & I). apply (pick_facts _ _ _ _ (ALL _ _ I)). }
  { apply Forall_forall. intros m I. apply In_nth_error in I. destruct I as (i & I).
    assert (L : (i < length (pl ++ pm))%nat) by (apply nth_error_Some; congruence).
    assert (I' : nth_error (pl ++ pm ++ ph) i = Some m) by (rewrite app_assoc, nth_error_app1; auto).
    destruct (pick_facts _ _ _ _ (ALL _ _ I')) as (_ & _ & Q). apply Q. apply Nat.ltb_lt in L. rewrite L. reflexivity. }
Qed.

(** the counts *)
Lemma calc_frames : total_frames sizes < 2 ^ 32 -> calculate_num_frames clips 0 = total_frames sizes.
Proof.
  assert (G : forall zs cs acc, length cs = length zs -> (forall i z c, nth_error zs i = Some z -> nth_error cs i = Some c -> clip_ok z c) ->
    acc + sumN (map sumN zs) < 2 ^ 32 -> calculate_num_frames cs acc = acc + sumN (map sumN zs)).
  { induction zs as [|z zs IH]; intros [|c cs] acc L H B; try discriminate L; cbn [calculate_num_frames map sumN] in *; [lia|].
    destruct (H 0%nat z c eq_refl eq_refl) as (Z1 & _). rewrite Z1, addw_small by lia. rewrite IH; [lia | cbn in L; lia | | lia].
    intros i z' c' A1 A2. apply (H (S i)); auto. }
  intros B. rewrite (G sizes clips 0); auto.
Qed.
Lemma movable_total : total_movable sizes <= total_frames sizes.
Proof.
  unfold total_movable, total_frames. clear. induction sizes as [|z l IH]; cbn [map sumN]; [lia|]. unfold clip_movable at 1. destruct (2 <=? sumN z); lia.
Qed.
Lemma calc_movable : total_frames sizes < 2 ^ 32 -> calculate_num_movable_frames clips 0 = total_movable sizes.
Proof.
  assert (G : forall zs cs acc, length cs = length zs -> (forall i z c, nth_error zs i = Some z -> nth_error cs i = Some c -> clip_ok z c) ->
    acc + sumN (map sumN zs) < 2 ^ 32 -> calculate_num_movable_frames cs acc = acc + sumN (map clip_movable zs)).
  { induction zs as [|z zs IH]; intros [|c cs] acc L H B; try discriminate L; cbn [calculate_num_movable_frames map sumN] in *; [lia|].
    destruct (H 0%nat z c eq_refl eq_refl) as (Z1 & Z2 & Z3 & Z4 & Z5 & Z6 & Z7 & _).
    assert (IH' : forall acc, acc + sumN (map sumN zs) < 2 ^ 32 -> calculate_num_movable_frames cs acc = acc + sumN (map clip_movable zs)).
    { intros acc' B'. apply IH; auto. intros i z' c' A1 A2. apply (H (S i)); auto. }
    unfold clip_movable at 1. unfold dc_num_segments. rewrite Z1, Z7. change (2 ^ 32) with 4294967296 in *.
    destruct (N.leb_spec 2 (sumN z)) as [L2|L2].
    - specialize (Z4 L2). rewrite mulw_small by (change (2 ^ 32) with 4294967296; lia). rewrite subw_ge by (change (2 ^ 32) with 4294967296; lia).
      rewrite addw_small by (change (2 ^ 32) with 4294967296; lia). rewrite IH' by lia. lia.
    - rewrite IH' by lia. lia. }
  intros B. rewrite (G sizes clips 0); auto.
Qed.

Lemma build_ok pl pm : ffinite pl = true -> (0 <= FR pl <= 1)%R -> ffinite pm = true -> (0 <= FR pm <= 1)%R -> total_frames sizes <= 2 ^ 24 ->
  exists high medium low, build_tiers pl pm clips = Ok (sort_frames high, sort_frames medium, sort_frames low) /\
    N.of_nat (length low) = N.min (total_movable sizes) (Z.to_N (Zfloor (rnd (FR pl * IZR (Z.of_N (total_frames sizes)))))) /\
    N.of_nat (length medium) = N.min (total_movable sizes - N.of_nat (length low)) (Z.to_N (Zfloor (rnd (FR pm * IZR (Z.of_N (total_frames sizes)))))) /\
    picks clips (length (low ++ medium)) (low ++ medium ++ high) /\
    Permutation (map key (low ++ medium ++ high)) (all_frames sizes) /\
    Forall (mapping_ok sizes clips) (low ++ medium ++ high) /\ Forall (mapping_interior sizes) (low ++ medium).
Proof.
  intros F1 R1 F2 R2 T. pose proof movable_total as MT. unfold build_tiers.
  assert (T32 : total_frames sizes < 2 ^ 32) by (change (2 ^ 24) with 16777216 in T; change (2 ^ 32) with 4294967296; lia).
  rewrite calc_frames, calc_movable by auto. cbv zeta.
  destruct (to_u32_proportion pl _ F1 R1 T) as (l & U1 & E1 & L1). destruct (to_u32_proportion pm _ F2 R2 T) as (m & U2 & E2 & L2).
  rewrite <- E1, <- E2. rewrite U1. cbn [bindo]. rewrite U2. cbn [bindo]. clear E1 E2 U1 U2. set (tm := total_movable sizes) in *. set (tf := total_frames sizes) in *.
  rewrite (subw_ge 32 tm) by (change (2 ^ 32) with 4294967296 in *; lia).
  rewrite (subw_ge 32 tf) by (change (2 ^ 32) with 4294967296 in *; lia).
  rewrite (subw_ge 32 (tf - _)) by (change (2 ^ 32) with 4294967296 in *; lia).
  destruct (tiers_ok (tf - N.min (tm - N.min tm l) m - N.min tm l) (N.min (tm - N.min tm l) m) (N.min tm l)) as (ph & pm' & pl' & Q1 & Q2 & Q3 & Q4 & Q5 & Q6 & Q7 & Q8);
    [subst tm; lia | subst tm tf; lia |].
  exists ph, pm', pl'. split; auto. split; [lia|]. split; [lia|]. auto.
Qed.
End TIERS.

(** sorting *)
Lemma frame_lt_key a b : frame_lt a b = true <-> key_lt (key a) (key b).
Proof.
  unfold frame_lt, key_lt, key. cbn [fst snd]. rewrite !orb_true_iff, !andb_true_iff, !orb_true_iff, !andb_true_iff, !N.ltb_lt, !N.eqb_eq. reflexivity.
Qed.
Lemma insert_perm x l : Permutation (insert_frame x l) (x :: l).
Proof. induction l as [|y t IH]; cbn [insert_frame]; auto. destruct (frame_lt y x); auto. rewrite IH. apply perm_swap. Qed.
Lemma sort_perm l : Permutation (sort_frames l) l.
Proof. induction l as [|x l IH]; cbn; auto. unfold sort_frames in *. rewrite insert_perm, IH. auto. Qed.
Lemma key_trans a b c : key_lt a b -> key_lt b c -> key_lt a c.
Proof. unfold key_lt. lia. Qed.
Lemma key_total a b : key_lt a b \/ a = b \/ key_lt b a.
Proof.
  unfold key_lt. destruct a as ((a1 & a2) & a3), b as ((b1 & b2) & b3). cbn [fst snd].
  destruct (N.lt_trichotomy a1 b1) as [|[-> |]]; auto 6. destruct (N.lt_trichotomy a2 b2) as [|[-> |]]; auto 8. destruct (N.lt_trichotomy a3 b3) as [|[-> |]]; auto 8.
Qed.
Lemma insert_sorted x l : ~ In (key x) (map key l) -> StronglySorted key_lt (map key l) -> StronglySorted key_lt (map key (insert_frame x l)).
Proof.
  induction l as [|y t IH]; intros NI S; cbn [insert_frame map].
  - repeat constructor.
  - cbn [map] in *. inversion S as [|? ? S1 S2]; subst. destruct (frame_lt y x) eqn:F; cbn [map].
    + apply frame_lt_key in F. constructor; [apply IH; auto; intros C; apply NI; right; auto|].
      apply Forall_forall. intros k I. assert (P := Permutation_map key (insert_perm x t)). apply (Permutation_in _ P) in I. cbn [map] in I.
      destruct I as [<- |I]; auto. rewrite Forall_forall in S2. auto.
    + assert (L : key_lt (key x) (key y)).
      { destruct (key_total (key x) (key y)) as [D|[D|D]]; auto; [exfalso; apply NI; left; auto|]. apply frame_lt_key in D. congruence. }
      constructor; [constructor; auto|]. constructor; auto. eapply Forall_impl; [|exact S2]. intros k. apply key_trans. exact L.
Qed.
Lemma sort_sorted l : NoDup (map key l) -> StronglySorted key_lt (map key (sort_frames l)).
Proof.
  induction l as [|x l IH]; intros N; cbn; [constructor|]. inversion N as [|? ? N1 N2]; subst. apply insert_sorted; [|apply IH; auto].
  intros I. apply N1. eapply Permutation_in; [|exact I]. apply Permutation_map, sort_perm.
Qed.
Lemma sorted_keys_unique (a b : list (N * N * N)) : StronglySorted key_lt a -> StronglySorted key_lt b -> Permutation a b -> a = b.
Proof.
  intros SA. revert b. induction SA as [|x a SA IH F]; intros b SB P.
  - apply Permutation_nil in P. auto.
  - destruct b as [|y b]; [symmetry in P; apply Permutation_nil_cons in P; tauto|]. inversion SB as [|? ? SB' FB]; subst.
    rewrite Forall_forall in F, FB.
    assert (E : x = y).
    { assert (I1 : In x (y :: b)) by (eapply Permutation_in; [exact P | left; auto]).
      assert (I2 : In y (x :: a)) by (eapply Permutation_in; [symmetry; exact P | left; auto]).
      destruct I1 as [-> |I1]; auto. destruct I2 as [-> |I2]; auto. specialize (FB _ I1). specialize (F _ I2). exfalso. unfold key_lt in *. lia. }
    subst y. f_equal. apply IH; auto. eapply Permutation_cons_inv. exact P.
Qed.

Lemma all_frames_nodup sizes : NoDup (all_frames sizes).
Proof.
  unfold all_frames, frames_of.
    assert (G : forall zs n, NoDup (flat_map (fun c => flat_map (fun s => map (fun f => (N.of_nat c, N.of_nat s, f)) (upto (nth s (nth c zs []) 0))) (seq 0 (length (nth c zs [])))) n) \/ ~ NoDup n).
    { intros zs n. destruct (ListDec.NoDup_dec Nat.eq_dec n) as [ND|ND]; [left|right; auto]. induction ND as [|a n NI ND IH]; [constructor|].
      cbn [flat_map]. apply NoDup_app_intro; auto.
      - generalize (nth a zs []). intros z. assert (ND' := seq_NoDup (length z) 0). induction ND' as [|s l NI' ND' IH']; [constructor|]. cbn [flat_map].
        apply NoDup_app_intro; auto.
        + apply FinFun.Injective_map_NoDup; [intros x y Q; congruence|]. apply upto_nodup.
        + intros x I1 I2. apply in_map_iff in I1. destruct I1 as (f & <- & I1). apply in_flat_map in I2. destruct I2 as (s' & J1 & J2).
          apply in_map_iff in J2. destruct J2 as (f' & Q & J2). inversion Q as [[Q1 Q2]]. apply Nat2N.inj in Q1. subst s'. auto.
      - intros x I1 I2. apply in_flat_map in I1. destruct I1 as (s & S1 & S2). apply in_map_iff in S2. destruct S2 as (f & <- & S2).
        apply in_flat_map in I2. destruct I2 as (c & C1 & C2). apply in_flat_map in C2. destruct C2 as (s' & D1 & D2). apply in_map_iff in D2.
        destruct D2 as (f' & Q & D2). inversion Q as [[Q1 Q2 Q3]]. apply Nat2N.inj in Q1. subst c. auto. }
    destruct (G sizes (seq 0 (length sizes))) as [N0|N0]; [|exfalso; apply N0; apply seq_NoDup].
    exact N0.
Qed.
