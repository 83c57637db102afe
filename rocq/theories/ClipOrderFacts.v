(** Proofs about the stripping order of a clip (sort_contributing_error). *)
From Coq Require Import Lia Permutation Sorted.
From Verif Require Import Word WordFacts Float32 FloatOrder StripOrder SeekSpec StripSpec StripOrderFacts.
Local Open Scope N_scope.
Ltac Zify.zify_post_hook ::= idtac.

Lemma sumN_app a b : sumN (a ++ b) = sumN a + sumN b.
Proof. induction a as [|x a IH]; cbn [sumN app]; auto. rewrite IH. lia. Qed.
Lemma start_of_S sizes i : start_of sizes (S i) = start_of sizes i + nth i sizes 0.
Proof.
  unfold start_of. revert i. induction sizes as [|x l IH]; intros i; [destruct i; reflexivity|].
  destruct i; [cbn; lia|]. cbn [firstn sumN nth]. rewrite <- N.add_assoc, <- IH. reflexivity.
Qed.
Lemma start_of_total sizes i : start_of sizes i <= sumN sizes.
Proof. unfold start_of. rewrite <- (firstn_skipn i sizes) at 2. rewrite sumN_app. lia. Qed.
Lemma start_of_next sizes i : start_of sizes i + nth i sizes 0 <= sumN sizes.
Proof. rewrite <- start_of_S. apply start_of_total. Qed.

Lemma clip_frames_in sizes p : In p (clip_frames sizes) <-> exists s f, (s < length sizes)%nat /\ f < nth s sizes 0 /\ p = (N.of_nat s, start_of sizes s + f).
Proof.
  unfold clip_frames. rewrite in_flat_map. split.
  - intros (s & S1 & S2). apply in_map_iff in S2. destruct S2 as (f & <- & F). apply upto_in in F. apply in_seq in S1. exists s, f. repeat split; auto. lia.
  - intros (s & f & S & F & ->). exists s. split; [apply in_seq; lia|]. apply in_map_iff. exists f. split; auto. apply upto_in. auto.
Qed.
Lemma clip_frames_length sizes : length (clip_frames sizes) = N.to_nat (sumN sizes).
Proof.
  unfold clip_frames.
  assert (G : forall k, (k <= length sizes)%nat -> length (flat_map (fun s => map (fun f => (N.of_nat s, start_of sizes s + f)) (upto (nth s sizes 0))) (seq 0 k)) = N.to_nat (start_of sizes k)).
  { induction k as [|k IH]; intros L; [reflexivity|]. rewrite seq_S, flat_map_app, app_length, IH by lia. cbn [flat_map plus].
    rewrite app_nil_r, map_length. unfold upto. rewrite map_length, seq_length, start_of_S. lia. }
  rewrite (G (length sizes)) by lia. unfold start_of. rewrite firstn_all. reflexivity.
Qed.
Lemma segment_order_length n s l : segment_order n s l -> length l = N.to_nat n.
Proof. intros (P & _). apply Permutation_length in P. rewrite map_length in P. unfold upto in P. rewrite map_length, seq_length in P. exact P. Qed.

(** counting *)
Lemma taken_app s a b : taken s (a ++ b) = (taken s a + taken s b)%nat.
Proof. unfold taken. rewrite filter_app, app_length. reflexivity. Qed.
Lemma taken_sum (m : nat) : forall l, Forall (fun k => kf_segment k < N.of_nat m) l ->
  sumN (map (fun s => N.of_nat (taken (N.of_nat s) l)) (seq 0 m)) = N.of_nat (length l).
Proof.
  induction l as [|k l IH]; intros F.
  - induction (seq 0 m); cbn; auto.
  - inversion F as [|? ? F1 F2]; subst. specialize (IH F2).
    assert (G : forall lo c, sumN (map (fun s => N.of_nat (taken (N.of_nat s) (k :: l))) (seq lo c))
      = sumN (map (fun s => N.of_nat (taken (N.of_nat s) l)) (seq lo c)) + if (N.of_nat lo <=? kf_segment k) && (kf_segment k <? N.of_nat (lo + c)) then 1 else 0).
    { intros lo c. revert lo. induction c as [|c IHc]; intros lo.
      - cbn [seq map sumN]. destruct (N.leb_spec (N.of_nat lo) (kf_segment k)), (N.ltb_spec (kf_segment k) (N.of_nat (lo + 0))); cbn; lia.
      - cbn [seq map sumN]. rewrite IHc. unfold taken at 1. cbn [filter]. fold (taken (N.of_nat lo) l).
        destruct (N.eqb_spec (kf_segment k) (N.of_nat lo)) as [Q|Q]; cbn [length]; fold (taken (N.of_nat lo) l);
        destruct (N.leb_spec (N.of_nat lo) (kf_segment k)), (N.leb_spec (N.of_nat (S lo)) (kf_segment k)),
          (N.ltb_spec (kf_segment k) (N.of_nat (lo + S c))), (N.ltb_spec (kf_segment k) (N.of_nat (S lo + c))); cbn [andb]; unfold taken in *; lia. }
    rewrite G, IH. replace (N.of_nat 0 <=? kf_segment k) with true by (symmetry; apply N.leb_le; lia).
    replace (kf_segment k <? N.of_nat (0 + m)) with true by (symmetry; apply N.ltb_lt; cbn; lia). cbn [andb length]. lia.
Qed.
Lemma sum_le (f g : nat -> N) l : (forall x, In x l -> f x <= g x) -> sumN (map f l) <= sumN (map g l).
Proof. induction l as [|a l IH]; intros H; cbn; [lia|]. pose proof (H a (or_introl eq_refl)). assert (sumN (map f l) <= sumN (map g l)) by (apply IH; intros; apply H; right; auto). lia. Qed.
Lemma sum_eq (f g : nat -> N) l : (forall x, In x l -> f x <= g x) -> sumN (map g l) <= sumN (map f l) -> forall x, In x l -> f x = g x.
Proof.
  induction l as [|a l IH]; intros H E x []; cbn in E.
  - subst. pose proof (H x (or_introl eq_refl)). assert (sumN (map f l) <= sumN (map g l)) by (apply sum_le; intros; apply H; right; auto). lia.
  - apply IH; auto; [intros; apply H; right; auto|]. pose proof (H a (or_introl eq_refl)). lia.
Qed.
Lemma sum_lt (f g : nat -> N) l : sumN (map f l) < sumN (map g l) -> exists x, In x l /\ f x < g x.
Proof.
  induction l as [|a l IH]; cbn; [lia|]. intros H. destruct (N.lt_ge_cases (f a) (g a)) as [L|L]; [exists a; auto|].
  destruct IH as (x & X1 & X2); [lia|]. exists x. auto.
Qed.
Lemma map_nth_seq (sizes : list N) : map (fun s => nth s sizes 0) (seq 0 (length sizes)) = sizes.
Proof.
  induction sizes as [|a l IH]; auto. cbn [length seq map nth]. f_equal. rewrite <- seq_shift, map_map. exact IH.
Qed.
Lemma movable_sum sizes : movable sizes = sumN (map (fun s => nth s sizes 0 - 2) (seq 0 (length sizes))).
Proof. unfold movable. f_equal. rewrite <- (map_nth_seq sizes) at 1. rewrite map_map. reflexivity. Qed.

Lemma movable_le sizes : movable sizes <= sumN sizes.
Proof. unfold movable. induction sizes as [|a l IH]; cbn [map sumN]; lia. Qed.
Lemma skipn_cons {A} o (l : list A) x l' : skipn o l = x :: l' -> nth_error l o = Some x /\ skipn (S o) l = l'.
Proof. revert o. induction l as [|a l IH]; intros [|o] H; cbn in H |- *; try discriminate; [inversion H; auto | apply IH; auto]. Qed.

Section CLIP.
Variables (sizes : list N) (segs : list seg_errors).
Hypothesis LEN : length segs = length sizes.
Hypothesis TOT : sumN sizes < 2 ^ 32.
Hypothesis SEGS : forall s sg, nth_error segs s = Some sg ->
  se_num_samples sg = nth s sizes 0 /\ se_offset sg = start_of sizes s /\ segment_order (nth s sizes 0) (N.of_nat s) (se_errors sg).

Lemma seg_len s sg : nth_error segs s = Some sg -> length (se_errors sg) = N.to_nat (nth s sizes 0).
Proof. intros H. destruct (SEGS _ _ H) as (_ & _ & O). apply (segment_order_length _ _ _ O). Qed.

Lemma error_num s sg c e : nth_error segs s = Some sg -> nth_error (se_errors sg) c = Some e ->
  is_num (kf_error e) = true /\ fle (kf_error e) f_inf = true /\ kf_segment e = N.of_nat s /\ kf_index e < nth s sizes 0.
Proof.
  intros H K. destruct (SEGS _ _ H) as (_ & _ & (O1 & O2 & O3)). rewrite Forall_forall in O2. destruct (O3 _ _ K) as [A B].
  assert (I : kf_index e < nth s sizes 0).
  { apply upto_in. eapply Permutation_in; [exact O1|]. apply in_map. eapply nth_error_In. eauto. }
  assert (D : (c < N.to_nat (nth s sizes 0%N) - 2 \/ N.to_nat (nth s sizes 0%N) - 2 <= c)%nat) by lia. destruct D as [D|D].
  - destruct (A D) as [_ L]. unfold below_inf in L. split; [apply (flt_num _ _ L)|]. split; [apply flt_fle; auto|]. split; auto. apply O2. eapply nth_error_In; eauto.
  - destruct (B D) as (_ & L & _). rewrite L. repeat split; auto. apply O2. eapply nth_error_In; eauto.
Qed.

(** candidates of one step *)
Definition cand (stripped : list N) (s : nat) (e : keyframe) : Prop :=
  exists sg c, nth_error segs s = Some sg /\ nth_error stripped s = Some c /\ nth_error (se_errors sg) (N.to_nat c) = Some e.

Lemma best_ok stripped : length stripped = length segs -> (forall s c, nth_error stripped s = Some c -> c <= nth s sizes 0) ->
  forall l l' o best, skipn o segs = l -> skipn o stripped = l' -> is_num (kf_error best) = true ->
  (kf_index best = k_none /\ kf_error best = f_inf \/ exists s, (s < o)%nat /\ cand stripped s best) ->
  (forall s e, (s < o)%nat -> cand stripped s e -> fle (kf_error best) (kf_error e) = true) ->
  exists b, best_segment l l' (N.of_nat o) best = Ok b /\
    (b = best /\ (forall s e, (o <= s)%nat -> ~ cand stripped s e) \/ exists s, cand stripped s b) /\
    (forall s e, cand stripped s e -> fle (kf_error b) (kf_error e) = true).
Proof.
  intros LS CS. induction l as [|sg l IH]; intros l' o best E1 E2 NB DB LB.
  - assert (LO : (length segs <= o)%nat). { assert (X : length (skipn o segs) = 0%nat) by (rewrite E1; auto). rewrite skipn_length in X. lia. }
    exists best. cbn [best_segment]. split; [destruct l'; reflexivity|].
    assert (NC : forall s e, cand stripped s e -> (s < length segs)%nat) by (intros s e (sg & c & A & _); apply nth_error_Some; congruence).
    split; [left; split; auto; intros s e L C; apply NC in C; lia|]. intros s e C. apply (LB s); auto. apply NC in C. lia.
  - assert (SG : nth_error segs o = Some sg) by (apply (skipn_cons _ _ _ _ E1)).
    assert (OL : (o < length segs)%nat) by (apply nth_error_Some; congruence).
    destruct l' as [|c l'].
    { exfalso. assert (X : length (skipn o stripped) = 0%nat) by (rewrite E2; auto). rewrite skipn_length in X. lia. }
    assert (SC : nth_error stripped o = Some c) by (apply (skipn_cons _ _ _ _ E2)).
    assert (E1' : skipn (S o) segs = l) by (apply (skipn_cons _ _ _ _ E1)).
    assert (E2' : skipn (S o) stripped = l') by (apply (skipn_cons _ _ _ _ E2)).
    cbn [best_segment]. replace (N.of_nat o + 1) with (N.of_nat (S o)) by lia.
    destruct (SEGS _ _ SG) as (Q1 & Q2 & Q3). pose proof (seg_len _ _ SG) as QL. rewrite Q1.
    destruct (N.leb_spec (nth o sizes 0) c) as [L|L].
    + assert (NC : forall e, ~ cand stripped o e).
      { intros e (sg' & c' & A1 & A2 & A3). rewrite SG in A1. inversion A1; subst sg'. rewrite SC in A2. inversion A2; subst c'.
        assert (X : (N.to_nat c < length (se_errors sg))%nat) by (apply nth_error_Some; congruence). lia. }
      destruct (IH l' (S o) best E1' E2' NB) as (b & B1 & B2 & B3).
      * destruct DB as [DB|(s & S1 & S2)]; [left; auto | right; exists s; split; auto].
      * intros s e S1 S2. destruct (Nat.eq_dec s o) as [-> |]; [exfalso; eapply NC; eauto | apply (LB s); auto; lia].
      * exists b. split; auto. split; auto. destruct B2 as [(-> & B2)|B2]; auto. left. split; auto. intros s e S1 S2.
        destruct (Nat.eq_dec s o) as [-> |]; [eapply NC; eauto | apply (B2 s e); auto; lia].
    + destruct (nth_error (se_errors sg) (N.to_nat c)) as [e|] eqn:EE; [|apply nth_error_None in EE; lia].
      assert (CO : cand stripped o e) by (exists sg, c; auto).
      destruct (error_num _ _ _ _ SG EE) as (NE & FE & _).
      assert (UN : forall e', cand stripped o e' -> e' = e).
      { intros e' (sg' & c' & A1 & A2 & A3). rewrite SG in A1. inversion A1; subst sg'. rewrite SC in A2. inversion A2; subst c'. congruence. }
      destruct (fle (kf_error e) (kf_error best)) eqn:FL.
      * destruct (IH l' (S o) e E1' E2' NE) as (b & B1 & B2 & B3).
        { right. exists o. split; auto. }
        { intros s e' S1 S2. destruct (Nat.eq_dec s o) as [-> |]; [rewrite (UN _ S2); apply fle_refl; auto|]. eapply fle_trans; [exact FL|]. apply (LB s); auto; lia. }
        exists b. split; auto. split; auto. right. destruct B2 as [(-> & _)|B2]; auto. exists o. auto.
      * assert (DB' : exists s, (s < o)%nat /\ cand stripped s best). { destruct DB as [(_ & DB)|DB]; auto. rewrite DB in FL. congruence. }
        destruct (IH l' (S o) best E1' E2' NB) as (b & B1 & B2 & B3).
        { right. destruct DB' as (s & S1 & S2). exists s. split; auto. }
        { intros s e' S1 S2. destruct (Nat.eq_dec s o) as [-> |]; [|apply (LB s); auto; lia]. rewrite (UN _ S2).
          apply flt_fle. apply fle_flt_total; auto. }
        exists b. split; auto. split; auto. right. destruct B2 as [(-> & _)|B2]; auto. destruct DB' as (s & _ & S2). exists s. auto.
Qed.

Definition valid_seg (k : keyframe) : Prop := kf_segment k < N.of_nat (length sizes).
(** what is shown of position [i] of the order *)
Definition step_ok (order : list keyframe) (i : nat) (k : keyframe) : Prop :=
  kf_strip k = N.of_nat i /\
  exists sg e, nth_error segs (N.to_nat (kf_segment k)) = Some sg /\
    nth_error (se_errors sg) (taken (kf_segment k) (firstn i order)) = Some e /\
    kf_index k = kf_index e + se_offset sg /\ kf_error k = kf_error e /\ kf_trivial k = kf_trivial e /\
    forall s' sg' e', nth_error segs (N.to_nat s') = Some sg' -> nth_error (se_errors sg') (taken s' (firstn i order)) = Some e' ->
      fle (kf_error e) (kf_error e') = true.

Lemma loop_ok : forall num done stripped,
  length stripped = length segs ->
  (forall s, (s < length segs)%nat -> nth_error stripped s = Some (N.of_nat (taken (N.of_nat s) done))) ->
  Forall valid_seg done -> (forall s, N.of_nat (taken (N.of_nat s) done) <= nth s sizes 0) ->
  N.of_nat (length done + num) = sumN sizes ->
  exists rest, clip_sort_loop num segs stripped (N.of_nat (length done)) = Ok rest /\ length rest = num /\ Forall valid_seg rest /\
    forall i k, (length done <= i)%nat -> nth_error (done ++ rest) i = Some k -> step_ok (done ++ rest) i k.
Proof.
  induction num as [|num IH]; intros done stripped LS ST VD LE TOTAL; cbn [clip_sort_loop].
  - exists []. split; auto. split; auto. split; auto. intros i k L K. rewrite app_nil_r in K.
    assert (X : (i < length done)%nat) by (apply nth_error_Some; congruence). lia.
  - set (init := {| kf_index := k_none; kf_segment := 0; kf_strip := k_none; kf_error := f_inf; kf_trivial := false |}).
    assert (CS : forall s c, nth_error stripped s = Some c -> c <= nth s sizes 0).
    { intros s c C. assert (X : (s < length segs)%nat) by (rewrite <- LS; apply nth_error_Some; congruence). rewrite (ST s X) in C. inversion C; subst. apply LE. }
    destruct (best_ok stripped LS CS segs stripped 0 init eq_refl eq_refl eq_refl) as (b & B1 & B2 & B3).
    { left. auto. }
    { intros s e L. lia. }
    change (N.of_nat 0) with 0 in B1. rewrite B1. cbn [bindo].
    destruct B2 as [(_ & B2)|(s & sg & c & C1 & C2 & C3)].
    { exfalso. destruct (sum_lt (fun s => N.of_nat (taken (N.of_nat s) done)) (fun s => nth s sizes 0) (seq 0 (length sizes))) as (s & S1 & S2).
      - rewrite taken_sum by exact VD. rewrite map_nth_seq. lia.
      - apply in_seq in S1. destruct (nth_error segs s) as [sg|] eqn:SG; [|apply nth_error_None in SG; lia].
        pose proof (seg_len _ _ SG) as QL. destruct (nth_error (se_errors sg) (taken (N.of_nat s) done)) as [e|] eqn:EE; [|apply nth_error_None in EE; lia].
        apply (B2 s e); [lia|]. exists sg, (N.of_nat (taken (N.of_nat s) done)). split; auto. split; [apply ST; lia|]. rewrite Nat2N.id. exact EE. }
    destruct (error_num _ _ _ _ C1 C3) as (_ & _ & SE & IE). rewrite SE, Nat2N.id, C1, C2.
    assert (SL : (s < length segs)%nat) by (apply nth_error_Some; congruence).
    pose proof (ST s SL) as ST'. rewrite C2 in ST'. inversion ST' as [CE]. rewrite CE, Nat2N.id in C3.
    pose proof (seg_len _ _ C1) as QL. assert (TL : (taken (N.of_nat s) done < length (se_errors sg))%nat) by (apply nth_error_Some; congruence).
    destruct (SEGS _ _ C1) as (Q1 & Q2 & Q3). pose proof (start_of_next sizes s) as NX.
    change (2 ^ 32) with 4294967296 in TOT.
    rewrite addw_small by (change (2 ^ 32) with 4294967296; lia). rewrite (addw_small 32 (kf_index b)) by (change (2 ^ 32) with 4294967296; lia).
    set (k0 := {| kf_index := kf_index b + se_offset sg; kf_segment := N.of_nat s; kf_strip := N.of_nat (length done); kf_error := kf_error b; kf_trivial := kf_trivial b |}).
    destruct (IH (done ++ [k0]) (upd stripped s (N.of_nat (taken (N.of_nat s) done) + 1))) as (rest & R1 & R2 & R3 & R4).
    + rewrite upd_length. auto.
    + intros s' L'. rewrite nth_error_upd by lia. rewrite taken_app. unfold taken at 3. cbn [filter kf_segment k0].
      destruct (Nat.eqb_spec s' s) as [-> |NE].
      * rewrite N.eqb_refl. cbn [length]. f_equal. lia.
      * destruct (N.eqb_spec (N.of_nat s) (N.of_nat s')); [lia|]. cbn [length]. rewrite Nat.add_0_r. apply ST. auto.
    + apply Forall_app. split; auto. constructor; auto. unfold valid_seg. cbn [kf_segment k0]. lia.
    + intros s'. rewrite taken_app. unfold taken at 2. cbn [filter kf_segment k0]. destruct (N.eqb_spec (N.of_nat s) (N.of_nat s')) as [E|NE]; cbn [length].
      * replace s' with s by lia. lia.
      * rewrite Nat.add_0_r. apply LE.
    + rewrite app_length. cbn [length]. rewrite <- TOTAL. lia.
    + rewrite app_length in R1. cbn [length] in R1. replace (N.of_nat (length done) + 1) with (N.of_nat (length done + 1)) by lia. rewrite R1. cbn [bindo].
      exists (k0 :: rest). split; auto. split; [cbn [length]; lia|]. split; [constructor; auto; unfold valid_seg; cbn [kf_segment k0]; lia|].
      intros i k L K. rewrite <- app_assoc in R4. cbn [app] in R4.
      assert (D : (length done + 1 <= i)%nat \/ i = length done) by lia. destruct D as [D| ->].
      * apply R4; auto. rewrite app_length. cbn [length]. exact D.
      * rewrite nth_error_app2 in K by lia. rewrite Nat.sub_diag in K. cbn in K. inversion K; subst k.
        unfold step_ok. rewrite firstn_app, Nat.sub_diag, firstn_all. cbn [firstn]. rewrite app_nil_r. cbn [kf_segment kf_strip kf_index kf_error kf_trivial k0]. split; auto.
        exists sg, b. rewrite Nat2N.id. split; auto. split; auto. split; auto. split; auto. split; auto.
        intros s' sg' e' A1 A2. apply (B3 (N.to_nat s')). exists sg', (N.of_nat (taken s' done)). split; auto.
        assert (X : (N.to_nat s' < length segs)%nat) by (apply nth_error_Some; congruence).
        split; [rewrite (ST _ X), N2Nat.id; auto|]. rewrite Nat2N.id. exact A2.
Qed.

Lemma firstn_taken_le s (order : list keyframe) i j : (i <= j)%nat -> (taken s (firstn i order) <= taken s (firstn j order))%nat.
Proof.
  intros L. rewrite <- (firstn_skipn i (firstn j order)). rewrite firstn_firstn, Nat.min_l by auto. rewrite taken_app. lia.
Qed.
Lemma firstn_taken_S (order : list keyframe) i k : nth_error order i = Some k -> firstn (S i) order = firstn i order ++ [k].
Proof. revert i. induction order as [|a l IH]; intros [|i] K; cbn in K; try discriminate; [inversion K; reflexivity|]. cbn [firstn app]. f_equal. apply IH. auto. Qed.

Lemma merge_ok num : num = sumN sizes ->
  exists order, sort_contributing_error num segs = Ok order /\ length order = N.to_nat num /\ merge_of segs order /\ clip_order sizes order.
Proof.
  intros ->. unfold sort_contributing_error.
  destruct (loop_ok (N.to_nat (sumN sizes)) [] (repeat 0 (length segs))) as (order & R1 & R2 & R3 & R4).
  - apply repeat_length.
  - intros s L. rewrite nth_error_repeat by auto. reflexivity.
  - constructor.
  - intros s. cbn. lia.
  - cbn [length plus]. lia.
  - cbn [length] in R1. change (N.of_nat 0) with 0 in R1. cbn [app] in R4. exists order. split; auto. split; auto.
    assert (ALL : forall i k, nth_error order i = Some k -> step_ok order i k) by (intros i k K; apply R4; [cbn [length]; lia | auto]). clear R4.
    split; [intros i k K; apply ALL; auto|].
    assert (VALID : forall i k, nth_error order i = Some k -> (N.to_nat (kf_segment k) < length sizes)%nat).
    { intros i k K. rewrite Forall_forall in R3. apply nth_error_In in K. apply R3 in K. unfold valid_seg in K. lia. }
    (** the element of the segment that position i takes *)
    assert (INV : forall i k, nth_error order i = Some k ->
       let s := N.to_nat (kf_segment k) in let c := taken (kf_segment k) (firstn i order) in
       (c < N.to_nat (nth s sizes 0%N))%nat /\
       ((c < N.to_nat (nth s sizes 0%N) - 2)%nat -> 0 < kf_index k - start_of sizes s < nth s sizes 0 - 1 /\ start_of sizes s < kf_index k /\ below_inf (kf_error k)) /\
       ((N.to_nat (nth s sizes 0%N) - 2 <= c)%nat -> (kf_index k = start_of sizes s \/ kf_index k = start_of sizes s + (nth s sizes 0 - 1)) /\ kf_error k = f_inf /\ kf_trivial k = false)).
    { intros i k K. cbv zeta. destruct (ALL _ _ K) as (_ & sg & e & A1 & A2 & A3 & A4 & A5 & A6). destruct (SEGS _ _ A1) as (Q1 & Q2 & (O1 & O2 & O3)).
      pose proof (seg_len _ _ A1) as QL. assert (TL : (taken (kf_segment k) (firstn i order) < length (se_errors sg))%nat) by (apply nth_error_Some; congruence).
      split; [lia|]. destruct (O3 _ _ A2) as [P1 P2]. rewrite Q2 in A3. split; intros L.
      - destruct (P1 L) as [P3 P4]. rewrite A4. repeat split; auto; lia.
      - destruct (P2 L) as (P3 & P4 & P5). rewrite A4, A5. split; [destruct P3; [left | right]; lia | auto]. }
    assert (FALL : forall i, Forall valid_seg (firstn i order)).
    { intros i. apply Forall_forall. intros x X. rewrite Forall_forall in R3. apply R3. rewrite <- (firstn_skipn i order). apply in_or_app. left. auto. }
    assert (SUM : forall i, (i <= length order)%nat -> sumN (map (fun s => N.of_nat (taken (N.of_nat s) (firstn i order))) (seq 0 (length sizes))) = N.of_nat i).
    { intros i L. rewrite taken_sum by apply FALL. rewrite firstn_length, Nat.min_l by auto. reflexivity. }
    (** movable first *)
    assert (MOV : forall i k, nth_error order i = Some k -> N.of_nat i < movable sizes ->
       (taken (kf_segment k) (firstn i order) < N.to_nat (nth (N.to_nat (kf_segment k)) sizes 0%N) - 2)%nat).
    { intros i k K L. assert (IL : (i < length order)%nat) by (apply nth_error_Some; congruence).
      destruct (sum_lt (fun s => N.of_nat (taken (N.of_nat s) (firstn i order))) (fun s => nth s sizes 0 - 2) (seq 0 (length sizes))) as (s & S1 & S2).
      { rewrite SUM by lia. rewrite <- movable_sum. exact L. }
      apply in_seq in S1. destruct (nth_error segs s) as [sg'|] eqn:SG; [|apply nth_error_None in SG; lia].
      pose proof (seg_len _ _ SG) as QL. destruct (nth_error (se_errors sg') (taken (N.of_nat s) (firstn i order))) as [e'|] eqn:EE; [|apply nth_error_None in EE; lia].
      destruct (ALL _ _ K) as (_ & sg & e & A1 & A2 & A3 & A4 & A5 & A6).
      assert (FL : fle (kf_error e) (kf_error e') = true) by (apply (A6 (N.of_nat s) sg' e'); [rewrite Nat2N.id; auto | auto]).
      destruct (SEGS _ _ SG) as (_ & _ & (_ & _ & O3)). destruct (O3 _ _ EE) as [P1 _]. destruct (P1 ltac:(lia)) as [_ BI].
      unfold below_inf in BI. pose proof (fle_lt_trans _ _ _ FL BI) as BE.
      destruct (INV _ _ K) as (I1 & I2 & I3).
      destruct (Nat.lt_ge_cases (taken (kf_segment k) (firstn i order)) (N.to_nat (nth (N.to_nat (kf_segment k)) sizes 0%N) - 2)) as [|G]; auto.
      exfalso. destruct (I3 G) as (_ & X & _). rewrite <- A4, X in BE. discriminate BE. }
    assert (ML : (N.to_nat (movable sizes) <= length order)%nat).
    { rewrite R2. pose proof (movable_le sizes). lia. }
    assert (HALF : forall i, (i <= N.to_nat (movable sizes))%nat -> forall s, N.of_nat (taken (N.of_nat s) (firstn i order)) <= nth s sizes 0 - 2).
    { induction i as [|i IHi]; intros L s; [cbn; lia|]. destruct (nth_error order i) as [k|] eqn:K; [|apply nth_error_None in K; lia].
      rewrite (firstn_taken_S _ _ _ K), taken_app. specialize (IHi ltac:(lia) s). unfold taken at 2. cbn [filter].
      destruct (N.eqb_spec (kf_segment k) (N.of_nat s)) as [E|E]; cbn [length]; [|lia].
      pose proof (MOV _ _ K ltac:(lia)) as M. rewrite E, Nat2N.id in M. lia. }
    assert (FULL : forall s, (s < length sizes)%nat -> N.of_nat (taken (N.of_nat s) (firstn (N.to_nat (movable sizes)) order)) = nth s sizes 0 - 2).
    { intros s L. apply (sum_eq (fun s => N.of_nat (taken (N.of_nat s) (firstn (N.to_nat (movable sizes)) order))) (fun s => nth s sizes 0 - 2) (seq 0 (length sizes))).
      - intros x _. apply HALF. lia.
      - rewrite SUM by auto. rewrite <- movable_sum. lia.
      - apply in_seq. lia. }
    split.
    + apply NoDup_Permutation_bis.
      * apply NoDup_nth_error. intros i j Li Lij. rewrite map_length in Li.
        destruct (nth_error order i) as [k|] eqn:K; [|apply nth_error_None in K; lia].
        rewrite (map_nth_error _ _ _ K) in Lij. destruct (nth_error order j) as [k'|] eqn:K'.
        2:{ exfalso. rewrite (proj2 (nth_error_None _ _)) in Lij; [discriminate|]. rewrite map_length. apply nth_error_None. auto. }
        rewrite (map_nth_error _ _ _ K') in Lij. inversion Lij as [[E1 E2]].
        assert (ONE : forall i j k k', nth_error order i = Some k -> nth_error order j = Some k' -> kf_segment k = kf_segment k' -> kf_index k = kf_index k' -> (i < j)%nat -> False).
        { clear i j k k' K K' Li Lij E1 E2. intros i j k k' K K' E1 E2 L.
          destruct (ALL _ _ K) as (_ & sg & e & A1 & A2 & A3 & _). destruct (ALL _ _ K') as (_ & sg' & e' & B1 & B2 & B3 & _).
          rewrite <- E1, A1 in B1. inversion B1; subst sg'. rewrite <- E1 in B2.
          pose proof (firstn_taken_le (kf_segment k) order (S i) j L) as T. rewrite (firstn_taken_S _ _ _ K), taken_app in T.
          unfold taken at 2 in T. cbn [filter] in T. rewrite N.eqb_refl in T. cbn [length] in T.
          destruct (SEGS _ _ A1) as (_ & _ & (O1 & _ & _)).
          assert (ND : NoDup (map kf_index (se_errors sg))) by (eapply Permutation_NoDup; [apply Permutation_sym, O1 | apply upto_nodup]).
          rewrite NoDup_nth_error in ND.
          assert (X : taken (kf_segment k) (firstn i order) = taken (kf_segment k) (firstn j order)); [|lia].
          apply ND; [rewrite map_length; apply nth_error_Some; congruence|].
          rewrite (map_nth_error _ _ _ A2), (map_nth_error _ _ _ B2). f_equal. lia. }
        destruct (Nat.lt_trichotomy i j) as [L|[L|L]]; auto; exfalso; [eapply (ONE i j k k'); auto | eapply (ONE j i k' k); auto].
      * rewrite clip_frames_length, map_length, R2. lia.
      * intros p P. apply in_map_iff in P. destruct P as (k & <- & K). apply In_nth_error in K. destruct K as (i & K).
        destruct (ALL _ _ K) as (_ & sg & e & A1 & A2 & A3 & _). destruct (SEGS _ _ A1) as (_ & Q2 & _). destruct (error_num _ _ _ _ A1 A2) as (_ & _ & _ & IE).
        apply clip_frames_in. exists (N.to_nat (kf_segment k)), (kf_index e). split; [eapply VALID; eauto|]. split; auto. rewrite N2Nat.id. f_equal. lia.
    + intros i k K. destruct (INV _ _ K) as (I1 & I2 & I3). split; [apply (ALL _ _ K)|]. unfold first_of, last_of. split; intros L.
      * destruct (I2 (MOV _ _ K L)) as (J1 & J2 & J3). split; auto. lia.
      * assert (G : (N.to_nat (nth (N.to_nat (kf_segment k)) sizes 0%N) - 2 <= taken (kf_segment k) (firstn i order))%nat).
        { pose proof (FULL (N.to_nat (kf_segment k)) (VALID _ _ K)) as F. rewrite N2Nat.id in F.
          pose proof (firstn_taken_le (kf_segment k) order (N.to_nat (movable sizes)) i ltac:(lia)). lia. }
        destruct (I3 G) as (J1 & J2). split; auto. destruct J1; [left | right]; lia.
Qed.
End CLIP.
