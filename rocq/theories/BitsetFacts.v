(** Proofs about the model of core/bitset.h: refinement to sets of indices. *)
From Coq Require Import Lia ZifyBool ZifyNat ZifyN.
From Verif Require Export BitManipFacts Bitset.
Open Scope N_scope.
Ltac Zify.zify_post_hook ::= Z.div_mod_to_equations.

Definition words_ok (bs : list N) : Prop := Forall (fun w => w < 2 ^ 32) bs.

(** membership of an index, read directly from the words: MSB first *)
Definition bmem (bs : list N) (i : N) : bool :=
  N.testbit (nth (N.to_nat (i / 32)) bs 0) (31 - i mod 32).

Lemma nth_error_ok {A} (l : list A) n d : (n < length l)%nat -> nth_error l n = Some (nth n l d).
Proof. apply nth_error_nth'. Qed.

Lemma words_ok_nth bs k : words_ok bs -> nth k bs 0 < 2 ^ 32.
Proof.
  intros H. destruct (Nat.lt_ge_cases k (length bs)) as [L|L].
  - apply (proj1 (Forall_forall _ _) H). apply nth_In; exact L.
  - rewrite nth_overflow by exact L. apply pow2_pos.
Qed.

Lemma ref_mask_pow2 i : bitset_ref_mask i = 2 ^ (31 - i mod 32).
Proof.
  unfold bitset_ref_mask, shlw. rewrite N.shiftl_1_l. apply N.mod_small. apply pow2_lt. lia.
Qed.

Lemma bitset_test_spec bs i : i < 32 * blen bs -> bitset_test bs i = Ok (bmem bs i).
Proof.
  intros H. unfold bitset_test, bitset_ref_offset. rewrite (nth_error_ok bs _ 0) by (unfold blen in H; lia).
  rewrite ref_mask_pow2. unfold bmem. set (w := nth _ _ _). set (k := 31 - i mod 32). f_equal.
  destruct (N.testbit w k) eqn:E.
  - apply negb_true_iff, N.eqb_neq. intros C.
    assert (X : N.testbit (N.land w (2 ^ k)) k = true) by (rewrite N.land_spec, E, testbit_pow2, N.eqb_refl; reflexivity).
    rewrite C, N.bits_0 in X; discriminate.
  - apply negb_false_iff, N.eqb_eq. apply N.bits_inj; intros j. rewrite N.land_spec, testbit_pow2, N.bits_0.
    destruct (N.eqb_spec j k) as [->|]; [rewrite E; reflexivity|apply andb_false_r].
Qed.

Lemma bitset_test_oob bs i : 32 * blen bs <= i -> bitset_test bs i = UB.
Proof.
  intros H. unfold bitset_test, bitset_ref_offset.
  replace (nth_error bs (N.to_nat (i / 32))) with (@None N); [reflexivity|].
  symmetry. apply nth_error_None. unfold blen in H; lia.
Qed.

Lemma bitset_set_oob bs i v : 32 * blen bs <= i -> bitset_set bs i v = UB.
Proof.
  intros H. unfold bitset_set, bitset_ref_offset.
  replace (nth_error bs (N.to_nat (i / 32))) with (@None N); [reflexivity|].
  symmetry. apply nth_error_None. unfold blen in H; lia.
Qed.

Lemma bitset_set_spec bs i v : words_ok bs -> i < 32 * blen bs ->
  exists bs', bitset_set bs i v = Ok bs' /\ words_ok bs' /\ length bs' = length bs /\
  forall j, bmem bs' j = if j =? i then v else bmem bs j.
Proof.
  intros Hw H. unfold bitset_set, bitset_ref_offset. rewrite (nth_error_ok bs _ 0) by (unfold blen in H; lia).
  rewrite ref_mask_pow2. set (k := 31 - i mod 32). set (w := nth _ _ _).
  assert (Hk : k < 32) by (unfold k; lia).
  assert (Hwl : w < 2 ^ 32) by (apply words_ok_nth; exact Hw).
  assert (Hp : 2 ^ k < 2 ^ 32) by (apply pow2_lt; exact Hk).
  eexists. split; [reflexivity|]. split; [|split].
  - apply Forall_upd; [exact Hw|]. apply testbit_lt. intros j Hj.
    destruct v; rewrite ?N.lor_spec, ?N.land_spec, (testbit_high w 32 Hwl j Hj); cbn [orb andb]; [|reflexivity].
    apply (testbit_high _ 32 Hp); exact Hj.
  - apply upd_length.
  - intros j. unfold bmem. rewrite nth_upd by (unfold blen in H; lia).
    destruct (Nat.eqb_spec (N.to_nat (j / 32)) (N.to_nat (i / 32))) as [E|E].
    + assert (E' : j / 32 = i / 32) by lia. rewrite E'. fold w.
      destruct v; rewrite ?N.lor_spec, ?N.land_spec, ?testbit_notw, ?testbit_pow2 by exact Hp.
      * destruct (N.eqb_spec (31 - j mod 32) k) as [F|F]; destruct (N.eqb_spec j i) as [G|G]; unfold k in F; try lia;
          rewrite ?orb_true_r, ?orb_false_r; reflexivity.
      * assert (B : (31 - j mod 32 <? 32) = true) by (apply N.ltb_lt; lia). rewrite B. cbn [andb].
        destruct (N.eqb_spec (31 - j mod 32) k) as [F|F]; destruct (N.eqb_spec j i) as [G|G]; unfold k in F; try lia; cbn [negb];
          rewrite ?andb_true_r, ?andb_false_r; reflexivity.
    + destruct (N.eqb_spec j i) as [G|G]; [subst; lia|reflexivity].
Qed.

Lemma bitset_set_range_loop_spec n : forall bs s v, words_ok bs -> s + N.of_nat n <= 32 * blen bs ->
  exists bs', bitset_set_range_loop n bs s v = Ok bs' /\ words_ok bs' /\ length bs' = length bs /\
  forall j, bmem bs' j = if (s <=? j) && (j <? s + N.of_nat n) then v else bmem bs j.
Proof.
  induction n as [|n IH]; intros bs s v Hw H; cbn [bitset_set_range_loop].
  - exists bs. repeat split; auto. intros j.
    destruct (N.leb_spec s j), (N.ltb_spec j (s + N.of_nat 0)); cbn [andb]; try lia; reflexivity.
  - destruct (bitset_set_spec bs s v Hw ltac:(lia)) as (b1 & E1 & W1 & L1 & M1).
    rewrite E1. cbn [bindo].
    destruct (IH b1 (s + 1) v W1) as (b2 & E2 & W2 & L2 & M2); [unfold blen in *; rewrite L1; lia|].
    exists b2. rewrite E2. repeat split; auto; [congruence|].
    intros j. rewrite M2, M1.
    destruct (N.leb_spec (s + 1) j), (N.ltb_spec j (s + 1 + N.of_nat n)), (N.leb_spec s j),
      (N.ltb_spec j (s + N.of_nat (S n))), (N.eqb_spec j s); cbn [andb]; try lia; reflexivity.
Qed.

Lemma bitset_set_range_spec bs s n v : words_ok bs -> s + n <= 32 * blen bs ->
  exists bs', bitset_set_range bs s n v = Ok bs' /\ words_ok bs' /\ length bs' = length bs /\
  forall j, bmem bs' j = if (s <=? j) && (j <? s + n) then v else bmem bs j.
Proof.
  intros Hw H. unfold bitset_set_range.
  destruct (bitset_set_range_loop_spec (N.to_nat n) bs s v Hw) as (b & E & W & L & M); [lia|].
  exists b. repeat split; auto. intros j. rewrite M. rewrite N2Nat.id. reflexivity.
Qed.

Lemma bitset_reset_spec size v :
  words_ok (bitset_reset size v) /\ length (bitset_reset size v) = N.to_nat size /\
  forall j, j < 32 * size -> bmem (bitset_reset size v) j = v.
Proof.
  unfold bitset_reset. split; [|split].
  - apply Forall_forall. intros x Hx. apply repeat_spec in Hx. subst x. destruct v; reflexivity.
  - apply repeat_length.
  - intros j Hj. unfold bmem. rewrite nth_indep with (d' := if v then 0xFFFFFFFF else 0) by (rewrite repeat_length; lia).
    rewrite nth_repeat. destruct v; [|apply N.bits_0]. change 0xFFFFFFFF with (2 ^ 32 - 1).
    rewrite testbit_ones_sub1. apply N.ltb_lt. lia.
Qed.

Lemma bitset_and_not_spec a b : words_ok a -> words_ok b -> length a = length b ->
  words_ok (bitset_and_not a b) /\ length (bitset_and_not a b) = length b /\
  forall j, bmem (bitset_and_not a b) j = negb (bmem a j) && bmem b j.
Proof.
  intros Ha Hb L.
  assert (G : words_ok (bitset_and_not a b) /\ length (bitset_and_not a b) = length b /\
              forall k, nth k (bitset_and_not a b) 0 = and_not (nth k a 0) (nth k b 0)).
  { revert b Hb L. induction Ha as [|x a Hx Ha IH]; intros [|y b] Hb L; try discriminate L.
    - repeat split; auto. intros k. destruct k; reflexivity.
    - inversion Hb as [|? ? Hy Hb']; subst. destruct (IH b Hb') as (I1 & I2 & I3); [cbn in L; lia|].
      cbn [bitset_and_not]. split; [|split].
      + constructor; [|exact I1]. apply testbit_lt. intros i Hi. rewrite testbit_and_not by assumption.
        rewrite (testbit_high y 32 Hy i Hi). apply andb_false_r.
      + cbn. rewrite I2. reflexivity.
      + intros [|k]; [reflexivity|]. cbn [nth]. apply I3. }
  destruct G as (G1 & G2 & G3). repeat split; auto.
  intros j. unfold bmem. rewrite G3. apply testbit_and_not; apply words_ok_nth; assumption.
Qed.

(* ---------- counting ---------- *)

(** number of members below [n] *)
Definition card (n : nat) (s : N -> bool) : N := N.of_nat (length (filter (fun i => s (N.of_nat i)) (seq 0 n))).

Lemma filter_rev_len (f : nat -> bool) n :
  length (filter f (seq 0 n)) = length (filter (fun i => f (n - 1 - i)%nat) (seq 0 n)).
Proof.
  revert f; induction n as [|n IH]; intros f; [reflexivity|].
  assert (A : length (filter f (seq 0 (S n))) = (length (filter f (seq 0 n)) + if f n then 1 else 0)%nat).
  { rewrite seq_S, filter_app, app_length. cbn [filter Nat.add]. destruct (f n); reflexivity. }
  assert (B : length (filter (fun i => f (S n - 1 - i)%nat) (seq 0 (S n))) =
              ((if f n then 1 else 0) + length (filter (fun i => f (n - 1 - i)%nat) (seq 0 n)))%nat).
  { change (seq 0 (S n)) with (0%nat :: seq 1 n). cbn [filter]. replace (S n - 1 - 0)%nat with n by lia.
    assert (C : length (filter (fun i => f (S n - 1 - i)%nat) (seq 1 n)) =
                length (filter (fun i => f (n - 1 - i)%nat) (seq 0 n))).
    { rewrite (filter_seq_shift _ 1 n). apply filter_len_ext. intros i _. f_equal. lia. }
    destruct (f n); cbn [length]; rewrite C; reflexivity. }
  rewrite A, B, (IH f). lia.
Qed.

Lemma filter_rev_gen (f g : nat -> bool) n : (forall i, (i < n)%nat -> f (n - 1 - i)%nat = g i) ->
  N.of_nat (length (filter f (seq 0 n))) = N.of_nat (length (filter g (seq 0 n))).
Proof.
  intros H. apply (f_equal N.of_nat). rewrite filter_rev_len. apply filter_len_ext. intros i Hi. apply in_seq in Hi. apply H. lia.
Qed.

Lemma card_word w bs : card 32 (bmem (w :: bs)) = num_set_bits 32 w.
Proof.
  unfold card, num_set_bits. apply filter_rev_gen. intros i Hi. unfold bmem.
  replace (N.of_nat (32 - 1 - i) / 32) with 0 by lia.
  change (N.to_nat 0) with 0%nat. cbn [nth]. apply (f_equal (N.testbit w)). lia.
Qed.

Lemma card_cons w bs n : card (32 + n) (bmem (w :: bs)) = num_set_bits 32 w + card n (bmem bs).
Proof.
  rewrite <- (card_word w bs). unfold card. rewrite seq_app, filter_app, app_length, Nat2N.inj_add. f_equal. f_equal.
  rewrite filter_seq_shift. apply filter_len_ext. intros i _. unfold bmem.
  replace (N.to_nat (N.of_nat (0 + 32 + i) / 32)) with (S (N.to_nat (N.of_nat i / 32))) by lia.
  cbn [nth]. f_equal. lia.
Qed.

Lemma card_le n s : card n s <= N.of_nat n.
Proof. unfold card. pose proof (filter_len_le (fun i => s (N.of_nat i)) (seq 0 n)). rewrite seq_length in H. lia. Qed.

Lemma bitset_count_fold bs : forall acc, words_ok bs -> acc + 32 * blen bs < 2 ^ 32 ->
  fold_left (fun acc w => addw 32 acc (count_set_bits32 w)) bs acc = acc + card (32 * length bs) (bmem bs).
Proof.
  induction bs as [|w bs IH]; intros acc Hw L.
  - cbn. unfold card. cbn. lia.
  - inversion Hw as [|? ? H1 H2]; subst. cbn [fold_left]. rewrite count_set_bits32_spec by exact H1.
    pose proof (num_set_bits_le 32 w). unfold blen in *. cbn [length] in *.
    rewrite addw_small by lia. rewrite IH by (auto; lia).
    replace (32 * S (length bs))%nat with (32 + 32 * length bs)%nat by lia. rewrite card_cons. lia.
Qed.

Lemma bitset_count_spec bs : words_ok bs -> 32 * blen bs < 2 ^ 32 ->
  bitset_count_set_bits bs = card (32 * length bs) (bmem bs).
Proof. intros Hw L. unfold bitset_count_set_bits. rewrite bitset_count_fold by (auto; lia). lia. Qed.

Lemma bitset_size_spec n : n <= 2 ^ 32 - 1 - 31 ->
  n <= 32 * bitset_size_from_num_bits n /\ 32 * bitset_size_from_num_bits n < n + 32 /\
  bitset_num_bits (bitset_size_from_num_bits n) = 32 * bitset_size_from_num_bits n.
Proof.
  intros H. unfold bitset_size_from_num_bits, bitset_num_bits.
  rewrite addw_small by (change (2 ^ 32) with 4294967296 in *; lia).
  rewrite mulw_small by (change (2 ^ 32) with 4294967296 in *; lia). lia.
Qed.

(* ---------- histories ---------- *)

Inductive bs_op : Type :=
| OpReset (v : bool)
| OpSet (i : N) (v : bool)
| OpSetRange (s n : N) (v : bool)
| OpRemoveAll (other : list N)      (* bitset_and_not(result = this, not = other, and = this) *)
| OpComplementIn (other : list N).  (* bitset_and_not(result = this, not = this, and = other) *)

Definition bs_step (b : list N) (o : bs_op) : outcome (list N) :=
  match o with
  | OpReset v => Ok (bitset_reset (blen b) v)
  | OpSet i v => bitset_set b i v
  | OpSetRange s n v => bitset_set_range b s n v
  | OpRemoveAll other => Ok (bitset_and_not other b)
  | OpComplementIn other => Ok (bitset_and_not b other)
  end.

Fixpoint bs_run (b : list N) (ops : list bs_op) : outcome (list N) :=
  match ops with [] => Ok b | o :: t => bindo (bs_step b o) (fun b' => bs_run b' t) end.

(** the abstract set the same history describes *)
Definition set_step (s : N -> bool) (o : bs_op) : N -> bool :=
  match o with
  | OpReset v => fun _ => v
  | OpSet i v => fun j => if j =? i then v else s j
  | OpSetRange st n v => fun j => if (st <=? j) && (j <? st + n) then v else s j
  | OpRemoveAll other => fun j => s j && negb (bmem other j)
  | OpComplementIn other => fun j => bmem other j && negb (s j)
  end.
Definition set_run (ops : list bs_op) (s : N -> bool) : N -> bool := fold_left set_step ops s.

(** the preconditions asserted by the code *)
Definition op_ok (size : N) (o : bs_op) : Prop :=
  match o with
  | OpReset _ => True
  | OpSet i _ => i < 32 * size
  | OpSetRange s n _ => s + n <= 32 * size
  | OpRemoveAll other | OpComplementIn other => words_ok other /\ blen other = size
  end.

Lemma bs_run_spec ops : forall b s size, words_ok b -> blen b = size ->
  (forall j, j < 32 * size -> bmem b j = s j) -> Forall (op_ok size) ops ->
  exists b', bs_run b ops = Ok b' /\ words_ok b' /\ blen b' = size /\
  forall j, j < 32 * size -> bmem b' j = set_run ops s j.
Proof.
  induction ops as [|o ops IH]; intros b s size Hw L M H; cbn [bs_run].
  - exists b. auto.
  - inversion H as [|? ? Ho Hops]; subst.
    assert (S : exists b1, bs_step b o = Ok b1 /\ words_ok b1 /\ blen b1 = blen b /\
                forall j, j < 32 * blen b -> bmem b1 j = set_step s o j).
    { destruct o as [v|i v|st n v|other|other]; cbn [bs_step set_step op_ok] in *.
      - destruct (bitset_reset_spec (blen b) v) as (A & B & C). eexists; split; [reflexivity|].
        repeat split; auto. unfold blen at 1. rewrite B. unfold blen; lia.
      - destruct (bitset_set_spec b i v Hw Ho) as (b1 & E & W & L1 & M1). exists b1. repeat split; auto.
        + unfold blen; rewrite L1; reflexivity.
        + intros j Hj. rewrite M1. destruct (j =? i); auto.
      - destruct (bitset_set_range_spec b st n v Hw Ho) as (b1 & E & W & L1 & M1). exists b1. repeat split; auto.
        + unfold blen; rewrite L1; reflexivity.
        + intros j Hj. rewrite M1. destruct ((st <=? j) && (j <? st + n)); auto.
      - destruct Ho as [Wo Lo]. destruct (bitset_and_not_spec other b Wo Hw) as (A & B & C).
        { unfold blen in Lo. lia. }
        eexists; split; [reflexivity|]. repeat split; auto.
        + unfold blen; rewrite B; reflexivity.
        + intros j Hj. rewrite C, M by exact Hj. apply andb_comm.
      - destruct Ho as [Wo Lo]. destruct (bitset_and_not_spec b other Hw Wo) as (A & B & C).
        { unfold blen in Lo. lia. }
        eexists; split; [reflexivity|]. repeat split; auto.
        + unfold blen in *; rewrite B; lia.
        + intros j Hj. rewrite C, M by exact Hj. apply andb_comm. }
    destruct S as (b1 & E & W & L1 & M1). rewrite E. cbn [bindo].
    destruct (IH b1 (set_step s o) (blen b) W L1 M1 Hops) as (b2 & E2 & W2 & L2 & M2).
    exists b2. auto.
Qed.

Lemma card_ext n s t : (forall i, i < N.of_nat n -> s i = t i) -> card n s = card n t.
Proof. intros H. unfold card. f_equal. apply filter_len_ext. intros i Hi. apply in_seq in Hi. apply H. lia. Qed.

Lemma bitset_history ops num_bits b :
  num_bits <= 2 ^ 32 - 1 - 31 ->
  let size := bitset_size_from_num_bits num_bits in
  words_ok b -> blen b = size -> Forall (op_ok size) ops ->
  exists b', bs_run b ops = Ok b' /\ blen b' = size /\
    (forall j, j < 32 * size -> bitset_test b' j = Ok (set_run ops (bmem b) j)) /\
    (forall j, 32 * size <= j -> bitset_test b' j = UB) /\
    bitset_count_set_bits b' = card (N.to_nat (32 * size)) (set_run ops (bmem b)).
Proof.
  intros Hn size Hw L H. destruct (bs_run_spec ops b (bmem b) size Hw L ltac:(auto) H) as (b' & E & W & L' & M).
  exists b'. split; [exact E|]. split; [exact L'|]. split; [|split].
  - intros j Hj. rewrite bitset_test_spec by (rewrite L'; exact Hj). rewrite M by exact Hj. reflexivity.
  - intros j Hj. apply bitset_test_oob. rewrite L'; exact Hj.
  - destruct (bitset_size_spec num_bits Hn) as (S1 & S2 & S3). fold size in S1, S2.
    rewrite bitset_count_spec by (auto; rewrite L'; change (2 ^ 32) with 4294967296 in *; lia).
    replace (32 * length b')%nat with (N.to_nat (32 * size)) by (unfold blen in L'; lia).
    apply card_ext. intros i Hi. apply M. lia.
Qed.
