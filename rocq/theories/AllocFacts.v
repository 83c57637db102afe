(** Facts about the allocator. *)
From Coq Require Import ZArith Lia Permutation List.
Import ListNotations.
From Verif Require Import Word WordFacts MemoryUtils MemoryFacts Alloc.
Local Open Scope N_scope.
Ltac Zify.zify_post_hook ::= idtac.

Lemma int32_add a b : int32 (int32 a + b) = int32 (a + b).
Proof.
  unfold int32. f_equal. replace ((a + 2 ^ 31) mod 2 ^ 32 - 2 ^ 31 + b + 2 ^ 31)%Z with ((a + 2 ^ 31) mod 2 ^ 32 + b)%Z by lia.
  rewrite Zplus_mod_idemp_l. f_equal. lia.
Qed.
Lemma int32_id x : (- 2 ^ 31 <= x < 2 ^ 31)%Z -> int32 x = x.
Proof. intros H. unfold int32. rewrite Z.mod_small; lia. Qed.

Lemma how_many_app f tr l : how_many f (tr ++ [l]) = how_many f tr + (if f l then 1 else 0).
Proof. unfold how_many. rewrite filter_app, app_length. cbn [filter]. destruct (f l); cbn [length]; lia. Qed.

(** the calls that are between their two steps *)
Definition is_counted (t : pc) : bool := match t with Counted _ _ => true | _ => false end.
Definition pending (l : list pc) : N := N.of_nat (length (filter is_counted l)).
Lemma upd_split_at {A} (l : list A) i x y : nth_error l i = Some y -> exists a b, l = a ++ y :: b /\ upd l i x = a ++ x :: b.
Proof.
  revert i. induction l as [| z l IH]; intros [| i] E; cbn in E; try discriminate.
  - injection E as ->. exists [], l. split; reflexivity.
  - destruct (IH i E) as (a & b & -> & E2). exists (z :: a), b. split; [reflexivity |]. cbn [upd app]. rewrite E2. reflexivity.
Qed.
Lemma pending_upd l i y x : nth_error l i = Some y -> pending (upd l i x) + (if is_counted y then 1 else 0) = pending l + (if is_counted x then 1 else 0).
Proof.
  intros E. destruct (upd_split_at l i x y E) as (a & b & -> & ->). unfold pending. rewrite !filter_app, !app_length. cbn [filter].
  destruct (is_counted x), (is_counted y); cbn [length]; lia.
Qed.
Lemma in_freeing l i y x z : nth_error l i = Some y -> In z (flat_map freeing (upd l i x)) -> In z (flat_map freeing l) \/ In z (freeing x).
Proof.
  intros E. destruct (upd_split_at l i x y E) as (a & b & -> & ->). rewrite !flat_map_app. cbn [flat_map]. rewrite !in_app_iff. tauto.
Qed.

Section Count.
  Context (n : nat) (memory : N -> N).
  (** every live block and every failure is a call that was counted and not taken back *)
  Lemma count_inv tr h : run (started n memory) tr h ->
    h_count h = int32 (Z.of_N (how_many is_allocate tr) - Z.of_N (how_many is_deallocate tr)) /\
    how_many is_allocate tr = how_many is_deallocate tr + N.of_nat (length (h_held h)) + pending (h_threads h) + how_many is_failure tr.
  Proof.
    intros R. remember (started n memory) as h0 eqn:E0. induction R as [h | h1 h2 h3 tr l R IH Hs].
    - subst h. split; [reflexivity |]. cbn [started h_held h_threads length]. unfold pending.
      assert (P : filter is_counted (repeat Idle n) = []) by (clear; induction n as [| k IH]; [reflexivity | exact IH]). rewrite P. reflexivity.
    - specialize (IH E0). destruct IH as [IH1 IH2]. rewrite !how_many_app.
      destruct Hs as [h t size k Ht Hk | h t size alignment p Ht len Hb | h t size alignment Ht | h t b before after Ht Hh | h t b Ht | h t Ht | h b at_ value Hb Ha];
        cbn [h_count h_held h_threads is_allocate is_deallocate is_failure].
      + rewrite IH1, int32_add. split; [f_equal; lia |]. pose proof (pending_upd _ _ _ (Counted size (2 ^ k)) Ht) as P. cbn [is_counted] in P. lia.
      + rewrite !N.add_0_r. split; [exact IH1 |]. pose proof (pending_upd _ _ _ Idle Ht) as P. cbn [is_counted] in P. cbn [length].
        destruct Hb as (Hp & _). rewrite (proj2 (N.eqb_neq p 0) Hp). lia.
      + rewrite !N.add_0_r. split; [exact IH1 |]. pose proof (pending_upd _ _ _ Idle Ht) as P. cbn [is_counted] in P. change (0 =? 0) with true. cbn match. lia.
      + rewrite N.add_0_r, IH1. replace (int32 (Z.of_N (how_many is_allocate tr) - Z.of_N (how_many is_deallocate tr)) - 1)%Z
          with (int32 (Z.of_N (how_many is_allocate tr) - Z.of_N (how_many is_deallocate tr)) + (- 1))%Z by lia.
        rewrite int32_add. split; [f_equal; lia |]. pose proof (pending_upd _ _ _ (Freeing b) Ht) as P. cbn [is_counted] in P.
        rewrite Hh, app_length in IH2. cbn [length] in IH2. rewrite app_length. lia.
      + rewrite !N.add_0_r. split; [exact IH1 |]. pose proof (pending_upd _ _ _ Idle Ht) as P. cbn [is_counted] in P. lia.
      + rewrite !N.add_0_r. split; assumption.
      + rewrite !N.add_0_r. split; assumption.
  Qed.
  Lemma run_prefix tr l h : run (started n memory) (tr ++ [l]) h -> exists h', run (started n memory) tr h' /\ step h' l h.
  Proof.
    intros R. remember (started n memory) as h0. remember (tr ++ [l]) as tr0 eqn:E. destruct R as [h | h1 h2 h3 tr' l' R S']; [destruct tr; discriminate |].
    apply app_inj_tail in E as [-> ->]. exists h2. split; assumption.
  Qed.
  Lemma no_false_alarm tr h : run (started n memory) tr h -> how_many is_allocate tr < 2 ^ 31 -> h_assert_failed h = false.
  Proof.
    revert h. induction tr as [| l tr IH] using rev_ind; intros h R Hn.
    - inversion R as [? E | h1 h2 h3 tr' l' R' S' E]; [reflexivity | destruct tr'; discriminate].
    - apply run_prefix in R as (h' & R & Hs). rewrite how_many_app in Hn. specialize (IH h' R ltac:(lia)). destruct (count_inv tr h' R) as [C1 C2].
      destruct Hs as [h t size k Ht Hk | h t size alignment p Ht len Hb | h t size alignment Ht | h t b before after Ht Hh | h t b Ht | h t Ht | h b at_ value Hb Ha];
        cbn [h_assert_failed]; try exact IH.
      rewrite IH. cbn [orb]. rewrite Bool.negb_false_iff. apply Z.ltb_lt. rewrite C1. rewrite Hh, app_length in C2. cbn [length] in C2. cbn [is_allocate] in Hn.
      change (2 ^ 31) with 2147483648 in Hn. rewrite int32_id; [lia |]. change (2 ^ 31)%Z with 2147483648%Z. lia.
  Qed.
  Lemma leak_check tr h : run (started n memory) tr h -> how_many is_allocate tr < 2 ^ 31 -> Forall (eq Idle) (h_threads h) ->
    (destructor_is_silent h = true <-> h_held h = [] /\ how_many is_failure tr = 0).
  Proof.
    intros R Hn Hi. destruct (count_inv tr h R) as [C1 C2]. unfold destructor_is_silent. rewrite Z.eqb_eq, C1.
    change (2 ^ 31) with 2147483648 in Hn. rewrite int32_id by (change (2 ^ 31)%Z with 2147483648%Z; lia).
    assert (P : pending (h_threads h) = 0).
    { clear - Hi. unfold pending. induction Hi as [| t l <- _ IH]; [reflexivity | exact IH]. }
    destruct (h_held h) as [| b l]; cbn [length] in *; split.
    - intros H. split; [reflexivity | lia].
    - intros [_ H]. lia.
    - intros H. lia.
    - intros [H _]. discriminate.
  Qed.
End Count.

(** ** The blocks *)
Definition small_sizes (tr : list label) : Prop := Forall (fun l => match l with CallAllocate _ size alignment => size + alignment <= 2 ^ 64 | _ => True end) tr.
Definition good_block (b : block) : Prop := b_ptr b <> 0 /\ b_size b <= b_len b /\ b_ptr b + b_len b < 2 ^ 64.
Definition apart (b b' : block) : Prop := b_ptr b + b_len b <= b_ptr b' \/ b_ptr b' + b_len b' <= b_ptr b.
Definition counted_ok (t : pc) : Prop := match t with Counted size alignment => exists k, k < 64 /\ alignment = 2 ^ k /\ size + alignment <= 2 ^ 64 | _ => True end.
Lemma apart_perm l l' : Permutation l l' -> ForallOrdPairs apart l -> ForallOrdPairs apart l'.
Proof.
  induction 1 as [| x l l' P IH | x y l | l l' l'' P1 IH1 P2 IH2]; intros H; [exact H | | | auto].
  - inversion H as [| ? ? F G]; subst. constructor; [rewrite <- P; exact F | apply IH, G].
  - inversion H as [| ? ? F G]; subst. inversion G as [| ? ? F' G']; subst. inversion F as [| ? ? A B]; subst. constructor; [| constructor; assumption].
    constructor; [unfold apart in *; tauto | exact F'].
Qed.
Definition blocks_ok (h : heap) : Prop :=
  ForallOrdPairs apart (in_use h) /\ Forall good_block (in_use h) /\ Forall counted_ok (h_threads h).
Lemma counted_upd l i x : Forall counted_ok l -> counted_ok x -> Forall counted_ok (upd l i x).
Proof.
  intros H Hx. revert i. induction H as [| y l Hy H IH]; intros [| i]; cbn [upd]; constructor; auto.
Qed.
Lemma counted_at l i y : Forall counted_ok l -> nth_error l i = Some y -> counted_ok y.
Proof. intros H E. apply nth_error_In in E. rewrite Forall_forall in H. auto. Qed.
(** the thread leaves its call: its block, if any, is no longer in use *)
Lemma freeing_upd l i y x : nth_error l i = Some y -> Permutation (freeing y ++ flat_map freeing (upd l i x)) (freeing x ++ flat_map freeing l).
Proof.
  intros E. destruct (upd_split_at l i x y E) as (a & b & -> & ->). rewrite !flat_map_app. cbn [flat_map].
  rewrite (Permutation_app_swap_app (flat_map freeing a) (freeing x)), (Permutation_app_swap_app (flat_map freeing a) (freeing y)).
  apply Permutation_app_swap_app.
Qed.
Lemma step_blocks h l h' : step h l h' -> (match l with CallAllocate _ size alignment => size + alignment <= 2 ^ 64 | _ => True end) -> blocks_ok h -> blocks_ok h'.
Proof.
  intros Hs Hl (B1 & B2 & B3).
  destruct Hs as [h t size k Ht Hk | h t size alignment p Ht len Hb | h t size alignment Ht | h t b before after Ht Hh | h t b Ht | h t Ht | h b at_ value Hb Ha];
    unfold blocks_ok, in_use in *; cbn [h_held h_threads] in *.
  - pose proof (freeing_upd _ _ _ (Counted size (2 ^ k)) Ht) as P. cbn [freeing app] in P.
    split; [eapply apart_perm; [| exact B1]; apply Permutation_app_head; symmetry; exact P |]. split; [rewrite P; exact B2 |].
    apply counted_upd; [exact B3 |]. cbn [counted_ok]. exists k. auto.
  - pose proof (freeing_upd _ _ _ Idle Ht) as P. cbn [freeing app] in P. destruct Hb as (Hp & Hm & Hw & Hd).
    destruct (counted_at _ _ _ B3 Ht) as (k & K1 & -> & K2).
    assert (L : size <= len).
    { subst len. assert (P2 : 2 ^ k <> 0) by (apply N.pow_nonzero; discriminate). apply (align_to_spec 64 size k); lia. }
    cbn [app]. split; [| split; [| apply counted_upd; [exact B3 | exact I]]].
    + constructor; [| eapply apart_perm; [| exact B1]; apply Permutation_app_head; symmetry; exact P].
      rewrite P. unfold in_use in Hd. eapply Forall_impl; [| exact Hd]. intros b Hb. unfold disjoint, apart in *. cbn. exact Hb.
    + constructor; [| rewrite P; exact B2]. unfold good_block. cbn. auto.
  - pose proof (freeing_upd _ _ _ Idle Ht) as P. cbn [freeing app] in P.
    split; [eapply apart_perm; [| exact B1]; apply Permutation_app_head; symmetry; exact P |]. split; [rewrite P; exact B2 |].
    apply counted_upd; [exact B3 | exact I].
  - pose proof (freeing_upd _ _ _ (Freeing b) Ht) as P. cbn [freeing app] in P. rewrite Hh in B1, B2.
    assert (Q : Permutation ((before ++ b :: after) ++ flat_map freeing (h_threads h)) ((before ++ after) ++ flat_map freeing (upd (h_threads h) t (Freeing b)))).
    { rewrite P, <- !app_assoc. apply Permutation_app_head. cbn [app]. apply Permutation_middle. }
    split; [eapply apart_perm; [exact Q | exact B1] |]. split; [rewrite <- Q; exact B2 |].
    apply counted_upd; [exact B3 | exact I].
  - pose proof (freeing_upd _ _ _ Idle Ht) as P. cbn [freeing app] in P.
    assert (Q : Permutation (h_held h ++ flat_map freeing (h_threads h)) (b :: h_held h ++ flat_map freeing (upd (h_threads h) t Idle))).
    { rewrite <- P. symmetry. apply Permutation_middle. }
    pose proof (apart_perm _ _ Q B1) as B1'. rewrite Q in B2. inversion B1'; subst. inversion B2; subst.
    split; [assumption |]. split; [assumption |]. apply counted_upd; [exact B3 | exact I].
  - auto.
  - auto.
Qed.
Lemma run_blocks n memory tr h : run (started n memory) tr h -> small_sizes tr -> blocks_ok h.
Proof.
  intros R. remember (started n memory) as h0 eqn:E. induction R as [h | h1 h2 h3 tr l R IH Hs]; intros S.
  - subst h. unfold blocks_ok, in_use. cbn [started h_held h_threads app].
    assert (E : flat_map freeing (repeat Idle n) = []) by (clear; induction n as [| k IH]; [reflexivity | exact IH]). rewrite E.
    split; [constructor |]. split; [constructor |]. clear. induction n; cbn [repeat]; constructor; [exact I | assumption].
  - apply Forall_app in S as [S1 S2]. inversion S2; subst. eapply step_blocks; eauto.
Qed.

(** ** The contents of a block that a caller holds *)
Lemma memset_other m p n v a : a < p \/ p + n <= a -> memset m p n v a = m a.
Proof.
  intros H. unfold memset. destruct (N.leb_spec p a) as [A | A]; [| reflexivity]. destruct (N.ltb_spec a (p + n)) as [B | B]; [lia | reflexivity].
Qed.
Lemma memset_same m p n v a : p <= a < p + n -> memset m p n v a = v.
Proof. intros H. unfold memset. rewrite (proj2 (N.leb_le p a)), (proj2 (N.ltb_lt a (p + n))) by lia. reflexivity. Qed.
Lemma apart_in l b b' : ForallOrdPairs apart l -> In b l -> In b' l -> b = b' \/ apart b b'.
Proof.
  intros H. induction H as [| x l F H IH]; intros Hb Hb'; [destruct Hb |]. rewrite Forall_forall in F.
  destruct Hb as [-> | Hb], Hb' as [-> | Hb']; [left; reflexivity | right; auto | right; specialize (F _ Hb); unfold apart in *; tauto | auto].
Qed.
Definition frees_or_writes (l : label) (b : block) : Prop := match l with CallDeallocate _ b' | CallerWrites b' _ _ => b' = b | _ => False end.
Lemma step_contents h l h' b : step h l h' -> (match l with CallAllocate _ size alignment => size + alignment <= 2 ^ 64 | _ => True end) -> blocks_ok h ->
  In b (h_held h) -> ~ frees_or_writes l b -> In b (h_held h') /\ forall a, b_ptr b <= a < b_ptr b + b_size b -> h_memory h' a = h_memory h a.
Proof.
  intros Hs Hl Hok Hb Hn. pose proof (step_blocks h l h' Hs Hl Hok) as (_ & G' & _). destruct Hok as (B1 & B2 & B3).
  assert (Bu : In b (in_use h)) by (apply in_or_app; left; exact Hb). pose proof (proj1 (Forall_forall _ _) B2 _ Bu) as (_ & Gs & _).
  destruct Hs as [h t size k Ht Hk | h t size alignment p Ht len Hp | h t size alignment Ht | h t b' before after Ht Hh | h t b' Ht | h t Ht | h b' at_ value Hb' Ha];
    cbn [h_held h_memory frees_or_writes] in *; try (split; [exact Hb | reflexivity]).
  - split; [right; exact Hb |]. intros a Ha. destruct Hp as (_ & _ & _ & Hd). pose proof (proj1 (Forall_forall _ _) Hd _ Bu) as D. unfold disjoint in D.
    unfold in_use in G'. cbn [h_held app] in G'. inversion G' as [| ? ? Gb _]; subst. destruct Gb as (_ & Gz & _). cbn [b_ptr b_size b_len] in Gz. apply memset_other. lia.
  - assert (Bu' : In b' (in_use h)). { apply in_or_app. left. rewrite Hh. apply in_or_app. right. left. reflexivity. }
    pose proof (proj1 (Forall_forall _ _) B2 _ Bu') as (_ & Gz & _).
    destruct (apart_in _ _ _ B1 Bu Bu') as [-> | A]; [contradiction (Hn eq_refl) |]. split.
    + rewrite Hh in Hb. apply in_app_iff in Hb. apply in_app_iff. destruct Hb as [? | [-> | ?]]; [auto | contradiction (Hn eq_refl) | auto].
    + intros a Ha. apply memset_other. unfold apart in A. lia.
  - split; [exact Hb |]. intros a Ha2. assert (Bu' : In b' (in_use h)) by (apply in_or_app; left; exact Hb').
    pose proof (proj1 (Forall_forall _ _) B2 _ Bu') as (_ & Gz & _).
    destruct (apart_in _ _ _ B1 Bu Bu') as [-> | A]; [contradiction (Hn eq_refl) |]. apply memset_other. unfold apart in A. lia.
Qed.
