(** C38: the bookkeeping of the ANSI allocator.  The vocabulary (calls, histories of interleaved steps of any number of
    threads) is in Alloc.v. *)
From Coq Require Import ZArith NArith List Bool Lia.
From Verif Require Import Word MemoryUtils Alloc AllocFacts.
Import ListNotations.
Local Open Scope N_scope.
Ltac Zify.zify_post_hook ::= idtac.

(** In every history, the count is the number of calls to allocate minus the number of calls to deallocate with a pointer. *)
Theorem C38_count : forall threads memory tr h, run (started threads memory) tr h ->
  how_many is_allocate tr < 2 ^ 31 -> h_count h = (Z.of_N (how_many is_allocate tr) - Z.of_N (how_many is_deallocate tr))%Z.
Proof.
  intros n memory tr h R Hn. destruct (count_inv n memory tr h R) as [C1 C2]. rewrite C1. change (2 ^ 31) with 2147483648 in Hn.
  apply int32_id. change (2 ^ 31)%Z with 2147483648%Z. lia.
Qed.
Print Assumptions C38_count.

(** The check of deallocate ("the number of allocations and deallocations does not match") never fires for callers that free
    what they hold, whatever the interleaving. *)
Theorem C38_no_false_alarm : forall threads memory tr h, run (started threads memory) tr h ->
  how_many is_allocate tr < 2 ^ 31 -> h_assert_failed h = false.
Proof. exact no_false_alarm. Qed.
Print Assumptions C38_no_false_alarm.

(** When no call is in progress, the leak check of the destructor is silent exactly when no block is held and no allocation
    failed: a call to allocate that returns null is counted as a leak. *)
Theorem C38_leak_check : forall threads memory tr h, run (started threads memory) tr h -> how_many is_allocate tr < 2 ^ 31 ->
  Forall (eq Idle) (h_threads h) -> (destructor_is_silent h = true <-> h_held h = [] /\ how_many is_failure tr = 0).
Proof. exact leak_check. Qed.
Print Assumptions C38_leak_check.

(** no size is so large that rounding it up to its alignment wraps around *)
Definition sizes_do_not_wrap (tr : list label) : Prop := forall t size alignment, In (CallAllocate t size alignment) tr -> size + alignment <= 2 ^ 64.
Lemma sizes_small tr : sizes_do_not_wrap tr -> small_sizes tr.
Proof. intros H. apply Forall_forall. intros l Hl. destruct l; try exact I. apply (H _ _ _ Hl). Qed.
(** The blocks that callers hold do not overlap, are not null, and have the size that was asked for. *)
Theorem C38_blocks : forall threads memory tr h, run (started threads memory) tr h -> sizes_do_not_wrap tr ->
  (forall b, In b (h_held h) -> b_ptr b <> 0 /\ b_ptr b + b_size b < 2 ^ 64) /\
  forall before b middle b' after, h_held h = before ++ b :: middle ++ b' :: after ->
    b_ptr b + b_size b <= b_ptr b' \/ b_ptr b' + b_size b' <= b_ptr b.
Proof.
  intros n memory tr h R S. destruct (run_blocks n memory tr h R (sizes_small tr S)) as (B1 & B2 & _). rewrite Forall_forall in B2. split.
  - intros b Hb. destruct (B2 b (in_or_app _ _ _ (or_introl Hb))) as (G1 & G2 & G3). split; [exact G1 | lia].
  - intros before b middle b' after E. unfold in_use in *. rewrite E in B1, B2. 
    assert (G : good_block b) by (apply B2; rewrite !in_app_iff; left; right; left; reflexivity).
    assert (G' : good_block b') by (apply B2; rewrite !in_app_iff; left; right; right; rewrite in_app_iff; right; left; reflexivity).
    assert (A : apart b b').
    { clear -B1. rewrite <- app_assoc in B1. induction before as [| x before IH]; cbn [app] in B1; inversion B1 as [| ? ? F H]; subst; [| apply IH, H].
      rewrite Forall_forall in F. apply F. rewrite in_app_iff. left. rewrite in_app_iff. right. left. reflexivity. }
    destruct G as (_ & Gs & _), G' as (_ & Gs' & _). unfold apart in A. lia.
Qed.
Print Assumptions C38_blocks.

(** Nothing but its holder changes a block: it stays allocated, with its contents, until it is freed or its holder writes
    to it. *)
Theorem C38_contents : forall threads memory tr h l h' b, run (started threads memory) tr h -> step h l h' -> sizes_do_not_wrap (tr ++ [l]) ->
  In b (h_held h) -> (forall t, l <> CallDeallocate t b) -> (forall at_ value, l <> CallerWrites b at_ value) ->
  In b (h_held h') /\ forall a, b_ptr b <= a < b_ptr b + b_size b -> h_memory h' a = h_memory h a.
Proof.
  intros n memory tr h l h' b R Hs S Hb H1 H2.
  assert (S1 : sizes_do_not_wrap tr) by (intros t size al Hin; apply (S t size al), in_or_app; left; exact Hin).
  apply (step_contents h l h' b Hs); [| exact (run_blocks n memory tr h R (sizes_small tr S1)) | exact Hb |].
  - destruct l; try exact I. eapply S. apply in_or_app. right. left. reflexivity.
  - destruct l as [ | | t b' | | | b' at_ value]; cbn [frees_or_writes]; auto; intros ->; [exact (H1 _ eq_refl) | exact (H2 _ _ eq_refl)].
Qed.
Print Assumptions C38_contents.

(** A new block is filled with 0xCD, and a block is filled with 0xFE before it goes back to the system. *)
Theorem C38_patterns : forall h l h', step h l h' ->
  match l with
  | ReturnAllocate t p => p <> 0 -> exists b, In b (h_held h') /\ b_ptr b = p /\ forall a, p <= a < p + b_size b -> h_memory h' a = 0xCD
  | CallDeallocate t b => In b (h_held h) /\ forall a, b_ptr b <= a < b_ptr b + b_size b -> h_memory h' a = 0xFE
  | _ => True
  end.
Proof.
  intros h l h' Hs.
  destruct Hs as [h t size k Ht Hk | h t size alignment p Ht len Hp | h t size alignment Ht | h t b before after Ht Hh | h t b Ht | h t Ht | h b at_ value Hb Ha]; try exact I.
  - intros _. eexists. split; [left; reflexivity |]. split; [reflexivity |]. intros a Ha. cbn [h_memory]. apply memset_same. exact Ha.
  - intros H. contradiction (H eq_refl).
  - split; [rewrite Hh; apply in_or_app; right; left; reflexivity |]. intros a Ha. cbn [h_memory]. apply memset_same. exact Ha.
Qed.
Print Assumptions C38_patterns.

(** A size that wraps around when it is rounded up gets a block that is too small: filling it overwrites the block of
    another caller. *)
Theorem C38_huge_size_refuted : exists threads memory tr h l h' b a, run (started threads memory) tr h /\ step h l h' /\
  In b (h_held h) /\ In b (h_held h') /\ (exists t p, l = ReturnAllocate t p) /\ b_ptr b <= a < b_ptr b + b_size b /\ h_memory h' a <> h_memory h a.
Proof.
  exists 1%nat, (fun _ => 0).
  set (big := 2 ^ 64 - 1). set (b := {| b_ptr := 32; b_size := 16; b_len := align_to 64 16 (2 ^ 4) |}).
  assert (E1 : exists h1, run (started 1 (fun _ => 0)) [CallAllocate 0 16 (2 ^ 4)] h1 /\ h1 = {| h_count := 1; h_held := []; h_threads := [Counted 16 (2 ^ 4)]; h_memory := fun _ => 0; h_assert_failed := false |}).
  { eexists. split; [apply (run_step _ (started 1 (fun _ => 0)) _ []); [constructor |]; apply (step_count _ 0%nat 16 4); [reflexivity | lia] | reflexivity]. }
  destruct E1 as (h1 & R1 & ->).
  assert (R2 : run (started 1 (fun _ => 0)) [CallAllocate 0 16 (2 ^ 4); ReturnAllocate 0 32]
    {| h_count := 1; h_held := [b]; h_threads := [Idle]; h_memory := memset (fun _ => 0) 32 16 0xCD; h_assert_failed := false |}).
  { eapply (run_step _ _ _ [_]); [exact R1 |]. 
    apply (step_block {| h_count := 1; h_held := []; h_threads := [Counted 16 (2 ^ 4)]; h_memory := fun _ => 0; h_assert_failed := false |} 0%nat 16 (2 ^ 4) 32); [reflexivity |].
    split; [discriminate |]. split; [reflexivity |]. split; [vm_compute; reflexivity | constructor]. }
  set (h2 := {| h_count := 1; h_held := [b]; h_threads := [Idle]; h_memory := memset (memset (fun _ => 0) 32 16 0xCD) 40 1 7; h_assert_failed := false |}).
  assert (R3 : run (started 1 (fun _ => 0)) [CallAllocate 0 16 (2 ^ 4); ReturnAllocate 0 32; CallerWrites b 40 7] h2).
  { eapply (run_step _ _ _ [_; _]); [exact R2 |]. apply (step_write {| h_count := 1; h_held := [b]; h_threads := [Idle]; h_memory := memset (fun _ => 0) 32 16 0xCD; h_assert_failed := false |}); [left; reflexivity | cbn; lia]. }
  eexists [_; _; _; _]. eexists. eexists. eexists. exists b, 40. split.
  { eapply (run_step _ _ _ [_; _; _]); [exact R3 |]. apply (step_count h2 0%nat big 4); [reflexivity | lia]. }
  split. { eapply (step_block _ 0%nat big (2 ^ 4) 16); [reflexivity |]. split; [discriminate |]. split; [reflexivity |]. split; [vm_compute; reflexivity |].
    constructor; [left; vm_compute; discriminate | constructor]. }
  split; [left; reflexivity |]. split; [right; left; reflexivity |]. split; [eexists; eexists; reflexivity |]. split; [cbn; lia |].
  vm_compute. discriminate.
Qed.
Print Assumptions C38_huge_size_refuted.

(** Two threads, one of which gives its block to the other while it allocates again: the history exists, and a block is left. *)
Example C38_history : exists h b, run (started 2 (fun _ => 0)) [CallAllocate 0 24 (2 ^ 4); ReturnAllocate 0 64; CallAllocate 0 10 (2 ^ 3); CallDeallocate 1 {| b_ptr := 64; b_size := 24; b_len := 32 |};
    ReturnAllocate 0 128; ReturnDeallocate 1] h /\ h_held h = [b] /\ b_ptr b = 128 /\ h_count h = 1%Z /\ Forall (eq Idle) (h_threads h) /\ destructor_is_silent h = false.
Proof.
  eexists. eexists. split.
  - eapply (run_step _ _ _ [_; _; _; _; _]).
    + eapply (run_step _ _ _ [_; _; _; _]).
      * eapply (run_step _ _ _ [_; _; _]).
        { eapply (run_step _ _ _ [_; _]).
          - eapply (run_step _ _ _ [_]).
            + eapply (run_step _ _ _ []); [constructor |]. apply (step_count _ 0%nat 24 4); [reflexivity | lia].
            + eapply (step_block _ 0%nat 24 (2 ^ 4) 64); [reflexivity |]. split; [discriminate |]. split; [reflexivity |]. split; [vm_compute; reflexivity | constructor].
          - apply (step_count _ 0%nat 10 3); [reflexivity | lia]. }
        { apply (step_uncount _ 1%nat _ [] []); reflexivity. }
      * eapply (step_block _ 0%nat 10 (2 ^ 3) 128); [reflexivity |]. split; [discriminate |]. split; [reflexivity |]. split; [vm_compute; reflexivity |].
        constructor; [right; vm_compute; discriminate | constructor].
    + eapply (step_free _ 1%nat). reflexivity.
  - split; [reflexivity |]. split; [reflexivity |]. split; [vm_compute; reflexivity |]. split; [repeat constructor |]. reflexivity.
Qed.
