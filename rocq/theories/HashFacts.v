From Coq Require Import Lia ZifyBool ZifyNat ZifyN.
From Verif Require Export WordFacts Hash.
Open Scope N_scope.

Section Fnv.
  Variables w p pinv basis : N.
  Hypothesis Hinv : (p * pinv) mod 2 ^ w = 1.
  Hypothesis Hw : 8 <= w.

  Lemma mulw_inj a b : a < 2 ^ w -> b < 2 ^ w -> mulw w a p = mulw w b p -> a = b.
  Proof.
    intros Ha Hb E. unfold mulw in E.
    assert (Z : 2 ^ w <> 0) by (apply N.pow_nonzero; discriminate).
    assert (Back : forall x, x < 2 ^ w -> ((x * p) mod 2 ^ w * pinv) mod 2 ^ w = x).
    { intros x Hx. rewrite N.mul_mod_idemp_l by exact Z. rewrite <- N.mul_assoc.
      rewrite <- N.mul_mod_idemp_r by exact Z. rewrite Hinv, N.mul_1_r. apply N.mod_small; exact Hx. }
    rewrite <- (Back a Ha), <- (Back b Hb), E. reflexivity.
  Qed.

  Lemma byte_word b : b < 256 -> b < 2 ^ w.
  Proof. intros H. apply N.lt_le_trans with (2 ^ 8); [exact H|]. apply N.pow_le_mono_r; [discriminate|exact Hw]. Qed.

  Lemma lxor_word a b : a < 2 ^ w -> b < 2 ^ w -> N.lxor a b < 2 ^ w.
  Proof.
    intros Ha Hb. apply testbit_lt. intros i Hi. rewrite N.lxor_spec, (testbit_high a w Ha i Hi), (testbit_high b w Hb i Hi).
    reflexivity.
  Qed.

  Lemma lxor_inj_l a b c : N.lxor a c = N.lxor b c -> a = b.
  Proof.
    intros E. assert (H : N.lxor (N.lxor a c) c = N.lxor (N.lxor b c) c) by (rewrite E; reflexivity).
    rewrite !N.lxor_assoc, !N.lxor_nilpotent, !N.lxor_0_r in H. exact H.
  Qed.

  Lemma fnv_byte_lt a b : fnv1a_byte w p a b < 2 ^ w.
  Proof. unfold fnv1a_byte, mulw. apply N.mod_lt. apply N.pow_nonzero; discriminate. Qed.

  Lemma fnv_update_lt data acc : acc < 2 ^ w -> fnv1a_update w p acc data < 2 ^ w.
  Proof.
    revert acc; induction data as [|b data IH]; intros acc H; [exact H|].
    cbn [fnv1a_update fold_left]. apply IH. apply fnv_byte_lt.
  Qed.

  Lemma fnv_byte_inj_acc a b c : a < 2 ^ w -> b < 2 ^ w -> c < 256 ->
    fnv1a_byte w p a c = fnv1a_byte w p b c -> a = b.
  Proof.
    intros Ha Hb Hc E. apply mulw_inj in E; [|apply lxor_word; auto using byte_word..].
    eapply lxor_inj_l; exact E.
  Qed.

  Lemma fnv_byte_inj_byte a b c : a < 2 ^ w -> b < 256 -> c < 256 ->
    fnv1a_byte w p a b = fnv1a_byte w p a c -> b = c.
  Proof.
    intros Ha Hb Hc E. apply mulw_inj in E; [|apply lxor_word; auto using byte_word..].
    rewrite (N.lxor_comm a b), (N.lxor_comm a c) in E. eapply lxor_inj_l; exact E.
  Qed.

  Lemma fnv_update_inj data : forall a b, a < 2 ^ w -> b < 2 ^ w -> bytes_ok data ->
    fnv1a_update w p a data = fnv1a_update w p b data -> a = b.
  Proof.
    induction data as [|x data IH]; intros a b Ha Hb Hd E; [exact E|].
    inversion Hd as [|? ? Hx Hd']; subst. cbn [fnv1a_update fold_left] in E.
    apply IH in E; [|apply fnv_byte_lt|apply fnv_byte_lt|exact Hd'].
    eapply fnv_byte_inj_acc; eassumption.
  Qed.

  Lemma fnv_update_app acc a b : fnv1a_update w p acc (a ++ b) = fnv1a_update w p (fnv1a_update w p acc a) b.
  Proof. apply fold_left_app. Qed.

  Hypothesis Hb : basis < 2 ^ w.
  Lemma fnv_single pre x y suf : x < 256 -> y < 256 -> bytes_ok suf -> x <> y ->
    fnv1a_update w p basis (pre ++ x :: suf) <> fnv1a_update w p basis (pre ++ y :: suf).
  Proof.
    intros Hx Hy Hs N E. rewrite !fnv_update_app in E. cbn [fnv1a_update fold_left] in E.
    apply fnv_update_inj in E; [|apply fnv_byte_lt|apply fnv_byte_lt|exact Hs].
    apply N. eapply fnv_byte_inj_byte; [|exact Hx|exact Hy|exact E]. apply fnv_update_lt; exact Hb.
  Qed.

  Lemma fnv_common_suffix a b suf : bytes_ok suf ->
    (fnv1a_update w p basis (a ++ suf) = fnv1a_update w p basis (b ++ suf) <->
     fnv1a_update w p basis a = fnv1a_update w p basis b).
  Proof.
    intros Hs. rewrite !fnv_update_app. split; intros E; [|rewrite E; reflexivity].
    eapply fnv_update_inj; [| |exact Hs|exact E]; apply fnv_update_lt; exact Hb.
  Qed.
End Fnv.

Lemma hash32_single pre x y suf : x < 256 -> y < 256 -> bytes_ok suf -> x <> y ->
  hash32 (pre ++ x :: suf) <> hash32 (pre ++ y :: suf).
Proof. apply (fnv_single 32 16777619 899433627); reflexivity || discriminate. Qed.

Lemma hash64_single pre x y suf : x < 256 -> y < 256 -> bytes_ok suf -> x <> y ->
  hash64 (pre ++ x :: suf) <> hash64 (pre ++ y :: suf).
Proof. apply (fnv_single 64 1099511628211 14886173955864302971); reflexivity || discriminate. Qed.

(** two buffers that differ in exactly one position *)
Definition differ_at (a b : list N) (i : nat) : Prop :=
  length a = length b /\ (i < length a)%nat /\ nth i a 0 <> nth i b 0 /\ forall j, j <> i -> nth j a 0 = nth j b 0.

Lemma differ_at_split a b i : differ_at a b i ->
  exists pre x y suf, a = pre ++ x :: suf /\ b = pre ++ y :: suf /\ x <> y.
Proof.
  revert b i. induction a as [|x a IH]; intros b i (L & Hi & D & S); [cbn in Hi; lia|].
  destruct b as [|y b]; [discriminate L|]. destruct i as [|i].
  - exists [], x, y, a. repeat split; [|exact D]. cbn. f_equal. symmetry.
    apply nth_ext with (d := 0) (d' := 0); [cbn in L; lia|]. intros n _. apply (S (Datatypes.S n)). lia.
  - destruct (IH b i) as (pre & x' & y' & suf & E1 & E2 & E3).
    { split; [cbn in L; lia|]. split; [cbn in Hi; lia|]. split; [exact D|]. intros j Hj. apply (S (Datatypes.S j)). lia. }
    exists (x :: pre), x', y', suf. pose proof (S 0%nat ltac:(lia)) as S0. cbn in S0. subst. auto.
Qed.

Lemma hash_detects a b i : bytes_ok a -> bytes_ok b -> differ_at a b i -> hash32 a <> hash32 b /\ hash64 a <> hash64 b.
Proof.
  intros Ha Hb D. destruct (differ_at_split a b i D) as (pre & x & y & suf & -> & -> & N).
  apply Forall_app in Ha as [_ Ha]. apply Forall_app in Hb as [_ Hb]. inversion Ha; inversion Hb; subst.
  split; [apply hash32_single|apply hash64_single]; assumption.
Qed.

Lemma hash32_lt l : hash32 l < 2 ^ 32.
Proof. unfold hash32. apply fnv_update_lt. reflexivity. Qed.

Lemma hash_suffix a b suf : bytes_ok suf ->
  (hash32 (a ++ suf) = hash32 (b ++ suf) <-> hash32 a = hash32 b) /\
  (hash64 (a ++ suf) = hash64 (b ++ suf) <-> hash64 a = hash64 b).
Proof.
  intros H. split; [apply (fnv_common_suffix 32 16777619 899433627)|apply (fnv_common_suffix 64 1099511628211 14886173955864302971)];
    reflexivity || discriminate || assumption.
Qed.

Lemma hash_incremental a b :
  hash32 (a ++ b) = fnv1a_update 32 16777619 (hash32 a) b /\
  hash64 (a ++ b) = fnv1a_update 64 1099511628211 (hash64 a) b.
Proof. split; apply fold_left_app. Qed.

Lemma hash_combine_inj a b c : a < 2 ^ 32 -> b < 2 ^ 32 -> c < 2 ^ 32 ->
  (hash_combine32 a c = hash_combine32 b c -> a = b) /\ (hash_combine32 c a = hash_combine32 c b -> a = b).
Proof.
  intros Ha Hb Hc. unfold hash_combine32. split; intros E;
    apply (mulw_inj 32 16777619 899433627 ltac:(reflexivity)) in E; try (apply lxor_word; assumption).
  - eapply lxor_inj_l; exact E.
  - rewrite (N.lxor_comm c a), (N.lxor_comm c b) in E. eapply lxor_inj_l; exact E.
Qed.
