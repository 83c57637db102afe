(** The order of floats that are not NaN (lemmas only). *)
From Coq Require Import ZArith NArith Bool Reals Lra Lia.
From Flocq Require Import Core IEEE754.Binary IEEE754.Bits IEEE754.BinarySingleNaN.
From Verif Require Import Word Float32 Float32Facts.
Local Open Scope R_scope.

Definition key (x : f32) : R := match x with Binary.B754_infinity _ _ s => if s then - bpow radix2 128 else bpow radix2 128 | _ => FR x end.
Lemma finite_key x : ffinite x = true -> key x = FR x.
Proof. destruct x; try discriminate; reflexivity. Qed.
Lemma finite_bound x : ffinite x = true -> - bpow radix2 128 < FR x < bpow radix2 128.
Proof. intros _. pose proof (Binary.abs_B2R_lt_emax 24 128 x) as H. apply Rabs_lt_inv in H. exact H. Qed.
Lemma compare_key x y : fnan x = false -> fnan y = false -> b32_compare x y = Some (Rcompare (key x) (key y)).
Proof.
  intros Nx Ny. destruct (ffinite x) eqn:Fx; destruct (ffinite y) eqn:Fy.
  - rewrite (finite_key x Fx), (finite_key y Fy). apply cmp_R; assumption.
  - pose proof (finite_bound x Fx) as B. rewrite (finite_key x Fx). assert (Q : forall z, FR x < z -> Rcompare (FR x) z = Lt) by (intros; apply Rcompare_Lt; assumption). assert (Q2 : forall z, z < FR x -> Rcompare (FR x) z = Gt) by (intros; apply Rcompare_Gt; assumption). destruct y as [s | s | s pl e | s m e B']; try discriminate. cbn [key]. destruct s; [rewrite Q2 by apply B | rewrite Q by apply B]; destruct x; try discriminate Fx; reflexivity.
  - pose proof (finite_bound y Fy) as B. rewrite (finite_key y Fy). destruct x as [s | s | s pl e | s m e B']; try discriminate. cbn [key]. destruct s; [rewrite Rcompare_Lt by apply B | rewrite Rcompare_Gt by apply B]; destruct y; try discriminate Fy; reflexivity.
  - pose proof (bpow_gt_0 radix2 128) as P. destruct x as [s | s | s pl e | s m e B']; try discriminate. destruct y as [s' | s' | s' pl' e' | s' m' e' B'']; try discriminate. unfold key.
    destruct s, s'; first [rewrite Rcompare_Eq by lra; reflexivity | rewrite Rcompare_Lt by lra; reflexivity | rewrite Rcompare_Gt by lra; reflexivity].
Qed.
Lemma compare_nan x y : fnan x = true \/ fnan y = true -> b32_compare x y = None.
Proof. intros [H | H]; destruct x, y; try discriminate H; reflexivity. Qed.
Lemma flt_key x y : flt x y = true <-> fnan x = false /\ fnan y = false /\ key x < key y.
Proof.
  unfold flt. destruct (fnan x) eqn:X; [rewrite compare_nan by auto; split; [discriminate | intros (H & _); discriminate] |].
  destruct (fnan y) eqn:Y; [rewrite compare_nan by auto; split; [discriminate | intros (_ & H & _); discriminate] |].
  rewrite compare_key by assumption. destruct (Rcompare_spec (key x) (key y)); split; try discriminate; try reflexivity; intros H'; try lra; repeat split; lra.
Qed.
Lemma fle_key x y : fle x y = true <-> fnan x = false /\ fnan y = false /\ key x <= key y.
Proof.
  unfold fle. destruct (fnan x) eqn:X; [rewrite compare_nan by auto; split; [discriminate | intros (H & _); discriminate] |].
  destruct (fnan y) eqn:Y; [rewrite compare_nan by auto; split; [discriminate | intros (_ & H & _); discriminate] |].
  rewrite compare_key by assumption. destruct (Rcompare_spec (key x) (key y)); split; try discriminate; try reflexivity; intros H'; try lra; repeat split; lra.
Qed.
Lemma flt_irrefl x : flt x x = false.
Proof. destruct (flt x x) eqn:E; [apply flt_key in E; lra | reflexivity]. Qed.
Lemma flt_trans x y z : flt x y = true -> flt y z = true -> flt x z = true.
Proof. rewrite !flt_key. intros (A & B & C) (D & E & F). repeat split; try assumption. lra. Qed.
Lemma flt_le_trans x y z : flt x y = true -> fle y z = true -> flt x z = true.
Proof. rewrite !flt_key, fle_key. intros (A & B & C) (D & E & F). repeat split; try assumption. lra. Qed.
Lemma fle_trans x y z : fle x y = true -> fle y z = true -> fle x z = true.
Proof. rewrite !fle_key. intros (A & B & C) (D & E & F). repeat split; try assumption. lra. Qed.
Lemma flt_fle x y : flt x y = true -> fle x y = true.
Proof. rewrite flt_key, fle_key. intros (A & B & C). repeat split; try assumption. lra. Qed.
Lemma flt_not_ge x y : flt x y = true -> fge x y = false.
Proof. unfold fge. intros H. destruct (fle y x) eqn:E; [| reflexivity]. apply flt_key in H. apply fle_key in E. lra. Qed.
Lemma fle_not_lt x y : fle x y = true -> flt y x = false.
Proof. intros H. destruct (flt y x) eqn:E; [| reflexivity]. apply flt_key in E. apply fle_key in H. lra. Qed.
Lemma fge_refl x y : fge x y = true -> fge x x = true.
Proof. unfold fge. rewrite !fle_key. intros (A & B & C). repeat split; try assumption. lra. Qed.
Lemma not_lt_ge x y : fnan x = false -> fnan y = false -> flt x y = false -> fle y x = true.
Proof. intros X Y H. apply fle_key. repeat split; try assumption. destruct (Rlt_or_le (key x) (key y)) as [L | L]; [| exact L]. assert (flt x y = true) by (apply flt_key; auto). congruence. Qed.
Lemma not_ge_lt x y : fnan x = false -> fnan y = false -> fge x y = false -> flt x y = true.
Proof. intros X Y H. apply flt_key. repeat split; try assumption. destruct (Rlt_or_le (key x) (key y)) as [L | L]; [exact L |]. assert (fle y x = true) by (apply fle_key; auto). unfold fge in H. congruence. Qed.
