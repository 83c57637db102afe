(** The order of binary32 numbers, infinities included: flt and fle compare the extended reals, NaN is unordered. *)
From Coq Require Import ZArith NArith Reals Lra Lia Bool.
From Flocq Require Import Core Binary Bits.
From Verif Require Import Word Float32 Float32Facts.
Local Open Scope R_scope.

(** a position on the extended line: sign of the infinity, value *)
Definition is_num (x : f32) : bool := negb (Binary.is_nan 24 128 x).
Definition rank (x : f32) : Z := match x with Binary.B754_infinity _ _ s => if s then (-1)%Z else 1%Z | _ => 0%Z end.

Lemma rank_finite x : is_num x = true -> rank x = 0%Z -> ffinite x = true.
Proof. destruct x as [|[]| |]; cbn; auto; discriminate. Qed.

Lemma flt_ext x y : is_num x = true -> is_num y = true ->
  (flt x y = true <-> (rank x < rank y)%Z \/ (rank x = 0%Z /\ rank y = 0%Z /\ FR x < FR y)).
Proof.
  intros Nx Ny. destruct (Z.eq_dec (rank x) 0) as [Zx|Zx]; [destruct (Z.eq_dec (rank y) 0) as [Zy|Zy]|].
  - rewrite (flt_R x y (rank_finite _ Nx Zx) (rank_finite _ Ny Zy)). rewrite Zx, Zy. split; [intros; right; auto | intros [H|(_ & _ & H)]; [discriminate H | auto]].
  - destruct y as [|[]| |]; cbn in Ny, Zy; try congruence; destruct x as [|[]| |]; cbn in Nx, Zx; try congruence;
      cbn; split; try discriminate; auto; try (intros [H|(_ & H & _)]; discriminate H); intros _; left; reflexivity.
  - destruct x as [|[]| |]; cbn in Nx, Zx; try congruence; destruct y as [|[]| |]; cbn in Ny; try congruence;
      cbn; split; try discriminate; auto; try (intros [H|(H & _ & _)]; discriminate H); intros _; left; reflexivity.
Qed.
Lemma fle_ext x y : is_num x = true -> is_num y = true ->
  (fle x y = true <-> (rank x < rank y)%Z \/ (rank x = rank y /\ (rank x <> 0%Z \/ FR x <= FR y))).
Proof.
  intros Nx Ny. destruct (Z.eq_dec (rank x) 0) as [Zx|Zx]; [destruct (Z.eq_dec (rank y) 0) as [Zy|Zy]|].
  - rewrite (fle_R x y (rank_finite _ Nx Zx) (rank_finite _ Ny Zy)). rewrite Zx, Zy.
    split; [intros; right; split; auto | intros [H|(_ & [H|H])]; [discriminate H | congruence | auto]].
  - destruct y as [|[]| |]; cbn in Ny, Zy; try congruence; destruct x as [|[]| |]; cbn in Nx, Zx; try congruence;
      cbn; split; try discriminate; auto; try (intros [H|(H & _)]; discriminate H); intros _; left; reflexivity.
  - destruct x as [|[]| |]; cbn in Nx, Zx; try congruence; destruct y as [|[]| |]; cbn in Ny; try congruence;
      cbn; split; try discriminate; auto; try (intros [H|(H & _)]; discriminate H);
      intros _; first [left; reflexivity | right; split; [reflexivity | left; discriminate]].
Qed.

Lemma flt_num x y : flt x y = true -> is_num x = true /\ is_num y = true.
Proof. unfold flt. destruct x as [|[]| |], y as [|[]| |]; cbn; auto; discriminate. Qed.
Lemma fle_num x y : fle x y = true -> is_num x = true /\ is_num y = true.
Proof. unfold fle. destruct x as [|[]| |], y as [|[]| |]; cbn; auto; discriminate. Qed.

Lemma flt_trans a b c : flt a b = true -> flt b c = true -> flt a c = true.
Proof.
  intros H1 H2. destruct (flt_num _ _ H1) as [A B], (flt_num _ _ H2) as [_ C]. apply flt_ext in H1, H2; auto. apply flt_ext; auto.
  destruct H1 as [H1|(H1 & H1' & H1'')], H2 as [H2|(H2 & H2' & H2'')]; [left; lia | left; lia | left; lia | right; repeat split; auto; lra].
Qed.
Lemma fle_lt_trans a b c : fle a b = true -> flt b c = true -> flt a c = true.
Proof.
  intros H1 H2. destruct (fle_num _ _ H1) as [A B], (flt_num _ _ H2) as [_ C]. apply fle_ext in H1; auto. apply flt_ext in H2; auto. apply flt_ext; auto.
  destruct H1 as [H1|(H1 & H1')], H2 as [H2|(H2 & H2' & H2'')]; [left; lia | left; lia | left; lia |].
  right. split; [congruence|]. split; auto. destruct H1' as [H1'|H1']; [congruence | lra].
Qed.
Lemma fle_trans a b c : fle a b = true -> fle b c = true -> fle a c = true.
Proof.
  intros H1 H2. destruct (fle_num _ _ H1) as [A B], (fle_num _ _ H2) as [_ C]. apply fle_ext in H1, H2; auto. apply fle_ext; auto.
  destruct H1 as [H1|(H1 & H1')], H2 as [H2|(H2 & H2')]; [left; lia | left; lia | left; lia |].
  right. split; [congruence|]. destruct H1' as [H1'|H1']; [auto|]. destruct H2' as [H2'|H2']; [left; congruence | right; lra].
Qed.
Lemma fle_refl a : is_num a = true -> fle a a = true.
Proof. intros H. apply fle_ext; auto. right. split; auto. right. lra. Qed.
Lemma fle_flt_total a b : is_num a = true -> is_num b = true -> fle a b = false -> flt b a = true.
Proof.
  intros A B H. apply flt_ext; auto. destruct (fle a b) eqn:E; [discriminate|]. clear H.
  assert (N : ~ ((rank a < rank b)%Z \/ (rank a = rank b /\ (rank a <> 0%Z \/ FR a <= FR b)))) by (intros H; apply fle_ext in H; auto; congruence).
  destruct (Z.lt_trichotomy (rank a) (rank b)) as [L|[L|L]]; [exfalso; auto | | left; lia].
  right. destruct (Z.eq_dec (rank a) 0) as [Z0|Z0]; [|exfalso; apply N; right; auto].
  split; [lia|]. split; auto. apply Rnot_le_lt. intros L'. apply N. right. auto.
Qed.
Lemma flt_fle a b : flt a b = true -> fle a b = true.
Proof. unfold flt, fle. destruct (b32_compare a b) as [[]|]; auto; discriminate. Qed.
Lemma fle_not_flt a b : fle a b = true -> flt b a = false.
Proof.
  intros H. destruct (flt b a) eqn:E; auto. pose proof (fle_lt_trans _ _ _ H E) as X. pose proof (flt_num _ _ X) as [A _].
  apply flt_ext in X; auto. destruct X as [X|(_ & _ & X)]; [lia | lra].
Qed.
