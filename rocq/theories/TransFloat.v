(** Multiplying by one and adding zero: what is left of a float. *)
From Coq Require Import ZArith NArith Reals Lra Lia.
From Flocq Require Import Core IEEE754.Binary IEEE754.Bits.
From Verif Require Import Word Float32 Float32Facts Quant QuantFacts TransSpec.
Local Open Scope R_scope.

Lemma strict_of_R x : FR x <> 0 -> Binary.is_finite_strict 24 128 x = true.
Proof. destruct x as [s | s | s pl e | s m e H]; cbn; intros Hx; try reflexivity; exfalso; apply Hx; reflexivity. Qed.
Lemma eq_of_R x y : FR x <> 0 -> FR x = FR y -> x = y.
Proof. intros Hx E. apply (Binary.B2R_inj 24 128); [apply strict_of_R; exact Hx | apply strict_of_R; rewrite <- E; exact Hx | exact E]. Qed.

Lemma FR_lt x : Rlt_bool (Rabs (FR x)) (bpow radix2 128) = true.
Proof. apply Rlt_bool_true. apply (Binary.abs_B2R_lt_emax 24 128). Qed.
Lemma FR_rnd x : round radix2 (SpecFloat.fexp 24 128) (BinarySingleNaN.round_mode BinarySingleNaN.mode_NE) (FR x) = FR x.
Proof. apply round_generic; [apply BinarySingleNaN.valid_rnd_round_mode |]. apply (Binary.generic_format_B2R 24 128). Qed.

Lemma finite_mul_add x : ffinite x = true -> FR (fmul_add x f_one f_zero) = FR x.
Proof.
  intros Hf. unfold fmul_add.
  generalize (Binary.Bmult_correct 24 128 (eq_refl _) (eq_refl _) binop_nan_pl32 BinarySingleNaN.mode_NE x f_one).
  fold (FR x) (FR f_one). rewrite f_one_R, Rmult_1_r, FR_rnd, FR_lt. fold b32_mult. intros (A & B & _).
  assert (F1 : ffinite (fmul x f_one) = true). { unfold ffinite, fmul in *. rewrite B, Hf. reflexivity. }
  assert (E1 : FR (fmul x f_one) = FR x) by exact A.
  generalize (Binary.Bplus_correct 24 128 (eq_refl _) (eq_refl _) binop_nan_pl32 BinarySingleNaN.mode_NE (fmul x f_one) f_zero F1 eq_refl).
  fold (FR (fmul x f_one)) (FR f_zero). rewrite E1, f_zero_R, Rplus_0_r, FR_rnd, FR_lt. intros (A2 & _). exact A2.
Qed.

Lemma f_bits_inj x y : f_bits x = f_bits y -> x = y.
Proof.
  unfold f_bits. intros H.
  assert (R : forall z, (0 <= bits_of_b32 z)%Z) by (intros z; apply (bits_of_binary_float_range 23 8 eq_refl eq_refl z)).
  apply Z2N.inj in H; try apply R.
  rewrite <- (binary_float_of_bits_of_binary_float 23 8 eq_refl eq_refl eq_refl x).
  rewrite <- (binary_float_of_bits_of_binary_float 23 8 eq_refl eq_refl eq_refl y).
  unfold bits_of_b32 in H. rewrite H. reflexivity.
Qed.

Lemma mul_one_add_zero x : fmul_add x f_one f_zero = no_negative_zero x.
Proof.
  unfold no_negative_zero. destruct (N.eqb_spec (f_bits x) 2147483648) as [E | E].
  - change 2147483648%N with (f_bits (Binary.B754_zero 24 128 true)) in E. apply f_bits_inj in E. subst x. vm_compute. reflexivity.
  - destruct x as [s | s | s pl e | s m e H].
    + destruct s; [exfalso; apply E; reflexivity | vm_compute; reflexivity].
    + destruct s; vm_compute; reflexivity.
    + reflexivity.
    + symmetry. apply eq_of_R; [| symmetry; apply finite_mul_add; reflexivity].
      intros Hz. apply (F2R_neq_0 radix2 (Float radix2 (cond_Zopp s (Zpos m)) e)); [| exact Hz].
      destruct s; cbn; lia.
Qed.
Lemma no_negative_zero_idem x : no_negative_zero (no_negative_zero x) = no_negative_zero x.
Proof. unfold no_negative_zero at 2 3. destruct (f_bits x =? 2147483648)%N eqn:E; [reflexivity |]. unfold no_negative_zero. rewrite E. reflexivity. Qed.

(** a sample stored in the segment range is not a negative zero *)
Lemma unit16_positive_zero q : (q < 2 ^ 16)%N -> no_negative_zero (unit_value 16 q) = unit_value 16 q.
Proof.
  intros Hq. unfold no_negative_zero. destruct (N.eqb_spec (f_bits (unit_value 16 q)) 2147483648) as [E | E]; [| reflexivity].
  exfalso. change 2147483648%N with (f_bits (Binary.B754_zero 24 128 true)) in E. apply f_bits_inj in E.
  destruct (N.eq_dec q 0) as [-> | Hz].
  { vm_compute in E. discriminate. }
  destruct (inv_R 16 ltac:(lia)) as (_ & Ip & _).
  destruct (unpack_R q 16) as (_ & R & _ & _); [lia | rewrite max_value_eq by lia; change (2 ^ 16)%N with 65536%N in *; lia |].
  change (unpack_scalar_unsigned q 16) with (unit_value 16 q) in R. rewrite E in R. change (FR (Binary.B754_zero 24 128 true)) with 0 in R. cbv zeta in R.
  assert (FR (inv_max_value 16) <= rnd (IZR (Z.of_N q) * FR (inv_max_value 16))).
  { apply rnd_ge_f; [apply FR_f32 |]. assert (1 <= IZR (Z.of_N q)) by (apply (IZR_le 1); lia). nra. }
  lra.
Qed.
