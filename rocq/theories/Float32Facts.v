(** Real-number semantics of the binary32 operations of Float32.v. *)
From Coq Require Import ZArith NArith Bool Reals Lra Lia.
From Flocq Require Import Core IEEE754.Binary IEEE754.Bits IEEE754.BinarySingleNaN.
From Flocq Require Import Relative.
From Verif Require Import Word Float32.

Local Open Scope R_scope.

(** the real value of a float, the binary32 rounding of a real *)
Definition FR (x : f32) : R := Binary.B2R 24 128 x.
Definition fexp32 : Z -> Z := FLT_exp (-149) 24.
Definition rnd (r : R) : R := round radix2 fexp32 ZnearestE r.
Definition is_f32 (r : R) : Prop := generic_format radix2 fexp32 r.

Global Instance fexp32_valid : Valid_exp fexp32.
Proof. apply FLT_exp_valid. red. lia. Qed.

Lemma fexp32_eq : SpecFloat.fexp 24 128 = fexp32.
Proof. reflexivity. Qed.

(* finiteness bound used everywhere: results below 2^127 do not overflow *)
Definition fbig : R := bpow radix2 127.

Lemma fbig_f32 : is_f32 fbig.
Proof. apply generic_format_bpow. unfold fexp32, FLT_exp. lia. Qed.

Lemma rnd_small r : Rabs r <= fbig -> Rabs (rnd r) < bpow radix2 128.
Proof.
  intros H. apply Rle_lt_trans with fbig.
  - apply abs_round_le_generic; auto using fexp32_valid, valid_rnd_N. apply fbig_f32.
  - apply bpow_lt. lia.
Qed.

Lemma rnd_ok r : Rabs r <= fbig ->
  Rlt_bool (Rabs (round radix2 (SpecFloat.fexp 24 128) (round_mode mode_NE) r)) (bpow radix2 128) = true.
Proof. intros H. apply Rlt_bool_true. apply (rnd_small r H). Qed.

Lemma FR_f32 x : is_f32 (FR x).
Proof. apply (Binary.generic_format_B2R 24 128). Qed.

Lemma fadd_R x y : ffinite x = true -> ffinite y = true -> Rabs (FR x + FR y) <= fbig ->
  ffinite (fadd x y) = true /\ FR (fadd x y) = rnd (FR x + FR y).
Proof.
  intros Hx Hy H. unfold FR in *.
  generalize (Binary.Bplus_correct 24 128 (eq_refl _) (eq_refl _) binop_nan_pl32 mode_NE x y Hx Hy).
  rewrite (rnd_ok _ H). intros (A & B & _). split; [exact B | exact A].
Qed.

Lemma fsub_R x y : ffinite x = true -> ffinite y = true -> Rabs (FR x - FR y) <= fbig ->
  ffinite (fsub x y) = true /\ FR (fsub x y) = rnd (FR x - FR y).
Proof.
  intros Hx Hy H. unfold FR in *.
  generalize (Binary.Bminus_correct 24 128 (eq_refl _) (eq_refl _) binop_nan_pl32 mode_NE x y Hx Hy).
  rewrite (rnd_ok _ H). intros (A & B & _). split; [exact B | exact A].
Qed.

Lemma fmul_R x y : ffinite x = true -> ffinite y = true -> Rabs (FR x * FR y) <= fbig ->
  ffinite (fmul x y) = true /\ FR (fmul x y) = rnd (FR x * FR y).
Proof.
  intros Hx Hy H. unfold FR in *.
  generalize (Binary.Bmult_correct 24 128 (eq_refl _) (eq_refl _) binop_nan_pl32 mode_NE x y).
  rewrite (rnd_ok _ H). intros (A & B & _). split; [| exact A].
  unfold ffinite, fmul, b32_mult in *. rewrite B, Hx, Hy. reflexivity.
Qed.

Lemma fdiv_R x y : ffinite x = true -> FR y <> 0 -> Rabs (FR x / FR y) <= fbig ->
  ffinite (fdiv x y) = true /\ FR (fdiv x y) = rnd (FR x / FR y).
Proof.
  intros Hx Hy H. unfold FR in *.
  generalize (Binary.Bdiv_correct 24 128 (eq_refl _) (eq_refl _) binop_nan_pl32 mode_NE x y Hy).
  rewrite (rnd_ok _ H). intros (A & B & _). split; [| exact A].
  unfold ffinite, fdiv, b32_div in *. rewrite B, Hx. reflexivity.
Qed.

(** small integers and half integers are exact *)
Lemma f32_Z z e : (-149 <= e)%Z -> (Z.abs z < 2 ^ 24)%Z -> is_f32 (IZR z * bpow radix2 e).
Proof.
  intros He Hz. apply generic_format_FLT. exists (Float radix2 z e); simpl; auto.
Qed.

Lemma f32_pow e : (-149 <= e)%Z -> is_f32 (bpow radix2 e).
Proof. intros. apply generic_format_bpow. unfold fexp32, FLT_exp. lia. Qed.

Lemma f32_int z : (Z.abs z <= 2 ^ 24)%Z -> is_f32 (IZR z).
Proof.
  intros Hz. destruct (Z.eq_dec (Z.abs z) (2 ^ 24)) as [E | E].
  - assert (z = 2 ^ 24 \/ z = - 2 ^ 24)%Z as [-> | ->] by lia.
    + change (IZR (2 ^ 24)) with (bpow radix2 24). apply f32_pow. lia.
    + rewrite opp_IZR. apply generic_format_opp.
      change (IZR (2 ^ 24)) with (bpow radix2 24). apply f32_pow. lia.
  - replace (IZR z) with (IZR z * bpow radix2 0) by (simpl; lra). apply f32_Z; lia.
Qed.

Lemma f32_half_int z : (Z.abs z < 2 ^ 24)%Z -> is_f32 (IZR z / 2).
Proof.
  intros Hz. replace (IZR z / 2) with (IZR z * bpow radix2 (-1)) by (simpl; lra). apply f32_Z; lia.
Qed.

Lemma rnd_id r : is_f32 r -> rnd r = r.
Proof. intros. apply round_generic; auto using valid_rnd_N. Qed.

Lemma rnd_le r s : r <= s -> rnd r <= rnd s.
Proof. intros. apply round_le; auto using fexp32_valid, valid_rnd_N. Qed.

Lemma rnd_le_f r s : is_f32 s -> r <= s -> rnd r <= s.
Proof. intros Hs H. rewrite <- (rnd_id s Hs). now apply rnd_le. Qed.

Lemma rnd_ge_f r s : is_f32 s -> s <= r -> s <= rnd r.
Proof. intros Hs H. rewrite <- (rnd_id s Hs). now apply rnd_le. Qed.

Lemma rnd_0 : rnd 0 = 0.
Proof. apply round_0. apply valid_rnd_N. Qed.

Lemma rnd_f32 r : is_f32 (rnd r).
Proof. apply generic_format_round; auto using fexp32_valid, valid_rnd_N. Qed.

Lemma f_of_Z_R z : (Z.abs z < 2 ^ 127)%Z -> ffinite (f_of_Z z) = true /\ FR (f_of_Z z) = rnd (IZR z).
Proof.
  intros Hz.
  generalize (Binary.binary_normalize_correct 24 128 (eq_refl _) (eq_refl _) mode_NE z 0 false).
  replace (F2R {| Fnum := z; Fexp := 0 |}) with (IZR z) by (unfold F2R; simpl; lra).
  rewrite rnd_ok.
  - intros (A & B & _). split; [exact B | exact A].
  - rewrite <- abs_IZR. unfold fbig. change (bpow radix2 127) with (IZR (2 ^ 127)). apply IZR_le. lia.
Qed.

Lemma f_of_Z_exact z : (Z.abs z <= 2 ^ 24)%Z -> ffinite (f_of_Z z) = true /\ FR (f_of_Z z) = IZR z.
Proof.
  intros Hz. destruct (f_of_Z_R z) as [A B].
  - apply Z.le_lt_trans with (1 := Hz). reflexivity.
  - split; auto. rewrite B. apply rnd_id. now apply f32_int.
Qed.

Lemma f_of_N_exact n : (n <= 2 ^ 24)%N -> ffinite (f_of_N n) = true /\ FR (f_of_N n) = IZR (Z.of_N n).
Proof. intros H. apply f_of_Z_exact. lia. Qed.

Lemma f_of_Z_sign z : (0 <= z < 2 ^ 127)%Z -> Binary.Bsign 24 128 (f_of_Z z) = false.
Proof.
  intros Hz.
  generalize (Binary.binary_normalize_correct 24 128 (eq_refl _) (eq_refl _) mode_NE z 0 false).
  replace (F2R {| Fnum := z; Fexp := 0 |}) with (IZR z) by (unfold F2R; simpl; lra).
  rewrite rnd_ok.
  - intros (_ & _ & A). unfold f_of_Z. etransitivity; [exact A |].
    destruct (Rcompare_spec (IZR z) 0) as [H | H | H]; auto.
    apply lt_IZR in H. lia.
  - rewrite <- abs_IZR. unfold fbig. change (bpow radix2 127) with (IZR (2 ^ 127)). apply IZR_le. lia.
Qed.

Lemma f_zero_R : FR f_zero = 0. Proof. reflexivity. Qed.
Lemma f_one_R : FR f_one = 1. Proof. unfold FR, f_one. vm_compute. lra. Qed.
Lemma f_half_R : FR f_half = / 2. Proof. unfold FR, f_half. vm_compute. lra. Qed.
Lemma f_zero_fin : ffinite f_zero = true. Proof. reflexivity. Qed.
Lemma f_one_fin : ffinite f_one = true. Proof. reflexivity. Qed.
Lemma f_half_fin : ffinite f_half = true. Proof. reflexivity. Qed.

(** comparisons *)
Lemma cmp_R x y : ffinite x = true -> ffinite y = true -> b32_compare x y = Some (Rcompare (FR x) (FR y)).
Proof. intros. now apply Binary.Bcompare_correct. Qed.

Lemma flt_R x y : ffinite x = true -> ffinite y = true -> (flt x y = true <-> FR x < FR y).
Proof.
  intros Hx Hy. unfold flt. rewrite (cmp_R x y Hx Hy).
  destruct (Rcompare_spec (FR x) (FR y)); split; intros; try discriminate; try reflexivity; lra.
Qed.

Lemma fle_R x y : ffinite x = true -> ffinite y = true -> (fle x y = true <-> FR x <= FR y).
Proof.
  intros Hx Hy. unfold fle. rewrite (cmp_R x y Hx Hy).
  destruct (Rcompare_spec (FR x) (FR y)); split; intros; try discriminate; try reflexivity; lra.
Qed.

Lemma feq_R x y : ffinite x = true -> ffinite y = true -> (feq x y = true <-> FR x = FR y).
Proof.
  intros Hx Hy. unfold feq. rewrite (cmp_R x y Hx Hy).
  destruct (Rcompare_spec (FR x) (FR y)); split; intros; try discriminate; try reflexivity; lra.
Qed.

Lemma flt_Rf x y : ffinite x = true -> ffinite y = true -> (flt x y = false <-> FR y <= FR x).
Proof.
  intros Hx Hy. pose proof (flt_R x y Hx Hy). destruct (flt x y); split; intros; try discriminate; auto.
  - destruct H as [H _]. specialize (H eq_refl). lra.
  - destruct (Rle_or_lt (FR y) (FR x)) as [L | L]; auto. apply H in L. discriminate.
Qed.

Lemma fle_Rf x y : ffinite x = true -> ffinite y = true -> (fle x y = false <-> FR y < FR x).
Proof.
  intros Hx Hy. pose proof (fle_R x y Hx Hy). destruct (fle x y); split; intros; try discriminate; auto.
  - destruct H as [H _]. specialize (H eq_refl). lra.
  - destruct (Rlt_or_le (FR y) (FR x)) as [L | L]; auto. apply H in L. discriminate.
Qed.

Lemma f32_eq x y : ffinite x = true -> ffinite y = true -> FR x = FR y ->
  Binary.Bsign 24 128 x = Binary.Bsign 24 128 y -> x = y.
Proof. intros. now apply (Binary.B2R_Bsign_inj 24 128). Qed.

(** rounding to integers *)
Lemma round_FIX0 rnd0 r : round radix2 (FIX_exp 0) rnd0 r = IZR (rnd0 r).
Proof. unfold round, F2R, scaled_mantissa, cexp, FIX_exp. simpl. rewrite !Rmult_1_r. reflexivity. Qed.

Lemma ffloor_R x : ffinite x = true -> ffinite (ffloor x) = true /\ FR (ffloor x) = IZR (Zfloor (FR x)).
Proof.
  intros Hx.
  destruct (Binary.Bnearbyint_correct 24 128 (eq_refl _) unop_nan_pl32 mode_DN x) as (A & B & _).
  rewrite round_FIX0 in A. split; [| exact A]. etransitivity; [exact B | exact Hx].
Qed.

Lemma fceil_R x : ffinite x = true -> ffinite (fceil x) = true /\ FR (fceil x) = IZR (Zceil (FR x)).
Proof.
  intros Hx.
  destruct (Binary.Bnearbyint_correct 24 128 (eq_refl _) unop_nan_pl32 mode_UP x) as (A & B & _).
  rewrite round_FIX0 in A. split; [| exact A]. etransitivity; [exact B | exact Hx].
Qed.

Lemma ffloor_sign x : ffinite x = true -> Binary.Bsign 24 128 (ffloor x) = Binary.Bsign 24 128 x.
Proof.
  intros Hx.
  destruct (Binary.Bnearbyint_correct 24 128 (eq_refl _) unop_nan_pl32 mode_DN x) as (A & B & C).
  apply C. unfold ffinite in Hx. rewrite Hx in B. revert B. clear.
  match goal with |- context [Binary.is_nan _ _ ?t] => destruct t; simpl; auto; discriminate end.
Qed.

Lemma Btrunc_R x : Binary.Btrunc 24 128 x = Ztrunc (FR x).
Proof.
  apply eq_IZR. rewrite (Binary.Btrunc_correct 24 128 (eq_refl _) x). apply round_FIX0.
Qed.

Lemma f_to_u32_R x : ffinite x = true -> 0 <= FR x -> (Zfloor (FR x) < 2 ^ 32)%Z ->
  f_to_u32 x = Ok (Z.to_N (Zfloor (FR x))).
Proof.
  intros Hx H0 H1. unfold f_to_u32. rewrite Hx, Btrunc_R, Ztrunc_floor by auto.
  assert (0 <= Zfloor (FR x))%Z by (apply Zfloor_lub; simpl; lra).
  destruct (Z.leb_spec 0 (Zfloor (FR x))), (Z.ltb_spec (Zfloor (FR x)) (2 ^ 32)); simpl; auto; lia.
Qed.

Lemma f_to_u32_int x z : ffinite x = true -> FR x = IZR z -> (0 <= z < 2 ^ 32)%Z -> f_to_u32 x = Ok (Z.to_N z).
Proof.
  intros Hx E Hz. rewrite f_to_u32_R; auto.
  - now rewrite E, Zfloor_IZR.
  - rewrite E. apply IZR_le. lia.
  - rewrite E, Zfloor_IZR. lia.
Qed.

(** error of one rounding *)
Lemma rnd_err_ulp r e : Rabs r <= bpow radix2 e -> (-125 <= e)%Z -> Rabs (rnd r - r) <= bpow radix2 (e - 25).
Proof.
  intros H He.
  destruct (Rle_lt_or_eq_dec _ _ H) as [L | E].
  - assert (Rabs (rnd r - r) <= / 2 * ulp radix2 fexp32 r).
    { unfold rnd. apply error_le_half_ulp. apply fexp32_valid. }
    apply Rle_trans with (1 := H0).
    destruct (Req_dec r 0) as [-> | Hr].
    + unfold ulp. rewrite Req_bool_true by auto.
      destruct (negligible_exp_spec' fexp32) as [[A B] | (n & A & B)].
      * rewrite A. pose proof (bpow_ge_0 radix2 (e - 25)). lra.
      * rewrite A. replace (/ 2) with (bpow radix2 (-1)) by (simpl; lra). rewrite <- bpow_plus. apply bpow_le.
        unfold fexp32, FLT_exp in *. lia.
    + rewrite ulp_neq_0 by auto. unfold cexp.
      replace (/ 2) with (bpow radix2 (-1)) by (simpl; lra). rewrite <- bpow_plus. apply bpow_le.
      assert (mag radix2 r <= e)%Z by (apply mag_le_bpow; auto).
      unfold fexp32, FLT_exp. lia.
  - assert (is_f32 r).
    { assert (r = bpow radix2 e \/ r = - bpow radix2 e) as [-> | ->].
      { unfold Rabs in E. destruct Rcase_abs; lra. }
      - apply f32_pow. lia.
      - apply generic_format_opp. apply f32_pow. lia. }
    rewrite rnd_id by auto. replace (r - r) with 0 by lra. rewrite Rabs_R0. apply bpow_ge_0.
Qed.
