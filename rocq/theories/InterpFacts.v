(** Facts about sample times, key frame selection and rounding policies. *)
From Coq Require Import ZArith NArith Bool Reals Lra Lia.
From Flocq Require Import Core IEEE754.Binary IEEE754.Bits IEEE754.BinarySingleNaN.
From Flocq Require Import Relative.
From Verif Require Import Word Float32 Float32Facts Quant QuantFacts Interp.
Local Open Scope R_scope.

(** the range of sample rates (and durations) covered: far beyond anything practical *)
Definition sane (r : R) : Prop := bpow radix2 (-100) <= r <= bpow radix2 100.

Lemma sane_pos r : sane r -> 0 < r.
Proof. intros [H _]. pose proof (bpow_gt_0 radix2 (-100)). lra. Qed.

(** a/rho rounded once, then multiplied back: error a * 2^-24 before the final rounding *)
Lemma div_bounds a rho : (1 <= a <= 2 ^ 22)%Z -> sane rho ->
  let D := rnd (IZR a / rho) in
  0 < D <= bpow radix2 123 /\ Rabs (D * rho - IZR a) <= IZR a * / IZR (2 ^ 24).
Proof.
  intros Ha Hr D. pose proof (sane_pos _ Hr) as Hp. destruct Hr as [Hl Hh].
  assert (Ri : 0 < / rho) by (apply Rinv_0_lt_compat; auto).
  assert (Ra : 1 <= IZR a <= bpow radix2 22).
  { split; [apply IZR_le; lia |]. change (bpow radix2 22) with (IZR (2 ^ 22)). apply IZR_le. lia. }
  assert (Lo : bpow radix2 (-100) <= / rho).
  { rewrite <- (Rinv_inv (bpow radix2 (-100))).
    apply Rinv_le_contravar; auto. rewrite <- bpow_opp. exact Hh. }
  assert (Hi : / rho <= bpow radix2 100).
  { rewrite <- (Rinv_inv (bpow radix2 100)).
    apply Rinv_le_contravar; [apply Rinv_0_lt_compat, bpow_gt_0 |]. rewrite <- bpow_opp. exact Hl. }
  assert (Qlo : bpow radix2 (-100) <= IZR a / rho).
  { unfold Rdiv. apply Rle_trans with (1 * / rho); [lra |]. apply Rmult_le_compat_r; lra. }
  assert (Qhi : IZR a / rho <= bpow radix2 122).
  { unfold Rdiv. replace (bpow radix2 122) with (bpow radix2 22 * bpow radix2 100) by (rewrite <- bpow_plus; reflexivity).
    apply Rmult_le_compat; lra. }
  pose proof (bpow_gt_0 radix2 (-100)) as B100.
  split.
  - split.
    + apply Rlt_le_trans with (bpow radix2 (-100)); auto. apply rnd_ge_f; auto. apply f32_pow. lia.
    + apply Rle_trans with (bpow radix2 122). apply rnd_le_f; auto. apply f32_pow. lia. apply bpow_le. lia.
  - assert (E : Rabs (D - IZR a / rho) <= / 2 * bpow radix2 (-24 + 1) * Rabs (IZR a / rho)).
    { apply relative_error_N_FLT; [lia |]. rewrite Rabs_pos_eq by lra.
      apply Rle_trans with (bpow radix2 (-100)); auto. apply bpow_le. lia. }
    rewrite (Rabs_pos_eq (IZR a / rho)) in E by lra.
    replace (D * rho - IZR a) with ((D - IZR a / rho) * rho) by (field; lra).
    rewrite Rabs_mult, (Rabs_pos_eq rho) by lra.
    replace (IZR a * / IZR (2 ^ 24)) with (/ 2 * bpow radix2 (-24 + 1) * (IZR a / rho) * rho).
    + apply Rmult_le_compat_r; lra.
    + replace (/ 2 * bpow radix2 (-24 + 1)) with (/ IZR (2 ^ 24)) by (simpl; lra). field. lra.
Qed.

Global Instance prec24 : Prec_gt_0 24. Proof. red. lia. Qed.

Lemma quarter_off z d : (Z.abs d <= 4)%Z -> (0 <= z < 2 ^ 22 - 1)%Z -> is_f32 (IZR z + IZR d / 4).
Proof.
  intros Hd Hz. replace (IZR z + IZR d / 4) with (IZR (4 * z + d) / 4) by (rewrite plus_IZR, mult_IZR; lra).
  apply quarter_int. lia.
Qed.

(** the product time * rate stays within a quarter of the exact sample index at sample points *)
Lemma index_at a rho D : (0 <= a < 2 ^ 22 - 1)%Z -> sane rho ->
  ((a = 0)%Z -> D = 0) -> ((1 <= a)%Z -> D = rnd (IZR a / rho)) ->
  IZR a - / 4 <= rnd (D * rho) <= IZR a + / 4.
Proof.
  intros Ha Hr H0 H1.
  assert (B : IZR a - / 4 <= D * rho <= IZR a + / 4).
  { destruct (Z.eq_dec a 0) as [E | E].
    - rewrite (H0 E), E. simpl. lra.
    - rewrite (H1 ltac:(lia)). destruct (div_bounds a rho ltac:(lia) Hr) as [_ B].
      apply Rabs_le_inv in B.
      assert (IZR a <= IZR (2 ^ 22)) by (apply IZR_le; lia).
      assert (IZR a * / IZR (2 ^ 24) <= / 4) by (simpl in *; lra). lra. }
  replace (IZR a - / 4) with (IZR a + IZR (-1) / 4) in * by (simpl; lra).
  replace (IZR a + / 4) with (IZR a + IZR 1 / 4) in * by (simpl; lra).
  split; [apply rnd_ge_f | apply rnd_le_f]; try tauto; apply quarter_off; lia.
Qed.

(** x - floor x is exact *)
Lemma frac_f32 x : is_f32 x -> 0 <= x -> is_f32 (x - IZR (Zfloor x)).
Proof.
  intros Hx H0. destruct (FLT_format_generic radix2 (-149) 24 x Hx) as [f E1 E2 E3].
  destruct f as [m e]. simpl in *. rewrite E1 in *. unfold F2R in *. simpl in *.
  destruct (Z.le_gt_cases 0 e) as [He | He].
  - replace (IZR m * bpow radix2 e) with (IZR (m * 2 ^ e)).
    + rewrite Zfloor_IZR. replace (IZR (m * 2 ^ e) - IZR (m * 2 ^ e)) with 0 by lra. apply generic_format_0.
    + rewrite mult_IZR. f_equal. rewrite <- IZR_Zpower by auto. reflexivity.
  - assert (P : IZR (2 ^ (- e)) * bpow radix2 e = 1).
    { replace (IZR (2 ^ (- e))) with (bpow radix2 (- e)) by (rewrite <- IZR_Zpower by lia; reflexivity).
      rewrite <- bpow_plus. rewrite Z.add_opp_diag_l. reflexivity. }
    clear x Hx E1. set (x := IZR m * bpow radix2 e) in *.
    replace (x - IZR (Zfloor x)) with (IZR (m - Zfloor x * 2 ^ (- e)) * bpow radix2 e).
    + apply f32_Z; [lia |].
      assert (Pe : (0 < 2 ^ (- e))%Z) by (apply Z.pow_pos_nonneg; lia).
      pose proof (bpow_gt_0 radix2 e) as Be.
      assert (M0 : 0 <= IZR m). { unfold x in H0. apply Rmult_le_reg_r with (bpow radix2 e); lra. }
      apply le_IZR in M0.
      assert (F0 : (0 <= Zfloor x)%Z) by (apply Zfloor_lub; simpl; lra).
      assert (F1 : (Zfloor x * 2 ^ (- e) <= m)%Z).
      { apply le_IZR. rewrite mult_IZR. apply Rmult_le_reg_r with (bpow radix2 e); auto.
        rewrite Rmult_assoc, P, Rmult_1_r. fold x. apply Zfloor_lb. }
      assert (0 <= Zfloor x * 2 ^ (- e))%Z by (apply Z.mul_nonneg_nonneg; lia). lia.
    + rewrite minus_IZR, mult_IZR, Rmult_minus_distr_r, Rmult_assoc, P, Rmult_1_r. reflexivity.
Qed.

(** applying a rounding policy *)
Lemma nearest_R a : ffinite a = true -> 0 <= FR a <= 1 ->
  ffinite (ffloor (fadd a f_half)) = true /\ FR (ffloor (fadd a f_half)) = IZR (Zfloor (rnd (FR a + / 2))).
Proof.
  intros Ha H. destruct (fadd_R a f_half Ha f_half_fin) as [F1 F2].
  { rewrite f_half_R. apply small_fbig' with 2%Z; [split; vm_compute; discriminate | simpl; lra]. }
  rewrite f_half_R in F2. destruct (ffloor_R _ F1) as [F3 F4]. rewrite F2 in F4. auto.
Qed.

Lemma nearest_up a : / 2 <= a <= 1 -> Zfloor (rnd (a + / 2)) = 1%Z.
Proof.
  intros H. apply Zfloor_eq_bounds. split.
  - apply rnd_ge_f; [apply f32_int; vm_compute; discriminate | lra].
  - apply Rle_lt_trans with (IZR 3 / 2); [| lra]. apply rnd_le_f; [apply f32_half_int; vm_compute; reflexivity | lra].
Qed.

Lemma nearest_down a : is_f32 a -> 0 <= a < / 2 - bpow radix2 (-25) -> Zfloor (rnd (a + / 2)) = 0%Z.
Proof.
  intros Hf H. apply Zfloor_eq_bounds. split.
  - rewrite <- rnd_0. apply rnd_le. pose proof (bpow_gt_0 radix2 (-25)). lra.
  - apply Rle_lt_trans with (1 - bpow radix2 (-24)).
    + apply round_N_le_midp; auto using fexp32_valid.
      * replace (1 - bpow radix2 (-24)) with (IZR (2 ^ 24 - 1) * bpow radix2 (-24)) by (simpl; lra).
        apply f32_Z; vm_compute; [discriminate | reflexivity].
      * assert (E : succ radix2 fexp32 (1 - bpow radix2 (-24)) = 1).
        { rewrite succ_eq_pos by (simpl; lra). rewrite ulp_neq_0 by (simpl; lra). unfold cexp.
          rewrite (mag_unique_pos radix2 _ 0).
          - simpl. lra.
          - simpl. lra. }
        rewrite E. simpl in *. lra.
    + pose proof (bpow_gt_0 radix2 (-24)). lra.
Qed.

(** every float below 1/2 is at most 1/2 - 2^-25 (the predecessor of 1/2) *)
Lemma below_half a : is_f32 a -> a < / 2 -> a <= / 2 - bpow radix2 (-25).
Proof.
  intros Hf H. replace (/ 2 - bpow radix2 (-25)) with (pred radix2 fexp32 (/ 2)).
  - apply pred_ge_gt; auto using fexp32_valid.
    replace (/ 2) with (bpow radix2 (-1)) by (simpl; lra). apply f32_pow. lia.
  - replace (/ 2) with (bpow radix2 (-1)) by (simpl; lra).
    rewrite pred_bpow. simpl. lra.
Qed.

Lemma fsub_floor si z : ffinite si = true -> 0 <= FR si <= IZR (2 ^ 23) -> z = Zfloor (FR si) ->
  ffinite (fsub si (f_of_Z z)) = true /\ FR (fsub si (f_of_Z z)) = FR si - IZR z.
Proof.
  intros Hs H ->.
  assert (F0 : (0 <= Zfloor (FR si))%Z) by (apply Zfloor_lub; simpl; lra).
  assert (F1 : (Zfloor (FR si) <= 2 ^ 23)%Z).
  { apply le_IZR. apply Rle_trans with (FR si); [apply Zfloor_lb | tauto]. }
  destruct (f_of_Z_exact (Zfloor (FR si))) as [Z1 Z2]; [lia |].
  pose proof (Zfloor_lb (FR si)). pose proof (Zfloor_ub (FR si)).
  destruct (fsub_R si (f_of_Z (Zfloor (FR si))) Hs Z1) as [A B].
  { rewrite Z2. apply small_fbig' with 1%Z; [split; vm_compute; discriminate | simpl; lra]. }
  split; auto. rewrite B, Z2. apply rnd_id. apply frac_f32; [apply FR_f32 | tauto].
Qed.

Lemma samples_at_spec n si rp lp : (1 <= n < 2 ^ 22)%N -> ffinite si = true ->
  0 <= FR si <= (match lp with lp_clamp => IZR (Z.of_N (n - 1)) | lp_wrap => IZR (Z.of_N n) end) + / 4 ->
  exists i0 i1 al,
    samples_at n si rp lp = Ok (i0, i1, apply_rounding_policy al rp) /\
    ffinite al = true /\ 0 <= FR al < 1 /\ (i0 < n)%N /\ (i1 < n)%N /\
    match lp with
    | lp_clamp => i1 = N.min (i0 + 1) (n - 1) /\ IZR (Z.of_N i0) + FR al = FR si
    | lp_wrap => (i1 = ((i0 + 1) mod n)%N /\ IZR (Z.of_N i0) + FR al = FR si) \/
                 (i0 = 0%N /\ i1 = 0%N /\ FR al = 0 /\ IZR (Z.of_N n) <= FR si)
    end.
Proof.
  intros Hn Hs H.
  assert (N0 : 1 <= IZR (Z.of_N n) <= IZR (2 ^ 22)) by (split; apply IZR_le; lia).
  assert (Bnd : 0 <= FR si <= IZR (2 ^ 23)).
  { destruct lp.
    - assert (IZR (Z.of_N (n - 1)) <= IZR (Z.of_N n)) by (apply IZR_le; lia). simpl in *. lra.
    - simpl in *. lra. }
  set (z := Zfloor (FR si)).
  assert (F0 : (0 <= z)%Z) by (apply Zfloor_lub; simpl; lra).
  assert (F1 : IZR z <= FR si < IZR z + 1) by (split; [apply Zfloor_lb | apply Zfloor_ub]).
  assert (F2 : (z <= match lp with lp_clamp => Z.of_N (n - 1) | lp_wrap => Z.of_N n end)%Z).
  { assert (z < match lp with lp_clamp => Z.of_N (n - 1) | lp_wrap => Z.of_N n end + 1)%Z; [| lia].
    apply lt_IZR. rewrite plus_IZR. apply Rle_lt_trans with (FR si); [tauto |]. destruct lp; lra. }
  assert (F3 : (z <= 2 ^ 22)%Z) by (destruct lp; lia).
  destruct (fsub_floor si z Hs Bnd eq_refl) as [A1 A2].
  assert (U : f_to_u32 si = Ok (Z.to_N z)).
  { apply f_to_u32_R; auto; [tauto |]. fold z. lia. }
  unfold samples_at. rewrite U. cbn [bindo].
  assert (W : wrapw 32 (Z.to_N z + 1) = (Z.to_N z + 1)%N).
  { unfold wrapw. apply N.mod_small. apply N.le_lt_trans with (2 ^ 22 + 1)%N; [lia | reflexivity]. }
  rewrite W.
  assert (FZ : f_of_N (Z.to_N z) = f_of_Z z) by (unfold f_of_N; rewrite Z2N.id; auto).
  destruct lp.
  - exists (Z.to_N z), (N.min (Z.to_N z + 1) (n - 1)), (fsub si (f_of_Z z)).
    rewrite FZ. split; [reflexivity |]. rewrite A2. rewrite Z2N.id by auto.
    repeat split; auto; try lra; try lia.
  - destruct (N.ltb_spec (n - 1) (Z.to_N z)) as [L | L].
    + exists 0%N, 0%N, (fsub f_zero (f_of_N 0)). split; [reflexivity |].
      assert (E : fsub f_zero (f_of_N 0) = f_zero) by (vm_compute; reflexivity).
      rewrite E, f_zero_R. repeat split; auto; try lra; try lia.
      right. repeat split; auto. apply Rle_trans with (IZR z); [| tauto]. apply IZR_le. lia.
    + exists (Z.to_N z), ((Z.to_N z + 1) mod n)%N, (fsub si (f_of_Z z)).
      rewrite FZ. split.
      { f_equal. f_equal. f_equal. destruct (N.leb_spec n (Z.to_N z + 1)).
        - assert (Z.to_N z + 1 = n)%N as -> by lia. rewrite N.mod_same by lia. reflexivity.
        - rewrite N.mod_small by lia. reflexivity. }
      rewrite A2. rewrite Z2N.id by auto.
      assert ((Z.to_N z + 1) mod n < n)%N by (apply N.mod_lt; lia).
      repeat split; auto; try lra; try lia.
      left. split; auto. lra.
Qed.

(** durations *)
Lemma fdiv_sane a rho : (0 <= a <= 2 ^ 22)%Z -> ffinite rho = true -> sane (FR rho) ->
  ffinite (fdiv (f_of_Z a) rho) = true /\
  ((a = 0)%Z -> FR (fdiv (f_of_Z a) rho) = 0) /\
  ((1 <= a)%Z -> FR (fdiv (f_of_Z a) rho) = rnd (IZR a / FR rho)) /\
  0 <= FR (fdiv (f_of_Z a) rho) <= bpow radix2 123.
Proof.
  intros Ha Hf Hr. pose proof (sane_pos _ Hr).
  destruct (f_of_Z_exact a) as [Z1 Z2]; [lia |].
  assert (B : Rabs (IZR a / FR rho) <= fbig).
  { destruct Hr as [Hl Hh].
    assert (/ FR rho <= bpow radix2 100).
    { rewrite <- (Rinv_inv (bpow radix2 100)).
      apply Rinv_le_contravar; [apply Rinv_0_lt_compat, bpow_gt_0 |]. rewrite <- bpow_opp. exact Hl. }
    assert (0 < / FR rho) by (apply Rinv_0_lt_compat; auto).
    assert (R0 : 0 <= IZR a) by (apply IZR_le; lia).
    rewrite Rabs_pos_eq by (apply Rmult_le_pos; lra).
    unfold fbig. replace (bpow radix2 127) with (bpow radix2 27 * bpow radix2 100) by (rewrite <- bpow_plus; reflexivity).
    apply Rmult_le_compat; try lra. change (bpow radix2 27) with (IZR (2 ^ 27)). apply IZR_le. lia. }
  destruct (fdiv_R (f_of_Z a) rho Z1) as [D1 D2]; [lra | rewrite Z2; exact B |].
  rewrite Z2 in D2.
  split; auto. split; [| split].
  - intros ->. rewrite D2. replace (0 / FR rho) with 0 by (unfold Rdiv; ring). apply rnd_0.
  - auto.
  - destruct (Z.eq_dec a 0) as [-> | E].
    + rewrite D2. replace (0 / FR rho) with 0 by (unfold Rdiv; ring). rewrite rnd_0.
      split; [lra | apply bpow_ge_0].
    + rewrite D2. destruct (div_bounds a (FR rho) ltac:(lia) Hr) as [C _]. lra.
Qed.

Lemma finite_duration_R n rate lp : (1 <= n < 2 ^ 22 - 2)%N -> ffinite rate = true -> sane (FR rate) ->
  let a := match lp with lp_clamp => Z.of_N (n - 1) | lp_wrap => Z.of_N n end in
  let D := clip_finite_duration n rate lp in
  ffinite D = true /\ ((a = 0)%Z -> FR D = 0) /\ ((1 <= a)%Z -> FR D = rnd (IZR a / FR rate)) /\
  0 <= FR D <= bpow radix2 123.
Proof.
  intros Hn Hf Hr a D. unfold D, clip_finite_duration, calculate_finite_duration.
  destruct lp.
  - destruct (N.leb_spec n 1) as [L | L].
    + rewrite f_zero_R. assert (a = 0%Z) by (unfold a; lia).
      repeat split; auto; try lra; try (intros; lia). apply bpow_ge_0.
    + unfold f_of_N. apply fdiv_sane; auto. unfold a. lia.
  - destruct (N.eqb_spec n 0) as [L | L]; [lia |].
    assert (W : wrapw 32 (n + 1) = (n + 1)%N).
    { unfold wrapw. apply N.mod_small. apply N.le_lt_trans with (2 ^ 22 + 1)%N; [lia | reflexivity]. }
    rewrite W. destruct (N.leb_spec (n + 1) 1); [lia |].
    replace (n + 1 - 1)%N with n by lia. unfold f_of_N. apply fdiv_sane; auto. unfold a. lia.
Qed.

Lemma rnd_mul_R t rho : ffinite t = true -> ffinite rho = true -> 0 <= FR t <= bpow radix2 123 -> 0 < FR rho ->
  FR t * FR rho <= bpow radix2 25 ->
  ffinite (fmul t rho) = true /\ FR (fmul t rho) = rnd (FR t * FR rho).
Proof.
  intros Ht Hr H0 H1 H2. apply fmul_R; auto.
  rewrite Rabs_pos_eq by (apply Rmult_le_pos; lra). apply Rle_trans with (1 := H2). apply bpow_le. lia.
Qed.

(** sample_time within the clip, any looping policy *)
Lemma find_samples_spec n rate t rp lp : (1 <= n < 2 ^ 22 - 2)%N -> ffinite rate = true -> sane (FR rate) ->
  ffinite t = true -> 0 <= FR t <= FR (clip_finite_duration n rate lp) ->
  exists i0 i1 al,
    find_linear_interpolation_samples_with_sample_rate n rate t rp lp = Ok (i0, i1, apply_rounding_policy al rp) /\
    ffinite al = true /\ 0 <= FR al < 1 /\ (i0 < n)%N /\ (i1 < n)%N /\
    match lp with
    | lp_clamp => i1 = N.min (i0 + 1) (n - 1) /\ IZR (Z.of_N i0) + FR al = rnd (FR t * FR rate)
    | lp_wrap => (i1 = ((i0 + 1) mod n)%N /\ IZR (Z.of_N i0) + FR al = rnd (FR t * FR rate)) \/
                 (i0 = 0%N /\ i1 = 0%N /\ FR al = 0 /\ IZR (Z.of_N n) <= rnd (FR t * FR rate))
    end /\
    rnd (FR t * FR rate) <= match lp with lp_clamp => IZR (Z.of_N (n - 1)) | lp_wrap => IZR (Z.of_N n) end + / 4.
Proof.
  intros Hn Hf Hr Ht H. pose proof (sane_pos _ Hr) as Hp.
  destruct (finite_duration_R n rate lp Hn Hf Hr) as (D1 & D2 & D3 & D4).
  set (D := clip_finite_duration n rate lp) in *.
  set (a := match lp with lp_clamp => Z.of_N (n - 1) | lp_wrap => Z.of_N n end) in *.
  assert (Ba : (0 <= a < 2 ^ 22 - 1)%Z) by (unfold a; destruct lp; lia).
  destruct (index_at a (FR rate) (FR D) Ba Hr D2 D3) as [_ Up].
  assert (TD : FR t * FR rate <= FR D * FR rate) by (apply Rmult_le_compat_r; lra).
  assert (SI : rnd (FR t * FR rate) <= IZR a + / 4).
  { apply Rle_trans with (2 := Up). apply rnd_le. auto. }
  assert (DB : FR D * FR rate <= IZR a + 1).
  { destruct (Z.eq_dec a 0) as [E | E].
    - rewrite (D2 E). assert (0 <= IZR a) by (apply IZR_le; lia). lra.
    - rewrite (D3 ltac:(lia)). destruct (div_bounds a (FR rate) ltac:(lia) Hr) as [_ B]. apply Rabs_le_inv in B.
      assert (IZR a <= IZR (2 ^ 22)) by (apply IZR_le; lia).
      assert (IZR a * / IZR (2 ^ 24) <= / 4) by (simpl in *; lra). lra. }
  assert (AB : IZR a <= IZR (2 ^ 22)) by (apply IZR_le; lia).
  destruct (rnd_mul_R t rate) as [M1 M2]; auto; try lra.
  { change (bpow radix2 25) with (IZR (2 ^ 25)). simpl in *. lra. }
  destruct (samples_at_spec n (fmul t rate) rp lp) as (i0 & i1 & al & S1 & S2 & S3 & S4 & S5 & S6); auto; try lia.
  { rewrite M2. split.
    - rewrite <- rnd_0. apply rnd_le. apply Rmult_le_pos; lra.
    - unfold a in SI. destruct lp; auto. }
  exists i0, i1, al. unfold find_linear_interpolation_samples_with_sample_rate.
  rewrite M2 in S6. repeat split; auto; try tauto. unfold a in SI. destruct lp; auto.
Qed.

(** clamping: any non-NaN time lands in [0, duration] *)
Lemma fclamp_spec t D : fnan t = false -> ffinite D = true -> 0 <= FR D ->
  ffinite (fclamp t f_zero D) = true /\ 0 <= FR (fclamp t f_zero D) <= FR D /\
  (ffinite t = true -> 0 <= FR t <= FR D -> FR (fclamp t f_zero D) = FR t).
Proof.
  intros Hn HD H0. unfold fclamp.
  assert (G : forall m, ffinite m = true -> 0 <= FR m ->
    ffinite (fmin m D) = true /\ 0 <= FR (fmin m D) <= FR D /\ (FR m <= FR D -> FR (fmin m D) = FR m)).
  { intros m Hm Hm0. unfold fmin. destruct (flt m D) eqn:E.
    - apply flt_R in E; auto. repeat split; auto; lra.
    - apply flt_Rf in E; auto. repeat split; auto; try lra. }
  destruct (ffinite t) eqn:Ft.
  - assert (M : ffinite (fmax t f_zero) = true /\ 0 <= FR (fmax t f_zero) /\ (0 <= FR t -> FR (fmax t f_zero) = FR t)).
    { unfold fmax, fgt. destruct (flt f_zero t) eqn:E.
      - apply flt_R in E; auto using f_zero_fin. rewrite f_zero_R in E. repeat split; auto; lra.
      - apply flt_Rf in E; auto using f_zero_fin. rewrite f_zero_R in *. repeat split; auto; try reflexivity; try lra. }
    destruct M as (M1 & M2 & M3). destruct (G _ M1 M2) as (G1 & G2 & G3).
    repeat split; auto; try tauto. intros _ B. rewrite G3; rewrite M3; tauto.
  - destruct t as [s | s | s pl Hp | s m e Hb]; try discriminate.
    destruct s.
    + assert (E : fmax (Binary.B754_infinity 24 128 true) f_zero = f_zero) by reflexivity.
      rewrite E. destruct (G f_zero f_zero_fin) as (G1 & G2 & _); [rewrite f_zero_R; lra |].
      repeat split; auto; try tauto; discriminate.
    + assert (E : fmax (Binary.B754_infinity 24 128 false) f_zero = Binary.B754_infinity 24 128 false) by reflexivity.
      rewrite E. assert (E2 : fmin (Binary.B754_infinity 24 128 false) D = D).
      { unfold fmin. destruct D as [s | s | s pl Hp | s m e Hb]; try discriminate; destruct s; reflexivity. }
      rewrite E2. repeat split; auto; try lra; discriminate.
Qed.

(** a key frame is selected alone: first of the pair with weight 0 on the second, or second with full weight *)
Definition selects (i0 i1 : N) (alpha : f32) (k : N) : Prop :=
  ffinite alpha = true /\ ((i0 = k /\ FR alpha = 0) \/ (i1 = k /\ FR alpha = 1)).

Lemma nearest_small al : ffinite al = true -> 0 <= FR al <= / 4 ->
  ffinite (apply_rounding_policy al rp_nearest) = true /\ FR (apply_rounding_policy al rp_nearest) = 0.
Proof.
  intros Ha H. destruct (nearest_R al Ha ltac:(lra)) as [A B]. split; [exact A |].
  unfold apply_rounding_policy. rewrite B, nearest_down; auto using FR_f32. simpl. lra.
Qed.

Lemma nearest_large al : ffinite al = true -> / 2 <= FR al <= 1 ->
  ffinite (apply_rounding_policy al rp_nearest) = true /\ FR (apply_rounding_policy al rp_nearest) = 1.
Proof.
  intros Ha H. destruct (nearest_R al Ha ltac:(lra)) as [A B]. split; [exact A |].
  unfold apply_rounding_policy. rewrite B, nearest_up; auto.
Qed.

Lemma fdiv_mono k a rho : (0 <= k <= a)%Z -> (a <= 2 ^ 22)%Z -> ffinite rho = true -> sane (FR rho) ->
  FR (fdiv (f_of_Z k) rho) <= FR (fdiv (f_of_Z a) rho).
Proof.
  intros Hk Ha Hf Hr. pose proof (sane_pos _ Hr) as Hp.
  destruct (fdiv_sane k rho ltac:(lia) Hf Hr) as (K1 & K2 & K3 & K4).
  destruct (fdiv_sane a rho ltac:(lia) Hf Hr) as (A1 & A2 & A3 & A4).
  destruct (Z.eq_dec k 0) as [E | E].
  - rewrite (K2 E). tauto.
  - rewrite (K3 ltac:(lia)), (A3 ltac:(lia)). apply rnd_le.
    unfold Rdiv. apply Rmult_le_compat_r; [left; apply Rinv_0_lt_compat; auto | apply IZR_le; lia].
Qed.

Lemma duration_eq n rate lp : (1 <= n < 2 ^ 22 - 2)%N -> ffinite rate = true -> sane (FR rate) ->
  FR (clip_finite_duration n rate lp) =
  FR (fdiv (f_of_Z (match lp with lp_clamp => Z.of_N (n - 1) | lp_wrap => Z.of_N n end)) rate).
Proof.
  intros Hn Hf Hr.
  destruct (finite_duration_R n rate lp Hn Hf Hr) as (D1 & D2 & D3 & D4).
  set (a := match lp with lp_clamp => Z.of_N (n - 1) | lp_wrap => Z.of_N n end) in *.
  assert (Ba : (0 <= a <= 2 ^ 22)%Z) by (unfold a; destruct lp; lia).
  destruct (fdiv_sane a rate Ba Hf Hr) as (A1 & A2 & A3 & A4).
  destruct (Z.eq_dec a 0) as [E | E].
  - now rewrite (D2 E), (A2 E).
  - now rewrite (D3 ltac:(lia)), (A3 ltac:(lia)).
Qed.

(** Sampling at a key frame's time *)
Lemma key_frame_time n rate lp k t : (1 <= n < 2 ^ 22 - 2)%N -> ffinite rate = true -> sane (FR rate) ->
  (k < n)%N \/ (lp = lp_wrap /\ k = n) -> ffinite t = true -> FR t = FR (fdiv (f_of_N k) rate) ->
  exists i0 i1 al, find_linear_interpolation_samples_with_sample_rate n rate t rp_nearest lp = Ok (i0, i1, al) /\
    selects i0 i1 al (k mod n)%N.
Proof.
  intros Hn Hf Hr Hk Ht Et. pose proof (sane_pos _ Hr) as Hp.
  assert (Kb : (k <= n)%N) by (destruct Hk; lia).
  unfold f_of_N in Et.
  destruct (fdiv_sane (Z.of_N k) rate ltac:(lia) Hf Hr) as (K1 & K2 & K3 & K4).
  rewrite <- Et in *.
  destruct (find_samples_spec n rate t rp_nearest lp Hn Hf Hr Ht) as (i0 & i1 & al & S1 & S2 & S3 & S4 & S5 & S6 & S7).
  { split; [tauto |]. rewrite duration_eq by auto. rewrite Et. apply fdiv_mono; auto; destruct lp; destruct Hk as [Hk | [Hk Hk']]; try lia; discriminate. }
  destruct (index_at (Z.of_N k) (FR rate) (FR t)) as [L U]; auto; try lia.
  exists i0, i1, (apply_rounding_policy al rp_nearest). split; [exact S1 |].
  set (v := rnd (FR t * FR rate)) in *.
  assert (Norm : forall z : Z, (0 <= z)%Z -> IZR z + FR al = v -> z = Zfloor v).
  { intros z Hz E. symmetry. apply Zfloor_eq_bounds. lra. }
  destruct lp.
  - (* clamp *)
    destruct S6 as [E1 E2]. pose proof (Norm (Z.of_N i0) ltac:(lia) E2) as Z0.
    assert (k < n)%N by (destruct Hk as [Hk | [Hk _]]; [auto | discriminate]).
    rewrite N.mod_small by auto.
    destruct (Rlt_or_le v (IZR (Z.of_N k))) as [C | C].
    + (* i0 = k - 1 *)
      assert (Zfloor v = (Z.of_N k - 1)%Z).
      { apply Zfloor_eq_bounds. rewrite minus_IZR. lra. }
      assert (i0 = k - 1 /\ 1 <= k)%N as [-> K1'] by lia.
      assert (EI : IZR (Z.of_N (k - 1)) = IZR (Z.of_N k) - 1).
      { rewrite <- minus_IZR. f_equal. lia. }
      destruct (nearest_large al S2) as [B1 B2]; [lra |].
      split; auto. right. split; auto. lia.
    + assert (Zfloor v = Z.of_N k) by (apply Zfloor_eq_bounds; lra).
      assert (i0 = k) as -> by lia.
      destruct (nearest_small al S2) as [B1 B2]; [lra |].
      split; auto.
  - (* wrap *)
    destruct S6 as [[E1 E2] | (-> & -> & E1 & E2)].
    + pose proof (Norm (Z.of_N i0) ltac:(lia) E2) as Z0.
      destruct (Rlt_or_le v (IZR (Z.of_N k))) as [C | C].
      * assert (Zfloor v = (Z.of_N k - 1)%Z).
        { apply Zfloor_eq_bounds. rewrite minus_IZR. lra. }
        assert (i0 = k - 1 /\ 1 <= k)%N as [-> K1'] by lia.
        assert (EI : IZR (Z.of_N (k - 1)) = IZR (Z.of_N k) - 1).
        { rewrite <- minus_IZR. f_equal. lia. }
        destruct (nearest_large al S2) as [B1 B2]; [lra |].
        split; auto. right. split; auto. rewrite E1. f_equal. lia.
      * assert (Zfloor v = Z.of_N k) by (apply Zfloor_eq_bounds; lra).
        assert (i0 = k) as -> by lia.
        destruct (nearest_small al S2) as [B1 B2]; [lra |].
        split; auto. left. split; auto. rewrite N.mod_small; auto.
    + assert (k = n).
      { assert (IZR (Z.of_N n) < IZR (Z.of_N k) + 1) by lra. rewrite <- plus_IZR in H. apply lt_IZR in H. lia. }
      subst k. rewrite N.mod_same by lia.
      destruct (nearest_small al S2) as [B1 B2]; [lra |]. split; auto.
Qed.

Lemma f_inf_not_fin x : ffinite x = true -> feq x f_inf = false.
Proof. destruct x as [s | s | s pl Hp | s m e Hb]; try discriminate; intros _; destruct s; reflexivity. Qed.

Lemma num_samples_duration n rate : (2 <= n < 2 ^ 22 - 2)%N -> ffinite rate = true -> sane (FR rate) ->
  calculate_num_samples (calculate_duration n rate) rate = Ok n.
Proof.
  intros Hn Hf Hr. pose proof (sane_pos _ Hr) as Hp.
  unfold calculate_duration. destruct (N.eqb_spec n 0); [lia |]. destruct (N.eqb_spec n 1); [lia |].
  unfold f_of_N. destruct (fdiv_sane (Z.of_N (n - 1)) rate ltac:(lia) Hf Hr) as (K1 & K2 & K3 & K4).
  specialize (K3 ltac:(lia)).
  set (D := fdiv (f_of_Z (Z.of_N (n - 1))) rate) in *.
  destruct (div_bounds (Z.of_N (n - 1)) (FR rate) ltac:(lia) Hr) as [[B1 _] B2]. rewrite <- K3 in B1, B2.
  apply Rabs_le_inv in B2.
  assert (AB : IZR (Z.of_N (n - 1)) <= IZR (2 ^ 22)) by (apply IZR_le; lia).
  destruct (rnd_mul_R D rate) as [M1 M2]; auto.
  { change (bpow radix2 25) with (IZR (2 ^ 25)). simpl in *. lra. }
  destruct (index_at (Z.of_N (n - 1)) (FR rate) (FR D)) as [L U]; auto; try lia.
  unfold calculate_num_samples.
  assert (E0 : feq D f_zero = false).
  { destruct (feq D f_zero) eqn:E; auto. apply feq_R in E; auto using f_zero_fin. rewrite f_zero_R in E. lra. }
  rewrite E0, (f_inf_not_fin D K1).
  set (p := fmul D rate) in *.
  destruct (fadd_R p f_half M1 f_half_fin) as [F1 F2].
  { rewrite f_half_R, M2. assert (0 <= IZR (Z.of_N (n - 1))) by (apply IZR_le; lia).
    apply small_fbig' with (2 ^ 23)%Z; [split; vm_compute; discriminate | simpl in *; lra]. }
  rewrite f_half_R, M2 in F2.
  destruct (ffloor_R _ F1) as [G1 G2]. rewrite F2 in G2.
  assert (Zfloor (rnd (rnd (FR D * FR rate) + / 2)) = Z.of_N (n - 1)) as EZ.
  { apply Zfloor_eq_bounds.
    set (a := Z.of_N (n - 1)) in *.
    split.
    - apply rnd_ge_f; [apply f32_int; lia | lra].
    - apply Rle_lt_trans with (IZR a + IZR 3 / 4); [| simpl; lra].
      apply rnd_le_f; [apply quarter_off; lia | simpl; lra]. }
  rewrite EZ in G2.
  rewrite (f_to_u32_int _ _ G1 G2); [| lia]. cbn [bindo]. f_equal.
  unfold wrapw. rewrite N.mod_small; [lia |]. apply N.le_lt_trans with (2 ^ 22 + 1)%N; [lia | reflexivity].
Qed.

(** find_linear_interpolation_alpha *)
Lemma alpha_range si i0 i1 rp : (i0 <= i1 <= 2 ^ 24)%N -> ffinite si = true ->
  IZR (Z.of_N i0) <= FR si <= IZR (Z.of_N i1) ->
  exists al, ffinite al = true /\ 0 <= FR al <= 1 /\
    find_linear_interpolation_alpha si i0 i1 rp =
      (match rp with rp_nearest => if (i0 =? i1)%N then f_zero else apply_rounding_policy al rp
                   | _ => apply_rounding_policy al rp end) /\
    (i0 <> i1 -> FR al = rnd (rnd (FR si - IZR (Z.of_N i0)) / IZR (Z.of_N (i1 - i0)))) /\
    (i0 = i1 -> FR al = 0).
Proof.
  intros Hi Hs H.
  destruct (f_of_N_exact i0) as [Z1 Z2]; [lia |].
  destruct (f_of_N_exact (i1 - i0)) as [Y1 Y2]; [lia |].
  assert (B1 : IZR (Z.of_N i1) <= IZR (2 ^ 24)) by (apply IZR_le; lia).
  assert (B0 : 0 <= IZR (Z.of_N i0)) by (apply IZR_le; lia).
  destruct (N.eq_dec i0 i1) as [E | E].
  - exists f_zero. rewrite f_zero_R. repeat split; auto; try lra; try tauto.
    unfold find_linear_interpolation_alpha. assert (E' : (i0 =? i1)%N = true) by (apply N.eqb_eq; auto). rewrite E'.
    destruct rp; reflexivity.
  - destruct (fsub_R si (f_of_N i0) Hs Z1) as [S1 S2].
    { rewrite Z2. apply small_fbig' with (2 ^ 24)%Z; [split; vm_compute; discriminate | simpl in *; lra]. }
    rewrite Z2 in S2.
    assert (DI : IZR (Z.of_N (i1 - i0)) = IZR (Z.of_N i1) - IZR (Z.of_N i0)).
    { rewrite <- minus_IZR. f_equal. lia. }
    assert (P : 1 <= IZR (Z.of_N (i1 - i0))) by (apply IZR_le; lia).
    assert (SB : 0 <= FR (fsub si (f_of_N i0)) <= IZR (Z.of_N (i1 - i0))).
    { rewrite S2. split.
      - rewrite <- rnd_0. apply rnd_le. lra.
      - apply rnd_le_f; [apply f32_int; lia | lra]. }
    assert (Pi : 0 < / IZR (Z.of_N (i1 - i0))) by (apply Rinv_0_lt_compat; lra).
    assert (QB : 0 <= FR (fsub si (f_of_N i0)) / IZR (Z.of_N (i1 - i0)) <= 1).
    { split; [apply Rmult_le_pos; lra |].
      apply Rmult_le_reg_r with (IZR (Z.of_N (i1 - i0))); [lra |].
      unfold Rdiv. rewrite Rmult_assoc, Rinv_l by lra. lra. }
    destruct (fdiv_R (fsub si (f_of_N i0)) (f_of_N (i1 - i0)) S1) as [D1 D2].
    { rewrite Y2. lra. }
    { rewrite Y2. apply small_fbig' with 1%Z; [split; vm_compute; discriminate | simpl; lra]. }
    rewrite Y2 in D2.
    exists (fdiv (fsub si (f_of_N i0)) (f_of_N (i1 - i0))).
    split; auto. rewrite D2. split.
    { split.
      - rewrite <- rnd_0. apply rnd_le. lra.
      - apply rnd_le_f; [apply (f32_int 1); vm_compute; discriminate | lra]. }
    split; [| split].
    + unfold find_linear_interpolation_alpha. assert (E' : (i0 =? i1)%N = false) by (apply N.eqb_neq; auto). rewrite E'.
      assert (L : (i0 <? i1)%N = true) by (apply N.ltb_lt; lia). rewrite L. destruct rp; reflexivity.
    + intros _. now rewrite S2.
    + tauto.
Qed.

Lemma alpha_ends i0 i1 si rp : (i0 < i1 <= 2 ^ 24)%N -> ffinite si = true -> rp = rp_none \/ rp = rp_per_track ->
  (FR si = IZR (Z.of_N i0) -> FR (find_linear_interpolation_alpha si i0 i1 rp) = 0) /\
  (FR si = IZR (Z.of_N i1) -> FR (find_linear_interpolation_alpha si i0 i1 rp) = 1).
Proof.
  intros Hi Hs Hrp.
  assert (B : IZR (Z.of_N i0) < IZR (Z.of_N i1)) by (apply IZR_lt; lia).
  assert (DI : IZR (Z.of_N (i1 - i0)) = IZR (Z.of_N i1) - IZR (Z.of_N i0)).
  { rewrite <- minus_IZR. f_equal. lia. }
  split; intros E; destruct (alpha_range si i0 i1 rp ltac:(lia) Hs ltac:(lra)) as (al & A1 & A2 & A3 & A4 & _);
    rewrite A3; (replace (match rp with rp_nearest => _ | _ => _ end) with al by (destruct Hrp as [-> | ->]; reflexivity));
    rewrite (A4 ltac:(lia)), E.
  - replace (IZR (Z.of_N i0) - IZR (Z.of_N i0)) with 0 by lra. rewrite rnd_0.
    replace (0 / IZR (Z.of_N (i1 - i0))) with 0 by (unfold Rdiv; ring). apply rnd_0.
  - rewrite <- DI. rewrite (rnd_id (IZR (Z.of_N (i1 - i0)))) by (apply f32_int; lia).
    replace (IZR (Z.of_N (i1 - i0)) / IZR (Z.of_N (i1 - i0))) with 1 by (field; lra).
    apply rnd_id. apply (f32_int 1). vm_compute. discriminate.
Qed.

(** with_duration variant *)
Lemma find_samples_duration_spec n d t rp lp : (1 <= n < 2 ^ 22 - 2)%N -> ffinite d = true ->
  (FR d = 0 \/ sane (FR d)) -> ffinite t = true -> 0 <= FR t <= FR d ->
  exists i0 i1 al rate,
    find_linear_interpolation_samples_with_duration n d t rp lp = Ok (i0, i1, apply_rounding_policy al rp) /\
    ffinite al = true /\ 0 <= FR al < 1 /\ (i0 < n)%N /\ (i1 < n)%N /\
    (FR d = 0 -> rate = 0) /\
    (sane (FR d) -> Rabs (rate * FR d - match lp with lp_clamp => IZR (Z.of_N (n - 1)) | lp_wrap => IZR (Z.of_N n) end)
       <= IZR (Z.of_N n) * / IZR (2 ^ 24)) /\
    match lp with
    | lp_clamp => i1 = N.min (i0 + 1) (n - 1) /\ IZR (Z.of_N i0) + FR al = rnd (FR t * rate)
    | lp_wrap => (i1 = ((i0 + 1) mod n)%N /\ IZR (Z.of_N i0) + FR al = rnd (FR t * rate)) \/
                 (i0 = 0%N /\ i1 = 0%N /\ FR al = 0 /\ IZR (Z.of_N n) <= rnd (FR t * rate))
    end.
Proof.
  intros Hn Hd Hsd Ht H.
  set (a := match lp with lp_clamp => Z.of_N (n - 1) | lp_wrap => Z.of_N n end).
  assert (Ba : (0 <= a < 2 ^ 22 - 1)%Z) by (unfold a; destruct lp; lia).
  set (rate := if feq d f_zero then f_zero else fdiv (f_of_Z a) d).
  assert (Unf : find_linear_interpolation_samples_with_duration n d t rp lp = samples_at n (fmul t rate) rp lp).
  { unfold find_linear_interpolation_samples_with_duration, rate, f_of_N, a. destruct lp; reflexivity. }
  assert (AN : IZR a <= IZR (Z.of_N n)) by (apply IZR_le; unfold a; destruct lp; lia).
  assert (A0 : 0 <= IZR a <= IZR (2 ^ 22)) by (split; apply IZR_le; lia).
  assert (NB : 1 <= IZR (Z.of_N n)) by (apply IZR_le; lia).
  assert (P : ffinite rate = true /\ 0 <= FR rate /\ (FR d = 0 -> FR rate = 0) /\
    (sane (FR d) -> Rabs (FR rate * FR d - IZR a) <= IZR (Z.of_N n) * / IZR (2 ^ 24)) /\
    FR t * FR rate <= IZR a + / 4).
  { destruct Hsd as [E | Hr].
    - assert (Z : feq d f_zero = true) by (apply feq_R; auto using f_zero_fin).
      unfold rate. rewrite Z, f_zero_R. repeat split; auto; try lra.
      intros S. apply sane_pos in S. lra.
    - pose proof (sane_pos _ Hr) as Hp.
      assert (Z : feq d f_zero = false).
      { destruct (feq d f_zero) eqn:E; auto. apply feq_R in E; auto using f_zero_fin. rewrite f_zero_R in E. lra. }
      unfold rate. rewrite Z. destruct (fdiv_sane a d ltac:(lia) Hd Hr) as (K1 & K2 & K3 & K4).
      assert (Err : Rabs (FR (fdiv (f_of_Z a) d) * FR d - IZR a) <= IZR a * / IZR (2 ^ 24)).
      { destruct (Z.eq_dec a 0) as [E | E].
        - rewrite (K2 E), E. replace (0 * FR d - 0) with 0 by ring. rewrite Rabs_R0. lra.
        - rewrite (K3 ltac:(lia)). destruct (div_bounds a (FR d) ltac:(lia) Hr) as [_ B]. exact B. }
      assert (IZR a * / IZR (2 ^ 24) <= / 4) by (simpl in *; lra).
      assert (TT : FR t * FR (fdiv (f_of_Z a) d) <= FR (fdiv (f_of_Z a) d) * FR d).
      { rewrite Rmult_comm. apply Rmult_le_compat_l; tauto. }
      split; [exact K1 |]. split; [tauto |]. split; [intros; lra |]. split.
      + intros _. apply Rle_trans with (1 := Err). apply Rmult_le_compat_r; [simpl; lra | auto].
      + apply Rabs_le_inv in Err. lra. }
  destruct P as (P1 & P2 & P3 & P4 & P5).
  assert (TR : 0 <= FR t * FR rate) by (apply Rmult_le_pos; lra).
  destruct (fmul_R t rate Ht P1) as [M1 M2].
  { apply small_fbig' with (2 ^ 23)%Z; [split; vm_compute; discriminate | simpl in *; lra]. }
  destruct (samples_at_spec n (fmul t rate) rp lp) as (i0 & i1 & al & S1 & S2 & S3 & S4 & S5 & S6); auto; try lia.
  { rewrite M2. split; [rewrite <- rnd_0; apply rnd_le; auto |].
    apply Rle_trans with (IZR a + IZR 1 / 4); [| unfold a; destruct lp; simpl; lra].
    apply rnd_le_f; [apply quarter_off; lia | simpl; lra]. }
  exists i0, i1, al, (FR rate). rewrite Unf. rewrite M2 in S6.
  split; [exact S1 |]. repeat split; auto; try tauto.
  unfold a in P4. destruct lp; auto.
Qed.

(** rounding policies *)
Lemma pred_half_bits x : ffinite x = true -> FR x = / 2 - bpow radix2 (-25) -> x = f_of_bits 0x3EFFFFFF.
Proof.
  intros Hx E. apply f32_eq; auto.
  - rewrite E. unfold FR. vm_compute. lra.
  - replace (Binary.Bsign 24 128 (f_of_bits 0x3EFFFFFF)) with false by (vm_compute; reflexivity).
    destruct x as [s | s | s pl Hp | s m e Hb]; try discriminate.
    + exfalso. unfold FR in E. simpl in E. lra.
    + destruct s; auto. exfalso. unfold FR in E. simpl Binary.B2R in E.
      assert (Hneg : F2R (beta := radix2) {| Fnum := Z.neg m; Fexp := e |} < 0) by (apply F2R_lt_0; reflexivity).
      rewrite E in Hneg. simpl in Hneg. lra.
Qed.

Lemma rounding_spec al rp : ffinite al = true -> 0 <= FR al <= 1 ->
  let r := apply_rounding_policy al rp in
  ffinite r = true /\ 0 <= FR r <= 1 /\
  match rp with
  | rp_none | rp_per_track => r = al
  | rp_floor => FR r = 0
  | rp_ceil => FR r = 1
  | rp_nearest => (/ 2 <= FR al -> FR r = 1) /\ (FR al < / 2 -> al <> f_of_bits 0x3EFFFFFF -> FR r = 0) /\ (FR r = 0 \/ FR r = 1)
  end.
Proof.
  intros Ha H r. unfold r. destruct rp; cbn [apply_rounding_policy].
  - repeat split; auto; lra.
  - rewrite f_zero_R. repeat split; auto; lra.
  - rewrite f_one_R. repeat split; auto; lra.
  - destruct (nearest_R al Ha H) as [A B].
    assert (C : Zfloor (rnd (FR al + / 2)) = 0%Z \/ Zfloor (rnd (FR al + / 2)) = 1%Z).
    { assert (0 <= rnd (FR al + / 2)) by (rewrite <- rnd_0; apply rnd_le; lra).
      assert (rnd (FR al + / 2) <= IZR 3 / 2) by (apply rnd_le_f; [apply f32_half_int; vm_compute; reflexivity | lra]).
      assert (0 <= Zfloor (rnd (FR al + / 2)))%Z by (apply Zfloor_lub; simpl; lra).
      assert (Zfloor (rnd (FR al + / 2)) < 2)%Z; [| lia].
      apply lt_IZR. apply Rle_lt_trans with (rnd (FR al + / 2)); [apply Zfloor_lb | simpl; lra]. }
    split; auto. rewrite B. split; [destruct C as [-> | ->]; simpl; lra |].
    split; [| split].
    + intros. rewrite nearest_up; auto. lra.
    + intros L NE. rewrite nearest_down; auto using FR_f32. split; [lra |].
      destruct (Rle_lt_or_eq_dec _ _ (below_half (FR al) (FR_f32 al) L)) as [S | S]; auto.
      exfalso. apply NE. apply pred_half_bits; auto.
    + destruct C as [-> | ->]; simpl; auto.
  - repeat split; auto; lra.
Qed.

Lemma rounding_idem al rp : ffinite al = true -> 0 <= FR al <= 1 ->
  apply_rounding_policy (apply_rounding_policy al rp) rp = apply_rounding_policy al rp.
Proof.
  intros Ha H. destruct rp; try reflexivity.
  destruct (rounding_spec al rp_nearest Ha H) as (A & B & _ & _ & C).
  cbn [apply_rounding_policy] in *. set (r := ffloor (fadd al f_half)) in *.
  destruct (nearest_R r A B) as [A' B'].
  apply f32_eq; auto.
  - rewrite B'. destruct C as [-> | ->].
    + rewrite nearest_down; [reflexivity | apply generic_format_0 | simpl; lra].
    + rewrite nearest_up; auto. lra.
  - (* both are positive or zero with a clear sign *)
    assert (Sg : forall a, ffinite a = true -> 0 <= FR a <= 1 -> Binary.Bsign 24 128 (ffloor (fadd a f_half)) = false).
    { intros a Fa Ra. destruct (fadd_R a f_half Fa f_half_fin) as [F1 F2].
      { rewrite f_half_R. apply small_fbig' with 2%Z; [split; vm_compute; discriminate | simpl; lra]. }
      rewrite ffloor_sign by auto.
      destruct (fadd a f_half) as [s | s | s pl Hp | s m e Hb] eqn:E; try discriminate.
      - exfalso. rewrite f_half_R in F2. unfold FR at 1 in F2. simpl in F2.
        assert (/ 2 <= rnd (FR a + / 2)).
        { apply rnd_ge_f; [| lra]. replace (/ 2) with (IZR 1 / 2) by lra. apply f32_half_int. vm_compute. reflexivity. }
        lra.
      - destruct s; auto. exfalso.
        assert (Binary.B2R 24 128 (Binary.B754_finite 24 128 true m e Hb) < 0) by (apply F2R_lt_0; reflexivity).
        unfold FR at 1 in F2. rewrite f_half_R in F2.
        assert (0 <= rnd (FR a + / 2)) by (rewrite <- rnd_0; apply rnd_le; lra). lra. }
    rewrite (Sg r A B). unfold r. rewrite (Sg al Ha H). reflexivity.
Qed.
