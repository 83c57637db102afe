(** Facts about normalized scalar quantization. *)
From Coq Require Import ZArith NArith Bool Reals Lra Lia List.
From Flocq Require Import Core IEEE754.Binary IEEE754.Bits IEEE754.BinarySingleNaN.
From Verif Require Import Word Float32 Float32Facts Quant.
Local Open Scope R_scope.

Definition Mz (n : N) : Z := (2 ^ Z.of_N n - 1)%Z.

Lemma max_value_eq n : (1 <= n <= 30)%N -> max_value n = (2 ^ n - 1)%N.
Proof.
  intros H. unfold max_value, wrapw. rewrite N.mod_small; auto. apply N.pow_lt_mono_r; lia.
Qed.

Lemma max_value_Z n : (1 <= n <= 30)%N -> Z.of_N (max_value n) = Mz n.
Proof.
  intros H. rewrite max_value_eq by auto. unfold Mz.
  assert (0 < 2 ^ n)%N by (apply N.neq_0_lt_0, N.pow_nonzero; lia).
  rewrite N2Z.inj_sub by lia. rewrite N2Z.inj_pow. reflexivity.
Qed.

Lemma Mz_bounds n : (1 <= n <= 23)%N -> (1 <= Mz n < 2 ^ 23)%Z.
Proof.
  intros H. unfold Mz.
  assert (2 ^ 1 <= 2 ^ Z.of_N n)%Z by (apply Z.pow_le_mono_r; lia).
  assert (2 ^ Z.of_N n <= 2 ^ 23)%Z by (apply Z.pow_le_mono_r; lia). lia.
Qed.

Lemma maxf_R n : (1 <= n <= 23)%N ->
  ffinite (f_of_N (max_value n)) = true /\ FR (f_of_N (max_value n)) = IZR (Mz n).
Proof.
  intros H. pose proof (Mz_bounds n H). unfold f_of_N. rewrite max_value_Z by lia. apply f_of_Z_exact. lia.
Qed.

(** exact enclosure of the reciprocal constants, checked for each of the 23 widths by computation *)
Definition inv_check (n : N) : bool :=
  match inv_max_value n with
  | Binary.B754_finite _ _ false m e _ =>
      let q := (2 ^ (- e))%Z in
      let d := (Z.abs (Zpos m * Mz n - q))%Z in
      ((e <=? 0) && (d * 2 ^ 24 <? q) && (if (22 <=? n)%N then d * 2 ^ 40 <=? q else true) &&
       (if (13 <=? n)%N then Zpos m * Mz n <=? q else true))%Z
  | _ => false
  end.

Lemma inv_check_all : forallb inv_check (map N.of_nat (seq 1 23)) = true.
Proof. vm_compute. reflexivity. Qed.

Lemma inv_check_n n : (1 <= n <= 23)%N -> inv_check n = true.
Proof.
  intros H. pose proof inv_check_all as A. rewrite forallb_forall in A. apply A.
  rewrite in_map_iff. exists (N.to_nat n). split; [lia |]. apply in_seq. lia.
Qed.

Lemma p40 : bpow radix2 (-40) = / 2 ^ 40. Proof. simpl. lra. Qed.

Lemma inv_R n : (1 <= n <= 23)%N ->
  ffinite (inv_max_value n) = true /\
  0 < FR (inv_max_value n) /\
  Rabs (FR (inv_max_value n) * IZR (Mz n) - 1) < / IZR (2 ^ 24) /\
  ((22 <= n)%N -> Rabs (FR (inv_max_value n) * IZR (Mz n) - 1) <= / IZR (2 ^ 40)) /\
  ((13 <= n)%N -> FR (inv_max_value n) * IZR (Mz n) <= 1).
Proof.
  intros H. pose proof (inv_check_n n H) as C. unfold inv_check in C.
  destruct (inv_max_value n) as [s | s | s pl Hp | s m e Hb]; try discriminate.
  destruct s; try discriminate.
  rewrite !andb_true_iff in C. destruct C as (((C1 & C2) & C3) & C4).
  apply Z.leb_le in C1. apply Z.ltb_lt in C2.
  assert (V : FR (Binary.B754_finite 24 128 false m e Hb) = IZR (Zpos m) / IZR (2 ^ (- e))).
  { unfold FR, Binary.B2R, F2R. simpl Fnum. simpl Fexp. unfold Rdiv. f_equal.
    rewrite <- (Z.opp_involutive e) at 1. rewrite bpow_opp. f_equal. rewrite <- IZR_Zpower by lia. reflexivity. }
  assert (Q : (0 < 2 ^ (- e))%Z) by (apply Z.pow_pos_nonneg; lia).
  set (q := (2 ^ (- e))%Z) in *.
  assert (Qr : 0 < IZR q) by (apply IZR_lt; lia).
  assert (D : IZR (Zpos m) / IZR q * IZR (Mz n) - 1 = IZR (Zpos m * Mz n - q) / IZR q).
  { rewrite minus_IZR, mult_IZR. field. lra. }
  assert (Qi : 0 < / IZR q) by (apply Rinv_0_lt_compat; lra).
  split; [reflexivity |].
  rewrite V. split.
  { apply Rdiv_lt_0_compat; auto. apply IZR_lt. lia. }
  assert (AB : Rabs (IZR (Zpos m) / IZR q * IZR (Mz n) - 1) = IZR (Z.abs (Zpos m * Mz n - q)) / IZR q).
  { rewrite D, abs_IZR. unfold Rdiv. rewrite Rabs_mult. f_equal. apply Rabs_pos_eq. lra. }
  split; [| split].
  - rewrite AB. apply Rmult_lt_reg_r with (IZR q); auto. unfold Rdiv. rewrite Rmult_assoc, Rinv_l by lra.
    apply Rmult_lt_reg_r with (IZR (2 ^ 24)). { apply IZR_lt; lia. }
    replace (/ IZR (2 ^ 24) * IZR q * IZR (2 ^ 24)) with (IZR q).
    + rewrite Rmult_1_r, <- mult_IZR. apply IZR_lt. exact C2.
    + field. apply IZR_neq. lia.
  - intros Hn. assert (E : (22 <=? n)%N = true) by (apply N.leb_le; auto). rewrite E in C3. apply Z.leb_le in C3.
    rewrite AB. apply Rmult_le_reg_r with (IZR q); auto. unfold Rdiv. rewrite Rmult_assoc, Rinv_l by lra.
    apply Rmult_le_reg_r with (IZR (2 ^ 40)). { apply IZR_lt; lia. }
    replace (/ IZR (2 ^ 40) * IZR q * IZR (2 ^ 40)) with (IZR q).
    + rewrite Rmult_1_r, <- mult_IZR. apply IZR_le. exact C3.
    + field. apply IZR_neq. lia.
  - intros Hn. assert (E : (13 <=? n)%N = true) by (apply N.leb_le; auto). rewrite E in C4. apply Z.leb_le in C4.
    replace (IZR (Zpos m) / IZR q * IZR (Mz n)) with (IZR (Zpos m * Mz n) / IZR q).
    + apply Rmult_le_reg_r with (IZR q); auto. unfold Rdiv. rewrite Rmult_assoc, Rinv_l by lra.
      rewrite Rmult_1_r, Rmult_1_l. apply IZR_le. exact C4.
    + rewrite mult_IZR. field. lra.
Qed.

Lemma small_fbig r : Rabs r <= bpow radix2 100 -> Rabs r <= fbig.
Proof. intros H. apply Rle_trans with (1 := H). apply bpow_le. lia. Qed.

Lemma small_fbig' r z : (0 <= z <= 2 ^ 100)%Z -> - IZR z <= r <= IZR z -> Rabs r <= fbig.
Proof.
  intros Hz H. apply small_fbig. apply Rle_trans with (IZR z).
  - apply Rabs_le. lra.
  - change (bpow radix2 100) with (IZR (2 ^ 100)). apply IZR_le. lia.
Qed.

(** the rounding done by round_symmetric + truncation: floor(rnd(y + 1/2)) *)
Lemma round_symmetric_u32 y : ffinite y = true -> 0 <= FR y <= IZR (2 ^ 24) ->
  let s := rnd (FR y + / 2) in
  0 <= s <= IZR (2 ^ 25) /\
  ffinite (fround_symmetric y) = true /\ FR (fround_symmetric y) = IZR (Zfloor s) /\
  f_to_u32 (fround_symmetric y) = Ok (Z.to_N (Zfloor s)).
Proof.
  intros Hy R0 s.
  assert (Bs : 0 <= s <= IZR (2 ^ 25)).
  { subst s. split.
    - rewrite <- rnd_0. apply rnd_le. lra.
    - apply rnd_le_f. { change (IZR (2 ^ 25)) with (bpow radix2 25). apply f32_pow. lia. }
      assert (IZR (2 ^ 24) + / 2 <= IZR (2 ^ 25)) by (simpl; lra). lra. }
  assert (G : fge y f_zero = true).
  { unfold fge. apply fle_R; auto using f_zero_fin. rewrite f_zero_R. lra. }
  assert (E : fround_symmetric y = ffloor (fadd y f_half)) by (unfold fround_symmetric; now rewrite G).
  destruct (fadd_R y f_half Hy f_half_fin) as [F1 F2].
  { rewrite f_half_R. apply small_fbig' with (2 ^ 25)%Z; [split; vm_compute; discriminate | simpl in *; lra]. }
  rewrite f_half_R in F2.
  destruct (ffloor_R _ F1) as [F3 F4]. rewrite F2 in F4. fold s in F4.
  rewrite E. repeat split; auto; try tauto.
  apply f_to_u32_int; auto. split.
  - apply Zfloor_lub. simpl. lra.
  - assert (Zfloor s < 2 ^ 25 + 1)%Z; [| lia].
    apply lt_IZR. apply Rle_lt_trans with s; [apply Zfloor_lb | rewrite plus_IZR; lra].
Qed.

(** x * max, for normalized x *)
Lemma scaled_R x n : (1 <= n <= 23)%N -> ffinite x = true -> 0 <= FR x <= 1 ->
  let y := fmul x (f_of_N (max_value n)) in
  ffinite y = true /\ FR y = rnd (FR x * IZR (Mz n)) /\ 0 <= FR y <= IZR (Mz n).
Proof.
  intros Hn Hx Rx y. destruct (maxf_R n Hn) as [M1 M2]. pose proof (Mz_bounds n Hn) as MB.
  assert (MR : 1 <= IZR (Mz n)) by (apply IZR_le; lia).
  assert (P : 0 <= FR x * IZR (Mz n) <= IZR (Mz n)) by nra.
  destruct (fmul_R x (f_of_N (max_value n)) Hx M1) as [F1 F2].
  { rewrite M2. apply small_fbig' with (Mz n); [split; [lia | apply Z.le_trans with (2 ^ 23)%Z; [lia | vm_compute; discriminate]] | lra]. }
  rewrite M2 in F2. fold y in F1, F2. split; auto. split; auto. rewrite F2. split.
  - rewrite <- rnd_0. apply rnd_le. lra.
  - apply rnd_le_f; [| lra]. apply f32_int. lia.
Qed.

Lemma Zfloor_eq_bounds z r : IZR z <= r < IZR z + 1 -> Zfloor r = z.
Proof. intros. apply Zfloor_imp. rewrite plus_IZR. lra. Qed.

Theorem pack_range x n : (1 <= n <= 23)%N -> ffinite x = true -> 0 <= FR x <= 1 ->
  exists k, pack_scalar_unsigned x n = Ok k /\ (k <= max_value n)%N.
Proof.
  intros Hn Hx Rx. destruct (scaled_R x n Hn Hx Rx) as (Y1 & Y2 & Y3). pose proof (Mz_bounds n Hn) as MB.
  set (y := fmul x (f_of_N (max_value n))) in *.
  assert (R2 : IZR (Mz n) <= IZR (2 ^ 24)) by (apply IZR_le; lia).
  destruct (round_symmetric_u32 y Y1) as (S1 & S2 & S3 & S4); [lra |].
  unfold pack_scalar_unsigned. fold y. eexists. split; [exact S4 |].
  assert (Zfloor (rnd (FR y + / 2)) <= Mz n)%Z.
  { assert (Zfloor (rnd (FR y + / 2)) < Mz n + 1)%Z; [| lia].
    apply lt_IZR. apply Rle_lt_trans with (rnd (FR y + / 2)); [apply Zfloor_lb |].
    apply Rle_lt_trans with (IZR (2 * Mz n + 1) / 2).
    - apply rnd_le_f. { apply f32_half_int. lia. } rewrite plus_IZR, mult_IZR. lra.
    - rewrite !plus_IZR, mult_IZR. lra. }
  rewrite <- max_value_Z in H by lia.
  assert (0 <= Zfloor (rnd (FR y + / 2)))%Z by (apply Zfloor_lub; simpl; lra). lia.
Qed.

Lemma unpack_R k n : (1 <= n <= 23)%N -> (k <= max_value n)%N ->
  let u := unpack_scalar_unsigned k n in
  ffinite u = true /\ FR u = rnd (IZR (Z.of_N k) * FR (inv_max_value n)) /\
  (IZR (Z.of_N k) * FR (inv_max_value n) < 1 + / IZR (2 ^ 24)) /\ 0 <= FR u <= 1.
Proof.
  intros Hn Hk u. destruct (inv_R n Hn) as (I1 & I2 & I3 & _). pose proof (Mz_bounds n Hn) as MB.
  rewrite <- (max_value_Z n) in I3 by lia.
  assert (KZ : (0 <= Z.of_N k <= Z.of_N (max_value n))%Z) by lia.
  pose proof (max_value_Z n ltac:(lia)) as MZ.
  destruct (f_of_N_exact k) as [K1 K2]; [lia |].
  assert (KR : 0 <= IZR (Z.of_N k) <= IZR (Z.of_N (max_value n))) by (split; apply IZR_le; lia).
  apply Rabs_def2 in I3.
  assert (P : 0 <= IZR (Z.of_N k) * FR (inv_max_value n) < 1 + / IZR (2 ^ 24)).
  { split; [apply Rmult_le_pos; lra |].
    apply Rle_lt_trans with (IZR (Z.of_N (max_value n)) * FR (inv_max_value n)).
    - apply Rmult_le_compat_r; lra.
    - lra. }
  destruct (fmul_R (f_of_N k) (inv_max_value n) K1 I1) as [F1 F2].
  { rewrite K2. apply small_fbig' with 2%Z; [split; vm_compute; discriminate | simpl in *; lra]. }
  rewrite K2 in F2. change (fmul (f_of_N k) (inv_max_value n)) with u in F1, F2.
  split; auto. split; auto. split; [tauto |]. rewrite F2. split.
  - rewrite <- rnd_0. apply rnd_le. lra.
  - apply round_N_le_midp; auto using fexp32_valid.
    + apply (f32_int 1). vm_compute. discriminate.
    + apply Rlt_le_trans with (1 + / IZR (2 ^ 24)); [tauto |].
      assert (U : ulp radix2 fexp32 1 = bpow radix2 (-23)).
      { change 1 with (bpow radix2 0). rewrite ulp_bpow. reflexivity. }
      rewrite succ_eq_pos by lra. rewrite U. simpl. lra.
Qed.

Lemma mul_bound a b A B : - A <= a <= A -> 0 <= b <= B -> 0 <= A -> - (A * B) <= a * b <= A * B.
Proof. intros. assert (0 <= B) by lra. split; nra. Qed.
Lemma mul_bound' a b A B : - A <= a <= A -> 0 <= b <= B -> 0 <= A -> - (A * B) <= b * a <= A * B.
Proof. intros. rewrite (Rmult_comm b a). now apply mul_bound. Qed.

Theorem unpack_pack_error x n : (1 <= n <= 23)%N -> ffinite x = true -> 0 <= FR x <= 1 ->
  exists k, pack_scalar_unsigned x n = Ok k /\
    Rabs (FR (unpack_scalar_unsigned k n) - FR x) <= / (2 * IZR (Mz n)) + / IZR (2 ^ 22).
Proof.
  intros Hn Hx Rx. destruct (pack_range x n Hn Hx Rx) as (k & Hk & Lk). exists k. split; auto.
  destruct (scaled_R x n Hn Hx Rx) as (Y1 & Y2 & Y3). pose proof (Mz_bounds n Hn) as MB.
  unfold pack_scalar_unsigned in Hk.
  set (y := fmul x (f_of_N (max_value n))) in *.
  assert (R2 : 1 <= IZR (Mz n) <= IZR (2 ^ 24)) by (split; apply IZR_le; lia).
  destruct (round_symmetric_u32 y Y1) as (S1 & S2 & S3 & S4); [lra |].
  rewrite S4 in Hk. injection Hk as <-.
  set (s := rnd (FR y + / 2)) in *.
  assert (KZ : Z.of_N (Z.to_N (Zfloor s)) = Zfloor s).
  { apply Z2N.id. apply Zfloor_lub. simpl. lra. }
  destruct (unpack_R _ n Hn Lk) as (U1 & U2 & U3 & U4).
  rewrite KZ in *.
  destruct (inv_R n Hn) as (I1 & I2 & I3 & _).
  set (i := FR (inv_max_value n)) in *. set (M := IZR (Mz n)) in *. set (K := IZR (Zfloor s)) in *.
  set (w := unpack_scalar_unsigned (Z.to_N (Zfloor s)) n) in *.
  (* error of the two roundings before the floor *)
  assert (Pn : M + 1 = bpow radix2 (Z.of_N n)).
  { unfold M, Mz. rewrite minus_IZR. rewrite <- IZR_Zpower by lia. simpl radix_val. lra. }
  assert (E1 : Rabs (FR y - FR x * M) <= bpow radix2 (Z.of_N n - 25)).
  { rewrite Y2. apply rnd_err_ulp; [| lia]. rewrite Rabs_pos_eq by nra. rewrite <- Pn. nra. }
  assert (E2 : Rabs (s - (FR y + / 2)) <= bpow radix2 (Z.of_N n - 25)).
  { apply rnd_err_ulp; [| lia]. rewrite Rabs_pos_eq by lra. rewrite <- Pn. lra. }
  assert (Pn2 : bpow radix2 (Z.of_N n - 25) = (M + 1) * / IZR (2 ^ 25)).
  { rewrite Pn. unfold Zminus. rewrite bpow_plus. reflexivity. }
  rewrite Pn2 in E1, E2.
  assert (K1 : K <= s < K + 1). { split; [apply Zfloor_lb | apply Zfloor_ub]. }
  apply Rabs_le_inv in E1. apply Rabs_le_inv in E2.
  assert (EK : Rabs (K - FR x * M) <= / 2 + M * / IZR (2 ^ 23)).
  { apply Rabs_le. simpl in *. lra. }
  (* K <= M *)
  assert (KM : 0 <= K <= M).
  { split.
    - apply IZR_le. apply Zfloor_lub. simpl. lra.
    - unfold M, K. apply IZR_le. rewrite <- max_value_Z by lia. lia. }
  (* unpack *)
  assert (E3 : Rabs (FR w - K * i) <= / IZR (2 ^ 24)).
  { rewrite U2. apply Rle_trans with (bpow radix2 (1 - 25)).
    - apply rnd_err_ulp; [| lia]. rewrite Rabs_pos_eq by (apply Rmult_le_pos; lra). simpl in *. lra.
    - simpl. lra. }
  apply Rabs_def2 in I3. apply Rabs_le_inv in EK. apply Rabs_le_inv in E3.
  (* K i vs x, multiply by M *)
  assert (Mi : 0 < / M) by (apply Rinv_0_lt_compat; lra).
  assert (MM : M * / M = 1) by (apply Rinv_r; lra).
  assert (T : K * i = K * / M * (i * M)). { rewrite <- (Rmult_1_r (K * i)), <- MM. ring. }
  assert (KiM : 0 <= K * / M <= 1).
  { split; [apply Rmult_le_pos; lra |]. rewrite <- MM. apply Rmult_le_compat_r; lra. }
  assert (T2 : - / IZR (2 ^ 24) <= K * i - K * / M <= / IZR (2 ^ 24)).
  { rewrite T. assert (K * / M * (i * M) - K * / M = K * / M * (i * M - 1)) as -> by ring.
    pose proof (mul_bound' (i * M - 1) (K * / M) (/ IZR (2 ^ 24)) 1 ltac:(lra) KiM ltac:(simpl; lra)). lra. }
  assert (T3 : K * / M - FR x = (K - FR x * M) * / M). { rewrite Rmult_minus_distr_r, Rmult_assoc, MM. ring. }
  assert (T4 : - (/ 2 * / M + / IZR (2 ^ 23)) <= K * / M - FR x <= / 2 * / M + / IZR (2 ^ 23)).
  { rewrite T3. assert (/ 2 * / M + / IZR (2 ^ 23) = (/ 2 + M * / IZR (2 ^ 23)) * / M) as ->.
    { rewrite Rmult_plus_distr_r. f_equal. rewrite Rmult_comm, <- Rmult_assoc, (Rmult_comm (/ M)), MM. ring. }
    rewrite <- Ropp_mult_distr_l_reverse. split; apply Rmult_le_compat_r; lra. }
  rewrite Rinv_mult. apply Rabs_le. simpl in *. lra.
Qed.

Lemma quarter_int z : (Z.abs z < 2 ^ 24)%Z -> is_f32 (IZR z / 4).
Proof.
  intros Hz. replace (IZR z / 4) with (IZR z * bpow radix2 (-2)) by (simpl; lra). apply f32_Z; lia.
Qed.

Theorem pack_unpack k n : (1 <= n <= 23)%N -> (k <= max_value n)%N ->
  pack_scalar_unsigned (unpack_scalar_unsigned k n) n = Ok k.
Proof.
  intros Hn Hk. destruct (unpack_R k n Hn Hk) as (U1 & U2 & U3 & U4).
  destruct (inv_R n Hn) as (I1 & I2 & I3 & I4 & I5). pose proof (Mz_bounds n Hn) as MB.
  pose proof (max_value_Z n ltac:(lia)) as MZ.
  set (u := unpack_scalar_unsigned k n) in *.
  destruct (scaled_R u n Hn U1 U4) as (Y1 & Y2 & Y3).
  unfold pack_scalar_unsigned. set (y := fmul u (f_of_N (max_value n))) in *.
  assert (R2 : 1 <= IZR (Mz n) <= IZR (2 ^ 24)) by (split; apply IZR_le; lia).
  destruct (round_symmetric_u32 y Y1) as (S1 & S2 & S3 & S4); [lra |].
  rewrite S4. set (s := rnd (FR y + / 2)) in *.
  set (i := FR (inv_max_value n)) in *. set (kz := Z.of_N k) in *.
  assert (KB : (0 <= kz <= Mz n)%Z) by lia.
  assert (KR : 0 <= IZR kz <= IZR (Mz n)) by (split; apply IZR_le; lia).
  enough (E : Zfloor s = kz). { rewrite E. f_equal. unfold kz. lia. }
  apply Zfloor_eq_bounds.
  assert (KI : 0 <= IZR kz * i) by (apply Rmult_le_pos; lra).
  pose proof (Rabs_def2 _ _ I3) as I3'.
  (* error of the rounding done by unpack *)
  assert (E1 : Rabs (FR u - IZR kz * i) <= if (13 <=? n)%N then / IZR (2 ^ 25) else / IZR (2 ^ 24)).
  { rewrite U2. destruct (N.leb_spec 13 n) as [L | L].
    - apply Rle_trans with (bpow radix2 (0 - 25)); [| simpl; lra].
      apply rnd_err_ulp; [| lia]. rewrite Rabs_pos_eq by auto. specialize (I5 L).
      apply Rle_trans with (i * IZR (Mz n)); [rewrite Rmult_comm; apply Rmult_le_compat_l; lra | simpl; lra].
    - apply Rle_trans with (bpow radix2 (1 - 25)); [| simpl; lra].
      apply rnd_err_ulp; [| lia]. rewrite Rabs_pos_eq by auto. simpl in *. lra. }
  (* k i M against k *)
  assert (E2 : IZR kz * i * IZR (Mz n) - IZR kz = IZR kz * (i * IZR (Mz n) - 1)) by ring.
  set (M := IZR (Mz n)) in *. set (K := IZR kz) in *.
  assert (E3 : FR u * M - K = (FR u - K * i) * M + K * (i * M - 1)) by ring.
  destruct (N.eq_dec n 23) as [-> | N23].
  - (* 23 bits *)
    change (13 <=? 23)%N with true in E1. cbv iota in E1.
    specialize (I4 ltac:(lia)). specialize (I5 ltac:(lia)).
    apply Rabs_le_inv in E1. apply Rabs_le_inv in I4.
    assert (MV : M = IZR (2 ^ 23 - 1)) by reflexivity.
    assert (A1 : - / 4 + / IZR (2 ^ 25) <= (FR u - K * i) * M <= / 4 - / IZR (2 ^ 25)).
    { pose proof (mul_bound (FR u - K * i) M (/ IZR (2 ^ 25)) (IZR (2 ^ 23 - 1)) E1 ltac:(lra) ltac:(simpl; lra)). simpl in *. lra. }
    assert (A2 : - / IZR (2 ^ 17) <= K * (i * M - 1) <= 0).
    { pose proof (mul_bound' (i * M - 1) K (/ IZR (2 ^ 40)) (IZR (2 ^ 23 - 1)) ltac:(lra) ltac:(lra) ltac:(simpl; lra)).
      split; [simpl in *; lra |]. assert (0 <= K * (1 - i * M)) by (apply Rmult_le_pos; lra). lra. }
    assert (A3 : K - / 2 <= FR u * M < K + / 4) by (simpl in *; lra).
    assert (Y4 : K - / 2 <= FR y).
    { rewrite Y2. apply rnd_ge_f; [| lra].
      replace (K - / 2) with (IZR (2 * kz - 1) / 2) by (rewrite minus_IZR, mult_IZR; unfold K; lra).
      apply f32_half_int. lia. }
    split.
    + apply rnd_ge_f; [| lra]. apply f32_int. lia.
    + destruct (Z.lt_ge_cases kz (2 ^ 22)) as [C | C].
      * assert (Y5 : FR y <= K + / 4).
        { rewrite Y2. apply rnd_le_f; [| lra].
          replace (K + / 4) with (IZR (4 * kz + 1) / 4) by (rewrite plus_IZR, mult_IZR; unfold K; lra).
          apply quarter_int. lia. }
        apply Rle_lt_trans with (K + 3 / 4); [| lra].
        apply rnd_le_f; [| lra].
        replace (K + 3 / 4) with (IZR (4 * kz + 3) / 4) by (rewrite plus_IZR, mult_IZR; unfold K; lra).
        apply quarter_int. lia.
      * assert (Y5 : FR y <= K).
        { rewrite Y2. apply round_N_le_midp; auto using fexp32_valid.
          - apply f32_int. lia.
          - apply Rlt_le_trans with (K + / 4); [tauto |].
            assert (K0 : bpow radix2 22 <= K < bpow radix2 23).
            { split; [change (bpow radix2 22) with (IZR (2 ^ 22)) | change (bpow radix2 23) with (IZR (2 ^ 23))].
              - apply IZR_le. lia.
              - apply IZR_lt. lia. }
            rewrite succ_eq_pos by lra.
            rewrite ulp_neq_0 by (pose proof (bpow_gt_0 radix2 22); lra).
            unfold cexp. rewrite (mag_unique_pos radix2 K 23).
            + simpl. lra.
            + simpl in *. lra. }
        apply Rle_lt_trans with (K + / 2); [| lra].
        apply rnd_le_f; [| lra].
        replace (K + / 2) with (IZR (2 * kz + 1) / 2) by (rewrite plus_IZR, mult_IZR; unfold K; lra).
        apply f32_half_int. lia.
  - (* at most 22 bits *)
    assert (MB2 : (Mz n <= 2 ^ 22 - 1)%Z).
    { unfold Mz. assert (2 ^ Z.of_N n <= 2 ^ 22)%Z by (apply Z.pow_le_mono_r; lia). lia. }
    assert (A1 : - / 8 <= (FR u - K * i) * M <= / 8).
    { destruct (N.leb_spec 13 n) as [L | L].
      - assert (MR : M <= IZR (2 ^ 22)) by (apply IZR_le; lia).
        apply Rabs_le_inv in E1.
        pose proof (mul_bound (FR u - K * i) M (/ IZR (2 ^ 25)) (IZR (2 ^ 22)) E1 ltac:(lra) ltac:(simpl; lra)). simpl in *. lra.
      - assert (MB3 : (Mz n <= 2 ^ 12)%Z).
        { unfold Mz. assert (2 ^ Z.of_N n <= 2 ^ 12)%Z by (apply Z.pow_le_mono_r; lia). lia. }
        assert (MR : M <= IZR (2 ^ 12)) by (apply IZR_le; lia).
        apply Rabs_le_inv in E1.
        pose proof (mul_bound (FR u - K * i) M (/ IZR (2 ^ 24)) (IZR (2 ^ 12)) E1 ltac:(lra) ltac:(simpl; lra)). simpl in *. lra. }
    assert (A2 : - / 8 <= K * (i * M - 1) <= / 8).
    { destruct (N.le_gt_cases 22 n) as [L | L].
      - specialize (I4 L). apply Rabs_le_inv in I4.
        assert (MR : M <= IZR (2 ^ 22)) by (apply IZR_le; lia).
        pose proof (mul_bound' (i * M - 1) K (/ IZR (2 ^ 40)) (IZR (2 ^ 22)) I4 ltac:(lra) ltac:(simpl; lra)). simpl in *. lra.
      - assert (MB3 : (Mz n <= 2 ^ 21)%Z).
        { unfold Mz. assert (2 ^ Z.of_N n <= 2 ^ 21)%Z by (apply Z.pow_le_mono_r; lia). lia. }
        assert (MR : M <= IZR (2 ^ 21)) by (apply IZR_le; lia).
        pose proof (mul_bound' (i * M - 1) K (/ IZR (2 ^ 24)) (IZR (2 ^ 21)) ltac:(lra) ltac:(lra) ltac:(simpl; lra)). simpl in *. lra. }
    assert (Y4 : K - / 4 <= FR y <= K + / 4).
    { rewrite Y2. split.
      - apply rnd_ge_f; [| lra].
        replace (K - / 4) with (IZR (4 * kz - 1) / 4) by (rewrite minus_IZR, mult_IZR; unfold K; lra).
        apply quarter_int. lia.
      - apply rnd_le_f; [| lra].
        replace (K + / 4) with (IZR (4 * kz + 1) / 4) by (rewrite plus_IZR, mult_IZR; unfold K; lra).
        apply quarter_int. lia. }
    split.
    + apply rnd_ge_f; [| lra]. apply f32_int. lia.
    + apply Rle_lt_trans with (K + 3 / 4); [| lra].
      apply rnd_le_f; [| lra].
      replace (K + 3 / 4) with (IZR (4 * kz + 3) / 4) by (rewrite plus_IZR, mult_IZR; unfold K; lra).
      apply quarter_int. lia.
Qed.

(** the widest format the codec uses is 23 bits; one more bit would overflow *)
Lemma pack_24_overflows : pack_scalar_unsigned f_one 24 = Ok (2 ^ 24)%N.
Proof. vm_compute. reflexivity. Qed.

(** signed variants *)
Theorem signed_error x n : (1 <= n <= 23)%N -> ffinite x = true -> -1 <= FR x <= 1 ->
  exists k, pack_scalar_signed x n = Ok k /\ (k <= max_value n)%N /\
    ffinite (unpack_scalar_signed k n) = true /\ -1 <= FR (unpack_scalar_signed k n) <= 1 /\
    Rabs (FR (unpack_scalar_signed k n) - FR x) <= / IZR (Mz n) + / IZR (2 ^ 20).
Proof.
  intros Hn Hx Rx. unfold pack_scalar_signed.
  destruct (fmul_R x f_half Hx f_half_fin) as [A1 A2].
  { rewrite f_half_R. apply small_fbig' with 1%Z; [split; vm_compute; discriminate | simpl; lra]. }
  rewrite f_half_R in A2.
  assert (H2 : is_f32 (/ 2)) by (replace (/ 2) with (IZR 1 / 2) by lra; apply f32_half_int; vm_compute; reflexivity).
  assert (A3 : - / 2 <= FR (fmul x f_half) <= / 2).
  { rewrite A2. split; [apply rnd_ge_f; [apply generic_format_opp; auto | lra] | apply rnd_le_f; [auto | lra]]. }
  assert (A4 : Rabs (FR (fmul x f_half) - FR x * / 2) <= / IZR (2 ^ 25)).
  { rewrite A2. apply Rle_trans with (bpow radix2 (0 - 25)); [| simpl; lra].
    apply rnd_err_ulp; [apply Rabs_le; simpl; lra | lia]. }
  set (h := fmul x f_half) in *.
  destruct (fadd_R h f_half A1 f_half_fin) as [B1 B2].
  { rewrite f_half_R. apply small_fbig' with 1%Z; [split; vm_compute; discriminate | simpl; lra]. }
  rewrite f_half_R in B2.
  assert (B3 : 0 <= FR (fadd h f_half) <= 1).
  { rewrite B2. split; [rewrite <- rnd_0; apply rnd_le; lra | apply rnd_le_f; [apply (f32_int 1); vm_compute; discriminate | lra]]. }
  assert (B4 : Rabs (FR (fadd h f_half) - (FR h + / 2)) <= / IZR (2 ^ 25)).
  { rewrite B2. apply Rle_trans with (bpow radix2 (0 - 25)); [| simpl; lra].
    apply rnd_err_ulp; [apply Rabs_le; simpl; lra | lia]. }
  set (v := fadd h f_half) in *.
  destruct (unpack_pack_error v n Hn B1 B3) as (k & K1 & K2).
  destruct (pack_range v n Hn B1 B3) as (k' & K3 & K4). rewrite K1 in K3. injection K3 as <-.
  exists k. split; auto. split; auto.
  destruct (unpack_R k n Hn K4) as (U1 & _ & _ & U4).
  unfold unpack_scalar_signed. set (u := unpack_scalar_unsigned k n) in *.
  destruct (f_of_N_exact 2) as [T1 T2]; [vm_compute; discriminate |].
  simpl Z.of_N in T2.
  destruct (fmul_R u (f_of_N 2) U1 T1) as [C1 C2].
  { rewrite T2. apply small_fbig' with 2%Z; [split; vm_compute; discriminate | simpl; lra]. }
  rewrite T2 in C2.
  assert (C3 : 0 <= FR (fmul u (f_of_N 2)) <= 2).
  { rewrite C2. split; [rewrite <- rnd_0; apply rnd_le; lra | apply rnd_le_f; [apply (f32_int 2); vm_compute; discriminate | lra]]. }
  assert (C4 : Rabs (FR (fmul u (f_of_N 2)) - FR u * 2) <= / IZR (2 ^ 24)).
  { rewrite C2. apply Rle_trans with (bpow radix2 (1 - 25)); [| simpl; lra].
    apply rnd_err_ulp; [apply Rabs_le; simpl; lra | lia]. }
  set (w := fmul u (f_of_N 2)) in *.
  destruct (fsub_R w f_one C1 f_one_fin) as [D1 D2].
  { rewrite f_one_R. apply small_fbig' with 1%Z; [split; vm_compute; discriminate | simpl; lra]. }
  rewrite f_one_R in D2.
  assert (O1 : is_f32 1) by (apply (f32_int 1); vm_compute; discriminate).
  assert (D3 : -1 <= FR (fsub w f_one) <= 1).
  { rewrite D2. split.
    - replace (-1) with (IZR (-1)) by (simpl; lra). apply rnd_ge_f; [apply f32_int; vm_compute; discriminate | simpl; lra].
    - apply rnd_le_f; [exact O1 | lra]. }
  assert (D4 : Rabs (FR (fsub w f_one) - (FR w - 1)) <= / IZR (2 ^ 25)).
  { rewrite D2. apply Rle_trans with (bpow radix2 (0 - 25)); [| simpl; lra].
    apply rnd_err_ulp; [apply Rabs_le; simpl; lra | lia]. }
  split; auto. split; auto.
  apply Rabs_le_inv in A4. apply Rabs_le_inv in B4. apply Rabs_le_inv in C4. apply Rabs_le_inv in D4. apply Rabs_le_inv in K2.
  rewrite Rinv_mult in K2. apply Rabs_le. simpl in *. lra.
Qed.
