(** Binary32 facts behind the range reduction of transform clips. *)
From Coq Require Import ZArith NArith Bool Reals Lra Lia List.
From Flocq Require Import Core IEEE754.Binary IEEE754.Bits IEEE754.BinarySingleNaN.
From Flocq Require Import Relative.
From Verif Require Import Word Float32 Float32Facts Quant QuantFacts ScalarEnc ScalarLanes TransFloat TransSpec TransDec TransEnc TransQuant.
Local Open Scope R_scope.
Ltac Zify.zify_post_hook ::= idtac.

(** * One rounding *)
Lemma rnd_rel r : Rabs (rnd r - r) <= / IZR (2 ^ 24) * Rabs r + / IZR (2 ^ 150).
Proof.
  assert (P : 0 < / IZR (2 ^ 150)) by (apply Rinv_0_lt_compat, IZR_lt; reflexivity).
  destruct (Rle_lt_dec (Rabs r) (bpow radix2 (-125))) as [H | H].
  - pose proof (rnd_err_ulp r (-125) H ltac:(lia)) as E. change (bpow radix2 (-125 - 25)) with (/ IZR (2 ^ 150)) in E. assert (0 <= / IZR (2 ^ 24) * Rabs r) by (apply Rmult_le_pos; [apply Rlt_le, Rinv_0_lt_compat, IZR_lt; reflexivity | apply Rabs_pos]). lra.
  - pose proof (relative_error_N_FLT radix2 (-149) 24 ltac:(lia) (fun z => negb (Z.even z)) r) as E.
    assert (B : bpow radix2 (-149 + 24 - 1) <= Rabs r) by (apply Rlt_le, (Rle_lt_trans _ (bpow radix2 (-125))); [apply bpow_le; lia | exact H]).
    specialize (E B). replace (/ IZR (2 ^ 24)) with (/ 2 * bpow radix2 (-24 + 1)) by (simpl; lra). unfold rnd. eapply Rle_trans; [exact E |]. clear - P. apply Rlt_le in P. rewrite <- (Rplus_0_r (_ * _ * _)) at 1. apply Rplus_le_compat_l, P.
Qed.
Lemma rnd_small r : Rabs r <= 1 -> Rabs (rnd r - r) <= / IZR (2 ^ 25).
Proof. intros H. apply (rnd_err_ulp r 0); [exact H | lia]. Qed.
Lemma rnd_two r : Rabs r <= 2 -> Rabs (rnd r - r) <= / IZR (2 ^ 24).
Proof. intros H. apply (rnd_err_ulp r 1); [exact H | lia]. Qed.
Lemma rnd_256 r : Rabs r <= 256 -> Rabs (rnd r - r) <= / IZR (2 ^ 17).
Proof. intros H. apply (rnd_err_ulp r 8); [simpl; lra | lia]. Qed.

(** * Integers as floats *)
Lemma f_of_N_R q : (q <= 2 ^ 24)%N -> ffinite (f_of_N q) = true /\ FR (f_of_N q) = IZR (Z.of_N q).
Proof. apply f_of_N_exact. Qed.
Lemma max_range_fin : ffinite max_range_value = true /\ FR max_range_value = 255.
Proof. apply (f_of_N_R 255). vm_compute. discriminate. Qed.
(** clamping an integer between 0 and 255 *)
Lemma clamp_int y z : ffinite y = true -> FR y = IZR z -> (z <= 255)%Z -> fclamp y f_zero max_range_value = f_of_N (Z.to_N z).
Proof.
  intros F E H. destruct max_range_fin as [M1 M2]. unfold fclamp, fmax, fgt. destruct (flt f_zero y) eqn:L.
  - apply flt_R in L; [| reflexivity | exact F]. rewrite f_zero_R, E in L. apply lt_IZR in L. destruct (f_of_N_R (Z.to_N z)) as [Q1 Q2]; [lia |].
    rewrite Z2N.id in Q2 by lia. assert (EY : y = f_of_N (Z.to_N z)) by (apply eq_of_R; [rewrite E; apply IZR_neq; lia | rewrite E, Q2; reflexivity]).
    unfold fmin. destruct (flt y max_range_value) eqn:G; [exact EY |]. apply flt_Rf in G; [| exact F | exact M1]. rewrite M2, E in G. apply le_IZR in G.
    replace z with 255%Z by lia. reflexivity.
  - apply flt_Rf in L; [| reflexivity | exact F]. rewrite f_zero_R, E in L. apply le_IZR in L. replace (Z.to_N z) with 0%N by lia. reflexivity.
Qed.
Lemma pred_int q : (q <= 255)%N -> fmax (fsub (f_of_N q) f_one) f_zero = f_of_N (q - 1).
Proof.
  intros H. destruct (f_of_N_R q) as [Q1 Q2]; [lia |]. destruct (fsub_R (f_of_N q) f_one Q1 f_one_fin) as [S1 S2].
  { rewrite Q2, f_one_R. apply small_fbig' with 1000%Z; [split; vm_compute; discriminate |]. split; rewrite <- minus_IZR; [rewrite <- opp_IZR |]; apply IZR_le; lia. }
  rewrite Q2, f_one_R, <- minus_IZR, rnd_id in S2 by (apply f32_int; lia).
  unfold fmax, fgt. destruct (flt f_zero (fsub (f_of_N q) f_one)) eqn:L.
  - apply flt_R in L; [| reflexivity | exact S1]. rewrite f_zero_R, S2 in L. apply lt_IZR in L. destruct (f_of_N_R (q - 1)) as [P1 P2]; [lia |].
    apply eq_of_R; [rewrite S2; apply IZR_neq; lia |]. rewrite S2, P2. f_equal. lia.
  - apply flt_Rf in L; [| reflexivity | exact S1]. rewrite f_zero_R, S2 in L. apply le_IZR in L. replace (q - 1)%N with 0%N by lia. reflexivity.
Qed.
Lemma succ_int q : (q < 255)%N -> fmin (fadd (f_of_N q) f_one) max_range_value = f_of_N (q + 1).
Proof.
  intros H. destruct (f_of_N_R q) as [Q1 Q2]; [lia |]. destruct (fadd_R (f_of_N q) f_one Q1 f_one_fin) as [S1 S2].
  { rewrite Q2, f_one_R. apply small_fbig' with 1000%Z; [split; vm_compute; discriminate |]. split; rewrite <- plus_IZR; [rewrite <- opp_IZR |]; apply IZR_le; lia. }
  rewrite Q2, f_one_R, <- plus_IZR, rnd_id in S2 by (apply f32_int; lia). destruct max_range_fin as [M1 M2].
  destruct (f_of_N_R (q + 1)) as [P1 P2]; [lia |].
  assert (E : fadd (f_of_N q) f_one = f_of_N (q + 1)) by (apply eq_of_R; [rewrite S2; apply IZR_neq; lia | rewrite S2, P2; f_equal; lia]).
  rewrite E. unfold fmin. destruct (flt (f_of_N (q + 1)) max_range_value) eqn:L; [reflexivity |]. apply flt_Rf in L; [| exact P1 | exact M1].
  rewrite M2, P2 in L. apply le_IZR in L. replace (q + 1)%N with 255%N by lia. reflexivity.
Qed.

(** * The 8 bit values of the segment ranges *)
Lemma unit8_inv q : fmul (f_of_N q) inv_max_range_value = unit_value 8 q. Proof. reflexivity. Qed.
Definition U (q : N) : R := FR (unit_value 8 q).
Lemma unit8 q : (q <= 255)%N -> ffinite (unit_value 8 q) = true /\ Rabs (U q - IZR (Z.of_N q) / 255) <= / IZR (2 ^ 23) /\ 0 <= U q <= 1.
Proof.
  intros H. destruct (unpack_R q 8) as (F & E & B & R); [lia | change (max_value 8) with 255%N; lia |]. change (unpack_scalar_unsigned q 8) with (unit_value 8 q) in *. split; [exact F |]. split; [| exact R].
  destruct (inv_R 8 ltac:(lia)) as (I1 & I2 & I3 & _). change (IZR (Mz 8)) with 255 in I3. set (i := FR (inv_max_value 8)) in *. unfold U. rewrite E.
  assert (K : 0 <= IZR (Z.of_N q) <= 255) by (split; apply IZR_le; lia). set (k := IZR (Z.of_N q)) in *.
  assert (S : Rabs (rnd (k * i) - k * i) <= / IZR (2 ^ 24)) by (apply rnd_two; rewrite Rabs_pos_eq; [simpl in *; lra | apply Rmult_le_pos; lra]).
  apply Rabs_le_inv in S. apply Rabs_def2 in I3.
  assert (T : - / IZR (2 ^ 24) <= k * i - k / 255 <= / IZR (2 ^ 24)).
  { replace (k * i - k / 255) with ((i * 255 - 1) * (k / 255)) by field. pose proof (mul_bound (i * 255 - 1) (k / 255) (/ IZR (2 ^ 24)) 1) as X. simpl in *. lra. }
  apply Rabs_le. simpl in *. lra.
Qed.
Lemma unit8_255 : U 255 = 1.
Proof. unfold U. rewrite <- f_one_R. apply (f_equal FR), f_bits_inj. vm_compute. reflexivity. Qed.
Lemma unit8_0 : U 0 = 0.
Proof. unfold U. rewrite <- f_zero_R. apply (f_equal FR), f_bits_inj. vm_compute. reflexivity. Qed.
Lemma unit8_pos q : (1 <= q <= 255)%N -> / 256 <= U q.
Proof.
  intros H. destruct (unit8 q) as (_ & E & _); [lia |]. apply Rabs_le_inv in E. assert (1 <= IZR (Z.of_N q)) by (apply IZR_le; lia). simpl in *. lra.
Qed.

(** * fixup_range *)
Lemma padded_min_spec m : ffinite m = true -> 0 <= FR m <= 1 ->
  exists q, (q <= 255)%N /\ padded_range_min m = unit_value 8 q /\ U q <= FR m <= U q + / 255 + / IZR (2 ^ 21).
Proof.
  intros F R. destruct max_range_fin as [M1 M2]. unfold padded_range_min.
  destruct (fmul_R m max_range_value F M1) as [S1 S2]. { rewrite M2. apply small_fbig' with 255%Z; [split; vm_compute; discriminate | lra]. }
  rewrite M2 in S2. set (y := FR (fmul m max_range_value)) in *.
  assert (Y : 0 <= y <= 255). { rewrite S2. split; [rewrite <- rnd_0; apply rnd_le; lra |]. apply rnd_le_f; [apply (f32_int 255); vm_compute; discriminate | lra]. }
  assert (Ey : Rabs (y - FR m * 255) <= / IZR (2 ^ 17)) by (rewrite S2; apply rnd_256; rewrite Rabs_pos_eq; lra). apply Rabs_le_inv in Ey.
  destruct (ffloor_R (fmul m max_range_value) S1) as [L1 L2]. fold y in L2.
  assert (Z0 : (0 <= Zfloor y)%Z) by (apply Zfloor_lub; simpl; lra). assert (Z1 : (Zfloor y <= 255)%Z) by (apply le_IZR; pose proof (Zfloor_lb y); lra).
  rewrite (clamp_int _ (Zfloor y) L1 L2 Z1). set (q := Z.to_N (Zfloor y)). assert (Q : (q <= 255)%N) by (unfold q; lia). rewrite pred_int, !unit8_inv by exact Q.
  assert (QZ : IZR (Z.of_N q) = IZR (Zfloor y)) by (unfold q; rewrite Z2N.id by exact Z0; reflexivity).
  pose proof (Zfloor_lb y) as B1. pose proof (Zfloor_ub y) as B2. rewrite <- QZ in B1, B2.
  destruct (unit8 q Q) as (U1 & U2 & U3). apply Rabs_le_inv in U2. destruct (fle (unit_value 8 q) m) eqn:L.
  - apply fle_R in L; [| exact U1 | exact F]. exists q. split; [exact Q |]. split; [reflexivity |]. split; [exact L |]. unfold U in *. simpl in *. lra.
  - apply fle_Rf in L; [| exact U1 | exact F]. fold (U q) in L.
    assert (NZ : (q <> 0)%N) by (intros E; rewrite E, unit8_0 in L; lra). exists (q - 1)%N. split; [lia |]. split; [reflexivity |].
    destruct (unit8 (q - 1)) as (_ & V & _); [lia |]. apply Rabs_le_inv in V. rewrite N2Z.inj_sub, minus_IZR in V by lia. change (IZR (Z.of_N 1)) with 1 in V. simpl in *. lra.
Qed.

Lemma padded_extent_spec q x : (q <= 255)%N -> ffinite x = true -> U q <= FR x <= 1 ->
  exists k, (k <= 255)%N /\ padded_range_extent (unit_value 8 q) x = unit_value 8 k /\ FR x <= U q + U k /\ U k <= FR x - U q + 2 / 255 + / IZR (2 ^ 20).
Proof.
  intros Q F R. destruct max_range_fin as [M1 M2]. destruct (unit8 q Q) as (P1 & P2 & P3). unfold padded_range_extent.
  destruct (fsub_R x (unit_value 8 q) F P1) as [D1 D2]. { fold (U q). apply small_fbig' with 2%Z; [split; vm_compute; discriminate | lra]. }
  fold (U q) in D2. set (d := FR (fsub x (unit_value 8 q))) in *.
  assert (D : 0 <= d <= 1). { rewrite D2. split; [rewrite <- rnd_0; apply rnd_le; lra |]. apply rnd_le_f; [rewrite <- f_one_R; apply FR_f32 | lra]. }
  assert (Ed : Rabs (d - (FR x - U q)) <= / IZR (2 ^ 25)) by (rewrite D2; apply rnd_small; rewrite Rabs_pos_eq; lra). apply Rabs_le_inv in Ed.
  destruct (fmul_R (fsub x (unit_value 8 q)) max_range_value D1 M1) as [S1 S2]. { rewrite M2. fold d. apply small_fbig' with 255%Z; [split; vm_compute; discriminate | lra]. }
  rewrite M2 in S2. fold d in S2. set (y := FR (fmul (fsub x (unit_value 8 q)) max_range_value)) in *.
  assert (Y : 0 <= y <= 255). { rewrite S2. split; [rewrite <- rnd_0; apply rnd_le; lra |]. apply rnd_le_f; [apply (f32_int 255); vm_compute; discriminate | lra]. }
  assert (Ey : Rabs (y - d * 255) <= / IZR (2 ^ 17)) by (rewrite S2; apply rnd_256; rewrite Rabs_pos_eq; lra). apply Rabs_le_inv in Ey.
  destruct (fceil_R _ S1) as [L1 L2]. fold y in L2.
  assert (Z0 : (0 <= Zceil y)%Z) by (apply le_IZR; pose proof (Zceil_ub y); lra). assert (Z1 : (Zceil y <= 255)%Z) by (apply Zceil_glb; simpl; lra).
  rewrite (clamp_int _ (Zceil y) L1 L2 Z1). set (k := Z.to_N (Zceil y)). assert (K : (k <= 255)%N) by (unfold k; lia).
  assert (KZ : IZR (Z.of_N k) = IZR (Zceil y)) by (unfold k; rewrite Z2N.id by exact Z0; reflexivity).
  pose proof (Zceil_ub y) as B1. assert (B2 : IZR (Zceil y) < y + 1) by (pose proof (Zceil_lb y); lra). rewrite <- KZ in B1, B2.
  rewrite !unit8_inv. destruct (unit8 k K) as (U1 & U2 & U3). apply Rabs_le_inv in U2. unfold fge. destruct (fle x (unit_value 8 k)) eqn:L.
  - apply fle_R in L; [| exact F | exact U1]. fold (U k) in L. exists k. split; [exact K |]. split; [reflexivity |]. simpl in *. lra.
  - apply fle_Rf in L; [| exact F | exact U1]. fold (U k) in L.
    assert (NZ : (k <> 255)%N) by (intros E; rewrite E, unit8_255 in L; lra). rewrite succ_int, unit8_inv by lia. exists (k + 1)%N. split; [lia |]. split; [reflexivity |].
    destruct (unit8 (k + 1)) as (_ & V & _); [lia |]. apply Rabs_le_inv in V. rewrite N2Z.inj_add, plus_IZR in V. change (IZR (Z.of_N 1)) with 1 in V. simpl in *. lra.
Qed.
