(** Binary32 facts behind the scalar encoder: ranges, normalization, quantization, per lane. *)
From Coq Require Import ZArith NArith Bool Reals Lra Lia List.
From Flocq Require Import Core IEEE754.Binary IEEE754.Bits IEEE754.BinarySingleNaN.
From Verif Require Import Word Float32 Float32Facts FloatOrder Quant QuantFacts ScalarEnc.
Local Open Scope R_scope.

Lemma rnd_ok2 r : Rabs (rnd r) < bpow radix2 128 ->
  Rlt_bool (Rabs (round radix2 (SpecFloat.fexp 24 128) (round_mode mode_NE) r)) (bpow radix2 128) = true.
Proof. intros H. apply Rlt_bool_true. rewrite fexp32_eq. exact H. Qed.
Lemma fsub_R2 x y : ffinite x = true -> ffinite y = true -> Rabs (rnd (FR x - FR y)) < bpow radix2 128 ->
  ffinite (fsub x y) = true /\ FR (fsub x y) = rnd (FR x - FR y).
Proof.
  intros Hx Hy H. unfold FR in *.
  generalize (Binary.Bminus_correct 24 128 (eq_refl _) (eq_refl _) binop_nan_pl32 mode_NE x y Hx Hy).
  rewrite (rnd_ok2 _ H). intros (A & B & _). split; [exact B | exact A].
Qed.
(** a finite result is the rounded one *)
Lemma fsub_back x y : ffinite (fsub x y) = true -> ffinite x = true /\ ffinite y = true /\ FR (fsub x y) = rnd (FR x - FR y).
Proof.
  intros F. assert (X : ffinite x = true /\ ffinite y = true).
  { destruct x as [sx|sx|sx px ex|sx mx ex ex'], y as [sy|sy|sy py ey|sy my ey ey']; try (split; reflexivity); try discriminate F.
    exfalso. destruct sx, sy; discriminate F. }
  destruct X as [X Y]. split; [exact X|]. split; [exact Y|].
  generalize (Binary.Bminus_correct 24 128 (eq_refl _) (eq_refl _) binop_nan_pl32 mode_NE x y X Y).
  destruct (Rlt_bool _ _); [intros (A & _); exact A|]. intros (A & _). exfalso.
  change (Binary.Bminus 24 128 eq_refl eq_refl binop_nan_pl32 mode_NE x y) with (fsub x y) in A.
  destruct (fsub x y); try discriminate F; discriminate A.
Qed.
Lemma fadd_back x y : ffinite (fadd x y) = true -> ffinite x = true /\ ffinite y = true.
Proof.
  intros F. destruct x as [sx|sx|sx px ex|sx mx ex ex'], y as [sy|sy|sy py ey|sy my ey ey']; try (split; reflexivity); try discriminate F.
  exfalso. destruct sx, sy; discriminate F.
Qed.
Lemma fmul_back x y : ffinite (fmul x y) = true -> ffinite x = true /\ ffinite y = true.
Proof.
  intros F. destruct x as [sx|sx|sx px ex|sx mx ex ex'], y as [sy|sy|sy py ey|sy my ey ey']; try (split; reflexivity); discriminate F.
Qed.
Lemma fabs_R x : FR (fabs x) = Rabs (FR x).
Proof. unfold FR, fabs, b32_abs. apply Binary.B2R_Babs. Qed.
Lemma fabs_fin x : ffinite (fabs x) = ffinite x.
Proof. unfold ffinite, fabs, b32_abs. destruct x; reflexivity. Qed.
(** a value whose magnitude is below a finite one is finite *)
Lemma fle_abs_back x p : ffinite p = true -> fle (fabs x) p = true -> ffinite x = true /\ Rabs (FR x) <= FR p.
Proof.
  intros P L. assert (F : ffinite x = true).
  { destruct x as [s|s|s pl e|s m e e']; try reflexivity; destruct p as [s'|s'|s' pl' q|s' m' q q']; try discriminate P; try discriminate L. }
  split; [exact F|]. apply fle_R in L; [|rewrite fabs_fin; exact F|exact P]. rewrite fabs_R in L. exact L.
Qed.
Lemma flt_abs_back x p : ffinite p = true -> flt (fabs x) p = true -> ffinite x = true /\ Rabs (FR x) < FR p.
Proof.
  intros P L. destruct (fle_abs_back x p P (flt_fle _ _ L)) as [F _]. split; [exact F|].
  apply flt_R in L; [|rewrite fabs_fin; exact F|exact P]. rewrite fabs_R in L. exact L.
Qed.
Lemma FR_lt x : Rabs (FR x) < bpow radix2 128.
Proof. unfold FR. apply Binary.abs_B2R_lt_emax. Qed.

(** the error between two floats, measured in binary32 *)
Lemma near_intro x y p : ffinite x = true -> ffinite y = true -> ffinite p = true -> Rabs (rnd (FR x - FR y)) <= FR p -> fle (fabs (fsub x y)) p = true.
Proof.
  intros X Y P L. destruct (fsub_R2 x y X Y) as [F E]; [eapply Rle_lt_trans; [exact L|]; eapply Rle_lt_trans; [apply Rle_abs|apply FR_lt]|].
  apply fle_R; [rewrite fabs_fin; exact F|exact P|]. rewrite fabs_R, E. exact L.
Qed.
Lemma near_elim x y p : ffinite p = true -> fle (fabs (fsub x y)) p = true -> ffinite x = true /\ ffinite y = true /\ Rabs (rnd (FR x - FR y)) <= FR p.
Proof.
  intros P L. destruct (fle_abs_back _ _ P L) as [F B]. destruct (fsub_back x y F) as (X & Y & E). rewrite E in B. auto.
Qed.
Lemma rnd_opp r : rnd (- r) = - rnd r.
Proof. unfold rnd. apply round_NE_opp. Qed.
Lemma rnd_abs r s : Rabs r <= s -> Rabs (rnd r) <= rnd s.
Proof.
  intros H. apply Rabs_le_inv in H. apply Rabs_le. rewrite <- rnd_opp. split; apply rnd_le; lra.
Qed.

(** minimum and maximum *)
Lemma fmin_R x y : ffinite x = true -> ffinite y = true -> ffinite (fmin x y) = true /\ FR (fmin x y) = Rmin (FR x) (FR y).
Proof.
  intros X Y. unfold fmin. destruct (flt x y) eqn:L.
  - apply flt_R in L; auto. rewrite Rmin_left by lra. auto.
  - apply flt_Rf in L; auto. rewrite Rmin_right by lra. auto.
Qed.
Lemma fmax_R x y : ffinite x = true -> ffinite y = true -> ffinite (fmax x y) = true /\ FR (fmax x y) = Rmax (FR x) (FR y).
Proof.
  intros X Y. unfold fmax, fgt. destruct (flt y x) eqn:L.
  - apply flt_R in L; auto. rewrite Rmax_left by lra. auto.
  - apply flt_Rf in L; auto. rewrite Rmax_right by lra. auto.
Qed.

(** * Quantization of one lane *)
Lemma pack_lane_spec n x : (1 <= n <= 23)%N -> ffinite x = true -> 0 <= FR x <= 1 ->
  exists v, f_to_u32 (pack_lane n x) = Ok v /\ (v <= max_value n)%N /\ pack_lane n x = f_of_N v.
Proof.
  intros Hn Hx Rx. destruct (pack_range x n Hn Hx Rx) as (v & E & B). exists v. split; [exact E|]. split; [exact B|].
  destruct (scaled_R x n Hn Hx Rx) as (Y1 & Y2 & Y3). pose proof (Mz_bounds n Hn) as MB.
  unfold pack_scalar_unsigned in E. unfold pack_lane.
  set (y := fmul x (f_of_N (max_value n))) in *.
  assert (R2 : IZR (Mz n) <= IZR (2 ^ 24)) by (apply IZR_le; lia).
  destruct (round_symmetric_u32 y Y1) as (S1 & S2 & S3 & S4); [lra |].
  rewrite E in S4. injection S4 as EV.
  assert (Z0 : (0 <= Zfloor (rnd (FR y + / 2)))%Z) by (apply Zfloor_lub; simpl; lra).
  assert (VZ : Z.of_N v = Zfloor (rnd (FR y + / 2))) by (rewrite EV; apply Z2N.id; exact Z0).
  assert (VM : (Z.of_N v <= Mz n)%Z) by (rewrite <- max_value_Z by lia; lia).
  destruct (f_of_N_exact v) as [V1 V2]; [change (2 ^ 24)%N with (Z.to_N (2 ^ 24)%Z); lia|].
  apply f32_eq; [exact S2|exact V1|rewrite S3, V2, VZ; reflexivity|].
  assert (SV : Binary.Bsign 24 128 (f_of_N v) = false).
  { unfold f_of_N. apply f_of_Z_sign. split; [lia|]. apply Z.le_lt_trans with (2 ^ 23)%Z; [lia|reflexivity]. }
  rewrite SV.
  assert (G : fge y f_zero = true).
  { unfold fge. apply fle_R; auto using f_zero_fin. rewrite f_zero_R. lra. }
  unfold fround_symmetric. rewrite G.
  destruct (fadd_R y f_half Y1 f_half_fin) as [F1 F2].
  { rewrite f_half_R. apply small_fbig' with (2 ^ 25)%Z; [split; vm_compute; discriminate | simpl in *; lra]. }
  rewrite ffloor_sign by exact F1. rewrite f_half_R in F2.
  assert (P : / 2 <= FR (fadd y f_half)).
  { rewrite F2. apply rnd_ge_f; [|lra]. change (/ 2) with (bpow radix2 (-1)). apply f32_pow. lia. }
  destruct (fadd y f_half) as [s|s|s pl e|s m e e']; try reflexivity; try discriminate F1.
  - exfalso. unfold FR in P. simpl in P. lra.
  - destruct s; [|reflexivity]. exfalso. unfold FR, Binary.B2R in P.
    match type of P with _ <= ?q => assert (q < 0) by (apply F2R_lt_0; reflexivity) end. lra.
Qed.

(** * Normalization of one lane *)
Lemma fdiv_unit a b : ffinite a = true -> ffinite b = true -> 0 <= FR a <= FR b -> 0 < FR b -> ffinite (fdiv a b) = true /\ 0 <= FR (fdiv a b) <= 1.
Proof.
  intros A B R P. assert (Q : 0 <= FR a / FR b <= 1).
  { split; [apply Rmult_le_pos; [lra|]; apply Rlt_le, Rinv_0_lt_compat; lra|]. apply (Rmult_le_reg_r (FR b)); [exact P|]. unfold Rdiv. rewrite Rmult_assoc, Rinv_l by lra. lra. }
  destruct (fdiv_R a b A) as [F E]; [lra| |].
  { apply small_fbig' with 1%Z; [split; vm_compute; discriminate|lra]. }
  split; [exact F|]. rewrite E. split; [rewrite <- rnd_0; apply rnd_le; lra|]. apply rnd_le_f; [|lra]. rewrite <- f_one_R. apply FR_f32.
Qed.
Lemma f_1em9_pos : ffinite f_1em9 = true /\ 0 < FR f_1em9.
Proof. split; [reflexivity|]. rewrite <- f_zero_R. apply flt_R; reflexivity. Qed.
Lemma normalize_lane_spec v mn mx : ffinite v = true -> ffinite mn = true -> ffinite mx = true -> FR mn <= FR v <= FR mx ->
  ffinite (fsub mx mn) = true ->
  ffinite (normalize_lane v mn (fsub mx mn)) = true /\ 0 <= FR (normalize_lane v mn (fsub mx mn)) <= 1.
Proof.
  intros V M X R F. destruct (fsub_back _ _ F) as (_ & _ & E). unfold normalize_lane.
  destruct f_1em9_pos as [TF TP].
  destruct (flt (fsub mx mn) f_1em9) eqn:L; [rewrite f_zero_R; split; [reflexivity|lra]|].
  apply flt_Rf in L; [|exact F|exact TF].
  assert (D : 0 <= rnd (FR v - FR mn) <= rnd (FR mx - FR mn)).
  { split; [rewrite <- rnd_0|]; apply rnd_le; lra. }
  destruct (fsub_R2 v mn V M) as [SF SE].
  { rewrite Rabs_pos_eq by lra. eapply Rle_lt_trans; [apply D|]. rewrite <- E. eapply Rle_lt_trans; [apply Rle_abs|apply FR_lt]. }
  destruct (fdiv_unit (fsub v mn) (fsub mx mn) SF F) as [DF DR]; [rewrite SE, E; exact D|lra|].
  destruct (fmin_R (fdiv (fsub v mn) (fsub mx mn)) f_one DF f_one_fin) as [MF ME]. split; [exact MF|].
  rewrite ME, f_one_R, Rmin_left by lra. exact DR.
Qed.

(** * Interpolation at an end *)
Lemma fmul_0 a z : ffinite a = true -> ffinite z = true -> FR z = 0 -> ffinite (fmul a z) = true /\ FR (fmul a z) = 0.
Proof.
  intros A Z E. destruct (fmul_R a z A Z) as [F R]; [rewrite E, Rmult_0_r, Rabs_R0; apply Rlt_le, bpow_gt_0|].
  split; [exact F|]. rewrite R, E, Rmult_0_r. apply rnd_0.
Qed.
Lemma fmul_1 a z : ffinite a = true -> ffinite z = true -> FR z = 1 -> ffinite (fmul a z) = true /\ FR (fmul a z) = FR a.
Proof.
  intros A Z E. generalize (Binary.Bmult_correct 24 128 (eq_refl _) (eq_refl _) binop_nan_pl32 mode_NE a z).
  change (Binary.B2R 24 128 z) with (FR z). change (Binary.B2R 24 128 a) with (FR a). rewrite E, Rmult_1_r.
  rewrite rnd_ok2; [|rewrite rnd_id by apply FR_f32; apply FR_lt].
  intros (P & B & _). split; [unfold ffinite, fmul, b32_mult in *; rewrite B, A, Z; reflexivity|].
  etransitivity; [exact P|]. change (rnd (FR a) = FR a). apply rnd_id, FR_f32.
Qed.
Lemma fadd_R2 x y : ffinite x = true -> ffinite y = true -> Rabs (rnd (FR x + FR y)) < bpow radix2 128 ->
  ffinite (fadd x y) = true /\ FR (fadd x y) = rnd (FR x + FR y).
Proof.
  intros Hx Hy H. unfold FR in *.
  generalize (Binary.Bplus_correct 24 128 (eq_refl _) (eq_refl _) binop_nan_pl32 mode_NE x y Hx Hy).
  rewrite (rnd_ok2 _ H). intros (A & B & _). split; [exact B | exact A].
Qed.
Lemma flerp_0 a b z : ffinite a = true -> ffinite b = true -> ffinite z = true -> FR z = 0 -> ffinite (flerp a b z) = true /\ FR (flerp a b z) = FR a.
Proof.
  intros A B Z E. unfold flerp. destruct (fmul_0 a z A Z E) as [F1 R1]. destruct (fmul_0 b z B Z E) as [F2 R2].
  assert (I : rnd (FR a) = FR a) by apply rnd_id, FR_f32.
  destruct (fsub_R2 a (fmul a z) A F1) as [F3 R3]; [rewrite R1, Rminus_0_r, I; apply FR_lt|]. rewrite R1, Rminus_0_r, I in R3.
  destruct (fadd_R2 (fsub a (fmul a z)) (fmul b z) F3 F2) as [F4 R4]; [rewrite R2, R3, Rplus_0_r, I; apply FR_lt|].
  split; [exact F4|]. rewrite R4, R2, R3, Rplus_0_r. exact I.
Qed.
Lemma flerp_1 a b z : ffinite a = true -> ffinite b = true -> ffinite z = true -> FR z = 1 -> ffinite (flerp a b z) = true /\ FR (flerp a b z) = FR b.
Proof.
  intros A B Z E. unfold flerp. destruct (fmul_1 a z A Z E) as [F1 R1]. destruct (fmul_1 b z B Z E) as [F2 R2].
  assert (I : rnd (FR b) = FR b) by apply rnd_id, FR_f32.
  destruct (fsub_R2 a (fmul a z) A F1) as [F3 R3]; [rewrite R1, Rminus_diag_eq by reflexivity; rewrite rnd_0, Rabs_R0; apply bpow_gt_0|].
  rewrite R1, Rminus_diag_eq, rnd_0 in R3 by reflexivity.
  destruct (fadd_R2 (fsub a (fmul a z)) (fmul b z) F3 F2) as [F4 R4]; [rewrite R2, R3, Rplus_0_l, I; apply FR_lt|].
  split; [exact F4|]. rewrite R4, R2, R3, Rplus_0_l. exact I.
Qed.
