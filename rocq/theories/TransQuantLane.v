(** The error of one component through range reduction, quantization and back. *)
From Coq Require Import ZArith NArith Bool Reals Lra Lia List.
From Flocq Require Import Core IEEE754.Binary IEEE754.Bits IEEE754.BinarySingleNaN.
From Verif Require Import Word Float32 Float32Facts Quant QuantFacts ScalarEnc ScalarLanes TransFloat TransSpec TransDec TransEnc TransQuant TransQuantFloat.
Local Open Scope R_scope.
Ltac Zify.zify_post_hook ::= idtac.

(** a tiny amount *)
Definition tiny : R := / IZR (2 ^ 60).
Lemma tiny_pos : 0 < tiny. Proof. unfold tiny. apply Rinv_0_lt_compat, IZR_lt. reflexivity. Qed.
Lemma tiny_150 : / IZR (2 ^ 150) <= tiny. Proof. unfold tiny. apply Rinv_le; [apply IZR_lt; reflexivity | apply IZR_le; vm_compute; discriminate]. Qed.
Lemma rnd_rel' r : Rabs (rnd r - r) <= / IZR (2 ^ 24) * Rabs r + tiny.
Proof. pose proof (rnd_rel r). pose proof tiny_150. lra. Qed.
Lemma f_1em9_R : FR f_1em9 <= 3 / IZR (2 ^ 31) - tiny.
Proof.
  assert (E : FR f_1em9 = IZR 9007199 * bpow radix2 (-53)).
  { reflexivity. }
  rewrite E. unfold tiny. simpl. lra.
Qed.

(** * The clip range *)
Definition width (M X : f32) : R := FR X - FR M.
Lemma extent_lane M X A : ffinite M = true -> ffinite X = true -> FR M <= FR X -> Rabs (FR M) <= A -> Rabs (FR X) <= A -> A <= 10000000000 ->
  ffinite (fsub X M) = true /\ 0 <= FR (fsub X M) /\ Rabs (FR (fsub X M) - width M X) <= / IZR (2 ^ 24) * width M X + tiny.
Proof.
  intros FM FX L BM BX BA. apply Rabs_le_inv in BM. apply Rabs_le_inv in BX.
  destruct (fsub_R X M FX FM) as [F E]. { apply small_fbig' with 20000000000%Z; [split; vm_compute; discriminate | lra]. }
  split; [exact F |]. rewrite E. fold (width M X). assert (W : 0 <= width M X) by (unfold width; lra). split; [rewrite <- rnd_0; apply rnd_le, W |].
  pose proof (rnd_rel' (width M X)) as R. rewrite (Rabs_pos_eq (width M X)) in R by exact W. exact R.
Qed.
(** normalization: y * E is x - M, but for rounding *)
Lemma clip_normalize x M X A : ffinite x = true -> ffinite M = true -> ffinite X = true -> FR M <= FR x <= FR X -> Rabs (FR M) <= A -> Rabs (FR X) <= A -> A <= 10000000000 ->
  let y := normalize_lane x M (fsub X M) in
  ffinite y = true /\ 0 <= FR y <= 1 /\ Rabs (FR y * FR (fsub X M) - (FR x - FR M)) <= / IZR (2 ^ 23) * width M X + 3 / IZR (2 ^ 31).
Proof.
  intros Fx FM FX L BM BX BA y. destruct (extent_lane M X A FM FX ltac:(lra) BM BX BA) as (FE & PE & EE). apply Rabs_le_inv in EE.
  destruct (normalize_lane_spec x M X Fx FM FX L FE) as [Fy By]. split; [exact Fy |]. split; [exact By |]. unfold y, normalize_lane.
  destruct f_1em9_pos as [T1 T2]. pose proof f_1em9_R as T3. pose proof tiny_pos as TP. assert (W : FR x - FR M <= width M X) by (unfold width; lra).
  destruct (flt (fsub X M) f_1em9) eqn:LT.
  - apply flt_R in LT; [| exact FE | exact T1]. rewrite f_zero_R, Rmult_0_l. apply Rabs_le. assert (width M X <= FR (fsub X M) + / IZR (2 ^ 24) * width M X + tiny) by lra. simpl in *. lra.
  - apply flt_Rf in LT; [| exact FE | exact T1].
    apply Rabs_le_inv in BM. apply Rabs_le_inv in BX.
    destruct (fsub_R x M Fx FM) as [FD ED]. { apply small_fbig' with 20000000000%Z; [split; vm_compute; discriminate | lra]. }
    pose proof (rnd_rel' (FR x - FR M)) as RD. rewrite (Rabs_pos_eq (FR x - FR M)), <- ED in RD by lra. apply Rabs_le_inv in RD.
    assert (D : 0 <= FR (fsub x M) <= FR (fsub X M)).
    { split; [rewrite ED, <- rnd_0; apply rnd_le; lra |]. destruct (fsub_back X M FE) as (_ & _ & EX). rewrite ED, EX. apply rnd_le. lra. }
    set (E := FR (fsub X M)) in *. assert (EP : 0 < E) by lra.
    destruct (fdiv_unit (fsub x M) (fsub X M) FD FE D EP) as [FQ BQ].
    assert (Q : FR (fsub x M) / E <= 1). { apply (Rmult_le_reg_r E); [exact EP |]. unfold Rdiv. rewrite Rmult_assoc, Rinv_l by lra. lra. }
    assert (Q0 : 0 <= FR (fsub x M) / E). { apply Rmult_le_pos; [lra |]. apply Rlt_le, Rinv_0_lt_compat, EP. }
    destruct (fdiv_R (fsub x M) (fsub X M) FD) as [_ EQ]. { fold E. lra. } { fold E. apply small_fbig' with 1%Z; [split; vm_compute; discriminate | lra]. }
    fold E in EQ. pose proof (rnd_small (FR (fsub x M) / E)) as RQ. rewrite <- EQ, Rabs_pos_eq in RQ by exact Q0. specialize (RQ Q). apply Rabs_le_inv in RQ.
    destruct (fmin_R (fdiv (fsub x M) (fsub X M)) f_one FQ f_one_fin) as [_ ->]. rewrite f_one_R, Rmin_left by lra. set (t := FR (fdiv (fsub x M) (fsub X M))) in *.
    assert (K : - (/ IZR (2 ^ 25) * E) <= t * E - FR (fsub x M) <= / IZR (2 ^ 25) * E).
    { replace (t * E - FR (fsub x M)) with ((t - FR (fsub x M) / E) * E) by (field; lra). apply mul_bound; [exact RQ | split; [lra | apply Rle_refl] |]. simpl. lra. }
    apply Rabs_le. assert (0 <= FR x - FR M) by lra. assert (tiny <= / IZR (2 ^ 34)) by (unfold tiny; apply Rinv_le; [apply IZR_lt; reflexivity | apply IZR_le; vm_compute; discriminate]). simpl in *. lra.
Qed.
(** and back: [y'] is near [y] *)
Lemma clip_decode x M X A y y' D : ffinite x = true -> ffinite M = true -> ffinite X = true -> FR M <= FR x <= FR X -> Rabs (FR M) <= A -> Rabs (FR X) <= A -> A <= 10000000000 ->
  ffinite y' = true -> 0 <= FR y' <= 1 + / 64 ->
  Rabs (FR y * FR (fsub X M) - (FR x - FR M)) <= / IZR (2 ^ 23) * width M X + 3 / IZR (2 ^ 31) ->
  Rabs (FR y' - FR y) * FR (fsub X M) <= D ->
  ffinite (in_range y' (fsub X M) M) = true /\
  Rabs (FR (in_range y' (fsub X M) M) - FR x) <= D + (/ IZR (2 ^ 22) + / IZR (2 ^ 24)) * width M X + / IZR (2 ^ 24) * A + 7 / IZR (2 ^ 32).
Proof.
  intros Fx FM FX L BM BX BA Fy' By' HY HD. destruct (extent_lane M X A FM FX ltac:(lra) BM BX BA) as (FE & PE & EE). apply Rabs_le_inv in EE.
  apply Rabs_le_inv in BM. apply Rabs_le_inv in BX. apply Rabs_le_inv in HY. pose proof tiny_pos as TP. assert (TS : tiny <= / IZR (2 ^ 40)) by (unfold tiny; apply Rinv_le; [apply IZR_lt; reflexivity | apply IZR_le; vm_compute; discriminate]).
  assert (W : 0 <= width M X <= 20000000000) by (unfold width; lra).
  set (E := FR (fsub X M)) in *. assert (EB : E <= 20000002000) by (simpl in *; lra).
  assert (P : 0 <= FR y' * E <= (1 + / 64) * E) by (split; [apply Rmult_le_pos; lra | apply Rmult_le_compat_r; lra]).
  unfold in_range, fmul_add. destruct (fmul_R y' (fsub X M) Fy' FE) as [F1 E1]. { fold E. apply small_fbig' with 40000000000%Z; [split; vm_compute; discriminate | simpl in *; lra]. }
  fold E in E1. pose proof (rnd_rel' (FR y' * E)) as R1. rewrite <- E1, (Rabs_pos_eq (FR y' * E)) in R1 by lra. apply Rabs_le_inv in R1. set (p := FR (fmul y' (fsub X M))) in *.
  destruct (fadd_R (fmul y' (fsub X M)) M F1 FM) as [F2 E2]. { fold p. apply small_fbig' with 80000000000%Z; [split; vm_compute; discriminate | simpl in *; lra]. }
  split; [exact F2 |]. fold p in E2. rewrite E2. pose proof (rnd_rel' (p + FR M)) as R2. apply Rabs_le_inv in R2.
  assert (B2 : Rabs (p + FR M) <= A + (1 + / 32) * width M X + / IZR (2 ^ 30)). { apply Rabs_le. simpl in *. lra. }
  assert (DY : - D <= FR y' * E - FR y * E <= D).
  { rewrite <- Rmult_minus_distr_r. apply Rabs_le_inv. rewrite Rabs_mult, (Rabs_pos_eq E) by exact PE. exact HD. }
  set (a := Rabs (p + FR M)) in *. set (r := rnd (p + FR M)) in *. clearbody a r. apply Rabs_le. simpl in *. lra.
Qed.

(** * The segment range *)
Lemma segment_normalize y q k : (q <= 255)%N -> (k <= 255)%N -> ffinite y = true -> 0 <= FR y <= 1 -> U q <= FR y <= U q + U k ->
  let z := normalize_lane y (unit_value 8 q) (unit_value 8 k) in
  ffinite z = true /\ 0 <= FR z <= 1 /\ Rabs (FR z * U k + U q - FR y) <= / IZR (2 ^ 24).
Proof.
  intros Q K Fy By L z. destruct (unit8 q Q) as (Fq & _ & Bq). destruct (unit8 k K) as (Fk & _ & Bk). unfold z, normalize_lane. destruct f_1em9_pos as [T1 T2]. pose proof f_1em9_R as T3. pose proof tiny_pos as TP.
  destruct (flt (unit_value 8 k) f_1em9) eqn:LT.
  - apply flt_R in LT; [| exact Fk | exact T1]. fold (U k) in LT. assert (K0 : k = 0%N). { destruct (N.eq_dec k 0) as [E | E]; [exact E |]. pose proof (unit8_pos k ltac:(lia)). simpl in *. lra. }
    subst k. rewrite unit8_0 in *. rewrite f_zero_R. split; [reflexivity |]. split; [lra |]. rewrite Rmult_0_l. replace (0 + U q - FR y) with 0 by lra. rewrite Rabs_R0. simpl. lra.
  - apply flt_Rf in LT; [| exact Fk | exact T1]. fold (U k) in LT. assert (EP : 0 < U k) by lra.
    destruct (fsub_R y (unit_value 8 q) Fy Fq) as [FD ED]. { fold (U q). apply small_fbig' with 2%Z; [split; vm_compute; discriminate | lra]. }
    fold (U q) in ED. pose proof (rnd_small (FR y - U q)) as RD. rewrite (Rabs_pos_eq (FR y - U q)), <- ED in RD by lra. specialize (RD ltac:(lra)). apply Rabs_le_inv in RD.
    assert (D : 0 <= FR (fsub y (unit_value 8 q)) <= U k).
    { rewrite ED. split; [rewrite <- rnd_0; apply rnd_le; lra |]. apply rnd_le_f; [apply FR_f32 | lra]. }
    destruct (fdiv_unit (fsub y (unit_value 8 q)) (unit_value 8 k) FD Fk D EP) as [FQ BQ]. set (d := FR (fsub y (unit_value 8 q))) in *.
    assert (Q1 : d / U k <= 1). { apply (Rmult_le_reg_r (U k)); [exact EP |]. unfold Rdiv. rewrite Rmult_assoc, Rinv_l by lra. lra. }
    assert (Q0 : 0 <= d / U k). { apply Rmult_le_pos; [lra |]. apply Rlt_le, Rinv_0_lt_compat, EP. }
    destruct (fdiv_R (fsub y (unit_value 8 q)) (unit_value 8 k) FD) as [_ EQ]. { fold (U k). lra. } { fold (U k) d. apply small_fbig' with 1%Z; [split; vm_compute; discriminate | lra]. }
    fold (U k) d in EQ. pose proof (rnd_small (d / U k)) as RQ. rewrite <- EQ, Rabs_pos_eq in RQ by exact Q0. specialize (RQ Q1). apply Rabs_le_inv in RQ.
    destruct (fmin_R (fdiv (fsub y (unit_value 8 q)) (unit_value 8 k)) f_one FQ f_one_fin) as [FZ EZ]. rewrite f_one_R, Rmin_left in EZ by lra. split; [exact FZ |]. rewrite EZ. split; [exact BQ |].
    set (t := FR (fdiv (fsub y (unit_value 8 q)) (unit_value 8 k))) in *.
    assert (K1 : - (/ IZR (2 ^ 25) * 1) <= t * U k - d <= / IZR (2 ^ 25) * 1).
    { replace (t * U k - d) with ((t - d / U k) * U k) by (field; lra). apply mul_bound; [exact RQ | lra | simpl; lra]. }
    apply Rabs_le. simpl in *. lra.
Qed.
(** the quantized component, decoded within the segment range *)
Lemma segment_decode y z n v q k : (q <= 255)%N -> (k <= 255)%N -> (1 <= n <= 23)%N -> ffinite y = true -> 0 <= FR y <= 1 -> U q + U k <= 1 + / 100 ->
  ffinite z = true -> 0 <= FR z <= 1 -> Rabs (FR z * U k + U q - FR y) <= / IZR (2 ^ 24) -> pack_scalar_unsigned z n = Ok v ->
  let y' := in_range (unit_value n v) (unit_value 8 k) (unit_value 8 q) in
  ffinite y' = true /\ 0 <= FR y' <= 1 + / 64 /\ Rabs (FR y' - FR y) <= U k * / (2 * IZR (Mz n)) + / IZR (2 ^ 21).
Proof.
  intros Q K Hn Fy By BU Fz Bz HZ EV y'. destruct (unit8 q Q) as (Fq & _ & Bq). destruct (unit8 k K) as (Fk & _ & Bk).
  destruct (unpack_pack_error z n Hn Fz Bz) as (v' & EV' & ER). rewrite EV in EV'. injection EV' as <-. destruct (pack_range z n Hn Fz Bz) as (v' & EV' & BV). rewrite EV in EV'. injection EV' as <-.
  destruct (unpack_R v n Hn BV) as (Fw & _ & _ & Bw). change (unpack_scalar_unsigned v n) with (unit_value n v) in *. set (w := unit_value n v) in *.
  assert (MB : 1 <= IZR (Mz n)) by (apply IZR_le; pose proof (Mz_bounds n Hn); lia). assert (HB : 0 < / (2 * IZR (Mz n))) by (apply Rinv_0_lt_compat; lra). set (h := / (2 * IZR (Mz n))) in *. clearbody h.
  apply Rabs_le_inv in ER. apply Rabs_le_inv in HZ.
  assert (P : 0 <= FR w * U k <= U k). { split; [apply Rmult_le_pos; lra |]. rewrite <- (Rmult_1_l (U k)) at 2. apply Rmult_le_compat_r; lra. }
  unfold y', in_range, fmul_add. destruct (fmul_R w (unit_value 8 k) Fw Fk) as [F1 E1]. { fold (U k). apply small_fbig' with 1%Z; [split; vm_compute; discriminate | lra]. }
  fold (U k) in E1. pose proof (rnd_small (FR w * U k)) as R1. rewrite (Rabs_pos_eq (FR w * U k)), <- E1 in R1 by lra. specialize (R1 ltac:(lra)). apply Rabs_le_inv in R1.
  assert (P1 : 0 <= FR (fmul w (unit_value 8 k)) <= 1). { rewrite E1. split; [rewrite <- rnd_0; apply rnd_le; lra |]. apply rnd_le_f; [rewrite <- f_one_R; apply FR_f32 | lra]. }
  set (p := FR (fmul w (unit_value 8 k))) in *.
  destruct (fadd_R (fmul w (unit_value 8 k)) (unit_value 8 q) F1 Fq) as [F2 E2]. { fold (U q) p. apply small_fbig' with 2%Z; [split; vm_compute; discriminate | lra]. }
  fold (U q) p in E2. split; [exact F2 |]. rewrite E2. pose proof (rnd_two (p + U q)) as R2. rewrite (Rabs_pos_eq (p + U q)) in R2 by lra. specialize (R2 ltac:(lra)). apply Rabs_le_inv in R2.
  assert (N0 : 0 <= rnd (p + U q)) by (rewrite <- rnd_0; apply rnd_le; lra).
  pose proof (mul_bound (FR w - FR z) (U k) (h + / IZR (2 ^ 22)) (U k)) as MU. specialize (MU ER ltac:(lra) ltac:(simpl; lra)).
  assert (X : (h + / IZR (2 ^ 22)) * U k <= U k * h + / IZR (2 ^ 22)). { rewrite Rmult_plus_distr_r, (Rmult_comm h). apply Rplus_le_compat_l. rewrite <- (Rmult_1_r (/ IZR (2 ^ 22))) at 2. apply Rmult_le_compat_l; [simpl; lra | lra]. }
  set (r := rnd (p + U q)) in *. clearbody r. split; [split; [exact N0 |]; simpl in *; lra |]. apply Rabs_le. rewrite Rmult_minus_distr_r in MU. simpl in *. lra.
Qed.
(** without a segment range *)
Lemma unit_decode y n v : (1 <= n <= 23)%N -> ffinite y = true -> 0 <= FR y <= 1 -> pack_scalar_unsigned y n = Ok v ->
  ffinite (unit_value n v) = true /\ 0 <= FR (unit_value n v) <= 1 /\ Rabs (FR (unit_value n v) - FR y) <= / (2 * IZR (Mz n)) + / IZR (2 ^ 22).
Proof.
  intros Hn Fy By EV. destruct (unpack_pack_error y n Hn Fy By) as (v' & EV' & ER). rewrite EV in EV'. injection EV' as <-. destruct (pack_range y n Hn Fy By) as (v' & EV' & BV). rewrite EV in EV'. injection EV' as <-.
  destruct (unpack_R v n Hn BV) as (Fw & _ & _ & Bw). auto.
Qed.

(** * From the sample to what is played back *)
(** the part of the error that does not depend on the bit rate *)
Definition slack (W A : R) : R := W / IZR (2 ^ 20) + A / IZR (2 ^ 24) + / IZR (2 ^ 28).
Lemma half n : (1 <= n <= 23)%N -> 0 < / (2 * IZR (Mz n)) <= / 2.
Proof. intros H. assert (1 <= IZR (Mz n)) by (apply IZR_le; pose proof (Mz_bounds n H); lia). split; [apply Rinv_0_lt_compat; lra | apply Rinv_le; lra]. Qed.

Section Lane.
  Context (M X : f32) (A : R).
  Hypotheses (FM : ffinite M = true) (FX : ffinite X = true) (BM : Rabs (FR M) <= A) (BX : Rabs (FR X) <= A) (BA : A <= 10000000000).
  Local Notation E := (fsub X M).

  (** one segment *)
  Lemma lane_one x n v : (1 <= n <= 23)%N -> ffinite x = true -> FR M <= FR x <= FR X -> pack_scalar_unsigned (normalize_lane x M E) n = Ok v ->
    ffinite (in_range (unit_value n v) E M) = true /\
    Rabs (FR (in_range (unit_value n v) E M) - FR x) <= width M X / (2 * IZR (Mz n)) + slack (width M X) A.
  Proof.
    intros Hn Fx Bx EV. destruct (extent_lane M X A FM FX ltac:(lra) BM BX BA) as (FE & PE & EE). apply Rabs_le_inv in EE.
    destruct (clip_normalize x M X A Fx FM FX Bx BM BX BA) as (Fy & By & HY). destruct (unit_decode _ n v Hn Fy By EV) as (Fw & Bw & HW).
    pose proof (half n Hn) as HB. unfold Rdiv at 1. set (h := / (2 * IZR (Mz n))) in *. clearbody h.
    destruct (clip_decode x M X A (normalize_lane x M E) (unit_value n v) ((h + / IZR (2 ^ 22)) * FR E) Fx FM FX Bx BM BX BA Fw ltac:(lra) HY) as [F B]; [apply Rmult_le_compat_r; [exact PE | exact HW] |].
    split; [exact F |]. eapply Rle_trans; [exact B |]. pose proof tiny_pos as TP. assert (TS : tiny <= / IZR (2 ^ 40)) by (unfold tiny; apply Rinv_le; [apply IZR_lt; reflexivity | apply IZR_le; vm_compute; discriminate]).
    assert (W : 0 <= width M X) by (unfold width; lra).
    assert (K : h * FR E <= h * width M X + / 2 * (/ IZR (2 ^ 24) * width M X + tiny)).
    { assert (FR E <= width M X + (/ IZR (2 ^ 24) * width M X + tiny)) by lra. set (t := / IZR (2 ^ 24) * width M X + tiny) in *. assert (0 <= t) by (unfold t; simpl; lra). clearbody t.
      apply Rle_trans with (h * (width M X + t)); [apply Rmult_le_compat_l; lra |]. rewrite Rmult_plus_distr_l. apply Rplus_le_compat_l, Rmult_le_compat_r; lra. }
    rewrite Rmult_plus_distr_r. unfold slack. rewrite (Rmult_comm (width M X) h). set (hw := h * width M X) in *. set (he := h * FR E) in *. clearbody hw he. simpl in *. lra.
  Qed.

  (** bit rate zero: the sample of the whole segment *)
  Lemma lane_zero x v : ffinite x = true -> FR M <= FR x <= FR X -> pack_scalar_unsigned (normalize_lane x M E) 16 = Ok v ->
    ffinite (in_range (unit_value 16 v) E M) = true /\
    Rabs (FR (in_range (unit_value 16 v) E M) - FR x) <= width M X / (2 * 65535) + slack (width M X) A.
  Proof. intros Fx Bx EV. apply (lane_one x 16 v); [lia | assumption | assumption | exact EV]. Qed.

  (** several segments; [a] and [b]: samples that have the least and the greatest normalized value of the segment *)
  Lemma lane_split x a b n v mn mx : (1 <= n <= 23)%N -> ffinite x = true -> FR M <= FR x <= FR X ->
    ffinite a = true -> FR M <= FR a <= FR X -> ffinite b = true -> FR M <= FR b <= FR X ->
    ffinite mn = true -> FR mn = FR (normalize_lane a M E) -> ffinite mx = true -> FR mx = FR (normalize_lane b M E) -> FR mn <= FR (normalize_lane x M E) <= FR mx ->
    let lo := padded_range_min mn in let ext := padded_range_extent lo mx in
    pack_scalar_unsigned (normalize_lane (normalize_lane x M E) lo ext) n = Ok v ->
    exists q k, (q <= 255)%N /\ (k <= 255)%N /\ lo = unit_value 8 q /\ ext = unit_value 8 k /\
    ffinite (in_range (in_range (unit_value n v) ext lo) E M) = true /\
    Rabs (FR (in_range (in_range (unit_value n v) ext lo) E M) - FR x) <= (FR b - FR a + width M X / 80) / (2 * IZR (Mz n)) + slack (width M X) A.
  Proof.
    intros Hn Fx Bx Fa Ba Fb Bb Fmn Emn Fmx Emx By lo ext EV. destruct (extent_lane M X A FM FX ltac:(lra) BM BX BA) as (FE & PE & EE). apply Rabs_le_inv in EE.
    destruct (clip_normalize x M X A Fx FM FX Bx BM BX BA) as (Fy & Ry & HY). destruct (clip_normalize a M X A Fa FM FX Ba BM BX BA) as (Fya & Rya & HYa). destruct (clip_normalize b M X A Fb FM FX Bb BM BX BA) as (Fyb & Ryb & HYb).
    set (y := normalize_lane x M E) in *. rewrite <- Emn in *. rewrite <- Emx in *.
    destruct (padded_min_spec mn Fmn Rya) as (q & Q & EQ & BQ). fold lo in EQ. destruct (padded_extent_spec q mx Q Fmx ltac:(lra)) as (k & K & EK & BK1 & BK2). rewrite <- EQ in EK. fold ext in EK.
    exists q, k. split; [exact Q |]. split; [exact K |]. split; [exact EQ |]. split; [exact EK |]. rewrite EQ, EK in EV |- *.
    destruct (segment_normalize y q k Q K Fy Ry ltac:(lra)) as (Fz & Bz & HZ). set (z := normalize_lane y (unit_value 8 q) (unit_value 8 k)) in *.
    destruct (unit8 q Q) as (_ & _ & Bq). destruct (unit8 k K) as (_ & _ & Bk).
    destruct (segment_decode y z n v q k Q K Hn Fy Ry ltac:(simpl in *; lra) Fz Bz HZ EV) as (Fy' & By' & HY').
    pose proof (half n Hn) as HB. unfold Rdiv at 1. set (h := / (2 * IZR (Mz n))) in *. clearbody h.
    destruct (clip_decode x M X A y (in_range (unit_value n v) (unit_value 8 k) (unit_value 8 q)) ((U k * h + / IZR (2 ^ 21)) * FR E) Fx FM FX Bx BM BX BA Fy' By' HY) as [F B]; [apply Rmult_le_compat_r; [exact PE | exact HY'] |].
    split; [exact F |]. eapply Rle_trans; [exact B |]. pose proof tiny_pos as TP. assert (TS : tiny <= / IZR (2 ^ 40)) by (unfold tiny; apply Rinv_le; [apply IZR_lt; reflexivity | apply IZR_le; vm_compute; discriminate]).
    assert (W : 0 <= width M X) by (unfold width; lra). apply Rabs_le_inv in HYa. apply Rabs_le_inv in HYb. set (e := FR E) in *.
    (* the width of the segment range, times the extent of the clip *)
    assert (K1 : U k * e <= FR b - FR a + width M X / 80 + 2 * (/ IZR (2 ^ 23) * width M X + 3 / IZR (2 ^ 31)) + / IZR (2 ^ 40)).
    { apply Rle_trans with ((FR mx - FR mn + 3 / 255 + / IZR (2 ^ 19)) * e); [apply Rmult_le_compat_r; [exact PE | simpl in *; lra] |].
      rewrite !Rmult_plus_distr_r, Rmult_minus_distr_r. simpl in *. lra. }
    assert (K2 : U k * e * h <= (FR b - FR a + width M X / 80) * h + (/ IZR (2 ^ 23) * width M X + 3 / IZR (2 ^ 31)) + / IZR (2 ^ 41)).
    { set (s := 2 * (/ IZR (2 ^ 23) * width M X + 3 / IZR (2 ^ 31)) + / IZR (2 ^ 40)). apply Rle_trans with ((FR b - FR a + width M X / 80 + s) * h); [apply Rmult_le_compat_r; [lra |]; unfold s; lra |].
      rewrite (Rmult_plus_distr_r (FR b - FR a + width M X / 80) s h), Rplus_assoc. apply Rplus_le_compat_l. assert (S0 : 0 <= s) by (unfold s; simpl; lra). apply Rle_trans with (s * / 2); [apply Rmult_le_compat_l; lra |]. unfold s. simpl. lra. }
    rewrite Rmult_plus_distr_r. replace (U k * h * e) with (U k * e * h) by ring. unfold slack. set (big := (FR b - FR a + width M X / 80) * h) in *. set (t := U k * e * h) in *. clearbody big t. simpl in *. lra.
  Qed.
End Lane.
