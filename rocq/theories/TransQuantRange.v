(** The ranges of vectors, component by component. *)
From Coq Require Import ZArith NArith Bool Reals Lra Lia List.
From Verif Require Import Word Float32 Float32Facts Quant QuantFacts ScalarLanes TransFloat TransSpec TransDec TransEnc TransMem TransQuant TransQuantFloat TransQuantLane TransQuantStream.
From Flocq Require Import Core.
From Verif Require ScalarEnc.
Import ListNotations.
Local Open Scope R_scope.
Ltac Zify.zify_post_hook ::= idtac.

Definition full_vec (v : vec) : Prop := length v = 4%nat.
(** component [c] of the samples is finite, and at most [A] *)
Definition bounded (A : R) (c : nat) (samples : list vec) : Prop := Forall (fun v => ffinite (lane c v) = true /\ Rabs (FR (lane c v)) <= A) samples.
(** the values of component [c] are at most [W] apart *)
Definition spread (W : R) (c : nat) (samples : list vec) : Prop := forall a b, In a samples -> In b samples -> FR (lane c a) - FR (lane c b) <= W.

Lemma map2_length (f : f32 -> f32 -> f32) a b : length a = length b -> length (map2 f a b) = length a.
Proof. revert b. induction a as [| x a IH]; intros [| y b] L; try discriminate; [reflexivity |]. cbn [ScalarEnc.map2 length] in *. f_equal. apply IH. lia. Qed.
Lemma map2_lane (f : f32 -> f32 -> f32) a b c : length a = length b -> (c < length a)%nat -> lane c (map2 f a b) = f (lane c a) (lane c b).
Proof. revert b c. induction a as [| x a IH]; intros [| y b] c L C; try discriminate; [cbn in C; lia |]. destruct c as [| c]; [reflexivity |]. cbn [ScalarEnc.map2 length] in *. change (lane c (map2 f a b) = f (lane c a) (lane c b)). apply IH; lia. Qed.
Lemma fold_lane f (l : list vec) c : (c < 4)%nat -> Forall full_vec l -> forall init, full_vec init ->
  full_vec (fold_left (fun m s => map2 f m s) l init) /\ lane c (fold_left (fun m s => map2 f m s) l init) = fold_left f (map (lane c) l) (lane c init).
Proof.
  intros C. induction 1 as [| v l Hv F IH]; intros init Hi; [split; [exact Hi | reflexivity] |]. cbn [fold_left map]. unfold full_vec in Hv, Hi.
  destruct (IH (map2 f init v)) as [H1 H2]; [unfold full_vec; rewrite map2_length; congruence |]. split; [exact H1 |]. rewrite H2, map2_lane by (rewrite ?Hi, ?Hv; (reflexivity || exact C)). reflexivity.
Qed.

Lemma fold_min l : Forall (fun x => ffinite x = true) l -> forall a, ffinite a = true ->
  ffinite (fold_left fmin l a) = true /\ (fold_left fmin l a = a \/ In (fold_left fmin l a) l) /\ FR (fold_left fmin l a) <= FR a /\ forall x, In x l -> FR (fold_left fmin l a) <= FR x.
Proof.
  induction 1 as [| y l Hy F IH]; intros a Ha; cbn [fold_left]; [split; [exact Ha |]; split; [left; reflexivity |]; split; [apply Rle_refl | intros x []] |].
  destruct (fmin_R a y Ha Hy) as [M1 M2]. destruct (IH (fmin a y) M1) as (I1 & I2 & I3 & I4). rewrite M2 in I3. split; [exact I1 |]. split; [| split].
  - destruct I2 as [-> | I2]; [| right; right; exact I2]. unfold fmin. destruct (flt a y); [left; reflexivity | right; left; reflexivity].
  - eapply Rle_trans; [exact I3 | apply Rmin_l].
  - intros x [<- | Hx]; [eapply Rle_trans; [exact I3 | apply Rmin_r] | apply I4, Hx].
Qed.
Lemma fold_max l : Forall (fun x => ffinite x = true) l -> forall a, ffinite a = true ->
  ffinite (fold_left fmax l a) = true /\ (fold_left fmax l a = a \/ In (fold_left fmax l a) l) /\ FR a <= FR (fold_left fmax l a) /\ forall x, In x l -> FR x <= FR (fold_left fmax l a).
Proof.
  induction 1 as [| y l Hy F IH]; intros a Ha; cbn [fold_left]; [split; [exact Ha |]; split; [left; reflexivity |]; split; [apply Rle_refl | intros x []] |].
  destruct (fmax_R a y Ha Hy) as [M1 M2]. destruct (IH (fmax a y) M1) as (I1 & I2 & I3 & I4). rewrite M2 in I3. split; [exact I1 |]. split; [| split].
  - destruct I2 as [-> | I2]; [| right; right; exact I2]. unfold fmax, fgt. destruct (flt y a); [left; reflexivity | right; left; reflexivity].
  - eapply Rle_trans; [apply Rmax_l | exact I3].
  - intros x [<- | Hx]; [eapply Rle_trans; [apply Rmax_r | exact I3] | apply I4, Hx].
Qed.
Lemma f_1e10_R : ffinite ScalarEnc.f_1e10 = true /\ FR ScalarEnc.f_1e10 = 10000000000.
Proof.
  split; [reflexivity |]. transitivity (IZR 9765625 * Raux.bpow Zaux.radix2 10); [reflexivity |]. change (Raux.bpow Zaux.radix2 10) with (IZR 1024). rewrite <- mult_IZR. reflexivity.
Qed.
Lemma f_m1e10_R : ffinite (ScalarEnc.fneg ScalarEnc.f_1e10) = true /\ FR (ScalarEnc.fneg ScalarEnc.f_1e10) = - 10000000000.
Proof.
  split; [reflexivity |]. transitivity (IZR (-9765625) * Raux.bpow Zaux.radix2 10); [reflexivity |]. change (Raux.bpow Zaux.radix2 10) with (IZR 1024). rewrite <- mult_IZR. reflexivity.
Qed.

(** the least and the greatest value are those of some samples *)
Record extremes (c : nat) (samples : list vec) (range : frange) : Prop := {
  ex_full : full_vec (r_min range) /\ full_vec (r_max range) /\ full_vec (r_extent range);
  ex_fin : ffinite (lane c (r_min range)) = true /\ ffinite (lane c (r_max range)) = true;
  ex_min : exists a, In a samples /\ FR (lane c (r_min range)) = FR (lane c a);
  ex_max : exists b, In b samples /\ FR (lane c (r_max range)) = FR (lane c b);
  ex_within : forall v, In v samples -> FR (lane c (r_min range)) <= FR (lane c v) <= FR (lane c (r_max range));
  ex_extent : lane c (r_extent range) = fsub (lane c (r_max range)) (lane c (r_min range))
}.
Lemma zero_w_lane v c : (c < 3)%nat -> full_vec v -> lane c (zero_w v) = lane c v /\ full_vec (zero_w v).
Proof. intros C F. do 5 (destruct v as [| ? v]; try discriminate F). destruct c as [| [| [| c]]]; try lia; split; reflexivity. Qed.
Lemma range_extremes samples is4 c : (c < 3)%nat -> samples <> [] -> Forall full_vec samples -> bounded 10000000000 c samples -> extremes c samples (calculate_track_range samples is4).
Proof.
  intros C NE F B. destruct samples as [| s0 rest]; [congruence |]. unfold calculate_track_range. set (l := s0 :: rest) in *. cbv zeta.
  assert (C4 : (c < 4)%nat) by lia. destruct f_1e10_R as [T1 T2]. destruct f_m1e10_R as [T3 T4].
  destruct (fold_lane fmin l c C4 F (splat ScalarEnc.f_1e10) eq_refl) as [N1 N2]. destruct (fold_lane fmax l c C4 F (splat (ScalarEnc.fneg ScalarEnc.f_1e10)) eq_refl) as [X1 X2].
  assert (LS : forall x, lane c (splat x) = x) by (intros x; destruct c as [| [| [| c]]]; try lia; reflexivity). rewrite LS in N2, X2.
  assert (FL : Forall (fun x => ffinite x = true) (map (lane c) l)) by (apply Forall_map; eapply Forall_impl; [| exact B]; intros v [H _]; exact H).
  destruct (fold_min _ FL _ T1) as (M1 & M2 & M3 & M4). destruct (fold_max _ FL _ T3) as (Y1 & Y2 & Y3 & Y4). rewrite <- N2 in *. rewrite <- X2 in *.
  set (mn := fold_left (fun m s => map2 fmin m s) l (splat ScalarEnc.f_1e10)) in *. set (mx := fold_left (fun m s => map2 fmax m s) l (splat (ScalarEnc.fneg ScalarEnc.f_1e10))) in *.
  assert (S0 : In s0 l) by (left; reflexivity). assert (B0 : forall v, In v l -> - 10000000000 <= FR (lane c v) <= 10000000000). { intros v Hv. unfold bounded in B. rewrite Forall_forall in B. destruct (B v Hv) as [_ H]. apply Rabs_le_inv, H. }
  assert (A1 : exists a, In a l /\ FR (lane c mn) = FR (lane c a)).
  { destruct M2 as [M2 | M2]; [| apply in_map_iff in M2 as (a & <- & Ha); exists a; auto]. exists s0. split; [exact S0 |]. pose proof (M4 _ (in_map (lane c) l s0 S0)) as Q. specialize (B0 s0 S0). rewrite M2, T2 in *. lra. }
  assert (A2 : exists b, In b l /\ FR (lane c mx) = FR (lane c b)).
  { destruct Y2 as [Y2 | Y2]; [| apply in_map_iff in Y2 as (a & <- & Ha); exists a; auto]. exists s0. split; [exact S0 |]. pose proof (Y4 _ (in_map (lane c) l s0 S0)) as Q. specialize (B0 s0 S0). rewrite Y2, T4 in *. lra. }
  assert (A3 : forall v, In v l -> FR (lane c mn) <= FR (lane c v) <= FR (lane c mx)) by (intros v Hv; split; [apply M4, in_map, Hv | apply Y4, in_map, Hv]).
  destruct is4.
  - constructor; unfold from_min_max; cbn [r_min r_max r_extent]; auto; [repeat split; [exact N1 | exact X1 | unfold full_vec in *; rewrite map2_length; congruence] |]. apply map2_lane; unfold full_vec in *; [congruence | rewrite X1; exact C4].
  - destruct (zero_w_lane mn c C N1) as [Z1 Z2]. destruct (zero_w_lane mx c C X1) as [Z3 Z4].
    constructor; unfold from_min_max; cbn [r_min r_max r_extent]; rewrite ?Z1, ?Z3; auto; [repeat split; [exact Z2 | exact Z4 | unfold full_vec in *; rewrite map2_length; congruence] |]. rewrite map2_lane, Z1, Z3; unfold full_vec in *; [reflexivity | congruence | rewrite Z4; exact C4].
Qed.

(** ** Components of normalized vectors and padded ranges *)
Lemma normalize_lanes v mn ext c : full_vec v -> full_vec mn -> full_vec ext -> (c < 4)%nat ->
  lane c (ScalarEnc.normalize_sample v mn ext) = ScalarEnc.normalize_lane (lane c v) (lane c mn) (lane c ext).
Proof.
  unfold full_vec. intros L1 L2 L3 C. do 5 (destruct v as [| ? v]; try discriminate L1). do 5 (destruct mn as [| ? mn]; try discriminate L2). do 5 (destruct ext as [| ? ext]; try discriminate L3).
  destruct c as [| [| [| [| c]]]]; try lia; reflexivity.
Qed.
Lemma normalize_full v mn ext : full_vec v -> full_vec mn -> full_vec ext -> full_vec (ScalarEnc.normalize_sample v mn ext).
Proof.
  unfold full_vec. intros L1 L2 L3. do 5 (destruct v as [| ? v]; try discriminate L1). do 5 (destruct mn as [| ? mn]; try discriminate L2). do 5 (destruct ext as [| ? ext]; try discriminate L3). reflexivity.
Qed.
Lemma map_lane (f : f32 -> f32) v c : full_vec v -> (c < 4)%nat -> lane c (map f v) = f (lane c v).
Proof. unfold full_vec. intros L C. do 5 (destruct v as [| ? v]; try discriminate L). destruct c as [| [| [| [| c]]]]; try lia; reflexivity. Qed.
Lemma fixup_lanes range c : full_vec (r_min range) -> full_vec (r_max range) -> (c < 4)%nat ->
  lane c (r_min (fixup_range range)) = padded_range_min (lane c (r_min range)) /\
  lane c (r_extent (fixup_range range)) = padded_range_extent (padded_range_min (lane c (r_min range))) (lane c (r_max range)) /\
  full_vec (r_min (fixup_range range)) /\ full_vec (r_extent (fixup_range range)).
Proof.
  intros L1 L2 C. unfold fixup_range, from_min_extent. cbn [r_min r_extent]. assert (LM : length (map padded_range_min (r_min range)) = 4%nat) by (rewrite map_length; exact L1).
  assert (E2 : length (map padded_range_min (r_min range)) = length (r_max range)) by (unfold full_vec in *; congruence).
  rewrite map2_lane by (first [exact E2 | rewrite LM; exact C]). rewrite map_lane by assumption. split; [reflexivity |]. split; [reflexivity |]. split; [exact LM |]. unfold full_vec. rewrite map2_length; [exact LM | exact E2].
Qed.
