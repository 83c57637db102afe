(** Facts about the measure of the compression error. *)
From Coq Require Import Lia Reals Lra.
From Flocq Require Import Core BinarySingleNaN Bits.
From Verif Require Import Word WordFacts Float32 Float32Facts Interp InterpFacts TrackArray ScalarEnc ScalarDec ScalarSpec ScalarLanes ScalarTrackFacts RateOrder ScalarSeekFacts TrackError TrackErrorSpec.
Import ListNotations.
Local Open Scope N_scope.
Ltac Zify.zify_post_hook ::= idtac.

(** * Distances *)
Lemma fsub_not_nan x y : ffinite x = true -> ffinite y = true -> fnan (fsub x y) = false.
Proof.
  intros X Y. generalize (Binary.Bminus_correct 24 128 (eq_refl _) (eq_refl _) binop_nan_pl32 mode_NE x y X Y).
  change (Binary.Bminus 24 128 eq_refl eq_refl binop_nan_pl32 mode_NE x y) with (fsub x y).
  destruct (Rlt_bool _ _); [intros (_ & A & _); destruct (fsub x y); try discriminate A; reflexivity |].
  intros (A & _). destruct (fsub x y); try reflexivity. discriminate A.
Qed.
Lemma fabs_nan x : fnan (fabs x) = fnan x.
Proof. destruct x; reflexivity. Qed.
Lemma fabs_nonneg x : fnan x = false -> fle f_zero (fabs x) = true.
Proof. intros H. destruct x; try discriminate H; reflexivity. Qed.
Lemma fabs_zero x : fle (fabs x) f_zero = true -> fabs x = f_zero.
Proof. intros H. destruct x; try discriminate H; reflexivity. Qed.
Lemma fle_refl x : fnan x = false -> fle x x = true.
Proof. intros H. apply fle_key. split; [exact H |]. split; [exact H | apply Rle_refl]. Qed.
Lemma fle_nan x y : fle x y = true -> fnan x = false /\ fnan y = false.
Proof. intros H. apply fle_key in H. tauto. Qed.
Lemma fmax_spec x y : fnan x = false -> fnan y = false -> fle x (fmax x y) = true /\ fle y (fmax x y) = true /\ (fmax x y = x \/ fmax x y = y).
Proof.
  intros X Y. unfold fmax, fgt. destruct (flt y x) eqn:E.
  - split; [apply fle_refl, X |]. split; [apply flt_fle, E | auto].
  - split; [apply not_lt_ge; assumption |]. split; [apply fle_refl, Y | auto].
Qed.
Lemma max_component_spec a b c d : fnan a = false -> fnan b = false -> fnan c = false -> fnan d = false -> let m := max_component [a; b; c; d] in
  fle a m = true /\ fle b m = true /\ fle c m = true /\ fle d m = true /\ (m = a \/ m = b \/ m = c \/ m = d).
Proof.
  intros A B C D m. unfold m, max_component. cbn [nth].
  destruct (fmax_spec a b A B) as (P1 & P2 & P3). destruct (fmax_spec c d C D) as (Q1 & Q2 & Q3).
  set (x := fmax a b) in *. set (y := fmax c d) in *. destruct (fle_nan _ _ P1) as [_ X]. destruct (fle_nan _ _ Q1) as [_ Y].
  destruct (fmax_spec x y X Y) as (R1 & R2 & R3). set (z := fmax x y) in *.
  split; [eapply fle_trans; eassumption |]. split; [eapply fle_trans; eassumption |]. split; [eapply fle_trans; eassumption |]. split; [eapply fle_trans; eassumption |].
  destruct R3 as [-> | ->]; [destruct P3 as [-> | ->] | destruct Q3 as [-> | ->]]; auto.
Qed.
Lemma scalar_error_distance nc x y : (1 <= nc <= 4)%nat -> length x = nc -> length y = nc -> Forall (fun v => ffinite v = true) x -> Forall (fun v => ffinite v = true) y ->
  is_distance x y (scalar_track_error nc x y).
Proof.
  intros NC LX LY FX FY. split; [congruence |]. unfold scalar_track_error, error_lanes.
  assert (D : forall j a b, nth_error x j = Some a -> nth_error y j = Some b -> fnan (fabs (fsub a b)) = false /\ fle f_zero (fabs (fsub a b)) = true).
  { intros j a b KA KB. rewrite Forall_forall in FX, FY. pose proof (fsub_not_nan a b (FX _ (nth_error_In _ _ KA)) (FY _ (nth_error_In _ _ KB))) as N1.
    rewrite fabs_nan. split; [exact N1 | apply fabs_nonneg, N1]. }
  assert (Z : fnan f_zero = false) by reflexivity.
  assert (NCS : nc = 1%nat \/ nc = 2%nat \/ nc = 3%nat \/ nc = 4%nat) by lia.
  destruct NCS as [-> | [-> | [-> | ->]]].
  - destruct x as [| x0 [|]]; try discriminate LX. destruct y as [| y0 [|]]; try discriminate LY. cbn [map2 nth repeat].
    destruct (D 0%nat x0 y0 eq_refl eq_refl) as [N0 P0].
    destruct (max_component_spec _ _ _ _ N0 N0 N0 N0) as (H1 & H2 & H3 & H4 & H5). split.
    + intros [| j] a b KA KB; cbn [nth_error] in KA, KB; [injection KA as <-; injection KB as <-; assumption | destruct j; discriminate KA].
    + exists 0%nat, x0, y0. split; [reflexivity |]. split; [reflexivity |]. destruct H5 as [H5 | [H5 | [H5 | H5]]]; exact H5.
  - destruct x as [| x0 [| x1 [|]]]; try discriminate LX. destruct y as [| y0 [| y1 [|]]]; try discriminate LY. cbn [map2 nth repeat firstn app].
    destruct (D 0%nat x0 y0 eq_refl eq_refl) as [N0 P0]. destruct (D 1%nat x1 y1 eq_refl eq_refl) as [N1 P1].
    destruct (max_component_spec _ _ _ _ N0 N1 Z Z) as (H1 & H2 & H3 & H4 & H5). split.
    + intros [| [| j]] a b KA KB; cbn [nth_error] in KA, KB; [injection KA as <-; injection KB as <-; assumption | injection KA as <-; injection KB as <-; assumption | destruct j; discriminate KA].
    + destruct H5 as [H5 | [H5 | [H5 | H5]]].
      * exists 0%nat, x0, y0. auto.
      * exists 1%nat, x1, y1. auto.
      * exists 0%nat, x0, y0. rewrite H5 in H1 |- *. rewrite (fabs_zero _ H1). auto.
      * exists 0%nat, x0, y0. rewrite H5 in H1 |- *. rewrite (fabs_zero _ H1). auto.
  - destruct x as [| x0 [| x1 [| x2 [|]]]]; try discriminate LX. destruct y as [| y0 [| y1 [| y2 [|]]]]; try discriminate LY. cbn [map2 nth repeat firstn app].
    destruct (D 0%nat x0 y0 eq_refl eq_refl) as [N0 P0]. destruct (D 1%nat x1 y1 eq_refl eq_refl) as [N1 P1]. destruct (D 2%nat x2 y2 eq_refl eq_refl) as [N2 P2].
    destruct (max_component_spec _ _ _ _ N0 N1 N2 Z) as (H1 & H2 & H3 & H4 & H5). split.
    + intros [| [| [| j]]] a b KA KB; cbn [nth_error] in KA, KB; [injection KA as <-; injection KB as <-; assumption | injection KA as <-; injection KB as <-; assumption | injection KA as <-; injection KB as <-; assumption | destruct j; discriminate KA].
    + destruct H5 as [H5 | [H5 | [H5 | H5]]].
      * exists 0%nat, x0, y0. auto.
      * exists 1%nat, x1, y1. auto.
      * exists 2%nat, x2, y2. auto.
      * exists 0%nat, x0, y0. rewrite H5 in H1 |- *. rewrite (fabs_zero _ H1). auto.
  - destruct x as [| x0 [| x1 [| x2 [| x3 [|]]]]]; try discriminate LX. destruct y as [| y0 [| y1 [| y2 [| y3 [|]]]]]; try discriminate LY. cbn [map2 nth repeat firstn app].
    destruct (D 0%nat x0 y0 eq_refl eq_refl) as [N0 P0]. destruct (D 1%nat x1 y1 eq_refl eq_refl) as [N1 P1]. destruct (D 2%nat x2 y2 eq_refl eq_refl) as [N2 P2]. destruct (D 3%nat x3 y3 eq_refl eq_refl) as [N3 P3].
    destruct (max_component_spec _ _ _ _ N0 N1 N2 N3) as (H1 & H2 & H3 & H4 & H5). split.
    + intros [| [| [| [| j]]]] a b KA KB; cbn [nth_error] in KA, KB; [injection KA as <-; injection KB as <-; assumption | injection KA as <-; injection KB as <-; assumption | injection KA as <-; injection KB as <-; assumption | injection KA as <-; injection KB as <-; assumption | destruct j; discriminate KA].
    + destruct H5 as [H5 | [H5 | [H5 | H5]]].
      * exists 0%nat, x0, y0. auto.
      * exists 1%nat, x1, y1. auto.
      * exists 2%nat, x2, y2. auto.
      * exists 3%nat, x3, y3. auto.
Qed.
Lemma distance_nonneg x y e : is_distance x y e -> Forall (fun v => ffinite v = true) x -> Forall (fun v => ffinite v = true) y -> fle f_zero e = true.
Proof.
  intros (_ & _ & j & a & b & KA & KB & ->) FX FY. rewrite Forall_forall in FX, FY. apply fabs_nonneg, fsub_not_nan; [apply FX | apply FY]; eapply nth_error_In; eassumption.
Qed.
(** within the precision *)
Lemma distance_within p x y z e : ffinite p = true -> same_values x y -> within p y z -> is_distance x z e -> fle e p = true.
Proof.
  intros PF S W (_ & _ & j & a & b & KA & KB & ->). revert y z S W j a b KA KB.
  induction x as [| x0 x IH]; intros y z S W [| j] a b KA KB; try discriminate KA.
  - inversion S as [| ? y0 ? y' (F0 & E0) S']; subst. inversion W as [| ? z0 ? z' H0 W']; subst. cbn [nth_error] in KA, KB. injection KA as ->. injection KB as ->.
    destruct (near_elim _ _ _ PF H0) as (X1 & X2 & X3). apply near_intro; auto. rewrite E0. exact X3.
  - inversion S as [| ? y0 ? y' (F0 & E0) S']; subst. inversion W as [| ? z0 ? z' H0 W']; subst. cbn [nth_error] in KA, KB. exact (IH y' z' S' W' j a b KA KB).
Qed.

(** * Times *)
Lemma zero_time rate : ffinite rate = true -> (0 < FR rate)%R -> fdiv (f_of_N 0) rate = f_zero.
Proof.
  intros F P. change (f_of_N 0) with f_zero. destruct rate as [s | s | s pl H | s m e H]; try discriminate F.
  - exfalso. cbn in P. lra.
  - destruct s; [| reflexivity]. exfalso. unfold FR in P. cbn in P. pose proof (F2R_lt_0 radix2 (Float radix2 (Zneg m) e) ltac:(reflexivity)). lra.
Qed.
Lemma time_is n rate lp k : (1 <= n < 2 ^ 22 - 2) -> ffinite rate = true -> sane (FR rate) -> k < n ->
  fmin (fdiv (f_of_N k) rate) (clip_finite_duration n rate lp) = fdiv (f_of_N k) rate.
Proof.
  intros Hn Hf Hr Hk. pose proof (sane_pos _ Hr) as Hp.
  destruct (finite_duration_R n rate lp Hn Hf Hr) as (D1 & D2 & D3 & D4).
  destruct (fdiv_sane (Z.of_N k) rate ltac:(lia) Hf Hr) as (K1 & K2 & K3 & K4). fold (f_of_N k) in K1, K2, K3, K4.
  assert (Hle : (FR (fdiv (f_of_N k) rate) <= FR (clip_finite_duration n rate lp))%R).
  { rewrite duration_eq by auto. unfold f_of_N. apply fdiv_mono; auto; destruct lp; lia. }
  destruct (Z.eq_dec (match lp with lp_clamp => Z.of_N (n - 1) | lp_wrap => Z.of_N n end) 0) as [A0 | A1].
  { destruct lp; [| lia]. assert (n = 1) as -> by lia. assert (k = 0) as -> by lia. rewrite zero_time by assumption. reflexivity. }
  unfold fmin. destruct (flt _ _) eqn:E; [reflexivity |]. apply flt_Rf in E; [| assumption | assumption].
  assert (EQ : FR (fdiv (f_of_N k) rate) = FR (clip_finite_duration n rate lp)) by lra. symmetry. apply feq_pos.
  - apply flt_R; [reflexivity | exact K1 |]. rewrite f_zero_R, EQ, D3 by (destruct lp; lia).
    apply Rlt_le_trans with (bpow radix2 (-100)); [apply bpow_gt_0 |]. apply rnd_ge_f; [apply f32_pow; discriminate |].
    apply Rle_trans with (1 / FR rate)%R.
    + unfold Rdiv. rewrite Rmult_1_l. change (bpow radix2 (-100)) with (/ bpow radix2 100)%R. apply Rinv_le; [exact Hp | apply Hr].
    + unfold Rdiv. apply Rmult_le_compat_r; [left; apply Rinv_0_lt_compat; exact Hp |]. apply IZR_le. destruct lp; lia.
  - apply feq_R; assumption.
Qed.

(** * What the writer holds *)
Lemma written_other l : forall mem i, ~ In i (map fst l) -> write_tracks mem l i = mem i.
Proof.
  induction l as [| [j u] l IH]; intros mem i H; [reflexivity |]. cbn [map fst In] in H. unfold write_tracks in *. cbn [fold_left]. rewrite IH by tauto.
  unfold write_track. cbn [fst]. destruct (N.eqb_spec i j); [subst; tauto | reflexivity].
Qed.
Lemma written l : forall mem i u, NoDup (map fst l) -> In (i, u) l -> write_tracks mem l i = Some u.
Proof.
  induction l as [| [j v] l IH]; intros mem i u D H; [destruct H |]. cbn [map fst] in D. inversion D as [| ? ? D1 D2]; subst. unfold write_tracks in *. cbn [fold_left].
  destruct H as [H | H]; [| apply IH; assumption]. injection H as -> ->. fold (write_tracks (write_track mem (i, u)) l). rewrite written_other by exact D1. unfold write_track. cbn [fst snd]. rewrite N.eqb_refl. reflexivity.
Qed.

(** * Sampling the raw tracks *)
Lemma find_rounds n rate t lp k0 k1 al : find_linear_interpolation_samples_with_sample_rate n rate t rp_nearest lp = Ok (k0, k1, al) ->
  exists a, find_linear_interpolation_samples_with_sample_rate n rate t rp_per_track lp = Ok (k0, k1, a) /\ apply_rounding_policy a rp_nearest = al.
Proof.
  unfold find_linear_interpolation_samples_with_sample_rate. generalize (fmul t rate). intros x. unfold samples_at. destruct (f_to_u32 x) as [i | |]; cbn [bindo]; try discriminate.
  destruct lp; [| destruct (_ <? _)]; intros H; injection H as <- <- <-; eexists; split; reflexivity.
Qed.
Lemma interpolate_values nc a b al (sel : bool) : length a = nc -> length b = nc -> Forall (fun v => ffinite v = true) a -> Forall (fun v => ffinite v = true) b -> ffinite al = true ->
  FR al = (if sel then 1 else 0)%R -> same_values (interpolate al a b) (if sel then b else a).
Proof.
  intros <-. revert b. induction a as [| x a IH]; intros [| y b] L FA FB F R; try discriminate L; [destruct sel; constructor |].
  inversion FA as [| ? ? X FA']; subst. inversion FB as [| ? ? Y FB']; subst. unfold interpolate in *. cbn [map2]. cbn [length] in L.
  assert (L' : length b = length a) by lia. specialize (IH b L' FA' FB' F R). destruct sel; constructor; try exact IH; [apply flerp_1; assumption | apply flerp_0; assumption].
Qed.
Lemma sample_values_ok k0 k1 al ts n nc (sel : bool) : (k0 < n)%nat -> (k1 < n)%nat -> ffinite al = true -> FR al = (if sel then 1 else 0)%R ->
  Forall (fun t => length (st_samples t) = n /\ Forall (fun v => length v = nc /\ Forall (fun x => ffinite x = true) v) (st_samples t)) ts ->
  exists raws, sample_values (N.of_nat k0) (N.of_nat k1) al ts = Ok raws /\
    Forall2 (fun raw t => same_values raw (nth (if sel then k1 else k0) (st_samples t) [])) raws ts.
Proof.
  intros H0 H1 F R A. induction A as [| t ts (L & V) A (raws & E & S)]; [exists []; split; [reflexivity | constructor] |].
  cbn [sample_values]. rewrite !Nnat.Nat2N.id. rewrite (nth_error_nth' (st_samples t) [] (n := k0)) by lia. rewrite (nth_error_nth' (st_samples t) [] (n := k1)) by lia. rewrite E. cbn [bindo].
  eexists. split; [reflexivity |]. constructor; [| exact S]. rewrite Forall_forall in V.
  destruct (V (nth k0 (st_samples t) []) ltac:(apply nth_In; lia)) as [A1 A2]. destruct (V (nth k1 (st_samples t) []) ltac:(apply nth_In; lia)) as [B1 B2].
  pose proof (interpolate_values nc _ _ al sel A1 B1 A2 B2 F R) as Q. destruct sel; exact Q.
Qed.
