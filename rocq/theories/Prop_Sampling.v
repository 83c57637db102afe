(** C49: sampling raw track arrays.  Model: Sampling.v. *)
From Coq Require Import Lia Reals Lra.
From Flocq Require Import Core.
From Verif Require Import Word WordFacts Float32 Float32Facts Interp InterpFacts TrackArray ScalarEnc ScalarDec ScalarSpec ScalarPlay ScalarLink TrackError TrackErrorSpec TrackErrorFacts Sampling Prop_Error.
Import ListNotations.
Local Open Scope N_scope.
Ltac Zify.zify_post_hook ::= idtac.

(** a valid array (at least one track, every track with [n] samples) that holds at least a sample *)
Definition valid_array {V} (n : N) (rate : f32) (ts : list (raw_track V)) : Prop :=
  ts <> [] /\ array_sample_rate ts = rate /\ 1 <= n < 2 ^ 22 - 2 /\ ffinite rate = true /\ sane (FR rate) /\
  Forall (fun t => rt_num_samples t = n /\ N.of_nat (length (rt_samples t)) = n) ts.
(** the time as it is clamped: the closest in the clip; NaN is the start *)
Definition clamped (t duration t' : f32) : Prop :=
  ffinite t' = true /\ (0 <= FR t' <= FR duration)%R /\
  (fnan t = true -> FR t' = 0%R) /\
  (ffinite t = true -> (0 <= FR t <= FR duration)%R -> FR t' = FR t).
(** the pair of key frames at the position [x] (in samples), and how far between them *)
Definition surround (n : N) (lp : looping_policy) (x : R) (k0 k1 : N) (alpha : f32) : Prop :=
  k0 < n /\ k1 < n /\ ffinite alpha = true /\ (0 <= FR alpha < 1)%R /\
  match lp with
  | lp_clamp => k1 = N.min (k0 + 1) (n - 1) /\ (IZR (Z.of_N k0) + FR alpha)%R = x
  | lp_wrap => (k1 = (k0 + 1) mod n /\ (IZR (Z.of_N k0) + FR alpha)%R = x) \/ (k0 = 0 /\ k1 = 0 /\ FR alpha = 0%R /\ (IZR (Z.of_N n) <= x)%R)
  end.

Section Sampling.
Context {V : Type} (lerp : V -> V -> f32 -> V).
Lemma find_any n rate t lp rp : find_linear_interpolation_samples_with_sample_rate n rate t rp lp =
  bindo (find_linear_interpolation_samples_with_sample_rate n rate t rp_per_track lp) (fun '(k0, k1, a) => Ok (k0, k1, apply_rounding_policy a rp)).
Proof.
  unfold find_linear_interpolation_samples_with_sample_rate. generalize (fmul t rate). intros x. unfold samples_at. destruct (f_to_u32 x) as [i | |]; cbn [bindo]; [| reflexivity | reflexivity].
  destruct lp; [reflexivity |]. destruct (_ <? _); reflexivity.
Qed.
Lemma table a rp : nth (policy_index rp) [apply_rounding_policy a rp_none; apply_rounding_policy a rp_floor; apply_rounding_policy a rp_ceil; apply_rounding_policy a rp_nearest; apply_rounding_policy a rp_none] f_zero = apply_rounding_policy a rp.
Proof. destruct rp; reflexivity. Qed.
Lemma loop_spec w rp a k0 k1 n d : let alphas := [apply_rounding_policy a rp_none; apply_rounding_policy a rp_floor; apply_rounding_policy a rp_ceil; apply_rounding_policy a rp_nearest; apply_rounding_policy a rp_none] in
  k0 < n -> k1 < n -> forall ts i, Forall (fun t => N.of_nat (length (rt_samples t)) = n) ts ->
  exists res, sample_loop lerp w rp alphas k0 k1 i ts = Ok res /\ length res = length ts /\
    forall j t, nth_error ts j = Some t -> nth_error res j = Some (i + N.of_nat j, lerp (nth (N.to_nat k0) (rt_samples t) d) (nth (N.to_nat k1) (rt_samples t) d) (apply_rounding_policy a (w_rounding w rp (i + N.of_nat j)))).
Proof.
  intros alphas K0 K1. induction ts as [| t ts IH]; intros i F; [exists []; split; [reflexivity |]; split; [reflexivity |]; intros [| j] t E; discriminate E |].
  inversion F as [| ? ? L F']; subst. destruct (IH (i + 1) F') as (res & E & L2 & H). cbn [sample_loop]. unfold two_samples.
  rewrite (nth_error_nth' (rt_samples t) d (n := N.to_nat k0)) by lia. rewrite (nth_error_nth' (rt_samples t) d (n := N.to_nat k1)) by lia. cbn [bindo]. rewrite E. cbn [bindo].
  eexists. split; [reflexivity |]. split; [cbn [length]; congruence |]. intros [| j] t' E'; cbn [nth_error] in E' |- *.
  - injection E' as <-. change (N.of_nat 0) with 0. rewrite N.add_0_r. unfold alphas. rewrite table. reflexivity.
  - rewrite (H j t' E'). replace (i + 1 + N.of_nat j) with (i + N.of_nat (S j)) by lia. reflexivity.
Qed.
Lemma array_facts n rate (ts : list (raw_track V)) lp : valid_array n rate ts ->
  array_num_samples ts = n /\ array_sample_rate ts = rate /\ array_finite_duration lp ts = clip_finite_duration n rate lp.
Proof. intros (NE & R & _ & _ & _ & F). destruct ts as [| t ts]; [contradiction |]. inversion F as [| ? ? (A & _) _]; subst. auto. Qed.
Lemma nan_max t : fnan t = true -> fmax t f_zero = f_zero.
Proof. intros E. unfold fmax, fgt. destruct t; try discriminate E. reflexivity. Qed.
Lemma clamped_ok n rate lp t : 1 <= n < 2 ^ 22 - 2 -> ffinite rate = true -> sane (FR rate) ->
  clamped t (clip_finite_duration n rate lp) (fclamp t f_zero (clip_finite_duration n rate lp)).
Proof.
  intros Hn Hf Hr. destruct (finite_duration_R n rate lp Hn Hf Hr) as (D1 & _ & _ & D4). set (D := clip_finite_duration n rate lp) in *.
  destruct (fclamp_any t D D1 ltac:(lra)) as [A B]. split; [exact A |]. split; [exact B |]. split.
  - intros E. unfold fclamp. rewrite nan_max by exact E. destruct (ScalarLanes.fmin_R f_zero D eq_refl D1) as [_ R]. rewrite R, f_zero_R, Rmin_left by apply D4. reflexivity.
  - intros F T. assert (E : fnan t = false) by (destruct t; try discriminate F; reflexivity). destruct (fclamp_spec t D E D1 ltac:(lra)) as (_ & _ & H). auto.
Qed.
End Sampling.

(** Whatever the time (NaN included), the rounding policies and the interpolation: sampling a valid array is defined, the tracks are written
    once each, in their order, every value is the interpolation of the samples at the same two key frames, which surround the clamped time,
    with the alpha rounded by the policy of the track; and sampling one track writes the same. *)
Theorem C49_sampling : forall V (lerp : V -> V -> f32 -> V) (d : V) n rate lp ts t rp w, valid_array n rate ts ->
  exists res t' k0 k1 alpha, raw_sample_tracks lerp lp ts t rp w = Ok res /\
    clamped t (clip_finite_duration n rate lp) t' /\ surround n lp (rnd (FR t' * FR rate)) k0 k1 alpha /\ length res = length ts /\
    forall i track, nth_error ts i = Some track ->
      let v := lerp (nth (N.to_nat k0) (rt_samples track) d) (nth (N.to_nat k1) (rt_samples track) d) (apply_rounding_policy alpha (w_rounding w rp (N.of_nat i))) in
      nth_error res i = Some (N.of_nat i, v) /\ raw_sample_track lerp lp ts (N.of_nat i) t rp w = Ok [(N.of_nat i, v)].
Proof.
  intros V lerp d n rate lp ts t rp w A. pose proof A as (NE & _ & Hn & Hf & Hr & F). destruct (array_facts n rate ts lp A) as (E1 & E2 & E3).
  pose proof (clamped_ok n rate lp t Hn Hf Hr) as C. unfold raw_sample_tracks, raw_sample_track. rewrite E1, E2, E3. set (tc := fclamp t f_zero (clip_finite_duration n rate lp)) in *.
  pose proof C as (C1 & C2 & _). destruct (find_samples_spec n rate tc rp_per_track lp Hn Hf Hr C1 C2) as (k0 & k1 & al & S1 & S2 & S3 & S4 & S5 & S6 & S7).
  change (apply_rounding_policy al rp_per_track) with al in S1. rewrite S1. cbn [bindo].
  assert (F' : Forall (fun t => N.of_nat (length (rt_samples t)) = n) ts) by (eapply Forall_impl; [| exact F]; intros x (_ & H); exact H).
  destruct (loop_spec lerp w rp al k0 k1 n d S4 S5 ts 0 F') as (res & R1 & R2 & R3).
  exists res, tc, k0, k1, al. split; [exact R1 |]. split; [exact C |].
  split; [split; [exact S4 |]; split; [exact S5 |]; split; [exact S2 |]; split; [exact S3 | exact S6] |]. split; [exact R2 |].
  intros i track E. split; [exact (R3 i track E) |]. rewrite Nnat.Nat2N.id, E, find_any, S1. cbn [bindo]. unfold two_samples.
  rewrite Forall_forall in F'. pose proof (F' track (nth_error_In _ _ E)) as L.
  rewrite (nth_error_nth' (rt_samples track) d (n := N.to_nat k0)) by lia. rewrite (nth_error_nth' (rt_samples track) d (n := N.to_nat k1)) by lia. reflexivity.
Qed.
Print Assumptions C49_sampling.

(** At the time of sample [k] -- of the sample past the last one when the array wraps: the first -- the nearest policy gives that sample, by an interpolation whose alpha is 0 or 1. *)
Theorem C49_sampling_key_frames : forall V (lerp : V -> V -> f32 -> V) (d : V) n rate lp ts k w, valid_array n rate ts ->
  k < n \/ (lp = lp_wrap /\ k = n) -> (forall i, w_rounding w rp_nearest i = rp_nearest) ->
  exists res, raw_sample_tracks lerp lp ts (fdiv (f_of_N k) rate) rp_nearest w = Ok res /\ length res = length ts /\
    forall i track, nth_error ts i = Some track -> exists v0 v1 alpha, nth_error res i = Some (N.of_nat i, lerp v0 v1 alpha) /\ ffinite alpha = true /\
      ((FR alpha = 0%R /\ v0 = nth (N.to_nat (k mod n)) (rt_samples track) d) \/ (FR alpha = 1%R /\ v1 = nth (N.to_nat (k mod n)) (rt_samples track) d)).
Proof.
  intros V lerp d n rate lp ts k w A K KN. pose proof A as (NE & _ & Hn & Hf & Hr & F). destruct (array_facts n rate ts lp A) as (E1 & E2 & E3).
  set (time := fdiv (f_of_N k) rate). pose proof (clamped_ok n rate lp time Hn Hf Hr) as C. unfold raw_sample_tracks. rewrite E1, E2, E3. set (tc := fclamp time f_zero (clip_finite_duration n rate lp)) in *.
  pose proof C as (C1 & C2 & _ & C3).
  destruct (fdiv_sane (Z.of_N k) rate ltac:(lia) Hf Hr) as (K1 & K2 & K3 & K4). fold (f_of_N k) in K1, K2, K3, K4. fold time in K1, K2, K3, K4.
  assert (Hle : (0 <= FR time <= FR (clip_finite_duration n rate lp))%R).
  { split; [tauto |]. rewrite duration_eq by auto. unfold time, f_of_N. apply fdiv_mono; auto; destruct lp; try lia; destruct K as [K | [K K']]; try lia; discriminate. }
  destruct (key_frame_time n rate lp k tc Hn Hf Hr K C1 (C3 K1 Hle)) as (i0 & i1 & al & E & FA & SEL).
  destruct (find_samples_spec n rate tc rp_per_track lp Hn Hf Hr C1 C2) as (k0 & k1 & a & S1 & _ & _ & S4 & S5 & _).
  change (apply_rounding_policy a rp_per_track) with a in S1. rewrite find_any, S1 in E. cbn [bindo] in E. injection E as -> -> Ea. rewrite S1. cbn [bindo].
  assert (F' : Forall (fun t => N.of_nat (length (rt_samples t)) = n) ts) by (eapply Forall_impl; [| exact F]; intros x (_ & H); exact H).
  destruct (loop_spec lerp w rp_nearest a i0 i1 n d S4 S5 ts 0 F') as (res & R1 & R2 & R3). exists res. split; [exact R1 |]. split; [exact R2 |].
  intros i track EI. rewrite (R3 i track EI), KN. unfold apply_rounding_policy. rewrite Ea. eexists _, _, al. split; [reflexivity |]. split; [exact FA |].
  destruct SEL as [(-> & R) | (-> & R)]; [left | right]; auto.
Qed.
Print Assumptions C49_sampling_key_frames.

(** * Scalar lists, and what C48 measures against *)
Definition raw_of (t : strack) : raw_track (list f32) := {| rt_num_samples := num_samples (st_track t); rt_sample_rate := sample_rate (st_track t); rt_samples := st_samples t |}.
Definition scalar_lerp (v0 v1 : list f32) (alpha : f32) : list f32 := interpolate alpha v0 v1.
Lemma scalar_loop rp a k0 k1 : let alphas := [apply_rounding_policy a rp_none; apply_rounding_policy a rp_floor; apply_rounding_policy a rp_ceil; apply_rounding_policy a rp_nearest; apply_rounding_policy a rp_none] in
  forall ts i, sample_loop scalar_lerp debug_writer rp alphas k0 k1 i (map raw_of ts) = bindo (sample_values k0 k1 (apply_rounding_policy a rp) ts) (fun l => Ok (numbered i l)).
Proof.
  intros alphas. induction ts as [| t ts IH]; intros i; [reflexivity |]. cbn [map sample_loop sample_values]. unfold two_samples. cbn [rt_samples raw_of].
  destruct (nth_error (st_samples t) (N.to_nat k0)); cbn [bindo]; [| reflexivity]. destruct (nth_error (st_samples t) (N.to_nat k1)); cbn [bindo]; [| reflexivity].
  rewrite IH. destruct (sample_values k0 k1 (apply_rounding_policy a rp) ts); cbn [bindo numbered]; [| reflexivity | reflexivity].
  cbn [w_rounding debug_writer]. unfold alphas. rewrite table. reflexivity.
Qed.
(** the raw values of C48 are those sample_tracks writes *)
Theorem C49_scalar_sampling : forall lp ts t rp, ts <> [] ->
  raw_sample_tracks scalar_lerp lp (map raw_of ts) t rp debug_writer = bindo (sample_tracks lp ts t rp) (fun raws => Ok (numbered 0 raws)).
Proof.
  intros lp ts t rp NE. destruct ts as [| x ts]; [contradiction |]. unfold raw_sample_tracks, sample_tracks.
  change (array_num_samples (map raw_of (x :: ts))) with (list_num_samples (x :: ts)). change (array_sample_rate (map raw_of (x :: ts))) with (list_sample_rate (x :: ts)).
  change (array_finite_duration lp (map raw_of (x :: ts))) with (clip_finite_duration (list_num_samples (x :: ts)) (list_sample_rate (x :: ts)) lp).
  generalize (fclamp t f_zero (clip_finite_duration (list_num_samples (x :: ts)) (list_sample_rate (x :: ts)) lp)). intros tc.
  destruct (find_linear_interpolation_samples_with_sample_rate (list_num_samples (x :: ts)) (list_sample_rate (x :: ts)) tc rp_per_track lp) as [[[k0 k1] a] | |]; cbn [bindo]; [| reflexivity | reflexivity].
  apply scalar_loop.
Qed.
Print Assumptions C49_scalar_sampling.
(** a list of scalar tracks is a valid array, and at its key frames the same numbers come out *)
Theorem C49_scalar_key_frames : forall (s : ssettings) list_name lp ts k, scalar_list list_name ts -> ts <> [] -> k < list_num_samples ts ->
  valid_array (list_num_samples ts) (list_sample_rate ts) (map raw_of ts) /\
  exists raws, raw_sample_tracks scalar_lerp lp (map raw_of ts) (fdiv (f_of_N k) (list_sample_rate ts)) rp_nearest debug_writer = Ok (numbered 0 raws) /\
    Forall2 (fun raw t => same_values raw (nth (N.to_nat k) (st_samples t) [])) raws ts.
Proof.
  intros s list_name lp ts k W NE K. split.
  - destruct (list_facts s list_name lp ts W NE) as (Hn & Hf & Hr). split; [destruct ts; [contradiction | discriminate] |]. split; [destruct ts; reflexivity |].
    split; [exact Hn |]. split; [exact Hf |]. split; [exact Hr |]. apply Forall_map, Forall_forall. intros t I.
    destruct (track_facts s list_name lp ts W t I) as (_ & H1 & _ & _ & H2 & _). auto.
  - destruct (raw_frame s list_name lp ts k W NE K) as (raws & S1 & S2). exists raws. split; [| exact S2]. rewrite (C49_scalar_sampling lp ts _ rp_nearest NE), S1. reflexivity.
Qed.
Print Assumptions C49_scalar_key_frames.

(** an array of two tracks that wraps, at a time past the last sample, and at NaN; the second track is rounded up *)
Example C49_example :
  let t l := {| rt_num_samples := 3; rt_sample_rate := f_of_N 2; rt_samples := l |} in
  let ts := [t [10; 11; 12]; t [20; 21; 22]] in
  let w := {| w_rounding := fun p i => if i =? 1 then rp_ceil else p; w_skip := fun _ => false |} in
  let lerp (a b : N) (alpha : f32) := a + 100 * b + 10000 * f_bits alpha in
  raw_sample_tracks lerp lp_wrap ts (f_of_bits 0x3FA00000) rp_none w = Ok [(0, 1012 + 10000 * f_bits f_half); (1, 2022 + 10000 * f_bits f_one)] /\
  raw_sample_track lerp lp_wrap ts 1 (f_of_bits 0x3FA00000) rp_none w = Ok [(1, 2022 + 10000 * f_bits f_one)] /\
  raw_sample_tracks lerp lp_wrap ts (f_of_bits 0x7FC00000) rp_none w = Ok [(0, 1110); (1, 2120 + 10000 * f_bits f_one)].
Proof. vm_compute. repeat split; reflexivity. Qed.
