(** Properties C08 (quantization), C09-C12 (sample time).  [FR x] is the real number a finite float denotes. *)
From Coq Require Import ZArith NArith Reals Lra Lia.
From Flocq Require Import Core.
From Verif Require Import Word Float32 Float32Facts Quant QuantFacts Interp InterpFacts.
Local Open Scope R_scope.

(** * C08 *)
Theorem C08_pack_in_range : forall x n, (1 <= n <= 23)%N -> ffinite x = true -> 0 <= FR x <= 1 ->
  exists k, pack_scalar_unsigned x n = Ok k /\ (k <= 2 ^ n - 1)%N.
Proof.
  intros x n Hn Hx H. destruct (pack_range x n Hn Hx H) as (k & A & B). exists k. split; auto.
  rewrite max_value_eq in B; lia.
Qed.
Print Assumptions C08_pack_in_range.

Theorem C08_unpack_in_unit_range : forall k n, (1 <= n <= 23)%N -> (k <= 2 ^ n - 1)%N ->
  ffinite (unpack_scalar_unsigned k n) = true /\ 0 <= FR (unpack_scalar_unsigned k n) <= 1.
Proof.
  intros k n Hn Hk. rewrite <- max_value_eq in Hk by lia. destruct (unpack_R k n Hn Hk) as (A & _ & _ & B). auto.
Qed.
Print Assumptions C08_unpack_in_unit_range.

(** half a quantization step, plus 2^-22 of float rounding *)
Theorem C08_error_is_half_a_step : forall x n, (1 <= n <= 23)%N -> ffinite x = true -> 0 <= FR x <= 1 ->
  exists k, pack_scalar_unsigned x n = Ok k /\
    Rabs (FR (unpack_scalar_unsigned k n) - FR x) <= / (2 * IZR (2 ^ Z.of_N n - 1)) + / IZR (2 ^ 22).
Proof. exact unpack_pack_error. Qed.
Print Assumptions C08_error_is_half_a_step.

(** quantized values are fixed points: re-packing an unpacked value returns it *)
Theorem C08_repack_is_identity : forall k n, (1 <= n <= 23)%N -> (k <= 2 ^ n - 1)%N ->
  pack_scalar_unsigned (unpack_scalar_unsigned k n) n = Ok k.
Proof. intros k n Hn Hk. apply pack_unpack; auto. rewrite max_value_eq; lia. Qed.
Print Assumptions C08_repack_is_identity.

Theorem C08_signed : forall x n, (1 <= n <= 23)%N -> ffinite x = true -> -1 <= FR x <= 1 ->
  exists k, pack_scalar_signed x n = Ok k /\ (k <= 2 ^ n - 1)%N /\
    ffinite (unpack_scalar_signed k n) = true /\ -1 <= FR (unpack_scalar_signed k n) <= 1 /\
    Rabs (FR (unpack_scalar_signed k n) - FR x) <= / IZR (2 ^ Z.of_N n - 1) + / IZR (2 ^ 20).
Proof.
  intros x n Hn Hx H. destruct (signed_error x n Hn Hx H) as (k & A & B & C & D & E).
  exists k. rewrite max_value_eq in B by lia. auto.
Qed.
Print Assumptions C08_signed.

(** 23 bits is the limit: on 24 bits the value 1.0 does not fit any more *)
Theorem C08_24_bits_refuted : pack_scalar_unsigned f_one 24 = Ok (2 ^ 24)%N.
Proof. exact pack_24_overflows. Qed.
Print Assumptions C08_24_bits_refuted.

Example C08_sat : pack_scalar_unsigned (f_of_bits 0x3E9E0652) 19 = Ok 161817%N /\ (* 0.30864197 *)
  pack_scalar_unsigned (unpack_scalar_unsigned 161817 19) 19 = Ok 161817%N /\ ffinite (f_of_bits 0x3E9E0652) = true.
Proof. vm_compute. auto. Qed.

(** * C09: [sane r] is 2^-100 <= r <= 2^100 *)
(** Any time that is not NaN (seek() clamps it): both key frames exist, they are neighbours, alpha is in [0,1]. *)
Theorem C09_key_frames_valid : forall n rate lp rp t,
  (1 <= n < 2 ^ 22 - 2)%N -> ffinite rate = true -> sane (FR rate) -> fnan t = false ->
  exists i0 i1 al, seek_key_frames n rate lp rp t = Ok (i0, i1, al) /\
    (i0 < n)%N /\ (i1 < n)%N /\ ffinite al = true /\ 0 <= FR al <= 1 /\
    match lp with
    | lp_clamp => i1 = (i0 + 1)%N \/ (i0 = (n - 1)%N /\ i1 = (n - 1)%N)
    | lp_wrap => i1 = ((i0 + 1) mod n)%N \/ (i0 = 0%N /\ i1 = 0%N)
    end.
Proof.
  intros n rate lp rp t Hn Hf Hr Ht. unfold seek_key_frames.
  destruct (finite_duration_R n rate lp Hn Hf Hr) as (D1 & _ & _ & D4).
  destruct (fclamp_spec t (clip_finite_duration n rate lp) Ht D1) as (C1 & C2 & _); [tauto |].
  destruct (find_samples_spec n rate _ rp lp Hn Hf Hr C1 C2) as (i0 & i1 & al & S1 & S2 & S3 & S4 & S5 & S6 & _).
  destruct (rounding_spec al rp S2) as (R1 & R2 & _); [lra |].
  exists i0, i1, (apply_rounding_policy al rp). repeat split; auto; try tauto.
  destruct lp; [destruct S6 | destruct S6 as [[? _] | (? & ? & _)]; auto]. lia.
Qed.
Print Assumptions C09_key_frames_valid.

(** Inside the clip and without rounding, the pair interpolated with alpha is the requested position: the real
    position i0 + alpha is the product time * rate rounded once to binary32 (or the clip wrapped to its start). *)
Theorem C09_position_is_time_times_rate : forall n rate lp t,
  (1 <= n < 2 ^ 22 - 2)%N -> ffinite rate = true -> sane (FR rate) ->
  ffinite t = true -> 0 <= FR t <= FR (clip_finite_duration n rate lp) ->
  exists i0 i1 al, find_linear_interpolation_samples_with_sample_rate n rate t rp_none lp = Ok (i0, i1, al) /\
    (IZR (Z.of_N i0) + FR al = rnd (FR t * FR rate) \/
     (lp = lp_wrap /\ i0 = 0%N /\ i1 = 0%N /\ FR al = 0 /\
      IZR (Z.of_N n) <= rnd (FR t * FR rate) <= IZR (Z.of_N n) + / 4)).
Proof.
  intros n rate lp t Hn Hf Hr Ht H.
  destruct (find_samples_spec n rate t rp_none lp Hn Hf Hr Ht H) as (i0 & i1 & al & S1 & S2 & S3 & S4 & S5 & S6 & S7).
  exists i0, i1, al. split; auto. destruct lp.
  - left. tauto.
  - destruct S6 as [[_ E] | (E1 & E2 & E3 & E4)]; auto 10.
Qed.
Print Assumptions C09_position_is_time_times_rate.

(** the duration-based variant (any finite duration that is 0 or sane) *)
Theorem C09_key_frames_valid_with_duration : forall n d lp rp t,
  (1 <= n < 2 ^ 22 - 2)%N -> ffinite d = true -> FR d = 0 \/ sane (FR d) -> ffinite t = true -> 0 <= FR t <= FR d ->
  exists i0 i1 al, find_linear_interpolation_samples_with_duration n d t rp lp = Ok (i0, i1, al) /\
    (i0 < n)%N /\ (i1 < n)%N /\ ffinite al = true /\ 0 <= FR al <= 1 /\
    match lp with
    | lp_clamp => i1 = (i0 + 1)%N \/ (i0 = (n - 1)%N /\ i1 = (n - 1)%N)
    | lp_wrap => i1 = ((i0 + 1) mod n)%N \/ (i0 = 0%N /\ i1 = 0%N)
    end.
Proof.
  intros n d lp rp t Hn Hf Hr Ht H.
  destruct (find_samples_duration_spec n d t rp lp Hn Hf Hr Ht H) as (i0 & i1 & al & rate & S1 & S2 & S3 & S4 & S5 & _ & _ & S6).
  destruct (rounding_spec al rp S2) as (R1 & R2 & _); [lra |].
  exists i0, i1, (apply_rounding_policy al rp). repeat split; auto; try tauto.
  destruct lp; [destruct S6 | destruct S6 as [[? _] | (? & ? & _)]; auto]. lia.
Qed.
Print Assumptions C09_key_frames_valid_with_duration.

(** alpha between two retained key frames that need not be neighbours *)
Theorem C09_alpha_between_retained : forall si i0 i1 rp,
  (i0 <= i1 <= 2 ^ 24)%N -> ffinite si = true -> IZR (Z.of_N i0) <= FR si <= IZR (Z.of_N i1) ->
  let al := find_linear_interpolation_alpha si i0 i1 rp in
  ffinite al = true /\ 0 <= FR al <= 1 /\
  ((i0 < i1)%N -> rp = rp_none \/ rp = rp_per_track ->
     FR al = rnd (rnd (FR si - IZR (Z.of_N i0)) / IZR (Z.of_N (i1 - i0))) /\
     (FR si = IZR (Z.of_N i0) -> FR al = 0) /\ (FR si = IZR (Z.of_N i1) -> FR al = 1)).
Proof.
  intros si i0 i1 rp Hi Hs H al.
  destruct (alpha_range si i0 i1 rp Hi Hs H) as (a & A1 & A2 & A3 & A4 & A5).
  destruct (rounding_spec a rp A1 A2) as (R1 & R2 & _).
  assert (T : ffinite al = true /\ 0 <= FR al <= 1).
  { unfold al. rewrite A3. destruct rp; auto. destruct (i0 =? i1)%N; auto. rewrite f_zero_R. split; [reflexivity | lra]. }
  split; [tauto |]. split; [tauto |]. intros L Hrp. split.
  - unfold al. rewrite A3. destruct Hrp as [-> | ->]; apply A4; lia.
  - unfold al. apply alpha_ends; auto. lia.
Qed.
Print Assumptions C09_alpha_between_retained.

Definition rate30 : f32 := f_of_N 30.
Lemma sane30 : sane (FR rate30).
Proof.
  destruct (f_of_N_exact 30) as [_ E]; [lia |]. unfold rate30. rewrite E. simpl Z.of_N.
  split; [apply Rle_trans with 1 |].
  - change 1 with (bpow radix2 0). apply bpow_le. lia.
  - lra.
  - change 30 with (IZR 30). change (bpow radix2 100) with (IZR (2 ^ 100)). apply IZR_le. vm_compute. discriminate.
Qed.

Definition shown (o : outcome (N * N * f32)) : option (N * N * N) :=
  match o with Ok (i0, i1, al) => Some (i0, i1, f_bits al) | _ => None end.
(* 91 samples at 30 FPS, t = 1.2345 s; past the end; wrapping at the end *)
Example C09_sat : (ffinite rate30 = true /\ sane (FR rate30)) /\
  shown (seek_key_frames 91 rate30 lp_clamp rp_none (f_of_bits 0x3F9E0419)) = Some (37, 38, 1024416768)%N /\
  shown (seek_key_frames 91 rate30 lp_clamp rp_none f_inf) = Some (90, 90, 0)%N /\
  shown (seek_key_frames 91 rate30 lp_wrap rp_none f_inf) = Some (0, 0, 0)%N.
Proof.
  split; [split; [reflexivity | exact sane30] |].
  repeat split; vm_compute; reflexivity.
Qed.

(** * C10: [selects i0 i1 al k]: frame k is sampled alone (first of the pair with weight 0 on the second, or second with weight 1) *)
Theorem C10_key_frame_time_selects_key_frame : forall n rate lp k,
  (1 <= n < 2 ^ 22 - 2)%N -> ffinite rate = true -> sane (FR rate) -> (k < n)%N ->
  exists i0 i1 al, seek_key_frames n rate lp rp_nearest (fdiv (f_of_N k) rate) = Ok (i0, i1, al) /\
    ffinite al = true /\ ((i0 = k /\ FR al = 0) \/ (i1 = k /\ FR al = 1)).
Proof.
  intros n rate lp k Hn Hf Hr Hk. unfold seek_key_frames.
  destruct (finite_duration_R n rate lp Hn Hf Hr) as (D1 & _ & _ & D4).
  destruct (fdiv_sane (Z.of_N k) rate ltac:(lia) Hf Hr) as (K1 & _ & _ & K4).
  assert (Hle : FR (fdiv (f_of_N k) rate) <= FR (clip_finite_duration n rate lp)).
  { rewrite duration_eq by auto. apply fdiv_mono; auto; destruct lp; lia. }
  destruct (fclamp_spec (fdiv (f_of_N k) rate) (clip_finite_duration n rate lp)) as (C1 & C2 & C3); auto; try tauto.
  { unfold f_of_N. destruct (fdiv (f_of_Z (Z.of_N k)) rate); auto; discriminate. }
  destruct (key_frame_time n rate lp k (fclamp (fdiv (f_of_N k) rate) f_zero (clip_finite_duration n rate lp)))
    as (i0 & i1 & al & S1 & S2); auto.
  { apply C3; auto. split; auto. unfold f_of_N. tauto. }
  rewrite N.mod_small in S2 by auto. exists i0, i1, al. split; auto.
Qed.
Print Assumptions C10_key_frame_time_selects_key_frame.

(** when wrapping, the time of the repeated first key frame selects the first key frame *)
Theorem C10_wrap_end_selects_first : forall n rate,
  (1 <= n < 2 ^ 22 - 2)%N -> ffinite rate = true -> sane (FR rate) ->
  exists i0 i1 al, seek_key_frames n rate lp_wrap rp_nearest (clip_finite_duration n rate lp_wrap) = Ok (i0, i1, al) /\
    ffinite al = true /\ ((i0 = 0%N /\ FR al = 0) \/ (i1 = 0%N /\ FR al = 1)).
Proof.
  intros n rate Hn Hf Hr. unfold seek_key_frames.
  destruct (finite_duration_R n rate lp_wrap Hn Hf Hr) as (D1 & _ & _ & D4).
  destruct (fclamp_spec (clip_finite_duration n rate lp_wrap) (clip_finite_duration n rate lp_wrap)) as (C1 & C2 & C3); auto; try tauto.
  { destruct (clip_finite_duration n rate lp_wrap); auto; discriminate. }
  destruct (key_frame_time n rate lp_wrap n (fclamp (clip_finite_duration n rate lp_wrap) f_zero (clip_finite_duration n rate lp_wrap)))
    as (i0 & i1 & al & S1 & S2); auto.
  { rewrite C3; auto; [| lra]. apply duration_eq; auto. }
  rewrite N.mod_same in S2 by lia. exists i0, i1, al. split; auto.
Qed.
Print Assumptions C10_wrap_end_selects_first.

Example C10_sat : shown (seek_key_frames 91 rate30 lp_clamp rp_nearest (fdiv (f_of_N 60) rate30)) = Some (60, 61, 0)%N.
Proof. vm_compute. reflexivity. Qed.

(** * C11 *)
Theorem C11_num_samples_of_duration : forall n rate, (2 <= n < 2 ^ 22 - 2)%N -> ffinite rate = true -> sane (FR rate) ->
  calculate_num_samples (calculate_duration n rate) rate = Ok n.
Proof. exact num_samples_duration. Qed.
Print Assumptions C11_num_samples_of_duration.

Theorem C11_degenerate : forall rate,
  calculate_duration 0 rate = f_zero /\ calculate_num_samples f_zero rate = Ok 0%N /\
  calculate_duration 1 rate = f_inf /\ calculate_num_samples f_inf rate = Ok 1%N /\
  calculate_finite_duration 0 rate = f_zero /\ calculate_finite_duration 1 rate = f_zero.
Proof. intros. repeat split; reflexivity. Qed.
Print Assumptions C11_degenerate.

Theorem C11_finite_duration_agrees : forall n rate, (2 <= n)%N ->
  calculate_finite_duration n rate = calculate_duration n rate.
Proof.
  intros n rate H. unfold calculate_finite_duration, calculate_duration.
  destruct (N.leb_spec n 1); [lia |]. destruct (N.eqb_spec n 0); [lia |]. destruct (N.eqb_spec n 1); [lia |]. reflexivity.
Qed.
Print Assumptions C11_finite_duration_agrees.

(** beyond binary32's integer precision the inverse breaks *)
Theorem C11_large_counts_refuted :
  calculate_num_samples (calculate_duration 16777218 rate30) rate30 <> Ok 16777218%N.
Proof. vm_compute. discriminate. Qed.
Print Assumptions C11_large_counts_refuted.

Example C11_sat : calculate_num_samples (calculate_duration 1000 rate30) rate30 = Ok 1000%N.
Proof. vm_compute. reflexivity. Qed.

(** * C12 *)
Theorem C12_policies_round : forall al rp, ffinite al = true -> 0 <= FR al <= 1 ->
  let r := apply_rounding_policy al rp in
  ffinite r = true /\ 0 <= FR r <= 1 /\
  match rp with
  | rp_none | rp_per_track => r = al
  | rp_floor => FR r = 0
  | rp_ceil => FR r = 1
  | rp_nearest => (/ 2 <= FR al -> FR r = 1) /\ (FR al < / 2 -> al <> f_of_bits 0x3EFFFFFF -> FR r = 0) /\ (FR r = 0 \/ FR r = 1)
  end.
Proof. exact rounding_spec. Qed.
Print Assumptions C12_policies_round.

(** the single exception: the largest float below 1/2 is rounded up (0.49999997 + 0.5 rounds to 1) *)
Theorem C12_nearest_refuted : exists al, ffinite al = true /\ 0 <= FR al < / 2 /\ FR (apply_rounding_policy al rp_nearest) = 1.
Proof.
  exists (f_of_bits 0x3EFFFFFF). split; [reflexivity |]. unfold FR. split.
  - vm_compute. lra.
  - vm_compute. lra.
Qed.
Print Assumptions C12_nearest_refuted.

Theorem C12_idempotent : forall al rp, ffinite al = true -> 0 <= FR al <= 1 ->
  apply_rounding_policy (apply_rounding_policy al rp) rp = apply_rounding_policy al rp.
Proof. exact rounding_idem. Qed.
Print Assumptions C12_idempotent.

Example C12_sat : ffinite (f_of_bits 0x3EAAAAAB) = true /\ 0 <= FR (f_of_bits 0x3EAAAAAB) <= 1 /\
  f_bits (apply_rounding_policy (f_of_bits 0x3EAAAAAB) rp_nearest) = 0%N.
Proof. split; [reflexivity |]. unfold FR. split; vm_compute; [lra | reflexivity]. Qed.
