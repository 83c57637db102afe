(** Model of sample time handling: includes/acl/core/impl/interpolation_utils.impl.h, time_utils.impl.h
    and the seek() clamp of the scalar/transform decompression contexts. *)
From Coq Require Import NArith Bool.
From Verif Require Import Word Float32.
Local Open Scope N_scope.

(** core/sample_rounding_policy.h:40-92, core/sample_looping_policy.h:40-90 (as_compressed is resolved by the callers) *)
Inductive rounding_policy := rp_none | rp_floor | rp_ceil | rp_nearest | rp_per_track.
Inductive looping_policy := lp_clamp | lp_wrap.

(** interpolation_utils.impl.h:261-279 *)
Definition apply_rounding_policy (alpha : f32) (policy : rounding_policy) : f32 :=
  match policy with
  | rp_none | rp_per_track => alpha
  | rp_floor => f_zero
  | rp_ceil => f_one
  | rp_nearest => ffloor (fadd alpha f_half)
  end.

(** Common tail of both search functions, interpolation_utils.impl.h:82-117 and :163-200:
    from the float sample index to the pair of key frames and the interpolation alpha. *)
Definition samples_at (num_samples : N) (sample_index : f32) (rp : rounding_policy) (lp : looping_policy)
  : outcome (N * N * f32) :=
  bindo (f_to_u32 sample_index) (fun sample_index0 =>
  let last_sample_index := num_samples - 1 in
  let next_sample_index := wrapw 32 (sample_index0 + 1) in
  let '(si, i0, i1) :=
    match lp with
    | lp_clamp => (sample_index, sample_index0, N.min next_sample_index last_sample_index)
    | lp_wrap =>
        if last_sample_index <? sample_index0 then (f_zero, 0, 0)
        else (sample_index, sample_index0, if num_samples <=? next_sample_index then 0 else next_sample_index)
    end in
  let alpha := fsub si (f_of_N i0) in
  Ok (i0, i1, apply_rounding_policy alpha rp)).

(** interpolation_utils.impl.h:143-201; the asserted preconditions are hypotheses of the theorems *)
Definition find_linear_interpolation_samples_with_sample_rate
  (num_samples : N) (sample_rate sample_time : f32) (rp : rounding_policy) (lp : looping_policy) : outcome (N * N * f32) :=
  samples_at num_samples (fmul sample_time sample_rate) rp lp.

(** interpolation_utils.impl.h:57-118 *)
Definition find_linear_interpolation_samples_with_duration
  (num_samples : N) (duration sample_time : f32) (rp : rounding_policy) (lp : looping_policy) : outcome (N * N * f32) :=
  let last_sample_index := num_samples - 1 in
  let sample_rate :=
    if feq duration f_zero then f_zero
    else match lp with
         | lp_clamp => fdiv (f_of_N last_sample_index) duration
         | lp_wrap => fdiv (f_of_N num_samples) duration
         end in
  samples_at num_samples (fmul sample_time sample_rate) rp lp.

(** interpolation_utils.impl.h:224-253 *)
Definition find_linear_interpolation_alpha (sample_index : f32) (i0 i1 : N) (rp : rounding_policy) : f32 :=
  match rp with
  | rp_floor => f_zero
  | rp_ceil => f_one
  | _ =>
      if i0 =? i1 then f_zero
      else
        let alpha :=
          if i0 <? i1 then fdiv (fsub sample_index (f_of_N i0)) (f_of_N (i1 - i0))
          else fsub sample_index (f_of_N i0) in
        match rp with
        | rp_nearest => ffloor (fadd alpha f_half)
        | _ => alpha
        end
  end.

(** time_utils.impl.h:56-70 *)
Definition calculate_num_samples (duration sample_rate : f32) : outcome N :=
  if feq duration f_zero then Ok 0
  else if feq duration f_inf then Ok 1
  else bindo (f_to_u32 (ffloor (fadd (fmul duration sample_rate) f_half))) (fun n => Ok (wrapw 32 (n + 1))).

(** time_utils.impl.h:82-93 *)
Definition calculate_duration (num_samples : N) (sample_rate : f32) : f32 :=
  if num_samples =? 0 then f_zero
  else if num_samples =? 1 then f_inf
  else fdiv (f_of_N (num_samples - 1)) sample_rate.

(** time_utils.impl.h:102-112 *)
Definition calculate_finite_duration (num_samples : N) (sample_rate : f32) : f32 :=
  if num_samples <=? 1 then f_zero else fdiv (f_of_N (num_samples - 1)) sample_rate.

(** compressed_tracks.impl.h:102-122 get_finite_duration(policy): wrapping repeats the first sample at the end *)
Definition clip_finite_duration (num_samples : N) (sample_rate : f32) (lp : looping_policy) : f32 :=
  let n := match lp with
           | lp_wrap => if num_samples =? 0 then num_samples else wrapw 32 (num_samples + 1)
           | lp_clamp => num_samples
           end in
  calculate_finite_duration n sample_rate.

(** decompression.scalar.h:181-208 / decompression.transform.h:205-240, the part of seek() that turns the requested time
    into key frames (clamp_sample_time() and is_wrapping_supported() are true, the default settings) *)
Definition seek_key_frames (num_samples : N) (sample_rate : f32) (lp : looping_policy) (rp : rounding_policy)
  (sample_time : f32) : outcome (N * N * f32) :=
  let t := fclamp sample_time f_zero (clip_finite_duration num_samples sample_rate lp) in
  find_linear_interpolation_samples_with_sample_rate num_samples sample_rate t rp lp.
