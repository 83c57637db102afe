(** Model of the sampling of raw track arrays (model only): compression/impl/track_array.impl.h:113-124 (get_finite_duration), :210-343
    (sample_tracks), :346-438 (sample_track); core/sample_rounding_policy.h:38-111.
    One function for the six track types: [V] is the type of a sample and [lerp] its interpolation (scalar_lerp, vector_lerp; for qvvf
    quat_lerp and vector_lerp of translation and scale, whose three writes are one write of the triple here). *)
From Verif Require Import Word Float32 Interp ScalarDec.
Local Open Scope N_scope.

Record raw_track (V : Type) : Type := { rt_num_samples : N; rt_sample_rate : f32; rt_samples : list V }.
Arguments rt_num_samples {V}. Arguments rt_sample_rate {V}. Arguments rt_samples {V}.

(** get_num_samples_per_track, get_sample_rate (track_array.h:91, :103) and get_finite_duration: those of the first track, 0 without tracks *)
Definition array_num_samples {V} (ts : list (raw_track V)) : N := match ts with t :: _ => rt_num_samples t | [] => 0 end.
Definition array_sample_rate {V} (ts : list (raw_track V)) : f32 := match ts with t :: _ => rt_sample_rate t | [] => f_zero end.
Definition array_finite_duration {V} (lp : looping_policy) (ts : list (raw_track V)) : f32 :=
  match ts with t :: _ => clip_finite_duration (rt_num_samples t) (rt_sample_rate t) lp | [] => f_zero end.

(** sample_rounding_policy.h:38-104, the order of the values *)
Definition policy_index (p : rounding_policy) : nat :=
  match p with rp_none => 0 | rp_floor => 1 | rp_ceil => 2 | rp_nearest => 3 | rp_per_track => 4 end.

Definition two_samples {V} (t : raw_track V) (k0 k1 : N) : outcome (V * V) :=
  match nth_error (rt_samples t) (N.to_nat k0), nth_error (rt_samples t) (N.to_nat k1) with
  | Some v0, Some v1 => Ok (v0, v1)
  | _, _ => UB
  end.

(** the loops of :243-341; the assert that the writer does not return per_track is not modelled *)
Fixpoint sample_loop {V} (lerp : V -> V -> f32 -> V) (w : writer) (rp : rounding_policy) (alphas : list f32) (k0 k1 : N) (i : N) (ts : list (raw_track V)) : outcome (list (N * V)) :=
  match ts with
  | [] => Ok []
  | t :: rest =>
      let alpha := nth (policy_index (w_rounding w rp i)) alphas f_zero in
      bindo (two_samples t k0 k1) (fun '(v0, v1) =>
      bindo (sample_loop lerp w rp alphas k0 k1 (i + 1) rest) (fun l => Ok ((i, lerp v0 v1 alpha) :: l)))
  end.
(** sample_tracks; the result is the list of the writes *)
Definition raw_sample_tracks {V} (lerp : V -> V -> f32 -> V) (lp : looping_policy) (ts : list (raw_track V)) (sample_time : f32) (rp : rounding_policy) (w : writer) : outcome (list (N * V)) :=
  let t := fclamp sample_time f_zero (array_finite_duration lp ts) in
  bindo (find_linear_interpolation_samples_with_sample_rate (array_num_samples ts) (array_sample_rate ts) t rp_per_track lp) (fun '(k0, k1, alpha) =>
  let no_rounding_alpha := apply_rounding_policy alpha rp_none in
  let alphas := [no_rounding_alpha; apply_rounding_policy alpha rp_floor; apply_rounding_policy alpha rp_ceil; apply_rounding_policy alpha rp_nearest; no_rounding_alpha] in
  sample_loop lerp w rp alphas k0 k1 0 ts).
(** sample_track; the index is asserted to be one of a track *)
Definition raw_sample_track {V} (lerp : V -> V -> f32 -> V) (lp : looping_policy) (ts : list (raw_track V)) (track_index : N) (sample_time : f32) (rp : rounding_policy) (w : writer) : outcome (list (N * V)) :=
  match nth_error ts (N.to_nat track_index) with
  | None => UB
  | Some track =>
      let t := fclamp sample_time f_zero (array_finite_duration lp ts) in
      let policy := w_rounding w rp track_index in
      bindo (find_linear_interpolation_samples_with_sample_rate (array_num_samples ts) (array_sample_rate ts) t policy lp) (fun '(k0, k1, alpha) =>
      bindo (two_samples track k0 k1) (fun '(v0, v1) => Ok [(track_index, lerp v0 v1 alpha)]))
  end.
