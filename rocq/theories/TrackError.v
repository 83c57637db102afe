(** Model of the measure of the compression error of scalar tracks (model only): compression/impl/track_error.impl.h:53-101 (get_scalar_track_error),
    :166-217 (calculate_scalar_track_error), :400-461 (calculate_compression_error of raw tracks and a context);
    compression/impl/track_array.impl.h:113-124, :210-343 (sample_tracks). *)
From Verif Require Import Word Float32 Interp TrackArray ScalarEnc ScalarDec ScalarSpec.
Local Open Scope N_scope.

(** track_error, track_error.h:48-61 *)
Record track_error := { te_index : N; te_error : f32; te_time : f32 }.
(** as constructed: "cannot measure any error" *)
Definition te_none : track_error := {| te_index := k_invalid_track_index; te_error := f_zero; te_time := f_zero |}.
(** :176-177 result.error = -1.0F *)
Definition te_start : track_error := {| te_index := k_invalid_track_index; te_error := f_minus_one; te_time := f_zero |}.

(** The writers are debug_track_writer (core/impl/debug_track_writer.h:51-216): nothing is skipped, the rounding policy is that of the
    seek.  Their memory: [None] is what was not written yet, reading it is undefined (that the writer has room for the indices written is
    not modelled: there are no more of them than raw tracks). *)
Definition debug_writer : writer := {| w_rounding := fun p _ => p; w_skip := fun _ => false |}.
Definition writer_memory : Type := N -> option (list f32).
Definition write_track (mem : writer_memory) (x : N * list f32) : writer_memory := fun i => if i =? fst x then Some (snd x) else mem i.
Definition write_tracks (mem : writer_memory) (l : list (N * list f32)) : writer_memory := fold_left write_track l mem.

(** get_scalar_track_error :53-101 and rtm::vector_get_max_component :206: the absolute differences of the components; that of a float1f is in
    the four lanes, the lanes past the last component of a float2f or float3f are zero *)
Definition error_lanes (nc : nat) (raw lossy : list f32) : list f32 :=
  let d := map2 (fun a b => fabs (fsub a b)) raw lossy in
  match nc with
  | 1%nat => repeat (nth 0 d f_zero) 4
  | _ => firstn 4 (firstn nc d ++ repeat f_zero 4)
  end.
Definition max_component (l : list f32) : f32 := fmax (fmax (nth 0 l f_zero) (nth 1 l f_zero)) (fmax (nth 2 l f_zero) (nth 3 l f_zero)).
Definition scalar_track_error (nc : nat) (raw lossy : list f32) : f32 := max_component (error_lanes nc raw lossy).

(** track_array::sample_tracks, track_array.impl.h:210-343 for the scalar types: every track at the same two key frames *)
Fixpoint sample_values (k0 k1 : N) (alpha : f32) (ts : list strack) : outcome (list (list f32)) :=
  match ts with
  | [] => Ok []
  | t :: rest =>
      match nth_error (st_samples t) (N.to_nat k0), nth_error (st_samples t) (N.to_nat k1) with
      | Some v0, Some v1 => bindo (sample_values k0 k1 alpha rest) (fun l => Ok (interpolate alpha v0 v1 :: l))
      | _, _ => UB
      end
  end.
Definition sample_tracks (lp : looping_policy) (ts : list strack) (sample_time : f32) (rp : rounding_policy) : outcome (list (list f32)) :=
  let n := list_num_samples ts in
  let rate := list_sample_rate ts in
  let t := fclamp sample_time f_zero (clip_finite_duration n rate lp) in
  bindo (find_linear_interpolation_samples_with_sample_rate n rate t rp_per_track lp) (fun '(k0, k1, alpha) =>
  sample_values k0 k1 (apply_rounding_policy alpha rp) ts).

(** :197-213 the tracks at one sample; [i]: track_index, [time]: sample_time *)
Fixpoint measure_tracks (nc : nat) (mem : writer_memory) (time : f32) (i : N) (ts : list strack) (raws : list (list f32)) (result : track_error) : outcome track_error :=
  match ts, raws with
  | [], _ => Ok result
  | t :: ts, raw :: raws =>
      let output := output_index (st_track t) in
      if output =? k_invalid_track_index then measure_tracks nc mem time (i + 1) ts raws result
      else
        match mem output with
        | None => UB
        | Some lossy =>
            let error := scalar_track_error nc raw lossy in
            measure_tracks nc mem time (i + 1) ts raws (if fgt error (te_error result) then {| te_index := i; te_error := error; te_time := time |} else result)
        end
  | _ :: _, [] => UB
  end.
(** :190-214 the samples; the adapter of :410-438: the raw tracks are sampled, the context is sought and decompressed *)
Fixpoint measure_samples (ds : dsettings) (lp : looping_policy) (ts : list strack) (rp : rounding_policy) (k : N) (count : nat) (c : dcontext) (mem : writer_memory) (result : track_error) : outcome (track_error * dcontext) :=
  match count with
  | O => Ok (result, c)
  | S count =>
      let rate := list_sample_rate ts in
      let time := fmin (fdiv (f_of_N k) rate) (clip_finite_duration (list_num_samples ts) rate lp) in
      bindo (sample_tracks lp ts time rp) (fun raws =>
      bindo (seek ds c time rp) (fun c =>
      bindo (decompress_tracks ds c debug_writer) (fun res =>
      let mem := write_tracks mem res in
      bindo (measure_tracks (num_sample_elements (list_type ts)) mem time 0 ts raws result) (fun result =>
      measure_samples ds lp ts rp (k + 1) count c mem result))))
  end.
(** :400-461 calculate_compression_error(allocator, raw_tracks, context) for scalar tracks.  has_database() and has_stripped_keyframes() are
    bits 8 and 10 of misc_packed, whatever the type of the tracks (compressed_headers.h:119, :123 assert that it is qvvf). *)
Definition calculate_compression_error (ds : dsettings) (lp : looping_policy) (ts : list strack) (c : dcontext) : outcome (track_error * dcontext) :=
  let n := list_num_samples ts in
  bindo (h_misc (d_tracks c)) (fun misc =>
  let rp := if N.testbit misc 8 || N.testbit misc 10 then rp_none else rp_nearest in
  if n =? 0 then Ok (te_none, c)
  else if N.of_nat (length ts) =? 0 then Ok (te_none, c)
  else measure_samples ds lp ts rp 0 (N.to_nat n) c (fun _ => None) te_start).
