(** compress_transform_track_list from the track array on (model only): compress.transform.impl.h:137-607, clip_context.impl.h:82-220,
    optimize_looping.transform.h, convert_rotation.transform.h, compact.transform.h, then [compress_sources].
    RTM's quaternion functions and the error metric (a class of the user) are arguments: any functions. *)
From Verif Require Import Word Float32 Interp Segment Strip TransMeta TransDec TransEnc TransFile TransTop TransQuant TransQuantClip TrackArray.
From Verif Require ScalarEnc.
Import ListNotations.
Local Open Scope N_scope.

(** rtm::qvvf *)
Record qvv := Qvv { v_rotation : vec; v_translation : vec; v_scale : vec }.
Definition part (ch : channel) (x : qvv) : vec := match ch with Rotation => v_rotation x | Translation => v_translation x | Scale => v_scale x end.
Definition with_part (ch : channel) (x : qvv) (v : vec) : qvv :=
  match ch with
  | Rotation => Qvv v (v_translation x) (v_scale x)
  | Translation => Qvv (v_rotation x) v (v_scale x)
  | Scale => Qvv (v_rotation x) (v_translation x) v
  end.
(** rtm *)
Record rtm := { quat_is_normalized : vec -> bool; quat_normalize : vec -> vec; quat_from_positive_w : vec -> vec; quat_near_identity : vec -> bool }.
(** itransform_error_metric, with the shell distance and the additive base of a transform: the error between two local transforms of
    transform [i] at sample [k] (compact.transform.h:126-205); between its first and its last one (optimize_looping.transform.h:112-172);
    the precision of its shell (rigid_shell_utils.h) *)
Record metric := { m_error : N -> N -> qvv -> qvv -> f32; m_loop_error : N -> qvv -> qvv -> f32; m_precision : N -> f32 }.
(** track_qvvf *)
Record qtrack := { y_samples : list qvv; y_default : qvv; y_output_index : N }.
(** compression_settings: the formats, optimize_loops *)
Record lsettings := { l_rotation : rotation_format; l_translation : bool; l_scale : bool; l_optimize_loops : bool }.
Definition l_variable (s : lsettings) (ch : channel) : bool :=
  match ch with Rotation => rotation_variable (l_rotation s) | Translation => l_translation s | Scale => l_scale s end.
(** rotation_format8::quatf_full, vector_format8::vector3f_full *)
Definition l_raw (s : lsettings) (ch : channel) : bool := match ch with Rotation => rotation_full (l_rotation s) | _ => negb (l_variable s ch) end.

(** ** initialize_clip_context, clip_context.impl.h:142-166 *)
Definition streams : Type := channel -> list vec.
Definition initial_sample (R : rtm) (s : lsettings) (ch : channel) (x : qvv) : vec :=
  match ch with
  | Rotation => if negb (rotation_full (l_rotation s)) || negb (quat_is_normalized R (v_rotation x)) then quat_normalize R (v_rotation x) else v_rotation x
  | _ => part ch x
  end.
Definition initial_streams (R : rtm) (s : lsettings) (y : qtrack) : streams := fun ch => map (initial_sample R s ch) (y_samples y).
(** rtm::quat_is_finite, vector_is_finite3 *)
Definition sample_is_finite (R : rtm) (s : lsettings) (x : qvv) : bool :=
  forallb ffinite (initial_sample R s Rotation x) && forallb ffinite (firstn 3 (v_translation x)) && forallb ffinite (firstn 3 (v_scale x)).
Definition samples_are_valid (R : rtm) (s : lsettings) (ts : list qtrack) : bool := forallb (fun y => forallb (sample_is_finite R s) (y_samples y)) ts.

(** ** optimize_looping, optimize_looping.transform.h:52-240 *)
Definition qvv_at (st : streams) (k : N) : qvv :=
  Qvv (nth (N.to_nat k) (st Rotation) []) (nth (N.to_nat k) (st Translation) []) (nth (N.to_nat k) (st Scale) []).
Fixpoint is_clip_looping (M : metric) (last i : N) (bones : list streams) : bool :=
  match bones with
  | [] => true
  | st :: t => if fgt (m_loop_error M i (qvv_at st 0) (qvv_at st last)) (m_precision M i) then false else is_clip_looping M last (i + 1) t
  end.
(** track_stream::strip_last_sample, track_stream.h:108-118 *)
Definition strip_last_sample (st : streams) : streams := fun ch => firstn (length (st ch) - 1) (st ch).
Definition optimize_looping (M : metric) (s : lsettings) (lp : looping_policy) (n : N) (bones : list streams) : N * looping_policy * list streams :=
  let keep := (n, lp, bones) in
  if negb (l_optimize_loops s) then keep
  else match lp with lp_wrap => keep | lp_clamp =>
    if l_raw s Rotation && l_raw s Translation && l_raw s Scale then keep
    else if n <=? 1 then keep
    else match bones with
    | [] => keep
    | _ => if is_clip_looping M (n - 1) 0 bones then (n - 1, lp_wrap, map strip_last_sample bones) else keep
    end
  end.

(** ** convert_rotation_streams, convert_rotation.transform.h:49-134.  rtm::quat_ensure_positive_w: the quaternion or its opposite, a multiplication
    by -1 *)
Definition ensure_positive_w (v : vec) : vec := if fge (lane 3 v) f_zero then v else map (fun x => fmul x (ScalarEnc.fneg f_one)) v.
Definition convert_streams (s : lsettings) (st : streams) : streams :=
  fun ch => match ch with Rotation => if rotation_full (l_rotation s) then st Rotation else map ensure_positive_w (st Rotation) | _ => st ch end.

(** ** compact_constant_streams, compact.transform.h:72-485; the error correction (:487-) is switched off (:52) *)
(** rotation_track_stream::get_sample and the others, track_stream.h:240-257, :294-297, :334-337 *)
Definition get_sample (R : rtm) (s : lsettings) (ch : channel) (v : vec) : vec :=
  match ch with
  | Rotation => if rotation_full (l_rotation s) then v else quat_normalize R (quat_from_positive_w R v)
  | _ => v
  end.
(** get_sample_clamped, track_stream.h:259-262, :299-302, :339-342 *)
Definition sample_clamped (st : streams) (ch : channel) (k : N) : vec := nth (N.to_nat (N.min k (N.of_nat (length (st ch)) - 1))) (st ch) [].
(** are_samples_constant, compact.transform.h:72-211 *)
Definition raw_transform (R : rtm) (s : lsettings) (st : streams) (k : N) : qvv :=
  let get ch := get_sample R s ch (sample_clamped st ch k) in Qvv (get Rotation) (get Translation) (get Scale).
Definition are_samples_constant (R : rtm) (M : metric) (s : lsettings) (i n : N) (st : streams) (ch : channel) (reference : vec) : bool :=
  forallb (fun k => let raw := raw_transform R s st (N.of_nat k) in negb (fgt (m_error M i (N.of_nat k) raw (with_part ch raw reference)) (m_precision M i))) (seq 0 (N.to_nat n)).
(** rtm::vector_all_equal; track_stream_range::is_constant, track_stream.h:373-381, with a threshold of zero *)
Fixpoint all_equal (a b : vec) : bool := match a, b with x :: a, y :: b => feq x y && all_equal a b | _, _ => true end.
Definition stream_range (ch : channel) (samples : list vec) : frange := calculate_track_range samples (match ch with Rotation => true | _ => false end).
Definition is_range_constant (r : frange) : bool := all_equal (r_min r) (r_max r).
(** are_rotations_constant, are_translations_constant, are_scales_constant, compact.transform.h:213-230, :256-273, :299-319: has_scale is
    set until the end of the compaction *)
Definition are_constant (R : rtm) (M : metric) (s : lsettings) (i n : N) (st : streams) (ch : channel) : bool :=
  if n =? 0 then true
  else if l_raw s ch then is_range_constant (stream_range ch (st ch))
  else are_samples_constant R M s i n st ch (get_sample R s ch (nth 0 (st ch) [])).
(** are_rotations_default, are_translations_default, are_scales_default, compact.transform.h:232-254, :275-297, :321-346 *)
Definition are_default (R : rtm) (M : metric) (s : lsettings) (i n : N) (st : streams) (ch : channel) (default : vec) : bool :=
  if n =? 0 then true
  else if l_raw s ch then all_equal (nth 0 (st ch) []) default
  else are_samples_constant R M s i n st ch default.
(** compact.transform.h:401-481: a bone that is being compacted *)
Record compacted := { k_streams : streams; k_constant : channel -> bool; k_default : channel -> bool }.
Definition channel_eqb (a b : channel) : bool := match a, b with Rotation, Rotation | Translation, Translation | Scale, Scale => true | _, _ => false end.
Definition at_channel {A} (f : channel -> A) (ch : channel) (x : A) : channel -> A := fun c => if channel_eqb c ch then x else f c.
Definition compact_channel (R : rtm) (M : metric) (s : lsettings) (i n : N) (default : qvv) (ch : channel) (c : compacted) : compacted :=
  let st := k_streams c in
  if are_constant R M s i n st ch then
    let value := if n =? 0 then part ch default else nth 0 (st ch) [] in
    if are_default R M s i n st ch (part ch default)
    then {| k_streams := at_channel st ch [part ch default]; k_constant := at_channel (k_constant c) ch true; k_default := at_channel (k_default c) ch true |}
    else {| k_streams := at_channel st ch [value]; k_constant := at_channel (k_constant c) ch true; k_default := k_default c |}
  else c.
Definition compact_bone (R : rtm) (M : metric) (s : lsettings) (i n : N) (default : qvv) (st : streams) : compacted :=
  let c := {| k_streams := st; k_constant := fun _ => false; k_default := fun _ => false |} in
  compact_channel R M s i n default Scale (compact_channel R M s i n default Translation (compact_channel R M s i n default Rotation c)).
(** the bones; the samples of the raw clip are those before the compaction, with convert_rotation
    (quantize.transform.h:406): those of the samples that are left after optimize_looping, no others are read *)
Fixpoint compact_bones (R : rtm) (M : metric) (s : lsettings) (i n : N) (l : list (qtrack * streams)) : list source :=
  match l with
  | [] => []
  | (y, st) :: t =>
      let st := convert_streams s st in
      let c := compact_bone R M s i n (y_default y) st in
      {| o_default := k_default c; o_constant := k_constant c; o_lossy := k_streams c; o_raw := st; o_output_index := y_output_index y |}
      :: compact_bones R M s (i + 1) n t
  end.
(** compact.transform.h:484-485 *)
Definition has_scale_left (l : list source) : bool := negb (N.of_nat (length (filter (fun o => o_default o Scale) l)) =? N.of_nat (length l)).

(** has_trivial_default_values, compress.transform.impl.h:75-110; [additive1]: additive_format is additive1.  vector_all_near_equal3 with
    a threshold of zero *)
Definition near_equal3 (a b : vec) : bool := forallb (fun '(x, y) => fle (fabs (fsub x y)) f_zero) (firstn 3 (combine a b)).
Definition has_trivial_default_values (R : rtm) (additive1 has_scale : bool) (ts : list qtrack) : bool :=
  let defaults := map y_default ts in
  if negb (forallb (fun d => quat_near_identity R (v_rotation d) && near_equal3 (v_translation d) (splat f_zero)) defaults) then false
  else
    let all_scales_zero := forallb (fun d => near_equal3 (v_scale d) (splat f_zero)) defaults in
    let all_scales_one := forallb (fun d => near_equal3 (v_scale d) (splat f_one)) defaults in
    if has_scale then
      if additive1 && negb all_scales_zero then false
      else if negb all_scales_one then false
      else true
    else true.

(** ** The clip *)
(** segment_streams with the settings of compress.transform.impl.h:151, :164-172 *)
Definition segment_sizes_of (s : lsettings) (n : N) : outcome (list N) :=
  let raw := negb (l_variable s Rotation) && negb (l_variable s Translation) && negb (l_variable s Scale) in
  let ideal := if raw then 0xFFFFFFFF else 16 in
  let max := if raw then 0xFFFFFFFF else 31 in
  bindo (split_samples_per_segment n ideal max) (fun sizes => Ok (match sizes with [] => [n] | _ => sizes end)).
Fixpoint segments_of (hard : N -> N) (i start : N) (sizes : list N) : list tsegment :=
  match sizes with
  | [] => []
  | n :: t => {| g_bones := []; g_num_samples := n; g_start := start; g_hard := hard i |} :: segments_of hard (i + 1) (addw 32 start n) t
  end.
(** create_output_track_mapping, track_list_context.h:210-232: only the output indices matter *)
Definition as_track (output : N) : track :=
  {| has_data := true; track_type := 12; num_samples := 0; sample_rate := f_zero; transform := true; precision := f_zero; shell_distance := f_zero;
     default_finite := true; default_normalized := true; output_index := output; parent_index := 0xFFFFFFFF |}.
Fixpoint all_some {A} (l : list (option A)) : outcome (list A) :=
  match l with [] => Ok [] | Some x :: t => bindo (all_some t) (fun r => Ok (x :: r)) | None :: _ => UB end.
(** what the clip is before quantization: the bones and the frame of the file (compress.transform.impl.h:410-435).  [hard]: the key frames that are kept when some are stripped *)
Record prepared := { pr_sources : list source; pr_clip : tclip }.
Definition prepare_clip (R : rtm) (M : metric) (s : lsettings) (additive1 : bool) (stripped : bool) (hard : N -> N)
    (lp : looping_policy) (rate : f32) (ts : list qtrack) : outcome (option prepared) :=
  if negb (samples_are_valid R s ts) then Ok None
  else
    let n := match ts with [] => 0 | y :: _ => N.of_nat (length (y_samples y)) end in
    let '(n, lp, bones) := optimize_looping M s lp n (map (initial_streams R s) ts) in
    let sources := compact_bones R M s 0 n (combine ts bones) in
    bindo (segment_sizes_of s n) (fun sizes =>
    bindo (create_output_track_mapping (map (fun y => as_track (y_output_index y)) ts)) (fun mapping =>
    bindo (all_some mapping) (fun mapping =>
    let has_scale := has_scale_left sources in
    Ok (Some {| pr_sources := sources;
                pr_clip := {| p_segments := segments_of hard 0 0 sizes; p_mapping := mapping; p_rotation := l_rotation s; p_translation := l_translation s; p_scale := l_scale s;
                              p_has_scale := has_scale; p_stripped := stripped; p_num_samples := n; p_sample_rate := rate; p_default_scale := if additive1 then 0 else 1;
                              p_trivial_defaults := if has_trivial_default_values R additive1 has_scale ts then 1 else 0;
                              p_wrap := match lp with lp_wrap => 1 | lp_clamp => 0 end |} |})))).
(** compress_transform_track_list, compress.transform.impl.h:137-607; None: an error is returned (:205-206).  [rates] and [hard]: what the
    search for bit rates and strip_keyframes find *)
Definition compress_list (R : rtm) (M : metric) (s : lsettings) (additive1 : bool) (stripped : bool) (hard : N -> N) (rates : N -> N -> channel -> N)
    (junk : N -> N -> channel -> N -> list N) (j : junks) (f : tflags) (list_name : list N) (tracks : list ttrack) (error : list N)
    (lp : looping_policy) (rate : f32) (ts : list qtrack) : outcome (option (list N)) :=
  bindo (prepare_clip R M s additive1 stripped hard lp rate ts) (fun o =>
  match o with
  | None => Ok None
  | Some x => bindo (compress_sources junk j f list_name tracks error rates (pr_sources x) (pr_clip x)) (fun m => Ok (Some m))
  end).
