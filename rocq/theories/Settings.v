(** Model of the validation of the settings and of the arguments of compression (model only). *)
From Verif Require Import Word MemoryUtils Float32 Headers DbBuild DbLayout ScalarDec ScalarMeta TransMeta.
Import ListNotations.
Local Open Scope N_scope.

(** the messages of the error_result; None below is a default constructed, empty one *)
Inductive settings_error :=
  e_chunk_too_small | e_chunk_not_multiple | e_medium_proportion | e_low_proportion | e_sum | e_no_metric | e_proportion | e_threshold | e_stripping_and_database
| e_raw_contributing_error | e_too_many_samples.

(** compression_database_settings, compression_settings.h:49-88; is_valid, compression_settings.impl.h:51-73; 1.0e-5F *)
Record db_settings := { max_chunk_size : N; medium_proportion : f32; low_proportion : f32 }.
Definition f_epsilon : f32 := f_of_bits 0x3727C5AC.
Definition out_of_unit (x : f32) : bool := negb (ffinite x) || flt x f_zero || fgt x f_one.
Definition db_settings_is_valid (s : db_settings) : option settings_error :=
  if max_chunk_size s <? 4 * 1024 then Some e_chunk_too_small
  else if negb (align_to 32 (max_chunk_size s) (4 * 1024) =? max_chunk_size s) then Some e_chunk_not_multiple
  else if out_of_unit (medium_proportion s) then Some e_medium_proportion
  else if out_of_unit (low_proportion s) then Some e_low_proportion
  else
    let database_proportion := fadd (low_proportion s) (medium_proportion s) in
    if flt database_proportion f_epsilon || fgt database_proportion (fadd f_one f_epsilon) then Some e_sum
    else None.

(** compression_keyframe_stripping_settings, compression_settings.h:157-198, compression_settings.impl.h:92-117 *)
Record strip_settings := { proportion : f32; threshold : f32; strip_trivial : bool }.
Definition strip_is_enabled (s : strip_settings) : bool := fgt (proportion s) f_zero || fgt (threshold s) f_zero || strip_trivial s.
Definition strip_is_valid (s : strip_settings) : option settings_error :=
  if out_of_unit (proportion s) then Some e_proportion
  else if negb (ffinite (threshold s)) || flt (threshold s) f_zero then Some e_threshold
  else None.

(** rotation_format8 and vector_format8, track_formats.h:48-71; is_*_format_variable, track_formats.impl.h:130-143 *)
Inductive rotation_format := quatf_full | quatf_drop_w_full | quatf_drop_w_variable.
Inductive vector_format := vector3f_full | vector3f_variable.
Definition is_rotation_format_variable (r : rotation_format) : bool := match r with quatf_drop_w_variable => true | _ => false end.
Definition is_vector_format_variable (v : vector_format) : bool := match v with vector3f_variable => true | vector3f_full => false end.
(** compression_settings, compression_settings.h:201-256: the error metric is whether the pointer is not null *)
Record csettings := { rotations : rotation_format; translations : vector_format; scales : vector_format; has_error_metric : bool; enable_database_support : bool;
  c_optimize_loops : bool; keyframe_stripping : strip_settings; metadata : tflags }.
(** compression_settings::is_valid, compression_settings.impl.h:138-155; compression_metadata_settings::is_valid always succeeds *)
Definition csettings_is_valid (s : csettings) : option settings_error :=
  if negb (has_error_metric s) then Some e_no_metric
  else match strip_is_valid (keyframe_stripping s) with
  | Some e => Some e
  | None => if strip_is_enabled (keyframe_stripping s) && enable_database_support s then Some e_stripping_and_database else None
  end.
(** get_raw_compression_settings and get_default_compression_settings, compression_settings.impl.h:157-173 *)
Definition no_metadata : tflags := {| f_list_name := false; f_names := false; f_parents := false; f_descriptions := false; f_error := false |}.
Definition raw_settings : csettings := {| rotations := quatf_full; translations := vector3f_full; scales := vector3f_full; has_error_metric := false; enable_database_support := false;
  c_optimize_loops := false; keyframe_stripping := {| proportion := f_zero; threshold := f_zero; strip_trivial := false |}; metadata := no_metadata |}.
Definition default_settings : csettings := {| rotations := quatf_drop_w_variable; translations := vector3f_variable; scales := vector3f_variable; has_error_metric := false; enable_database_support := false;
  c_optimize_loops := true; keyframe_stripping := {| proportion := f_zero; threshold := f_zero; strip_trivial := true |}; metadata := no_metadata |}.

(** compression_segmenting_settings, segment_context.h:55-79 *)
Record segmenting := { ideal_num_samples : N; max_num_samples : N }.
Inductive segmenting_error := e_ideal_too_small | e_ideal_over_max.
Definition segmenting_is_valid (s : segmenting) : option segmenting_error :=
  if ideal_num_samples s <? 8 then Some e_ideal_too_small
  else if max_num_samples s <? ideal_num_samples s then Some e_ideal_over_max
  else None.

(** what compress_transform_track_list does with its settings first, compress.transform.impl.h:143-183: an error, or the settings
    it goes on with, the segmenting settings and whether the contributing error is removed at the end (:284-285) *)
Definition with_metadata_flags (s : csettings) (m : tflags) : csettings :=
  {| rotations := rotations s; translations := translations s; scales := scales s; has_error_metric := has_error_metric s; enable_database_support := enable_database_support s;
     c_optimize_loops := c_optimize_loops s; keyframe_stripping := keyframe_stripping s; metadata := m |}.
Definition with_error (m : tflags) (e : bool) : tflags :=
  {| f_list_name := f_list_name m; f_names := f_names m; f_parents := f_parents m; f_descriptions := f_descriptions m; f_error := e |}.
Definition prepare_settings (s : csettings) : settings_error + (csettings * segmenting * bool) :=
  match csettings_is_valid s with
  | Some e => inl e
  | None =>
    let seg := {| ideal_num_samples := 16; max_num_samples := 31 |} in
    let '(m, remove) :=
      if enable_database_support s then (with_error (metadata s) true, false)
      else if strip_is_enabled (keyframe_stripping s) then (with_error (metadata s) true, negb (f_error (metadata s)))
      else (metadata s, false) in
    let raw := negb (is_rotation_format_variable (rotations s)) && negb (is_vector_format_variable (translations s)) && negb (is_vector_format_variable (scales s)) in
    if raw && f_error m then inl e_raw_contributing_error
    else
      let seg := if raw then {| ideal_num_samples := 0xFFFFFFFF; max_num_samples := 0xFFFFFFFF |} else seg in
      if f_error m && (32 <? max_num_samples seg) then inl e_too_many_samples
      else inr (with_metadata_flags s (effective_flags m), seg, remove)
  end.
(** the flags the metadata is written with, :284-285 and :368-397 *)
Definition written_flags (s : csettings) (remove : bool) : tflags := if remove then with_error (metadata s) false else metadata s.

(** build_database validates its arguments first, compress.database.impl.h:1263-1300: the clips are null pointers or buffers at an
    address.  Ok true: it goes on. *)
Inductive build_error := b_settings | b_no_list | b_null_entry | b_invalid_clip | b_has_database | b_stripped | b_no_metadata | b_no_error | b_all_empty.
Definition check_clip (p : option (N * list N)) : outcome (option build_error) :=
  match p with
  | None => Ok (Some b_null_entry)
  | Some (addr, m) =>
    bindo (tracks_is_valid addr m false) (fun e => match e with
    | Some _ => Ok (Some b_invalid_clip)
    | None =>
      bindo (h_misc m) (fun misc =>
      if negb (get_has_database misc =? 0) then Ok (Some b_has_database)
      else if negb (get_has_stripped_keyframes misc =? 0) then Ok (Some b_stripped)
      else if get_has_metadata misc =? 0 then Ok (Some b_no_metadata)
      else
        bindo (metadata_header m) (fun h =>
        bindo (read32 m (h + 16)) (fun o => Ok (if negb (ptr_is_valid o) then Some b_no_error else None))))
    end)
  end.
Fixpoint check_clips (l : list (option (N * list N))) : outcome (option build_error) :=
  match l with
  | [] => Ok None
  | p :: rest => bindo (check_clip p) (fun e => match e with Some e => Ok (Some e) | None => check_clips rest end)
  end.
(** calculate_num_frames :197-211 *)
Fixpoint sum_frames (l : list (option (N * list N))) (acc : N) : outcome N :=
  match l with
  | [] => Ok acc
  | Some (_, m) :: rest => bindo (read32 m 20) (fun n => sum_frames rest (addw 32 acc n))
  | None :: _ => UB
  end.
Definition check_build (s : db_settings) (l : list (option (N * list N))) : outcome (option build_error) :=
  match db_settings_is_valid s with
  | Some _ => Ok (Some b_settings)
  | None =>
    if N.of_nat (length l) =? 0 then Ok (Some b_no_list)
    else
      bindo (check_clips l) (fun e => match e with
      | Some e => Ok (Some e)
      | None => bindo (sum_frames l 0) (fun n => Ok (if n =? 0 then Some b_all_empty else None))
      end)
  end.
