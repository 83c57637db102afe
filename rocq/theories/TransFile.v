(** The whole buffer of a transform clip (model only): compression/impl/compress.transform.impl.h:287-532, write_segment_data.h.
    The bit rates, the normalization and the quantization are done: the streams hold quantized samples.  The buffer stops at the
    end of the last segment: the optional metadata or the padding, the size and the hash are [add_metadata], TransMeta.v.
    An address is an offset from the start of the buffer, which is aligned to 16 bytes. *)
From Verif Require Import Word MemoryUtils BitManip Bitset Float32 Quant Headers Packing SubTracks DbBuild TransDec TransEnc.
Local Open Scope N_scope.

(** segment_context, segment_context.h: bone_streams, num_samples, clip_sample_offset, hard_keyframes *)
Record tsegment := { g_bones : list tbone; g_num_samples : N; g_start : N; g_hard : N }.
(** clip_context and the settings: the segments, the output bones, the formats, has_scale, has_stripped_keyframes, the number of
    samples, the sample rate, the bits of the header *)
Record tclip := {
  p_segments : list tsegment; p_mapping : list N;
  p_rotation : rotation_format; p_translation : bool; p_scale : bool; p_has_scale : bool; p_stripped : bool;
  p_num_samples : N; p_sample_rate : f32; p_default_scale : N; p_trivial_defaults : N; p_wrap : N
}.
(** is_rotation_format_variable, is_vector_format_variable; also range_reduction, compress.transform.impl.h:188-199 *)
Definition p_variable (p : tclip) (ch : channel) : bool :=
  match ch with Rotation => rotation_variable (p_rotation p) | Translation => p_translation p | Scale => p_scale p end.
Definition is_range_reduced (p : tclip) : bool := p_variable p Rotation || p_variable p Translation || p_variable p Scale.
Definition num_segments (p : tclip) : N := N.of_nat (length (p_segments p)).

(** normalize_segment_streams, normalize.transform.h:411-439: the size of the segment ranges *)
Definition segment_range_size (flags : channel -> bool) (bones : list tbone) : N :=
  let r := fold_left (fun (a : N * N) b =>
    if b_output_index b =? 0xFFFFFFFF then a else
    let count ch := if flags ch && negb (b_constant b ch) then 6 else 0 in
    (addw 32 (addw 32 (addw 32 (fst a) (count Rotation)) (count Translation)) (count Scale),
     if flags Rotation && negb (b_constant b Rotation) then addw 32 (snd a) 1 else snd a)) bones (0, 0) in
  let partial := snd r mod 4 in
  if partial =? 0 then fst r else addw 32 (fst r) (mulw 32 (4 - partial) 6).

(** the sizes of a segment: calculate_animated_data_size, write_stream_data.h:124-158, and keyframe_stripping.h:135-137 *)
Record seg_sizes := { z_rotation : N; z_translation : N; z_pose : N; z_range : N; z_data : N }.
Definition segment_sizes (p : tclip) (g : tsegment) : outcome seg_sizes :=
  bindo (pose_bits Rotation (g_bones g) (p_mapping p) 0) (fun r =>
  bindo (pose_bits Translation (g_bones g) (p_mapping p) 0) (fun t =>
  bindo (pose_bits Scale (g_bones g) (p_mapping p) 0) (fun s =>
  let pose := addw 32 (addw 32 r t) s in
  let num_stored := if p_stripped p then count_set_bits32 (g_hard g) else g_num_samples g in
  Ok {| z_rotation := r; z_translation := t; z_pose := pose;
        z_range := if is_range_reduced p && (1 <? num_segments p) then segment_range_size (p_variable p) (g_bones g) else 0;
        z_data := align_to 32 (mulw 32 pose num_stored) 8 / 8 |}))).
Fixpoint all_sizes (p : tclip) (gs : list tsegment) : outcome (list seg_sizes) :=
  match gs with [] => Ok [] | g :: t => bindo (segment_sizes p g) (fun z => bindo (all_sizes p t) (fun zs => Ok (z :: zs))) end.
(** compress.transform.impl.h:345-363: the segments, [size] the size of the format bytes *)
Fixpoint segments_end (size : N) (zs : list seg_sizes) (buffer_size : N) : N :=
  match zs with
  | [] => buffer_size
  | z :: t =>
      let b := addw 32 buffer_size size in
      let b := addw 32 (align_to 32 b 2) (z_range z) in
      let b := addw 32 (align_to 32 b 4) (z_data z) in
      segments_end size t b
  end.

(** get_num_animated_sub_tracks, animated_track_utils.h:48-91 *)
Definition num_animated (ch : channel) (bones : list tbone) : N :=
  fold_left (fun a b => if b_output_index b =? 0xFFFFFFFF then a else if b_constant b ch then a else addw 32 a 1) bones 0.
(** write_packed_sub_track_types, write_sub_track_types.h:43-173: the types of one kind of sub-track, in output order *)
Definition sub_track_type_of (b : tbone) (ch : channel) : N := if b_default b ch then 0 else if b_constant b ch then 1 else 2.
Fixpoint types_of (ch : channel) (bones : list tbone) (mapping : list N) : outcome (list N) :=
  match mapping with
  | [] => Ok []
  | i :: t => bindo (bone_at bones i) (fun b => bindo (types_of ch bones t) (fun l => Ok (sub_track_type_of b ch :: l)))
  end.
Definition write_sub_track_types (has_scale : bool) (bones : list tbone) (mapping : list N) : outcome (list N) :=
  bindo (types_of Rotation bones mapping) (fun r =>
  bindo (types_of Translation bones mapping) (fun t =>
  bindo (if has_scale then bindo (types_of Scale bones mapping) (fun s => Ok (write_packed_sub_track_types s)) else Ok []) (fun s =>
  Ok (words (write_packed_sub_track_types r ++ write_packed_sub_track_types t ++ s))))).

Definition transform_header : N := 32.
(** sizeof(transform_tracks_header) *)
Definition transform_header_size : N := 52.
(** transform_tracks_header::get_segment_data, compressed_headers.h:292-324, from the address of the segment header: the format
    bytes, the ranges, the animated data.  Addresses are aligned. *)
Definition segment_pointers (m : list N) (header : N) : outcome (N * N * N) :=
  bindo (read32 m (header + 12)) (fun segment_data =>
  bindo (read32 m (transform_header + 4)) (fun num_variable =>
  bindo (read32 m transform_header) (fun num_segments =>
  let formats := transform_header + segment_data in
  let ranges := align_to 64 (formats + num_variable) 2 in
  let range_size := if 1 <? num_segments then mulw 32 6 num_variable else 0 in
  Ok (formats, ranges, align_to 64 (ranges + range_size) 4)))).

(** write_segment_start_indices, write_segment_data.h:48-65 *)
Definition start_indices (gs : list tsegment) : list N := words (map g_start gs ++ [0xFFFFFFFF]).
(** write_segment_headers, write_segment_data.h:67-125 *)
Fixpoint write_segment_headers (stripped : bool) (format_size : N) (gs : list tsegment) (zs : list seg_sizes) (at_ offset : N) (m : list N) : outcome (list N) :=
  match gs, zs with
  | g :: gs, z :: zs =>
      bindo (store_bytes m at_ (words ([z_pose z; z_rotation z; z_translation z; offset] ++ if stripped then [g_hard g] else []))) (fun m =>
      let o := align_to 32 (addw 32 offset format_size) 2 in
      let o := align_to 32 (addw 32 o (z_range z)) 4 in
      let o := addw 32 o (z_data z) in
      write_segment_headers stripped format_size gs zs (at_ + (if stripped then 20 else 16)) o m)
  | _, _ => Ok m
  end.
(** bitset_test of hard_keyframes, write_stream_data.h:420 *)
Definition is_kept (stripped : bool) (hard : N) (k : N) : bool := if stripped then N.testbit hard (31 - k) else true.
(** write_segment_data, write_segment_data.h:127-189; [junk]: the group buffer, which is not initialized *)
Fixpoint write_segment_data (junk : list N) (p : tclip) (format_size : N) (gs : list tsegment) (zs : list seg_sizes) (at_ : N) (m : list N) : outcome (list N) :=
  match gs, zs with
  | g :: gs, z :: zs =>
      bindo (segment_pointers m at_) (fun '(formats, ranges, animated) =>
      bindo (if format_size =? 0 then Ok m else
             bindo (write_format_per_track_data (g_bones g) (p_has_scale p) (p_mapping p)) (store_bytes m formats)) (fun m =>
      bindo (if z_range z =? 0 then Ok m else
             bindo (write_segment_range_data (g_bones g) (p_has_scale p) (p_variable p) (p_mapping p)) (store_bytes m ranges)) (fun m =>
      bindo (if z_data z =? 0 then Ok m else
             bindo (write_animated_track_data junk (g_bones g) (p_has_scale p) (p_mapping p) (is_kept (p_stripped p) (g_hard g)) (g_num_samples g)
                      (skipn (N.to_nat animated) m))
                   (fun '(d, _) => Ok (firstn (N.to_nat animated) m ++ d))) (fun m =>
      write_segment_data junk p format_size gs zs (at_ + (if p_stripped p then 20 else 16)) m))))
  | _, _ => Ok m
  end.

(** rotation_format8, track_formats.h:48-62; vector_format8 :67-71 *)
Definition rotation_format_code (f : rotation_format) : N := match f with quatf_full => 0 | quatf_drop_w_full => 2 | quatf_drop_w_variable => 3 end.
(** the bits of the header, compress.transform.impl.h:418-427; the metadata flag is set with the metadata *)
Definition header_bits (p : tclip) : N :=
  let misc := set_rotation_format 0 (rotation_format_code (p_rotation p)) in
  let misc := set_translation_format misc (b2n (p_translation p)) in
  let misc := set_scale_format misc (b2n (p_scale p)) in
  let misc := set_has_scale misc (b2n (p_has_scale p)) in
  let misc := set_default_scale misc (p_default_scale p) in
  let misc := set_has_database misc 0 in
  let misc := set_has_trivial_default_values misc (p_trivial_defaults p) in
  let misc := set_has_stripped_keyframes misc (b2n (p_stripped p)) in
  set_is_wrap_optimized misc (p_wrap p).

(** the sizes and the offsets, compress.transform.impl.h:289-341, :441-448.  The offsets are relative to the transform header *)
Record tlayout := {
  l_constants : N; l_formats : N; l_range : N; l_end : N;
  o_headers : N; o_types : N; o_constants : N; o_range : N
}.
Definition transform_layout (p : tclip) (bones : list tbone) (zs : list seg_sizes) : tlayout :=
  let num_tracks := N.of_nat (length (p_mapping p)) in
  let constants := get_constant_data_size (p_has_scale p) bones in
  let formats := get_format_per_track_data_size (p_variable p Rotation) (p_variable p Translation) (p_variable p Scale) bones in
  let types := mulw 32 (mulw 32 (addw 32 num_tracks 15 / 16) (if p_has_scale p then 3 else 2)) 4 in
  let starts := if 1 <? num_segments p then mulw 32 4 (addw 32 (num_segments p) 1) else 0 in
  let headers := mulw 32 (if p_stripped p then 20 else 16) (num_segments p) in
  let range := if is_range_reduced p then get_clip_range_data_size (p_variable p) (p_rotation p) bones else 0 in
  let b := transform_header + transform_header_size in
  let b := addw 32 (align_to 32 b 4) starts in
  let b := addw 32 (align_to 32 b 4) headers in
  let b := addw 32 (align_to 32 b 4) types in
  let b := addw 32 (align_to 32 b 4) constants in
  let b := addw 32 (align_to 32 b 4) range in
  let headers_offset := align_to 32 (addw 32 (align_to 32 transform_header_size 4) starts) 4 in
  let types_offset := align_to 32 (addw 32 headers_offset headers) 4 in
  let constants_offset := align_to 32 (addw 32 types_offset types) 4 in
  {| l_constants := constants; l_formats := formats; l_range := range; l_end := segments_end formats zs b;
     o_headers := headers_offset; o_types := types_offset; o_constants := constants_offset;
     o_range := align_to 32 (addw 32 constants_offset constants) 4 |}.

Definition tag_compressed_tracks : N := 2886839313.
Definition version_latest : N := 10.
(** track_type8::qvvf, core/track_types.h *)
Definition track_type_qvvf : N := 12.
(** compress.transform.impl.h:399-465.  [junk4], [junk_lanes], [junk]: local buffers that are not initialized *)
Definition pack_transforms (junk4 : list N) (junk_lanes : list (list f32)) (junk : list N) (p : tclip) : outcome (list N) :=
  match p_segments p with
  | [] => UB
  | g0 :: _ =>
  let bones := g_bones g0 in
  bindo (all_sizes p (p_segments p)) (fun zs =>
  let l := transform_layout p bones zs in
  let num_tracks := N.of_nat (length (p_mapping p)) in
  let m := repeat 0 (N.to_nat (l_end l)) in
  bindo (store_bytes m 8 (le_bytes 4 tag_compressed_tracks ++ le_bytes 2 version_latest ++ [0; track_type_qvvf] ++
           words [num_tracks; if num_tracks =? 0 then 0 else p_num_samples p; f_bits (if num_tracks =? 0 then f_zero else p_sample_rate p); header_bits p])) (fun m =>
  bindo (store_bytes m transform_header (words
           [num_segments p; l_formats l; num_animated Rotation bones; num_animated Translation bones; num_animated Scale bones;
            get_num_constant_samples (p_has_scale p) bones Rotation; get_num_constant_samples (p_has_scale p) bones Translation;
            get_num_constant_samples (p_has_scale p) bones Scale; 0xFFFFFFFF; o_headers l; o_types l; o_constants l; o_range l])) (fun m =>
  bindo (if 1 <? num_segments p then store_bytes m (transform_header + align_to 32 transform_header_size 4) (start_indices (p_segments p)) else Ok m) (fun m =>
  bindo (write_segment_headers (p_stripped p) (l_formats l) (p_segments p) zs (transform_header + o_headers l) (addw 32 (o_range l) (l_range l)) m) (fun m =>
  bindo (bindo (write_sub_track_types (p_has_scale p) bones (p_mapping p)) (store_bytes m (transform_header + o_types l))) (fun m =>
  bindo (if l_constants l =? 0 then Ok m else
         bindo (write_constant_track_data junk4 (p_rotation p) (p_has_scale p) bones (p_mapping p)) (store_bytes m (transform_header + o_constants l))) (fun m =>
  bindo (if is_range_reduced p then
           bindo (write_clip_range_data junk_lanes bones (p_has_scale p) (p_variable p) (p_mapping p)) (store_bytes m (transform_header + o_range l)) else Ok m) (fun m =>
  write_segment_data junk p (l_formats l) (p_segments p) zs (transform_header + o_headers l) m))))))))
  end.
