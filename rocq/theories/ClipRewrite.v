(** Model of how the database builder rewrites the segments of a clip (model only).
    compression/impl/compress.database.impl.h:444-553, :614-646, :725-739; core/impl/compressed_headers.h:275-307.
    Offsets are relative to the transform_tracks_header, whose address is a multiple of 4. *)
From Verif Require Import Word MemoryUtils Bitset DbTiers DbBuild.
Local Open Scope N_scope.

(** the two transform_tracks_header fields get_segment_data reads *)
Record transforms := { tr_variable_sub_tracks : N; tr_num_segments : nat }.
(** segment_header: segment_data and animated_pose_bit_size; stripped_segment_header_t adds sample_indices,
    compressed_headers.h:171-197 *)
Record seg_header := { sh_pose_bits : N; sh_data : N }.
Record stripped_header := { st_header : seg_header; st_sample_indices : N }.

(** get_segment_data, compressed_headers.h:293-307: where the format, the ranges and the animated data are *)
Definition range_data_size (tr : transforms) : N := if (1 <? tr_num_segments tr)%nat then 6 * tr_variable_sub_tracks tr else 0.
Definition get_segment_data (tr : transforms) (segment_data : N) : N * N * N :=
  let format_per_track_data := segment_data in
  let range_data := align_to 64 (format_per_track_data + tr_variable_sub_tracks tr) 2 in
  let animated_data := align_to 64 (range_data + range_data_size tr) 4 in
  (format_per_track_data, range_data, animated_data).

(** build_sample_indices(tier_mapping, tracks_index, segment_index), compress.database.impl.h:444-464 *)
Fixpoint clip_indices_loop (tier : list frame_mapping) (t s : N) (bits : list N) : outcome (list N) :=
  match tier with
  | [] => Ok bits
  | f :: r => if in_segment t s f then bindo (bitset_set bits (fm_segment_frame f) true) (clip_indices_loop r t s) else clip_indices_loop r t s bits
  end.
Definition clip_sample_indices (tier : list frame_mapping) (t s : N) : outcome N :=
  bindo (clip_indices_loop tier t s [0]) (fun b => match b with w :: _ => Ok w | [] => UB end).

(** one step of the loops of rewrite_segment_headers :466-506 and of the size computation :617-645: the header of the
    segment and the offset of the next one *)
Definition rewrite_header (tier : list frame_mapping) (t s : N) (tr : transforms) (h : seg_header) (offset : N) : outcome (stripped_header * N) :=
  bindo (clip_sample_indices tier t s) (fun indices =>
  let '(format_in, range_in, animated_in) := get_segment_data tr (sh_data h) in
  let format_per_track_data_size := subw 32 (wrapw 32 range_in) (wrapw 32 format_in) in
  let range_size := subw 32 (wrapw 32 animated_in) (wrapw 32 range_in) in
  let num_animated_frames := bitset_count_set_bits [indices] in
  let animated_data_num_bits := mulw 32 num_animated_frames (sh_pose_bits h) in
  let animated_data_size := addw 32 animated_data_num_bits 7 / 8 in
  let out := addw 32 offset format_per_track_data_size in
  let out := align_to 32 out 2 in
  let out := addw 32 out range_size in
  let out := align_to 32 out 4 in
  let out := addw 32 out animated_data_size in
  Ok ({| st_header := {| sh_pose_bits := sh_pose_bits h; sh_data := offset |}; st_sample_indices := indices |}, out)).
Fixpoint rewrite_segment_headers (tier : list frame_mapping) (t s : N) (tr : transforms) (headers : list seg_header) (offset : N)
  : outcome (list stripped_header * N) :=
  match headers with
  | [] => Ok ([], offset)
  | h :: rest =>
      bindo (rewrite_header tier t s tr h offset) (fun '(o, next) =>
      bindo (rewrite_segment_headers tier t (s + 1) tr rest next) (fun '(l, e) => Ok (o :: l, e)))
  end.

(** std::memcpy between two buffers *)
Definition copy_bytes (m : list N) (dst : N) (src : list N) (from size : N) : outcome (list N) :=
  bindo (load_bytes src from (N.to_nat size)) (fun b => store_bytes m dst b).

(** :536-551: the key frames of the segment that stay in the clip; the data is read from the input clip *)
Fixpoint rewrite_frames (tier : list frame_mapping) (t s : N) (src : list N) (animated_in : N) (m : list N) (animated_out bit_offset : N) : outcome (list N) :=
  match tier with
  | [] => Ok m
  | f :: rest =>
      if in_segment t s f then
        bindo (memcpy_bits m (8 * animated_out + bit_offset) src (8 * animated_in + mulw 32 (fm_segment_frame f) (fm_bits f)) (fm_bits f)) (fun m =>
        rewrite_frames rest t s src animated_in m animated_out (bit_offset + fm_bits f))
      else rewrite_frames rest t s src animated_in m animated_out bit_offset
  end.
(** rewrite_segment_data :508-553 *)
Fixpoint rewrite_segment_data (tier : list frame_mapping) (t s : N) (tr : transforms) (src : list N) (headers : list seg_header)
  (outs : list stripped_header) (m : list N) : outcome (list N) :=
  match headers, outs with
  | h :: rest, o :: outs' =>
      let '(format_in, range_in, animated_in) := get_segment_data tr (sh_data h) in
      let '(format_out, range_out, animated_out) := get_segment_data tr (sh_data (st_header o)) in
      let format_per_track_data_size := subw 32 (wrapw 32 range_in) (wrapw 32 format_in) in
      let range_size := subw 32 (wrapw 32 animated_in) (wrapw 32 range_in) in
      bindo (copy_bytes m format_out src format_in format_per_track_data_size) (fun m =>
      bindo (copy_bytes m range_out src range_in range_size) (fun m =>
      bindo (rewrite_frames tier t s src animated_in m animated_out 0) (fun m =>
      rewrite_segment_data tier t (s + 1) tr src rest outs' m)))
  | _, _ => Ok m
  end.

(** build_compressed_tracks :555-797, for the per segment data: [base] is the offset of the first segment's data (:726) and
    [tail] what follows the last segment (the metadata, or 15 bytes of padding).  The buffer is zeroed first, :670. *)
Definition rewrite_clip (tier : list frame_mapping) (t : N) (tr : transforms) (src : list N) (headers : list seg_header) (base tail : N)
  : outcome (list N * list stripped_header) :=
  bindo (rewrite_segment_headers tier t 0 tr headers base) (fun '(outs, e) =>
  bindo (rewrite_segment_data tier t 0 tr src headers outs (repeat 0 (N.to_nat (e + tail)))) (fun m => Ok (m, outs))).
