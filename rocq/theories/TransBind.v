(** Binding transform clips to a database (model only): how the database builder rewrites a whole compressed clip, and what a
    decompression context finds of the database.  compression/impl/compress.database.impl.h:378-442, :466-797;
    core/impl/compressed_headers.h:171-212, :231-324; decompression/impl/decompression.transform.h:290-299, :425-437.
    A clip is its buffer: its transform_tracks_header is at 32; its segments are rewritten as in ClipRewrite.v, with offsets
    relative to the transform_tracks_header. *)
From Verif Require Import Word MemoryUtils Bitset Hash Headers DbTiers DbBuild DbStream ClipRewrite ScalarEnc ScalarDec ScalarMeta TransDec TransEnc TransFile TransSeek.
Import ListNotations.
Local Open Scope N_scope.

(** segment_header, compressed_headers.h:171-186: animated_pose_bit_size, animated_rotation_bit_size, animated_translation_bit_size,
    segment_data *)
Record raw_segment := { w_pose : N; w_rotation : N; w_translation : N; w_data : N }.
Fixpoint read_segments (m : list N) (off : N) (n : nat) : outcome (list raw_segment) :=
  match n with
  | O => Ok []
  | S n =>
      bindo (read32 m off) (fun pose => bindo (read32 m (off + 4)) (fun rotation => bindo (read32 m (off + 8)) (fun translation =>
      bindo (read32 m (off + 12)) (fun data => bindo (read_segments m (off + 16) n) (fun l =>
      Ok ({| w_pose := pose; w_rotation := rotation; w_translation := translation; w_data := data |} :: l))))))
  end.
Definition header_of_raw (r : raw_segment) : seg_header := {| sh_pose_bits := w_pose r; sh_data := w_data r |}.
(** stripped_segment_header_t, compressed_headers.h:188-197, as written by rewrite_segment_headers :474-480 *)
Definition stripped_words (r : raw_segment) (o : stripped_header) : list N :=
  [sh_pose_bits (st_header o); w_rotation r; w_translation r; sh_data (st_header o); st_sample_indices o].
Fixpoint write_stripped_headers (rs : list raw_segment) (os : list stripped_header) (at_ : N) (m : list N) : outcome (list N) :=
  match rs, os with
  | r :: rs, o :: os => bindo (store_bytes m at_ (words (stripped_words r o))) (write_stripped_headers rs os (at_ + 20))
  | _, _ => Ok m
  end.

(** get_metadata_..._size, :378-442: an entry lasts until the next one that is present; ~0U when there is none, which is asserted against *)
Definition metadata_span (entry : N) (next : list N) : N :=
  if negb (ptr_is_valid entry) then 0
  else match find ptr_is_valid next with Some n => subw 32 n entry | None => 0xFFFFFFFF end.
(** :690-722: the offset of an entry in the new clip *)
Definition put_entry (m : list N) (h entry_size offset : N) : outcome (list N * N) :=
  if negb (entry_size =? 0) then bindo (write32 m h offset) (fun m => Ok (m, addw 32 offset entry_size))
  else bindo (write32 m h invalid_ptr) (fun m => Ok (m, offset)).
(** :730-734: std::memcpy of the content; the pointers are null when the entry is absent, and nothing is copied *)
Definition copy_entry (m : list N) (h : N) (src : list N) (entry entry_size : N) : outcome (list N) :=
  if entry_size =? 0 then Ok m else bindo (read32 m h) (fun o => copy_bytes m o src entry entry_size).

(** the sizes of the parts of the new clip and where they are from the transform_tracks_header, :576-590, :706-712 *)
Record bound_layout := {
  u_starts : N; u_headers : N; u_types : N; u_constants : N; u_range : N;
  a_database : N; a_headers : N; a_types : N; a_constants : N; a_range : N; u_end : N
}.
Definition layout_of (num_tracks has_scale num_segments o_constants o_range first_data : N) : bound_layout :=
  let types := mulw 32 (mulw 32 (addw 32 num_tracks 15 / 16) (if is_set has_scale then 3 else 2)) 4 in
  let starts := if 1 <? num_segments then mulw 32 4 (addw 32 num_segments 1) else 0 in
  let headers := mulw 32 20 num_segments in
  let constants := subw 32 o_range o_constants in
  let range := subw 32 first_data o_range in
  let b := transform_header + transform_header_size in
  let b := addw 32 (align_to 32 b 4) starts in
  let b := addw 32 (align_to 32 b 4) headers in
  let b := addw 32 (align_to 32 b 4) 4 in
  let b := addw 32 (align_to 32 b 4) types in
  let b := addw 32 (align_to 32 b 4) constants in
  let b := addw 32 (align_to 32 b 4) range in
  let database := align_to 32 (addw 32 (align_to 32 transform_header_size 4) starts) 4 in
  let headers_offset := align_to 32 (addw 32 database 4) 4 in
  let types_offset := align_to 32 (addw 32 headers_offset headers) 4 in
  let constants_offset := align_to 32 (addw 32 types_offset types) 4 in
  {| u_starts := starts; u_headers := headers; u_types := types; u_constants := constants; u_range := range;
     a_database := database; a_headers := headers_offset; a_types := types_offset; a_constants := constants_offset;
     a_range := align_to 32 (addw 32 constants_offset constants) 4; u_end := b |}.
(** the number of key frames that stay in the clip, :640 *)
Definition num_remaining (outs : list stripped_header) : N := fold_left (fun a o => addw 32 a (bitset_count_set_bits [st_sample_indices o])) outs 0.

(** build_compressed_tracks, :555-797, for one clip: [t] is its index in the list, [tier] the frames of the highest importance tier,
    [clip_header] the offset of its runtime headers.  The members of the input metadata header are at [blen - 20] of the input. *)
Definition bind_clip (tier : list frame_mapping) (t clip_header : N) (src : list N) : outcome (list N) :=
  bindo (load_bytes src 8 24) (fun header =>
  bindo (load_bytes src transform_header 52) (fun transforms_header =>
  bindo (h_num_tracks src) (fun num_tracks => bindo (h_num_samples src) (fun num_samples => bindo (h_misc src) (fun misc =>
  bindo (read32 src transform_header) (fun num_segments => bindo (read32 src (transform_header + 4)) (fun num_variable =>
  bindo (read32 src (transform_header + 36)) (fun o_headers => bindo (read32 src (transform_header + 40)) (fun o_types =>
  bindo (read32 src (transform_header + 44)) (fun o_constants => bindo (read32 src (transform_header + 48)) (fun o_range =>
  bindo (read_segments src (transform_header + o_headers) (N.to_nat num_segments)) (fun raws =>
  match raws with
  | [] => UB
  | first :: _ =>
  bindo (metadata_header src) (fun mh =>
  bindo (read32 src mh) (fun i_list_name => bindo (read32 src (mh + 4)) (fun i_names => bindo (read32 src (mh + 8)) (fun i_parents =>
  bindo (read32 src (mh + 12)) (fun i_descriptions => bindo (read32 src (mh + 16)) (fun i_error =>
  let tr := {| tr_variable_sub_tracks := num_variable; tr_num_segments := N.to_nat num_segments |} in
  let headers := map header_of_raw raws in
  let l := layout_of num_tracks (get_has_scale misc) num_segments o_constants o_range (w_data first) in
  bindo (rewrite_segment_headers tier t 0 tr headers (u_end l)) (fun '(sized, buffer_size) =>
  let num_stripped := subw 32 num_samples (num_remaining sized) in
  let metadata_start := align_to 32 buffer_size 4 in
  let s_list_name := metadata_span i_list_name [i_names; i_parents; i_descriptions; i_error] in
  let s_names := metadata_span i_names [i_parents; i_descriptions; i_error] in
  let s_parents := metadata_span i_parents [i_descriptions; i_error] in
  let s_descriptions := metadata_span i_descriptions [i_error] in
  let meta := s_list_name in
  let meta := addw 32 (align_to 32 meta 4) s_names in
  let meta := addw 32 (align_to 32 meta 4) s_parents in
  let meta := addw 32 (align_to 32 meta 4) s_descriptions in
  let meta := align_to 32 meta 4 in
  let size := if negb (meta =? 0) then addw 32 (align_to 32 (addw 32 (align_to 32 buffer_size 4) meta) 4) 20 else addw 32 buffer_size 15 in
  let m := repeat 0 (N.to_nat size) in
  bindo (store_bytes m 8 header) (fun m =>
  bindo (write32 m 28 (set_has_metadata (set_has_stripped_keyframes (set_has_database misc 1) (b2n (negb (num_stripped =? 0)))) (b2n (negb (meta =? 0))))) (fun m =>
  bindo (store_bytes m transform_header transforms_header) (fun m =>
  bindo (write32 m (transform_header + 32) (a_database l)) (fun m => bindo (write32 m (transform_header + 36) (a_headers l)) (fun m =>
  bindo (write32 m (transform_header + 40) (a_types l)) (fun m => bindo (write32 m (transform_header + 44) (a_constants l)) (fun m =>
  bindo (write32 m (transform_header + 48) (a_range l)) (fun m =>
  bindo (if 1 <? num_segments then
           let starts := transform_header + align_to 32 transform_header_size 4 in copy_bytes m starts src starts (u_starts l)
         else Ok m) (fun m =>
  bindo (write32 m (transform_header + a_database l) clip_header) (fun m =>
  bindo (rewrite_segment_headers tier t 0 tr headers (addw 32 (a_range l) (u_range l))) (fun '(outs, _) =>
  bindo (write_stripped_headers raws outs (transform_header + a_headers l) m) (fun m =>
  bindo (copy_bytes m (transform_header + a_types l) src (transform_header + o_types) (u_types l)) (fun m =>
  bindo (copy_bytes m (transform_header + a_constants l) src (transform_header + o_constants) (u_constants l)) (fun m =>
  bindo (copy_bytes m (transform_header + a_range l) src (transform_header + o_range) (u_range l)) (fun m =>
  bindo (rewrite_segment_data tier t 0 tr (skipn (N.to_nat transform_header) src) headers outs (skipn (N.to_nat transform_header) m)) (fun d =>
  let m := firstn (N.to_nat transform_header) m ++ d in
  bindo (if meta =? 0 then Ok m
         else
           let h := subw 64 size 20 in
           bindo (put_entry m h s_list_name metadata_start) (fun '(m, offset) =>
           bindo (put_entry m (h + 4) s_names offset) (fun '(m, offset) =>
           bindo (put_entry m (h + 8) s_parents offset) (fun '(m, offset) =>
           bindo (put_entry m (h + 12) s_descriptions offset) (fun '(m, _) =>
           bindo (write32 m (h + 16) invalid_ptr) (fun m =>
           bindo (copy_entry m h src i_list_name s_list_name) (fun m =>
           bindo (copy_entry m (h + 4) src i_names s_names) (fun m =>
           bindo (copy_entry m (h + 8) src i_parents s_parents) (fun m =>
           copy_entry m (h + 12) src i_descriptions s_descriptions))))))))) (fun m =>
  bindo (write32 m 0 size) (fun m =>
  bindo (load_bytes m 8 (N.to_nat (subw 64 size 8))) (fun content =>
  write32 m 4 (hash32 content)))))))))))))))))))))))))))
  end)))))))))))).

(** build_compressed_tracks :560-561, :721-723: every clip of the list, the runtime headers one after the other *)
Fixpoint bind_clips (tier : list frame_mapping) (t clip_header : N) (srcs : list (list N)) : outcome (list (list N)) :=
  match srcs with
  | [] => Ok []
  | src :: rest =>
      bindo (read32 src transform_header) (fun num_segments =>
      bindo (bind_clip tier t clip_header src) (fun m =>
      bindo (bind_clips tier (t + 1) (addw 32 (addw 32 clip_header 8) (mulw 32 16 num_segments)) rest) (fun l => Ok (m :: l))))
  end.

(** What the database context a clip [m] is used with leads to, decompression.transform.h:290-299, :425-437: the runtime headers of
    its segments follow the runtime header of the clip (8 bytes), 16 bytes each; [hash]: the hash of the database; [medium] and [low]:
    the bulk data the context points to *)
Definition bound_database (m : list N) (hash : N) (s : system) (medium low : list N) : outcome tdatabase :=
  bindo (read32 m (transform_header + 32)) (fun database =>
  bindo (read32 m (transform_header + database)) (fun clip_header =>
  Ok {| t_hash := hash;
        t_metadata := fun i => let o := clip_header + 8 + 16 * i in (tier_metadata (rt s Medium) o, tier_metadata (rt s Lowest) o);
        t_medium := medium; t_low := low |})).
