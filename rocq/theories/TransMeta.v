(** Model of the optional metadata of transform clips (model only): compression/impl/compress.transform.impl.h and
    write_track_metadata.h write it, core/impl/compressed_tracks.impl.h reads it. *)
From Verif Require Import Word MemoryUtils Hash Float32 Headers TrackArray DbBuild ScalarEnc ScalarDec ScalarMeta.
Import ListNotations.
Local Open Scope N_scope.

(** compression_metadata_settings, compression_settings.h *)
Record tflags := { f_list_name : bool; f_names : bool; f_parents : bool; f_descriptions : bool; f_error : bool }.
(** compress.transform.impl.h:181-183: descriptions bring the parent indices *)
Definition effective_flags (f : tflags) : tflags :=
  {| f_list_name := f_list_name f; f_names := f_names f; f_parents := f_descriptions f || f_parents f; f_descriptions := f_descriptions f; f_error := f_error f |}.
(** what the metadata holds of a transform track: its name, the index of its parent among the input tracks, and its description:
    precision, shell distance, default rotation (4), translation (3) and scale (3) *)
Record ttrack := { tt_name : list N; tt_parent : N; tt_description : list f32 }.

(** the tracks in output order: tracks[track_output_indices[output_index]] *)
Fixpoint output_tracks (tracks : list ttrack) (mapping : list N) : outcome (list ttrack) :=
  match mapping with
  | [] => Ok []
  | i :: rest => match nth_error tracks (N.to_nat i) with Some t => bindo (output_tracks tracks rest) (fun l => Ok (t :: l)) | None => UB end
  end.
(** find_output_index, write_track_metadata.h:110-122 *)
Fixpoint find_output_from (mapping : list N) (output_index track_index : N) : N :=
  match mapping with
  | [] => k_invalid_track_index
  | i :: rest => if i =? track_index then output_index else find_output_from rest (output_index + 1) track_index
  end.
Definition find_output_index (mapping : list N) (track_index : N) : N :=
  if track_index =? k_invalid_track_index then k_invalid_track_index else find_output_from mapping 0 track_index.
(** write_parent_track_indices, write_track_metadata.h:106-142 *)
Fixpoint write_parents (mapping : list N) (ts : list ttrack) (buf : option (list N)) (off : N) : outcome (option (list N) * N) :=
  match ts with
  | [] => Ok (buf, off)
  | t :: rest => bindo (put buf off (le_bytes 4 (find_output_index mapping (tt_parent t)))) (fun buf => write_parents mapping rest buf (off + 4))
  end.
(** write_track_descriptions, write_track_metadata.h:144-194, transform tracks *)
Fixpoint write_descriptions (ts : list ttrack) (buf : option (list N)) (off : N) : outcome (option (list N) * N) :=
  match ts with
  | [] => Ok (buf, off)
  | t :: rest => bindo (put buf off (float_bytes (tt_description t))) (fun buf => write_descriptions rest buf (off + 48))
  end.
(** write_contributing_error, write_track_metadata.h:196-216: here the bytes of the array *)
Definition write_error (error : list N) (buf : option (list N)) (off : N) : outcome (option (list N) * N) :=
  bindo (put buf off error) (fun buf => Ok (buf, off + blen error)).

(** One entry of the metadata, compress.transform.impl.h:478-525: its offset, aligned but for the first, then its content; or an
    invalid offset *)
Definition put_section (on first : bool) (w : option (list N) -> N -> outcome (option (list N) * N)) (m : list N) (h offset : N) : outcome (list N * N) :=
  if on then
    let offset := if first then offset else align_to 32 offset 4 in
    bindo (write32 m h offset) (fun m =>
    bindo (w (Some m) offset) (fun '(b, e) => match b with Some m => Ok (m, addw 32 offset (wrapw 32 (e - offset))) | None => UB end))
  else bindo (write32 m h invalid_ptr) (fun m => Ok (m, offset)).

(** The metadata of a transform clip, compress.transform.impl.h:368-397, :428, :467-532.  [prefix]: the buffer up to its last
    segment, as written by the rest of compress_transform_track_list, its size and hash not yet set and its metadata flag clear.
    Simplification: the C++ allocates the whole buffer first and writes both parts in it. *)
Definition add_metadata (f : tflags) (list_name : list N) (tracks : list ttrack) (mapping : list N) (error : list N) (prefix : list N) : outcome (list N) :=
  let f := effective_flags f in
  bindo (output_tracks tracks mapping) (fun ts =>
  let names := map tt_name ts in
  let start := align_to 32 (blen prefix) 4 in
  bindo (when (f_list_name f) (size_of (write_track_list_name list_name None 0) 0)) (fun s1 =>
  bindo (when (f_names f) (size_of (write_track_names names None 0) 0)) (fun s2 =>
  bindo (when (f_parents f) (size_of (write_parents mapping ts None 0) 0)) (fun s3 =>
  bindo (when (f_descriptions f) (size_of (write_descriptions ts None 0) 0)) (fun s4 =>
  bindo (when (f_error f) (size_of (write_error error None 0) 0)) (fun s5 =>
  let meta := s1 in
  let meta := addw 32 (align_to 32 meta 4) s2 in
  let meta := addw 32 (align_to 32 meta 4) s3 in
  let meta := addw 32 (align_to 32 meta 4) s4 in
  let meta := addw 32 (align_to 32 meta 4) s5 in
  let size := if negb (meta =? 0) then addw 32 (align_to 32 (addw 32 (align_to 32 (blen prefix) 4) meta) 4) 20 else addw 32 (blen prefix) 15 in
  let m := prefix ++ repeat 0 (N.to_nat (size - blen prefix)) in
  bindo (read32 m 28) (fun misc =>
  bindo (write32 m 28 (set_has_metadata misc (b2n (negb (meta =? 0))))) (fun m =>
  bindo (if meta =? 0 then Ok m
         else
           let h := subw 64 size 20 in
           bindo (put_section (f_list_name f) true (write_track_list_name list_name) m h start) (fun '(m, offset) =>
           bindo (put_section (f_names f) false (write_track_names names) m (h + 4) offset) (fun '(m, offset) =>
           bindo (put_section (f_parents f) false (write_parents mapping ts) m (h + 8) offset) (fun '(m, offset) =>
           bindo (put_section (f_descriptions f) false (write_descriptions ts) m (h + 12) offset) (fun '(m, offset) =>
           bindo (put_section (f_error f) false (write_error error) m (h + 16) offset) (fun '(m, offset) => Ok m)))))) (fun m =>
  bindo (write32 m 0 size) (fun m =>
  bindo (load_bytes m 8 (N.to_nat (subw 64 size 8))) (fun content =>
  write32 m 4 (hash32 content)))))))))))).

(** get_track_description(track_desc_transformf), compressed_tracks.impl.h:217-276: the parent and the twelve floats, None when
    the call returns false; the versions are v02_01_99 = 8 and v02_01_99_1 = 9; rtm::qvv_identity() otherwise *)
Definition identity_default : list f32 := [f_zero; f_zero; f_zero; f_one; f_zero; f_zero; f_zero; f_one; f_one; f_one].
Fixpoint read_floats (m : list N) (off : N) (n : nat) : outcome (list f32) :=
  match n with O => Ok [] | S n' => bindo (read32 m off) (fun x => bindo (read_floats m (off + 4) n') (fun l => Ok (f_of_bits x :: l))) end.
Definition get_transform_description (m : list N) (i : N) : outcome (option (N * list f32)) :=
  bindo (has_metadata m) (fun has =>
  if negb has then Ok None
  else
    bindo (h_num_tracks m) (fun n =>
    if n <=? i then Ok None
    else
      bindo (metadata_header m) (fun h =>
      bindo (read32 m (h + 12)) (fun descriptions =>
      if negb (ptr_is_valid descriptions) then Ok None
      else
        bindo (read32 m (h + 8)) (fun parents =>
        if negb (ptr_is_valid parents) then Ok None
        else
          bindo (h_version m) (fun version =>
          let size := 20 in
          let size := if 8 <=? version then size + 40 else size in
          let size := if 9 <=? version then size - 12 else size in
          let data := descriptions + i * size in
          bindo (read32 m (parents + 4 * i)) (fun parent =>
          bindo (read_floats m data 2) (fun l =>
          if 8 <=? version then
            bindo (read_floats m ((if version <? 9 then data + 12 else data) + 8) 10) (fun d => Ok (Some (parent, l ++ d)))
          else Ok (Some (parent, l ++ identity_default)))))))))).
