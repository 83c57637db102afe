(** Model of the optional metadata getters of compressed_tracks (model only): core/impl/compressed_tracks.impl.h. *)
From Verif Require Import Word Float32 Headers TrackArray DbBuild ScalarEnc ScalarDec.
Import ListNotations.
Local Open Scope N_scope.

(** A const char* the API returns: the literal "", a pointer into the buffer, or null. *)
Inductive char_ptr := p_literal | p_null | p_buffer (offset : N).
(** what a caller reads through it, up to the terminator *)
Fixpoint read_chars (l : list N) : outcome (list N) :=
  match l with
  | [] => UB
  | x :: rest => if x =? 0 then Ok [] else bindo (read_chars rest) (fun s => Ok (x :: s))
  end.
Definition read_string (m : list N) (p : char_ptr) : outcome (list N) :=
  match p with p_literal => Ok [] | p_null => UB | p_buffer o => read_chars (skipn (N.to_nat o) m) end.

(** compressed_tracks::get_size, compressed_tracks.h: raw_buffer_header::size; get_optional_metadata_header,
    compressed_tracks.impl.h:62-65: the last 20 bytes of the buffer *)
Definition h_size (m : list N) : outcome N := read32 m 0.
Definition metadata_header (m : list N) : outcome N := bindo (h_size m) (fun size => Ok (subw 64 size 20)).
(** header.get_has_metadata() *)
Definition has_metadata (m : list N) : outcome bool := bindo (h_misc m) (fun misc => Ok (negb (get_has_metadata misc =? 0))).
(** ptr_offset32::is_valid, ptr_offset.h:119 *)
Definition ptr_is_valid (o : N) : bool := negb (o =? invalid_ptr).
(** safe_add_to(&tracks), compressed_headers.h:382-393, ptr_offset.h:100-111 *)
Definition safe_add_to (o : N) : char_ptr := if ptr_is_valid o then p_buffer o else p_null.

(** get_name, compressed_tracks.impl.h:143-154: the offset tested is the one of the track names *)
Definition get_name (m : list N) : outcome char_ptr :=
  bindo (has_metadata m) (fun has =>
  if negb has then Ok p_literal
  else
    bindo (metadata_header m) (fun h =>
    bindo (read32 m (h + 4)) (fun names =>
    if negb (ptr_is_valid names) then Ok p_literal
    else bindo (read32 m h) (fun name => Ok (safe_add_to name))))).
(** get_track_name, compressed_tracks.impl.h:156-173 *)
Definition get_track_name (m : list N) (i : N) : outcome char_ptr :=
  bindo (has_metadata m) (fun has =>
  if negb has then Ok p_literal
  else
    bindo (h_num_tracks m) (fun n =>
    if n <=? i then Ok p_literal
    else
      bindo (metadata_header m) (fun h =>
      bindo (read32 m (h + 4)) (fun names =>
      if negb (ptr_is_valid names) then Ok p_literal
      else bindo (read32 m (names + 4 * i)) (fun o => Ok (p_buffer (names + o))))))).
(** get_parent_track_index, compressed_tracks.impl.h:175-191 *)
Definition get_parent_track_index (m : list N) (i : N) : outcome N :=
  bindo (has_metadata m) (fun has =>
  if negb has then Ok k_invalid_track_index
  else
    bindo (h_num_tracks m) (fun n =>
    if n <=? i then Ok k_invalid_track_index
    else
      bindo (metadata_header m) (fun h =>
      bindo (read32 m (h + 8)) (fun parents =>
      if negb (ptr_is_valid parents) then Ok k_invalid_track_index
      else read32 m (parents + 4 * i))))).
(** get_track_description(track_desc_scalarf), compressed_tracks.impl.h:193-215: the output index is the track index; what is
    returned here is the precision, None when the call returns false *)
Definition get_scalar_description (m : list N) (i : N) : outcome (option f32) :=
  bindo (has_metadata m) (fun has =>
  if negb has then Ok None
  else
    bindo (h_num_tracks m) (fun n =>
    if n <=? i then Ok None
    else
      bindo (metadata_header m) (fun h =>
      bindo (read32 m (h + 12)) (fun descriptions =>
      if negb (ptr_is_valid descriptions) then Ok None
      else bindo (read32 m (descriptions + 4 * i)) (fun p => Ok (Some (f_of_bits p))))))).
