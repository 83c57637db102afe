(** Model of the compressed database buffer (model only): core/impl/compressed_database.impl.h,
    core/impl/compressed_headers.h:505-620 and compression/impl/compress.database.impl.h:800-820, :1130-1249, :1330-1526.
    A buffer is a list of bytes; an address is an offset from its start.  The raw_buffer_header (size, hash) is at 0, the
    database_header at 8. *)
From Verif Require Import Word MemoryUtils Hash DbTiers DbBuild.
Local Open Scope N_scope.

Inductive error := invalid_alignment | invalid_tag | invalid_algorithm | invalid_version | invalid_hash | not_inline | highest_tier | empty_tier | invalid_buffer.

(** buffer_tag32::compressed_tracks and compressed_database, core/buffer_tag.h:49-53; compressed_tracks_version16::first and
    latest, core/compressed_tracks_version.h:71-85; alignof both classes, compressed_tracks.h:53, compressed_database.h:52;
    k_invalid_value, core/ptr_offset.h:123 *)
Definition tag_compressed_tracks : N := 2886839313.
Definition tag_compressed_database : N := 2886851329.
Definition version_first : N := 7.
Definition version_latest : N := 10.
Definition class_alignment : N := 16.
Definition invalid_offset : N := 4294967295.

(** sizeof(raw_buffer_header), sizeof(database_header), sizeof(database_chunk_description), sizeof(database_clip_metadata),
    k_database_bulk_data_alignment (compressed_database.h:170) *)
Definition sizeof_raw : N := 8.
Definition sizeof_db_header : N := 56.
Definition sizeof_description : N := 8.
Definition sizeof_clip_metadata : N := 8.
Definition bulk_alignment : N := 4.

(** The members, as offsets in the buffer; arrays are indexed by tier - 1 *)
Definition off_size : N := 0.
Definition off_hash : N := 4.
Definition off_tag : N := 8.
Definition off_version : N := 12.
Definition off_misc : N := 14.
Definition off_num_chunks (t : N) : N := 16 + 4 * t.
Definition off_max_chunk_size : N := 24.
Definition off_num_clips : N := 28.
Definition off_num_segments : N := 32.
Definition off_clip_metadata : N := 36.
Definition off_bulk_size (t : N) : N := 40 + 4 * t.
Definition off_bulk_offset (t : N) : N := 48 + 4 * t.
Definition off_bulk_hash (t : N) : N := 56 + 4 * t.

Definition read16 (m : list N) (off : N) : outcome N := load_le m off 2.
Definition write16 (m : list N) (off v : N) : outcome (list N) := store_bytes m off (le_bytes 2 v).

(** get_is_bulk_data_inline / set_is_bulk_data_inline, compressed_headers.h:581-582 *)
Definition get_is_bulk_data_inline (m : list N) : outcome bool := bindo (read16 m off_misc) (fun w => Ok (negb (N.land w 1 =? 0))).
Definition set_is_bulk_data_inline (m : list N) (b : bool) : outcome (list N) :=
  bindo (read16 m off_misc) (fun w => write16 m off_misc (N.lor (N.land w (notw 16 1)) (if b then 1 else 0))).

(** get_database_header(...).get_chunk_descriptions_medium/low, compressed_headers.h:588-593 *)
Definition chunk_descriptions_medium : N := sizeof_raw + align_to 64 sizeof_db_header 4.
Definition chunk_descriptions_low (m : list N) : outcome N :=
  bindo (read32 m (off_num_chunks 0)) (fun n =>
  Ok (sizeof_raw + align_to 64 (addw 64 (align_to 64 sizeof_db_header 4) (mulw 64 n sizeof_description)) 4)).
(** get_clip_metadatas :595-596; an invalid offset is only asserted *)
Definition clip_metadatas (m : list N) : outcome N := bindo (read32 m off_clip_metadata) (fun o => Ok (sizeof_raw + o)).
(** get_bulk_data_medium/low :598-602, compressed_database::get_bulk_data compressed_database.impl.h:111-120: None is nullptr *)
Definition get_bulk_data (m : list N) (t : N) : outcome (option N) :=
  bindo (read32 m (off_bulk_offset t)) (fun o => Ok (if o =? invalid_offset then None else Some (sizeof_raw + o))).

(** get_total_size, compressed_database.impl.h:47-54 *)
Definition get_total_size (m : list N) : outcome N :=
  bindo (read32 m off_size) (fun size =>
  bindo (get_is_bulk_data_inline m) (fun inline =>
  if inline : bool then Ok size
  else bindo (read32 m (off_bulk_size 0)) (fun s0 => bindo (read32 m (off_bulk_size 1)) (fun s1 => Ok (addw 32 (addw 32 size s0) s1))))).

(** reading [n] bytes behind a pointer that may be null: memcpy and hash32 of nothing read nothing *)
Definition read_ptr (m : list N) (p : option N) (n : N) : outcome (list N) :=
  match p with Some off => load_bytes m off (N.to_nat n) | None => if n =? 0 then Ok [] else UB end.
Definition write_ptr (m : list N) (p : option N) (l : list N) : outcome (list N) :=
  match p with Some off => store_bytes m off l | None => match l with [] => Ok m | _ => UB end end.

(** the hash of everything but the raw header: hash32(&m_padding[0], size - sizeof(raw_buffer_header)), the size_t
    subtraction wraps *)
Definition content_hash (m : list N) (size : N) : outcome N :=
  bindo (load_bytes m sizeof_raw (N.to_nat (subw 64 size sizeof_raw))) (fun l => Ok (hash32 l)).

(** compressed_database::is_valid, compressed_database.impl.h:142-163; [addr] is the address of the buffer *)
Definition check_content_hash (m : list N) : outcome (option error) :=
  bindo (read32 m off_size) (fun size =>
  bindo (content_hash m size) (fun h =>
  bindo (read32 m off_hash) (fun h' =>
  Ok (if negb (h =? h') then Some invalid_hash else None)))).
Definition db_is_valid (addr : N) (m : list N) (check_hash : bool) : outcome (option error) :=
  if negb (is_aligned_to addr class_alignment) then Ok (Some invalid_alignment)
  else
    bindo (read32 m off_tag) (fun tag =>
    if negb (tag =? tag_compressed_database) then Ok (Some invalid_tag)
    else
      bindo (read16 m off_version) (fun version =>
      if (version <? version_first) || (version_latest <? version) then Ok (Some invalid_version)
      else if check_hash then check_content_hash m else Ok None)).

(** compressed_tracks::is_valid, compressed_tracks.impl.h:273-294; tracks_header has the tag and the version at the same
    place and the algorithm type, a byte, at 14 (compressed_headers.h:61-85) *)
Definition off_algorithm : N := 14.
Definition tracks_is_valid (addr : N) (m : list N) (check_hash : bool) : outcome (option error) :=
  if negb (is_aligned_to addr class_alignment) then Ok (Some invalid_alignment)
  else
    bindo (read32 m off_tag) (fun tag =>
    if negb (tag =? tag_compressed_tracks) then Ok (Some invalid_tag)
    else
      bindo (load8 m off_algorithm) (fun algorithm =>
      if negb (algorithm =? 0) then Ok (Some invalid_algorithm)
      else
        bindo (read16 m off_version) (fun version =>
        if (version <? version_first) || (version_latest <? version) then Ok (Some invalid_version)
        else if check_hash then check_content_hash m else Ok None))).

(** make_compressed_database / make_compressed_tracks, compressed_database.impl.h:167-190, compressed_tracks.impl.h:298-321:
    [buffer] is None for nullptr; [want_error] is out_error_result != nullptr.  The result is whether the pointer is returned
    and the error written. *)
Definition make_compressed (is_valid : N -> list N -> bool -> outcome (option error)) (buffer : option (N * list N)) (want_error : bool)
  : outcome (bool * option error) :=
  match buffer with
  | None => Ok (false, if want_error then Some invalid_buffer else None)
  | Some (addr, m) =>
      if want_error then bindo (is_valid addr m false) (fun r => Ok (match r with Some _ => false | None => true end, r))
      else Ok (true, None)
  end.

(** the size of a buffer, compress.database.impl.h:1145-1160 and :1413-1428 *)
Definition database_buffer_size (num_medium_chunks num_low_chunks num_tracks medium_size low_size : N) : N :=
  let s := addw 32 0 sizeof_raw in
  let s := addw 32 s sizeof_db_header in
  let s := align_to 32 s 4 in
  let s := addw 32 s (mulw 32 num_medium_chunks sizeof_description) in
  let s := align_to 32 s 4 in
  let s := addw 32 s (mulw 32 num_low_chunks sizeof_description) in
  let s := align_to 32 s 4 in
  let s := addw 32 s (mulw 32 num_tracks sizeof_clip_metadata) in
  let s := align_to 32 s bulk_alignment in
  let s := addw 32 s medium_size in
  addw 32 s low_size.

(** the pointers of :1188-1209 and :1445-1466 relative to the header: the clip metadata, the medium and the low bulk data.
    The buffer is aligned to 16 bytes, aligning a pointer aligns its offset. *)
Definition layout_offsets (num_medium_chunks num_low_chunks num_tracks medium_size low_size : N) : N * N * N :=
  let p := sizeof_raw + sizeof_db_header in
  let p := align_to 64 p 4 in
  let p := addw 64 p (mulw 64 num_medium_chunks sizeof_description) in
  let p := align_to 64 p 4 in
  let p := addw 64 p (mulw 64 num_low_chunks sizeof_description) in
  let p := align_to 64 p 4 in
  let clips := wrapw 32 (subw 64 p sizeof_raw) in
  let p := addw 64 p (mulw 64 num_tracks sizeof_clip_metadata) in
  let p := align_to 64 p bulk_alignment in
  let medium := if negb (medium_size =? 0) then wrapw 32 (subw 64 p sizeof_raw) else invalid_offset in
  let p := addw 64 p medium_size in
  let low := if negb (low_size =? 0) then wrapw 32 (subw 64 p sizeof_raw) else invalid_offset in
  (clips, medium, low).

(** arrays of pairs of words *)
Fixpoint write_pairs (m : list N) (off : N) (l : list (N * N)) : outcome (list N) :=
  match l with
  | [] => Ok m
  | (a, b) :: r => bindo (write32 m off a) (fun m => bindo (write32 m (off + 4) b) (fun m => write_pairs m (off + 8) r))
  end.

(** write_database_clip_metadata :800-820; [clips]: hash and number of segments of each clip *)
Fixpoint clip_metadata (clips : list (N * nat)) (clip_header_offset : N) : list (N * N) :=
  match clips with
  | [] => []
  | (hash, n) :: rest =>
      (hash, clip_header_offset) ::
      clip_metadata rest (addw 32 clip_header_offset (addw 32 sizeof_runtime_clip_header (mulw 32 sizeof_runtime_segment_header (N.of_nat n))))
  end.
(** calculate_num_segments :236-249 *)
Definition calculate_num_segments (clips : list (N * nat)) : N := fold_left (fun acc c => addw 32 acc (N.of_nat (snd c))) clips 0.

(** the bulk data of one tier: write_database_bulk_data(..., get_bulk_data()) and its hash, :1223-1229; the bytes behind the
    pointer are handed over and written back *)
Definition write_bulk (max : N) (tier : list frame_mapping) (jobs : list seg_job) (m : list N) (t size : N) : outcome (list N) :=
  bindo (get_bulk_data m t) (fun p =>
  match p with
  | None => bindo (write_database_bulk_data max tier jobs None) (fun _ => bindo (read_ptr m None size) (fun l => write32 m (off_bulk_hash t) (hash32 l)))
  | Some off =>
      bindo (load_bytes m off (N.to_nat size)) (fun region =>
      bindo (write_database_bulk_data max tier jobs (Some region)) (fun '(w, _) =>
      match w with
      | None => UB
      | Some w => bindo (store_bytes m off w) (fun m => bindo (load_bytes m off (N.to_nat size)) (fun l => write32 m (off_bulk_hash t) (hash32 l)))
      end))
  end).

(** build_compressed_database :1130-1249.  [jobs_medium], [jobs_low] are the segments with their key frames in each tier
    (DbBuild.clip_jobs).  The asserts are not modelled. *)
Definition build_compressed_database (max : N) (clips : list (N * nat)) (medium low : list frame_mapping) : outcome (list N) :=
  let jobs_medium := clip_jobs medium clips 0 0 in
  let jobs_low := clip_jobs low clips 0 0 in
  let num_tracks := N.of_nat (length clips) in
  let num_segments := calculate_num_segments clips in
  let descriptions_medium := write_database_chunk_descriptions max medium jobs_medium in
  let descriptions_low := write_database_chunk_descriptions max low jobs_low in
  let num_medium_chunks := N.of_nat (length descriptions_medium) in
  let num_low_chunks := N.of_nat (length descriptions_low) in
  bindo (write_database_bulk_data max medium jobs_medium None) (fun '(_, medium_size) =>
  let medium_size := align_to 32 medium_size bulk_alignment in
  bindo (write_database_bulk_data max low jobs_low None) (fun '(_, low_size) =>
  let size := database_buffer_size num_medium_chunks num_low_chunks num_tracks medium_size low_size in
  let '(clips_offset, medium_offset, low_offset) := layout_offsets num_medium_chunks num_low_chunks num_tracks medium_size low_size in
  let m := repeat 0 (N.to_nat size) in
  bindo (write32 m off_tag tag_compressed_database) (fun m =>
  bindo (write16 m off_version version_latest) (fun m =>
  bindo (write32 m (off_num_chunks 0) num_medium_chunks) (fun m =>
  bindo (write32 m (off_num_chunks 1) num_low_chunks) (fun m =>
  bindo (write32 m off_max_chunk_size max) (fun m =>
  bindo (write32 m off_num_clips num_tracks) (fun m =>
  bindo (write32 m off_num_segments num_segments) (fun m =>
  bindo (write32 m (off_bulk_size 0) medium_size) (fun m =>
  bindo (write32 m (off_bulk_size 1) low_size) (fun m =>
  bindo (set_is_bulk_data_inline m true) (fun m =>
  bindo (write32 m off_clip_metadata clips_offset) (fun m =>
  bindo (write32 m (off_bulk_offset 0) medium_offset) (fun m =>
  bindo (write32 m (off_bulk_offset 1) low_offset) (fun m =>
  bindo (write_pairs m chunk_descriptions_medium descriptions_medium) (fun m =>
  bindo (chunk_descriptions_low m) (fun p =>
  bindo (write_pairs m p descriptions_low) (fun m =>
  bindo (clip_metadatas m) (fun p =>
  bindo (write_pairs m p (clip_metadata clips 0)) (fun m =>
  bindo (write_bulk max medium jobs_medium m 0 medium_size) (fun m =>
  bindo (write_bulk max low jobs_low m 1 low_size) (fun m =>
  bindo (write32 m off_size size) (fun m =>
  bindo (content_hash m size) (fun h =>
  write32 m off_hash h)))))))))))))))))))))))).

(** split_database_bulk_data :1330-1386: the database and the two bulk data buffers *)
Definition split_database_bulk_data (addr : N) (m : list N) : outcome (error + list N * list N * list N) :=
  bindo (db_is_valid addr m true) (fun r =>
  match r with
  | Some e => Ok (inl e)
  | None =>
      bindo (get_is_bulk_data_inline m) (fun inline =>
      if negb inline then Ok (inl not_inline)
      else
        bindo (get_total_size m) (fun total_size =>
        bindo (read32 m (off_bulk_size 0)) (fun medium_size =>
        bindo (read32 m (off_bulk_size 1)) (fun low_size =>
        let db_size := subw 32 (subw 32 total_size medium_size) low_size in
        bindo (load_bytes m 0 (N.to_nat db_size)) (fun d =>
        bindo (write32 d (off_bulk_offset 0) invalid_offset) (fun d =>
        bindo (write32 d (off_bulk_offset 1) invalid_offset) (fun d =>
        bindo (set_is_bulk_data_inline d false) (fun d =>
        bindo (write32 d off_size db_size) (fun d =>
        bindo (content_hash d db_size) (fun h =>
        bindo (write32 d off_hash h) (fun d =>
        bindo (get_bulk_data m 0) (fun p0 =>
        bindo (read_ptr m p0 medium_size) (fun medium =>
        bindo (get_bulk_data m 1) (fun p1 =>
        bindo (read_ptr m p1 low_size) (fun low =>
        Ok (inr (d, medium, low)))))))))))))))))
  end).

(** strip_database_quality_tier :1388-1526 *)
Definition tier_index (tier : quality_tier) : N := match tier with lowest_importance => 1 | _ => 0 end.
Definition is_medium (tier : quality_tier) : bool := match tier with medium_importance => true | _ => false end.
Definition is_lowest (tier : quality_tier) : bool := match tier with lowest_importance => true | _ => false end.

Definition strip_database_quality_tier (addr : N) (m : list N) (tier : quality_tier) : outcome (error + list N) :=
  bindo (db_is_valid addr m true) (fun r =>
  match r with
  | Some e => Ok (inl e)
  | None =>
      if is_highest tier then Ok (inl highest_tier)
      else
        let ti := tier_index tier in
        bindo (read32 m (off_bulk_size ti)) (fun tier_size =>
        if tier_size =? 0 then Ok (inl empty_tier)
        else
          bindo (get_is_bulk_data_inline m) (fun inline =>
          bindo (if negb (is_medium tier) then read32 m (off_num_chunks 0) else Ok 0) (fun num_medium_chunks =>
          bindo (if negb (is_lowest tier) then read32 m (off_num_chunks 1) else Ok 0) (fun num_low_chunks =>
          bindo (read32 m off_num_clips) (fun num_tracks =>
          bindo (if negb (is_medium tier) then read32 m (off_bulk_size 0) else Ok 0) (fun medium_size =>
          bindo (if negb (is_lowest tier) then read32 m (off_bulk_size 1) else Ok 0) (fun low_size =>
          let size := database_buffer_size num_medium_chunks num_low_chunks num_tracks medium_size low_size in
          let '(clips_offset, medium_offset, low_offset) := layout_offsets num_medium_chunks num_low_chunks num_tracks medium_size low_size in
          let d := repeat 0 (N.to_nat size) in
          bindo (load_bytes m sizeof_raw (N.to_nat sizeof_db_header)) (fun header =>
          bindo (store_bytes d sizeof_raw header) (fun d =>
          bindo (write32 d off_clip_metadata clips_offset) (fun d =>
          bindo (write32 d (off_bulk_offset 0) medium_offset) (fun d =>
          bindo (write32 d (off_bulk_offset 1) low_offset) (fun d =>
          bindo (write32 d (off_num_chunks ti) 0) (fun d =>
          bindo (write32 d (off_bulk_size ti) 0) (fun d =>
          bindo (write32 d (off_bulk_offset ti) invalid_offset) (fun d =>
          bindo (write32 d (off_bulk_hash ti) (hash32 [])) (fun d =>
          bindo (if negb (is_medium tier)
                 then bindo (load_bytes m chunk_descriptions_medium (N.to_nat (num_medium_chunks * sizeof_description))) (fun l =>
                      store_bytes d chunk_descriptions_medium l)
                 else if negb (is_lowest tier)
                 then bindo (chunk_descriptions_low m) (fun p =>
                      bindo (load_bytes m p (N.to_nat (num_low_chunks * sizeof_description))) (fun l =>
                      bindo (chunk_descriptions_low d) (fun q => store_bytes d q l)))
                 else Ok d) (fun d =>
          bindo (clip_metadatas m) (fun p =>
          bindo (load_bytes m p (N.to_nat (num_tracks * sizeof_clip_metadata))) (fun l =>
          bindo (clip_metadatas d) (fun q =>
          bindo (store_bytes d q l) (fun d =>
          bindo (if inline : bool
                 then if negb (is_medium tier)
                      then bindo (get_bulk_data m 0) (fun p => bindo (read_ptr m p medium_size) (fun l => bindo (get_bulk_data d 0) (fun q => write_ptr d q l)))
                      else if negb (is_lowest tier)
                      then bindo (get_bulk_data m 1) (fun p => bindo (read_ptr m p low_size) (fun l => bindo (get_bulk_data d 1) (fun q => write_ptr d q l)))
                      else Ok d
                 else Ok d) (fun d =>
          bindo (write32 d off_size size) (fun d =>
          bindo (content_hash d size) (fun h =>
          bindo (write32 d off_hash h) (fun d => Ok (inr d))))))))))))))))))))))))))
  end).

(** compressed_database::contains, compressed_database.impl.h:122-140; [hash] is the hash of the clip *)
Fixpoint contains_loop (m : list N) (off : N) (n : nat) (hash : N) : outcome bool :=
  match n with
  | O => Ok false
  | S n' => bindo (read32 m off) (fun h => if h =? hash then Ok true else contains_loop m (off + sizeof_clip_metadata) n' hash)
  end.
Definition db_contains (m : list N) (has_database : bool) (hash : N) : outcome bool :=
  if negb has_database then Ok false
  else bindo (clip_metadatas m) (fun p => bindo (read32 m off_num_clips) (fun n => contains_loop m p (N.to_nat n) hash)).
