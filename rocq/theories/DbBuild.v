(** Model of how the builder writes the bulk data of a database tier (model only).
    compression/impl/compress.database.impl.h:823-1128.
    The bulk data is modelled byte by byte: every header field and every key frame is written into, and read back from,
    the same buffer.  Simplification: both passes of write_database_bulk_data visit the segments of the clips in the same
    order (the two nested loops :1007-1066, :1095-1130); that order is computed once, as a list of jobs. *)
From Verif Require Import Word MemoryUtils Bitset DbTiers.
Local Open Scope N_scope.

(** sizeof(database_chunk_header), compressed_headers.h:479-499; sizeof(database_chunk_segment_header), :449-474;
    sizeof(database_runtime_clip_header), :425-440; sizeof(database_runtime_segment_header), :404-422 *)
Definition sizeof_chunk_header : N := 12.
Definition sizeof_chunk_segment_header : N := 20.
Definition sizeof_runtime_clip_header : N := 8.
Definition sizeof_runtime_segment_header : N := 16.
Definition simd_padding : N := 15.

(** a uint32_t member read / written at a byte offset *)
Definition read32 (m : list N) (off : N) : outcome N := load_le m off 4.
Definition write32 (m : list N) (off v : N) : outcome (list N) := store_bytes m off (le_bytes 4 v).

(** find_segment_frames :823-856 *)
Definition in_segment (t s : N) (f : frame_mapping) : bool := (fm_tracks f =? t) && (fm_segment f =? s).
Fixpoint take_segment (t s : N) (l : list frame_mapping) : list frame_mapping :=
  match l with [] => [] | f :: r => if in_segment t s f then f :: take_segment t s r else [] end.
Fixpoint find_segment_frames (t s : N) (l : list frame_mapping) : list frame_mapping :=
  match l with [] => [] | f :: r => if in_segment t s f then take_segment t s l else find_segment_frames t s r end.

(** calculate_segment_animated_data_bit_size :859-866 and the size in bytes :925-926, :1012-1013 *)
Definition segment_bit_size (frames : list frame_mapping) : N :=
  match frames with [] => 0 | f :: _ => mulw 32 (fm_bits f) (N.of_nat (length frames)) end.
Definition segment_data_size (frames : list frame_mapping) : N := addw 32 (segment_bit_size frames) 7 / 8.

(** build_sample_indices :869-882 *)
Fixpoint sample_indices_loop (frames : list frame_mapping) (bits : list N) : outcome (list N) :=
  match frames with [] => Ok bits | f :: r => bindo (bitset_set bits (fm_segment_frame f) true) (sample_indices_loop r) end.
Definition build_sample_indices (frames : list frame_mapping) : outcome N :=
  bindo (sample_indices_loop frames [0]) (fun b => match b with w :: _ => Ok w | [] => UB end).

(** One segment of one clip, as both passes see it: the hash of the clip, the offsets of the runtime headers (:1005,
    :1058, :1063) and its key frames in this tier. *)
Record seg_job := { sj_hash : N; sj_clip_header : N; sj_segment_header : N; sj_frames : list frame_mapping }.
Fixpoint segment_jobs (tier : list frame_mapping) (hash t cho : N) (n : nat) (s sho : N) : list seg_job :=
  match n with
  | O => []
  | S n' => {| sj_hash := hash; sj_clip_header := cho; sj_segment_header := sho; sj_frames := find_segment_frames t s tier |} ::
            segment_jobs tier hash t cho n' (s + 1) (addw 32 sho sizeof_runtime_segment_header)
  end.
(** [clips]: hash and number of segments of each output clip *)
Fixpoint clip_jobs (tier : list frame_mapping) (clips : list (N * nat)) (t cho : N) : list seg_job :=
  match clips with
  | [] => []
  | (hash, n) :: rest =>
      let sho := addw 32 cho sizeof_runtime_clip_header in
      segment_jobs tier hash t cho n 0 sho ++
      clip_jobs tier rest (t + 1) (addw 32 sho (mulw 32 (N.of_nat n) sizeof_runtime_segment_header))
  end.

(** write_database_chunk_descriptions :902-965: (size, offset) of every chunk *)
Fixpoint chunk_descriptions (max : N) (jobs : list seg_job) (bulk_data_offset chunk_size : N) : list (N * N) :=
  match jobs with
  | [] => if chunk_size =? sizeof_chunk_header then [] else [(addw 32 chunk_size simd_padding, bulk_data_offset)]
  | j :: rest =>
      let size := segment_data_size (sj_frames j) in
      let new_chunk_size := addw 32 (addw 32 (addw 32 chunk_size size) simd_padding) sizeof_chunk_segment_header in
      if max <=? new_chunk_size then
        (max, bulk_data_offset) ::
        chunk_descriptions max rest (addw 32 bulk_data_offset max) (addw 32 sizeof_chunk_header (addw 32 size sizeof_chunk_segment_header))
      else chunk_descriptions max rest bulk_data_offset (addw 32 chunk_size (addw 32 size sizeof_chunk_segment_header))
  end.
Definition write_database_chunk_descriptions (max : N) (tier : list frame_mapping) (jobs : list seg_job) : list (N * N) :=
  match tier with [] => [] | _ => chunk_descriptions max jobs 0 sizeof_chunk_header end.

(** a new chunk header, :988-997 and :1017-1039: index, size = 0, num_segments = 0 *)
Definition start_chunk (m : list N) (off index : N) : outcome (list N) :=
  bindo (write32 m off index) (fun m => bindo (write32 m (off + 4) 0) (fun m => write32 m (off + 8) 0)).
(** the header of a segment, :1041-1054 *)
Definition add_segment (m : list N) (hdr : N) (j : seg_job) (rel : N) : outcome (list N) :=
  bindo (build_sample_indices (sj_frames j)) (fun indices =>
  bindo (read32 m (hdr + 8)) (fun n =>
  let at_ := hdr + sizeof_chunk_header + n * sizeof_chunk_segment_header in
  bindo (write32 m at_ (sj_hash j)) (fun m =>
  bindo (write32 m (at_ + 4) indices) (fun m =>
  bindo (write32 m (at_ + 8) rel) (fun m =>
  bindo (write32 m (at_ + 12) (sj_clip_header j)) (fun m =>
  bindo (write32 m (at_ + 16) (sj_segment_header j)) (fun m =>
  write32 m (hdr + 8) (addw 32 n 1)))))))).

(** The first pass :1000-1079.  [m] is None for the call that only computes the size (bulk_data == nullptr).  [hdr] is the
    offset of chunk_header. *)
Fixpoint header_pass (max : N) (jobs : list seg_job) (m : option (list N)) (hdr bulk_data_offset rel chunk_size chunk_index : N)
  : outcome (option (list N) * N) :=
  match jobs with
  | [] =>
      if chunk_size =? sizeof_chunk_header then Ok (m, bulk_data_offset)
      else
        let chunk_size := addw 32 chunk_size simd_padding in
        match m with
        | None => Ok (None, addw 32 bulk_data_offset chunk_size)
        | Some m => bindo (write32 m (hdr + 4) chunk_size) (fun m => Ok (Some m, addw 32 bulk_data_offset chunk_size))
        end
  | j :: rest =>
      let size := segment_data_size (sj_frames j) in
      let new_chunk_size := addw 32 (addw 32 (addw 32 chunk_size size) simd_padding) sizeof_chunk_segment_header in
      if max <=? new_chunk_size then
        let off := addw 32 bulk_data_offset max in
        let index := addw 32 chunk_index 1 in
        let chunk_size := addw 32 sizeof_chunk_header (addw 32 size sizeof_chunk_segment_header) in
        match m with
        | None => header_pass max rest None off off size chunk_size index
        | Some m =>
            bindo (write32 m (hdr + 4) max) (fun m =>
            bindo (start_chunk m off index) (fun m =>
            bindo (add_segment m off j 0) (fun m =>
            header_pass max rest (Some m) off off size chunk_size index)))
        end
      else
        let chunk_size := addw 32 chunk_size (addw 32 size sizeof_chunk_segment_header) in
        match m with
        | None => header_pass max rest None hdr bulk_data_offset (addw 32 rel size) chunk_size chunk_index
        | Some m => bindo (add_segment m hdr j rel) (fun m => header_pass max rest (Some m) hdr bulk_data_offset (addw 32 rel size) chunk_size chunk_index)
        end
  end.

(** write_tier_segment_data :885-899: [off] is where out_segment_data points in the bulk data *)
Fixpoint write_frames (frames : list frame_mapping) (m : list N) (off num_bits_written : N) : outcome (list N) :=
  match frames with
  | [] => Ok m
  | f :: rest =>
      match fm_data f with
      | None => UB
      | Some data =>
          bindo (memcpy_bits m (8 * off + num_bits_written) data (mulw 32 (fm_segment_frame f) (fm_bits f)) (fm_bits f)) (fun m =>
          write_frames rest m off (num_bits_written + fm_bits f))
      end
  end.

(** The second pass :1082-1125 *)
Fixpoint sample_pass (jobs : list seg_job) (m : list N) (hdr chunk_segment_index : N) : outcome (list N) :=
  match jobs with
  | [] => Ok m
  | j :: rest =>
      bindo (read32 m (hdr + 8)) (fun n0 =>
      bindo (if n0 <=? chunk_segment_index then bindo (read32 m (hdr + 4)) (fun size => Ok (hdr + size, 0)) else Ok (hdr, chunk_segment_index))
        (fun '(hdr, index) =>
      bindo (read32 m (hdr + 8)) (fun n =>
      let at_ := hdr + sizeof_chunk_header + index * sizeof_chunk_segment_header + 8 in
      bindo (read32 m at_) (fun rel =>
      let samples_offset := addw 32 (addw 32 (wrapw 32 hdr) (addw 32 sizeof_chunk_header (mulw 32 n sizeof_chunk_segment_header))) rel in
      bindo (write32 m at_ samples_offset) (fun m =>
      bindo (write_frames (sj_frames j) m samples_offset 0) (fun m =>
      sample_pass rest m hdr (addw 32 index 1)))))))
  end.

(** write_database_bulk_data :968-1128: the size, and the bytes when there is a buffer *)
Definition write_database_bulk_data (max : N) (tier : list frame_mapping) (jobs : list seg_job) (m : option (list N))
  : outcome (option (list N) * N) :=
  match tier with
  | [] => Ok (m, 0)
  | _ =>
      match m with
      | None => header_pass max jobs None 0 0 0 sizeof_chunk_header 0
      | Some m =>
          bindo (start_chunk m 0 0) (fun m =>
          bindo (header_pass max jobs (Some m) 0 0 0 sizeof_chunk_header 0) (fun '(m, size) =>
          match m with
          | None => UB
          | Some m => bindo (sample_pass jobs m 0 0) (fun m => Ok (Some m, size))
          end))
      end
  end.
(** build_compressed_database :1138-1143, :1162-1163, :1223-1229: the size is computed first, the buffer is zeroed and then
    written.  The medium tier is padded to 4 bytes (k_database_bulk_data_alignment). *)
Definition build_bulk_data (max : N) (tier : list frame_mapping) (jobs : list seg_job) (padded : bool) : outcome (list N) :=
  bindo (write_database_bulk_data max tier jobs None) (fun '(_, size) =>
  let size := if padded then align_to 32 size 4 else size in
  bindo (write_database_bulk_data max tier jobs (Some (repeat 0 (N.to_nat size)))) (fun '(m, _) =>
  match m with Some m => Ok m | None => UB end)).
