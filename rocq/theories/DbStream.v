(** Model of the runtime side of databases (model only, no proofs):
    includes/acl/decompression/database/impl/database.impl.h (stream_in, stream_out, is_streamed_in, is_streaming,
    initialize with streamers) and database_streamer.impl.h (requests, complete, cancel).

    Simplifications:
    - the headers parsed out of the bulk data are given as data ([chunk]); whether a read of a chunk header is allowed
      (pointer valid, bytes streamed in) is checked by [read_chunk], which yields [UB] otherwise;
    - the runtime segment headers are a function from the header offset to the 64-bit tier metadata;
    - asserts are compiled out (release build);
    - calls are atomic: the relaxed atomics used for the metadata are not interleaved at word granularity. *)
From Verif Require Import Word BitManip Bitset.
Open Scope N_scope.

(** quality_tier, core/quality_tiers.h *)
Inductive quality_tier := Highest | Medium | Lowest.
Definition tier_eqb (a b : quality_tier) : bool :=
  match a, b with Highest, Highest | Medium, Medium | Lowest, Lowest => true | _, _ => false end.

(** database_chunk_segment_header, compressed_headers.h:449-474 *)
Record cseg := { cs_clip_hash : N; cs_sample_indices : N; cs_samples_offset : N; cs_segment_header_offset : N }.

(** database_chunk_description (compressed_headers.h:507-520) with the database_chunk_header (:479-499) it points to *)
Record chunk := { ck_offset : N; ck_size : N; ck_segs : list cseg }.

(** the parts of compressed_database the runtime uses *)
Record database := { db_max_chunk_size : N; db_medium : list chunk; db_low : list chunk }.

(** chunk_descriptions = tier == medium ? get_chunk_descriptions_medium() : get_chunk_descriptions_low(), database.impl.h:458 *)
Definition db_chunks (db : database) (t : quality_tier) : list chunk :=
  match t with Medium => db_medium db | _ => db_low db end.
(** header.num_chunks[tier_index], database.impl.h:462 *)
Definition num_chunks (db : database) (t : quality_tier) : N := N.of_nat (length (db_chunks db t)).

(** (uint64_t(samples_offset) << 32) | sample_indices, database_streamer.impl.h:110 *)
Definition seg_metadata (s : cseg) : N := N.lor (shlw 64 (cs_samples_offset s) 32) (cs_sample_indices s).

(** The bulk memory owned by the user's streamer for one tier: the buffer currently allocated, and which of its bytes
    hold streamed data. *)
Record bulk_mem := { bm_buffer : option N; bm_resident : N -> bool }.

(** One tier of database_context_v0, database_context.h:46-66 *)
Record tier_rt := {
  loaded : list N;             (* loaded_chunks[tier] *)
  streaming : list N;          (* streaming_chunks[tier] *)
  bulk_data : option N;        (* bulk_data[tier]: None is nullptr *)
  tier_metadata : N -> N       (* runtime segment headers: offset -> tier_metadata[tier] *)
}.

Inductive streaming_action := StreamIn | StreamOut.

(** streaming_request, database_streamer.h:56-66; a request is free when its tier is the highest one *)
Record request := { rq_action : streaming_action; rq_tier : quality_tier; rq_first : N; rq_num : N; rq_gen : N }.
Definition rq_is_valid (r : request) : bool := negb (tier_eqb (rq_tier r) Highest).
Definition rq_reset (r : request) : request :=
  {| rq_action := rq_action r; rq_tier := Highest; rq_first := rq_first r; rq_num := rq_num r; rq_gen := rq_gen r |}.
Definition rq_default : request := {| rq_action := StreamIn; rq_tier := Highest; rq_first := 0; rq_num := 0; rq_gen := 0 |}.

(** database_streamer members, database_streamer.h:163-171 *)
Record streamer := { requests : list request; next_request : N; generation : N }.

Definition new_streamer (num_requests : nat) : streamer :=
  {| requests := repeat rq_default num_requests; next_request := 0; generation := 0 |}.

(** The whole runtime: two tiers, their streamers ([shared]: one streamer serves both tiers), the streamers' memory and
    the I/O in flight. *)
Record io := { io_streamer : bool; io_id : N; io_tier : quality_tier; io_offset : N; io_size : N; io_in : bool }.
Record system := {
  medium_rt : tier_rt; low_rt : tier_rt;
  shared : bool; streamer0 : streamer; streamer1 : streamer;
  medium_mem : bulk_mem; low_mem : bulk_mem;
  pending : list io; next_buffer : N
}.

Definition rt (s : system) (t : quality_tier) : tier_rt := match t with Medium => medium_rt s | _ => low_rt s end.
Definition mem (s : system) (t : quality_tier) : bulk_mem := match t with Medium => medium_mem s | _ => low_mem s end.
Definition set_rt (s : system) (t : quality_tier) (x : tier_rt) : system :=
  {| medium_rt := match t with Medium => x | _ => medium_rt s end; low_rt := match t with Medium => low_rt s | _ => x end;
     shared := shared s; streamer0 := streamer0 s; streamer1 := streamer1 s; medium_mem := medium_mem s; low_mem := low_mem s;
     pending := pending s; next_buffer := next_buffer s |}.
Definition set_mem (s : system) (t : quality_tier) (x : bulk_mem) (nb : N) : system :=
  {| medium_rt := medium_rt s; low_rt := low_rt s; shared := shared s; streamer0 := streamer0 s; streamer1 := streamer1 s;
     medium_mem := match t with Medium => x | _ => medium_mem s end; low_mem := match t with Medium => low_mem s | _ => x end;
     pending := pending s; next_buffer := nb |}.
Definition set_pending (s : system) (p : list io) : system :=
  {| medium_rt := medium_rt s; low_rt := low_rt s; shared := shared s; streamer0 := streamer0 s; streamer1 := streamer1 s;
     medium_mem := medium_mem s; low_mem := low_mem s; pending := p; next_buffer := next_buffer s |}.
(** which streamer serves a tier: false is the first one *)
Definition streamer_of (s : system) (t : quality_tier) : bool :=
  match t with Medium => false | _ => negb (shared s) end.
Definition get_streamer (s : system) (which : bool) : streamer := if which then streamer1 s else streamer0 s.
Definition set_streamer (s : system) (which : bool) (x : streamer) : system :=
  {| medium_rt := medium_rt s; low_rt := low_rt s; shared := shared s;
     streamer0 := if which then streamer0 s else x; streamer1 := if which then x else streamer1 s;
     medium_mem := medium_mem s; low_mem := low_mem s; pending := pending s; next_buffer := next_buffer s |}.

(** database_context::initialize with streamers, database.impl.h:215-282: bit sets and headers zeroed, no bulk data *)
Definition new_rt (db : database) (t : quality_tier) : tier_rt :=
  {| loaded := bitset_reset (bitset_size_from_num_bits (num_chunks db t)) false;
     streaming := bitset_reset (bitset_size_from_num_bits (num_chunks db t)) false;
     bulk_data := None; tier_metadata := fun _ => 0 |}.
Definition no_mem : bulk_mem := {| bm_buffer := None; bm_resident := fun _ => false |}.
Definition initialize (db : database) (sh : bool) (n0 n1 : nat) : system :=
  {| medium_rt := new_rt db Medium; low_rt := new_rt db Lowest; shared := sh;
     streamer0 := new_streamer n0; streamer1 := new_streamer n1;
     medium_mem := no_mem; low_mem := no_mem; pending := []; next_buffer := 0 |}.

(** database_context::is_streamed_in, database.impl.h:408-423 *)
Definition is_streamed_in (db : database) (s : system) (t : quality_tier) : bool :=
  match t with Highest => false | _ => bitset_count_set_bits (loaded (rt s t)) =? num_chunks db t end.
(** database_context::is_streaming, database.impl.h:426-441 *)
Definition is_streaming (s : system) (t : quality_tier) : bool :=
  match t with Highest => false | _ => negb (bitset_count_set_bits (streaming (rt s t)) =? 0) end.

(** The scan of stream_in, database.impl.h:471-486 *)
Fixpoint scan_pending (words : list N) (entry_index : N) : option N :=
  match words with
  | [] => None
  | w :: ws =>
    let n := count_trailing_zeros w in
    if n =? 0 then scan_pending ws (entry_index + 1)
    else Some (addw 32 (mulw 32 entry_index 32) (32 - n))
  end.
(** The scan of stream_out, database.impl.h:553-568 *)
Fixpoint scan_loaded (words : list N) (entry_index : N) : option N :=
  match words with
  | [] => None
  | w :: ws =>
    let n := count_leading_zeros w in
    if n =? 32 then scan_loaded ws (entry_index + 1)
    else Some (addw 32 (mulw 32 entry_index 32) n)
  end.

(** The clamp shared by stream_in (database.impl.h:469, 488-493) and stream_out (:549, 570-575): the last chunk and the
    number of chunks of the request *)
Definition clamp_last (first num_requested nchunks : N) : N :=
  let num := N.min num_requested nchunks in
  let last64 := subw 64 (addw 64 first num) 1 in
  if nchunks <=? last64 then subw 32 nchunks 1 else last64.
Definition clamp_num (first last : N) : N := addw 32 (subw 32 last first) 1.

(** stream_size, database.impl.h:508-509 and 590-591 *)
Definition stream_size (db : database) (num last_size : N) : N :=
  addw 32 (mulw 32 (subw 32 num 1) (db_max_chunk_size db)) last_size.

(** make_request_id / get_request_index / get_generation_id, database_streamer.impl.h:45-58 *)
Definition make_request_id (request_index generation_id : N) : N := N.lor (shlw 64 generation_id 32) request_index.
Definition get_request_index (id : N) : N := wrapw 32 id.
Definition get_generation_id (id : N) : N := wrapw 32 (shrw id 32).

(** database_streamer::build_request, database_streamer.impl.h:204-225 *)
Definition build_request (st : streamer) (a : streaming_action) (t : quality_tier) (first num : N) : outcome (option (N * streamer)) :=
  let request_index := next_request st in
  match nth_error (requests st) (N.to_nat request_index) with
  | None => UB
  | Some r =>
    if rq_is_valid r then Ok None
    else
      let gen := generation st in
      Ok (Some (make_request_id request_index gen,
        {| requests := upd (requests st) (N.to_nat request_index)
             {| rq_action := a; rq_tier := t; rq_first := first; rq_num := num; rq_gen := gen |};
           next_request := (addw 32 (next_request st) 1) mod (N.of_nat (length (requests st)));
           generation := addw 32 gen 1 |}))
  end.

(** Reading chunk headers through a bulk data pointer: the pointer must be the live buffer and every byte of the chunk must
    hold streamed data. *)
Fixpoint all_resident (m : N -> bool) (offset : N) (n : nat) : bool :=
  match n with O => true | S n' => m offset && all_resident m (offset + 1) n' end.
Definition read_chunk (m : bulk_mem) (ptr : option N) (c : chunk) : outcome (list cseg) :=
  match ptr, bm_buffer m with
  | Some p, Some b => if (p =? b) && all_resident (bm_resident m) (ck_offset c) (N.to_nat (ck_size c)) then Ok (ck_segs c) else UB
  | _, _ => UB
  end.

(** The segment loops: store the metadata (database_streamer.impl.h:97-112) or zero (database.impl.h:615-630) *)
Definition set_meta (f : N -> N) (offset v : N) : N -> N := fun o => if o =? offset then v else f o.
Definition store_segs (value : cseg -> N) (segs : list cseg) (f : N -> N) : N -> N :=
  fold_left (fun f s => set_meta f (cs_segment_header_offset s) (value s)) segs f.

(** The chunk loops, database_streamer.impl.h:90-113 and database.impl.h:608-631 *)
Fixpoint for_chunks (n : nat) (chunks : list chunk) (i : N) (m : bulk_mem) (ptr : option N) (value : cseg -> N) (f : N -> N) : outcome (N -> N) :=
  match n with
  | O => Ok f
  | S n' =>
    match nth_error chunks (N.to_nat i) with
    | None => UB
    | Some c => bindo (read_chunk m ptr c) (fun segs => for_chunks n' chunks (i + 1) m ptr value (store_segs value segs f))
    end
  end.

(** the virtual call made to the streamer *)
Record stream_call := { sc_in : bool; sc_offset : N; sc_size : N; sc_can_alloc : bool; sc_id : N }.
Inductive result := NotInitialized | InvalidTier | InProgress | Done | NoFreeRequests | Dispatched (c : stream_call).

(** database_context::stream_in, database.impl.h:444-523, up to the virtual call *)
Definition stream_in (db : database) (s : system) (t : quality_tier) (num_requested : N) : outcome (result * system) :=
  match t with Highest => Ok (InvalidTier, s) | _ =>
  if is_streaming s t then Ok (InProgress, s) else
  let n := num_chunks db t in
  match scan_pending (loaded (rt s t)) 0 with
  | None => Ok (Done, s)
  | Some first =>
    let last := clamp_last first num_requested n in
    let num := clamp_num first last in
    if num =? 0 then Ok (Done, s) else
    let w := streamer_of s t in
    bindo (build_request (get_streamer s w) StreamIn t first num) (fun o =>
    match o with
    | None => Ok (NoFreeRequests, s)
    | Some (id, st') =>
      match nth_error (db_chunks db t) (N.to_nat first), nth_error (db_chunks db t) (N.to_nat last) with
      | Some cf, Some cl =>
        let r := rt s t in
        bindo (bitset_set_range (streaming r) first num true) (fun streaming' =>
        Ok (Dispatched {| sc_in := true; sc_offset := ck_offset cf; sc_size := stream_size db num (ck_size cl);
                          sc_can_alloc := match bulk_data r with None => true | Some _ => false end; sc_id := id |},
            set_rt (set_streamer s w st') t {| loaded := loaded r; streaming := streaming'; bulk_data := bulk_data r; tier_metadata := tier_metadata r |}))
      | _, _ => UB
      end
    end)
  end end.

(** database_context::stream_out, database.impl.h:526-637, up to the virtual call *)
Definition stream_out (db : database) (s : system) (t : quality_tier) (num_requested : N) : outcome (result * system) :=
  match t with Highest => Ok (InvalidTier, s) | _ =>
  if is_streaming s t then Ok (InProgress, s) else
  let n := num_chunks db t in
  match scan_loaded (loaded (rt s t)) 0 with
  | None => Ok (Done, s)
  | Some first =>
    let last := clamp_last first num_requested n in
    let num := clamp_num first last in
    if num =? 0 then Ok (Done, s) else
    let w := streamer_of s t in
    bindo (build_request (get_streamer s w) StreamOut t first num) (fun o =>
    match o with
    | None => Ok (NoFreeRequests, s)
    | Some (id, st') =>
      match nth_error (db_chunks db t) (N.to_nat first), nth_error (db_chunks db t) (N.to_nat last) with
      | Some cf, Some cl =>
        let r := rt s t in
        let can_deallocate := num =? bitset_count_set_bits (loaded r) in
        bindo (bitset_set_range (streaming r) first num true) (fun streaming' =>
        bindo (for_chunks (N.to_nat num) (db_chunks db t) first (mem s t) (bulk_data r) (fun _ => 0) (tier_metadata r)) (fun meta' =>
        Ok (Dispatched {| sc_in := false; sc_offset := ck_offset cf; sc_size := stream_size db num (ck_size cl);
                          sc_can_alloc := can_deallocate; sc_id := id |},
            set_rt (set_streamer s w st') t
              {| loaded := loaded r; streaming := streaming'; bulk_data := if can_deallocate then None else bulk_data r; tier_metadata := meta' |})))
      | _, _ => UB
      end
    end)
  end end.

(** execute_request, database_streamer.impl.h:60-136 *)
Definition execute_request (db : database) (success : bool) (s : system) (q : request) : outcome system :=
  let t := rq_tier q in
  let r := rt s t in
  match rq_action q with
  | StreamIn =>
    bindo (if success then
             let ptr := match bulk_data r with None => bm_buffer (mem s t) | p => p end in
             bindo (for_chunks (N.to_nat (rq_num q)) (db_chunks db t) (rq_first q) (mem s t) ptr seg_metadata (tier_metadata r)) (fun meta' =>
             bindo (bitset_set_range (loaded r) (rq_first q) (rq_num q) true) (fun loaded' =>
             Ok {| loaded := loaded'; streaming := streaming r; bulk_data := ptr; tier_metadata := meta' |}))
           else Ok r) (fun r' =>
    bindo (bitset_set_range (streaming r') (rq_first q) (rq_num q) false) (fun streaming' =>
    Ok (set_rt s t {| loaded := loaded r'; streaming := streaming'; bulk_data := bulk_data r'; tier_metadata := tier_metadata r' |})))
  | StreamOut =>
    bindo (bitset_set_range (loaded r) (rq_first q) (rq_num q) false) (fun loaded' =>
    bindo (bitset_set_range (streaming r) (rq_first q) (rq_num q) false) (fun streaming' =>
    Ok (set_rt s t {| loaded := loaded'; streaming := streaming'; bulk_data := bulk_data r; tier_metadata := tier_metadata r |})))
  end.

(** database_streamer::complete (success = true), database_streamer.impl.h:150-172, and cancel (false), :174-196 *)
Definition finish_request (db : database) (success : bool) (s : system) (which : bool) (id : N) : outcome system :=
  let st := get_streamer s which in
  let i := get_request_index id in
  if N.of_nat (length (requests st)) <=? i then Ok s else
  match nth_error (requests st) (N.to_nat i) with
  | None => UB
  | Some q =>
    if negb (rq_is_valid q) then Ok s else
    if negb (rq_gen q =? get_generation_id id) then Ok s else
    bindo (execute_request db success s q) (fun s' =>
    let st' := get_streamer s' which in
    Ok (set_streamer s' which {| requests := upd (requests st') (N.to_nat i) (rq_reset q); next_request := next_request st'; generation := generation st' |}))
  end.

(** * The user's streamer.  Not ACL code: the least a streamer must do according to database_streamer.h:76-124 (compare
    debug_database_streamer.h:82-121).  On a stream in call with permission to allocate it allocates the buffer unless it
    still owns one; the data is in the buffer when it completes the request.  On a stream out call it drops the data at once
    and frees the buffer when permitted. *)
Definition in_range (offset size b : N) : bool := (offset <=? b) && (b <? offset + size).

Definition handle_call (s : system) (t : quality_tier) (c : stream_call) : system :=
  let m := mem s t in
  let m_nb :=
    if sc_in c then
      match bm_buffer m with
      | None => if sc_can_alloc c then ({| bm_buffer := Some (next_buffer s); bm_resident := fun _ => false |}, next_buffer s + 1) else (m, next_buffer s)
      | Some _ => (m, next_buffer s)
      end
    else ({| bm_buffer := if sc_can_alloc c then None else bm_buffer m;
             bm_resident := fun b => if in_range (sc_offset c) (sc_size c) b then false else bm_resident m b |}, next_buffer s) in
  set_pending (set_mem s t (fst m_nb) (snd m_nb))
    ({| io_streamer := streamer_of s t; io_id := sc_id c; io_tier := t; io_offset := sc_offset c; io_size := sc_size c; io_in := sc_in c |} :: pending s).

Definition io_is (which : bool) (id : N) (x : io) : bool := Bool.eqb (io_streamer x) which && (io_id x =? id).
Definition finish_io (success : bool) (s : system) (which : bool) (id : N) : system :=
  match find (io_is which id) (pending s) with
  | None => s
  | Some x =>
    let m := mem s (io_tier x) in
    set_pending
      (if success && io_in x then
         set_mem s (io_tier x)
           {| bm_buffer := bm_buffer m; bm_resident := fun b => if in_range (io_offset x) (io_size x) b then true else bm_resident m b |} (next_buffer s)
       else s)
      (filter (fun y => negb (io_is which id y)) (pending s))
  end.

(** * Histories: the user's requests and the completions, in any order *)
Inductive event :=
| EvIn (t : quality_tier) (n : N)
| EvOut (t : quality_tier) (n : N)
| EvComplete (which : bool) (id : N)
| EvCancel (which : bool) (id : N).

Definition step (db : database) (s : system) (e : event) : outcome (result * system) :=
  match e with
  | EvIn t n => bindo (stream_in db s t n) (fun p =>
      Ok (fst p, match fst p with Dispatched c => handle_call (snd p) t c | _ => snd p end))
  | EvOut t n => bindo (stream_out db s t n) (fun p =>
      Ok (fst p, match fst p with Dispatched c => handle_call (snd p) t c | _ => snd p end))
  | EvComplete w id => bindo (finish_request db true (finish_io true s w id) w id) (fun s' => Ok (Done, s'))
  | EvCancel w id => bindo (finish_request db false (finish_io false s w id) w id) (fun s' => Ok (Done, s'))
  end.

Fixpoint run (db : database) (s : system) (es : list event) : outcome system :=
  match es with
  | [] => Ok s
  | e :: es' => bindo (step db s e) (fun p => run db (snd p) es')
  end.
