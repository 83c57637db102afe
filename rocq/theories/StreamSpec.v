(** What the streaming properties talk about, independently of the bit sets and of the request table: which bytes of a
    tier's bulk data the streamer holds, and what decompression can see. *)
From Verif Require Import Word DbStream.
Open Scope N_scope.

(** The two tiers a database has. *)
Definition streamable (t : quality_tier) : Prop := t <> Highest.

Definition chunk_at (db : database) (t : quality_tier) (c : N) (ch : chunk) : Prop :=
  nth_error (db_chunks db t) (N.to_nat c) = Some ch.

(** every byte / no byte of the chunk is held by the streamer *)
Definition chunk_resident (s : system) (t : quality_tier) (ch : chunk) : Prop :=
  forall b, ck_offset ch <= b < ck_offset ch + ck_size ch -> bm_resident (mem s t) b = true.
Definition chunk_absent (s : system) (t : quality_tier) (ch : chunk) : Prop :=
  forall b, ck_offset ch <= b < ck_offset ch + ck_size ch -> bm_resident (mem s t) b = false.

(** what decompression loads for a segment: the tier metadata word of its runtime header *)
Definition visible_metadata (s : system) (t : quality_tier) (sg : cseg) : N := tier_metadata (rt s t) (cs_segment_header_offset sg).

(** A database as the builder lays it out: chunks of a fixed size back to back (only the last one may be shorter), each
    runtime segment header used by at most one chunk of the tier, sizes that fit in 32 bits. *)
Definition well_formed (db : database) : Prop :=
  2 <= db_max_chunk_size db < 2 ^ 32 /\
  forall t, streamable t ->
    (forall c ch, chunk_at db t c ch ->
       ck_offset ch = c * db_max_chunk_size db /\ 1 <= ck_size ch <= db_max_chunk_size db /\
       (c + 1 < num_chunks db t -> ck_size ch = db_max_chunk_size db) /\
       ck_offset ch + ck_size ch < 2 ^ 32) /\
    NoDup (map cs_segment_header_offset (flat_map ck_segs (db_chunks db t))).

(** The first chunk of the tier that is in memory. *)
Definition first_resident (db : database) (s : system) (t : quality_tier) (c : N) : Prop :=
  (exists ch, chunk_at db t c ch /\ chunk_resident s t ch) /\
  forall c' ch', c' < c -> chunk_at db t c' ch' -> ~ chunk_resident s t ch'.

(** How the API has to be used for the guarantees to hold (see the refutations for what happens otherwise):
    - at least one chunk is asked for;
    - chunks are streamed in only while the tier is empty or still has its first chunk, i.e. a tier that was partially
      streamed out is streamed out completely before anything is streamed in again;
    - the chunks a stream out names are in memory.
    A call made while a request is in flight on the tier is always allowed (it is refused). *)
Definition allowed (db : database) (s : system) (e : event) : Prop :=
  match e with
  | EvIn t n => 1 <= n < 2 ^ 32 /\
      (streamable t -> is_streaming s t = false -> (forall c ch, chunk_at db t c ch -> ~ chunk_resident s t ch) \/ first_resident db s t 0)
  | EvOut t n => 1 <= n < 2 ^ 32 /\
      (streamable t -> is_streaming s t = false -> forall c, first_resident db s t c -> forall c' ch', c <= c' < c + n -> chunk_at db t c' ch' -> chunk_resident s t ch')
  | EvComplete _ id | EvCancel _ id => id < 2 ^ 64
  end.

(** The states reachable from a freshly initialized context. *)
Inductive reachable (db : database) (sh : bool) (n0 n1 : nat) : system -> Prop :=
| reach_init : reachable db sh n0 n1 (initialize db sh n0 n1)
| reach_step s e r s' : reachable db sh n0 n1 s -> allowed db s e -> step db s e = Ok (r, s') -> reachable db sh n0 n1 s'.
