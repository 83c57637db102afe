(** What a compressed database is, as data, and how it is laid out in a buffer: the vocabulary of C26 and C31.
    Nothing here mentions the functions of the model except hash32, the hash function. *)
From Verif Require Import Word Hash DbTiers.
Local Open Scope N_scope.

(** one tier: the (size, offset) of its chunks and its bulk data *)
Record tier_content := { tc_chunks : list (N * N); tc_bulk : list N }.
Definition no_tier : tier_content := {| tc_chunks := []; tc_bulk := [] |}.
Record database := { d_version : N; d_max_chunk_size : N; d_num_segments : N; d_clips : list (N * N); d_medium : tier_content; d_low : tier_content }.

Definition count {A} (l : list A) : N := N.of_nat (length l).
Definition word (v : N) : list N := le_bytes 4 v.
Definition half (v : N) : list N := le_bytes 2 v.
Definition pairs_bytes (l : list (N * N)) : list N := flat_map (fun p => word (fst p) ++ word (snd p)) l.
Definition no_offset : N := 4294967295.

(** Offsets count from the header, that is 8 bytes into the buffer.  Chunk descriptions and clip metadata are 8 bytes each. *)
Definition clips_at (d : database) : N := 56 + 8 * (count (tc_chunks (d_medium d)) + count (tc_chunks (d_low d))).
Definition medium_at (d : database) : N := clips_at d + 8 * count (d_clips d).
Definition low_at (d : database) : N := medium_at d + count (tc_bulk (d_medium d)).
Definition offset_of (inline : bool) (bulk : list N) (at_ : N) : N :=
  if inline then match bulk with [] => no_offset | _ => at_ end else no_offset.

(** everything that is hashed; [inline] tells whether the bulk data follows in the buffer *)
Definition content_pieces (inline : bool) (d : database) : list (list N) :=
  [ word 2886851329 (* 0xac11db01 *); half (d_version d); half (if inline then 1 else 0);
    word (count (tc_chunks (d_medium d))); word (count (tc_chunks (d_low d)));
    word (d_max_chunk_size d); word (count (d_clips d)); word (d_num_segments d);
    word (clips_at d);
    word (count (tc_bulk (d_medium d))); word (count (tc_bulk (d_low d)));
    word (offset_of inline (tc_bulk (d_medium d)) (medium_at d)); word (offset_of inline (tc_bulk (d_low d)) (low_at d));
    word (hash32 (tc_bulk (d_medium d))); word (hash32 (tc_bulk (d_low d)));
    pairs_bytes (tc_chunks (d_medium d)); pairs_bytes (tc_chunks (d_low d));
    pairs_bytes (d_clips d);
    if inline then tc_bulk (d_medium d) else []; if inline then tc_bulk (d_low d) else [] ].
Definition content (inline : bool) (d : database) : list N := concat (content_pieces inline d).
Definition total_size (inline : bool) (d : database) : N :=
  64 + 8 * (count (tc_chunks (d_medium d)) + count (tc_chunks (d_low d)) + count (d_clips d)) +
  (if inline then count (tc_bulk (d_medium d)) + count (tc_bulk (d_low d)) else 0).
Definition serialize (inline : bool) (d : database) : list N :=
  word (total_size inline d) ++ word (hash32 (content inline d)) ++ content inline d.

(** a database that the format can hold *)
Definition database_ok (d : database) : Prop :=
  7 <= d_version d <= 10 /\ d_max_chunk_size d < 2 ^ 32 /\ d_num_segments d < 2 ^ 32 /\ total_size true d < 2 ^ 32 /\
  bytes_ok (tc_bulk (d_medium d)) /\ bytes_ok (tc_bulk (d_low d)).

Definition tier_of (d : database) (tier : quality_tier) : tier_content := match tier with lowest_importance => d_low d | _ => d_medium d end.
(** the same database with nothing in a tier *)
Definition without (d : database) (tier : quality_tier) : database :=
  match tier with
  | highest_importance => d
  | medium_importance => {| d_version := d_version d; d_max_chunk_size := d_max_chunk_size d; d_num_segments := d_num_segments d;
                            d_clips := d_clips d; d_medium := no_tier; d_low := d_low d |}
  | lowest_importance => {| d_version := d_version d; d_max_chunk_size := d_max_chunk_size d; d_num_segments := d_num_segments d;
                            d_clips := d_clips d; d_medium := d_medium d; d_low := no_tier |}
  end.

(** What is_valid must accept (C26): the buffer starts with its size and the hash of its content; the content starts with
    the tag, a version between 7 and 10 and, for tracks, the algorithm 0. *)
Definition well_formed_buffer (tag : N) (algorithm : list N) (check_hash : bool) (m : list N) : Prop :=
  exists size hash version rest,
    let content := word tag ++ half version ++ algorithm ++ rest in
    m = word size ++ word hash ++ content /\ size < 2 ^ 32 /\ hash < 2 ^ 32 /\ 7 <= version <= 10 /\
    (check_hash = true -> hash = hash32 (firstn (N.to_nat (size - 8)) content)).
Definition database_tag : N := 2886851329.
Definition tracks_tag : N := 2886839313.
(** the size a buffer claims, its first word *)
Definition claims_size (m : list N) (size : N) : Prop := exists rest, m = word size ++ rest /\ size < 2 ^ 32.

(** the clips of a database, from their hashes and numbers of segments: the runtime headers of a clip (8 bytes, and 16 for
    each segment) follow those of the clip before *)
Fixpoint clip_entries (clips : list (N * nat)) (off : N) : list (N * N) :=
  match clips with [] => [] | (hash, n) :: rest => (hash, off) :: clip_entries rest (off + (8 + 16 * N.of_nat n)) end.
