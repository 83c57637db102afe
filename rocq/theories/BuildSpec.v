(** Specification vocabulary of C22 and C25: what the bulk data of a tier looks like. *)
From Verif Require Import Word MemoryUtils SeekSpec DbTiers DbStream DbBuild.
Local Open Scope N_scope.

(** bytes taken by the key frames of a segment *)
Definition data_bytes (frames : list frame_mapping) : N := (sumN (map fm_bits frames) + 7) / 8.

(** A segment as the builder gets it from the tiers (C21): its key frames all have the same size, point inside the data of
    the segment, and fit a chunk with the headers and the padding. *)
Definition frames_ok (frames : list frame_mapping) : Prop :=
  (length frames <= 32)%nat /\
  exists bits, 32 * bits + 7 < 2 ^ 32 /\
    Forall (fun f => fm_bits f = bits /\ fm_segment_frame f < 32 /\
                     exists d, fm_data f = Some d /\ bytes_ok d /\ (fm_segment_frame f + 1) * bits <= 8 * blen d) frames.
Definition job_ok (max : N) (j : seg_job) : Prop :=
  sj_hash j < 2 ^ 32 /\ sj_clip_header j < 2 ^ 32 /\ sj_segment_header j < 2 ^ 32 /\ frames_ok (sj_frames j) /\
  data_bytes (sj_frames j) + 35 <= max.

(** a 32-bit field holds a value *)
Definition word_at (m : list N) (off v : N) : Prop := load_le m off 4 = Ok v.
(** the headers of chunk number [c] *)
Definition chunk_in (m : list N) (c : N) (ch : chunk) : Prop :=
  word_at m (ck_offset ch) c /\ word_at m (ck_offset ch + 4) (ck_size ch) /\
  word_at m (ck_offset ch + 8) (N.of_nat (length (ck_segs ch))) /\
  forall i sg, nth_error (ck_segs ch) i = Some sg ->
    let h := ck_offset ch + 12 + 20 * N.of_nat i in
    word_at m h (cs_clip_hash sg) /\ word_at m (h + 4) (cs_sample_indices sg) /\ word_at m (h + 8) (cs_samples_offset sg) /\
    word_at m (h + 16) (cs_segment_header_offset sg).

(** the key frames are stored one after the other from byte [off], bit for bit *)
Definition frames_stored (m : list N) (off : N) (frames : list frame_mapping) : Prop :=
  forall i f d b, nth_error frames i = Some f -> fm_data f = Some d -> b < fm_bits f ->
    mbit m (8 * off + N.of_nat i * fm_bits f + b) = mbit d (fm_segment_frame f * fm_bits f + b).
(** the header of a segment says which clip and segment it is for and which key frames it holds *)
Definition describes (sg : cseg) (j : seg_job) : Prop :=
  cs_clip_hash sg = sj_hash j /\ cs_segment_header_offset sg = sj_segment_header j /\
  cs_sample_indices sg < 2 ^ 32 /\ cs_samples_offset sg < 2 ^ 32 /\
  forall f, f < 32 -> (present (cs_sample_indices sg) f = true <-> In f (map fm_segment_frame (sj_frames j))).

(** The size of the bulk data in unbounded arithmetic: segments are appended to a chunk for as long as they fit. *)
Fixpoint bulk_size (max : N) (jobs : list seg_job) (offset chunk_size : N) : N :=
  match jobs with
  | [] => offset + chunk_size + 15
  | j :: r =>
      let d := data_bytes (sj_frames j) in
      if max <=? chunk_size + d + 35 then bulk_size max r (offset + max) (32 + d) else bulk_size max r offset (chunk_size + 20 + d)
  end.

(** The bulk data of a tier: every segment of every clip, in order, spread over chunks. *)
Definition bulk_data_of (max : N) (jobs : list seg_job) (m : list N) (chunks : list chunk) : Prop :=
  Forall2 describes (flat_map ck_segs chunks) jobs /\
  (forall c ch, nth_error chunks c = Some ch ->
     chunk_in m (N.of_nat c) ch /\
     ck_offset ch = N.of_nat c * max /\ ck_offset ch + ck_size ch <= blen m /\ ck_offset ch + ck_size ch <= bulk_size max jobs 0 12 /\ 12 <= ck_size ch /\
     ((S c < length chunks)%nat -> ck_size ch = max) /\
     (S c = length chunks -> ck_size ch <= max + 12) /\
     (Forall (fun j => data_bytes (sj_frames j) + 47 <= max) jobs -> ck_size ch <= max)) /\
  (forall c ch i sg j, nth_error chunks c = Some ch -> nth_error (ck_segs ch) i = Some sg ->
     nth_error jobs (length (flat_map ck_segs (firstn c chunks)) + i) = Some j ->
     (* the key frames lie in the chunk, behind the headers, apart from those of the other segments *)
     ck_offset ch + 12 + 20 * N.of_nat (length (ck_segs ch)) <= cs_samples_offset sg /\
     cs_samples_offset sg + data_bytes (sj_frames j) <= ck_offset ch + ck_size ch /\
     cs_samples_offset sg + data_bytes (sj_frames j) + 15 <= blen m /\
     (forall sg', nth_error (ck_segs ch) (S i) = Some sg' -> cs_samples_offset sg + data_bytes (sj_frames j) <= cs_samples_offset sg') /\
     frames_stored m (cs_samples_offset sg) (sj_frames j)).

(** byte offset of the runtime header of segment [s] of clip [c] (compressed_headers.h:404-440) when clip [i] has [nth i ns] segments *)
Fixpoint runtime_offset (ns : list nat) (c s : nat) : N :=
  match c, ns with
  | S c', n :: ns' => 8 + 16 * N.of_nat n + runtime_offset ns' c' s
  | _, _ => 8 + 16 * N.of_nat s
  end.
Definition runtime_size (ns : list nat) : N := sumN (map (fun n => 8 + 16 * N.of_nat n) ns).

(** C25: a segment of a clip and its copy: the format of the sub-tracks, their ranges and the key frames [kept] (in order) *)
From Verif Require Import ClipRewrite.
Definition bits_equal (m : list N) (at1 : N) (src : list N) (at2 size : N) : Prop :=
  forall i, i < 8 * size -> mbit m (8 * at1 + i) = mbit src (8 * at2 + i).
Definition segment_kept (tr : transforms) (src : list N) (h : seg_header) (m : list N) (o : stripped_header) (kept : list N) : Prop :=
  let '(format_in, range_in, animated_in) := get_segment_data tr (sh_data h) in
  let '(format_out, range_out, animated_out) := get_segment_data tr (sh_data (st_header o)) in
  sh_pose_bits (st_header o) = sh_pose_bits h /\
  st_sample_indices o < 2 ^ 32 /\ stored_frames (st_sample_indices o) = kept /\
  bits_equal m format_out src format_in (tr_variable_sub_tracks tr) /\
  bits_equal m range_out src range_in (range_data_size tr) /\
  (forall r f b, nth_error kept r = Some f -> b < sh_pose_bits h ->
     mbit m (8 * animated_out + N.of_nat r * sh_pose_bits h + b) = mbit src (8 * animated_in + f * sh_pose_bits h + b)).
(** the segment lies in the clip: [n] key frames *)
Definition segment_inside (tr : transforms) (src : list N) (h : seg_header) (n : N) : Prop :=
  let '(_, _, animated) := get_segment_data tr (sh_data h) in
  8 * animated + n * sh_pose_bits h <= 8 * blen src /\ sh_data h + tr_variable_sub_tracks tr + range_data_size tr + 8 < 2 ^ 32 /\
  animated <= blen src /\ 32 * sh_pose_bits h + 7 < 2 ^ 32.

(** A compressed clip given to the builder: its hash, and the part of it the segments live in (offsets relative to the
    transform header), where the rewritten segments start and what follows them. *)
From Verif Require Import TierSpec.
Record clip_file := { cf_hash : N; cf_transforms : transforms; cf_bytes : list N; cf_headers : list seg_header; cf_base : N; cf_tail : N }.
Definition animated_at (tr : transforms) (h : seg_header) : N := snd (get_segment_data tr (sh_data h)).
(** [sizes] are the numbers of key frames of the segments; [c] is what the tier assignment sees of the clip; every segment
    fits a chunk of [max] bytes *)
Definition file_ok (max : N) (sizes : list N) (c : db_clip) (f : clip_file) : Prop :=
  cf_hash f < 2 ^ 32 /\ bytes_ok (cf_bytes f) /\ length (cf_headers f) = length sizes /\
  cf_base f + sumN (map (fun h => tr_variable_sub_tracks (cf_transforms f) + range_data_size (cf_transforms f) + 4 * sh_pose_bits h + 8) (cf_headers f)) < 2 ^ 32 /\
  forall s h n, nth_error (cf_headers f) s = Some h -> nth_error sizes s = Some n ->
    segment_inside (cf_transforms f) (cf_bytes f) h n /\ (n * sh_pose_bits h + 7) / 8 + 35 <= max /\
    nth_error (dc_pose_bits c) s = Some (sh_pose_bits h) /\
    nth_error (dc_data c) s = Some (skipn (N.to_nat (animated_at (cf_transforms f) h)) (cf_bytes f)).
Definition jobs_of (files : list clip_file) (tier : list frame_mapping) : list seg_job :=
  clip_jobs tier (map (fun f => (cf_hash f, length (cf_headers f))) files) 0 0.
(** the bulk data of a tier that may be empty *)
Definition tier_stored (max : N) (tier : list frame_mapping) (jobs : list seg_job) (m : list N) (chunks : list chunk) : Prop :=
  write_database_chunk_descriptions max tier jobs = map (fun ch => (ck_size ch, ck_offset ch)) chunks /\
  ((tier = [] /\ m = [] /\ chunks = []) \/ (tier <> [] /\ bulk_data_of max jobs m chunks)).
(** the word of a runtime segment header once its chunk is streamed in (C23) *)
Definition streamed_word (chunks : list chunk) (header_offset : N) : N :=
  match find (fun sg => cs_segment_header_offset sg =? header_offset) (flat_map ck_segs chunks) with Some sg => seg_metadata sg | None => 0 end.

(** C25: bit [b] of the key frame at position [r] of the data decompression was pointed to, decompression.transform.h:525-545
    (the bit offset of a key frame is its position times the size of a pose; the base is the animated data of the segment in
    the clip or the bulk data of the tier plus the offset of the segment) *)
From Verif Require Import Strip.
Definition sampled_bit (clip_bytes : list N) (animated : N) (medium low : list N) (src : source) (pose_bits r b : N) : bool :=
  match src with
  | from_clip => mbit clip_bytes (8 * animated + r * pose_bits + b)
  | from_medium o => mbit medium (8 * o + r * pose_bits + b)
  | from_low o => mbit low (8 * o + r * pose_bits + b)
  end.
(** the word of a runtime segment header: nothing streamed in, or the segment's chunk (C23) *)
Definition tier_word (chunks : list chunk) (header_offset w : N) : Prop := w = 0 \/ w = streamed_word chunks header_offset.

(** What the builder is given: clips with their stripping orders (C21, C37), their bytes, the chunk size and the proportions. *)
From Coq Require Import Reals.
From Verif Require Import Float32 Float32Facts.
Definition input_ok (sizes : list (list N)) (clips : list db_clip) (files : list clip_file) (max : N) (low_proportion medium_proportion : f32) : Prop :=
  length clips = length sizes /\
  (forall i z c, nth_error sizes i = Some z -> nth_error clips i = Some c -> clip_ok z c) /\
  length files = length sizes /\
  (forall i z c f, nth_error sizes i = Some z -> nth_error clips i = Some c -> nth_error files i = Some f -> file_ok max z c f) /\
  runtime_size (map (fun f => length (cf_headers f)) files) < 2 ^ 32 /\ max <= 2 ^ 31 /\
  (ffinite low_proportion = true /\ (0 <= FR low_proportion <= 1)%R) /\
  (ffinite medium_proportion = true /\ (0 <= FR medium_proportion <= 1)%R) /\
  total_frames sizes <= 2 ^ 24.
(** the offset of the runtime header of segment [s] of clip [c] *)
Definition header_of (files : list clip_file) (c s : nat) : N := runtime_offset (map (fun f => length (cf_headers f)) files) c s.
(** the bulk data of both tiers fit in 32 bits *)
Definition bulk_fits (max : N) (files : list clip_file) (tier : list frame_mapping) : Prop := bulk_size max (jobs_of files tier) 0 12 + 3 < 2 ^ 32.
