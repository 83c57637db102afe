(** Vocabulary of clips that are bound to a database (C46). *)
From Coq Require Import Reals.
From Verif Require Import Word Float32 Float32Facts Interp ScalarDec ScalarMeta Segment Strip SeekSpec DbTiers DbBuild DbStream ClipRewrite StreamSpec BuildSpec TransBind TransDec TransSpec TransClipSpec TransFile TransFileFacts TransSeek TransPlaySpec.
Local Open Scope N_scope.

(** a tier holds key frame [f] of segment [s] of clip [c] *)
Definition held (tier : list frame_mapping) (c s f : N) : bool :=
  existsb (fun x => (fm_tracks x =? c) && (fm_segment x =? s) && (fm_segment_frame x =? f)) tier.
(** the key frames of segment [i] of clip [c] that can be decompressed: those that stay in the clip, and those of a tier whose data
    for the segment is streamed in *)
Definition available_now (high medium low : list frame_mapping) (c : N) (streamed_medium streamed_low : N -> bool) (i : nat) (f : N) : bool :=
  held high c (N.of_nat i) f || (streamed_medium (N.of_nat i) && held medium c (N.of_nat i) f) || (streamed_low (N.of_nat i) && held low c (N.of_nat i) f).

(** the key frames [c0] of segment [i0] and [c1] of segment [i1] and the alpha [a] stand for the key frames [k0], [k1] and the alpha
    [al]: they are the closest ones on both sides among those that are available, and [a] is where the position is between them *)
Definition chosen_among (p : tclip) (avail : nat -> N -> bool) (k0 k1 : N) (al : f32) (i0 : nat) (c0 : N) (i1 : nat) (c1 : N) (a : f32) : Prop :=
  exists g0 f0 g1 f1, TransPlaySpec.in_segment p k0 i0 g0 f0 /\ TransPlaySpec.in_segment p k1 i1 g1 f1 /\ c0 < g_num_samples g0 /\ c1 < g_num_samples g1 /\
    last_available (avail i0) f0 c0 /\ first_available (avail i1) f1 c1 /\
    alpha_consistent al k0 (start_of (sizes_of p) i0 + c0) (start_of (sizes_of p) i1 + c1) a.

(** A context is used with a database whose state changes: each call sees the state the database is in at that time *)
Definition with_db (c : pcontext) (d : tdatabase) : pcontext :=
  {| x_tracks := x_tracks c; x_db := Some d; x_hash := x_hash c; x_db_hash := x_db_hash c; x_duration := x_duration c; x_time := x_time c; x_alpha := x_alpha c;
     x_rotation := x_rotation c; x_translation := x_translation c; x_scale := x_scale c; x_has_scale := x_has_scale c; x_has_segments := x_has_segments c;
     x_looping := x_looping c; x_rounding := x_rounding c; x_single := x_single c; x_kf0 := x_kf0 c; x_kf1 := x_kf1 c |}.
Definition bdo (ds : dsettings) (m : list N) (c : pcontext) (x : tdatabase * tcall) : outcome pcontext :=
  let '(d, x) := x in
  match x with
  | call_seek t rp => tseek ds (with_db c d) t rp
  | call_looping policy => tset_looping_policy ds (with_db c d) policy
  | call_relocated => bindo (trelocated (with_db c d) m (Some d)) (fun '(_, c) => Ok c)
  end.
Fixpoint bdo_all (ds : dsettings) (m : list N) (c : pcontext) (l : list (tdatabase * tcall)) : outcome pcontext :=
  match l with [] => Ok c | x :: l => bindo (bdo ds m c x) (fun c => bdo_all ds m c l) end.
(** a context is initialized with a clip and the database it is bound to, and used *)
Definition bused (ds : dsettings) (c0 : pcontext) (m : list N) (d : tdatabase) (calls : list (tdatabase * tcall)) : outcome pcontext :=
  bindo (tinitialize ds c0 m (Some d)) (fun c => bdo_all ds m c calls).

(** what the builder is given of a compressed clip [src] (C25): its hash, the number of its sub-tracks that vary and of its segments, its
    bytes from the transform header on and the headers of its segments *)
Definition clip_parts (src : list N) (file : clip_file) : Prop :=
  exists num_segments num_variable headers raws,
    h_hash src = Ok (cf_hash file) /\ read32 src 32 = Ok num_segments /\ read32 src 36 = Ok num_variable /\ read32 src 68 = Ok headers /\
    read_segments src (32 + headers) (N.to_nat num_segments) = Ok raws /\
    cf_transforms file = {| tr_variable_sub_tracks := num_variable; tr_num_segments := N.to_nat num_segments |} /\
    cf_bytes file = skipn 32 src /\ cf_headers file = map header_of_raw raws.
(** the sizes fit 32 bits *)
Definition binding_fits (src : list N) (file : clip_file) : Prop :=
  2 * blen src + 4 * N.of_nat (length (cf_headers file)) +
    sumN (map (fun h => tr_variable_sub_tracks (cf_transforms file) + range_data_size (cf_transforms file) + 4 * sh_pose_bits h + 8) (cf_headers file)) + 128 < 2 ^ 32.
(** where the runtime header of clip [c] is *)
Definition clip_header_of (files : list clip_file) (c : nat) : N := runtime_size (map (fun f => length (cf_headers f)) (firstn c files)).

(** a database that is built from clips: its tiers and their bulk data *)
Record built_database (sizes : list (list N)) (clips : list db_clip) (files : list clip_file) (max : N) (low_proportion medium_proportion : f32)
  (high medium low : list frame_mapping) (medium_bytes : list N) (medium_chunks : list chunk) (low_bytes : list N) (low_chunks : list chunk) : Prop := {
  bd_input : input_ok sizes clips files max low_proportion medium_proportion;
  bd_tiers : build_tiers low_proportion medium_proportion clips = Ok (high, medium, low);
  bd_medium : tier_stored max medium (jobs_of files medium) medium_bytes medium_chunks;
  bd_low : tier_stored max low (jobs_of files low) low_bytes low_chunks;
  bd_streams : well_formed {| db_max_chunk_size := max; db_medium := medium_chunks; db_low := low_chunks |}
}.
(** the memory of a tier: what is streamed in is there, the rest is anything *)
Definition memory_of (s : system) (t : DbStream.quality_tier) (bytes memory : list N) : Prop :=
  bytes_ok memory /\ blen memory = blen bytes /\ forall b, bm_resident (mem s t) b = true -> nth (N.to_nat b) memory 0 = nth (N.to_nat b) bytes 0.
(** the segment of the clip has the key frames of the tier *)
Definition streamed_in (files : list clip_file) (s : system) (t : DbStream.quality_tier) (c : nat) (i : N) : bool :=
  negb (tier_metadata (rt s t) (header_of files c (N.to_nat i)) =? 0).
