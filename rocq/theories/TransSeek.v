(** Model of the context of a transform clip (model only): decompression/impl/decompression.transform.h:84-563: initialize,
    relocated, set_looping_policy, seek, and the sample time checks of decompress_tracks and decompress_track.
    A clip is its buffer: its transform_tracks_header is at 32.  The settings support every format, and a database. *)
From Verif Require Import Word MemoryUtils BitManip Float32 Quant Interp Headers DbBuild ScalarDec Segment Strip SubTracks TransDec TransEnc TransFile.
Local Open Scope N_scope.

(** what a bound database leads to for this clip: the metadata of the two tiers of segment [i] (0 when they are not streamed in),
    as loaded by :295-299, :425-437, and the bulk data of the two tiers *)
Record tdatabase := { t_hash : N; t_metadata : N -> N * N; t_medium : list N; t_low : list N }.

(** persistent_transform_decompression_context_v0, decompression_context.transform.h:57-131.  What segment_offsets leads to (the
    sizes in the segment header) is read by seek rather than by decompress_tracks: the clip does not change in between *)
Record pcontext := {
  x_tracks : list N; x_db : option tdatabase; x_hash : N; x_db_hash : N;
  x_duration : f32; x_time : f32; x_alpha : f32;
  x_rotation : rotation_format; x_translation : bool; x_scale : bool; x_has_scale : bool; x_has_segments : bool;
  x_looping : looping_policy; x_rounding : rounding_policy;
  x_single : bool; x_kf0 : key_frame; x_kf1 : key_frame
}.

(** rotation_format8: get_rotation_format, decompression_settings.h; a value that is not supported is only asserted against *)
Definition rotation_format_of (code : N) : outcome rotation_format :=
  match code with 0 => Ok quatf_full | 2 => Ok quatf_drop_w_full | 3 => Ok quatf_drop_w_variable | _ => UB end.
Definition is_set (x : N) : bool := negb (x =? 0).
Definition hash_of (db : option tdatabase) : N := match db with Some d => t_hash d | None => 0 end.
(** initialize_v0, decompression.transform.h:84-131; [c] is the context before *)
Definition tinitialize (ds : dsettings) (c : pcontext) (m : list N) (db : option tdatabase) : outcome pcontext :=
  bindo (h_misc m) (fun misc =>
  bindo (rotation_format_of (get_rotation_format misc)) (fun rotation =>
  bindo (h_hash m) (fun hash =>
  bindo (read32 m transform_header) (fun num_segments =>
  bindo (if is_wrapping_supported ds then clip_looping_policy m else Ok lp_clamp) (fun lp =>
  bindo (finite_duration m lp) (fun duration =>
  Ok {| x_tracks := m; x_db := db; x_hash := hash; x_db_hash := hash_of db; x_duration := duration; x_time := f_minus_one; x_alpha := x_alpha c;
        x_rotation := rotation; x_translation := is_set (get_translation_format misc); x_scale := is_set (get_scale_format misc);
        x_has_scale := is_set (get_has_scale misc); x_has_segments := 1 <? num_segments; x_looping := lp; x_rounding := x_rounding c;
        x_single := x_single c; x_kf0 := x_kf0 c; x_kf1 := x_kf1 c |})))))).
(** relocated_v0, :133-158 *)
Definition trelocated (c : pcontext) (m : list N) (db : option tdatabase) : outcome (bool * pcontext) :=
  bindo (h_hash m) (fun hash =>
  if negb (x_hash c =? hash) then Ok (false, c)
  else if negb (x_db_hash c =? hash_of db) then Ok (false, c)
  else Ok (true, {| x_tracks := m; x_db := db; x_hash := x_hash c; x_db_hash := x_db_hash c; x_duration := x_duration c; x_time := f_minus_one; x_alpha := x_alpha c;
    x_rotation := x_rotation c; x_translation := x_translation c; x_scale := x_scale c; x_has_scale := x_has_scale c; x_has_segments := x_has_segments c;
    x_looping := x_looping c; x_rounding := x_rounding c; x_single := x_single c; x_kf0 := x_kf0 c; x_kf1 := x_kf1 c |})).
(** set_looping_policy_v0, :186-203; None is sample_looping_policy::as_compressed *)
Definition tset_looping_policy (ds : dsettings) (c : pcontext) (policy : option looping_policy) : outcome pcontext :=
  if negb (is_wrapping_supported ds) then Ok c
  else
    bindo (match policy with Some p => Ok p | None => clip_looping_policy (x_tracks c) end) (fun p =>
    if lp_eqb (x_looping c) p then Ok c
    else
      bindo (finite_duration (x_tracks c) p) (fun duration =>
      Ok {| x_tracks := x_tracks c; x_db := x_db c; x_hash := x_hash c; x_db_hash := x_db_hash c; x_duration := duration; x_time := x_time c; x_alpha := x_alpha c;
        x_rotation := x_rotation c; x_translation := x_translation c; x_scale := x_scale c; x_has_scale := x_has_scale c; x_has_segments := x_has_segments c;
        x_looping := p; x_rounding := x_rounding c; x_single := x_single c; x_kf0 := x_kf0 c; x_kf1 := x_kf1 c |})).

(** segment_start_indices (:375) and the sample_indices of the stripped segment headers (:279, :416).  Simplification: the code
    reads the ones it needs, this reads them all *)
Fixpoint read_words (m : list N) (off stride : N) (n : nat) : outcome (list N) :=
  match n with O => Ok [] | S n => bindo (read32 m off) (fun w => bindo (read_words m (off + stride) stride n) (fun l => Ok (w :: l))) end.
Definition tier_samples (db : option tdatabase) (i : nat) (indices : N) : segment_samples :=
  match db with
  | Some d => {| clip_indices := indices; medium_metadata := fst (t_metadata d (N.of_nat i)); low_metadata := snd (t_metadata d (N.of_nat i)) |}
  | None => {| clip_indices := indices; medium_metadata := 0; low_metadata := 0 |}
  end.
Definition segments_samples (db : option tdatabase) (indices : list N) : list segment_samples :=
  map (fun '(i, x) => tier_samples db i x) (combine (seq 0 (length indices)) indices).

(** :257-516: the segments and the positions of the two key frames in their data, and the alpha *)
Definition find_key_frames (ds : dsettings) (m : list N) (db : option tdatabase) (stripped : bool) (num_segments num_samples headers k0 k1 : N) (alpha : f32)
    : outcome (f32 * (N * source * N) * (N * source * N)) :=
  if num_segments =? 1 then
    if stripped then
      bindo (read32 m (headers + 16)) (fun indices =>
      bindo (seek_stripped_single (tier_samples db 0 indices) k0 k1 alpha) (fun '(_, _, a, (src0, r0), (src1, r1)) =>
      Ok (a, (0, src0, r0), (0, src1, r1))))
    else Ok (alpha, (0, from_clip, k0), (0, from_clip, k1))
  else
    bindo (read_words m (transform_header + align_to 32 transform_header_size 4) 4 (N.to_nat (num_segments + 1))) (fun starts =>
    if stripped then
      bindo (read_words m (headers + 16) 20 (N.to_nat num_segments)) (fun indices =>
      bindo (seek_stripped_multi (is_wrapping_supported ds) num_samples (segments_samples db indices) starts k0 k1 alpha) (fun '(_, _, a, l0, l1) =>
      Ok (a, l0, l1)))
    else
      bindo (find_segments (is_wrapping_supported ds) num_samples num_segments starts k0 k1) (fun '(s0, f0, s1, f1) =>
      Ok (alpha, (s0, from_clip, f0), (s1, from_clip, f1)))).

(** get_segment_data and the bits of :535-561; [has_database]: the data may live in the database *)
Definition key_frame_at (m : list N) (db : option tdatabase) (has_database stripped : bool) (headers : N) (at_ : N * source * N) : outcome key_frame :=
  let '(segment, src, rank) := at_ in
  let header := headers + segment * (if stripped then 20 else 16) in
  bindo (segment_pointers m header) (fun '(formats, ranges, animated) =>
  bindo (read32 m header) (fun pose =>
  bindo (read32 m (header + 4)) (fun rotation =>
  bindo (read32 m (header + 8)) (fun translation =>
  let data := match src, db with
              | from_medium o, Some d => if has_database then skipn (N.to_nat o) (t_medium d) else skipn (N.to_nat animated) m
              | from_low o, Some d => if has_database then skipn (N.to_nat o) (t_low d) else skipn (N.to_nat animated) m
              | _, _ => skipn (N.to_nat animated) m
              end in
  Ok {| kf_format := formats; kf_range := ranges; kf_data := data; kf_offset := mulw 32 rank pose;
        kf_rotation_bits := rotation; kf_translation_bits := translation |})))).

(** seek_v0, :205-563 *)
Definition tseek (ds : dsettings) (c : pcontext) (sample_time : f32) (rp : rounding_policy) : outcome pcontext :=
  let m := x_tracks c in
  bindo (h_num_tracks m) (fun num_tracks =>
  if num_tracks =? 0 then Ok c
  else
    let t := if clamp_sample_time ds then fclamp sample_time f_zero (x_duration c) else sample_time in
    if feq (x_time c) t && rp_eqb (x_rounding c) rp then Ok c
    else
      let lp := if is_wrapping_supported ds then x_looping c else lp_clamp in
      bindo (h_num_samples m) (fun n =>
      bindo (h_sample_rate m) (fun rate =>
      bindo (find_linear_interpolation_samples_with_sample_rate n rate t rp lp) (fun '(k0, k1, alpha) =>
      bindo (h_misc m) (fun misc =>
      bindo (read32 m transform_header) (fun num_segments =>
      bindo (read32 m (transform_header + 36)) (fun headers =>
      let headers := transform_header + headers in
      let has_database := is_set (get_has_database misc) in
      let stripped := has_database || is_set (get_has_stripped_keyframes misc) in
      bindo (find_key_frames ds m (x_db c) stripped num_segments n headers k0 k1 alpha) (fun '(alpha, l0, l1) =>
      bindo (key_frame_at m (x_db c) has_database stripped headers l0) (fun kf0 =>
      bindo (key_frame_at m (x_db c) has_database stripped headers l1) (fun kf1 =>
      Ok {| x_tracks := m; x_db := x_db c; x_hash := x_hash c; x_db_hash := x_db_hash c; x_duration := x_duration c; x_time := t; x_alpha := alpha;
            x_rotation := x_rotation c; x_translation := x_translation c; x_scale := x_scale c; x_has_scale := x_has_scale c; x_has_segments := x_has_segments c;
            x_looping := x_looping c; x_rounding := rp;
            x_single := fst (fst l0) =? fst (fst l1); x_kf0 := kf0; x_kf1 := kf1 |})))))))))).

(** the header members that the context leads to: constant_track_cache.transform.h:66-94, animated_track_cache.transform.h:1212-1310 *)
Definition tcontext_of (c : pcontext) : outcome tcontext :=
  let m := x_tracks c in
  let member off := read32 m (transform_header + off) in
  bindo (h_num_tracks m) (fun num_tracks => bindo (h_version m) (fun version =>
  bindo (member 8) (fun ar => bindo (member 12) (fun at_ => bindo (member 16) (fun as_ =>
  bindo (member 20) (fun cr => bindo (member 24) (fun ct =>
  bindo (member 40) (fun types => bindo (member 44) (fun constants => bindo (member 48) (fun range =>
  Ok {| c_mem := m; c_num_tracks := num_tracks; c_types := transform_header + types; c_constants := transform_header + constants;
        c_clip_range := transform_header + range; c_num_const_rotations := cr; c_num_const_translations := ct;
        c_num_anim_rotations := ar; c_num_anim_translations := at_; c_num_anim_scales := as_;
        c_rotation_format := x_rotation c; c_translation_variable := x_translation c; c_scale_variable := x_scale c;
        c_has_scale := x_has_scale c; c_has_segments := x_has_segments c; c_single_segment := x_single c; c_version := version;
        c_rounding := x_rounding c; c_kf0 := x_kf0 c; c_kf1 := x_kf1 c |})))))))))).

(** decompress_tracks_v0, :1526-1537; decompress_track_v0, :1754-1768.  The sample time is negative until seek is called *)
Definition play_tracks (w : twriter) (c : pcontext) : outcome (list event) :=
  bindo (h_num_tracks (x_tracks c)) (fun n =>
  if n =? 0 then Ok [] else if flt (x_time c) f_zero then Ok [] else bindo (tcontext_of c) (decompress_tracks w)).
Definition play_track (w : twriter) (c : pcontext) (i : N) : outcome (list event) :=
  bindo (h_num_tracks (x_tracks c)) (fun n =>
  if n =? 0 then Ok [] else if flt (x_time c) f_zero then Ok [] else if n <=? i then Ok [] else
  bindo (tcontext_of c) (fun t => decompress_track w t i)).
