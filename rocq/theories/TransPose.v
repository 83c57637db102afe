(** Specification of a decompressed pose: what is laid out where, and what the writer gets. *)
From Verif Require Import Word Float32 Interp SubTracks TransDec TransSpec TransMem TransAnim TransAnim2.
Local Open Scope N_scope.

Definition kinds (l : list sub) : list N := map kind l.
Definition when {A} (b : bool) (l : list A) : list A := if b then l else [].

(** The animated data of one key frame: one format byte per sub-track and segment ranges (if the format is variable),
    and the bit stream. *)
Record key_frame_layout (c : tcontext) (kf : key_frame) (r t s : list stored) : Prop := {
  kl_formats : padded (c_mem c) (kf_format kf)
    (when (rotation_variable (c_rotation_format c)) (rotation_formats (c_version c) r) ++
     when (c_translation_variable c) (vector_formats (c_version c) t) ++ when (c_scale_variable c) (vector_formats (c_version c) s));
  kl_ranges : c_has_segments c = true -> padded (c_mem c) (kf_range kf)
    (when (rotation_variable (c_rotation_format c)) (rotation_ranges r) ++
     when (c_translation_variable c) (vector_ranges t) ++ when (c_scale_variable c) (vector_ranges s));
  kl_data : stream (kf_data kf) (kf_offset kf) (r ++ t ++ s);
  kl_rotation_bits : kf_rotation_bits kf = stored_sizes r;
  kl_translation_bits : kf_translation_bits kf = stored_sizes t;
  kl_r : if rotation_variable (c_rotation_format c) then Forall (stored_ok (c_has_segments c)) r
         else Forall (is_raw (rotation_components (c_rotation_format c))) r;
  kl_t : if c_translation_variable c then Forall (stored_ok (c_has_segments c)) t else Forall (is_raw 3) t;
  kl_s : if c_scale_variable c then Forall (stored_ok (c_has_segments c)) s else Forall (is_raw 3) s
}.

(** The clip: a kind per sub-track, the constant samples, the clip ranges, and the two key frames that seek selected. *)
Record clip_layout (c : tcontext) (r t s : list sub) : Prop := {
  cl_small : c_num_tracks c + 16 < 2 ^ 32;
  cl_num_r : N.of_nat (length r) = c_num_tracks c;
  cl_num_t : N.of_nat (length t) = c_num_tracks c;
  cl_num_s : N.of_nat (length s) = c_num_tracks c;
  cl_no_scale : c_has_scale c = false -> Forall (fun x => x = SDefault) s;
  cl_types : placed (c_mem c) (c_types c) (word_bytes
    (write_packed_sub_track_types (kinds r) ++ write_packed_sub_track_types (kinds t) ++ when (c_has_scale c) (write_packed_sub_track_types (kinds s))));
  cl_num_const_r : c_num_const_rotations c = N.of_nat (length (constants r));
  cl_num_const_t : c_num_const_translations c = N.of_nat (length (constants t));
  cl_num_r_animated : c_num_anim_rotations c = N.of_nat (length (animated r));
  cl_num_t_animated : c_num_anim_translations c = N.of_nat (length (animated t));
  cl_num_s_animated : c_num_anim_scales c = N.of_nat (length (animated s));
  cl_constants : padded (c_mem c) (c_constants c) (constant_layout (rotation_full (c_rotation_format c)) (constants r) (constants t) (constants s));
  cl_constant_r : Forall (in_words 32 (rotation_components (c_rotation_format c))) (constants r);
  cl_constant_t : Forall (in_words 32 3) (constants t);
  cl_constant_s : Forall (in_words 32 3) (constants s);
  cl_clip : padded (c_mem c) (c_clip_range c)
    (when (rotation_variable (c_rotation_format c)) (rotation_clip_ranges (map xclip (animated r))) ++
     when (c_translation_variable c) (vector_clip_ranges (map xclip (animated t))) ++
     when (c_scale_variable c) (vector_clip_ranges (map xclip (animated s))));
  cl_clip_words : Forall (in_words 32 6) (map xclip (animated r) ++ map xclip (animated t) ++ map xclip (animated s));
  cl_kf0 : key_frame_layout c (c_kf0 c) (map x0 (animated r)) (map x0 (animated t)) (map x0 (animated s));
  cl_kf1 : key_frame_layout c (c_kf1 c) (map x1 (animated r)) (map x1 (animated t)) (map x1 (animated s));
  cl_single : c_single_segment c = true -> kf_range (c_kf1 c) = kf_range (c_kf0 c)
}.

Definition subs (r t s : list sub) (ch : channel) : list sub := match ch with Rotation => r | Translation => t | Scale => s end.

(** The lanes of an animated sample.  Four variable rotations at a time are remapped with their raw neighbours. *)
Definition sample_value (c : tcontext) (ch : channel) (s : stored) (clip : list N) : list f32 :=
  match ch with
  | Rotation => rotation_value (c_rotation_format c) (c_has_segments c) s clip
  | _ => decoded (c_has_segments c) s clip
  end.
(** what the writer gets for a sub-track: nothing if it skips it *)
Definition written (w : twriter) (c : tcontext) (ch : channel) (i : N) (s : sub) (o : out) : Prop :=
  tw_skip w ch i = false /\
  match s with
  | SDefault => tw_skip_default w ch = false /\ o = ODefault
  | SConst ws => o = OConst (map f_of_bits ws)
  | SAnim x => o = OMix (track_policy w c i) (sample_value c ch (x0 x) (xclip x)) (sample_value c ch (x1 x) (xclip x))
  end.
(** every track that is not skipped is written, once, with its value, and nothing else is *)
Definition pose_written (w : twriter) (c : tcontext) (subs : channel -> list sub) (events : list event) : Prop :=
  NoDup (map fst events) /\
  forall ch i o, In (ch, i, o) events <-> exists s, nth_error (subs ch) (N.to_nat i) = Some s /\ written w c ch i s o.

(** decompressing a single track: the skips of the writer do not apply *)
Definition written_alone (w : twriter) (c : tcontext) (ch : channel) (i : N) (s : sub) (o : out) : Prop :=
  match s with
  | SDefault => tw_skip_default w ch = false /\ o = ODefault
  | SConst ws => o = OConst (map f_of_bits ws)
  | SAnim x => o = OMix (track_policy w c i) (decoded (c_has_segments c) (x0 x) (xclip x)) (decoded (c_has_segments c) (x1 x) (xclip x))
  end.
