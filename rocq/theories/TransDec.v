(** Model of transform track decompression (model only): decompression/impl/constant_track_cache.transform.h,
    animated_track_cache.transform.h, track_cache.h, and the walks of decompression.transform.h.
    A clip is its buffer, an address is an offset in it; the animated data of a key frame may live in a database buffer,
    hence it has its own memory.
    Simplifications, here and below:
    - the SSE2 branches are modelled (they read the most bytes); the NEON and scalar branches compute the same lanes;
    - the arithmetic that RTM provides (not in the repository) is not modelled past the range expansion: W reconstruction,
      interpolation, normalization.  What is written is given by the lanes it starts from ([OConst], [OMix]);
    - mul_add is not fused;
    - prefetches are dropped. *)
From Verif Require Import Word MemoryUtils BitManip Float32 Quant Interp Packing DbBuild ScalarDec SubTracks.
Local Open Scope N_scope.

(** rotation_format8 and vector_format8: core/track_formats.h:58-64, :76-81 *)
Inductive rotation_format := quatf_full | quatf_drop_w_full | quatf_drop_w_variable.
Definition rotation_variable (f : rotation_format) : bool := match f with quatf_drop_w_variable => true | _ => false end.
Definition rotation_full (f : rotation_format) : bool := match f with quatf_full => true | _ => false end.

(** What is handed to the writer: the default value, a constant sample, or the two key frames' samples to mix under a
    rounding policy.  [OJunk] is the content of a lane or of a cache cell that holds no sample. *)
Inductive out := ODefault | OConst (lanes : list f32) | OMix (policy : rounding_policy) (lanes0 lanes1 : list f32) | OJunk.

(** What seek leaves in the context for one of its two key frames: decompression.transform.h:535-561
    ([kf_rotation_bits], [kf_translation_bits] are in the segment header the context points to) *)
Record key_frame := {
  kf_format : N;              (* format_per_track_data *)
  kf_range : N;               (* segment_range_data *)
  kf_data : list N;           (* the memory from animated_track_data on *)
  kf_offset : N;              (* key_frame_bit_offsets *)
  kf_rotation_bits : N;
  kf_translation_bits : N
}.

(** persistent_transform_decompression_context_v0 and the header members it leads to *)
Record tcontext := {
  c_mem : list N;
  c_num_tracks : N;
  c_types : N;                (* get_sub_track_types() *)
  c_constants : N;            (* get_constant_track_data() *)
  c_clip_range : N;           (* get_clip_range_data() *)
  c_num_const_rotations : N;
  c_num_const_translations : N;
  c_num_anim_rotations : N;
  c_num_anim_translations : N;
  c_num_anim_scales : N;
  c_rotation_format : rotation_format;
  c_translation_variable : bool;
  c_scale_variable : bool;
  c_has_scale : bool;
  c_has_segments : bool;
  c_single_segment : bool;
  c_version : N;
  c_rounding : rounding_policy;
  c_kf0 : key_frame;
  c_kf1 : key_frame
}.

(** v02_01_99_1 is 9: core/compressed_tracks_version.h:73; animated_track_cache.transform.h:522-523 (and :697, :879, ...) *)
Definition raw_bit_rate_bits (version : N) : N := if 9 <=? version then 31 else 32.

(** rtm::vector_load: sixteen bytes *)
Definition vector_load (m : list N) (off : N) : outcome (list f32) := load_floats 4 m off.

(** ** track_cache_v0, track_cache.h:52-79 *)
Record ring := { r_cells : list out; r_write : N; r_read : N; r_left : N }.
Definition new_ring (size left : N) : ring :=
  {| r_cells := repeat OJunk (N.to_nat size); r_write := 0; r_read := 0; r_left := left |}.
Definition store_cells (cells : list out) (at_ : N) (vs : list out) : outcome (list out) :=
  let i := N.to_nat at_ in
  if (i + length vs <=? length cells)%nat then Ok (firstn i cells ++ vs ++ skipn (i + length vs) cells) else UB.

(** unpack_rotation_group and its siblings, the part about the cache: constant_track_cache.transform.h:111-132 (batch 16),
    animated_track_cache.transform.h:1317-1333, :1800-1816, ... (batch 4).  The cache holds two batches. *)
Definition unpack_group {P} (batch : N) (fetch : N -> P -> outcome (list out * P)) (s : ring * P) : outcome (ring * P) :=
  let '(r, p) := s in
  if r_left r =? 0 then Ok (r, p)
  else if batch <=? subw 32 (r_write r) (r_read r) then Ok (r, p)
  else
    let n := N.min (r_left r) batch in
    bindo (fetch n p) (fun '(vs, p) =>
    bindo (store_cells (r_cells r) (r_write r mod (2 * batch)) vs) (fun cells =>
    Ok ({| r_cells := cells; r_write := addw 32 (r_write r) n; r_read := r_read r; r_left := subw 32 (r_left r) n |}, p))).

(** consume_rotation and its siblings: constant_track_cache.transform.h:257-262, animated_track_cache.transform.h:1787-1792 *)
Definition consume {P} (batch : N) (s : ring * P) : outcome (out * (ring * P)) :=
  let '(r, p) := s in
  match nth_error (r_cells r) (N.to_nat (r_read r mod (2 * batch))) with
  | None => UB
  | Some v => Ok (v, ({| r_cells := r_cells r; r_write := r_write r; r_read := addw 32 (r_read r) 1; r_left := r_left r |}, p))
  end.

(** the tracks of one group (or of one entry), in order; then the groups: the unpacking is done once per group *)
Fixpoint consume_tracks {P} (batch : N) (tracks : list N) (s : ring * P) : outcome (list (N * out) * (ring * P)) :=
  match tracks with
  | [] => Ok ([], s)
  | i :: rest =>
      bindo (consume batch s) (fun '(v, s) =>
      bindo (consume_tracks batch rest s) (fun '(l, s) => Ok ((i, v) :: l, s)))
  end.
Fixpoint unpack_sub_tracks {P} (batch : N) (fetch : N -> P -> outcome (list out * P)) (groups : list (list N)) (s : ring * P)
  : outcome (list (N * out)) :=
  match groups with
  | [] => Ok []
  | g :: rest =>
      bindo (unpack_group batch fetch s) (fun s =>
      bindo (consume_tracks batch g s) (fun '(l, s) =>
      bindo (unpack_sub_tracks batch fetch rest s) (fun l' => Ok (l ++ l'))))
  end.

(** ** Constant sub-tracks *)
(** unpack_rotation_group, constant_track_cache.transform.h:137-151: quatf_full *)
Fixpoint constant_quats (n : nat) (m : list N) (p : N) : outcome (list out * N) :=
  match n with
  | O => Ok ([], p)
  | S n' =>
      bindo (vector_load m p) (fun q =>
      bindo (constant_quats n' m (p + 16)) (fun '(l, p) => Ok (OConst q :: l, p)))
  end.
(** constant_track_cache.transform.h:152-193: four at a time, XXXX YYYY ZZZZ *)
Definition lane (i : nat) (l : list f32) : f32 := nth i l f_zero.
Definition soa_lanes (count : N) (sample : nat -> out) : list out :=
  map (fun i => if N.of_nat i <? count then sample i else OJunk) [0; 1; 2; 3]%nat.
Fixpoint constant_soa (fuel : nat) (n : N) (m : list N) (p : N) : outcome (list out * N) :=
  if n =? 0 then Ok ([], p)
  else match fuel with
  | O => NoFuel
  | S f =>
      let count := N.min n 4 in
      let load_size := 4 * count in
      bindo (vector_load m (p + load_size * 0)) (fun xxxx =>
      bindo (vector_load m (p + load_size * 1)) (fun yyyy =>
      bindo (vector_load m (p + load_size * 2)) (fun zzzz =>
      bindo (constant_soa f (n - count) m (p + load_size * 3)) (fun '(l, p) =>
      Ok (soa_lanes count (fun i => OConst [lane i xxxx; lane i yyyy; lane i zzzz]) ++ l, p)))))
  end.
Definition fetch_constant_rotations (full : bool) (m : list N) (n p : N) : outcome (list out * N) :=
  if full then constant_quats (N.to_nat n) m p else constant_soa 5 n m p.

(** initialize, constant_track_cache.transform.h:92-108; get_packed_rotation_size, track_formats.h: 16 or 12 *)
Definition packed_rotation_size (f : rotation_format) : N := if rotation_full f then 16 else 12.
Definition constant_translations_at (c : tcontext) : N :=
  c_constants c + packed_rotation_size (c_rotation_format c) * c_num_const_rotations c.
Definition constant_scales_at (c : tcontext) : N := constant_translations_at c + 12 * c_num_const_translations c.

(** skip_rotation_groups then unpack_rotation_within_group, constant_track_cache.transform.h:199-255.
    [first] is the first constant rotation, [left] their number *)
Definition constant_rotation_within (full : bool) (m : list N) (first left num_groups index : N) : outcome out :=
  let num_to_skip := mulw 32 num_groups 4 in
  let left := subw 32 left num_to_skip in
  if full then
    bindo (vector_load m (first + num_to_skip * 16 + index * 16)) (fun q => Ok (OConst q))
  else
    let p := first + num_to_skip * 12 in
    let group_size := N.min left 4 in
    bindo (read32 m (p + 4 * (index + group_size * 0))) (fun x =>
    bindo (read32 m (p + 4 * (index + group_size * 1))) (fun y =>
    bindo (read32 m (p + 4 * (index + group_size * 2))) (fun z =>
    Ok (OConst [f_of_bits x; f_of_bits y; f_of_bits z])))).

(** consume_translation / consume_scale and the vector_load that follows: constant_track_cache.transform.h:290-295, :325-330;
    decompression.transform.h:1018-1070, :1343-1395 (the vector_load is skipped when the writer skips the track) *)
Fixpoint constant_vectors (tracks : list N) (skip : N -> bool) (m : list N) (p : N) : outcome (list (N * out)) :=
  match tracks with
  | [] => Ok []
  | i :: rest =>
      bindo (if skip i then Ok [] else bindo (vector_load m p) (fun v => Ok [(i, OConst (firstn 3 v))])) (fun l =>
      bindo (constant_vectors rest skip m (p + 12)) (fun l' => Ok (l ++ l')))
  end.
(** skip_translation_groups then unpack_translation_within_group, constant_track_cache.transform.h:264-288 (:299-323) *)
Definition constant_vector_within (m : list N) (first num_groups index : N) : outcome out :=
  bindo (vector_load m (first + mulw 32 num_groups 4 * 12 + index * 12)) (fun v => Ok (OConst (firstn 3 v))).

(** ** Animated sub-tracks *)
(** segment_animated_sampling_context_v0 and clip_animated_sampling_context_v0 *)
Record kposition := { k_format : N; k_range : N; k_bit : N }.
Record aposition := { a_kf0 : kposition; a_kf1 : kposition; a_clip : N }.

(** one lane of remap_segment_range_data4 / remap_clip_range_data4: animated_track_cache.transform.h:300-352, :397-470 *)
Definition remap (ignore : bool) (x extent mn : f32) : f32 :=
  fmul_add x (if ignore then f_one else extent) (if ignore then f_zero else mn).

(** an unpacked sample: its lanes and whether its segment / clip range is ignored *)
Record usample := { u_lanes : list f32; u_ignore_segment : bool; u_ignore_clip : bool }.

(** the body of the loop of unpack_animated_quat, animated_track_cache.transform.h:540-629; the 16 bit components of a
    constant sample: :560-588 *)
Definition constant_component (m : list N) (at_ : N) : outcome f32 :=
  bindo (load8 m at_) (fun hi => bindo (load8 m (at_ + 4)) (fun lo =>
  Ok (fmul (f_of_N (N.lor (N.shiftl hi 8) lo)) (inv_max_value 16)))).
Definition unpack_quat (version : N) (f : rotation_format) (m data : list N) (fmt range bit index : N) : outcome (usample * N) :=
  match f with
  | quatf_drop_w_variable =>
      bindo (load8 m (fmt + index)) (fun num_bits =>
      if num_bits =? 0 then
        bindo (constant_component m (range + index + 0)) (fun x =>
        bindo (constant_component m (range + index + 8)) (fun y =>
        bindo (constant_component m (range + index + 16)) (fun z =>
        Ok ({| u_lanes := [x; y; z]; u_ignore_segment := true; u_ignore_clip := false |}, bit))))
      else if num_bits =? raw_bit_rate_bits version then
        bindo (unpack_sample 3 32 data bit) (fun l =>
        Ok ({| u_lanes := l; u_ignore_segment := true; u_ignore_clip := true |}, addw 32 bit 96))
      else
        bindo (unpack_sample 3 num_bits data bit) (fun l =>
        Ok ({| u_lanes := l; u_ignore_segment := false; u_ignore_clip := false |}, addw 32 bit (mulw 32 num_bits 3))))
  | quatf_full =>
      bindo (unpack_sample 4 32 data bit) (fun l =>
      Ok ({| u_lanes := l; u_ignore_segment := true; u_ignore_clip := true |}, addw 32 bit 128))
  | quatf_drop_w_full =>
      bindo (unpack_sample 3 32 data bit) (fun l =>
      Ok ({| u_lanes := l; u_ignore_segment := true; u_ignore_clip := true |}, addw 32 bit 96))
  end.
Fixpoint unpack_quats (n : nat) (version : N) (f : rotation_format) (m data : list N) (fmt range bit index : N)
  : outcome (list usample * N) :=
  match n with
  | O => Ok ([], bit)
  | S n' =>
      bindo (unpack_quat version f m data fmt range bit index) (fun '(u, bit) =>
      bindo (unpack_quats n' version f m data fmt range bit (index + 1)) (fun '(l, bit) => Ok (u :: l, bit)))
  end.
(** unpack_animated_quat, :514-677: the samples and the pointers after them *)
Definition unpack_animated_quat (version : N) (f : rotation_format) (m data : list N) (n : N) (k : kposition) : outcome (list usample * kposition) :=
  bindo (unpack_quats (N.to_nat n) version f m data (k_format k) (k_range k) (k_bit k) 0) (fun '(l, bit) =>
  Ok (l, {| k_format := if rotation_variable f then k_format k + 4 else k_format k;
            k_range := if rotation_variable f then k_range k + 24 else k_range k; k_bit := bit |})).

(** unpack_segment_range_data, :158-297: 24 bytes, min.xxxx min.yyyy min.zzzz extent.xxxx extent.yyyy extent.zzzz *)
Definition unpack_segment_range_data (m : list N) (range : N) : outcome (list f32) :=
  bindo (load_bytes m range 16) (fun a => bindo (load_bytes m (range + 16) 16) (fun b =>
  Ok (map (fun v => fmul (f_of_N v) (inv_max_value 8)) (a ++ b)))).
Definition remap_segment4 (ranges : list f32) (i : nat) (u : usample) : usample :=
  let g c := nth (4 * c + i) ranges f_zero in
  let ig := u_ignore_segment u in
  {| u_lanes := [remap ig (lane 0 (u_lanes u)) (g 3%nat) (g 0%nat); remap ig (lane 1 (u_lanes u)) (g 4%nat) (g 1%nat);
                 remap ig (lane 2 (u_lanes u)) (g 5%nat) (g 2%nat)];
     u_ignore_segment := ig; u_ignore_clip := u_ignore_clip u |}.
(** remap_clip_range_data4, :392-470: the six vectors min x y z, extent x y z *)
Definition load_clip_range4 (m : list N) (clip n : N) : outcome (list (list f32)) :=
  let load_size := 4 * n in
  bindo (vector_load m (clip + load_size * 0)) (fun a0 => bindo (vector_load m (clip + load_size * 1)) (fun a1 =>
  bindo (vector_load m (clip + load_size * 2)) (fun a2 => bindo (vector_load m (clip + load_size * 3)) (fun b0 =>
  bindo (vector_load m (clip + load_size * 4)) (fun b1 => bindo (vector_load m (clip + load_size * 5)) (fun b2 =>
  Ok [a0; a1; a2; b0; b1; b2])))))).
Definition remap_clip4 (ranges : list (list f32)) (i : nat) (u : usample) : list f32 :=
  let g c := lane i (nth c ranges []) in
  let ig := u_ignore_clip u in
  [remap ig (lane 0 (u_lanes u)) (g 3%nat) (g 0%nat); remap ig (lane 1 (u_lanes u)) (g 4%nat) (g 1%nat);
   remap ig (lane 2 (u_lanes u)) (g 5%nat) (g 2%nat)].

Fixpoint mapi {A B} (f : nat -> A -> B) (i : nat) (l : list A) : list B :=
  match l with [] => [] | x :: t => f i x :: mapi f (S i) t end.
Fixpoint mix (policy : rounding_policy) (a b : list (list f32)) : list out :=
  match a, b with x :: a', y :: b' => OMix policy x y :: mix policy a' b' | _, _ => [] end.
Definition pad_lanes (l : list out) : list out := l ++ repeat OJunk (4 - length l).

(** unpack_rotation_group, :1317-1631: both key frames of up to four rotations.  The policy is chosen when the sample is
    consumed (every policy is cached); the cells are filled with [OMix rp_none] and [set_policy] puts the policy in. *)
Definition fetch_animated_rotations (c : tcontext) (n : N) (p : aposition) : outcome (list out * aposition) :=
  let f := c_rotation_format c in
  let m := c_mem c in
  bindo (if rotation_variable f && c_has_segments c then unpack_segment_range_data m (k_range (a_kf0 p)) else Ok []) (fun seg0 =>
  bindo (if rotation_variable f && c_has_segments c && negb (c_single_segment c)
         then unpack_segment_range_data m (k_range (a_kf1 p)) else Ok []) (fun seg1 =>
  bindo (unpack_animated_quat (c_version c) f m (kf_data (c_kf0 c)) n (a_kf0 p)) (fun '(l0, k0) =>
  bindo (unpack_animated_quat (c_version c) f m (kf_data (c_kf1 c)) n (a_kf1 p)) (fun '(l1, k1) =>
  if rotation_variable f then
    let seg1 := if c_single_segment c then seg0 else seg1 in
    let l0 := if c_has_segments c then mapi (remap_segment4 seg0) 0 l0 else l0 in
    let l1 := if c_has_segments c then mapi (remap_segment4 seg1) 0 l1 else l1 in
    bindo (load_clip_range4 m (a_clip p) n) (fun clip =>
    Ok (pad_lanes (mix rp_none (mapi (remap_clip4 clip) 0 l0) (mapi (remap_clip4 clip) 0 l1)),
        {| a_kf0 := k0; a_kf1 := k1; a_clip := a_clip p + n * 12 * 2 |}))
  else
    Ok (pad_lanes (mix rp_none (map u_lanes l0) (map u_lanes l1)), {| a_kf0 := k0; a_kf1 := k1; a_clip := a_clip p |}))))).

(** unpack_vector3_u48_unsafe and unpack_vector3_u24_unsafe, math/vector4_packing.h:628-649, :781-815: sixteen bytes are read *)
Definition unpack_vector3_u48 (m : list N) (off : N) : outcome (list f32) :=
  bindo (load_bytes m off 16) (fun l =>
  let u k := of_le_bytes (firstn 2 (skipn (2 * k) l)) in
  Ok (map (fun v => fmul (f_of_N v) (inv_max_value 16)) [u 0%nat; u 1%nat; u 2%nat])).
Definition unpack_vector3_u24 (m : list N) (off : N) : outcome (list f32) :=
  bindo (load_bytes m off 16) (fun l => Ok (map (fun v => fmul (f_of_N v) (inv_max_value 8)) (firstn 3 l))).

Definition mul_add3 (v extent mn : list f32) : list f32 :=
  [fmul_add (lane 0 v) (lane 0 extent) (lane 0 mn); fmul_add (lane 1 v) (lane 1 extent) (lane 1 mn);
   fmul_add (lane 2 v) (lane 2 extent) (lane 2 mn)].

(** the body of the loop of unpack_animated_vector3, :890-976: the sample, the next format, range and bit positions *)
Definition unpack_vector (version : N) (variable has_segments : bool) (m data : list N) (clip fmt range bit index : N)
  : outcome (list f32 * kposition) :=
  if variable then
    bindo (load8 m fmt) (fun num_bits =>
    bindo (if num_bits =? 0 then
             bindo (unpack_vector3_u48 m range) (fun l => Ok (l, range + 6, bit, true, false))
           else if num_bits =? raw_bit_rate_bits version then
             bindo (unpack_sample 3 32 data bit) (fun l => Ok (l, range + 6, addw 32 bit 96, true, true))
           else
             bindo (unpack_sample 3 num_bits data bit) (fun l => Ok (l, range, addw 32 bit (mulw 32 num_bits 3), false, false)))
      (fun '(l, range, bit, ignore_segment, ignore_clip) =>
    bindo (if has_segments && negb ignore_segment then
             bindo (unpack_vector3_u24 m range) (fun mn =>
             bindo (unpack_vector3_u24 m (range + 3)) (fun extent => Ok (mul_add3 l extent mn, range + 6)))
           else Ok (l, range)) (fun '(l, range) =>
    bindo (if negb ignore_clip then
             let at_ := clip + 12 * 2 * index in
             bindo (vector_load m at_) (fun mn =>
             bindo (vector_load m (at_ + 12)) (fun extent => Ok (mul_add3 l extent mn)))
           else Ok l) (fun l =>
    Ok (l, {| k_format := fmt + 1; k_range := range; k_bit := bit |})))))
  else
    bindo (unpack_sample 3 32 data bit) (fun l => Ok (l, {| k_format := fmt; k_range := range; k_bit := addw 32 bit 96 |})).
(** unpack_animated_vector3, :866-1000 *)
Fixpoint unpack_animated_vector3 (n : nat) (version : N) (variable has_segments : bool) (m data : list N) (clip : N) (k : kposition) (index : N)
  : outcome (list (list f32) * kposition) :=
  match n with
  | O => Ok ([], k)
  | S n' =>
      bindo (unpack_vector version variable has_segments m data clip (k_format k) (k_range k) (k_bit k) index) (fun '(v, k) =>
      bindo (unpack_animated_vector3 n' version variable has_segments m data clip k (index + 1)) (fun '(l, k) => Ok (v :: l, k)))
  end.
(** unpack_translation_group / unpack_scale_group, :1799-1853, :1919-1973 *)
Definition fetch_animated_vectors (variable : bool) (c : tcontext) (n : N) (p : aposition) : outcome (list out * aposition) :=
  let unpack data k := unpack_animated_vector3 (N.to_nat n) (c_version c) variable (c_has_segments c) (c_mem c) data (a_clip p) k 0 in
  bindo (unpack (kf_data (c_kf0 c)) (a_kf0 p)) (fun '(l0, k0) =>
  bindo (unpack (kf_data (c_kf1 c)) (a_kf1 p)) (fun '(l1, k1) =>
  Ok (mix rp_none l0 l1, {| a_kf0 := k0; a_kf1 := k1; a_clip := if variable then a_clip p + n * 12 * 2 else a_clip p |}))).

(** initialize, :1228-1315: where the rotations, the translations and the scales start.  The products are not wrapped: a
    clip is smaller than 2^32 bytes. *)
Definition rotation_start (c : tcontext) : aposition :=
  let at_ k := {| k_format := kf_format k; k_range := kf_range k; k_bit := kf_offset k |} in
  {| a_kf0 := at_ (c_kf0 c); a_kf1 := at_ (c_kf1 c); a_clip := c_clip_range c |}.
Definition translation_start (c : tcontext) : aposition :=
  let v := rotation_variable (c_rotation_format c) in
  let padded := align_to 32 (c_num_anim_rotations c) 4 in
  let at_ k := {| k_format := kf_format k + (if v then padded else 0); k_range := kf_range k + (if v then padded * 6 else 0);
                  k_bit := addw 32 (kf_offset k) (kf_rotation_bits k) |} in
  {| a_kf0 := at_ (c_kf0 c); a_kf1 := at_ (c_kf1 c);
     a_clip := c_clip_range c + (if v then c_num_anim_rotations c * 24 else 0) |}.
Definition scale_start (c : tcontext) : aposition :=
  let v := c_translation_variable c in
  let n := c_num_anim_translations c in
  let t := translation_start c in
  let at_ k bits := {| k_format := k_format k + (if v then n else 0); k_range := k_range k + (if v then n * 6 else 0);
                       k_bit := addw 32 (k_bit k) bits |} in
  {| a_kf0 := at_ (a_kf0 t) (kf_translation_bits (c_kf0 c)); a_kf1 := at_ (a_kf1 t) (kf_translation_bits (c_kf1 c));
     a_clip := a_clip t + (if v then n * 24 else 0) |}.

(** ** The walks over the packed sub-track types *)
Definition walk_mask (hi : N) : N := N.shiftl (N.lor (N.lor hi (N.shiftr hi 2)) (N.lor (N.shiftr hi 4) (N.shiftr hi 6))) 24.
(** [walk_groups] of SubTracks.v, one list per group that has a sub-track of the class (the others `continue`):
    decompression.transform.h:770-876 *)
Fixpoint walk_group_list (fuel : nat) (hi packed_entry curr_entry_track_index : N) : outcome (list (list N)) :=
  if packed_entry =? 0 then Ok []
  else match fuel with
  | O => NoFuel
  | S f =>
      let packed_group := packed_entry in
      let i := curr_entry_track_index in
      bindo (walk_group_list f hi (shlw 32 packed_entry 8) (i + 4)) (fun rest =>
      if N.land packed_group (walk_mask hi) =? 0 then Ok rest
      else Ok (((if group_bit packed_group hi 0 then [i + 0] else []) ++ (if group_bit packed_group hi 2 then [i + 1] else []) ++
                (if group_bit packed_group hi 4 then [i + 2] else []) ++ (if group_bit packed_group hi 6 then [i + 3] else [])) :: rest))
  end.
(** unpack_animated_rotation_sub_tracks, :759-878 (translations :1083.., scales :1408..): the groups, in order *)
Fixpoint animated_groups (entries : list N) (track_index : N) : outcome (list (list N)) :=
  match entries with
  | [] => Ok []
  | e :: rest =>
      bindo (walk_group_list 5 0x80 (and_not (notw 32 0xAAAAAAAA) e) track_index) (fun l =>
      bindo (animated_groups rest (track_index + 16)) (fun l' => Ok (l ++ l')))
  end.
(** unpack_constant_rotation_sub_tracks, :684-746: one list per entry *)
Fixpoint constant_groups (entries : list N) (track_index : N) : outcome (list (list N)) :=
  match entries with
  | [] => Ok []
  | e :: rest =>
      bindo (walk_groups 5 0x40 (and_not (notw 32 0x55555555) e) track_index) (fun l =>
      bindo (constant_groups rest (track_index + 16)) (fun l' => Ok (l :: l')))
  end.

Fixpoint read_entries (n : nat) (m : list N) (off : N) : outcome (list N) :=
  match n with
  | O => Ok []
  | S n' => bindo (read32 m off) (fun e => bindo (read_entries n' m (off + 4)) (fun l => Ok (e :: l)))
  end.

(** ** The writer *)
Inductive channel := Rotation | Translation | Scale.
(** skip_all_* or skip_track_*, the default mode is `skipped`, get_rounding_policy (per track rounding supported or not):
    track_writer.h *)
Record twriter := {
  tw_skip : channel -> N -> bool;
  tw_skip_default : channel -> bool;
  tw_per_track_rounding : bool;
  tw_rounding : rounding_policy -> N -> rounding_policy
}.
Definition track_policy (w : twriter) (c : tcontext) (i : N) : rounding_policy :=
  if tw_per_track_rounding w then tw_rounding w (c_rounding c) i else rp_none.
Definition set_policy (w : twriter) (c : tcontext) (i : N) (v : out) : out :=
  match v with OMix _ a b => OMix (track_policy w c i) a b | _ => v end.
Definition event := (channel * N * out)%type.
Definition emit_all (ch : channel) (w : twriter) (l : list (N * out)) : list event :=
  map (fun x => (ch, fst x, snd x)) (filter (fun x => negb (tw_skip w ch (fst x))) l).

(** unpack_default_*_sub_tracks, :575-672, :883-980, :1203-1305 *)
Definition write_defaults (ch : channel) (w : twriter) (num_tracks : N) (entries : list N) : outcome (list event) :=
  if tw_skip_default w ch then Ok []
  else bindo (default_tracks num_tracks entries) (fun l => Ok (emit_all ch w (map (fun i => (i, ODefault)) l))).
Definition write_animated (ch : channel) (w : twriter) (c : tcontext) (entries : list N) (n : N)
    (fetch : N -> aposition -> outcome (list out * aposition)) (start : aposition) : outcome (list event) :=
  bindo (animated_groups entries 0) (fun groups =>
  bindo (unpack_sub_tracks 4 fetch groups (new_ring 8 n, start)) (fun l =>
  Ok (emit_all ch w (map (fun x => (fst x, set_policy w c (fst x) (snd x))) l)))).
Definition write_constant_rotations (w : twriter) (c : tcontext) (entries : list N) : outcome (list event) :=
  bindo (constant_groups entries 0) (fun groups =>
  bindo (unpack_sub_tracks 16 (fetch_constant_rotations (rotation_full (c_rotation_format c)) (c_mem c)) groups
           (new_ring 32 (c_num_const_rotations c), c_constants c)) (fun l =>
  Ok (emit_all Rotation w l))).
Definition write_constant_vectors (ch : channel) (w : twriter) (c : tcontext) (entries : list N) (first : N) : outcome (list event) :=
  bindo (constant_tracks entries) (fun l =>
  bindo (constant_vectors l (tw_skip w ch) (c_mem c) first) (fun l => Ok (map (fun x => (ch, fst x, snd x)) l))).

(** no scale: every track gets the default scale, decompression.transform.h:1654-1682 *)
Definition write_no_scale (w : twriter) (num_tracks : N) : list event :=
  if tw_skip_default w Scale then []
  else emit_all Scale w (map (fun i => (N.of_nat i, ODefault)) (seq 0 (N.to_nat num_tracks))).

(** decompress_tracks_v0, decompression.transform.h:1525-1738, after the sample time check *)
Definition decompress_tracks (w : twriter) (c : tcontext) : outcome (list event) :=
  let num_tracks := c_num_tracks c in
  if num_tracks =? 0 then Ok []
  else
    let n := num_sub_track_entries num_tracks in
    let m := c_mem c in
    let entries k := read_entries (N.to_nat n) m (c_types c + 4 * (k * n)) in
    bindo (entries 0) (fun re =>
    bindo (write_defaults Rotation w num_tracks re) (fun e0 =>
    bindo (write_constant_rotations w c re) (fun e1 =>
    bindo (entries 1) (fun te =>
    bindo (write_defaults Translation w num_tracks te) (fun e2 =>
    bindo (write_constant_vectors Translation w c te (constant_translations_at c)) (fun e3 =>
    bindo (if c_has_scale c then
             bindo (entries 2) (fun se =>
             bindo (write_defaults Scale w num_tracks se) (fun a =>
             bindo (write_constant_vectors Scale w c se (constant_scales_at c)) (fun b => Ok (a ++ b))))
           else Ok (write_no_scale w num_tracks)) (fun e4 =>
    bindo (write_animated Rotation w c re (c_num_anim_rotations c) (fetch_animated_rotations c) (rotation_start c)) (fun e5 =>
    bindo (write_animated Translation w c te (c_num_anim_translations c) (fetch_animated_vectors (c_translation_variable c) c) (translation_start c)) (fun e6 =>
    bindo (if c_has_scale c then
             bindo (entries 2) (fun se =>
             write_animated Scale w c se (c_num_anim_scales c) (fetch_animated_vectors (c_scale_variable c) c) (scale_start c))
           else Ok []) (fun e7 =>
    Ok (e0 ++ e1 ++ e2 ++ e3 ++ e4 ++ e5 ++ e6 ++ e7))))))))))).

(** ** One track *)
(** count_animated_group_bit_size, animated_track_cache.transform.h:1104-1210 (the SSE3 branch: a 16 byte load per group) *)
Definition component_bits (version num_bits : N) : N := if num_bits =? raw_bit_rate_bits version then 32 else num_bits.
Fixpoint sum_bits (version : N) (l : list N) : N := match l with [] => 0 | b :: t => addw 32 (component_bits version b) (sum_bits version t) end.
Fixpoint count_group_bits (num_groups : nat) (version : N) (m : list N) (fmt : N) : outcome N :=
  match num_groups with
  | O => Ok 0
  | S n =>
      bindo (load_bytes m fmt 16) (fun l =>
      bindo (count_group_bits n version m (fmt + 4)) (fun rest => Ok (addw 32 (sum_bits version (firstn 4 l)) rest)))
  end.
(** skip_rotation_groups, skip_translation_groups, skip_scale_groups: :1664-1707, :1838-1875, :1960-1997.
    [raw_group_bits] is 512 for full quaternions, 384 otherwise *)
Definition skip_groups (variable : bool) (raw_group_bits : N) (version : N) (m : list N) (num_groups : N) (p : aposition) : outcome aposition :=
  if variable then
    bindo (count_group_bits (N.to_nat num_groups) version m (k_format (a_kf0 p))) (fun b0 =>
    bindo (count_group_bits (N.to_nat num_groups) version m (k_format (a_kf1 p))) (fun b1 =>
    let skip k b := {| k_format := k_format k + num_groups * 4; k_range := k_range k + num_groups * 6 * 4; k_bit := addw 32 (k_bit k) (mulw 32 b 3) |} in
    Ok {| a_kf0 := skip (a_kf0 p) b0; a_kf1 := skip (a_kf1 p) b1; a_clip := a_clip p + 12 * 2 * 4 * num_groups |}))
  else
    let skip k := {| k_format := k_format k; k_range := k_range k; k_bit := addw 32 (k_bit k) (mulw 32 raw_group_bits num_groups) |} in
    Ok {| a_kf0 := skip (a_kf0 p); a_kf1 := skip (a_kf1 p); a_clip := a_clip p |}.

(** the switch of unpack_single_animated_quat and unpack_single_animated_vector3, :714-745, :1019-1045: the bits per component
    before sample [index] of the group *)
Fixpoint skip_size (index : nat) (version : N) (m : list N) (fmt : N) : outcome N :=
  match index with
  | O => Ok 0
  | S i => bindo (load8 m (fmt + N.of_nat i)) (fun b => bindo (skip_size i version m fmt) (fun s => Ok (addw 32 (component_bits version b) s)))
  end.
Definition raw_sample_bits (f : rotation_format) : N := if rotation_full f then 128 else 96.
(** unpack_single_animated_quat, :689-871.  The unpacking is that of the group ([unpack_quat]); a range that is ignored is not
    applied. *)
Definition single_quat (c : tcontext) (data : list N) (index group_size clip : N) (k : kposition) : outcome (list f32) :=
  let f := c_rotation_format c in
  let m := c_mem c in
  bindo (if rotation_variable f
         then bindo (skip_size (N.to_nat index) (c_version c) m (k_format k)) (fun s => Ok (addw 32 (k_bit k) (mulw 32 s 3)))
         else Ok (addw 32 (k_bit k) (mulw 32 index (raw_sample_bits f)))) (fun bit =>
  bindo (unpack_quat (c_version c) f m data (k_format k) (k_range k) bit index) (fun '(u, _) =>
  if rotation_variable f then
    let range := k_range k + index in
    bindo (if c_has_segments c && negb (u_ignore_segment u) then
             bindo (load8 m (range + 0)) (fun a0 => bindo (load8 m (range + 4)) (fun a1 => bindo (load8 m (range + 8)) (fun a2 =>
             bindo (load8 m (range + 12)) (fun b0 => bindo (load8 m (range + 16)) (fun b1 => bindo (load8 m (range + 20)) (fun b2 =>
             let n v := fmul (f_of_N v) (inv_max_value 8) in
             Ok (mul_add3 (u_lanes u) [n b0; n b1; n b2] [n a0; n a1; n a2])))))))
           else Ok (u_lanes u)) (fun l =>
    if negb (u_ignore_clip u) then
      let word r := read32 m (clip + 4 * (index + group_size * r)) in
      bindo (word 0) (fun a0 => bindo (word 1) (fun a1 => bindo (word 2) (fun a2 =>
      bindo (word 3) (fun b0 => bindo (word 4) (fun b1 => bindo (word 5) (fun b2 =>
      Ok (mul_add3 l [f_of_bits b0; f_of_bits b1; f_of_bits b2] [f_of_bits a0; f_of_bits a1; f_of_bits a2])))))))
    else Ok l)
  else Ok (u_lanes u))).
(** unpack_single_animated_vector3, :992-1101: the same as the group ([unpack_vector]) once the previous samples are skipped *)
Definition single_vector (variable : bool) (c : tcontext) (data : list N) (index clip : N) (k : kposition) : outcome (list f32) :=
  let m := c_mem c in
  bindo (if variable
         then bindo (skip_size (N.to_nat index) (c_version c) m (k_format k)) (fun s => Ok (addw 32 (k_bit k) (mulw 32 s 3)))
         else Ok (addw 32 (k_bit k) (mulw 32 index 96))) (fun bit =>
  bindo (unpack_vector (c_version c) variable (c_has_segments c) m data (clip + 12 * 2 * index) (k_format k + index)
           (k_range k + 6 * index) bit 0) (fun '(v, _) => Ok v)).

(** unpack_rotation_within_group, :1709-1780; the policy is applied to the alpha before: decompression.transform.h:1977-1985 *)
Definition animated_rotation_at (c : tcontext) (policy : rounding_policy) (count : N) : outcome out :=
  let f := c_rotation_format c in
  let num_groups := count / 4 in
  bindo (if negb (num_groups =? 0)
         then skip_groups (rotation_variable f) (4 * raw_sample_bits f) (c_version c) (c_mem c) num_groups (rotation_start c)
         else Ok (rotation_start c)) (fun p =>
  let group_size := N.min (subw 32 (c_num_anim_rotations c) (num_groups * 4)) 4 in
  let index := count mod 4 in
  bindo (single_quat c (kf_data (c_kf0 c)) index group_size (a_clip p) (a_kf0 p)) (fun l0 =>
  bindo (single_quat c (kf_data (c_kf1 c)) index group_size (a_clip p) (a_kf1 p)) (fun l1 => Ok (OMix policy l0 l1)))).
(** unpack_translation_within_group, unpack_scale_within_group: :1877-1887, :1999-2009 *)
Definition animated_vector_at (variable : bool) (c : tcontext) (policy : rounding_policy) (start : aposition) (count : N) : outcome out :=
  let num_groups := count / 4 in
  bindo (if negb (num_groups =? 0) then skip_groups variable 384 (c_version c) (c_mem c) num_groups start else Ok start) (fun p =>
  let index := count mod 4 in
  bindo (single_vector variable c (kf_data (c_kf0 c)) index (a_clip p) (a_kf0 p)) (fun l0 =>
  bindo (single_vector variable c (kf_data (c_kf1 c)) index (a_clip p) (a_kf1 p)) (fun l1 => Ok (OMix policy l0 l1)))).

(** decompress_track_v0, decompression.transform.h:1754-2093, for a track that exists, after the sample time check.
    The writer's skip functions are not consulted. *)
Definition write_sub_track (ch : channel) (w : twriter) (i type : N) (entries : list N) (constant animated : N -> outcome out) : outcome (list event) :=
  if type =? 0 then Ok (if tw_skip_default w ch then [] else [(ch, i, ODefault)])
  else if negb (N.land type 1 =? 0) then
    bindo (count_before entries 0x55555555 i) (fun k => bindo (constant k) (fun v => Ok [(ch, i, v)]))
  else
    bindo (count_before entries 0xAAAAAAAA i) (fun k => bindo (animated k) (fun v => Ok [(ch, i, v)])).
Definition decompress_track (w : twriter) (c : tcontext) (i : N) : outcome (list event) :=
  let n := num_sub_track_entries (c_num_tracks c) in
  let m := c_mem c in
  let entries k := read_entries (N.to_nat n) m (c_types c + 4 * (k * n)) in
  let policy := track_policy w c i in
  bindo (entries 0) (fun re => bindo (sub_track_type re i) (fun rt =>
  bindo (entries 1) (fun te => bindo (sub_track_type te i) (fun tt =>
  bindo (entries (if c_has_scale c then 2 else 0)) (fun se => bindo (sub_track_type se i) (fun st =>
  let st := if c_has_scale c then st else 0 in
  bindo (write_sub_track Rotation w i rt re
           (fun k => constant_rotation_within (rotation_full (c_rotation_format c)) m (c_constants c) (c_num_const_rotations c) (k / 4) (k mod 4))
           (animated_rotation_at c policy)) (fun e0 =>
  bindo (write_sub_track Translation w i tt te
           (fun k => constant_vector_within m (constant_translations_at c) (k / 4) (k mod 4))
           (animated_vector_at (c_translation_variable c) c policy (translation_start c))) (fun e1 =>
  bindo (write_sub_track Scale w i st se
           (fun k => constant_vector_within m (constant_scales_at c) (k / 4) (k mod 4))
           (animated_vector_at (c_scale_variable c) c policy (scale_start c))) (fun e2 =>
  Ok (e0 ++ e1 ++ e2)))))))))).
