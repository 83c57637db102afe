(** Model of scalar track decompression (model only): decompression/impl/decompression.scalar.h.
    A compressed clip is its buffer, an address is an offset from its start: the tracks_header is at 8, the
    scalar_tracks_header at 32 (core/impl/compressed_headers.h:61-85, :137-160; compressed_tracks.impl.h:42-50). *)
From Verif Require Import Word MemoryUtils Float32 Quant Interp Packing Headers DbBuild ScalarEnc.
Local Open Scope N_scope.

(** The settings (template parameter): clamp_sample_time(), is_wrapping_supported(), is_per_track_rounding_supported(),
    is_track_type_supported() *)
Record dsettings := {
  clamp_sample_time : bool;
  is_wrapping_supported : bool;
  is_per_track_rounding_supported : bool;
  is_track_type_supported : N -> bool
}.

(** header members *)
Definition h_version (m : list N) : outcome N := load_le m 12 2.
Definition h_track_type (m : list N) : outcome N := load8 m 15.
Definition h_num_tracks (m : list N) : outcome N := read32 m 16.
Definition h_num_samples (m : list N) : outcome N := read32 m 20.
Definition h_sample_rate (m : list N) : outcome f32 := bindo (read32 m 24) (fun r => Ok (f_of_bits r)).
Definition h_misc (m : list N) : outcome N := read32 m 28.
Definition h_num_bits_per_frame (m : list N) : outcome N := read32 m 32.
Definition h_hash (m : list N) : outcome N := read32 m 4.
(** ptr_offset32::add_to(this): metadata_per_track, track_constant_values, track_range_values, track_animated_values *)
Definition h_pointer (m : list N) (off : N) : outcome N := bindo (read32 m off) (fun o => Ok (scalar_header + o)).

(** compressed_tracks::get_looping_policy and get_finite_duration, compressed_tracks.impl.h:102-122, :136-143;
    v02_00_00 is 7 *)
Definition clip_looping_policy (m : list N) : outcome looping_policy :=
  bindo (h_version m) (fun v =>
  if v <=? 7 then Ok lp_clamp
  else bindo (h_misc m) (fun misc => Ok (if get_is_wrap_optimized misc =? 0 then lp_clamp else lp_wrap))).
Definition finite_duration (m : list N) (lp : looping_policy) : outcome f32 :=
  bindo (h_num_samples m) (fun n => bindo (h_sample_rate m) (fun r => Ok (clip_finite_duration n r lp))).

(** persistent_scalar_decompression_context_v0, decompression.scalar.h:59-97 *)
Record dcontext := {
  d_tracks : list N;
  d_hash : N;
  d_duration : f32;
  d_alpha : f32;
  d_time : f32;
  d_offset0 : N;
  d_offset1 : N;
  d_looping : looping_policy;
  d_rounding : rounding_policy
}.
(** the context as constructed (before initialize); [d_tracks] is meaningless then *)
Definition fresh_context : dcontext :=
  {| d_tracks := []; d_hash := 0; d_duration := f_zero; d_alpha := f_zero; d_time := f_zero; d_offset0 := 0; d_offset1 := 0;
     d_looping := lp_clamp; d_rounding := rp_none |}.
Definition f_minus_one : f32 := f_of_Z (-1).

(** initialize_v0, decompression.scalar.h:100-123, without a database *)
Definition initialize (ds : dsettings) (c : dcontext) (m : list N) : outcome dcontext :=
  bindo (h_hash m) (fun hash =>
  bindo (if is_wrapping_supported ds then clip_looping_policy m else Ok lp_clamp) (fun lp =>
  bindo (finite_duration m lp) (fun duration =>
  Ok {| d_tracks := m; d_hash := hash; d_duration := duration; d_alpha := d_alpha c; d_time := f_minus_one;
        d_offset0 := d_offset0 c; d_offset1 := d_offset1 c; d_looping := lp; d_rounding := d_rounding c |}))).

(** relocated_v0, decompression.scalar.h:126-141, without a database *)
Definition relocated (c : dcontext) (m : list N) : outcome (bool * dcontext) :=
  bindo (h_hash m) (fun hash =>
  if negb (d_hash c =? hash) then Ok (false, c)
  else Ok (true, {| d_tracks := m; d_hash := d_hash c; d_duration := d_duration c; d_alpha := d_alpha c; d_time := f_minus_one;
                    d_offset0 := d_offset0 c; d_offset1 := d_offset1 c; d_looping := d_looping c; d_rounding := d_rounding c |})).

(** set_looping_policy_v0, decompression.scalar.h:164-179; None is sample_looping_policy::as_compressed *)
Definition lp_eqb (a b : looping_policy) : bool := match a, b with lp_clamp, lp_clamp | lp_wrap, lp_wrap => true | _, _ => false end.
Definition set_looping_policy (ds : dsettings) (c : dcontext) (policy : option looping_policy) : outcome dcontext :=
  if negb (is_wrapping_supported ds) then Ok c
  else
    bindo (match policy with Some p => Ok p | None => clip_looping_policy (d_tracks c) end) (fun p =>
    if lp_eqb (d_looping c) p then Ok c
    else
      bindo (finite_duration (d_tracks c) p) (fun duration =>
      Ok {| d_tracks := d_tracks c; d_hash := d_hash c; d_duration := duration; d_alpha := d_alpha c; d_time := d_time c;
            d_offset0 := d_offset0 c; d_offset1 := d_offset1 c; d_looping := p; d_rounding := d_rounding c |})).

(** seek_v0, decompression.scalar.h:182-210 *)
Definition rp_eqb (a b : rounding_policy) : bool :=
  match a, b with
  | rp_none, rp_none | rp_floor, rp_floor | rp_ceil, rp_ceil | rp_nearest, rp_nearest | rp_per_track, rp_per_track => true
  | _, _ => false
  end.
Definition seek (ds : dsettings) (c : dcontext) (sample_time : f32) (rp : rounding_policy) : outcome dcontext :=
  let m := d_tracks c in
  bindo (h_num_samples m) (fun n =>
  if n =? 0 then Ok c
  else
    let t := if clamp_sample_time ds then fclamp sample_time f_zero (d_duration c) else sample_time in
    if feq (d_time c) t && rp_eqb (d_rounding c) rp then Ok c
    else
      let lp := if is_wrapping_supported ds then d_looping c else lp_clamp in
      bindo (h_sample_rate m) (fun rate =>
      bindo (find_linear_interpolation_samples_with_sample_rate n rate t rp lp) (fun '(k0, k1, alpha) =>
      bindo (h_num_bits_per_frame m) (fun bits =>
      Ok {| d_tracks := m; d_hash := d_hash c; d_duration := d_duration c; d_alpha := alpha; d_time := t;
            d_offset0 := mulw 32 k0 bits; d_offset1 := mulw 32 k1 bits; d_looping := d_looping c; d_rounding := rp |})))).

(** The track writer: get_rounding_policy(seek_policy, track_index) and skip_track_*(track_index).  What it is given is
    modelled as the list of (track index, components) in the order of the calls. *)
Record writer := { w_rounding : rounding_policy -> N -> rounding_policy; w_skip : N -> bool }.

(** scalar_load_as_scalar for float1f, vector_load (16 bytes) for the other types: the first components *)
Fixpoint floats (k : nat) (l : list N) : list f32 :=
  match k with O => [] | S k' => f_of_bits (of_le_bytes (firstn 4 l)) :: floats k' (skipn 4 l) end.
Definition load_floats (nc : nat) (m : list N) (off : N) : outcome (list f32) :=
  bindo (load_bytes m off (match nc with 1%nat => 4 | _ => 16 end)) (fun l => Ok (floats nc l)).

(** k_bit_rate_num_bits or k_bit_rate_num_bits_v0: a bit rate past the table is only asserted against *)
Definition num_bits_of (version : N) (bit_rate : N) : outcome N :=
  match nth_error (if version =? 7 then k_bit_rate_num_bits_v0 else k_bit_rate_num_bits) (N.to_nat bit_rate) with
  | Some n => Ok n
  | None => UB
  end.

(** unpack_scalarf_uXX_unsafe / unpack_vector{2,3,4}_uXX_unsafe and the raw variants, one key frame of one track *)
Definition unpack_sample (nc : nat) (num_bits : N) (animated : list N) (bit_offset : N) : outcome (list f32) :=
  if num_bits =? 32 then bindo (unpack_32 nc animated bit_offset) (fun l => Ok (map f_of_bits l))
  else bindo (unpack_uXX nc num_bits animated bit_offset) (fun l => Ok (map (fun k => fmul (f_of_N k) (inv_max_value num_bits)) l)).

Definition interpolate (alpha : f32) (a b : list f32) : list f32 := map2 (fun x y => flerp x y alpha) a b.
Definition apply_range (v extent mn : list f32) : list f32 := map2 (fun a b => fadd a b) (map2 (fun x e => fmul x e) v extent) mn.

(** One track of decompress_tracks_v0 / decompress_track_v0: decompression.scalar.h:281-318 (float1f; the four other
    branches, :319-476, differ only by the number of components) and :553-685.  [cptr], [rptr]: constant_values,
    range_values; the extent follows the minimum. *)
Definition decompress_value (nc : nat) (num_bits : N) (m animated : list N) (cptr rptr off0 off1 : N) (alpha : f32) : outcome (list f32) :=
  if num_bits =? 0 then load_floats nc m cptr
  else
    bindo (unpack_sample nc num_bits animated off0) (fun v0 =>
    bindo (unpack_sample nc num_bits animated off1) (fun v1 =>
    if num_bits =? 32 then Ok (interpolate alpha v0 v1)
    else
      bindo (load_floats nc m rptr) (fun mn =>
      bindo (load_floats nc m (rptr + 4 * N.of_nat nc)) (fun extent =>
      Ok (interpolate alpha (apply_range v0 extent mn) (apply_range v1 extent mn)))))).

(** the types the decompressor knows: float1f .. float4f, vector4f *)
Definition known_type (ds : dsettings) (ty : N) : bool := (ty <=? 4) && is_track_type_supported ds ty.

(** decompress_tracks_v0, decompression.scalar.h:213-481 *)
Fixpoint decompress_loop (ds : dsettings) (w : writer) (c : dcontext) (version ty : N) (nc : nat) (animated : list N) (mptr : N)
  (count : nat) (index cptr rptr off0 off1 : N) : outcome (list (N * list f32)) :=
  match count with
  | O => Ok []
  | S count' =>
      let m := d_tracks c in
      bindo (load8 m (mptr + index)) (fun bit_rate =>
      bindo (num_bits_of version bit_rate) (fun num_bits =>
      let alpha := if is_per_track_rounding_supported ds then apply_rounding_policy (d_alpha c) (w_rounding w (d_rounding c) index) else d_alpha c in
      if negb (known_type ds ty) then decompress_loop ds w c version ty nc animated mptr count' (index + 1) cptr rptr off0 off1
      else
        bindo (decompress_value nc num_bits m animated cptr rptr off0 off1 alpha) (fun value =>
        let cptr' := if num_bits =? 0 then cptr + 4 * N.of_nat nc else cptr in
        let rptr' := if (num_bits =? 0) || (num_bits =? 32) then rptr else rptr + 4 * N.of_nat nc * 2 in
        let bits := mulw 32 num_bits (N.of_nat nc) in
        let off0' := if num_bits =? 0 then off0 else addw 32 off0 bits in
        let off1' := if num_bits =? 0 then off1 else addw 32 off1 bits in
        bindo (decompress_loop ds w c version ty nc animated mptr count' (index + 1) cptr' rptr' off0' off1') (fun rest =>
        Ok (if w_skip w index then rest else (index, value) :: rest)))))
  end.
(** the tail of the buffer from a pointer on *)
Definition from_pointer (m : list N) (off : N) : list N := skipn (N.to_nat off) m.
Definition decompress_tracks (ds : dsettings) (c : dcontext) (w : writer) : outcome (list (N * list f32)) :=
  let m := d_tracks c in
  bindo (h_num_tracks m) (fun num_tracks =>
  if num_tracks =? 0 then Ok []
  else if flt (d_time c) f_zero then Ok []
  else
    bindo (h_pointer m 36) (fun mptr =>
    bindo (h_pointer m 40) (fun cptr =>
    bindo (h_pointer m 44) (fun rptr =>
    bindo (h_pointer m 48) (fun aptr =>
    bindo (h_track_type m) (fun ty =>
    bindo (h_version m) (fun version =>
    decompress_loop ds w c version ty (num_sample_elements ty) (from_pointer m aptr) mptr (N.to_nat num_tracks) 0 cptr rptr (d_offset0 c) (d_offset1 c)))))))).

(** decompress_track_v0, decompression.scalar.h:484-690: the tracks before the one asked for are skipped over *)
Fixpoint scan_tracks (m : list N) (version : N) (nc : nat) (mptr : N) (count : nat) (index cptr rptr bits : N) : outcome (N * N * N) :=
  match count with
  | O => Ok (cptr, rptr, bits)
  | S count' =>
      bindo (load8 m (mptr + index)) (fun bit_rate =>
      bindo (num_bits_of version bit_rate) (fun num_bits =>
      scan_tracks m version nc mptr count' (index + 1)
        (if num_bits =? 0 then cptr + 4 * N.of_nat nc else cptr)
        (if num_bits =? 0 then rptr else if num_bits <? 32 then rptr + 4 * (N.of_nat nc * 2) else rptr)
        (addw 32 bits (mulw 32 num_bits (N.of_nat nc)))))
  end.
Definition decompress_track (ds : dsettings) (c : dcontext) (index : N) (w : writer) : outcome (list (N * list f32)) :=
  let m := d_tracks c in
  bindo (h_num_tracks m) (fun num_tracks =>
  if num_tracks =? 0 then Ok []
  else if flt (d_time c) f_zero then Ok []
  else if num_tracks <=? index then Ok []
  else
    let alpha := if is_per_track_rounding_supported ds then apply_rounding_policy (d_alpha c) (w_rounding w (d_rounding c) index) else d_alpha c in
    bindo (h_version m) (fun version =>
    bindo (h_pointer m 40) (fun cptr =>
    bindo (h_pointer m 44) (fun rptr =>
    bindo (h_track_type m) (fun ty =>
    let nc := num_sample_elements ty in
    bindo (h_pointer m 36) (fun mptr =>
    bindo (scan_tracks m version nc mptr (N.to_nat index) 0 cptr rptr 0) (fun '(cptr, rptr, bits) =>
    bindo (load8 m (mptr + index)) (fun bit_rate =>
    bindo (num_bits_of version bit_rate) (fun num_bits =>
    bindo (h_pointer m 48) (fun aptr =>
    if negb (known_type ds ty) then Ok []
    else
      bindo (decompress_value nc num_bits m (from_pointer m aptr) cptr rptr (addw 32 (d_offset0 c) bits) (addw 32 (d_offset1 c) bits) alpha) (fun value =>
      Ok [(index, value)]))))))))))).
