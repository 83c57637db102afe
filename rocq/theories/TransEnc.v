(** Transform clip serialization (model only): compression/impl/animated_track_utils.h, write_stream_data.h, write_range_data.h.
    Byte aligned writers append to an output list (the ACL_ASSERTs on the end of the buffer become theorems on its length);
    the bit stream is written with memcpy_bits into a real buffer. *)
From Verif Require Import Word MemoryUtils Float32 Quant Headers Packing SubTracks TransDec.
Local Open Scope N_scope.

Definition k_invalid_bit_rate : N := 255.

(** track_stream, track_stream.h:60-239: bit rate (k_invalid_bit_rate when the format is not variable), size of a sample in the
    buffer, packed size of the format (16 for quatf_full, 12 otherwise), number of samples, the buffer with its padding *)
Record tstream := { ts_rate : N; ts_sample_size : N; ts_packed_size : N; ts_num_samples : N; ts_data : list N }.
(** is_bit_rate_variable, track_stream.h:111 *)
Definition is_bit_rate_variable (t : tstream) : bool := negb (ts_rate t =? k_invalid_bit_rate).
(** get_raw_sample_ptr, track_stream.h:63-75: the pointer is the rest of the buffer *)
Definition get_raw_sample_ptr (t : tstream) (sample_index : N) : outcome (list N) :=
  if sample_index <? ts_num_samples t
  then Ok (skipn (N.to_nat (mulw 32 sample_index (ts_sample_size t))) (ts_data t)) else UB.

(** transform_streams and transform_range, clip_context.h: one value per sub-track kind. Ranges are min and extent, four lanes each *)
Record tbone := {
  b_stream : channel -> tstream;
  b_default : channel -> bool;
  b_constant : channel -> bool;
  b_output_index : N;
  b_clip_min : channel -> list f32; b_clip_extent : channel -> list f32;
  b_segment_min : channel -> list f32; b_segment_extent : channel -> list f32
}.
Definition bone_at (bones : list tbone) (i : N) : outcome tbone :=
  match nth_error bones (N.to_nat i) with Some b => Ok b | None => UB end.

(** ** group_writer, animated_track_utils.h:93-140 *)
Section Groups.
  Context {S : Type} (filter : N -> outcome bool) (entry : N -> N -> S -> outcome S) (flush : N -> S -> outcome S).
  (** group_writer_impl, animated_track_utils.h:105-130 *)
  Fixpoint group_loop (mapping : list N) (group_size : N) (s : S) : outcome S :=
    match mapping with
    | [] => if group_size =? 0 then Ok s else flush group_size s
    | bone_index :: t =>
        bindo (filter bone_index) (fun keep =>
        bindo (if keep then bindo (entry group_size bone_index s) (fun s' => Ok (group_size + 1, s')) else Ok (group_size, s)) (fun gs =>
        if fst gs =? 4 then bindo (flush (fst gs) (snd gs)) (group_loop t 0) else group_loop t (fst gs) (snd gs)))
    end.
End Groups.
Definition group_writer {S} (has_scale : bool) (mapping : list N) (filter : channel -> N -> outcome bool)
    (entry : channel -> N -> N -> S -> outcome S) (flush : channel -> N -> S -> outcome S) (s : S) : outcome S :=
  bindo (group_loop (filter Rotation) (entry Rotation) (flush Rotation) mapping 0 s) (fun s =>
  bindo (group_loop (filter Translation) (entry Translation) (flush Translation) mapping 0 s) (fun s =>
  if has_scale then group_loop (filter Scale) (entry Scale) (flush Scale) mapping 0 s else Ok s)).
(** animated_group_writer, animated_track_utils.h:142-163 *)
Definition animated_group_writer {S} (bones : list tbone) (has_scale : bool) (mapping : list N) (filter : channel -> N -> outcome bool)
    (entry : channel -> N -> N -> S -> outcome S) (flush : channel -> N -> S -> outcome S) (s : S) : outcome S :=
  group_writer has_scale mapping
    (fun ch i => bindo (bone_at bones i) (fun b => if b_constant b ch then Ok false else filter ch i)) entry flush s.

(** ** Constant sub-tracks *)
Definition load_words (n : nat) (m : list N) : outcome (list N) :=
  (fix go n off := match n with O => Ok [] | Datatypes.S n => bindo (load_le m off 4) (fun w => bindo (go n (off + 4)) (fun l => Ok (w :: l))) end) n 0.
(** is the sub-track stored with the constants: write_stream_data.h:225, 272, 292 *)
Definition is_written_constant (b : tbone) (ch : channel) : bool := negb (b_default b ch) && b_constant b ch.
(** get_constant_data_size, write_stream_data.h:49-74 *)
Definition constant_size (has_scale : bool) (b : tbone) : N :=
  if b_output_index b =? 0xFFFFFFFF then 0 else
  (if is_written_constant b Rotation then ts_packed_size (b_stream b Rotation) else 0) +
  (if is_written_constant b Translation then ts_packed_size (b_stream b Translation) else 0) +
  (if has_scale && is_written_constant b Scale then ts_packed_size (b_stream b Scale) else 0).
Definition get_constant_data_size (has_scale : bool) (bones : list tbone) : N :=
  fold_left (fun a b => addw 32 a (constant_size has_scale b)) bones 0.
(** get_num_constant_samples, write_stream_data.h:76-103 *)
Definition get_num_constant_samples (has_scale : bool) (bones : list tbone) (ch : channel) : N :=
  fold_left (fun a b => if b_output_index b =? 0xFFFFFFFF then a else
    if (match ch with Scale => has_scale | _ => true end) && is_written_constant b ch then addw 32 a 1 else a) bones 0.

(** the swizzle buffers: xxxx, yyyy, zzzz and the number of rotations in them; write_stream_data.h:214-216 *)
Record swizzle := { sw_x : list N; sw_y : list N; sw_z : list N; sw_num : N; sw_out : list N }.
Definition words (ws : list N) : list N := concat (map (le_bytes 4) ws).
Definition flush_swizzle (s : swizzle) : list N :=
  sw_out s ++ words (firstn (N.to_nat (sw_num s)) (sw_x s)) ++ words (firstn (N.to_nat (sw_num s)) (sw_y s)) ++ words (firstn (N.to_nat (sw_num s)) (sw_z s)).
(** write_stream_data.h:219-253; a float is its bits.  get_raw_sample reads 16 bytes *)
Fixpoint write_constant_rotations (swizzle_rotations : bool) (bones : list tbone) (mapping : list N) (s : swizzle) : outcome swizzle :=
  match mapping with
  | [] => Ok s
  | i :: t =>
      bindo (bone_at bones i) (fun b =>
      bindo (if is_written_constant b Rotation then
               bindo (get_raw_sample_ptr (b_stream b Rotation) 0) (fun p =>
               if swizzle_rotations then
                 bindo (load_words 4 p) (fun w =>
                 let k := N.to_nat (sw_num s) in
                 let s' := {| sw_x := upd (sw_x s) k (nth 0 w 0); sw_y := upd (sw_y s) k (nth 1 w 0); sw_z := upd (sw_z s) k (nth 2 w 0);
                              sw_num := sw_num s + 1; sw_out := sw_out s |} in
                 if 4 <=? sw_num s' then Ok {| sw_x := sw_x s'; sw_y := sw_y s'; sw_z := sw_z s'; sw_num := 0; sw_out := flush_swizzle s' |} else Ok s')
               else
                 bindo (load_bytes p 0 (N.to_nat (ts_sample_size (b_stream b Rotation)))) (fun l =>
                 Ok {| sw_x := sw_x s; sw_y := sw_y s; sw_z := sw_z s; sw_num := sw_num s; sw_out := sw_out s ++ l |}))
             else Ok s) (write_constant_rotations swizzle_rotations bones t))
  end.
(** write_stream_data.h:266-304 *)
Fixpoint write_constant_vectors (ch : channel) (bones : list tbone) (mapping : list N) (out : list N) : outcome (list N) :=
  match mapping with
  | [] => Ok out
  | i :: t =>
      bindo (bone_at bones i) (fun b =>
      bindo (if is_written_constant b ch then
               bindo (get_raw_sample_ptr (b_stream b ch) 0) (fun p =>
               bindo (load_bytes p 0 (N.to_nat (ts_sample_size (b_stream b ch)))) (fun l => Ok (out ++ l)))
             else Ok out) (write_constant_vectors ch bones t))
  end.
(** write_constant_track_data, write_stream_data.h:199-310; the swizzle buffers are not initialized *)
Definition write_constant_track_data (junk : list N) (f : rotation_format) (has_scale : bool) (bones : list tbone) (mapping : list N) : outcome (list N) :=
  let swizzle_rotations := negb (rotation_full f) in
  bindo (write_constant_rotations swizzle_rotations bones mapping {| sw_x := junk; sw_y := junk; sw_z := junk; sw_num := 0; sw_out := [] |}) (fun s =>
  let out := if swizzle_rotations && negb (sw_num s =? 0) then flush_swizzle s else sw_out s in
  bindo (write_constant_vectors Translation bones mapping out) (fun out =>
  if has_scale then write_constant_vectors Scale bones mapping out else Ok out)).

(** ** Animated samples *)
(** calculate_animated_data_size of a stream, write_stream_data.h:105-122 *)
Definition stream_pose_bits (t : tstream) : outcome N :=
  if is_bit_rate_variable t then bindo (get_num_bits_at_bit_rate (ts_rate t)) (fun n => Ok (mulw 32 n 3)) else Ok (mulw 32 (ts_packed_size t) 8).
(** calculate_animated_data_size, write_stream_data.h:124-158: the number of bits per pose of one kind of sub-track *)
Fixpoint pose_bits (ch : channel) (bones : list tbone) (mapping : list N) (a : N) : outcome N :=
  match mapping with
  | [] => Ok a
  | i :: t =>
      bindo (bone_at bones i) (fun b =>
      bindo (if b_constant b ch then Ok a else bindo (stream_pose_bits (b_stream b ch)) (fun n => Ok (addw 32 a n))) (pose_bits ch bones t))
  end.

(** write_animated_sample, write_stream_data.h:312-363: the buffer and the bit offset after it *)
Definition write_animated_sample (t : tstream) (sample_index : N) (dest : list N) (bit_offset : N) : outcome (list N * N) :=
  bindo (get_raw_sample_ptr t sample_index) (fun p =>
  if is_bit_rate_variable t then
    bindo (get_num_bits_at_bit_rate (ts_rate t)) (fun n =>
    let num_bits := mulw 32 n 3 in
    bindo (if is_raw_bit_rate (ts_rate t) then bindo (load_words 3 p) (write_raw dest bit_offset)
           else memcpy_bits dest bit_offset p 0 num_bits) (fun d =>
    Ok (d, addw 64 bit_offset num_bits)))
  else
    bindo (load_words 3 p) (fun xyz =>
    bindo (write_raw dest bit_offset xyz) (fun d =>
    if ts_packed_size t =? 16
    then bindo (load_le p 12 4) (fun w => bindo (write_raw_component d (bit_offset + 96) w) (fun d => Ok (d, addw 64 bit_offset 128)))
    else Ok (d, addw 64 bit_offset 96)))).

(** the output buffer, its bit offset, the group buffer, its bit offset: write_stream_data.h:380-393 *)
Record awriter := { aw_dest : list N; aw_bit : N; aw_group : list N; aw_group_bit : N }.
(** group_entry_action, write_stream_data.h:424-443 *)
Definition animated_entry (bones : list tbone) (sample_index : N) (ch : channel) (group_size bone_index : N) (s : awriter) : outcome awriter :=
  bindo (bone_at bones bone_index) (fun b =>
  if is_constant_bit_rate (ts_rate (b_stream b ch)) then Ok s else
  bindo (write_animated_sample (b_stream b ch) sample_index (aw_group s) (aw_group_bit s)) (fun r =>
  Ok {| aw_dest := aw_dest s; aw_bit := aw_bit s; aw_group := fst r; aw_group_bit := snd r |})).
(** group_flush_action, write_stream_data.h:404-417 *)
Definition animated_flush (ch : channel) (group_size : N) (s : awriter) : outcome awriter :=
  bindo (memcpy_bits (aw_dest s) (aw_bit s) (aw_group s) 0 (aw_group_bit s)) (fun d =>
  Ok {| aw_dest := d; aw_bit := addw 64 (aw_bit s) (aw_group_bit s); aw_group := aw_group s; aw_group_bit := 0 |}).
(** write_stream_data.h:419-446; [kept] is bitset_test of hard_keyframes, or true without stripping *)
Fixpoint write_samples (bones : list tbone) (has_scale : bool) (mapping : list N) (kept : N -> bool) (samples : list N) (s : awriter) : outcome awriter :=
  match samples with
  | [] => Ok s
  | k :: t =>
      bindo (if kept k then animated_group_writer bones has_scale mapping (fun _ _ => Ok true) (animated_entry bones k) animated_flush s else Ok s)
            (write_samples bones has_scale mapping kept t)
  end.
Definition sample_indices (n : N) : list N := map N.of_nat (seq 0 (N.to_nat n)).
(** write_animated_track_data, write_stream_data.h:365-463: the buffer and the number of bytes written. The group buffer is not initialized *)
Definition write_animated_track_data (junk : list N) (bones : list tbone) (has_scale : bool) (mapping : list N) (kept : N -> bool) (num_samples : N)
    (dest : list N) : outcome (list N * N) :=
  bindo (write_samples bones has_scale mapping kept (sample_indices num_samples) {| aw_dest := dest; aw_bit := 0; aw_group := junk; aw_group_bit := 0 |}) (fun s =>
  Ok (aw_dest s, if aw_bit s =? 0 then 0 else addw 64 (aw_bit s) 7 / 8)).

(** ** Format bytes *)
Record fwriter := { fw_out : list N; fw_group : list N }.
(** group_filter_action, write_stream_data.h:481-490 *)
Definition format_filter (bones : list tbone) (ch : channel) (i : N) : outcome bool :=
  bindo (bone_at bones i) (fun b => Ok (is_bit_rate_variable (b_stream b ch))).
(** group_entry_action, write_stream_data.h:492-519 *)
Definition format_entry (bones : list tbone) (ch : channel) (group_size i : N) (s : fwriter) : outcome fwriter :=
  bindo (bone_at bones i) (fun b =>
  let bit_rate := ts_rate (b_stream b ch) in
  bindo (get_num_bits_at_bit_rate bit_rate) (fun num_bits =>
  bindo (store8 (fw_group s) group_size (if bit_rate =? k_highest_bit_rate then 31 else num_bits)) (fun g =>
  Ok {| fw_out := fw_out s; fw_group := g |}))).
(** group_flush_action, write_stream_data.h:521-532 *)
Definition format_flush (ch : channel) (group_size : N) (s : fwriter) : outcome fwriter :=
  let copy_size := match ch with Rotation => 4 | _ => group_size end in
  bindo (load_bytes (fw_group s) 0 (N.to_nat copy_size)) (fun l => Ok {| fw_out := fw_out s ++ l; fw_group := [0; 0; 0; 0] |}).
(** write_format_per_track_data, write_stream_data.h:465-552 *)
Definition write_format_per_track_data (bones : list tbone) (has_scale : bool) (mapping : list N) : outcome (list N) :=
  bindo (animated_group_writer bones has_scale mapping (format_filter bones) (format_entry bones) format_flush {| fw_out := []; fw_group := [0; 0; 0; 0] |})
        (fun s => Ok (fw_out s)).
(** get_format_per_track_data_size, write_stream_data.h:160-197: the counts of the loop, then the padding *)
Definition is_animated (variable : bool) (b : tbone) (ch : channel) : N := if negb (b_constant b ch) && variable then 1 else 0.
Definition get_format_per_track_data_size (rv tv sv : bool) (bones : list tbone) : N :=
  let r := fold_left (fun (a : N * N) b =>
    if b_output_index b =? 0xFFFFFFFF then a else
    let size := addw 32 (fst a) (is_animated rv b Rotation) in
    let rotations := addw 32 (snd a) (is_animated rv b Rotation) in
    (addw 32 (addw 32 size (is_animated tv b Translation)) (is_animated sv b Scale), rotations)) bones (0, 0) in
  let partial := snd r mod 4 in
  if partial =? 0 then fst r else addw 32 (fst r) (4 - partial).

(** ** Clip ranges *)
(** range_reduction_flags8, range_reduction_types.h: one flag per kind of sub-track *)
Definition range_filter (flags : channel -> bool) (ch : channel) (i : N) : outcome bool := Ok (flags ch).
Record rwriter := { rw_out : list N; rw_min : list (list f32); rw_extent : list (list f32) }.
(** group_entry_action, write_range_data.h:114-147 *)
Definition clip_range_entry (bones : list tbone) (ch : channel) (group_size i : N) (s : rwriter) : outcome rwriter :=
  bindo (bone_at bones i) (fun b =>
  Ok {| rw_out := rw_out s; rw_min := upd (rw_min s) (N.to_nat group_size) (b_clip_min b ch);
        rw_extent := upd (rw_extent s) (N.to_nat group_size) (b_clip_extent b ch) |}).
(** RTM_MATRIXF_TRANSPOSE_4X4 then memcpy of the first [group_size] lanes of row [c] *)
Definition soa_row (c : nat) (group : list (list f32)) (group_size : N) : list N :=
  words (map f_bits (firstn (N.to_nat group_size) (map (fun v => nth c v f_zero) group))).
Definition float3_bytes (v : list f32) : list N := words (map f_bits (firstn 3 v)).
(** group_flush_action, write_range_data.h:149-198; the rotation group is transposed in place, only [rw_out] is read after it
    for the entries that are written again *)
Definition clip_range_flush (full : bool) (ch : channel) (group_size : N) (s : rwriter) : outcome rwriter :=
  let components := if full then [0; 1; 2; 3]%nat else [0; 1; 2]%nat in
  let transpose (g : list (list f32)) := map (fun c => map (fun v => nth c v f_zero) g) [0; 1; 2; 3]%nat in
  match ch with
  | Rotation =>
      Ok {| rw_out := rw_out s ++ concat (map (fun c => soa_row c (rw_min s) group_size) components) ++
                                  concat (map (fun c => soa_row c (rw_extent s) group_size) components);
            rw_min := transpose (rw_min s); rw_extent := transpose (rw_extent s) |}
  | _ =>
      Ok {| rw_out := rw_out s ++ concat (map (fun i => float3_bytes (nth i (rw_min s) []) ++ float3_bytes (nth i (rw_extent s) [])) (seq 0 (N.to_nat group_size)));
            rw_min := rw_min s; rw_extent := rw_extent s |}
  end.
(** write_clip_range_data, write_range_data.h:80-211: the rotation format is the one of the first bone *)
Definition write_clip_range_data (junk : list (list f32)) (bones : list tbone) (has_scale : bool) (flags : channel -> bool) (mapping : list N) : outcome (list N) :=
  bindo (bone_at bones 0) (fun b0 =>
  bindo (animated_group_writer bones has_scale mapping (range_filter flags) (clip_range_entry bones)
           (clip_range_flush (ts_packed_size (b_stream b0 Rotation) =? 16)) {| rw_out := []; rw_min := junk; rw_extent := junk |})
        (fun s => Ok (rw_out s))).
(** get_clip_range_data_size, write_range_data.h:54-78: stripped bones are counted *)
Definition get_clip_range_data_size (flags : channel -> bool) (f : rotation_format) (bones : list tbone) : N :=
  let size ch := if flags ch then (match ch with Rotation => if rotation_full f then 32 else 24 | _ => 24 end) else 0 in
  fold_left (fun a b =>
    let a := if b_constant b Rotation then a else addw 32 a (size Rotation) in
    let a := if b_constant b Translation then a else addw 32 a (size Translation) in
    if b_constant b Scale then a else addw 32 a (size Scale)) bones 0.

(** ** Segment ranges *)
(** pack_vector3_u24_unsafe, math/vector4_packing.h:757-766: three bytes *)
Definition pack_vector3_u24 (v : list f32) : outcome (list N) :=
  bindo (pack_scalar_unsigned (nth 0 v f_zero) 8) (fun x =>
  bindo (pack_scalar_unsigned (nth 1 v f_zero) 8) (fun y =>
  bindo (pack_scalar_unsigned (nth 2 v f_zero) 8) (fun z => Ok [wrapw 8 x; wrapw 8 y; wrapw 8 z]))).
Fixpoint store_each (g : list N) (l : list (N * N)) : outcome (list N) :=
  match l with [] => Ok g | (at_, v) :: t => bindo (store8 g at_ v) (fun g => store_each g t) end.
(** group_entry_action, write_range_data.h:254-330 *)
Definition segment_range_entry (bones : list tbone) (ch : channel) (group_size i : N) (s : fwriter) : outcome fwriter :=
  bindo (bone_at bones i) (fun b =>
  bindo
    (if is_constant_bit_rate (ts_rate (b_stream b ch)) then
       bindo (get_raw_sample_ptr (b_stream b ch) 0) (fun p =>
       bindo (load_bytes p 0 6) (fun q =>
       match ch with
       | Rotation => store_each (fw_group s)
           [(group_size + 0, nth 1 q 0); (group_size + 4, nth 0 q 0); (group_size + 8, nth 3 q 0);
            (group_size + 12, nth 2 q 0); (group_size + 16, nth 5 q 0); (group_size + 20, nth 4 q 0)]
       | _ => store_bytes (fw_group s) (group_size * 6) q
       end))
     else
       bindo (pack_vector3_u24 (b_segment_min b ch)) (fun mn =>
       bindo (pack_vector3_u24 (b_segment_extent b ch)) (fun ext =>
       match ch with
       | Rotation => store_each (fw_group s)
           [(group_size + 0, nth 0 mn 0); (group_size + 4, nth 1 mn 0); (group_size + 8, nth 2 mn 0);
            (group_size + 12, nth 0 ext 0); (group_size + 16, nth 1 ext 0); (group_size + 20, nth 2 ext 0)]
       | _ => bindo (store_bytes (fw_group s) (group_size * 6) mn) (fun g => store_bytes g (group_size * 6 + 3) ext)
       end)))
    (fun g => Ok {| fw_out := fw_out s; fw_group := g |})).
(** group_flush_action, write_range_data.h:332-343 *)
Definition segment_range_flush (ch : channel) (group_size : N) (s : fwriter) : outcome fwriter :=
  let copy_size := match ch with Rotation => 4 | _ => group_size end in
  bindo (load_bytes (fw_group s) 0 (N.to_nat (copy_size * 6))) (fun l => Ok {| fw_out := fw_out s ++ l; fw_group := repeat 0 24 |}).
(** write_segment_range_data, write_range_data.h:213-352 *)
Definition write_segment_range_data (bones : list tbone) (has_scale : bool) (flags : channel -> bool) (mapping : list N) : outcome (list N) :=
  bindo (animated_group_writer bones has_scale mapping (range_filter flags) (segment_range_entry bones) segment_range_flush
           {| fw_out := []; fw_group := repeat 0 24 |}) (fun s => Ok (fw_out s)).
