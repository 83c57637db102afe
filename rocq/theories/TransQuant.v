(** Range reduction, segmenting and quantization of transform clips (model only): compression/impl/normalize.transform.h,
    segment.transform.h:130-258, quantize.transform.h:324-673 and :1142-1172, track_stream.h:55-240 and :348-396.
    A stream of rtm::vector4f is the list of its samples, a sample the list of its four lanes; lanes are independent in every rtm function
    used.  A quantized stream is a buffer of bytes ([tstream]).  The bit rates are an argument: they are what the optimizer found. *)
From Verif Require Import Word Float32 Quant Headers Packing TransDec TransEnc.
From Verif Require ScalarEnc.
Local Open Scope N_scope.

Notation map2 := ScalarEnc.map2.
Definition vec : Type := list f32.
(** rtm::vector_set, vector_zero *)
Definition splat (x : f32) : vec := repeat x 4.
(** rtm::vector_set_w(v, 0.0F) *)
Definition zero_w (v : vec) : vec := firstn 3 v ++ [f_zero].

(** track_stream_range, track_stream.h:348-396 *)
Record frange := { r_min : vec; r_max : vec; r_extent : vec }.
Definition from_min_max (mn mx : vec) : frange := {| r_min := mn; r_max := mx; r_extent := map2 fsub mx mn |}.
Definition from_min_extent (mn extent : vec) : frange := {| r_min := mn; r_max := map2 fadd mn extent; r_extent := extent |}.

(** calculate_track_range, normalize.transform.h:50-77 *)
Definition calculate_track_range (samples : list vec) (is_vector4 : bool) : frange :=
  match samples with
  | [] => from_min_max (splat f_zero) (splat f_zero)
  | _ =>
      let mn := fold_left (fun m s => map2 fmin m s) samples (splat ScalarEnc.f_1e10) in
      let mx := fold_left (fun m s => map2 fmax m s) samples (splat (ScalarEnc.fneg ScalarEnc.f_1e10)) in
      if is_vector4 then from_min_max mn mx else from_min_max (zero_w mn) (zero_w mx)
  end.

(** extract_segment_bone_ranges, normalize.transform.h:126-130: (1 << 8) - 1 and its inverse *)
Definition max_range_value : f32 := f_of_N 255.
Definition inv_max_range_value : f32 := fdiv f_one max_range_value.
(** fixup_range, normalize.transform.h:139-150, one lane *)
Definition padded_range_min (range_min : f32) : f32 :=
  let scaled_min := fmul range_min max_range_value in
  let quantized_min0 := fclamp (ffloor scaled_min) f_zero max_range_value in
  let quantized_min1 := fmax (fsub quantized_min0 f_one) f_zero in
  let padded_range_min0 := fmul quantized_min0 inv_max_range_value in
  let padded_range_min1 := fmul quantized_min1 inv_max_range_value in
  if fle padded_range_min0 range_min then padded_range_min0 else padded_range_min1.
(** normalize.transform.h:157-169, one lane *)
Definition padded_range_extent (padded_min range_max : f32) : f32 :=
  let range_extent := fsub range_max padded_min in
  let scaled_extent := fmul range_extent max_range_value in
  let quantized_extent0 := fclamp (fceil scaled_extent) f_zero max_range_value in
  let quantized_extent1 := fmin (fadd quantized_extent0 f_one) max_range_value in
  let padded_range_extent0 := fmul quantized_extent0 inv_max_range_value in
  let padded_range_extent1 := fmul quantized_extent1 inv_max_range_value in
  if fge padded_range_extent0 range_max then padded_range_extent0 else padded_range_extent1.
(** normalize.transform.h:134-172 *)
Definition fixup_range (range : frange) : frange :=
  let mn := map padded_range_min (r_min range) in
  from_min_extent mn (map2 padded_range_extent mn (r_max range)).

(** normalize_rotation_streams, normalize_translation_streams, normalize_scale_streams, normalize.transform.h:217-343: constant
    sub-tracks are not normalized.  One lane is the same code as that of scalar tracks *)
Definition normalize_stream (constant : bool) (range : frange) (samples : list vec) : list vec :=
  if constant then samples else map (fun s => ScalarEnc.normalize_sample s (r_min range) (r_extent range)) samples.

(** transform_streams, track_stream.h:407-441: what a bone is after compact_constant_streams: per kind of sub-track whether it is default,
    whether it is constant (then it has one sample), the samples of the lossy clip and those of the raw clip, and its output index.  The raw
    rotations are those that convert_rotation gives (quantize.transform.h:402): w is positive *)
Record source := {
  o_default : channel -> bool; o_constant : channel -> bool;
  o_lossy : channel -> list vec; o_raw : channel -> list vec;
  o_output_index : N
}.
(** the settings: which formats are variable, whether rotations are full quaternions, whether there is scale, whether the clip was split *)
Record qsettings := { q_variable : channel -> bool; q_full : bool; q_has_scale : bool; q_split : bool }.
(** the sub-tracks that are normalized: range_reduction (compress.transform.impl.h:188-199) and has_scale (normalize.transform.h:370) *)
Definition is_normalized (q : qsettings) (ch : channel) : bool :=
  q_variable q ch && match ch with Scale => q_has_scale q | _ => true end.
Definition is_any_variable (q : qsettings) : bool := q_variable q Rotation || q_variable q Translation || q_variable q Scale.

(** extract_bone_ranges_impl, normalize.transform.h:79-97 *)
Definition bone_stream_range (q : qsettings) (ch : channel) (samples : list vec) : frange :=
  match ch with
  | Rotation => calculate_track_range samples true
  | Translation => calculate_track_range samples false
  | Scale => if q_has_scale q then calculate_track_range samples false else from_min_max (splat f_zero) (splat f_zero)
  end.
(** extract_clip_bone_ranges, normalize.transform.h:99-117, then compact.transform.h:420, 447, 474 for constant sub-tracks *)
Definition clip_range (q : qsettings) (o : source) (ch : channel) : frange :=
  if o_constant o ch then
    let s := nth 0 (o_lossy o ch) (splat f_zero) in
    from_min_extent (match ch with Rotation => s | _ => zero_w s end) (splat f_zero)
  else bone_stream_range q ch (o_lossy o ch).
(** normalize_clip_streams, normalize.transform.h:345-380 *)
Definition clip_stream (q : qsettings) (o : source) (ch : channel) : list vec :=
  if is_normalized q ch then normalize_stream (o_constant o ch) (clip_range q o ch) (o_lossy o ch) else o_lossy o ch.

(** segment_streams, segment.transform.h:182-243: a constant stream is duplicated, the others are copied from sample [start] on *)
Definition segment_stream (q : qsettings) (start n : N) (o : source) (ch : channel) : outcome (list vec) :=
  let s := clip_stream q o ch in
  if negb (q_split q) || o_constant o ch then Ok s
  else if start + n <=? N.of_nat (length s) then Ok (firstn (N.to_nat n) (skipn (N.to_nat start) s)) else UB.
(** constant_rotation, constant_translation and constant_scale: segment.transform.h:242-244 when the clip is split, otherwise zero
    (track_stream.h:424-426) *)
Definition constant_sample (q : qsettings) (s : list vec) : outcome vec :=
  if q_split q then match nth_error s 0 with Some v => Ok v | None => UB end else Ok (splat f_zero).
(** extract_segment_bone_ranges, normalize.transform.h:119-198: done when the clip is split and a format is variable *)
Definition segment_range (q : qsettings) (o : source) (ch : channel) (s : list vec) : frange :=
  let range := bone_stream_range q ch s in
  if negb (o_constant o ch) && is_normalized q ch then fixup_range range else range.
(** normalize_segment_streams, normalize.transform.h:382-407 *)
Definition segment_normalized (q : qsettings) (o : source) (ch : channel) (s : list vec) : list vec :=
  if q_split q && is_normalized q ch then normalize_stream (o_constant o ch) (segment_range q o ch s) s else s.

(** ** Quantization *)
(** rtm::vector_store3 and vector_store *)
Definition store_vec (n : nat) (v : vec) : list N := concat (map (fun x => le_bytes 4 (f_bits x)) (firstn n v)).
(** a new stream: the content of the allocation (sample_size * num_samples + k_padding bytes) is arbitrary; track_stream.h:135-145, :204 *)
Definition allocated (junk : N -> list N) (num_samples sample_size : N) : list N := junk (num_samples * sample_size + 15).
(** write at get_raw_sample_ptr(sample_index), track_stream.h:63-75 *)
Definition write_sample (data : list N) (sample_size k : N) (write : list N -> outcome (list N)) : outcome (list N) :=
  let offset := N.to_nat (mulw 32 k sample_size) in
  bindo (write (skipn offset data)) (fun rest => Ok (firstn offset data ++ rest)).
Fixpoint write_samples (data : list N) (sample_size k : N) (l : list (list N -> outcome (list N))) : outcome (list N) :=
  match l with [] => Ok data | w :: t => bindo (write_sample data sample_size k w) (fun data => write_samples data sample_size (k + 1) t) end.

(** quantize_fixed_rotation_stream, quantize_fixed_translation_stream, quantize_fixed_scale_stream, quantize.transform.h:324-356, :438-469,
    :554-585: [n] components, four for quatf_full and three otherwise *)
Definition quantize_fixed_stream (junk : N -> list N) (n : N) (samples : list vec) : outcome tstream :=
  let num_samples := N.of_nat (length samples) in
  bindo (write_samples (allocated junk num_samples (4 * n)) (4 * n) 0
           (map (fun v out => store_bytes out 0 (store_vec (N.to_nat n) v)) samples)) (fun data =>
  Ok {| ts_rate := k_invalid_bit_rate; ts_sample_size := 4 * n; ts_packed_size := 4 * n; ts_num_samples := num_samples; ts_data := data |}).

(** pack_vector3_u48_unsafe, math/vector4_packing.h:602-612; safe_static_cast<uint16_t> asserts that the value fits *)
Definition lane (k : nat) (v : vec) : f32 := nth k v f_zero.
Definition pack_vector3_u48 (v : vec) (out : list N) : outcome (list N) :=
  bindo (pack_scalar_unsigned (lane 0 v) 16) (fun x =>
  bindo (pack_scalar_unsigned (lane 1 v) 16) (fun y =>
  bindo (pack_scalar_unsigned (lane 2 v) 16) (fun z =>
  if (x <? 65536) && (y <? 65536) && (z <? 65536) then store_bytes out 0 (le_bytes 2 x ++ le_bytes 2 y ++ le_bytes 2 z) else UB))).
(** pack_vector3_uXX_unsafe, math/vector4_packing.h:828-858 *)
Definition pack_vector3 (num_bits : N) (v : vec) (out : list N) : outcome (list N) :=
  bindo (pack_scalar_unsigned (lane 0 v) num_bits) (fun x =>
  bindo (pack_scalar_unsigned (lane 1 v) num_bits) (fun y =>
  bindo (pack_scalar_unsigned (lane 2 v) num_bits) (fun z => pack_vector3_uXX x y z num_bits out))).

(** quantize_variable_rotation_stream, quantize_variable_translation_stream, quantize_variable_scale_stream, quantize.transform.h:372-418,
    :490-534, :606-650.  [raw]: the samples of the raw clip from segment_sample_start_index on *)
Definition quantize_variable_stream (junk : N -> list N) (bit_rate : N) (constant : vec) (raw lossy : list vec) : outcome tstream :=
  let num_samples := if is_constant_bit_rate bit_rate then 1 else N.of_nat (length lossy) in
  let data := allocated junk num_samples 16 in
  bindo
    (if is_constant_bit_rate bit_rate then write_sample data 16 0 (pack_vector3_u48 constant)
     else
       bindo (get_num_bits_at_bit_rate bit_rate) (fun num_bits =>
       if bit_rate =? k_highest_bit_rate then
         if (length lossy <=? length raw)%nat then write_samples data 16 0 (map (fun v out => store_bytes out 0 (store_vec 3 v)) (firstn (length lossy) raw)) else UB
       else write_samples data 16 0 (map (pack_vector3 num_bits) lossy))) (fun data =>
  Ok {| ts_rate := bit_rate; ts_sample_size := 16; ts_packed_size := 12; ts_num_samples := num_samples; ts_data := data |}).

(** a stream that is not quantized: 16 bytes per sample *)
Definition float_stream (junk : N -> list N) (n : N) (samples : list vec) : outcome tstream :=
  let num_samples := N.of_nat (length samples) in
  bindo (write_samples (allocated junk num_samples 16) 16 0 (map (fun v out => store_bytes out 0 (store_vec 4 v)) samples)) (fun data =>
  Ok {| ts_rate := k_invalid_bit_rate; ts_sample_size := 16; ts_packed_size := 4 * n; ts_num_samples := num_samples; ts_data := data |}).
(** the components of a format that is not variable: get_packed_rotation_size, get_packed_vector_size *)
Definition q_components (q : qsettings) (ch : channel) : N := match ch with Rotation => if q_full q then 4 else 3 | _ => 3 end.
(** quantize_fixed_*_stream and quantize_variable_*_stream of one bone, quantize.transform.h:358-370, :420-436, :471-488, :536-552,
    :587-604, :652-673: default sub-tracks are not quantized, constant ones are kept with full precision *)
Definition quantize_sub_track (junk : N -> list N) (q : qsettings) (start bit_rate : N) (o : source) (ch : channel) (constant : vec) (lossy : list vec) : outcome tstream :=
  if o_default o ch then float_stream junk (q_components q ch) lossy
  else if q_variable q ch then
    if o_constant o ch then quantize_fixed_stream junk 3 lossy
    else quantize_variable_stream junk bit_rate constant (skipn (N.to_nat start) (o_raw o ch)) lossy
  else quantize_fixed_stream junk (q_components q ch) lossy.
(** quantize_all_streams, quantize.transform.h:1142-1172: scales are quantized when there are some *)
Definition quantize_channel (junk : N -> list N) (q : qsettings) (start bit_rate : N) (o : source) (ch : channel) (constant : vec) (lossy : list vec) : outcome tstream :=
  match ch with
  | Scale => if q_has_scale q then quantize_sub_track junk q start bit_rate o ch constant lossy else float_stream junk 3 lossy
  | _ => quantize_sub_track junk q start bit_rate o ch constant lossy
  end.

(** one kind of sub-track of a bone, in the segment of samples [start .. start + n): its stream and its segment range *)
Definition quantized (junk : N -> list N) (q : qsettings) (start n bit_rate : N) (o : source) (ch : channel) : outcome (tstream * frange) :=
  bindo (segment_stream q start n o ch) (fun s =>
  bindo (constant_sample q s) (fun c =>
  bindo (quantize_channel junk q start bit_rate o ch c (segment_normalized q o ch s)) (fun t =>
  Ok (t, segment_range q o ch s)))).
Definition by_channel {A} (r t s : A) (ch : channel) : A := match ch with Rotation => r | Translation => t | Scale => s end.
Definition quantize_bone (junk : channel -> N -> list N) (q : qsettings) (start n : N) (bit_rate : channel -> N) (o : source) : outcome tbone :=
  bindo (quantized (junk Rotation) q start n (bit_rate Rotation) o Rotation) (fun r =>
  bindo (quantized (junk Translation) q start n (bit_rate Translation) o Translation) (fun t =>
  bindo (quantized (junk Scale) q start n (bit_rate Scale) o Scale) (fun s =>
  Ok {| b_stream := by_channel (fst r) (fst t) (fst s); b_default := o_default o; b_constant := o_constant o; b_output_index := o_output_index o;
        b_clip_min := fun ch => r_min (clip_range q o ch); b_clip_extent := fun ch => r_extent (clip_range q o ch);
        b_segment_min := by_channel (r_min (snd r)) (r_min (snd t)) (r_min (snd s));
        b_segment_extent := by_channel (r_extent (snd r)) (r_extent (snd t)) (r_extent (snd s)) |}))).
(** the bones of a segment; [bit_rates]: per bone *)
Fixpoint quantize_bones (junk : N -> channel -> N -> list N) (q : qsettings) (start n : N) (bit_rates : N -> channel -> N) (i : N) (l : list source) : outcome (list tbone) :=
  match l with
  | [] => Ok []
  | o :: t => bindo (quantize_bone (junk i) q start n (bit_rates i) o) (fun b => bindo (quantize_bones junk q start n bit_rates (i + 1) t) (fun bs => Ok (b :: bs)))
  end.
(** the segments of the clip; [sizes]: their numbers of samples; per segment the bit rates and the contents of the allocations *)
Fixpoint quantize_segments (junk : N -> N -> channel -> N -> list N) (q : qsettings) (bit_rates : N -> N -> channel -> N) (l : list source) (g start : N) (sizes : list N)
  : outcome (list (list tbone)) :=
  match sizes with
  | [] => Ok []
  | n :: t =>
      bindo (quantize_bones (junk g) q start n (bit_rates g) 0 l) (fun b =>
      bindo (quantize_segments junk q bit_rates l (g + 1) (addw 32 start n) t) (fun bs => Ok (b :: bs)))
  end.
