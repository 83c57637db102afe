(** Specification of what a transform clip stores, independent of how it is written and read.
    A constant sub-track is the list of its components' words (float bits); an animated sub-track of one key frame is a
    [stored] value. *)
From Verif Require Import Word Float32 Quant PackSpec.
Local Open Scope N_scope.

(** ** Bytes *)
Definition word_bytes (ws : list N) : list N := concat (map (le_bytes 4) ws).
(** groups of four sub-tracks, the last one may be partial *)
Fixpoint chunk4 {A} (l : list A) : list (list A) :=
  match l with
  | a :: b :: c :: d :: t => [a; b; c; d] :: chunk4 t
  | [] => []
  | _ => [l]
  end.
Definition column {A} (d : A) (c : nat) (chunk : list (list A)) : list A := map (fun ws => nth c ws d) chunk.
Definition pad4 (l : list N) : list N := l ++ repeat 0 (4 - length l).

(** ** Constant sub-tracks: XXXX YYYY ZZZZ per group of rotations unless they are full quaternions *)
Definition soa_words (num_components : nat) (chunk : list (list N)) : list N :=
  concat (map (fun c => word_bytes (column 0 c chunk)) (seq 0 num_components)).
Definition rotation_words (full : bool) (rotations : list (list N)) : list N :=
  if full then concat (map word_bytes rotations) else concat (map (soa_words 3) (chunk4 rotations)).
Definition vector_words (vectors : list (list N)) : list N := concat (map word_bytes vectors).
Definition constant_layout (full : bool) (rotations translations scales : list (list N)) : list N :=
  rotation_words full rotations ++ vector_words translations ++ vector_words scales.

(** ** Animated sub-tracks: the number of bits per component (0: the sample is in the segment range data, 32: raw), the
    components, and the six bytes of the segment range (min x y z, extent x y z) *)
Record stored := { s_bits : N; s_vals : list N; s_range : list N }.
Definition in_words (w n : N) (l : list N) : Prop := N.of_nat (length l) = n /\ Forall (fun v => v < 2 ^ w) l.
Definition stored_ok (has_segments : bool) (s : stored) : Prop :=
  in_words 8 6 (s_range s) /\
  (s_bits s = 0 /\ has_segments = true /\ in_words 16 3 (s_vals s) \/
   1 <= s_bits s <= 23 /\ in_words (s_bits s) 3 (s_vals s) \/
   s_bits s = 32 /\ in_words 32 3 (s_vals s)).

(** the byte that tells how many bits are used *)
Definition format_code (version : N) (s : stored) : N := if s_bits s =? 32 then (if 9 <=? version then 31 else 32) else s_bits s.
Definition rotation_formats (version : N) (l : list stored) : list N := concat (map pad4 (chunk4 (map (format_code version) l))).
Definition vector_formats (version : N) (l : list stored) : list N := map (format_code version) l.

(** segment range: a sample stored there is 16 bits per component, high byte first for rotations *)
Definition rotation_range (s : stored) : list N :=
  if s_bits s =? 0 then concat (map (fun v => [v / 256; v mod 256]) (s_vals s)) else s_range s.
Definition vector_range (s : stored) : list N :=
  if s_bits s =? 0 then concat (map (fun v => [v mod 256; v / 256]) (s_vals s)) else s_range s.
Definition rotation_ranges (l : list stored) : list N :=
  concat (map (fun chunk => concat (map (fun c => pad4 (column 0 c chunk)) (seq 0 6))) (chunk4 (map rotation_range l))).
Definition vector_ranges (l : list stored) : list N := concat (map vector_range l).

(** clip range: six floats per sub-track, min x y z then extent x y z *)
Definition rotation_clip_ranges (l : list (list N)) : list N := concat (map (soa_words 6) (chunk4 l)).
Definition vector_clip_ranges (l : list (list N)) : list N := vector_words l.

(** the samples of one key frame, from bit [bit] on *)
Definition stored_size (s : stored) : N := s_bits s * N.of_nat (length (s_vals s)).
Fixpoint stored_at (data : list N) (bit : N) (l : list stored) : Prop :=
  match l with [] => True | s :: t => fields_at data bit (s_bits s) (s_vals s) /\ stored_at data (bit + stored_size s) t end.
Definition stored_sizes (l : list stored) : N := fold_right (fun s a => stored_size s + a) 0 l.

(** ** What is read back *)
Definition unit_value (bits q : N) : f32 := fmul (f_of_N q) (inv_max_value bits).
Definition in_range (x extent mn : f32) : f32 := fmul_add x extent mn.
(** component [c] of a sample of [1 .. 23] bits, within the segment range, then within the clip range *)
Definition normalized (has_segments : bool) (s : stored) (c : nat) : f32 :=
  if s_bits s =? 0 then unit_value 16 (nth c (s_vals s) 0)
  else
    let x := unit_value (s_bits s) (nth c (s_vals s) 0) in
    if has_segments then in_range x (unit_value 8 (nth (3 + c) (s_range s) 0)) (unit_value 8 (nth c (s_range s) 0)) else x.
Definition clip_value (clip : list N) (c : nat) : f32 := f_of_bits (nth c clip 0).
Definition decoded (has_segments : bool) (s : stored) (clip : list N) : list f32 :=
  if s_bits s =? 32 then map f_of_bits (s_vals s)
  else map (fun c => in_range (normalized has_segments s c) (clip_value clip (3 + c)) (clip_value clip c)) [0; 1; 2]%nat.

(** four raw rotations at a time go through a multiplication by one and an addition of zero: a negative zero loses its sign *)
Definition no_negative_zero (x : f32) : f32 := if f_bits x =? 0x80000000 then f_zero else x.
Definition decoded_in_group (has_segments : bool) (s : stored) (clip : list N) : list f32 :=
  if s_bits s =? 32 then map no_negative_zero (decoded has_segments s clip) else decoded has_segments s clip.

(** ** A clip, seen from the two key frames that are mixed *)
(** an animated sub-track: its sample in each of the two key frames, and its clip range *)
Record asub := { x0 : stored; x1 : stored; xclip : list N }.
(** the rotation, the translation or the scale of a track *)
Inductive sub := SDefault | SConst (words : list N) | SAnim (x : asub).
(** 0 default, 1 constant, 2 animated *)
Definition kind (s : sub) : N := match s with SDefault => 0 | SConst _ => 1 | SAnim _ => 2 end.
Definition constants (l : list sub) : list (list N) := flat_map (fun s => match s with SConst ws => [ws] | _ => [] end) l.
Definition animated (l : list sub) : list asub := flat_map (fun s => match s with SAnim x => [x] | _ => [] end) l.
