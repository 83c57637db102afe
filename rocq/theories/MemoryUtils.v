(** Model of includes/acl/core/memory_utils.h (model only, no proofs). *)
From Verif Require Import Word.
Open Scope N_scope.

(** is_power_of_two(size_t), memory_utils.h:71-74.  [input - 1] wraps at 0 but is guarded. *)
Definition is_power_of_two (input : N) : bool :=
  negb (input =? 0) && (N.land input (subw 64 input 1) =? 0).

(** is_aligned_to(IntegralType, size_t), memory_utils.h:89-94 *)
Definition is_aligned_to (value alignment : N) : bool :=
  N.land value (subw 64 alignment 1) =? 0.

(** align_to(IntegralType, size_t), memory_utils.h:109-114, for an integral type of [w] bits:
    the arithmetic is done on size_t (64 bits) and truncated. *)
Definition align_to (w value alignment : N) : N :=
  wrapw w (N.land (addw 64 value (subw 64 alignment 1)) (notw 64 (subw 64 alignment 1))).

(** get_required_padding<Prev, Next>(), memory_utils.h:116-121, with [size] = sizeof(Prev) and
    [alignment] = alignof(Next). *)
Definition get_required_padding (size alignment : N) : N :=
  subw 64 (N.land (addw 64 size (subw 64 alignment 1)) (notw 64 (subw 64 alignment 1))) size.

(** is_static_cast_safe between two unsigned integer types / signed to unsigned, memory_utils.h:193-207.
    Signed source values are [Z]; the unsigned destination has [w] bits. *)
Definition is_static_cast_safe_unsigned (wdst value : N) : bool :=
  wrapw wdst value =? value.
Definition is_static_cast_safe_to_unsigned (wdst : N) (value : Z) : bool :=
  ((0 <=? value)%Z && (Z.modulo value (2 ^ Z.of_N wdst) =? value)%Z)%bool.

(** byte_swap, portable branches, memory_utils.h:250-261, 263-276, 278-292 *)
Definition byte_swap16 (v : N) : N :=
  N.lor (N.shiftl (N.land v 0x00FF) 8) (N.shiftr (N.land v 0xFF00) 8).

Definition byte_swap32 (v : N) : N :=
  let v := N.lor (shlw 32 (N.land v 0x0000FFFF) 16) (N.shiftr (N.land v 0xFFFF0000) 16) in
  N.lor (shlw 32 (N.land v 0x00FF00FF) 8) (N.shiftr (N.land v 0xFF00FF00) 8).

Definition byte_swap64 (v : N) : N :=
  let v := N.lor (shlw 64 (N.land v 0x00000000FFFFFFFF) 32) (N.shiftr (N.land v 0xFFFFFFFF00000000) 32) in
  let v := N.lor (shlw 64 (N.land v 0x0000FFFF0000FFFF) 16) (N.shiftr (N.land v 0xFFFF0000FFFF0000) 16) in
  N.lor (shlw 64 (N.land v 0x00FF00FF00FF00FF) 8) (N.shiftr (N.land v 0xFF00FF00FF00FF00) 8).

(** One iteration of memcpy_bits, memory_utils.h:302-326: the number of bits copied and the new
    destination byte, from the two bytes and the in-byte bit offsets. *)
Definition memcpy_bits_count (dest_byte_bit_offset src_byte_bit_offset num_bits_to_copy : N) : N :=
  N.min (N.min (8 - dest_byte_bit_offset) (8 - src_byte_bit_offset)) num_bits_to_copy.

Definition memcpy_bits_byte (dest_byte src_byte dest_byte_bit_offset src_byte_bit_offset num_bits_copied : N) : N :=
  let dest_byte_mask :=
    N.lor (notw 32 (N.shiftr 0xFF dest_byte_bit_offset))
          (notw 32 (shlw 32 0xFF (8 - num_bits_copied - dest_byte_bit_offset))) in
  let src_shift_offset := 8 - src_byte_bit_offset - num_bits_copied in
  let src_byte_mask := N.shiftr 0xFF (8 - num_bits_copied) in
  let src_insert_shift_offset := 8 - num_bits_copied - dest_byte_bit_offset in
  let partial_dest_value := N.land dest_byte dest_byte_mask in
  let partial_src_value := N.land (N.shiftr src_byte src_shift_offset) src_byte_mask in
  N.lor partial_dest_value (shlw 32 partial_src_value src_insert_shift_offset).

(** memcpy_bits, memory_utils.h:295-335.  [dest] and [src] are two distinct buffers.
    The uint64_t offsets are unbounded [N] (a real buffer is far smaller than 2^61 bytes);
    the final store is safe_static_cast<uint8_t>, i.e. truncation. *)
Fixpoint memcpy_bits_loop (fuel : nat) (dest : list N) (dest_bit_offset : N)
         (src : list N) (src_bit_offset : N) (num_bits_to_copy : N) : outcome (list N) :=
  match fuel with
  | O => NoFuel
  | S fuel' =>
    let src_byte_offset := src_bit_offset / 8 in
    let src_byte_bit_offset := src_bit_offset mod 8 in
    let dest_byte_offset := dest_bit_offset / 8 in
    let dest_byte_bit_offset := dest_bit_offset mod 8 in
    let num_bits_copied := memcpy_bits_count dest_byte_bit_offset src_byte_bit_offset num_bits_to_copy in
    bindo (load8 dest dest_byte_offset) (fun dest_byte =>
    bindo (load8 src src_byte_offset) (fun src_byte =>
    bindo (store8 dest dest_byte_offset
             (wrapw 8 (memcpy_bits_byte dest_byte src_byte dest_byte_bit_offset src_byte_bit_offset num_bits_copied)))
    (fun dest' =>
      if num_bits_to_copy <=? num_bits_copied then Ok dest'
      else memcpy_bits_loop fuel' dest' (dest_bit_offset + num_bits_copied)
             src (src_bit_offset + num_bits_copied) (num_bits_to_copy - num_bits_copied))))
  end.

Definition memcpy_bits (dest : list N) (dest_bit_offset : N) (src : list N) (src_bit_offset : N)
           (num_bits_to_copy : N) : outcome (list N) :=
  if num_bits_to_copy =? 0 then Ok dest
  else memcpy_bits_loop (N.to_nat num_bits_to_copy) dest dest_bit_offset src src_bit_offset num_bits_to_copy.
