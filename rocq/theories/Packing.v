(** Integer part of includes/acl/math/scalar_packing.h and vector4_packing.h (model only).
    The pack functions take the already quantized components ([pack_scalar_unsigned] is in Quant.v);
    the unpack functions return the quantized components before the conversion to float.
    Component lanes are independent in the C++ (SSE2, NEON and scalar branches compute the same
    shifts and masks), so a vector is the list of its components. *)
From Verif Require Import Word MemoryUtils.
Open Scope N_scope.

(** A C++ shift is undefined when the amount reaches the width of the type. *)
Definition shl64c (x n : N) : outcome N := if n <? 64 then Ok (shlw 64 x n) else UB.
Definition shl32c (x n : N) : outcome N := if n <? 32 then Ok (shlw 32 x n) else UB.
Definition shr32c (x n : N) : outcome N := if n <? 32 then Ok (N.shiftr x n) else UB.

(** unaligned_write, memory_utils.h:351-355 *)
Definition unaligned_write64 (v : N) (out : list N) : outcome (list N) := store_bytes out 0 (le_bytes 8 v).

(** one component of unpack_scalarf_uXX_unsafe / unpack_vector{2,3,4}_uXX_unsafe: scalar_packing.h:171-180,
    vector4_packing.h:285-288, 955-958, 1089-1092; [bit_shift - (bit_offset % 8)] is a uint32_t.
    The table of masks has 24 entries. *)
Definition unpack_component_uXX (num_bits : N) (vector_data : list N) (bit_offset : N) : outcome N :=
  if 23 <? num_bits then UB else
  let bit_shift := subw 32 32 num_bits in
  let mask := subw 32 (shlw 32 1 num_bits) 1 in
  bindo (load_le vector_data (bit_offset / 8) 4) (fun v =>
  bindo (shr32c (byte_swap32 v) (subw 32 bit_shift (bit_offset mod 8))) (fun x =>
  Ok (N.land x mask))).

(** the components one after the other, [bit_offset += num_bits]: vector4_packing.h:285-312, 955-974, 1089-1100 *)
Fixpoint unpack_uXX (k : nat) (num_bits : N) (vector_data : list N) (bit_offset : N) : outcome (list N) :=
  match k with
  | O => Ok []
  | S k' => bindo (unpack_component_uXX num_bits vector_data bit_offset) (fun x =>
            bindo (unpack_uXX k' num_bits vector_data (addw 32 bit_offset num_bits)) (fun xs => Ok (x :: xs)))
  end.

(** one component of unpack_scalarf_32_unsafe / unpack_vector{2,3,4}_{64,96,128}_unsafe(data, bit_offset):
    scalar_packing.h:71-84, vector4_packing.h:128-163, 400-464, 479-520 *)
Definition unpack_component_32 (vector_data : list N) (byte_offset shift_offset : N) : outcome N :=
  bindo (load_le vector_data byte_offset 8) (fun v =>
  bindo (shl64c (byte_swap64 v) shift_offset) (fun v =>
  Ok (wrapw 32 (N.shiftr v 32)))).

Fixpoint unpack_32_loop (k : nat) (vector_data : list N) (byte_offset shift_offset : N) : outcome (list N) :=
  match k with
  | O => Ok []
  | S k' => bindo (unpack_component_32 vector_data byte_offset shift_offset) (fun x =>
            bindo (unpack_32_loop k' vector_data (byte_offset + 4) shift_offset) (fun xs => Ok (x :: xs)))
  end.
Definition unpack_32 (k : nat) (vector_data : list N) (bit_offset : N) : outcome (list N) :=
  unpack_32_loop k vector_data (bit_offset / 8) (bit_offset mod 8).

(** pack_vector2_uXX_unsafe, vector4_packing.h:1048-1058 *)
Definition pack_vector2_uXX (x y num_bits : N) (out : list N) : outcome (list N) :=
  bindo (shl64c x (subw 32 64 (mulw 32 num_bits 1))) (fun a =>
  bindo (shl64c y (subw 32 64 (mulw 32 num_bits 2))) (fun b =>
  unaligned_write64 (byte_swap64 (N.lor a b)) out)).

(** pack_vector3_uXX_unsafe, vector4_packing.h:828-858 *)
Definition pack_vector3_uXX (x y z num_bits : N) (out : list N) : outcome (list N) :=
  if 64 <=? mulw 32 num_bits 3 then
    bindo (shl64c x (subw 32 64 (mulw 32 num_bits 1))) (fun a =>
    bindo (shl64c y (subw 32 64 (mulw 32 num_bits 2))) (fun b =>
    bindo (unaligned_write64 (byte_swap64 (N.lor a b)) out) (fun out =>
    bindo (shl32c z (subw 32 32 num_bits)) (fun c =>
    memcpy_bits out (num_bits * 2) (le_bytes 4 (byte_swap32 c)) 0 num_bits))))
  else
    bindo (shl64c x (subw 32 64 (mulw 32 num_bits 1))) (fun a =>
    bindo (shl64c y (subw 32 64 (mulw 32 num_bits 2))) (fun b =>
    bindo (shl64c z (subw 32 64 (mulw 32 num_bits 3))) (fun c =>
    unaligned_write64 (byte_swap64 (N.lor (N.lor a b) c)) out))).

(** pack_vector4_uXX_unsafe, vector4_packing.h:221-259 *)
Definition pack_vector4_uXX (x y z w num_bits : N) (out : list N) : outcome (list N) :=
  if 64 <=? mulw 32 num_bits 3 then
    bindo (shl64c x (subw 32 64 (mulw 32 num_bits 1))) (fun a =>
    bindo (shl64c y (subw 32 64 (mulw 32 num_bits 2))) (fun b =>
    bindo (unaligned_write64 (byte_swap64 (N.lor a b)) out) (fun out =>
    bindo (shl64c z (subw 32 64 (mulw 32 num_bits 1))) (fun c =>
    bindo (shl64c w (subw 32 64 (mulw 32 num_bits 2))) (fun d =>
    memcpy_bits out (num_bits * 2) (le_bytes 8 (byte_swap64 (N.lor c d))) 0 (num_bits * 2))))))
  else
    bindo (shl64c x (subw 32 64 (mulw 32 num_bits 1))) (fun a =>
    bindo (shl64c y (subw 32 64 (mulw 32 num_bits 2))) (fun b =>
    bindo (shl64c z (subw 32 64 (mulw 32 num_bits 3))) (fun c =>
    bindo (unaligned_write64 (byte_swap64 (N.lor (N.lor a b) c)) out) (fun out =>
    bindo (shl32c w (subw 32 32 num_bits)) (fun d =>
    memcpy_bits out (mulw 32 num_bits 3) (le_bytes 4 (byte_swap32 d)) 0 num_bits))))).

(** the scalar (one component) writer used for scalar tracks, compression/impl/write_track_data_impl.h: the
    quantized value is moved to the top of a uint32_t, byte swapped, and [num_bits] bits are copied *)
Definition scalar_be_bytes (num_bits v : N) : outcome (list N) :=
  bindo (shl32c v (subw 32 32 num_bits)) (fun c => Ok (le_bytes 4 (byte_swap32 c))).

(** raw (32 bits per component) writer: write_stream_data.h:326-333 / 345-360 and the raw branch of
    write_track_data_impl.h:165: byte swap each component then copy its 32 bits *)
Definition write_raw_component (dest : list N) (bit_offset v : N) : outcome (list N) :=
  memcpy_bits dest bit_offset (le_bytes 4 (byte_swap32 v)) 0 32.
Fixpoint write_raw (dest : list N) (bit_offset : N) (vs : list N) {struct vs} : outcome (list N) :=
  match vs with
  | [] => Ok dest
  | v :: t => bindo (write_raw_component dest bit_offset v) (fun d => write_raw d (bit_offset + 32) t)
  end.

(** one quantized component of a scalar track, write_track_data_impl.h:168-177 *)
Definition write_component (dest : list N) (bit_offset num_bits v : N) : outcome (list N) :=
  bindo (scalar_be_bytes num_bits v) (fun l => memcpy_bits dest bit_offset l 0 num_bits).
Fixpoint write_components (dest : list N) (bit_offset num_bits : N) (vs : list N) {struct vs} : outcome (list N) :=
  match vs with
  | [] => Ok dest
  | v :: t => bindo (write_component dest bit_offset num_bits v)
                    (fun d => write_components d (bit_offset + num_bits) num_bits t)
  end.
