(** Model of normalized scalar quantization: includes/acl/math/scalar_packing.h. *)
From Coq Require Import NArith.
From Verif Require Import Word Float32.
Local Open Scope N_scope.

(** (1U << num_bits) - 1 : num_bits < 31 (asserted at :44, :52), uint32_t arithmetic *)
Definition max_value (num_bits : N) : N := wrapw 32 (2 ^ num_bits) - 1.

(** scalar_packing.h:42-48 *)
Definition pack_scalar_unsigned (input : f32) (num_bits : N) : outcome N :=
  f_to_u32 (fround_symmetric (fmul input (f_of_N (max_value num_bits)))).

(** scalar_packing.h:50-58 *)
Definition inv_max_value (num_bits : N) : f32 := fdiv f_one (f_of_N (max_value num_bits)).
Definition unpack_scalar_unsigned (input : N) (num_bits : N) : f32 :=
  fmul (f_of_N input) (inv_max_value num_bits).

(** scalar_packing.h:60-63 *)
Definition pack_scalar_signed (input : f32) (num_bits : N) : outcome N :=
  pack_scalar_unsigned (fadd (fmul input f_half) f_half) num_bits.

(** scalar_packing.h:65-68 *)
Definition unpack_scalar_signed (input : N) (num_bits : N) : f32 :=
  fsub (fmul (unpack_scalar_unsigned input num_bits) (f_of_N 2)) f_one.
