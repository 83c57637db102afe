(** Model of includes/acl/core/bit_manip_utils.h: the portable branches (the intrinsics of the other
    branches are documented to compute the same function).  Model only, no proofs. *)
From Verif Require Import Word.
Open Scope N_scope.

(** count_set_bits(uint64_t), bit_manip_utils.h:86-97 *)
Definition count_set_bits64 (value : N) : N :=
  let value := subw 64 value (N.land (N.shiftr value 1) 0x5555555555555555) in
  let value := addw 64 (N.land value 0x3333333333333333) (N.land (N.shiftr value 2) 0x3333333333333333) in
  N.shiftr (mulw 64 (N.land (addw 64 value (N.shiftr value 4)) 0x0F0F0F0F0F0F0F0F) 0x0101010101010101) 56.

(** count_set_bits(uint32_t), bit_manip_utils.h:101-112 *)
Definition count_set_bits32 (value : N) : N :=
  let value := subw 32 value (N.land (N.shiftr value 1) 0x55555555) in
  let value := addw 32 (N.land value 0x33333333) (N.land (N.shiftr value 2) 0x33333333) in
  N.shiftr (mulw 32 (N.land (addw 32 value (N.shiftr value 4)) 0x0F0F0F0F) 0x01010101) 24.

(** count_set_bits(uint16_t), bit_manip_utils.h:116-125 *)
Definition count_set_bits16 (value : N) : N := wrapw 16 (count_set_bits32 value).
(** count_set_bits(uint8_t), bit_manip_utils.h:129-138 *)
Definition count_set_bits8 (value : N) : N := wrapw 8 (count_set_bits32 value).

(** count_leading_zeros, bit_manip_utils.h:142-159 (portable branch :152-157) *)
Definition count_leading_zeros (value : N) : N :=
  let value := N.lor value (N.shiftr value 1) in
  let value := N.lor value (N.shiftr value 2) in
  let value := N.lor value (N.shiftr value 4) in
  let value := N.lor value (N.shiftr value 8) in
  let value := N.lor value (N.shiftr value 16) in
  count_set_bits32 (notw 32 value).

(** count_trailing_zeros, bit_manip_utils.h:163-175 (portable branch :173) *)
Definition count_trailing_zeros (value : N) : N :=
  if negb (value =? 0) then subw 32 31 (count_leading_zeros (N.land value (subw 32 0 value))) else 32.

(** rotate_bits_left, bit_manip_utils.h:179-186; the assertion 0 <= num_bits < 32 is a precondition *)
Definition rotate_bits_left (value num_bits : N) : N :=
  let num_bits := N.land num_bits 31 in
  N.lor (shlw 32 value num_bits) (N.shiftr value (N.land (subw 32 0 num_bits) 31)).

(** and_not, bit_manip_utils.h:190-202 *)
Definition and_not (not_value and_value : N) : N := N.land (notw 32 not_value) and_value.
