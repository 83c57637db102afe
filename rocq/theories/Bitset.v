(** Model of includes/acl/core/bitset.h (model only, no proofs).
    A bit set is the list of its 32-bit words; the description is its length. *)
From Verif Require Import Word BitManip.
Open Scope N_scope.

(** bitset_description::make_from_num_bits(uint32_t).get_size(), bitset.h:63-67 *)
Definition bitset_size_from_num_bits (num_bits : N) : N := addw 32 num_bits 31 / 32.

(** bitset_description::get_num_bits, bitset.h:76 *)
Definition bitset_num_bits (size : N) : N := mulw 32 size 32.

(** bitset_index_ref, bitset.h:109-115: word offset and mask *)
Definition bitset_ref_offset (bit_index : N) : N := bit_index / 32.
Definition bitset_ref_mask (bit_index : N) : N := shlw 32 1 (31 - bit_index mod 32).

(** bitset_reset, bitset.h:124-131 *)
Definition bitset_reset (size : N) (value : bool) : list N :=
  repeat (if value then 0xFFFFFFFF else 0) (N.to_nat size).

(** bitset_set, bitset.h:135-147 (and :151-157 through an index reference).
    An index outside of the words is an out of bounds access. *)
Definition bitset_set (bitset : list N) (bit_index : N) (value : bool) : outcome (list N) :=
  let offset := bitset_ref_offset bit_index in
  let mask := bitset_ref_mask bit_index in
  match nth_error bitset (N.to_nat offset) with
  | None => UB
  | Some w => Ok (upd bitset (N.to_nat offset) (if value then N.lor w mask else N.land w (notw 32 mask)))
  end.

(** bitset_set_range, bitset.h:161-169 *)
Fixpoint bitset_set_range_loop (n : nat) (bitset : list N) (offset : N) (value : bool) : outcome (list N) :=
  match n with
  | O => Ok bitset
  | S n' => bindo (bitset_set bitset offset value) (fun b => bitset_set_range_loop n' b (offset + 1) value)
  end.
Definition bitset_set_range (bitset : list N) (start_bit_index num_bits : N) (value : bool) : outcome (list N) :=
  bitset_set_range_loop (N.to_nat num_bits) bitset start_bit_index value.

(** bitset_test, bitset.h:173-182 (and :186-189) *)
Definition bitset_test (bitset : list N) (bit_index : N) : outcome bool :=
  match nth_error bitset (N.to_nat (bitset_ref_offset bit_index)) with
  | None => UB
  | Some w => Ok (negb (N.land w (bitset_ref_mask bit_index) =? 0))
  end.

(** bitset_count_set_bits, bitset.h:193-204 *)
Definition bitset_count_set_bits (bitset : list N) : N :=
  fold_left (fun acc w => addw 32 acc (count_set_bits32 w)) bitset 0.

(** bitset_and_not, bitset.h:210-216: result[i] = ~not_value[i] & and_value[i]; the result may alias
    either operand because word i is read before it is written. *)
Fixpoint bitset_and_not (not_value and_value : list N) : list N :=
  match not_value, and_value with
  | a :: ta, b :: tb => and_not a b :: bitset_and_not ta tb
  | _, _ => []
  end.
