(** Model of the packed fields of includes/acl/core/impl/compressed_headers.h and of
    includes/acl/core/impl/variable_bit_rates.h (model only).
    The C++ masks are [~(1 << n)] computed on [int] and converted to uint32_t; with two's complement
    that is the 32-bit complement ([1 << 31] on int is what every supported compiler makes of it). *)
From Verif Require Import Word.
Open Scope N_scope.

Definition mask_out (misc mask : N) : N := N.land misc (notw 32 mask).

(** compressed_headers.h:106-107 *)
Definition get_has_scale (misc : N) : N := N.land misc 1.
Definition set_has_scale (misc v : N) : N := N.lor (mask_out misc 1) v.
(** compressed_headers.h:108-109 *)
Definition get_default_scale (misc : N) : N := N.land (N.shiftr misc 1) 1.
Definition set_default_scale (misc v : N) : N := N.lor (mask_out misc (shlw 32 1 1)) (shlw 32 v 1).
(** compressed_headers.h:110-111 *)
Definition get_scale_format (misc : N) : N := N.land (N.shiftr misc 2) 1.
Definition set_scale_format (misc v : N) : N := N.lor (mask_out misc (shlw 32 1 2)) (shlw 32 v 2).
(** compressed_headers.h:112-113 *)
Definition get_translation_format (misc : N) : N := N.land (N.shiftr misc 3) 1.
Definition set_translation_format (misc v : N) : N := N.lor (mask_out misc (shlw 32 1 3)) (shlw 32 v 3).
(** compressed_headers.h:114-115 *)
Definition get_rotation_format (misc : N) : N := N.land (N.shiftr misc 4) 15.
Definition set_rotation_format (misc v : N) : N := N.lor (mask_out misc (shlw 32 15 4)) (shlw 32 v 4).
(** compressed_headers.h:116-117.  bool results are 0/1. *)
Definition b2n (b : bool) : N := if b then 1 else 0.
Definition get_has_database (misc : N) : N := b2n (negb (N.land misc (shlw 32 1 8) =? 0)).
Definition set_has_database (misc v : N) : N := N.lor (mask_out misc (shlw 32 1 8)) (shlw 32 v 8).
(** compressed_headers.h:118-119 *)
Definition get_has_trivial_default_values (misc : N) : N := b2n (negb (N.land misc (shlw 32 1 9) =? 0)).
Definition set_has_trivial_default_values (misc v : N) : N := N.lor (mask_out misc (shlw 32 1 9)) (shlw 32 v 9).
(** compressed_headers.h:120-121 *)
Definition get_has_stripped_keyframes (misc : N) : N := b2n (negb (N.land misc (shlw 32 1 10) =? 0)).
Definition set_has_stripped_keyframes (misc v : N) : N := N.lor (mask_out misc (shlw 32 1 10)) (shlw 32 v 10).
(** compressed_headers.h:124-125 *)
Definition get_is_wrap_optimized (misc : N) : N := b2n (negb (N.land misc (shlw 32 1 30) =? 0)).
Definition set_is_wrap_optimized (misc v : N) : N := N.lor (mask_out misc (shlw 32 1 30)) (shlw 32 v 30).
(** compressed_headers.h:126-127 *)
Definition get_has_metadata (misc : N) : N := b2n (negb (N.shiftr misc 31 =? 0)).
Definition set_has_metadata (misc v : N) : N := N.lor (mask_out misc (shlw 32 1 31)) (shlw 32 v 31).

(** database_header::misc_packed (16 bits), compressed_headers.h:573-574 *)
Definition get_is_bulk_data_inline (misc : N) : N := b2n (negb (N.land misc 1 =? 0)).
Definition set_is_bulk_data_inline (misc v : N) : N := wrapw 16 (N.lor (N.land misc (notw 32 1)) v).

(** The fields as an enumeration, so that histories of writes can be quantified over. *)
Inductive hfield : Type :=
| HasScale | DefaultScale | ScaleFormat | TranslationFormat | RotationFormat | HasDatabase
| HasTrivialDefaults | HasStrippedKeyframes | IsWrapOptimized | HasMetadata.

Definition hget (f : hfield) : N -> N :=
  match f with
  | HasScale => get_has_scale | DefaultScale => get_default_scale | ScaleFormat => get_scale_format
  | TranslationFormat => get_translation_format | RotationFormat => get_rotation_format
  | HasDatabase => get_has_database | HasTrivialDefaults => get_has_trivial_default_values
  | HasStrippedKeyframes => get_has_stripped_keyframes | IsWrapOptimized => get_is_wrap_optimized
  | HasMetadata => get_has_metadata
  end.
Definition hset (f : hfield) : N -> N -> N :=
  match f with
  | HasScale => set_has_scale | DefaultScale => set_default_scale | ScaleFormat => set_scale_format
  | TranslationFormat => set_translation_format | RotationFormat => set_rotation_format
  | HasDatabase => set_has_database | HasTrivialDefaults => set_has_trivial_default_values
  | HasStrippedKeyframes => set_has_stripped_keyframes | IsWrapOptimized => set_is_wrap_optimized
  | HasMetadata => set_has_metadata
  end.

(** number of values the type of a field has: bool, default scale 0/1, vector_format8 (2 values,
    core/track_formats.h), rotation_format8 stored on 4 bits *)
Definition hcard (f : hfield) : N := match f with RotationFormat => 16 | _ => 2 end.

(** k_bit_rate_num_bits, variable_bit_rates.h:46 (ACL 2.1+) *)
Definition k_bit_rate_num_bits : list N :=
  [0; 1; 2; 3; 4; 5; 6; 7; 8; 9; 10; 11; 12; 13; 14; 15; 16; 17; 18; 19; 20; 21; 22; 23; 32].
(** k_bit_rate_num_bits_v0, variable_bit_rates.h:43 (ACL 2.0 and earlier) *)
Definition k_bit_rate_num_bits_v0 : list N :=
  [0; 3; 4; 5; 6; 7; 8; 9; 10; 11; 12; 13; 14; 15; 16; 17; 18; 19; 32].
Definition k_lowest_bit_rate : N := 1.
Definition k_highest_bit_rate : N := 24.
Definition k_num_bit_rates : N := 25.
(** get_num_bits_at_bit_rate, variable_bit_rates.h:56-60: reading past the table is UB *)
Definition get_num_bits_at_bit_rate (bit_rate : N) : outcome N :=
  match nth_error k_bit_rate_num_bits (N.to_nat bit_rate) with Some n => Ok n | None => UB end.
(** variable_bit_rates.h:63-64 *)
Definition is_constant_bit_rate (bit_rate : N) : bool := bit_rate =? 0.
Definition is_raw_bit_rate (bit_rate : N) : bool := bit_rate =? k_highest_bit_rate.
