(** binary32 arithmetic (model only): Flocq's IEEE-754 formats, round to nearest even.
    This is what C++ [float] is on every target ACL supports (no flush to zero, no excess precision).
    The rtm:: scalar functions are not in the sandbox; they are modelled from their documented meaning. *)
From Coq Require Import ZArith NArith Bool.
From Flocq Require Import IEEE754.Binary IEEE754.Bits IEEE754.BinarySingleNaN.
From Verif Require Import Word.

Definition f32 := binary32.

Definition fadd (x y : f32) : f32 := b32_plus mode_NE x y.
Definition fsub (x y : f32) : f32 := b32_minus mode_NE x y.
Definition fmul (x y : f32) : f32 := b32_mult mode_NE x y.
Definition fdiv (x y : f32) : f32 := b32_div mode_NE x y.

(** C++ comparison operators: false when an operand is NaN *)
Definition flt (x y : f32) : bool := match b32_compare x y with Some Lt => true | _ => false end.
Definition fle (x y : f32) : bool := match b32_compare x y with Some Lt | Some Eq => true | _ => false end.
Definition fgt (x y : f32) : bool := flt y x.
Definition fge (x y : f32) : bool := fle y x.
Definition feq (x y : f32) : bool := match b32_compare x y with Some Eq => true | _ => false end.

Definition ffinite (x : f32) : bool := Binary.is_finite 24 128 x.
Definition fnan (x : f32) : bool := Binary.is_nan 24 128 x.

(** float(int): round to nearest even of an integer *)
Definition f_of_Z (z : Z) : f32 :=
  Binary.binary_normalize 24 128 (refl_equal Lt) (refl_equal Lt) mode_NE z 0 false.
Definition f_of_N (n : N) : f32 := f_of_Z (Z.of_N n).

(** static_cast<uint32_t>(float): truncation; undefined when the truncated value is not representable *)
Definition f_to_u32 (x : f32) : outcome N :=
  if ffinite x then
    let z := Binary.Btrunc 24 128 x in
    if ((0 <=? z) && (z <? 2 ^ 32))%Z then Ok (Z.to_N z) else UB
  else UB.

Definition f_zero : f32 := f_of_Z 0.
Definition f_one : f32 := f_of_Z 1.
Definition f_half : f32 := b32_of_bits 0x3F000000.
Definition f_inf : f32 := b32_of_bits 0x7F800000.

(** rtm::scalar_floor, scalar_ceil *)
Definition ffloor (x : f32) : f32 := Binary.Bnearbyint 24 128 (refl_equal Lt) unop_nan_pl32 mode_DN x.
Definition fceil (x : f32) : f32 := Binary.Bnearbyint 24 128 (refl_equal Lt) unop_nan_pl32 mode_UP x.
(** rtm::scalar_round_symmetric: half way cases away from zero *)
Definition fround_symmetric (x : f32) : f32 :=
  if fge x f_zero then ffloor (fadd x f_half) else fceil (fsub x f_half).
(** rtm::scalar_abs, scalar_min, scalar_max (the SSE conventions: second operand when unordered) *)
Definition fabs (x : f32) : f32 := b32_abs x.
Definition fmin (x y : f32) : f32 := if flt x y then x else y.
Definition fmax (x y : f32) : f32 := if fgt x y then x else y.
(** rtm::scalar_clamp(x, lo, hi) = min(max(x, lo), hi) *)
Definition fclamp (x lo hi : f32) : f32 := fmin (fmax x lo) hi.
(** rtm::scalar_lerp(a, b, t) = (a - a*t) + b*t; rtm::vector_mul_add(a, b, c) = a*b + c, without FMA *)
Definition flerp (a b t : f32) : f32 := fadd (fsub a (fmul a t)) (fmul b t).
Definition fmul_add (a b c : f32) : f32 := fadd (fmul a b) c.

(** object representation *)
Definition f_bits (x : f32) : N := Z.to_N (bits_of_b32 x).
Definition f_of_bits (n : N) : f32 := b32_of_bits (Z.of_N n).
