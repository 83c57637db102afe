(** Machine words and memory.  Model only, no proofs.

    Conventions shared by the whole model:
    - unsigned machine integers are [N]; every operation that can wrap in C++ has the wrap
      written explicitly ([addw], [subw], [mulw], [shlw], [notw] with the width in bits);
    - a block of memory is a [list N] of bytes (each < 256), addressed by byte offset;
    - undefined behaviour (out of bounds access, over-wide shift) is the distinct outcome [UB];
    - a loop with data dependent exit is fuelled and [NoFuel] is distinct from a result. *)
From Coq Require Export NArith ZArith List Bool.
Export ListNotations.
Open Scope N_scope.

Inductive outcome (A : Type) : Type :=
| Ok (a : A)
| UB            (* the C++ program has undefined behaviour here *)
| NoFuel.       (* the model's loop bound was exhausted: never a normal result *)
Arguments Ok {A} a.
Arguments UB {A}.
Arguments NoFuel {A}.

Definition bindo {A B} (x : outcome A) (f : A -> outcome B) : outcome B :=
  match x with Ok a => f a | UB => UB | NoFuel => NoFuel end.

(** Fixed width unsigned arithmetic (C++ [uintN_t]). *)
Definition wrapw (w x : N) : N := x mod 2 ^ w.
Definition addw (w a b : N) : N := (a + b) mod 2 ^ w.
Definition subw (w a b : N) : N := (a + (2 ^ w - b)) mod 2 ^ w.     (* for b < 2^w *)
Definition mulw (w a b : N) : N := (a * b) mod 2 ^ w.
Definition shlw (w a n : N) : N := N.shiftl a n mod 2 ^ w.
Definition shrw (a n : N) : N := N.shiftr a n.
Definition notw (w a : N) : N := N.lxor a (2 ^ w - 1).

(** Byte memory. *)
Definition bytes_ok (m : list N) : Prop := Forall (fun b => b < 256) m.
Definition blen (m : list N) : N := N.of_nat (length m).

Definition load8 (m : list N) (off : N) : outcome N :=
  match nth_error m (N.to_nat off) with Some b => Ok b | None => UB end.

Fixpoint upd {A} (l : list A) (n : nat) (x : A) : list A :=
  match l, n with
  | [], _ => []
  | _ :: t, O => x :: t
  | h :: t, S n' => h :: upd t n' x
  end.

Definition store8 (m : list N) (off b : N) : outcome (list N) :=
  if off <? blen m then Ok (upd m (N.to_nat off) b) else UB.

(** The bit view of memory used by ACL: "We copy bits assuming big-endian ordering",
    core/memory_utils.h:294.  Bit [i] is bit [7 - i mod 8] of byte [i / 8]. *)
Definition mbit (m : list N) (i : N) : bool :=
  N.testbit (nth (N.to_nat (i / 8)) m 0) (7 - i mod 8).

(** Little-endian multi-byte integers (x86/ARM hosts; core/memory_utils.h:338-343
    [unaligned_load] and :351-355 [unaligned_write] are memcpy of the object representation). *)
Fixpoint le_bytes (n : nat) (v : N) : list N :=
  match n with O => [] | S n' => (v mod 256) :: le_bytes n' (v / 256) end.

Fixpoint of_le_bytes (l : list N) : N :=
  match l with [] => 0 | b :: t => b + 256 * of_le_bytes t end.

Definition load_bytes (m : list N) (off : N) (n : nat) : outcome (list N) :=
  if off + N.of_nat n <=? blen m then Ok (firstn n (skipn (N.to_nat off) m)) else UB.

(** unaligned_load<uint32_t/uint64_t>, core/memory_utils.h:337-343 *)
Definition load_le (m : list N) (off : N) (n : nat) : outcome N :=
  bindo (load_bytes m off n) (fun l => Ok (of_le_bytes l)).

(** std::memcpy of a whole byte string into a buffer at a byte offset *)
Definition store_bytes (m : list N) (off : N) (l : list N) : outcome (list N) :=
  if off + blen l <=? blen m
  then Ok (firstn (N.to_nat off) m ++ l ++ skipn (N.to_nat off + length l) m)
  else UB.
