(** Specification vocabulary for bit streams: what "[v] is stored on [n] bits at bit offset [p]" means.
    Big-endian: the most significant bit of the field comes first. *)
From Verif Require Import Word.
Open Scope N_scope.

Definition field_at (m : list N) (p n v : N) : Prop :=
  forall j, j < n -> mbit m (p + j) = N.testbit v (n - 1 - j).

(** consecutive fields of the same width *)
Fixpoint fields_at (m : list N) (p n : N) (vs : list N) : Prop :=
  match vs with [] => True | v :: t => field_at m p n v /\ fields_at m (p + n) n t end.
