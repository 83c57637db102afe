(** Specification vocabulary for bits, independent of the model: how many bits are set, where the
    extreme set bits are. *)
From Coq Require Import NArith List.
Import ListNotations.
Open Scope N_scope.

(** number of indices below [w] whose bit is set in [v] *)
Definition num_set_bits (w : nat) (v : N) : N :=
  N.of_nat (length (filter (fun i => N.testbit v (N.of_nat i)) (seq 0 w))).

(** [i] is the most significant set bit of [v] *)
Definition is_msb (v i : N) : Prop := N.testbit v i = true /\ forall j, i < j -> N.testbit v j = false.
(** [i] is the least significant set bit of [v] *)
Definition is_lsb (v i : N) : Prop := N.testbit v i = true /\ forall j, j < i -> N.testbit v j = false.
