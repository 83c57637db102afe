(** Model of the hierarchy information of a clip: leaf transforms, leaf-to-root chains, parent first order.
    compression/impl/clip_context.impl.h, compression/impl/clip_context.h.  [parents] lists the parent index of every
    transform (k_invalid_track_index for a root). *)
From Verif Require Import Word BitManip Bitset TrackArray.
Local Open Scope N_scope.

Definition parent_of (parents : list N) (i : N) : outcome N :=
  match nth_error parents (N.to_nat i) with Some p => Ok p | None => UB end.

(** clip_context.impl.h:206-237: the bit set of leaf transforms *)
Fixpoint mark_parents (parents : list N) (leaves : list N) : outcome (list N) :=
  match parents with
  | [] => Ok leaves
  | p :: rest =>
      if negb (p =? k_invalid_track_index)
      then bindo (bitset_set leaves p false) (mark_parents rest)
      else mark_parents rest leaves
  end.
Definition leaf_bitset (parents : list N) : outcome (list N) :=
  let n := N.of_nat (length parents) in
  bindo (bitset_set_range (bitset_reset (bitset_size_from_num_bits n) false) 0 n true) (mark_parents parents).

(** clip_context.impl.h:262-274: walk from a leaf to its root; [chains] is metadata[].transform_chain as the index of
    the leaf's chain *)
Fixpoint walk_chain (fuel : nat) (parents : list N) (leaf_index chain_bone_index : N) (bone_chain : list N) (chains : list (option N))
  : outcome (list N * list (option N)) :=
  if chain_bone_index =? k_invalid_track_index then Ok (bone_chain, chains)
  else match fuel with
       | O => NoFuel
       | S f =>
           bindo (bitset_set bone_chain chain_bone_index true) (fun bone_chain' =>
           bindo (parent_of parents chain_bone_index) (fun p =>
           let chains' := match nth (N.to_nat chain_bone_index) chains None with
                          | None => upd chains (N.to_nat chain_bone_index) (Some leaf_index)
                          | Some _ => chains end in
           walk_chain f parents leaf_index p bone_chain' chains'))
       end.

(** clip_context.impl.h:250-279: the loop over the transforms *)
Fixpoint build_chains (fuel : nat) (parents leaves : list N) (num : nat) (transform_index leaf_index : N)
  (bone_chains : list (list N)) (chains : list (option N)) : outcome (list (list N) * list (option N)) :=
  match num with
  | O => Ok (bone_chains, chains)
  | S num' =>
      bindo (bitset_test leaves transform_index) (fun leaf =>
      if leaf then
        bindo (walk_chain fuel parents leaf_index transform_index
                 (bitset_reset (bitset_size_from_num_bits (N.of_nat (length parents))) false) chains) (fun '(c, chains') =>
        build_chains fuel parents leaves num' (transform_index + 1) (leaf_index + 1) (bone_chains ++ [c]) chains')
      else build_chains fuel parents leaves num' (transform_index + 1) leaf_index bone_chains chains)
  end.

(** clip_context.impl.h:202-283: the chains, in leaf order, and the chain each transform is assigned to.
    [fuel] bounds the length of one leaf-to-root walk. *)
Definition hierarchy (fuel : nat) (parents : list N) : outcome (list (list N) * list (option N)) :=
  bindo (leaf_bitset parents) (fun leaves =>
  build_chains fuel parents leaves (length parents) 0 0 [] (repeat None (length parents))).

(** clip_context.h:105-128 bone_chain and :55-97 its iterator: the bones from the root to [bone_index] found in the chain.
    [scan_root] is the search of the constructor, [scan] the iteration: the current bone is produced, then the offset
    moves to the next set bit, or stops at bone_index, which is produced last; end is bone_index + 1. *)
Fixpoint scan_root (fuel : nat) (chain : list N) (root_index : N) : outcome N :=
  match fuel with
  | O => NoFuel
  | S f => bindo (bitset_test chain root_index) (fun b => if b then Ok root_index else scan_root f chain (root_index + 1))
  end.
Fixpoint scan_next (fuel : nat) (chain : list N) (bone_index offset : N) : outcome N :=
  if offset <? bone_index then
    match fuel with
    | O => NoFuel
    | S f => bindo (bitset_test chain offset) (fun b => if b then Ok offset else scan_next f chain bone_index (offset + 1))
    end
  else Ok offset.
Fixpoint scan (fuel : nat) (chain : list N) (bone_index offset : N) : outcome (list N) :=
  if offset =? bone_index + 1 then Ok []
  else match fuel with
       | O => NoFuel
       | S f => bindo (scan_next (S f) chain bone_index (offset + 1)) (fun offset' =>
                bindo (scan f chain bone_index offset') (fun rest => Ok (offset :: rest)))
       end.
Definition bone_chain_indices (chain : list N) (bone_index : N) : outcome (list N) :=
  bindo (scan_root (S (N.to_nat bone_index)) chain 0) (fun root => scan (S (N.to_nat bone_index)) chain bone_index root).

(** clip_context.impl.h:62-77: the sort predicate; parent_index + 1 wraps the invalid index to 0 *)
Definition sort_predicate (parents : list N) (lhs rhs : N) : bool :=
  let lp := nth (N.to_nat lhs) parents k_invalid_track_index in
  let rp := nth (N.to_nat rhs) parents k_invalid_track_index in
  if negb (lp =? rp) then addw 32 lp 1 <? addw 32 rp 1 else lhs <? rhs.
(** std::sort with that predicate: it is a strict total order on distinct transforms, so that every sorting algorithm
    produces the result of this insertion sort *)
Fixpoint sort_insert (parents : list N) (x : N) (l : list N) : list N :=
  match l with
  | [] => [x]
  | y :: t => if sort_predicate parents x y then x :: y :: t else y :: sort_insert parents x t
  end.
Definition sort_transforms_parent_first (parents : list N) : list N :=
  fold_right (sort_insert parents) [] (map N.of_nat (seq 0 (length parents))).
