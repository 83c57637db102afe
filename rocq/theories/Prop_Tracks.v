(** Properties C19 (track validation, output mapping) and C20 (hierarchy). *)
From Coq Require Import Reals Lia Permutation Sorting.Sorted.
From Verif Require Import Word Float32 Float32Facts Bitset BitsetFacts TrackArray TrackSpec TrackArrayFacts Hierarchy HierarchyFacts.
Local Open Scope N_scope.
Ltac Zify.zify_post_hook ::= idtac.

(** * C19.  [outputs ts] lists the output indices of the tracks that are not stripped. *)
Theorem C19_validation_is_exact : forall ts, N.of_nat (length ts) <= k_invalid_track_index ->
  track_array_is_valid ts = true <->
  (forall t0, hd_error ts = Some t0 ->
    Forall (fun t => track_type t = track_type t0 /\ num_samples t = num_samples t0 /\ feq (sample_rate t) (sample_rate t0) = true /\
                     track_ok t /\
                     (transform t = true -> parent_index t = k_invalid_track_index \/ parent_index t < N.of_nat (length ts))) ts) /\
  Permutation (outputs ts) (map N.of_nat (seq 0 (length (outputs ts)))).
Proof. exact track_array_is_valid_spec. Qed.
Print Assumptions C19_validation_is_exact.

(** entry o of the mapping is the index of the track whose output index is o; every entry is written *)
Theorem C19_output_mapping_is_a_bijection : forall ts, N.of_nat (length ts) <= k_invalid_track_index ->
  track_array_is_valid ts = true ->
  exists m, create_output_track_mapping ts = Ok (map Some m) /\ length m = length (outputs ts) /\
    (forall i t, nth_error ts i = Some t -> output_index t <> k_invalid_track_index ->
      nth_error m (N.to_nat (output_index t)) = Some (N.of_nat i)) /\
    (forall o i, nth_error m o = Some i -> exists t, nth_error ts (N.to_nat i) = Some t /\ output_index t = N.of_nat o).
Proof.
  intros ts Hn Hv. apply track_array_is_valid_spec in Hv; auto. destruct Hv as [_ P].
  destruct (create_mapping_spec ts Hn P) as (m & A & B & C). exists m. split; auto. split; auto. split; auto.
  intros o i Ho. assert (Hl : (o < length (outputs ts))%nat) by (rewrite <- B; apply nth_error_Some; congruence).
  assert (Hin : In (N.of_nat o) (outputs ts)) by (apply (Permutation_in _ (Permutation_sym P)); apply in_map, in_seq; lia).
  pose proof (outputs_length ts). apply in_outputs in Hin; [| lia]. destruct Hin as (t & T1 & T2).
  apply In_nth_error in T1. destruct T1 as (j & T1).
  assert (E : nth_error m (N.to_nat (output_index t)) = Some (N.of_nat j)) by (apply C; auto; rewrite T2; lia).
  rewrite T2, Nnat.Nat2N.id, Ho in E. injection E as ->. exists t. rewrite Nnat.Nat2N.id. auto.
Qed.
Print Assumptions C19_output_mapping_is_a_bijection.

Definition demo_track (out parent : N) : track :=
  {| has_data := true; track_type := 12; num_samples := 30; sample_rate := f_of_N 30; transform := true; precision := f_zero;
     shell_distance := f_one; default_finite := true; default_normalized := true; output_index := out; parent_index := parent |}.
Definition demo_tracks := [demo_track 2 0xFFFFFFFF; demo_track 0xFFFFFFFF 0; demo_track 0 1; demo_track 1 0].
Example C19_sat : track_array_is_valid demo_tracks = true /\ create_output_track_mapping demo_tracks = Ok [Some 2; Some 3; Some 0] /\
  track_array_is_valid [demo_track 0 0xFFFFFFFF; demo_track 0 0] = false /\
  track_array_is_valid [demo_track 1 0xFFFFFFFF; demo_track 0xFFFFFFFF 0] = false /\
  track_array_is_valid [demo_track 0 2; demo_track 1 0xFFFFFFFF] = false.
Proof. vm_compute. auto. Qed.

(** * C20.  Whenever following the parents always reaches a root, the chains are built within as many steps per leaf as
    there are transforms: one chain per leaf holding exactly its ancestors, and every transform is given the chain of a
    leaf below it. *)
Theorem C20_chains_of_acyclic_hierarchies : forall ps,
  N.of_nat (length ps) <= 2 ^ 32 - 1 - 31 -> parents_in_range ps -> (forall b, b < N.of_nat (length ps) -> rooted ps b) ->
  exists leaves cs assigned, hierarchy (length ps) ps = Ok (cs, assigned) /\
    StronglySorted N.lt leaves /\ (forall b, In b leaves <-> is_leaf ps b) /\
    length cs = length leaves /\ length assigned = length ps /\
    (forall k leaf, nth_error leaves k = Some leaf ->
       exists c, nth_error cs k = Some c /\ forall j, j < N.of_nat (length ps) -> (bitset_test c j = Ok true <-> ancestor ps j leaf)) /\
    (forall b, b < N.of_nat (length ps) -> exists k leaf, nth_error assigned (N.to_nat b) = Some (Some (N.of_nat k)) /\
       nth_error leaves k = Some leaf /\ ancestor ps b leaf).
Proof.
  intros ps Hn Hp Hr. destruct (hierarchy_spec ps Hn Hp Hr) as (cs & ch & A & B & C & D & E).
  exists (leaf_list ps 0 (length ps)), cs, ch. split; auto. split; [apply leaf_list_sorted |]. split; [intros; apply leaf_list_In |]. auto.
Qed.
Print Assumptions C20_chains_of_acyclic_hierarchies.

(** When every parent precedes its children: the chain given to a transform, read from the root, is its ancestors and
    itself in root to transform order. *)
Theorem C20_bone_chain_is_the_root_path : forall ps, N.of_nat (length ps) <= 2 ^ 32 - 1 - 31 -> parents_come_first ps ->
  exists cs assigned, hierarchy (length ps) ps = Ok (cs, assigned) /\
  forall b, b < N.of_nat (length ps) -> exists k c l,
    nth_error assigned (N.to_nat b) = Some (Some k) /\ nth_error cs (N.to_nat k) = Some c /\
    bone_chain_indices c b = Ok l /\ StronglySorted N.lt l /\ forall a, In a l <-> ancestor ps a b.
Proof. exact chain_is_root_path. Qed.
Print Assumptions C20_bone_chain_is_the_root_path.

(** the processing order is a permutation that lists every parent before its children, when parents precede children *)
Theorem C20_processing_order_is_parent_first : forall ps, N.of_nat (length ps) <= 2 ^ 32 - 1 - 31 -> parents_come_first ps ->
  Permutation (sort_transforms_parent_first ps) (map N.of_nat (seq 0 (length ps))) /\
  forall b p, nth_error ps (N.to_nat b) = Some p -> p <> k_invalid_track_index -> before (sort_transforms_parent_first ps) p b.
Proof.
  intros ps Hn H. split; [apply sort_perm |]. intros b p E Hp.
  assert (F : Forall (fun p => p < 2 ^ 32) ps).
  { apply Forall_forall. intros x Hx. pose proof (pcf_range ps H) as R. unfold parents_in_range in R. rewrite Forall_forall in R.
    destruct (R x Hx) as [-> | L]; [reflexivity |]. change (2 ^ 32) with 4294967296 in *. lia. }
  destruct (H b p E) as [? | L]; [contradiction |].
  assert (N.to_nat b < length ps)%nat by (apply nth_error_Some; congruence).
  apply parent_first; auto; [apply pcf_range; auto | | lia].
  destruct (nth_error ps (N.to_nat p)) as [g |] eqn:G.
  - destruct (H p g G) as [-> | Lg]; [now left | right; eauto].
  - apply nth_error_None in G. lia.
Qed.
Print Assumptions C20_processing_order_is_parent_first.

Example C20_sat : let ps := [0xFFFFFFFF; 0; 1; 0; 3] in
  hierarchy 5 ps = Ok ([[0xE0000000]; [0x98000000]], [Some 0; Some 0; Some 0; Some 1; Some 1]) /\
  bone_chain_indices [0x98000000] 4 = Ok [0; 3; 4] /\ sort_transforms_parent_first ps = [0; 1; 3; 2; 4] /\
  parents_come_first ps.
Proof.
  cbv zeta. split; [vm_compute; reflexivity |]. split; [vm_compute; reflexivity |]. split; [vm_compute; reflexivity |].
  intros b p H. destruct (N.to_nat b) as [| [| [| [| [| m]]]]] eqn:B; simpl in H; try injection H as <-; auto; try (right; lia).
  destruct m; discriminate.
Qed.

(** The validation does not enforce either requirement.  A leaf hanging on a cycle is accepted, and then building its
    chain never ends (no bound on the steps is ever enough): transform 0 has parent 1, 1 has parent 0, 2 has parent 0. *)
Lemma cycle_walk fuel : walk_chain fuel [1; 0; 0] 0 2 [0] [None; None; None] = NoFuel.
Proof.
  apply (walk_chain_cycle [1; 0; 0] 0 1); [| vm_compute; reflexivity | vm_compute; discriminate | vm_compute; discriminate | | vm_compute; reflexivity].
  - assert (G : forall x b, ancestor [1; 0; 0] x b -> x < 3 \/ b = k_invalid_track_index).
    { induction 1 as [b Hb | a b p H Hp A IH]; [left; exact Hb |]. destruct IH as [IH | IH]; [auto | contradiction]. }
    intros x Hx. destruct (G _ _ Hx) as [L | L]; [| discriminate L].
    assert (C : x = 0 \/ x = 1 \/ x = 2) by lia.
    destruct C as [-> | [-> | ->]]; eexists; (split; [reflexivity |]); split; vm_compute; congruence.
  - repeat constructor.
Qed.
Theorem C20_cycles_are_accepted_refuted :
  let ts := [demo_track 0 1; demo_track 1 0; demo_track 2 0] in
  track_array_is_valid ts = true /\ forall fuel, hierarchy fuel (map parent_index ts) = NoFuel.
Proof.
  cbv zeta. split; [vm_compute; reflexivity |]. intros fuel.
  assert (E : hierarchy fuel [1; 0; 0] = bindo (walk_chain fuel [1; 0; 0] 0 2 [0] [None; None; None])
    (fun '(c, chains') => build_chains fuel [1; 0; 0] [0x20000000] 0 3 1 [c] chains')) by (vm_compute; reflexivity).
  exact (eq_trans E (f_equal (fun o => bindo o _) (cycle_walk fuel))).
Qed.
Print Assumptions C20_cycles_are_accepted_refuted.

(** A track that is its own parent is accepted too; it has no leaf below it and is left without a chain. *)
Theorem C20_self_parent_is_accepted_refuted :
  let ts := [demo_track 0 0] in track_array_is_valid ts = true /\ hierarchy 1 (map parent_index ts) = Ok ([], [None]).
Proof. vm_compute. auto. Qed.
Print Assumptions C20_self_parent_is_accepted_refuted.

(** A valid acyclic list whose parents come later: transform 0 has parent 1, 1 has parent 2, 2 is the root.  The order is
    2, 0, 1: transform 0 is processed before its parent 1, and the chain of 0 does not reach its root. *)
Theorem C20_parent_after_child_refuted :
  let ts := [demo_track 0 1; demo_track 1 2; demo_track 2 0xFFFFFFFF] in
  let ps := map parent_index ts in
  track_array_is_valid ts = true /\ (forall b, b < 3 -> rooted ps b) /\
  sort_transforms_parent_first ps = [2; 0; 1] /\
  hierarchy 3 ps = Ok ([[0xE0000000]], [Some 0; Some 0; Some 0]) /\ bone_chain_indices [0xE0000000] 0 = Ok [0].
Proof.
  cbv zeta. split; [vm_compute; reflexivity |]. split; [| vm_compute; auto].
  assert (R2 : rooted [1; 2; 0xFFFFFFFF] 2) by (apply rooted_root; reflexivity).
  assert (R1 : rooted [1; 2; 0xFFFFFFFF] 1) by (eapply rooted_up; [reflexivity | discriminate | exact R2]).
  intros b Hb. assert (C : b = 0 \/ b = 1 \/ b = 2) by lia. destruct C as [-> | [-> | ->]]; auto.
  eapply rooted_up; [reflexivity | discriminate | exact R1].
Qed.
Print Assumptions C20_parent_after_child_refuted.
