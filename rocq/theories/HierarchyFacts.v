(** Proofs about Hierarchy.v *)
From Coq Require Import Lia Permutation Sorting.Sorted.
From Verif Require Import Word Bitset BitsetFacts TrackArray TrackSpec Hierarchy.
Local Open Scope N_scope.
Ltac Zify.zify_post_hook ::= idtac.

Definition num_ok (parents : list N) : Prop := N.of_nat (length parents) <= 2 ^ 32 - 1 - 31.

(** the path from a transform to its root, as a list *)
Inductive path (parents : list N) : N -> list N -> Prop :=
| path_root b : nth_error parents (N.to_nat b) = Some k_invalid_track_index -> path parents b [b]
| path_up b p l : nth_error parents (N.to_nat b) = Some p -> p <> k_invalid_track_index -> path parents p l -> path parents b (b :: l).

Lemma rooted_path ps b : rooted ps b -> exists l, path ps b l.
Proof.
  induction 1 as [b H | b p H Hp _ (l & IH)].
  - exists [b]. now constructor.
  - exists (b :: l). econstructor; eauto.
Qed.
Lemma path_hd ps b l : path ps b l -> exists l', l = b :: l'.
Proof. destruct 1; eauto. Qed.
Lemma path_det ps b l : path ps b l -> forall l', path ps b l' -> l = l'.
Proof.
  induction 1 as [b H | b p l H Hp P IH]; intros l' P'; inversion P'; subst; try congruence.
  rewrite H in H0. injection H0 as <-. f_equal. auto.
Qed.
Lemma path_lt ps b l : path ps b l -> Forall (fun x => x < N.of_nat (length ps)) l.
Proof.
  assert (A : forall b p, nth_error ps (N.to_nat b) = Some p -> b < N.of_nat (length ps)).
  { intros x p H. assert (N.to_nat x < length ps)%nat by (apply nth_error_Some; congruence). lia. }
  induction 1; repeat constructor; eauto.
Qed.
Lemma path_suffix ps b l : path ps b l -> forall l1 x l2, l = l1 ++ x :: l2 -> path ps x (x :: l2).
Proof.
  induction 1 as [b H | b p l H Hp P IH]; intros l1 x l2 E.
  - destruct l1 as [| a l1]; simpl in E; injection E as -> E.
    + destruct l2; [now constructor | discriminate].
    + destruct l1; discriminate.
  - destruct l1 as [| a l1]; simpl in E; injection E as -> E.
    + subst. econstructor; eauto.
    + eapply IH; eauto.
Qed.
Lemma path_NoDup ps b l : path ps b l -> NoDup l.
Proof.
  induction 1 as [b H | b p l H Hp P IH].
  - constructor; auto; constructor.
  - constructor; auto. intros Hin. apply in_split in Hin. destruct Hin as (l1 & l2 & ->).
    assert (P1 : path ps b (b :: l2)) by (eapply (path_suffix ps p _ P); reflexivity).
    assert (P2 : path ps b (b :: l1 ++ b :: l2)) by (econstructor; eauto).
    pose proof (path_det _ _ _ P1 _ P2) as E. apply (f_equal (@length N)) in E. simpl in E. rewrite app_length in E. simpl in E. lia.
Qed.
Lemma path_len ps b l : path ps b l -> (length l <= length ps)%nat.
Proof.
  intros P. pose proof (path_NoDup _ _ _ P) as ND. pose proof (path_lt _ _ _ P) as F. rewrite Forall_forall in F.
  rewrite <- (seq_length (length ps) 0), <- (map_length N.of_nat). apply NoDup_incl_length; auto.
  intros x Hx. apply F in Hx. rewrite <- (Nnat.N2Nat.id x). apply in_map. apply in_seq. lia.
Qed.
Lemma path_ancestor ps b l : path ps b l -> forall a, In a l <-> ancestor ps a b.
Proof.
  induction 1 as [b H | b p l H Hp P IH]; intros a.
  - assert (Hb : b < N.of_nat (length ps)). { assert (N.to_nat b < length ps)%nat by (apply nth_error_Some; congruence). lia. }
    split.
    + intros [<- | []]. now constructor.
    + intros A. inversion A; subst; [now left |]. congruence.
  - assert (Hb : b < N.of_nat (length ps)). { assert (N.to_nat b < length ps)%nat by (apply nth_error_Some; congruence). lia. }
    split.
    + intros [<- | Hin]; [now constructor |]. apply IH in Hin. econstructor; eauto.
    + intros A. inversion A; subst; [now left |]. right. apply IH. congruence.
Qed.

Lemma existsb_In x l : existsb (N.eqb x) l = true <-> In x l.
Proof.
  rewrite existsb_exists. split; [intros (y & A & B); apply N.eqb_eq in B; now subst | intros H; exists x; split; auto; apply N.eqb_refl].
Qed.

(** the leaf bit set *)
Lemma mark_parents_spec size : forall ps ls, words_ok ls -> blen ls = size ->
  Forall (fun p => p = k_invalid_track_index \/ p < 32 * size) ps ->
  exists ls', mark_parents ps ls = Ok ls' /\ words_ok ls' /\ blen ls' = size /\
    forall j, j <> k_invalid_track_index -> bmem ls' j = negb (existsb (N.eqb j) ps) && bmem ls j.
Proof.
  induction ps as [| p ps IH]; intros ls W L F; cbn [mark_parents].
  - exists ls. repeat split; auto.
  - apply Forall_cons_iff in F. destruct F as [Fp F]. destruct (N.eqb_spec p k_invalid_track_index) as [E | E]; cbn [negb].
    + destruct (IH ls W L F) as (ls' & A & B & C & D). exists ls'. repeat split; auto. intros j Hj. rewrite D by auto.
      cbn [existsb]. destruct (N.eqb_spec j p); [congruence | reflexivity].
    + destruct (bitset_set_spec ls p false W) as (l1 & A1 & W1 & L1 & M1); [lia |]. rewrite A1. cbn [bindo].
      destruct (IH l1 W1) as (ls' & A & B & C & D); auto; [unfold blen in *; now rewrite L1 |].
      exists ls'. repeat split; auto. intros j Hj. rewrite D, M1 by auto. cbn [existsb].
      destruct (N.eqb_spec j p); cbn [orb negb andb]; [apply andb_false_r | reflexivity].
Qed.

Lemma leaf_bitset_spec ps : num_ok ps -> parents_in_range ps ->
  exists ls, leaf_bitset ps = Ok ls /\ 32 * blen ls = 32 * bitset_size_from_num_bits (N.of_nat (length ps)) /\
    forall j, j < N.of_nat (length ps) -> bmem ls j = negb (existsb (N.eqb j) ps).
Proof.
  intros Hn Hp. unfold leaf_bitset. set (n := N.of_nat (length ps)) in *.
  destruct (bitset_size_spec n) as (S1 & S2 & _); [unfold num_ok in Hn; lia |]. set (size := bitset_size_from_num_bits n) in *.
  destruct (bitset_reset_spec size false) as (R1 & R2 & R3).
  assert (Lr : blen (bitset_reset size false) = size) by (unfold blen; rewrite R2; lia).
  destruct (bitset_set_range_spec (bitset_reset size false) 0 n true R1) as (l1 & A1 & W1 & L1 & M1); [rewrite Lr; lia |].
  rewrite A1. cbn [bindo].
  destruct (mark_parents_spec size ps l1 W1) as (ls & A & B & C & D).
  { unfold blen in *. now rewrite L1. }
  { eapply Forall_impl; [| exact Hp]. cbv beta. intros a [H | H]; [now left | right; lia]. }
  exists ls. split; auto. split; [now rewrite C |]. intros j Hj. rewrite D.
  - rewrite M1. destruct (N.ltb_spec j (0 + n)); [| lia]. destruct (N.leb_spec 0 j); [| lia]. cbn [andb]. apply andb_true_r.
  - intros ->. unfold num_ok, k_invalid_track_index in *. change (2 ^ 32) with 4294967296 in *. fold n in Hn. lia.
Qed.

(** walking one chain *)
Definition assign_chain (leaf : N) (l : list N) (chains : list (option N)) (j : nat) : option N :=
  match nth j chains None with Some k => Some k | None => if existsb (N.eqb (N.of_nat j)) l then Some leaf else None end.

Lemma upd_nth_opt (chains : list (option N)) i x j : (i < length chains)%nat ->
  nth j (upd chains i x) None = if Nat.eqb j i then x else nth j chains None.
Proof.
  revert i j. induction chains as [| c cs IH]; intros [| i] [| j] H; simpl in *; try lia; auto. apply IH. lia.
Qed.

Lemma walk_chain_spec ps size leaf : N.of_nat (length ps) <= 32 * size -> N.of_nat (length ps) <= k_invalid_track_index ->
  forall b l, path ps b l -> forall fuel chain chains,
  (length l <= fuel)%nat -> words_ok chain -> blen chain = size -> length chains = length ps ->
  exists chain' chains', walk_chain fuel ps leaf b chain chains = Ok (chain', chains') /\
    words_ok chain' /\ blen chain' = size /\ length chains' = length ps /\
    (forall j, bmem chain' j = bmem chain j || existsb (N.eqb j) l) /\
    (forall j, nth j chains' None = assign_chain leaf l chains j).
Proof.
  intros Hn Hinv.
  assert (Step : forall b chain chains, b < N.of_nat (length ps) -> words_ok chain -> blen chain = size -> length chains = length ps ->
    exists chain1, bitset_set chain b true = Ok chain1 /\ words_ok chain1 /\ blen chain1 = size /\
      (forall j, bmem chain1 j = bmem chain j || (j =? b)) /\
      let chains1 := match nth (N.to_nat b) chains None with None => upd chains (N.to_nat b) (Some leaf) | Some _ => chains end in
      length chains1 = length ps /\ forall j, nth j chains1 None = assign_chain leaf [b] chains j).
  { intros b chain chains Hb W L C. destruct (bitset_set_spec chain b true W) as (c1 & A & B & D & E); [lia |].
    exists c1. split; auto. split; auto. split; [unfold blen in *; now rewrite D |]. split.
    { intros j. rewrite E. destruct (N.eqb_spec j b); [now rewrite orb_true_r | now rewrite orb_false_r]. }
    cbv zeta. destruct (nth (N.to_nat b) chains None) as [k |] eqn:K.
    - split; auto. intros j. unfold assign_chain. destruct (nth j chains None) eqn:J; auto. cbn [existsb].
      destruct (N.eqb_spec (N.of_nat j) b) as [Q | Q]; auto. subst b. rewrite Nnat.Nat2N.id in K. congruence.
    - split; [now rewrite upd_length |]. intros j. rewrite upd_nth_opt by lia. unfold assign_chain. cbn [existsb].
      destruct (Nat.eqb_spec j (N.to_nat b)) as [Q | Q].
      + subst j. rewrite K. rewrite Nnat.N2Nat.id, N.eqb_refl. reflexivity.
      + destruct (N.eqb_spec (N.of_nat j) b); [lia |]. cbn [orb]. destruct (nth j chains None); reflexivity. }
  induction 1 as [b H | b p l H Hp P IH]; intros fuel chain chains Hf W L C.
  - assert (Hb : b < N.of_nat (length ps)). { assert (N.to_nat b < length ps)%nat by (apply nth_error_Some; congruence). lia. }
    destruct fuel as [| fuel]; [simpl in Hf; lia |]. cbn [walk_chain].
    destruct (N.eqb_spec b k_invalid_track_index); [unfold k_invalid_track_index in *; lia |].
    destruct (Step b chain chains Hb W L C) as (c1 & A1 & W1 & L1 & M1 & C1 & D1). rewrite A1. cbn [bindo].
    unfold parent_of. rewrite H. cbn [bindo]. 
    exists c1. eexists. split; [destruct fuel; cbn [walk_chain]; rewrite N.eqb_refl; reflexivity |].
    split; auto. split; auto. split; auto. split; auto. intros j. rewrite M1. cbn [existsb]. now rewrite orb_false_r.
  - assert (Hb : b < N.of_nat (length ps)). { assert (N.to_nat b < length ps)%nat by (apply nth_error_Some; congruence). lia. }
    destruct fuel as [| fuel]; [simpl in Hf; lia |]. cbn [walk_chain].
    destruct (N.eqb_spec b k_invalid_track_index); [unfold k_invalid_track_index in *; lia |].
    destruct (Step b chain chains Hb W L C) as (c1 & A1 & W1 & L1 & M1 & C1 & D1). rewrite A1. cbn [bindo].
    unfold parent_of. rewrite H. cbn [bindo].
    destruct (IH fuel c1 (match nth (N.to_nat b) chains None with None => upd chains (N.to_nat b) (Some leaf) | Some _ => chains end))
      as (c2 & ch2 & A2 & W2 & L2 & C2 & M2 & D2); auto; [simpl in Hf; lia |].
    exists c2, ch2. split; auto. split; auto. split; auto. split; auto. split.
    + intros j. rewrite M2, M1. cbn [existsb]. now rewrite orb_assoc.
    + intros j. rewrite D2. unfold assign_chain in *. rewrite D1. cbn [existsb].
      destruct (nth j chains None); auto. rewrite orb_false_r. destruct (N.of_nat j =? b); reflexivity.
Qed.

(** the leaves in increasing order *)
Definition leaf_list (ps : list N) (from len : nat) : list N :=
  filter (fun i => negb (existsb (N.eqb i) ps)) (map N.of_nat (seq from len)).

Lemma build_chains_spec ps ls fuel : num_ok ps -> (forall b, b < N.of_nat (length ps) -> rooted ps b) ->
  32 * blen ls = 32 * bitset_size_from_num_bits (N.of_nat (length ps)) ->
  (forall j, j < N.of_nat (length ps) -> bmem ls j = negb (existsb (N.eqb j) ps)) -> (length ps <= fuel)%nat ->
  forall num from leaf_index cs chains, (from + num)%nat = length ps -> length chains = length ps ->
  exists cs' chains', build_chains fuel ps ls num (N.of_nat from) leaf_index cs chains = Ok (cs ++ cs', chains') /\
    length chains' = length ps /\ length cs' = length (leaf_list ps from num) /\
    (forall k leaf, nth_error (leaf_list ps from num) k = Some leaf ->
       exists c, nth_error cs' k = Some c /\ forall j, j < N.of_nat (length ps) -> (bitset_test c j = Ok true <-> ancestor ps j leaf)) /\
    (forall b, (b < length ps)%nat ->
       match nth b chains None with
       | Some k => nth b chains' None = Some k
       | None => (nth b chains' None = None /\ forall leaf, In leaf (leaf_list ps from num) -> ~ ancestor ps (N.of_nat b) leaf) \/
                 exists k leaf, nth b chains' None = Some (leaf_index + N.of_nat k) /\
                   nth_error (leaf_list ps from num) k = Some leaf /\ ancestor ps (N.of_nat b) leaf
       end).
Proof.
  intros Hn Hroot Hls Hleaf Hfuel.
  destruct (bitset_size_spec (N.of_nat (length ps))) as (S1 & S2 & _); [unfold num_ok in Hn; lia |].
  set (size := bitset_size_from_num_bits (N.of_nat (length ps))) in *.
  assert (Hinv : N.of_nat (length ps) <= k_invalid_track_index).
  { unfold num_ok, k_invalid_track_index in *. change (2 ^ 32) with 4294967296 in *. lia. }
  induction num as [| num IH]; intros from leaf_index cs chains Hnum Hc; cbn [build_chains].
  { exists [], chains. rewrite app_nil_r. repeat split; auto.
    - intros [| k] leaf H; discriminate H.
    - intros b Hb. destruct (nth b chains None); auto. }
  rewrite bitset_test_spec by lia. cbn [bindo]. rewrite Hleaf by lia.
  assert (LL : leaf_list ps from (S num) = if negb (existsb (N.eqb (N.of_nat from)) ps) then N.of_nat from :: leaf_list ps (S from) num else leaf_list ps (S from) num).
  { unfold leaf_list. cbn [seq map filter]. reflexivity. }
  rewrite LL. replace (N.of_nat from + 1) with (N.of_nat (S from)) by lia.
  destruct (existsb (N.eqb (N.of_nat from)) ps) eqn:X; cbn [negb].
  { apply IH; auto. lia. }
  destruct (rooted_path ps (N.of_nat from)) as (l & P); [apply Hroot; lia |].
  destruct (bitset_reset_spec size false) as (R1 & R2 & R3).
  assert (Lr : blen (bitset_reset size false) = size) by (unfold blen; rewrite R2; lia).
  destruct (walk_chain_spec ps size leaf_index S1 Hinv _ _ P fuel (bitset_reset size false) chains) as (c & ch & A & W & L & C & M & D); auto.
  { pose proof (path_len _ _ _ P). lia. }
  fold size. rewrite A. cbn [bindo].
  destruct (IH (S from) (leaf_index + 1) (cs ++ [c]) ch) as (cs' & ch' & A' & C' & L' & N' & B'); auto; [lia |].
  exists (c :: cs'), ch'. rewrite A'. split; [now rewrite <- app_assoc |]. split; auto. split; [simpl; now rewrite L' |]. split.
  - intros [| k] leaf Hk; simpl in Hk |- *.
    + injection Hk as <-. exists c. split; auto. intros j Hj. rewrite bitset_test_spec by lia. rewrite M, R3 by lia. cbn [orb].
      rewrite <- (path_ancestor _ _ _ P), <- existsb_In. destruct (existsb _ _); split; congruence.
    + apply N'. auto.
  - intros b Hb. specialize (B' b Hb). rewrite D in B'. unfold assign_chain in B'.
    destruct (nth b chains None) as [k |]; auto.
    destruct (existsb (N.eqb (N.of_nat b)) l) eqn:E.
    + right. exists 0%nat, (N.of_nat from). split; [rewrite B'; f_equal; lia |]. split; auto.
      apply (path_ancestor _ _ _ P), existsb_In; auto.
    + destruct B' as [[B1 B2] | (k & leaf & B1 & B2 & B3)].
      * left. split; auto. intros leaf [<- | H]; auto. intros Q. apply (path_ancestor _ _ _ P), existsb_In in Q. congruence.
      * right. exists (S k), leaf. split; [rewrite B1; f_equal; lia |]. auto.
Qed.

(** every transform has a leaf below it *)
Lemma child_exists (ps : list N) (b : N) : In b ps -> exists c, nth_error ps (N.to_nat c) = Some b /\ c < N.of_nat (length ps).
Proof.
  intros H. apply In_nth_error in H. destruct H as (i & H). exists (N.of_nat i). rewrite Nnat.Nat2N.id. split; auto.
  assert (i < length ps)%nat by (apply nth_error_Some; congruence). lia.
Qed.
Lemma ancestor_trans ps a b c : ancestor ps a b -> ancestor ps b c -> ancestor ps a c.
Proof. intros H1 H2. induction H2; auto. econstructor; eauto. Qed.

Lemma leaf_below ps : num_ok ps -> (forall b, b < N.of_nat (length ps) -> rooted ps b) ->
  forall b, b < N.of_nat (length ps) -> exists leaf, is_leaf ps leaf /\ ancestor ps b leaf.
Proof.
  intros Hn Hroot.
  assert (G : forall m b l, path ps b l -> (length ps - length l <= m)%nat -> exists leaf, is_leaf ps leaf /\ ancestor ps b leaf).
  { induction m as [| m IH]; intros b l P Hm.
    - destruct (in_dec N.eq_dec b ps) as [Hin | Hin].
      + exfalso. destruct (child_exists _ _ Hin) as (c & C1 & C2).
        assert (Hb : b <> k_invalid_track_index).
        { pose proof (path_lt _ _ _ P) as F. destruct (path_hd _ _ _ P) as (l' & ->). inversion F; subst.
          unfold num_ok, k_invalid_track_index in *. change (2 ^ 32) with 4294967296 in *. lia. }
        assert (P' : path ps c (c :: l)) by (econstructor; eauto). apply path_len in P'. simpl in P'. lia.
      + exists b. pose proof (path_lt _ _ _ P) as F. destruct (path_hd _ _ _ P) as (l' & ->). inversion F; subst.
        split; [split; auto | now constructor].
    - destruct (in_dec N.eq_dec b ps) as [Hin | Hin].
      + destruct (child_exists _ _ Hin) as (c & C1 & C2).
        assert (Hbl : b < N.of_nat (length ps)).
        { pose proof (path_lt _ _ _ P) as F. destruct (path_hd _ _ _ P) as (l' & ->). now inversion F. }
        assert (Hb : b <> k_invalid_track_index).
        { unfold num_ok, k_invalid_track_index in *. change (2 ^ 32) with 4294967296 in *. lia. }
        assert (P' : path ps c (c :: l)) by (econstructor; eauto).
        destruct (IH c (c :: l) P') as (leaf & A & B); [simpl; lia |]. exists leaf. split; auto.
        eapply ancestor_trans; [| exact B]. eapply anc_up; eauto. now constructor.
      + exists b. pose proof (path_lt _ _ _ P) as F. destruct (path_hd _ _ _ P) as (l' & ->). inversion F; subst.
        split; [split; auto | now constructor]. }
  intros b Hb. destruct (rooted_path ps b (Hroot b Hb)) as (l & P). eapply G; eauto.
Qed.

Lemma leaf_list_In ps leaf : In leaf (leaf_list ps 0 (length ps)) <-> is_leaf ps leaf.
Proof.
  unfold leaf_list, is_leaf. rewrite filter_In, in_map_iff. split.
  - intros [(i & <- & Hi) H]. apply in_seq in Hi. split; [lia |]. intros Hin. apply existsb_In in Hin. now rewrite Hin in H.
  - intros [H1 H2]. split.
    + exists (N.to_nat leaf). split; [lia |]. apply in_seq. lia.
    + destruct (existsb (N.eqb leaf) ps) eqn:X; auto. apply existsb_In in X. contradiction.
Qed.

Lemma hierarchy_spec ps : num_ok ps -> parents_in_range ps -> (forall b, b < N.of_nat (length ps) -> rooted ps b) ->
  exists cs assigned, hierarchy (length ps) ps = Ok (cs, assigned) /\ length assigned = length ps /\
    length cs = length (leaf_list ps 0 (length ps)) /\
    (forall k leaf, nth_error (leaf_list ps 0 (length ps)) k = Some leaf ->
       exists c, nth_error cs k = Some c /\ forall j, j < N.of_nat (length ps) -> (bitset_test c j = Ok true <-> ancestor ps j leaf)) /\
    (forall b, b < N.of_nat (length ps) -> exists k leaf, nth_error assigned (N.to_nat b) = Some (Some (N.of_nat k)) /\
       nth_error (leaf_list ps 0 (length ps)) k = Some leaf /\ ancestor ps b leaf).
Proof.
  intros Hn Hp Hr. destruct (leaf_bitset_spec ps Hn Hp) as (ls & L1 & L2 & L3).
  unfold hierarchy. rewrite L1. cbn [bindo].
  destruct (build_chains_spec ps ls (length ps) Hn Hr L2 L3 (le_n _) (length ps) 0%nat 0 [] (repeat None (length ps)))
    as (cs & ch & A & B & C & D & E); auto; [apply repeat_length |].
  exists cs, ch. change 0 with (N.of_nat 0) at 1. rewrite A. split; auto. split; auto. split; auto. split; auto.
  intros b Hb. specialize (E (N.to_nat b) ltac:(lia)). rewrite nth_repeat in E. rewrite Nnat.N2Nat.id in E.
  destruct E as [[E1 E2] | (k & leaf & E1 & E2 & E3)].
  - exfalso. destruct (leaf_below ps Hn Hr b Hb) as (leaf & H1 & H2). apply (E2 leaf); auto. now apply leaf_list_In.
  - exists k, leaf. split; auto. rewrite (nth_error_nth' ch None) by lia. rewrite E1. do 2 f_equal; lia.
Qed.

(** cycles never end *)
Lemma walk_chain_cycle ps leaf size : forall fuel b chain chains, (forall x, ancestor ps x b -> exists p, nth_error ps (N.to_nat x) = Some p /\ p <> k_invalid_track_index /\ p < N.of_nat (length ps)) ->
  b < N.of_nat (length ps) -> N.of_nat (length ps) <= k_invalid_track_index -> N.of_nat (length ps) <= 32 * size -> words_ok chain -> blen chain = size ->
  walk_chain fuel ps leaf b chain chains = NoFuel.
Proof.
  induction fuel as [| fuel IH]; intros b chain chains H Hb Hi Hs W L; cbn [walk_chain];
    (destruct (N.eqb_spec b k_invalid_track_index); [lia |]); auto.
  destruct (bitset_set_spec chain b true W) as (c1 & A & B & C & D); [lia |]. rewrite A. cbn [bindo]. unfold parent_of.
  destruct (H b) as (p & P1 & P2 & P3); [now constructor |]. rewrite P1. cbn [bindo]. apply IH; auto.
  - intros x Hx. apply H. eapply anc_up; eauto.
  - unfold blen in *. now rewrite C.
Qed.

(** iterating over a chain *)
Lemma scan_next_spec c b : b < 32 * blen c -> bmem c b = true -> forall fuel o, o <= b + 1 -> b + 1 <= o + N.of_nat fuel ->
  exists o', scan_next fuel c b o = Ok o' /\ o <= o' <= b + 1 /\ (forall j, o <= j < o' -> bmem c j = false) /\ (o' <= b -> bmem c o' = true) /\ (o <= b -> o' <= b).
Proof.
  intros Hb Hm. induction fuel as [| fuel IH]; intros o Ho Hf; cbn [scan_next].
  - destruct (N.ltb_spec o b); [lia |]. exists o. split; auto. split; [lia |]. split; [intros; lia |]. split; auto. intros. assert (o = b) by lia. now subst.
  - destruct (N.ltb_spec o b) as [L | L].
    + rewrite bitset_test_spec by lia. cbn [bindo]. destruct (bmem c o) eqn:E.
      * exists o. split; auto. split; [lia |]. split; [intros; lia | auto].
      * destruct (IH (o + 1)) as (o' & A & B & C & D & F); [lia | lia |]. exists o'. split; auto. split; [lia |]. split; [| split; auto; intros; apply F; lia].
        intros j Hj. destruct (N.eq_dec j o) as [-> | Q]; auto. apply C. lia.
    + exists o. split; auto. split; [lia |]. split; [intros; lia |]. split; auto. intros. assert (o = b) by lia. now subst.
Qed.

Definition members (c : list N) (from len : nat) : list N := filter (bmem c) (map N.of_nat (seq from len)).

Lemma members_skip c : forall k from len, (forall j, N.of_nat from <= j < N.of_nat (from + k) -> bmem c j = false) ->
  members c from (k + len) = members c (from + k) len.
Proof.
  induction k as [| k IH]; intros from len H.
  - now rewrite Nat.add_0_r.
  - unfold members in *. cbn [plus seq map filter]. rewrite H by lia. rewrite IH; [f_equal; f_equal; f_equal; lia |]. intros j Hj. apply H. lia.
Qed.

Lemma scan_spec c b : b < 32 * blen c -> bmem c b = true -> forall fuel o, o <= b + 1 -> b + 1 <= o + N.of_nat fuel -> (o <= b -> bmem c o = true) ->
  scan fuel c b o = Ok (members c (N.to_nat o) (N.to_nat (b + 1) - N.to_nat o)).
Proof.
  intros Hb Hm. induction fuel as [| fuel IH]; intros o Ho Hf Hc; cbn [scan].
  - destruct (N.eqb_spec o (b + 1)); [| lia]. subst o. now rewrite Nat.sub_diag.
  - destruct (N.eqb_spec o (b + 1)) as [E | E].
    + subst o. now rewrite Nat.sub_diag.
    + destruct (scan_next_spec c b Hb Hm (S fuel) (o + 1)) as (o' & A & B & C & D & F); [lia | lia |]. rewrite A. cbn [bindo].
      rewrite IH; [| lia | lia | auto]. cbn [bindo]. f_equal.
      replace (N.to_nat (b + 1) - N.to_nat o)%nat with (S (N.to_nat b - N.to_nat o)) by lia.
      unfold members at 2. cbn [seq map filter]. rewrite Nnat.N2Nat.id, Hc by lia. f_equal. change (filter (bmem c) (map N.of_nat (seq (S (N.to_nat o)) (N.to_nat b - N.to_nat o))))
        with (members c (S (N.to_nat o)) (N.to_nat b - N.to_nat o)).
      replace (N.to_nat b - N.to_nat o)%nat with ((N.to_nat o' - S (N.to_nat o)) + (N.to_nat (b + 1) - N.to_nat o'))%nat by lia.
      rewrite members_skip; [f_equal; lia |]. intros j Hj. apply C. lia.
Qed.

Lemma scan_root_spec c b : b < 32 * blen c -> bmem c b = true -> forall fuel o, o <= b -> b < o + N.of_nat fuel ->
  exists r, scan_root fuel c o = Ok r /\ o <= r <= b /\ bmem c r = true /\ forall j, o <= j < r -> bmem c j = false.
Proof.
  intros Hb Hm. induction fuel as [| fuel IH]; intros o Ho Hf; [lia |]. cbn [scan_root].
  rewrite bitset_test_spec by lia. cbn [bindo]. destruct (bmem c o) eqn:E.
  - exists o. split; auto. split; [lia |]. split; auto. intros; lia.
  - destruct (N.eq_dec o b) as [-> | Q]; [congruence |]. destruct (IH (o + 1)) as (r & A & B & C & D); [lia | lia |].
    exists r. split; auto. split; [lia |]. split; auto. intros j Hj. destruct (N.eq_dec j o) as [-> |]; auto. apply D. lia.
Qed.

Lemma bone_chain_spec c b : b < 32 * blen c -> bmem c b = true ->
  bone_chain_indices c b = Ok (members c 0 (N.to_nat (b + 1))).
Proof.
  intros Hb Hm. unfold bone_chain_indices. destruct (scan_root_spec c b Hb Hm (S (N.to_nat b)) 0) as (r & A & B & C & D); [lia | lia |].
  rewrite A. cbn [bindo]. rewrite scan_spec; auto; try lia. f_equal.
  replace (N.to_nat (b + 1)) with (N.to_nat r + (N.to_nat (b + 1) - N.to_nat r))%nat at 2 by lia.
  rewrite members_skip; [f_equal; lia |]. intros j Hj. apply D. lia.
Qed.

Lemma StronglySorted_filter {A} (R : A -> A -> Prop) f l : StronglySorted R l -> StronglySorted R (filter f l).
Proof.
  induction 1 as [| a l S IH F]; simpl; [constructor |]. destruct (f a); auto. constructor; auto.
  rewrite Forall_forall in *. intros x Hx. apply filter_In in Hx. apply F. tauto.
Qed.
Lemma seq_sorted len : forall from, StronglySorted N.lt (map N.of_nat (seq from len)).
Proof.
  induction len as [| len IH]; intros from; simpl; constructor; auto.
  rewrite Forall_forall. intros x Hx. apply in_map_iff in Hx. destruct Hx as (i & <- & Hi). apply in_seq in Hi. lia.
Qed.
Lemma leaf_list_sorted ps : StronglySorted N.lt (leaf_list ps 0 (length ps)).
Proof. apply StronglySorted_filter, seq_sorted. Qed.

Lemma pcf_ancestor ps : parents_come_first ps -> forall a b, ancestor ps a b -> a <= b.
Proof.
  intros H a b A. induction A as [| a b p E Hp A IH]; [lia |]. destruct (H b p E); [contradiction | lia].
Qed.
Lemma pcf_rooted ps : parents_come_first ps -> forall b, b < N.of_nat (length ps) -> rooted ps b.
Proof.
  intros H. assert (G : forall m b, (N.to_nat b < m)%nat -> b < N.of_nat (length ps) -> rooted ps b).
  { induction m as [| m IH]; intros b Hm Hb; [lia |].
    destruct (nth_error ps (N.to_nat b)) as [p |] eqn:E; [| apply nth_error_None in E; lia].
    destruct (N.eq_dec p k_invalid_track_index) as [-> | Hp]; [now constructor |].
    destruct (H b p E); [contradiction |]. eapply rooted_up; eauto. apply IH; lia. }
  intros b Hb. apply (G (S (N.to_nat b))); auto; lia.
Qed.
Lemma pcf_range ps : parents_come_first ps -> parents_in_range ps.
Proof.
  intros H. apply Forall_forall. intros p Hp. apply In_nth_error in Hp. destruct Hp as (i & Hi).
  destruct (H (N.of_nat i) p) as [? | ?]; [now rewrite Nnat.Nat2N.id | now left |]. right.
  assert (i < length ps)%nat by (apply nth_error_Some; congruence). lia.
Qed.

(** two ancestors of the same transform are related *)
Lemma ancestor_linear ps a b c : ancestor ps a c -> ancestor ps b c -> ancestor ps a b \/ ancestor ps b a.
Proof.
  intros Ha Hb. induction Ha as [c Hc | a c p E Hp A IH].
  - right. auto.
  - inversion Hb; subst.
    + left. econstructor; eauto.
    + apply IH. congruence.
Qed.

Lemma chain_is_root_path ps : num_ok ps -> parents_come_first ps ->
  exists cs assigned, hierarchy (length ps) ps = Ok (cs, assigned) /\
  forall b, b < N.of_nat (length ps) -> exists k c l,
    nth_error assigned (N.to_nat b) = Some (Some k) /\ nth_error cs (N.to_nat k) = Some c /\
    bone_chain_indices c b = Ok l /\ StronglySorted N.lt l /\ forall a, In a l <-> ancestor ps a b.
Proof.
  intros Hn H. pose proof (pcf_rooted ps H) as Hr. pose proof (pcf_range ps H) as Hp.
  destruct (hierarchy_spec ps Hn Hp Hr) as (cs & ch & A & B & C & D & E).
  exists cs, ch. split; auto. intros b Hb. destruct (E b Hb) as (k & leaf & E1 & E2 & E3). destruct (D k leaf E2) as (c & D1 & D2).
  destruct (bitset_size_spec (N.of_nat (length ps))) as (S1 & S2 & _); [unfold num_ok in Hn; lia |].
  assert (Hc : b < 32 * blen c /\ bmem c b = true).
  { specialize (D2 b Hb). destruct (N.lt_ge_cases b (32 * blen c)) as [L | L].
    - split; auto. rewrite bitset_test_spec in D2 by auto. destruct D2 as [_ D2]. specialize (D2 E3). congruence.
    - rewrite bitset_test_oob in D2 by auto. destruct D2 as [_ D2]. specialize (D2 E3). discriminate. }
  destruct Hc as [Hc1 Hc2]. exists (N.of_nat k), c, (members c 0 (N.to_nat (b + 1))). rewrite Nnat.Nat2N.id.
  split; auto. split; auto. split; [now apply bone_chain_spec |]. split; [apply StronglySorted_filter, seq_sorted |].
  assert (In_members : forall a, In a (members c 0 (N.to_nat (b + 1))) <-> a <= b /\ bmem c a = true).
  { intros a. unfold members. rewrite filter_In, in_map_iff. split.
    - intros [(i & <- & Hi) M]. apply in_seq in Hi. split; auto. lia.
    - intros [L M]. split; auto. exists (N.to_nat a). split; [lia |]. apply in_seq. lia. }
  intros a. rewrite In_members. split.
  - intros [L M]. assert (Aa : ancestor ps a leaf). { apply D2; [lia |]. rewrite bitset_test_spec by lia. now rewrite M. }
    destruct (ancestor_linear ps a b leaf Aa E3) as [Q | Q]; auto. pose proof (pcf_ancestor ps H _ _ Q). assert (a = b) by lia. subst. now constructor.
  - intros Aa. pose proof (pcf_ancestor ps H _ _ Aa). split; [lia |].
    assert (Al : ancestor ps a leaf) by (eapply ancestor_trans; eauto). apply D2 in Al; [| lia]. rewrite bitset_test_spec in Al by lia. congruence.
Qed.

(** the sort *)
Definition key (ps : list N) (i : N) : N := addw 32 (nth (N.to_nat i) ps k_invalid_track_index) 1.
Lemma pred_key ps : Forall (fun p => p < 2 ^ 32) ps -> forall x y, sort_predicate ps x y = true <-> key ps x < key ps y \/ (key ps x = key ps y /\ x < y).
Proof.
  intros F x y. unfold sort_predicate, key. cbv zeta.
  assert (B : forall i, nth i ps k_invalid_track_index < 4294967296).
  { intros i. destruct (Nat.lt_ge_cases i (length ps)) as [L | L].
    - rewrite Forall_forall in F. apply F. now apply nth_In.
    - rewrite nth_overflow by auto. reflexivity. }
  pose proof (B (N.to_nat x)) as Bx. pose proof (B (N.to_nat y)) as By.
  set (px := nth (N.to_nat x) ps k_invalid_track_index) in *. set (py := nth (N.to_nat y) ps k_invalid_track_index) in *. clearbody px py.
  unfold addw. change (2 ^ 32) with 4294967296.
  assert (I : (px + 1) mod 4294967296 = (py + 1) mod 4294967296 <-> px = py).
  { split; [| now intros ->]. intros E.
    assert (W : forall p, p < 4294967296 -> (p + 1) mod 4294967296 = if p =? 4294967295 then 0 else p + 1).
    { intros p Hp. destruct (N.eqb_spec p 4294967295) as [-> |]; [reflexivity |]. apply N.mod_small. lia. }
    rewrite (W px Bx), (W py By) in E. destruct (N.eqb_spec px 4294967295), (N.eqb_spec py 4294967295); lia. }
  destruct (N.eqb_spec px py) as [Q | Q]; cbn [negb].
  - apply I in Q as R. rewrite N.ltb_lt. lia.
  - rewrite N.ltb_lt. split; [auto |]. intros [L | [L _]]; auto. apply I in L. contradiction.
Qed.

Lemma insert_perm ps x l : Permutation (sort_insert ps x l) (x :: l).
Proof.
  induction l as [| y l IH]; simpl; auto. destruct (sort_predicate ps x y); auto.
  rewrite IH. constructor.
Qed.
Lemma sort_perm ps : Permutation (sort_transforms_parent_first ps) (map N.of_nat (seq 0 (length ps))).
Proof.
  unfold sort_transforms_parent_first. induction (map N.of_nat (seq 0 (length ps))) as [| x l IH]; simpl; auto.
  rewrite insert_perm. now constructor.
Qed.
Definition lt_pred ps x y := sort_predicate ps x y = true.
Lemma insert_sorted ps : Forall (fun p => p < 2 ^ 32) ps -> forall x l, ~ In x l -> StronglySorted (lt_pred ps) l -> StronglySorted (lt_pred ps) (sort_insert ps x l).
Proof.
  intros F x l Hx S. induction S as [| y l S IH Fy]; simpl; [repeat constructor |].
  destruct (sort_predicate ps x y) eqn:E.
  - constructor; [now constructor |]. constructor; auto. rewrite Forall_forall in *. intros z Hz. specialize (Fy z Hz).
    unfold lt_pred in *. rewrite (pred_key ps) in * by (rewrite Forall_forall; auto). lia.
  - constructor.
    + apply IH. intros H. apply Hx. now right.
    + rewrite Forall_forall in *. intros z Hz. apply (Permutation_in _ (insert_perm ps x l)) in Hz. destruct Hz as [<- | Hz]; [| now apply Fy].
      assert (x <> y) by (intros ->; apply Hx; now left). unfold lt_pred. apply (pred_key ps); [rewrite Forall_forall; auto |].
      assert (~ (key ps x < key ps y \/ (key ps x = key ps y /\ x < y))).
      { intros Q. apply (pred_key ps) in Q; [congruence | rewrite Forall_forall; auto]. }
      lia.
Qed.
Lemma sort_sorted ps : Forall (fun p => p < 2 ^ 32) ps -> StronglySorted (lt_pred ps) (sort_transforms_parent_first ps).
Proof.
  intros F. unfold sort_transforms_parent_first.
  assert (ND : NoDup (map N.of_nat (seq 0 (length ps)))) by (apply FinFun.Injective_map_NoDup; [intros x y; lia | apply seq_NoDup]).
  induction ND as [| x l Hx ND IH]; simpl; [constructor |]. apply insert_sorted; auto.
  intros H. apply Hx.
  assert (P : forall l, Permutation (fold_right (sort_insert ps) [] l) l).
  { induction l0 as [| a l0 IHl]; simpl; auto. rewrite insert_perm. now constructor. }
  now apply (Permutation_in _ (P l)).
Qed.

Lemma sorted_before (R : N -> N -> Prop) l x y : StronglySorted R l -> In x l -> In y l -> x <> y -> ~ R y x -> before l x y.
Proof.
  induction 1 as [| a l S IH F]; intros Hx Hy Hn HR; [destruct Hx |].
  rewrite Forall_forall in F. destruct Hx as [-> | Hx].
  - destruct Hy as [-> | Hy]; [contradiction |]. apply in_split in Hy. destruct Hy as (l1 & l2 & ->).
    exists [], l1, l2. reflexivity.
  - destruct Hy as [-> | Hy]; [exfalso; apply HR, F; auto |].
    destruct (IH Hx Hy Hn HR) as (l1 & l2 & l3 & ->). exists (a :: l1), l2, l3. reflexivity.
Qed.

Lemma parent_first ps : num_ok ps -> Forall (fun p => p < 2 ^ 32) ps -> parents_in_range ps ->
  forall b p, nth_error ps (N.to_nat b) = Some p -> p <> k_invalid_track_index ->
  (nth_error ps (N.to_nat p) = Some k_invalid_track_index \/ exists g, nth_error ps (N.to_nat p) = Some g /\ g < p) ->
  p <> b -> before (sort_transforms_parent_first ps) p b.
Proof.
  intros Hn F Hp b p E Hinv G Hne.
  assert (Hpl : p < N.of_nat (length ps)).
  { unfold parents_in_range in Hp. rewrite Forall_forall in Hp. destruct (Hp p); auto; [eapply nth_error_In; eauto | contradiction]. }
  assert (Hbl : b < N.of_nat (length ps)). { assert (N.to_nat b < length ps)%nat by (apply nth_error_Some; congruence). lia. }
  apply (sorted_before (lt_pred ps)); auto.
  - now apply sort_sorted.
  - apply (Permutation_in _ (Permutation_sym (sort_perm ps))). rewrite <- (Nnat.N2Nat.id p). apply in_map, in_seq. lia.
  - apply (Permutation_in _ (Permutation_sym (sort_perm ps))). rewrite <- (Nnat.N2Nat.id b). apply in_map, in_seq. lia.
  - unfold lt_pred. rewrite pred_key by auto. unfold key, num_ok, k_invalid_track_index in *. change (2 ^ 32) with 4294967296 in *.
    rewrite (nth_error_nth _ _ _ E). unfold addw. change (2 ^ 32) with 4294967296.
    rewrite (N.mod_small (p + 1)) by lia. destruct G as [G | (g & G & L)]; rewrite (nth_error_nth _ _ _ G).
    + change ((4294967295 + 1) mod 4294967296) with 0. lia.
    + rewrite N.mod_small by lia. lia.
Qed.
