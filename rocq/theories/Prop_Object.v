(** C50: object space poses follow the hierarchy, and the measured error of transforms.  Model: ObjectSpace.v. *)
From Coq Require Import Lia Reals Lra Sorting.Sorted.
From Verif Require Import Word WordFacts Float32 Float32Facts Interp InterpFacts RateOrder Bitset TrackArray TrackSpec TrackArrayFacts Hierarchy HierarchyFacts ScalarDec TrackError TrackErrorSpec TrackErrorFacts ObjectSpace Prop_Tracks.
Import ListNotations.
Local Open Scope N_scope.
Ltac Zify.zify_post_hook ::= idtac.

(** the object space transform of transform [i]: its own for a root, else its own times the object space transform of its parent *)
Inductive object_of {V} (mul : V -> V -> V) (parents : list N) (local : list V) : N -> V -> Prop :=
| object_root : forall i l, nth_error parents (N.to_nat i) = Some k_invalid_track_index -> nth_error local (N.to_nat i) = Some l -> object_of mul parents local i l
| object_child : forall i l p v, nth_error parents (N.to_nat i) = Some p -> p <> k_invalid_track_index -> nth_error local (N.to_nat i) = Some l ->
    object_of mul parents local p v -> object_of mul parents local i (mul l v).
(** an order in which every parent comes before its children *)
Definition parents_before (parents : list N) (order : list N) : Prop :=
  forall a i b, order = a ++ i :: b -> exists p, nth_error parents (N.to_nat i) = Some p /\ (p = k_invalid_track_index \/ In p a).

Lemma object_unique V (mul : V -> V -> V) parents local i v : object_of mul parents local i v -> forall v', object_of mul parents local i v' -> v = v'.
Proof.
  induction 1 as [i l P L | i l p v P NP L H IH]; intros v' H'.
  - inversion H' as [? ? _ L' | ? ? ? ? P' NP' _ _]; subst; congruence.
  - inversion H' as [? ? P' _ | ? ? p' w P' _ L' H2]; subst; [congruence |]. assert (p' = p) as -> by congruence. rewrite (IH w H2). congruence.
Qed.
Lemma store_length V (mem : list V) i v : (N.to_nat i < length mem)%nat -> length (store mem i v) = length mem.
Proof. intros H. unfold store. rewrite app_length, firstn_length. cbn [length]. rewrite skipn_length. lia. Qed.
Lemma store_same V (mem : list V) i v : (N.to_nat i < length mem)%nat -> nth_error (store mem i v) (N.to_nat i) = Some v.
Proof. intros H. unfold store. rewrite nth_error_app2; rewrite firstn_length, Nat.min_l by lia; [rewrite Nat.sub_diag; reflexivity | lia]. Qed.
Lemma store_other V (mem : list V) i j v : (N.to_nat i < length mem)%nat -> j <> N.to_nat i -> nth_error (store mem i v) j = nth_error mem j.
Proof.
  intros H D. unfold store. destruct (Nat.lt_ge_cases j (N.to_nat i)) as [L | L].
  - rewrite nth_error_app1 by (rewrite firstn_length; lia). rewrite <- (firstn_skipn (N.to_nat i) mem) at 2. rewrite nth_error_app1 by (rewrite firstn_length; lia). reflexivity.
  - rewrite nth_error_app2; rewrite firstn_length, Nat.min_l by lia; [| lia]. destruct (j - N.to_nat i)%nat as [| q] eqn:Q; [lia |]. cbn [nth_error].
    rewrite <- (firstn_skipn (S (N.to_nat i)) mem) at 2. rewrite nth_error_app2 by (rewrite firstn_length; lia). rewrite firstn_length, Nat.min_l by lia. f_equal. lia.
Qed.

Lemma nth_error_list {A} (l : list A) : forall l', (forall i, nth_error l i = nth_error l' i) -> l = l'.
Proof.
  induction l as [| x l IH]; intros [| y l'] H; [reflexivity | discriminate (H 0%nat) | discriminate (H 0%nat) |].
  pose proof (H 0%nat) as E. injection E as <-. f_equal. apply IH. intros i. exact (H (S i)).
Qed.
Section Object.
Context {V : Type} (mul : V -> V -> V) (parents : list N) (local : list V).
Hypothesis L1 : length local = length parents.
Definition known (mem : list V) (i : N) : Prop := exists v, nth_error mem (N.to_nat i) = Some v /\ object_of mul parents local i v.
Lemma to_object_suffix rest : forall done mem, parents_before parents (done ++ rest) -> length mem = length parents -> (forall i, In i done -> known mem i) ->
  exists mem', local_to_object_space mul parents local rest mem = Ok mem' /\ length mem' = length parents /\ (forall i, In i (done ++ rest) -> known mem' i) /\
    forall j, ~ In (N.of_nat j) rest -> nth_error mem' j = nth_error mem j.
Proof.
  induction rest as [| i rest IH]; intros done mem B LM K.
  - exists mem. rewrite app_nil_r. auto.
  - destruct (B done i rest eq_refl) as (p & P & PC). assert (I : (N.to_nat i < length parents)%nat) by (apply nth_error_Some; congruence).
    cbn [local_to_object_space]. unfold to_object_space. rewrite P.
    destruct (nth_error local (N.to_nat i)) as [l |] eqn:EL; [| apply nth_error_None in EL; lia].
    destruct (nth_error mem (N.to_nat i)) as [z |] eqn:EM; [| apply nth_error_None in EM; lia].
    assert (ST : exists v, (if p =? k_invalid_track_index then Ok (store mem i l) else match nth_error mem (N.to_nat p) with Some q => Ok (store mem i (mul l q)) | None => UB end) = Ok (store mem i v) /\ object_of mul parents local i v).
    { destruct (N.eqb_spec p k_invalid_track_index) as [-> | NP]; [exists l; split; [reflexivity | apply object_root; assumption] |].
      destruct PC as [PC | PC]; [contradiction |]. destruct (K p PC) as (q & Q1 & Q2). rewrite Q1. exists (mul l q). split; [reflexivity | eapply object_child; eassumption]. }
    destruct ST as (v & -> & OV). cbn [bindo].
    assert (LS : (N.to_nat i < length mem)%nat) by lia.
    destruct (IH (done ++ [i]) (store mem i v)) as (mem' & E & LM' & K' & O').
    + rewrite <- app_assoc. exact B.
    + rewrite store_length by exact LS. exact LM.
    + intros j J. apply in_app_or in J. destruct (N.eq_dec j i) as [-> | D]; [exists v; split; [apply store_same, LS | exact OV] |].
      destruct J as [J | [J | []]]; [| congruence]. destruct (K j J) as (w & W1 & W2). exists w. split; [rewrite store_other by (try exact LS; lia); exact W1 | exact W2].
    + exists mem'. split; [exact E |]. split; [exact LM' |]. split; [rewrite <- app_assoc in K'; exact K' |].
      intros j J. rewrite O' by (intros Q; apply J; right; exact Q). apply store_other; [exact LS |]. intros ->. apply J. left. lia.
Qed.
End Object.

(** In an order where every parent comes before its children -- any of them -- the transforms of the order are given their object space
    transform, whatever the memory held before, and the others are left as they were. *)
Theorem C50_object_space : forall V (mul : V -> V -> V) parents local order mem,
  length local = length parents -> length mem = length parents -> parents_before parents order ->
  exists mem', local_to_object_space mul parents local order mem = Ok mem' /\ length mem' = length parents /\
    (forall i, In i order -> exists v, nth_error mem' (N.to_nat i) = Some v /\ object_of mul parents local i v) /\
    (forall i, ~ In (N.of_nat i) order -> nth_error mem' i = nth_error mem i).
Proof.
  intros V mul parents local order mem L1 LM B. destruct (to_object_suffix mul parents local L1 order [] mem B LM) as (mem' & E & L & K & O); [intros i [] |].
  exists mem'. auto.
Qed.
Print Assumptions C50_object_space.
Theorem C50_one_object_space_transform : forall V (mul : V -> V -> V) parents local i v v', object_of mul parents local i v -> object_of mul parents local i v' -> v = v'.
Proof. intros V mul parents local i v v' H H'. eapply object_unique; eassumption. Qed.
Print Assumptions C50_one_object_space_transform.

(** * The orders the code uses *)
Lemma strongly_sorted_app a : forall i b, StronglySorted N.lt (a ++ i :: b) -> forall j, In j b -> i < j.
Proof.
  induction a as [| x a IH]; intros i b S j J; cbn [app] in S; inversion S as [| ? ? S' F]; subst; [rewrite Forall_forall in F; exact (F j J) | exact (IH i b S' j J)].
Qed.
(** a sorted list of transforms that holds the parents of its transforms *)
Lemma sorted_before parents l : parents_come_first parents -> StronglySorted N.lt l -> (forall i, In i l -> i < N.of_nat (length parents)) ->
  (forall i p, In i l -> nth_error parents (N.to_nat i) = Some p -> p <> k_invalid_track_index -> In p l) -> parents_before parents l.
Proof.
  intros PC S R C a i b ->. assert (I : In i (a ++ i :: b)) by (apply in_or_app; right; left; reflexivity). pose proof (R i I) as RI.
  destruct (nth_error parents (N.to_nat i)) as [p |] eqn:P; [| apply nth_error_None in P; lia]. exists p. split; [reflexivity |].
  destruct (PC i p P) as [-> | LT]; [left; reflexivity |]. destruct (N.eq_dec p k_invalid_track_index) as [-> | NP]; [left; reflexivity |]. right.
  pose proof (C i p I P NP) as J. apply in_app_or in J. destruct J as [J | [J | J]]; [exact J | lia |]. pose proof (strongly_sorted_app a i b S p J). lia.
Qed.
Lemma self_sorted n : forall m, StronglySorted N.lt (map N.of_nat (seq m n)).
Proof.
  induction n as [| n IH]; intros m; [constructor |]. cbn [seq map]. constructor; [apply IH |]. apply Forall_forall. intros x X. apply in_map_iff in X. destruct X as (y & <- & Y). apply in_seq in Y. lia.
Qed.
Lemma self_in n i : In i (self_indices n) <-> i < N.of_nat n.
Proof.
  unfold self_indices. rewrite in_map_iff. split; [intros (y & <- & Y); apply in_seq in Y; lia |]. intros L. exists (N.to_nat i). split; [lia | apply in_seq; lia].
Qed.
Lemma self_before parents : parents_come_first parents -> parents_before parents (self_indices (length parents)).
Proof.
  intros PC. apply sorted_before; [exact PC | apply self_sorted | intros i I; apply self_in, I |].
  intros i p I P NP. apply self_in. destruct (PC i p P) as [-> | L]; [contradiction |]. apply self_in in I. lia.
Qed.
(** The list of all transforms (the measure of the error, the search for bit rates) and the chain of a transform (the search for bit
    rates: C20) are such orders when parents come before their children: the chain of [b] gives the object space transforms of [b] and of
    everything above. *)
Theorem C50_all_transforms : forall V (mul : V -> V -> V) parents local mem, parents_come_first parents ->
  length local = length parents -> length mem = length parents ->
  exists pose, local_to_object_space mul parents local (self_indices (length parents)) mem = Ok pose /\ length pose = length parents /\
    forall i, i < N.of_nat (length parents) -> exists v, nth_error pose (N.to_nat i) = Some v /\ object_of mul parents local i v.
Proof.
  intros V mul parents local mem PC L1 LM. destruct (C50_object_space V mul parents local _ mem L1 LM (self_before parents PC)) as (pose & E & L & K & _).
  exists pose. split; [exact E |]. split; [exact L |]. intros i I. apply K, self_in, I.
Qed.
Print Assumptions C50_all_transforms.
Theorem C50_bone_chain : forall V (mul : V -> V -> V) parents local mem, N.of_nat (length parents) <= 2 ^ 32 - 1 - 31 -> parents_come_first parents ->
  length local = length parents -> length mem = length parents ->
  exists cs assigned, hierarchy (length parents) parents = Ok (cs, assigned) /\
  forall b, b < N.of_nat (length parents) -> exists k c chain pose,
    nth_error assigned (N.to_nat b) = Some (Some k) /\ nth_error cs (N.to_nat k) = Some c /\ bone_chain_indices c b = Ok chain /\
    local_to_object_space mul parents local chain mem = Ok pose /\
    forall a, ancestor parents a b -> exists v, nth_error pose (N.to_nat a) = Some v /\ object_of mul parents local a v.
Proof.
  intros V mul parents local mem N1 PC L1 LM. destruct (C20_bone_chain_is_the_root_path parents N1 PC) as (cs & assigned & H & HB). exists cs, assigned. split; [exact H |].
  intros b B. destruct (HB b B) as (k & c & l & E1 & E2 & E3 & S & A). 
  assert (AR : forall a, ancestor parents a b -> a < N.of_nat (length parents)).
  { intros a AN. clear - AN. induction AN; assumption. }
  destruct (C50_object_space V mul parents local l mem L1 LM) as (pose & F1 & _ & F3 & _).
  - apply sorted_before; [exact PC | exact S | intros i I; apply AR, A, I |]. intros i p I P NP. apply A. apply A in I. clear - I P NP PC.
    induction I as [b Hb | a b q Q NQ AN IH].
    + eapply anc_up; [exact P | exact NP |]. constructor. destruct (PC b p P) as [-> | L]; [contradiction | lia].
    + eapply anc_up; [exact Q | exact NQ | exact (IH P)].
  - exists k, c, l, pose. split; [exact E1 |]. split; [exact E2 |]. split; [exact E3 |]. split; [exact F1 |]. intros a AN. apply F3, A, AN.
Qed.
Print Assumptions C50_bone_chain.

(** * The measure *)
(** [e] is the largest of the errors [err k i] of the [m] transforms at the [n] key frames, the first of them in the order of time and of transforms *)
Definition worst_transform (n : N) (m : nat) (rate : f32) (err : N -> nat -> f32) (e : track_error) : Prop :=
  exists k i, k < n /\ (i < m)%nat /\ te_index e = N.of_nat i /\ te_time e = fdiv (f_of_N k) rate /\ te_error e = err k i /\
    (forall k' i', k' < n -> (i' < m)%nat -> fle (err k' i') (te_error e) = true) /\
    (forall k' i', k' < n -> (i' < m)%nat -> k' < k \/ (k' = k /\ (i' < i)%nat) -> flt (err k' i') (te_error e) = true).
Section Measure.
Context (n : N) (m : nat) (rate : f32) (err : N -> nat -> f32).
Hypothesis POS : forall k i, k < n -> (i < m)%nat -> fle f_zero (err k i) = true.
Definition seen (k : N) (i : nat) (k' : N) (i' : nat) : Prop := k' < n /\ (i' < m)%nat /\ (k' < k \/ (k' = k /\ (i' < i)%nat)).
Definition best_seen (k : N) (i : nat) (r : track_error) : Prop :=
  ((forall k' i', ~ seen k i k' i') /\ r = te_start) \/
  (exists k0 i0, seen k i k0 i0 /\ te_index r = N.of_nat i0 /\ te_time r = fdiv (f_of_N k0) rate /\ te_error r = err k0 i0 /\
    (forall k' i', seen k i k' i' -> fle (err k' i') (te_error r) = true) /\
    (forall k' i', seen k i k' i' -> k' < k0 \/ (k' = k0 /\ (i' < i0)%nat) -> flt (err k' i') (te_error r) = true)).
Lemma best_seen_next k r : best_seen k m r -> best_seen (k + 1) 0 r.
Proof.
  assert (H : forall k' i', seen k m k' i' <-> seen (k + 1) 0 k' i') by (intros k' i'; unfold seen; lia).
  intros [(A & B) | (k0 & i0 & V & E1 & E2 & E3 & A & B)]; [left | right].
  - split; [| exact B]. intros k' i' V. apply (A k' i'), H, V.
  - exists k0, i0. split; [apply H, V |]. split; [exact E1 |]. split; [exact E2 |]. split; [exact E3 |]. split; [intros k' i' V'; apply A, H, V' | intros k' i' V'; apply B, H, V'].
Qed.
Lemma best_seen_step k i r : k < n -> (i < m)%nat -> best_seen k i r ->
  best_seen k (S i) (if fgt (err k i) (te_error r) then {| te_index := N.of_nat i; te_error := err k i; te_time := fdiv (f_of_N k) rate |} else r).
Proof.
  intros K I H. pose proof (POS k i K I) as P. destruct (fle_nan _ _ P) as [_ N1].
  assert (V : forall k' i', seen k (S i) k' i' <-> seen k i k' i' \/ (k' = k /\ i' = i)) by (intros k' i'; unfold seen; lia).
  unfold fgt. destruct H as [(A & ->) | (k0 & i0 & V0 & E1 & E2 & E3 & A & B)].
  - change (te_error te_start) with f_minus_one. rewrite (flt_le_trans f_minus_one f_zero (err k i) eq_refl P). right. exists k, i. cbn [te_index te_time te_error].
    split; [apply V; right; auto |]. split; [reflexivity |]. split; [reflexivity |]. split; [reflexivity |]. split.
    + intros k' i' V'. apply V in V'. destruct V' as [V' | (-> & ->)]; [destruct (A _ _ V') | apply fle_refl, N1].
    + intros k' i' V' L. apply V in V'. destruct V' as [V' | (-> & ->)]; [destruct (A _ _ V') | lia].
  - destruct (fle_nan _ _ (A _ _ V0)) as [_ N0]. destruct (flt (te_error r) (err k i)) eqn:C.
    + right. exists k, i. cbn [te_index te_time te_error]. split; [apply V; right; auto |]. split; [reflexivity |]. split; [reflexivity |]. split; [reflexivity |].
      assert (LT : forall k' i', seen k i k' i' -> flt (err k' i') (err k i) = true).
      { intros k' i' V'. pose proof (A k' i' V') as Q. apply fle_key in Q. apply flt_key in C. apply flt_key. destruct Q as (Q1 & Q2 & Q3), C as (C1 & C2 & C3). split; [exact Q1 |]. split; [exact C2 | lra]. }
      split.
      * intros k' i' V'. apply V in V'. destruct V' as [V' | (-> & ->)]; [apply flt_fle, LT, V' | apply fle_refl, N1].
      * intros k' i' V' L. apply V in V'. destruct V' as [V' | (-> & ->)]; [apply LT, V' | lia].
    + right. exists k0, i0. split; [apply V; left; exact V0 |]. split; [exact E1 |]. split; [exact E2 |]. split; [exact E3 |]. split.
      * intros k' i' V'. apply V in V'. destruct V' as [V' | (-> & ->)]; [apply A, V' | apply not_lt_ge; assumption].
      * intros k' i' V' L. apply V in V'. destruct V' as [V' | (-> & ->)]; [apply B; assumption |]. destruct V0 as (_ & V0). lia.
Qed.
Lemma measure_bones_best {V} (calc : V -> V -> f32 -> f32) k : k < n -> forall raws lossys shells i r, length lossys = length raws -> length shells = length raws -> (i + length raws = m)%nat ->
  (forall j a b d, nth_error raws j = Some a -> nth_error lossys j = Some b -> nth_error shells j = Some d -> calc a b d = err k (i + j)%nat) ->
  best_seen k i r -> exists r', measure_bones calc shells (fdiv (f_of_N k) rate) (N.of_nat i) raws lossys r = Ok r' /\ best_seen k m r'.
Proof.
  intros K. induction raws as [| a raws IH]; intros lossys shells i r L1 L2 L3 H B; cbn [length] in L3.
  - exists r. split; [reflexivity |]. replace m with i by lia. exact B.
  - destruct lossys as [| b lossys]; [discriminate L1 |]. destruct shells as [| d shells]; [discriminate L2 |]. cbn [length] in L1, L2. cbn [measure_bones].
    rewrite (H 0%nat a b d eq_refl eq_refl eq_refl), Nat.add_0_r. replace (N.of_nat i + 1) with (N.of_nat (S i)) by lia.
    apply (IH lossys shells (S i)); [lia | lia | lia | | apply best_seen_step; [exact K | lia | exact B]].
    intros j a' b' d' A1 A2 A3. replace (S i + j)%nat with (i + S j)%nat by lia. exact (H (S j) a' b' d' A1 A2 A3).
Qed.
End Measure.

(** When parents come before their children, and the metric gives no negative error and no NaN, the measured error of the transforms is the
    worst one: the largest that the metric gives for the object space transforms of the two poses, over all transforms and key frames.  It
    does not depend on what the allocated memory held. *)
Theorem C50_the_worst_transform_is_found : forall V (mul : V -> V -> V) (calc : V -> V -> f32 -> f32) parents shells n rate lp (raw lossy : f32 -> list V) raw_mem lossy_mem,
  parents_come_first parents -> parents <> [] -> length shells = length parents -> length raw_mem = length parents -> length lossy_mem = length parents ->
  (forall t, length (raw t) = length parents) -> (forall t, length (lossy t) = length parents) ->
  1 <= n < 2 ^ 22 - 2 -> ffinite rate = true -> sane (FR rate) ->
  (forall a b d, fle f_zero (calc a b d) = true) ->
  exists e err, calculate_transform_track_error mul calc parents shells n rate (clip_finite_duration n rate lp) raw lossy raw_mem lossy_mem = Ok e /\
    worst_transform n (length parents) rate err e /\
    forall k i, k < n -> (i < length parents)%nat -> exists a b d,
      object_of mul parents (raw (fdiv (f_of_N k) rate)) (N.of_nat i) a /\ object_of mul parents (lossy (fdiv (f_of_N k) rate)) (N.of_nat i) b /\
      nth_error shells i = Some d /\ err k i = calc a b d.
Proof.
  intros V mul calc parents shells n rate lp raw lossy raw_mem lossy_mem PC NE LS LR LL RL LLo Hn Hf Hr POS.
  set (time := fun k => fdiv (f_of_N k) rate).
  set (pose := fun l => match local_to_object_space mul parents l (self_indices (length parents)) raw_mem with Ok p => p | _ => [] end).
  set (err := fun k i => match nth_error (pose (raw (time k))) i, nth_error (pose (lossy (time k))) i, nth_error shells i with Some a, Some b, Some d => calc a b d | _, _, _ => f_zero end).
  assert (PO : forall l mem, length l = length parents -> length mem = length parents -> local_to_object_space mul parents l (self_indices (length parents)) mem = Ok (pose l) /\
    length (pose l) = length parents /\ forall i, (i < length parents)%nat -> exists v, nth_error (pose l) i = Some v /\ object_of mul parents l (N.of_nat i) v).
  { intros l mem L1 LM. destruct (C50_all_transforms V mul parents l raw_mem PC L1 LR) as (p & E & LP & H). assert (EP : pose l = p) by (unfold pose; rewrite E; reflexivity). rewrite EP.
    assert (HP : forall i, (i < length parents)%nat -> exists v, nth_error p i = Some v /\ object_of mul parents l (N.of_nat i) v).
    { intros i I. destruct (H (N.of_nat i) ltac:(lia)) as (v & V1 & V2). rewrite Nnat.Nat2N.id in V1. exists v. auto. }
    split; [| split; [exact LP | exact HP]].
    destruct (C50_all_transforms V mul parents l mem PC L1 LM) as (p' & E' & LP' & H'). rewrite E'. f_equal. apply nth_error_list. intros i.
    destruct (Nat.lt_ge_cases i (length parents)) as [I | I].
    - destruct (HP i I) as (v & V1 & V2). destruct (H' (N.of_nat i) ltac:(lia)) as (v' & V1' & V2'). rewrite Nnat.Nat2N.id in V1'. rewrite V1, V1', (object_unique _ _ _ _ _ _ V2 _ V2'). reflexivity.
    - rewrite (proj2 (nth_error_None p' i)) by lia. rewrite (proj2 (nth_error_None p i)) by lia. reflexivity. }
  assert (ERR : forall k i, k < n -> (i < length parents)%nat -> exists a b d, nth_error (pose (raw (time k))) i = Some a /\ nth_error (pose (lossy (time k))) i = Some b /\ nth_error shells i = Some d /\
    object_of mul parents (raw (time k)) (N.of_nat i) a /\ object_of mul parents (lossy (time k)) (N.of_nat i) b /\ err k i = calc a b d).
  { intros k i K I. destruct (PO (raw (time k)) raw_mem (RL _) LR) as (_ & _ & A). destruct (A i I) as (a & A1 & A2). destruct (PO (lossy (time k)) raw_mem (LLo _) LR) as (_ & _ & B). destruct (B i I) as (b & B1 & B2).
    destruct (nth_error shells i) as [d |] eqn:D; [| apply nth_error_None in D; lia]. exists a, b, d. split; [exact A1 |]. split; [exact B1 |]. split; [reflexivity |]. split; [exact A2 |]. split; [exact B2 |].
    unfold err. rewrite A1, B1, D. reflexivity. }
  assert (EPOS : forall k i, k < n -> (i < length parents)%nat -> fle f_zero (err k i) = true).
  { intros k i K I. destruct (ERR k i K I) as (a & b & d & _ & _ & _ & _ & _ & ->). apply POS. }
  assert (LOOP : forall count k rm lm r, k + N.of_nat count = n -> length rm = length parents -> length lm = length parents -> best_seen n (length parents) rate err k 0 r ->
    exists r', measure_poses mul calc parents shells rate (clip_finite_duration n rate lp) raw lossy k count rm lm r = Ok r' /\ best_seen n (length parents) rate err n 0 r').
  { induction count as [| count IH]; intros k rm lm r C R1 R2 B; [exists r; split; [reflexivity |]; replace n with k by lia; replace n with k in B by lia; exact B |].
    assert (K : k < n) by lia. cbn [measure_poses]. rewrite (time_is n rate lp k Hn Hf Hr K). fold (time k).
    destruct (PO (raw (time k)) rm (RL _) R1) as (E1 & LP1 & _). destruct (PO (lossy (time k)) lm (LLo _) R2) as (E2 & LP2 & _). rewrite E1. cbn [bindo]. rewrite E2. cbn [bindo].
    destruct (measure_bones_best n (length parents) rate err EPOS calc k K (pose (raw (time k))) (pose (lossy (time k))) shells 0 r ltac:(lia) ltac:(lia) ltac:(lia)) as (r1 & E3 & B1); [| exact B |].
    - intros j a b d A1 A2 A3. cbn [Nat.add]. assert (J : (j < length parents)%nat) by (rewrite <- LS; apply nth_error_Some; congruence).
      destruct (ERR k j K J) as (a' & b' & d' & X1 & X2 & X3 & _ & _ & ->). congruence.
    - change (N.of_nat 0) with 0 in E3. fold (time k) in E3. rewrite E3. cbn [bindo]. apply IH; [lia | exact LP1 | exact LP2 | apply best_seen_next; [exact EPOS | exact B1]]. }
  destruct (LOOP (N.to_nat n) 0 raw_mem lossy_mem te_start ltac:(lia) LR LL) as (e & E & B).
  { left. split; [| reflexivity]. intros k i (_ & _ & L). lia. }
  exists e, err. split; [| split].
  - unfold calculate_transform_track_error. destruct (N.eqb_spec n 0) as [Z | _]; [lia |]. destruct (N.eqb_spec (N.of_nat (length parents)) 0) as [Z | _]; [destruct parents; [contradiction | cbn [length] in Z; lia] | exact E].
  - assert (M0 : (0 < length parents)%nat) by (destruct parents; [contradiction | cbn; lia]).
    destruct B as [(A & _) | (k0 & i0 & (V0 & V1 & _) & E1 & E2 & E3 & A & A')].
    + exfalso. apply (A 0 0%nat). split; [lia |]. split; [exact M0 |]. left. lia.
    + exists k0, i0. split; [exact V0 |]. split; [exact V1 |]. split; [exact E1 |]. split; [exact E2 |]. split; [exact E3 |].
      split; [intros k i K I; apply A; split; [exact K | split; [exact I | left; lia]] | intros k i K I; apply A'; split; [exact K | split; [exact I | left; lia]]].
  - intros k i K I. destruct (ERR k i K I) as (a & b & d & _ & _ & X3 & X4 & X5 & X6). exists a, b, d. auto.
Qed.
Print Assumptions C50_the_worst_transform_is_found.

(** * Examples *)
Example C50_example :
  let parents := [k_invalid_track_index; 0; 1; 0] in
  parents_come_first parents /\
  local_to_object_space N.add parents [1; 10; 100; 1000] (self_indices 4) [7; 7; 7; 7] = Ok [1; 11; 111; 1001] /\
  local_to_object_space N.add parents [1; 10; 100; 1000] [0; 1; 2] [7; 7; 7; 7] = Ok [1; 11; 111; 7] /\
  let calc a b d := f_of_N (a - b) in
  bindo (calculate_transform_track_error N.add calc parents [f_one; f_one; f_one; f_one] 3 (f_of_N 2) (clip_finite_duration 3 (f_of_N 2) lp_clamp)
    (fun _ => [5; 5; 5; 5]) (fun t => [5; 4; if feq t (f_of_N 1) then 2 else 4; 4]) [7; 7; 7; 7] [8; 8; 8; 8])
  (fun e => Ok (te_index e, f_bits (te_error e), f_bits (te_time e))) = Ok (2, f_bits (f_of_N 4), f_bits (f_of_N 1)).
Proof.
  split.
  { intros b p E. destruct (N.to_nat b) as [| [| [| [| q]]]] eqn:B; cbn in E; [injection E as <-; left; reflexivity | | | | destruct q; discriminate E]; injection E as <-; right; lia. }
  vm_compute. repeat split; reflexivity.
Qed.
(** A valid list whose parents come later (C20): the measure reads object space transforms that were not written yet.  The same tracks, without
    any loss, measured with other memory contents: an error of 0, or of 3. *)
Theorem C50_parent_after_child_refuted :
  let parents := [1; k_invalid_track_index] in
  let measure lossy_mem := bindo (calculate_transform_track_error N.add (fun a b _ => f_of_N (a - b)) parents [f_one; f_one] 1 (f_of_N 30) f_zero (fun _ => [2; 1]) (fun _ => [2; 1]) [3; 3] lossy_mem)
    (fun e => Ok (te_index e, f_bits (te_error e))) in
  track_array_is_valid [demo_track 0 1; demo_track 1 k_invalid_track_index] = true /\
  measure [3; 3] = Ok (0, 0) /\ measure [0; 0] = Ok (0, f_bits (f_of_N 3)) /\
  ~ (exists v, nth_error [5; 1] 0 = Some v /\ object_of N.add parents [2; 1] 0 v).
Proof.
  cbv zeta. split; [vm_compute; reflexivity |]. split; [vm_compute; reflexivity |]. split; [vm_compute; reflexivity |].
  intros (v & E & H). injection E as <-. inversion H as [? ? P _ | ? l p v' P NP L H']; subst; [discriminate P |].
  cbn in P. injection P as <-. inversion H' as [? l1 P1 LL1 | ? ? p1 ? P1 NP1 ? ?]; subst; [| cbn in P1; injection P1 as <-; contradiction]. cbn in L, LL1. injection L as <-. injection LL1 as <-. lia.
Qed.
Print Assumptions C50_parent_after_child_refuted.
