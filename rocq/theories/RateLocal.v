(** The search in local space (lemmas only): what it can return, and that it is the smallest. *)
From Coq Require Import ZArith NArith Bool List Lia Sorted.
From Verif Require Import Word WordFacts Float32 Headers RateSearch RateOrder RateFacts.
Import ListNotations.
Local Open Scope N_scope.
Ltac Zify.zify_post_hook ::= idtac.

(** 0 when a constant segment can be stored, 1 when it cannot, 255 when the sub-track is constant *)
Definition initial_ok (r : N) : Prop := r = 0 \/ r = 1 \/ r = 255.
Definition brates_initial (r : brates) : Prop := initial_ok (b_rotation r) /\ initial_ok (b_translation r) /\ initial_ok (b_scale r).
Lemma initial_legal r : brates_initial r -> brates_ok r.
Proof. unfold brates_initial, initial_ok, brates_ok, rate_ok. lia. Qed.

Lemma all_rates_in r : In r all_rates <-> r <= 24.
Proof.
  unfold all_rates. rewrite in_map_iff. split; [intros (k & <- & H); apply in_seq in H; lia | intros H; exists (N.to_nat r); rewrite N2Nat.id, in_seq; lia].
Qed.
Lemma combinations_in d : forall p, In p (combinations d) <-> length p = d /\ Forall (fun r => r <= 24) p.
Proof.
  induction d as [| d IH]; intros p; cbn [combinations].
  - split; [intros [<- | []]; split; [reflexivity | constructor] | intros [H _]; destruct p; [left; reflexivity | discriminate]].
  - rewrite in_flat_map. split.
    + intros (r & Hr & H). apply in_map_iff in H as (q & <- & H). apply IH in H as [H1 H2]. cbn [length]. split; [congruence |]. constructor; [apply all_rates_in, Hr | exact H2].
    + intros [H1 H2]. destruct p as [| r q]; [discriminate |]. inversion H2 as [| ? ? A B]; subst. exists r. split; [apply all_rates_in, A |]. apply in_map, IH. split; [cbn in H1; congruence | exact B].
Qed.
Lemma rate_bits_bound r : rate_bits r <= 32.
Proof.
  unfold rate_bits. destruct (Nat.lt_ge_cases (N.to_nat r) 25) as [L | G]; [| rewrite nth_overflow by exact G; lia].
  assert (F : forallb (fun k => nth k k_bit_rate_num_bits 0 <=? 32) (seq 0 25) = true) by (vm_compute; reflexivity). rewrite forallb_forall in F. apply N.leb_le, F, in_seq. lia.
Qed.
Lemma bits_bound p : bits_of p <= 32 * N.of_nat (length p).
Proof. induction p as [| r p IH]; cbn [bits_of fold_right length]; [lia |]. pose proof (rate_bits_bound r). unfold bits_of in IH. lia. Qed.
Lemma permutations_in d p : In p (rate_permutations d) <-> length p = d /\ Forall (fun r => r <= 24) p.
Proof.
  rewrite <- combinations_in. unfold rate_permutations. rewrite in_flat_map. split; [intros (s & _ & H); apply filter_In in H; apply H |]. intros H. exists (N.to_nat (bits_of p)).
  pose proof (bits_bound p) as B. pose proof (proj1 (combinations_in d p) H) as [L _]. split; [apply in_seq; lia |]. apply filter_In. split; [exact H |]. apply N.eqb_eq. lia.
Qed.
Definition no_larger (p q : list N) : Prop := bits_of p <= bits_of q.
Lemma sorted_app l1 l2 : StronglySorted no_larger l1 -> StronglySorted no_larger l2 -> (forall p q, In p l1 -> In q l2 -> no_larger p q) -> StronglySorted no_larger (l1 ++ l2).
Proof.
  intros S1 S2 H. induction S1 as [| p l S IH F]; cbn [app]; [exact S2 |]. constructor; [apply IH; intros; apply H; [right |]; assumption |].
  apply Forall_app. split; [exact F |]. apply Forall_forall. intros q Q. apply H; [left; reflexivity | exact Q].
Qed.
Lemma permutations_sorted d : StronglySorted no_larger (rate_permutations d).
Proof.
  unfold rate_permutations. set (c := combinations d). clearbody c. generalize (32 * d + 1)%nat as n. intros n. generalize 0%nat as a. induction n as [| n IH]; intros a; cbn [seq flat_map]; [constructor |].
  apply sorted_app; [| apply IH |].
  - assert (E : Forall (fun p => bits_of p = N.of_nat a) (filter (fun l => bits_of l =? N.of_nat a) c)) by (apply Forall_forall; intros p H; apply filter_In in H; apply N.eqb_eq, H).
    clear IH. induction E as [| p l A B C]; constructor; [exact C |]. eapply Forall_impl; [| exact B]. cbn beta. unfold no_larger. intros q Q. lia.
  - intros p q P Q. apply filter_In in P as [_ P]. apply N.eqb_eq in P. apply in_flat_map in Q as (s & S & Q). apply in_seq in S. apply filter_In in Q as [_ Q]. apply N.eqb_eq in Q. unfold no_larger. lia.
Qed.

(** the rates a permutation stands for *)
Lemma variable_of r : initial_ok r -> (is_variable r = true /\ r <= 1) \/ (is_variable r = false /\ r = 255).
Proof. unfold initial_ok, is_variable, k_invalid_bit_rate. intros [-> | [-> | ->]]; [left | left | right]; split; try reflexivity; lia. Qed.
Lemma low_variable x : x <= 24 -> is_variable x = true.
Proof. intros H. unfold is_variable, k_invalid_bit_rate. apply negb_true_iff, N.eqb_neq. lia. Qed.
Lemma low_check x : x <= 24 -> x <> 255. Proof. lia. Qed.
Definition desires (init : brates) (p : list N) (d : brates) : Prop := length p = num_dof init /\ Forall (fun r => r <= 24) p /\ d = desired_rates init p.
Lemma desires_size init p d : brates_initial init -> desires init p d -> transform_size d = bits_of p.
Proof.
  intros (A & B & C) (L & F & ->). destruct init as [r t s]. cbn [b_rotation b_translation b_scale] in *. unfold desired_rates, take_rate, num_dof in *. cbn [b_rotation b_translation b_scale] in *.
  apply variable_of in A, B, C. destruct A as [[A1 A2] | [A1 A2]], B as [[B1 B2] | [B1 B2]], C as [[C1 C2] | [C1 C2]]; rewrite A1, B1, C1 in *; cbn [Nat.add] in L;
    destruct p as [| x [| y [| z [|]]]]; try discriminate L; subst; repeat match goal with H : Forall _ (_ :: _) |- _ => inversion H; clear H; subst end;
    unfold transform_size, counted_bits; cbn [b_rotation b_translation b_scale bits_of fold_right]; rewrite ?(low_variable x), ?(low_variable y), ?(low_variable z) by assumption; cbn [is_variable k_invalid_bit_rate N.eqb negb]; change (is_variable 255) with false; cbn iota; lia.
Qed.
Lemma needs_range init d : needs_segment_range init d = false <-> (b_rotation init = 1 -> b_rotation d <> 0) /\ (b_translation init = 1 -> b_translation d <> 0) /\ (b_scale init = 1 -> b_scale d <> 0).
Proof.
  unfold needs_segment_range, k_lowest_bit_rate. rewrite !orb_false_iff, !andb_false_iff, !N.eqb_neq. lia.
Qed.
Lemma desires_from init p d : brates_initial init -> desires init p d -> needs_segment_range init d = false -> brates_from init d.
Proof.
  intros (A & B & C) (L & F & E). rewrite needs_range. subst d. destruct init as [r t s]. cbn [b_rotation b_translation b_scale] in *. unfold desired_rates, take_rate, num_dof in *. cbn [b_rotation b_translation b_scale] in *.
  apply variable_of in A, B, C. unfold brates_from, rate_from. destruct A as [[A1 A2] | [A1 A2]], B as [[B1 B2] | [B1 B2]], C as [[C1 C2] | [C1 C2]]; rewrite A1, B1, C1 in *; cbn [Nat.add] in L;
    destruct p as [| x [| y [| z [|]]]]; try discriminate L; subst; repeat match goal with H : Forall _ (_ :: _) |- _ => inversion H; clear H; subst end; cbn [b_rotation b_translation b_scale]; lia.
Qed.
Lemma desires_all init d : brates_initial init -> brates_from init d -> exists p, desires init p d /\ needs_segment_range init d = false.
Proof.
  intros (A & B & C) (D & E & F).
  exists ((if is_variable (b_rotation init) then [b_rotation d] else []) ++ (if is_variable (b_translation init) then [b_translation d] else []) ++ (if is_variable (b_scale init) then [b_scale d] else [])).
  rewrite needs_range. unfold desires, desired_rates, take_rate, num_dof. destruct init as [r t s], d as [r' t' s']. cbn [b_rotation b_translation b_scale] in *. unfold rate_from in *.
  apply variable_of in A, B, C. destruct A as [[A1 A2] | [A1 A2]], B as [[B1 B2] | [B1 B2]], C as [[C1 C2] | [C1 C2]]; rewrite A1, B1, C1; cbn [app length Nat.add];
    (split; [split; [reflexivity |]; split; [repeat constructor; lia | f_equal; lia] | lia]).
Qed.

Section Local.
  Context (e : search) (bone : nat) (init : brates).
  Hypothesis I : brates_initial init.
  Definition local_error (d : brates) : f32 := r_local e bone d.
  Definition passes (d : brates) : Prop := flt (local_error d) (r_threshold e bone) = true.
  Definition ofs (p : list N) := desired_rates init p.
  Definition usable (perms : list (list N)) : Prop := Forall (fun p => desires init p (ofs p)) perms.
  Lemma search_from perms : usable perms -> forall best be prev good, brates_from init best -> brates_from init (local_search e bone init perms best be prev good).
  Proof.
    intros U. induction U as [| p perms D U IH]; intros best be prev good B; cbn [local_search]; [exact B |].
    destruct (needs_segment_range _ _) eqn:N; [apply IH, B |]. destruct (good && _); [exact B |]. destruct (flt _ be); apply IH; [| exact B]. apply (desires_from _ _ _ I D N).
  Qed.
  (** once rates that pass were found *)
  Lemma search_good perms : usable perms -> StronglySorted no_larger perms -> forall best prev, transform_size best = prev -> passes best -> Forall (fun p => prev <= bits_of p) perms ->
    let d := local_search e bone init perms best (local_error best) prev true in
    transform_size d = prev /\ passes d /\ flt (local_error best) (local_error d) = false /\
    forall p, In p perms -> needs_segment_range init (ofs p) = false -> bits_of p = prev -> flt (local_error (ofs p)) (local_error d) = false.
  Proof.
    intros U. induction U as [| p perms D U IH]; intros S best prev SZ P F; cbn [local_search]; cbv zeta; [split; [exact SZ |]; split; [exact P |]; split; [apply flt_irrefl | intros p []] |].
    inversion S as [| ? ? S1 S2]; subst. inversion F as [| ? ? F1 F2]; subst. set (prev := transform_size best) in *. fold (ofs p). pose proof (desires_size _ _ _ I D) as SP.
    destruct (needs_segment_range init (ofs p)) eqn:N.
    - destruct (IH S1 best prev eq_refl P F2) as (H1 & H2 & H3 & H4). split; [exact H1 |]. split; [exact H2 |]. split; [exact H3 |]. intros q [<- | Q] NQ BQ; [congruence | apply H4; assumption].
    - cbn [andb]. rewrite SP. destruct (N.eqb_spec (bits_of p) prev) as [EQ | NE]; cbn [negb].
      + rewrite EQ. fold (local_error (ofs p)). destruct (flt (local_error (ofs p)) (local_error best)) eqn:L.
        * assert (PP : passes (ofs p)) by (exact (flt_trans _ _ _ L P)). unfold passes in PP. rewrite PP. fold (passes (ofs p)) in PP.
          destruct (IH S1 (ofs p) prev ltac:(congruence) PP F2) as (H1 & H2 & H3 & H4). split; [exact H1 |]. split; [exact H2 |]. split.
          -- destruct (flt (local_error best) _) eqn:Q; [| reflexivity]. rewrite (flt_trans _ _ _ L Q) in H3. discriminate.
          -- intros q [<- | Q] NQ BQ; [exact H3 | apply H4; assumption].
        * destruct (IH S1 best prev eq_refl P F2) as (H1 & H2 & H3 & H4). split; [exact H1 |]. split; [exact H2 |]. split; [exact H3 |]. intros q [<- | Q] NQ BQ; [| apply H4; assumption].
          set (d := local_search _ _ _ _ _ _ _ _) in *. clearbody d. destruct (flt (local_error (ofs p)) (local_error d)) eqn:Z; [| reflexivity].
          unfold passes in P, H2. assert (NB : fle (local_error d) (local_error best) = true) by (apply not_lt_ge; [apply flt_key in P; tauto | apply flt_key in H2; tauto | exact H3]).
          rewrite (flt_le_trans _ _ _ Z NB) in L. discriminate.
      + split; [reflexivity |]. split; [exact P |]. split; [apply flt_irrefl |]. intros q [<- | Q] _ BQ; [congruence |]. rewrite Forall_forall in S2. specialize (S2 q Q). unfold no_larger in S2. lia.
  Qed.
  (** before *)
  Lemma search_smallest perms : usable perms -> StronglySorted no_larger perms -> forall best be prev, fle (r_threshold e bone) be = true ->
    (exists p, In p perms /\ needs_segment_range init (ofs p) = false /\ passes (ofs p)) ->
    let d := local_search e bone init perms best be prev false in
    passes d /\ forall p, In p perms -> needs_segment_range init (ofs p) = false -> passes (ofs p) ->
      transform_size d <= bits_of p /\ (bits_of p = transform_size d -> flt (local_error (ofs p)) (local_error d) = false).
  Proof.
    intros U. induction U as [| p perms D U IH]; intros S best be prev T (q & Q & NQ & PQ); [destruct Q |]. cbn [local_search]. cbv zeta.
    inversion S as [| ? ? S1 S2]; subst. fold (ofs p). pose proof (desires_size _ _ _ I D) as SP.
    destruct (needs_segment_range init (ofs p)) eqn:N.
    - destruct Q as [<- | Q]; [congruence |]. destruct (IH S1 best be prev T (ex_intro _ q (conj Q (conj NQ PQ)))) as [H1 H2]. split; [exact H1 |]. intros q' [<- | Q'] NQ' PQ'; [congruence | apply H2; assumption].
    - cbn [andb]. fold (local_error (ofs p)). destruct (flt (local_error (ofs p)) (r_threshold e bone)) eqn:P.
      + rewrite (flt_le_trans _ _ _ P T). destruct (search_good perms U S1 (ofs p) _ eq_refl P) as (H1 & H2 & H3 & H4); [rewrite SP; exact S2 |]. set (d := local_search _ _ _ _ _ _ _ _) in *. clearbody d.
        split; [exact H2 |]. rewrite H1. intros q' [<- | Q'] NQ' PQ'; [split; [rewrite SP; lia | intros _; exact H3] |].
        rewrite Forall_forall in S2. specialize (S2 q' Q'). unfold no_larger in S2. rewrite SP. split; [exact S2 |]. intros BQ. apply H4; [exact Q' | exact NQ' | congruence].
      + destruct Q as [<- | Q]; [unfold passes in PQ; congruence |].
        assert (R : forall best be prev, fle (r_threshold e bone) be = true -> let d := local_search e bone init perms best be prev false in passes d /\ forall p', In p' (p :: perms) -> needs_segment_range init (ofs p') = false -> passes (ofs p') ->
          transform_size d <= bits_of p' /\ (bits_of p' = transform_size d -> flt (local_error (ofs p')) (local_error d) = false)).
        { intros best' be' prev' T'. destruct (IH S1 best' be' prev' T' (ex_intro _ q (conj Q (conj NQ PQ)))) as [H1 H2]. split; [exact H1 |]. intros q' [<- | Q'] NQ' PQ'; [unfold passes in PQ'; congruence | apply H2; assumption]. }
        destruct (flt (local_error (ofs p)) be) eqn:L; apply R; [| exact T]. apply flt_key in L. apply fle_key in T. apply not_lt_ge; [tauto | tauto | exact P].
  Qed.
End Local.

Lemma permutations_usable init : usable init (rate_permutations (num_dof init)).
Proof. apply Forall_forall. intros p P. apply permutations_in in P as [L F]. split; [exact L |]. split; [exact F | reflexivity]. Qed.
Lemma local_rates_from e rates bone : Forall brates_ok rates -> brates_initial (brates_at rates bone) -> rates_from rates (local_rates e rates bone).
Proof.
  intros OK I. unfold local_rates. destruct (_ =? _)%nat; [apply rates_from_refl, OK |]. apply rates_from_upd; [apply rates_from_refl, OK |].
  apply search_from; [exact I | apply permutations_usable | apply brates_from_refl, brates_at_ok, OK].
Qed.
Lemma local_rates_other e rates bone b : b <> bone -> brates_at (local_rates e rates bone) b = brates_at rates b.
Proof. intros H. unfold local_rates. destruct (_ =? _)%nat; [reflexivity |]. apply at_upd_other, H. Qed.
Lemma local_all e : forall l rates, NoDup l -> Forall brates_ok rates -> (forall b, In b l -> brates_initial (brates_at rates b)) -> rates_from rates (fold_left (local_rates e) l rates).
Proof.
  induction l as [| b l IH]; intros rates ND OK I; cbn [fold_left]; [apply rates_from_refl, OK |]. inversion ND as [| ? ? NI ND']; subst.
  pose proof (local_rates_from e rates b OK (I b (or_introl eq_refl))) as R. eapply rates_from_trans; [exact R |]. apply IH; [exact ND' | eapply rates_from_ok, R |].
  intros b' Ib. rewrite local_rates_other; [apply I; right; exact Ib | intros ->; contradiction].
Qed.
Lemma local_space_from e rates : Forall brates_initial rates -> rates_from rates (calculate_local_space_bit_rates e rates).
Proof.
  intros H. unfold calculate_local_space_bit_rates. apply local_all; [apply seq_NoDup | eapply Forall_impl; [| exact H]; intros; apply initial_legal; assumption |].
  intros b Ib. apply in_seq in Ib. rewrite Forall_forall in H. apply H. apply nth_In. lia.
Qed.
