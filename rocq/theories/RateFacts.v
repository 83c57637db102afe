(** The search only raises bit rates (lemmas only). *)
From Coq Require Import ZArith NArith Bool List Lia Permutation.
From Verif Require Import Word WordFacts Float32 Headers RateSearch RateOrder.
Import ListNotations.
Local Open Scope N_scope.
Ltac Zify.zify_post_hook ::= idtac.

(** [r'] is [r] or above, at most 24; 255 (constant sub-tracks) stays *)
Definition rate_from (r r' : N) : Prop := (r = 255 /\ r' = 255) \/ (r <= r' <= 24).
Definition brates_from (r r' : brates) : Prop :=
  rate_from (b_rotation r) (b_rotation r') /\ rate_from (b_translation r) (b_translation r') /\ rate_from (b_scale r) (b_scale r').
Definition rates_from (l l' : list brates) : Prop := Forall2 brates_from l l'.
Definition rate_ok (r : N) : Prop := r = 255 \/ r <= 24.
Definition brates_ok (r : brates) : Prop := rate_ok (b_rotation r) /\ rate_ok (b_translation r) /\ rate_ok (b_scale r).
Lemma rate_from_refl r : rate_ok r -> rate_from r r. Proof. unfold rate_ok, rate_from. lia. Qed.
Lemma rate_from_trans a b c : rate_from a b -> rate_from b c -> rate_from a c. Proof. unfold rate_from. lia. Qed.
Lemma rate_from_ok a b : rate_from a b -> rate_ok b. Proof. unfold rate_from, rate_ok. lia. Qed.
Lemma brates_from_refl r : brates_ok r -> brates_from r r.
Proof. intros (A & B & C). repeat split; apply rate_from_refl; assumption. Qed.
Lemma brates_from_trans a b c : brates_from a b -> brates_from b c -> brates_from a c.
Proof. intros (A & B & C) (D & E & F). repeat split; eapply rate_from_trans; eassumption. Qed.
Lemma brates_from_ok a b : brates_from a b -> brates_ok b.
Proof. intros (A & B & C). repeat split; eapply rate_from_ok; eassumption. Qed.
Lemma rates_from_refl l : Forall brates_ok l -> rates_from l l.
Proof. intros H. induction H; constructor; [apply brates_from_refl |]; assumption. Qed.
Lemma rates_from_trans a b c : rates_from a b -> rates_from b c -> rates_from a c.
Proof. intros H. revert c. induction H; intros c K; inversion K; subst; constructor; [eapply brates_from_trans; eassumption | apply IHForall2; assumption]. Qed.
Lemma rates_from_ok a b : rates_from a b -> Forall brates_ok b.
Proof. intros H. induction H; constructor; [eapply brates_from_ok |]; eassumption. Qed.
Lemma rates_from_length a b : rates_from a b -> length b = length a.
Proof. intros H. induction H; cbn [length]; congruence. Qed.
Lemma rates_from_at a b c : rates_from a b -> brates_from (brates_at a c) (brates_at b c).
Proof.
  unfold brates_at. intros H. revert c. induction H; intros [| c]; cbn [nth]; try assumption; try apply IHForall2; repeat split; left; split; reflexivity.
Qed.
Lemma brates_at_ok l c : Forall brates_ok l -> brates_ok (brates_at l c).
Proof. intros H. eapply brates_from_ok, rates_from_at, rates_from_refl, H. Qed.
Lemma rates_from_upd a b c r : rates_from a b -> brates_from (brates_at a c) r -> rates_from a (upd b c r).
Proof.
  unfold brates_at. intros H. revert c. induction H; intros [| c] K; cbn [upd nth] in *; constructor; try assumption. apply IHForall2, K.
Qed.
Lemma upd_ok l c r : Forall brates_ok l -> brates_ok r -> Forall brates_ok (upd l c r).
Proof. apply Forall_upd. Qed.
Lemma upd_same l c : upd l c (brates_at l c) = l.
Proof. unfold brates_at. revert c. induction l as [| x l IH]; intros [| c]; cbn [upd nth]; [reflexivity | reflexivity | reflexivity | rewrite IH; reflexivity]. Qed.
Lemma at_upd_other l c d r : d <> c -> brates_at (upd l c r) d = brates_at l d.
Proof. unfold brates_at. revert c d. induction l as [| x l IH]; intros [| c] [| d] H; cbn [upd nth]; try reflexivity; try congruence. apply IH. congruence. Qed.
Lemma at_upd_same l c r : (c < length l)%nat -> brates_at (upd l c r) c = r.
Proof. unfold brates_at. revert c. induction l as [| x l IH]; intros [| c] H; cbn [upd nth length] in *; try lia; [reflexivity | apply IH; lia]. Qed.

(** ** the sum of the rates *)
Definition sum3 (r : brates) : N := b_rotation r + b_translation r + b_scale r.
Definition total (l : list brates) : N := fold_right (fun r n => sum3 r + n) 0 l.
Lemma sum3_from a b : brates_from a b -> sum3 a <= sum3 b.
Proof. unfold brates_from, rate_from, sum3. lia. Qed.
Lemma sum3_more a b : brates_from a b -> brates_eqb b a = false -> sum3 a < sum3 b.
Proof. unfold brates_from, rate_from, sum3, brates_eqb. rewrite !andb_false_iff, !N.eqb_neq. lia. Qed.
Lemma sum3_bound r : brates_ok r -> sum3 r <= 765.
Proof. unfold brates_ok, rate_ok, sum3. lia. Qed.
Lemma total_from a b : rates_from a b -> total a <= total b.
Proof. intros H. induction H as [| x y l l' A B C]; cbn [total fold_right]; [lia |]. apply sum3_from in A. unfold total in C. lia. Qed.
Lemma total_upd l c r : (c < length l)%nat -> total (upd l c r) + sum3 (brates_at l c) = total l + sum3 r.
Proof.
  unfold brates_at. revert c. induction l as [| x l IH]; intros [| c] H; cbn [length] in H; cbn [upd nth total fold_right]; try lia.
  specialize (IH c ltac:(lia)). unfold total in IH. lia.
Qed.
Lemma total_bound l : Forall brates_ok l -> total l <= 765 * N.of_nat (length l).
Proof. intros H. induction H as [| x l A B C]; cbn [total fold_right length]; [lia |]. apply sum3_bound in A. unfold total in C. lia. Qed.

(** ** a transform *)
Lemma increment_from r k : rate_ok r -> rate_from r (increment_and_clamp r k).
Proof. unfold rate_ok, rate_from, increment_and_clamp, k_highest_bit_rate. destruct (N.leb_spec 24 r); lia. Qed.
Lemma increase_from e rates bone num old : brates_ok (brates_at rates bone) -> brates_from (brates_at rates bone) (fst (increase_bone_bit_rate e rates bone num old)).
Proof.
  intros OK. unfold increase_bone_bit_rate. set (init := brates_at rates bone) in *. clearbody init.
  assert (S : forall ki kt ks b f, brates_from init b -> brates_from init (fst (scale_increments e rates bone init num ki kt ks b f))).
  { intros ki kt ks. induction ks as [| k ks IH]; intros b f B; cbn [scale_increments]; [exact B |].
    destruct (negb _); [destruct (_ <=? _); [exact B | apply IH, B] |].
    assert (B2 : brates_from init {| b_rotation := increment_and_clamp (b_rotation init) ki; b_translation := increment_and_clamp (b_translation init) kt; b_scale := increment_and_clamp (b_scale init) k |}).
    { destruct OK as (O1 & O2 & O3). repeat split; cbn [b_rotation b_translation b_scale]; apply increment_from; assumption. }
    destruct (flt _ f); destruct (_ <=? _); try assumption; apply IH; assumption. }
  assert (T : forall ki kts b f, brates_from init b -> brates_from init (fst (translation_increments e rates bone init num ki kts b f))).
  { intros ki kts. induction kts as [| k kts IH]; intros b f B; cbn [translation_increments]; [exact B |].
    pose proof (S ki k (increments (if r_has_scale e then num else 0)) b f B) as Q. destruct (scale_increments _ _ _ _ _ _ _ _ _ _) as [b' f']. cbn [fst] in Q. destruct (_ <=? _); [exact Q | apply IH, Q]. }
  assert (R : forall kis b f, brates_from init b -> brates_from init (fst (rotation_increments e rates bone init num kis b f))).
  { intros kis. induction kis as [| k kis IH]; intros b f B; cbn [rotation_increments]; [exact B |].
    pose proof (T k (increments num) b f B) as Q. destruct (translation_increments _ _ _ _ _ _ _ _ _) as [b' f']. cbn [fst] in Q. destruct (_ <=? _); [exact Q | apply IH, Q]. }
  apply R, brates_from_refl, OK.
Qed.

(** ** std::next_permutation *)
Lemma swap_last_spec x l y l' : swap_last x l = Some (y, l') -> x < y /\ length l' = length l /\ Permutation (x :: l) (y :: l').
Proof.
  revert y l'. induction l as [| z l IH]; intros y l'; cbn [swap_last]; [discriminate |]. destruct (swap_last x l) as [[w k] |] eqn:E.
  - intros [= <- <-]. destruct (IH w k eq_refl) as (A & B & C). split; [exact A |]. cbn [length]. split; [lia |]. etransitivity; [apply perm_swap |]. etransitivity; [apply perm_skip, C |]. apply perm_swap.
  - destruct (N.ltb_spec x z) as [L |]; [| discriminate]. intros [= <- <-]. split; [exact L |]. split; [reflexivity |]. apply perm_swap.
Qed.
Fixpoint lex (l : list N) : N := match l with [] => 0 | x :: l => x * 256 ^ N.of_nat (length l) + lex l end.
Lemma lex_bound l : Forall (fun x => x < 256) l -> lex l < 256 ^ N.of_nat (length l).
Proof.
  intros H. induction H as [| x l A B C]; cbn [lex length]; [reflexivity |]. rewrite Nat2N.inj_succ, N.pow_succ_r'. set (P := 256 ^ N.of_nat (length l)) in *. clearbody P. clear B.
  assert (x * P <= 255 * P) by (apply N.mul_le_mono_r; lia). lia.
Qed.
Lemma next_permutation_spec l l' : Forall (fun x => x < 256) l -> next_permutation l = Some l' -> length l' = length l /\ Permutation l l' /\ lex l < lex l'.
Proof.
  revert l'. induction l as [| x l IH]; intros l' F; cbn [next_permutation]; [discriminate |]. inversion F as [| ? ? F1 F2]; subst. destruct (next_permutation l) as [k |] eqn:E.
  - intros [= <-]. destruct (IH k F2 eq_refl) as (A & B & C). cbn [length lex]. split; [lia |]. split; [constructor; exact B |]. rewrite A. lia.
  - destruct (swap_last x l) as [[y k] |] eqn:S; [| discriminate]. intros [= <-]. apply swap_last_spec in S as (A & B & C). cbn [length lex]. rewrite rev_length. split; [lia |].
    split; [etransitivity; [exact C |]; constructor; apply Permutation_rev |]. rewrite B. pose proof (lex_bound l F2) as L. set (P := 256 ^ N.of_nat (length l)) in *. clearbody P. clear - A L.
    assert ((x + 1) * P <= y * P) by (apply N.mul_le_mono_r; lia). lia.
Qed.

(** ** a permutation of the increments *)
Lemma permutation_rates_from e rates old chain perm pr valid : Forall brates_ok rates -> rates_from rates pr -> rates_from rates (fst (permutation_rates e rates old chain perm pr valid)).
Proof.
  intros OK. revert perm pr valid. induction chain as [| c chain IH]; intros [| k perm] pr valid H; cbn [permutation_rates]; try exact H. destruct (k =? 0); [apply IH, H |].
  apply IH, rates_from_upd; [exact H |]. apply increase_from, brates_at_ok, OK.
Qed.
(** when one of the rates differs, the sum is larger *)
Lemma permutation_rates_more e rates old chain perm pr valid : NoDup chain -> Forall brates_ok rates -> rates_from rates pr -> (forall c, In c chain -> brates_at pr c = brates_at rates c) ->
  (valid = true -> total rates < total pr) -> snd (permutation_rates e rates old chain perm pr valid) = true -> total rates < total (fst (permutation_rates e rates old chain perm pr valid)).
Proof.
  intros ND OK. revert perm pr valid. induction ND as [| c chain NI ND IH]; intros [| k perm] pr valid H SAME V; cbn [permutation_rates]; try exact V.
  destruct (k =? 0); [apply IH; [exact H | intros d D; apply SAME; right; exact D | exact V] |].
  set (b := fst (increase_bone_bit_rate e rates c k old)).
  assert (B : brates_from (brates_at pr c) b) by (rewrite (SAME c (or_introl eq_refl)); apply increase_from, brates_at_ok, OK).
  apply IH.
  - apply rates_from_upd; [exact H |]. rewrite <- (SAME c (or_introl eq_refl)). exact B.
  - intros d D. rewrite at_upd_other; [apply SAME; right; exact D | intros ->; contradiction].
  - intros Q. destruct (Nat.lt_ge_cases c (length pr)) as [L | G].
    + pose proof (total_upd pr c b L) as T. pose proof (total_from _ _ H) as T2. pose proof (sum3_from _ _ B) as T3. apply orb_true_iff in Q as [Q | Q]; [specialize (V Q); lia |].
      apply negb_true_iff in Q. pose proof (sum3_more _ _ B Q). lia.
    + assert (E : brates_at pr c = no_rates) by (unfold brates_at; apply nth_overflow; exact G).
      assert (E2 : b = no_rates). { rewrite E in B. destruct b as [b1 b2 b3]. unfold brates_from, rate_from, no_rates, k_invalid_bit_rate in B. cbn in B. unfold no_rates, k_invalid_bit_rate. f_equal; lia. }
      assert (E3 : upd pr c b = pr) by (rewrite E2, <- E; apply upd_same). rewrite E3. apply orb_true_iff in Q as [Q | Q]; [exact (V Q) |]. rewrite E, E2 in Q. discriminate Q.
Qed.

(** what the loop over the permutations returns: nothing better, and the buffer it was given; or rates that are better and above *)
Definition better (e : search) (rates : list brates) (bone : nat) (old : f32) (buffer : list brates) (error : f32) (out : list brates) : Prop :=
  (error = old /\ out = buffer) \/
  (flt error old = true /\ rates_from rates out /\ (NoDup (r_chain e bone) -> total rates < total out) /\ error = r_object e false out bone).
Lemma permutation_loop_better e rates bone old fuel : Forall brates_ok rates -> forall perm best_error best buffer error out,
  better e rates bone old buffer best_error best -> permutation_loop fuel e rates bone old perm best_error best = Ok (error, out) -> better e rates bone old buffer error out.
Proof.
  intros OK. induction fuel as [| fuel IH]; intros perm be b buffer error out B; cbn [permutation_loop]; [discriminate |].
  pose proof (permutation_rates_from e rates old (r_chain e bone) perm rates false OK (rates_from_refl _ OK)) as P.
  pose proof (fun ND => permutation_rates_more e rates old (r_chain e bone) perm rates false ND OK (rates_from_refl _ OK) (fun _ _ => eq_refl) ltac:(discriminate)) as T.
  destruct (permutation_rates e rates old (r_chain e bone) perm rates false) as [pr valid]. cbn [fst snd] in *.
  assert (NX : forall be b, better e rates bone old buffer be b -> match next_permutation perm with Some perm => permutation_loop fuel e rates bone old perm be b | None => Ok (be, b) end = Ok (error, out) ->
    better e rates bone old buffer error out).
  { intros be' b' B'. destruct (next_permutation perm) as [perm' |]; [apply IH, B' |]. intros [= <- <-]. exact B'. }
  destruct valid; cbn [negb]; [| apply NX, B]. destruct (flt (r_object e false pr bone) be) eqn:F; [| apply NX, B].
  assert (B2 : better e rates bone old buffer (r_object e false pr bone) pr).
  { right. split; [destruct B as [[-> _] | [B _]]; [exact F | exact (flt_trans _ _ _ F B)] |]. split; [exact P |]. split; [intros ND; apply T; [exact ND | reflexivity] | reflexivity]. }
  destruct (flt _ (r_threshold e bone)); [intros [= <- <-]; exact B2 | apply NX, B2].
Qed.

(** ** the attempts *)
(** what has been found since the start of a level: nothing, and the best rates are those of before; or rates that are better and above *)
Definition level_state (e : search) (rates : list brates) (bone : nat) (original : f32) (before : list brates) (k : climbing) : Prop :=
  (k_best_error k = original /\ k_error k = original /\ k_best k = before) \/
  (flt (k_best_error k) original = true /\ rates_from rates (k_best k) /\ (NoDup (r_chain e bone) -> total rates < total (k_best k)) /\ k_best_error k = r_object e false (k_best k) bone).
Lemma attempt_state e rates bone original before p fuel k finished k' : Forall brates_ok rates -> level_state e rates bone original before k ->
  attempt fuel e rates bone original p k = Ok (finished, k') ->
  level_state e rates bone original before k' /\ (finished = true -> k_error k' = k_best_error k' /\ flt (k_best_error k') original = true /\ flt (k_error k') (r_threshold e bone) = true).
Proof.
  intros OK L. unfold attempt. destruct (permutation_loop _ _ _ _ _ _ _ _) as [[error buffer] | |] eqn:E; cbn [bindo]; [| discriminate | discriminate].
  apply (permutation_loop_better _ _ _ _ _ OK _ _ _ (k_buffer k)) in E; [| left; auto]. destruct (flt error (k_best_error k)) eqn:F; intros [= <- <-]; unfold level_state; cbn [k_error k_best_error k_best].
  - assert (FO : flt error original = true) by (destruct L as [(L & _) | (L & _)]; [rewrite <- L; exact F | exact (flt_trans _ _ _ F L)]).
    destruct E as [[-> _] | (_ & E2 & E3 & E4)]; [rewrite flt_irrefl in FO; discriminate |]. split; [right; auto | intros T; auto].
  - split; [| discriminate]. destruct L as [(L1 & L2 & L3) | L]; [| right; exact L]. left. destruct E as [[-> _] | (E & _)]; [auto | rewrite L1, E in F; discriminate].
Qed.
Lemma attempts_state e rates bone original before fuel : Forall brates_ok rates -> forall l k finished k', level_state e rates bone original before k ->
  attempts fuel e rates bone original l k = Ok (finished, k') ->
  level_state e rates bone original before k' /\ (finished = true -> k_error k' = k_best_error k' /\ flt (k_best_error k') original = true /\ flt (k_error k') (r_threshold e bone) = true).
Proof.
  intros OK. induction l as [| p l IH]; intros k finished k' L; cbn [attempts]; [intros [= <- <-]; split; [exact L | discriminate] |].
  destruct (attempt _ _ _ _ _ _ _) as [[fin k1] | |] eqn:E; cbn [bindo]; [| discriminate | discriminate]. apply (attempt_state _ _ _ _ before) in E as [L1 E]; [| exact OK | exact L].
  destruct fin; [intros [= <- <-]; split; [exact L1 | exact E] | apply IH, L1].
Qed.

(** ** the loop over the levels *)
(** what comes out: the rates are above; the error is the same and so are the best rates, or the error is smaller and the best rates are above *)
Definition climbed (rates : list brates) (k : climbing) (rates' : list brates) (k' : climbing) : Prop :=
  rates_from rates rates' /\
  ((k_error k' = k_error k /\ k_best k' = k_best k /\ rates' = rates) \/ (flt (k_error k') (k_error k) = true /\ rates_from rates (k_best k'))).
Lemma climb_climbed e bone fuel : forall rates k rates' k', Forall brates_ok rates -> climb fuel e rates bone k = Ok (rates', k') -> climbed rates k rates' k'.
Proof.
  induction fuel as [| fuel IH]; intros rates k rates' k' OK.
  - cbn [climb]. destruct (negb _); [| discriminate]. intros [= <- <-]. split; [apply rates_from_refl, OK | left; auto].
  - cbn [climb]. destruct (fge (k_error k) (r_threshold e bone)) eqn:G; cbn [negb]; [| intros [= <- <-]; split; [apply rates_from_refl, OK | left; auto]].
    destruct (attempts _ _ _ _ _ _ _) as [[fin k1] | |] eqn:E; cbn [bindo]; [| discriminate | discriminate].
    apply (attempts_state _ _ _ _ (k_best k)) in E as [L E]; [| exact OK | left; auto].
    destruct fin.
    + intros [= <- <-]. destruct (E eq_refl) as (E1 & E2 & _). split; [apply rates_from_refl, OK |]. right. rewrite E1. split; [exact E2 |]. destruct L as [(L & _) | (_ & L & _)]; [rewrite L, flt_irrefl in E2; discriminate | exact L].
    + destruct (fge (k_best_error k1) (k_error k)) eqn:NP.
      * intros [= <- <-]. split; [apply rates_from_refl, OK |]. left. destruct L as [(L1 & L2 & L3) | (L & _)]; [auto | apply flt_not_ge in L; congruence].
      * destruct L as [(L1 & L2 & L3) | (L1 & L2 & L3)]; [apply fge_refl in G; rewrite L1 in NP; congruence |]. rewrite L1. intros C. apply IH in C as [C1 C2]; [| eapply rates_from_ok, L2].
        split; [eapply rates_from_trans; eassumption |]. right. cbn [k_error k_best] in C2. destruct C2 as [(C2 & C3 & _) | (C2 & C3)]; [rewrite C2, C3; auto |]. split; [exact (flt_trans _ _ _ C2 L1) | eapply rates_from_trans; eassumption].
Qed.

(** ** the rest *)
Lemma raise_from r : brates_ok r -> smallest_rate r < 24 -> brates_from r (raise r) /\ sum3 (raise r) = sum3 r + 1.
Proof.
  unfold brates_ok, rate_ok, smallest_rate, raise, k_highest_bit_rate, brates_from, rate_from, sum3. intros OK S.
  destruct ((b_rotation r =? b_translation r) && (b_translation r <? 24) && (24 <=? b_scale r)) eqn:E; cbn [b_rotation b_translation b_scale].
  - apply andb_prop in E as [E _]. apply andb_prop in E as [_ E]. apply N.ltb_lt in E. lia.
  - clear E. destruct (N.eqb_spec (b_rotation r) (smallest_rate r)) as [E | E]; unfold smallest_rate in E; cbn [b_rotation b_translation b_scale]; [lia |].
    destruct (N.eqb_spec (b_translation r) (smallest_rate r)) as [E2 | E2]; unfold smallest_rate in E2; cbn [b_rotation b_translation b_scale]; lia.
Qed.
(** the best rates of a transform and their error *)
Lemma widen_bone_from e bone c base fuel : forall rates error best best_error out best' best_error',
  rates_from base rates -> brates_from (brates_at base c) best -> best_error = r_object e true (upd base c best) bone -> rates = upd base c (brates_at rates c) ->
  widen_bone fuel e rates bone c error best best_error = Ok (out, best', best_error') ->
  brates_from (brates_at base c) best' /\ best_error' = r_object e true (upd base c best') bone.
Proof.
  assert (UU : forall r r', upd (upd base c r) c r' = upd base c r').
  { intros r r'. generalize c. induction base as [| x l IH]; intros [| d]; cbn [upd]; try reflexivity. rewrite IH. reflexivity. }
  induction fuel as [| fuel IH]; intros rates error best be out best' be' R B EB ER; cbn [widen_bone].
  - destruct (negb _); [intros [= <- <- <-]; auto |]. destruct (_ <=? _); [intros [= <- <- <-]; auto | discriminate].
  - destruct (negb _); [intros [= <- <- <-]; auto |]. destruct (N.leb_spec k_highest_bit_rate (smallest_rate (brates_at rates c))) as [| L]; [intros [= <- <- <-]; auto |].
    pose proof (raise_from (brates_at rates c) (brates_at_ok _ _ (rates_from_ok _ _ R)) L) as [RF _].
    assert (RF2 : brates_from (brates_at base c) (raise (brates_at rates c))) by (eapply brates_from_trans; [apply rates_from_at, R | exact RF]).
    assert (R2 : rates_from base (upd rates c (raise (brates_at rates c)))) by (apply rates_from_upd; assumption).
    assert (ER2 : forall r, upd rates c r = upd base c (brates_at (upd rates c r) c)).
    { intros r. rewrite ER at 1. rewrite UU. destruct (Nat.lt_ge_cases c (length rates)) as [K | K]; [rewrite at_upd_same by exact K; reflexivity |].
      pose proof (rates_from_length _ _ R) as LE. assert (NO : forall r, upd base c r = base). { intros r0. assert (K2 : (length base <= c)%nat) by lia. clear - K2. revert c K2. induction base as [| x l I]; intros [| d] K; cbn [upd length] in *; try reflexivity; [lia |]. rewrite I by lia. reflexivity. } rewrite !NO. reflexivity. }
    destruct (flt _ be).
    + apply IH; [exact R2 | exact RF2 | | apply ER2]. rewrite ER at 1. rewrite UU. reflexivity.
    + apply IH; [exact R2 | exact B | exact EB | apply ER2].
Qed.
Lemma widen_chain_from e bone fuel : forall chain rates error maxed rates' error' maxed', Forall brates_ok rates -> error = r_object e true rates bone ->
  widen_chain fuel e rates bone chain error maxed = Ok (rates', error', maxed') -> rates_from rates rates' /\ error' = r_object e true rates' bone.
Proof.
  induction chain as [| c chain IH]; intros rates error maxed rates' error' maxed' OK EE; cbn [widen_chain]; [intros [= <- <- <-]; split; [apply rates_from_refl, OK | exact EE] |].
  destruct (widen_bone _ _ _ _ _ _ _ _) as [[[out b] be] | |] eqn:E; cbn [bindo]; [| discriminate | discriminate].
  apply (widen_bone_from e bone c rates) in E as [B BE]; [| apply rates_from_refl, OK | apply brates_from_refl, brates_at_ok, OK | rewrite upd_same; exact EE | symmetry; apply upd_same].
  assert (R : rates_from rates (upd rates c b)) by (apply rates_from_upd; [apply rates_from_refl, OK | exact B]).
  destruct (flt be (r_threshold e bone)); [intros [= <- <- <-]; split; [exact R | exact BE] |]. intros C. apply IH in C as [C1 C2]; [| eapply rates_from_ok, R | exact BE].
  split; [eapply rates_from_trans; eassumption | exact C2].
Qed.
Lemma widen_from e bone fuel : forall rates error rates' error', Forall brates_ok rates -> error = r_object e true rates bone ->
  widen fuel e rates bone error = Ok (rates', error') -> rates_from rates rates' /\ error' = r_object e true rates' bone.
Proof.
  induction fuel as [| fuel IH]; intros rates error rates' error' OK EE; cbn [widen].
  - destruct (negb _); [| discriminate]. intros [= <- <-]. split; [apply rates_from_refl, OK | exact EE].
  - destruct (negb _); [intros [= <- <-]; split; [apply rates_from_refl, OK | exact EE] |].
    destruct (widen_chain _ _ _ _ _ _ _) as [[[r1 e1] m1] | |] eqn:E; cbn [bindo]; [| discriminate | discriminate]. apply widen_chain_from in E as [E1 E2]; [| exact OK | exact EE].
    destruct (_ =? _)%nat; [intros [= <- <-]; auto |]. intros W. apply IH in W as [W1 W2]; [| eapply rates_from_ok, E1 | exact E2]. split; [eapply rates_from_trans; eassumption | exact W2].
Qed.
Lemma max_out_from r : brates_ok r -> brates_from r (max_out r).
Proof. unfold brates_ok, rate_ok, brates_from, rate_from, max_out, k_highest_bit_rate. cbn [b_rotation b_translation b_scale]. lia. Qed.
Lemma max_out_chain_from e bone : forall chain rates, Forall brates_ok rates -> rates_from rates (max_out_chain e rates bone chain).
Proof.
  induction chain as [| c chain IH]; intros rates OK; cbn [max_out_chain]; [apply rates_from_refl, OK |].
  assert (R : rates_from rates (upd rates c (max_out (brates_at rates c)))) by (apply rates_from_upd; [apply rates_from_refl, OK | apply max_out_from, brates_at_ok, OK]).
  destruct (flt _ _); [exact R |]. eapply rates_from_trans; [exact R | apply IH; eapply rates_from_ok, R].
Qed.
Lemma optimize_bone_from e bone fuel rates best buffer rates' best' buffer' : Forall brates_ok rates -> optimize_bone fuel e bone rates best buffer = Ok (rates', best', buffer') -> rates_from rates rates'.
Proof.
  intros OK. unfold optimize_bone. destruct (flt _ _); [intros [= <- <- <-]; apply rates_from_refl, OK |].
  destruct (climb _ _ _ _ _) as [[r1 k1] | |] eqn:E; cbn [bindo]; [| discriminate | discriminate]. apply climb_climbed in E as [E1 E2]; [| exact OK]. cbn [k_error k_best] in E2.
  set (r2 := if flt (k_error k1) _ then k_best k1 else r1).
  assert (R2 : rates_from rates r2). { subst r2. destruct (flt _ _) eqn:F; [| exact E1]. destruct E2 as [(E2 & _) | (_ & E2)]; [rewrite E2, flt_irrefl in F; discriminate | exact E2]. }
  destruct (widen _ _ _ _ _) as [[r3 e3] | |] eqn:W; cbn [bindo]; [| discriminate | discriminate]. apply widen_from in W as [W _]; [| eapply rates_from_ok, R2 | reflexivity].
  intros [= <- <- <-]. pose proof (rates_from_trans _ _ _ R2 W) as R3. destruct (_ && _); [| exact R3]. eapply rates_from_trans; [exact R3 |]. apply max_out_chain_from. eapply rates_from_ok, R3.
Qed.
Lemma optimize_bones_from e fuel : forall order rates best buffer rates', Forall brates_ok rates -> optimize_bones fuel e order rates best buffer = Ok rates' -> rates_from rates rates'.
Proof.
  induction order as [| b order IH]; intros rates best buffer rates' OK; cbn [optimize_bones]; [intros [= <-]; apply rates_from_refl, OK |].
  destruct (optimize_bone _ _ _ _ _ _) as [[[r1 b1] f1] | |] eqn:E; cbn [bindo]; [| discriminate | discriminate]. apply optimize_bone_from in E; [| exact OK].
  intros H. apply IH in H; [eapply rates_from_trans; eassumption | eapply rates_from_ok, E].
Qed.
