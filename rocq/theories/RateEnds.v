(** The search ends, and what its buffers held before does not matter (lemmas only). *)
From Coq Require Import ZArith NArith Bool List Lia Permutation.
From Verif Require Import Word WordFacts Float32 Headers RateSearch RateOrder RateFacts RateLocal.
Import ListNotations.
Local Open Scope N_scope.
Ltac Zify.zify_post_hook ::= idtac.

(** ** More fuel changes nothing *)
Lemma permutation_loop_more e rates bone old fuel : forall perm be b r, permutation_loop fuel e rates bone old perm be b = Ok r -> permutation_loop (S fuel) e rates bone old perm be b = Ok r.
Proof.
  induction fuel as [| fuel IH]; intros perm be b r; [discriminate |]. intros H.
  remember (S fuel) as f1 eqn:E1. cbn [permutation_loop]. subst f1. cbn [permutation_loop] in H. destruct (permutation_rates _ _ _ _ _ _ _) as [pr valid]. destruct valid; cbn [negb] in *.
  - destruct (flt _ be); [destruct (flt _ (r_threshold e bone)); [exact H |] |]; destruct (next_permutation perm); try exact H; apply IH, H.
  - destruct (next_permutation perm); [apply IH, H | exact H].
Qed.
Lemma attempt_more e rates bone original p fuel k r : attempt fuel e rates bone original p k = Ok r -> attempt (S fuel) e rates bone original p k = Ok r.
Proof.
  unfold attempt. destruct (permutation_loop fuel _ _ _ _ _ _ _) as [[error buffer] | |] eqn:E; cbn [bindo]; [| discriminate | discriminate]. apply permutation_loop_more in E. rewrite E. cbn [bindo]. auto.
Qed.
Lemma attempts_more e rates bone original fuel : forall l k r, attempts fuel e rates bone original l k = Ok r -> attempts (S fuel) e rates bone original l k = Ok r.
Proof.
  induction l as [| p l IH]; intros k r; cbn [attempts]; [auto |]. destruct (attempt fuel _ _ _ _ _ _) as [[fin k1] | |] eqn:E; cbn [bindo]; [| discriminate | discriminate]. apply attempt_more in E. rewrite E. cbn [bindo].
  destruct fin; [auto | apply IH].
Qed.
Lemma climb_more e bone fuel : forall rates k r, climb fuel e rates bone k = Ok r -> climb (S fuel) e rates bone k = Ok r.
Proof.
  induction fuel as [| fuel IH]; intros rates k r H.
  - cbn [climb] in *. destruct (negb _); [exact H | discriminate].
  - remember (S fuel) as f1 eqn:E1. cbn [climb]. subst f1. cbn [climb] in H. destruct (negb _); [exact H |].
    destruct (attempts (S fuel) _ _ _ _ _ _) as [[fin k1] | |] eqn:E; cbn [bindo] in H; [| discriminate | discriminate]. apply attempts_more in E. rewrite E. cbn [bindo].
    destruct fin; [exact H |]. destruct (fge _ _); [exact H | apply IH, H].
Qed.
Lemma widen_bone_more e bone c fuel : forall rates error best be r, widen_bone fuel e rates bone c error best be = Ok r -> widen_bone (S fuel) e rates bone c error best be = Ok r.
Proof.
  induction fuel as [| fuel IH]; intros rates error best be r H.
  - cbn [widen_bone] in *. destruct (negb _); [exact H |]. destruct (_ <=? _); [exact H | discriminate].
  - remember (S fuel) as f1 eqn:E1. cbn [widen_bone]. subst f1. cbn [widen_bone] in H. destruct (negb _); [exact H |]. destruct (_ <=? _); [exact H |]. destruct (flt _ be); apply IH, H.
Qed.
Lemma widen_chain_more e bone fuel : forall chain rates error m r, widen_chain fuel e rates bone chain error m = Ok r -> widen_chain (S fuel) e rates bone chain error m = Ok r.
Proof.
  induction chain as [| c chain IH]; intros rates error m r; cbn [widen_chain]; [auto |]. destruct (widen_bone fuel _ _ _ _ _ _ _) as [[[out b] be] | |] eqn:E; cbn [bindo]; [| discriminate | discriminate].
  apply widen_bone_more in E. rewrite E. cbn [bindo]. destruct (flt _ _); [auto | apply IH].
Qed.
Lemma widen_more e bone fuel : forall rates error r, widen fuel e rates bone error = Ok r -> widen (S fuel) e rates bone error = Ok r.
Proof.
  induction fuel as [| fuel IH]; intros rates error r H.
  - cbn [widen] in *. destruct (negb _); [exact H | discriminate].
  - remember (S fuel) as f1 eqn:E1. cbn [widen]. subst f1. cbn [widen] in H. destruct (negb _); [exact H |]. destruct (widen_chain (S fuel) _ _ _ _ _ _) as [[[r1 e1] m1] | |] eqn:E; cbn [bindo] in H; [| discriminate | discriminate].
    apply widen_chain_more in E. rewrite E. cbn [bindo]. destruct (_ =? _)%nat; [exact H | apply IH, H].
Qed.
Lemma optimize_bone_more e bone fuel rates best buffer r : optimize_bone fuel e bone rates best buffer = Ok r -> optimize_bone (S fuel) e bone rates best buffer = Ok r.
Proof.
  unfold optimize_bone. destruct (flt _ _); [auto |]. destruct (climb fuel _ _ _ _) as [[r1 k1] | |] eqn:E; cbn [bindo]; [| discriminate | discriminate]. apply climb_more in E. rewrite E. cbn [bindo].
  destruct (widen fuel _ _ _ _) as [[r3 e3] | |] eqn:W; cbn [bindo]; [| discriminate | discriminate]. apply widen_more in W. rewrite W. cbn [bindo]. auto.
Qed.
Lemma optimize_bones_more e fuel : forall order rates best buffer r, optimize_bones fuel e order rates best buffer = Ok r -> optimize_bones (S fuel) e order rates best buffer = Ok r.
Proof.
  induction order as [| b order IH]; intros rates best buffer r; cbn [optimize_bones]; [auto |]. destruct (optimize_bone fuel _ _ _ _ _) as [[[r1 b1] f1] | |] eqn:E; cbn [bindo]; [| discriminate | discriminate].
  apply optimize_bone_more in E. rewrite E. cbn [bindo]. apply IH.
Qed.
Lemma more_fuel {A} (f : nat -> outcome A) (r : A) : (forall n, f n = Ok r -> f (S n) = Ok r) -> forall n n', (n <= n')%nat -> f n = Ok r -> f n' = Ok r.
Proof. intros H n n' L. induction L; auto. Qed.

(** ** Enough fuel *)
Lemma permutation_loop_ends e rates bone old fuel : forall perm be b, Forall (fun x => x < 256) perm -> (N.to_nat (256 ^ N.of_nat (length perm) - lex perm) <= fuel)%nat ->
  exists r, permutation_loop fuel e rates bone old perm be b = Ok r.
Proof.
  induction fuel as [| fuel IH]; intros perm be b F B.
  - pose proof (lex_bound perm F). exfalso. lia.
  - cbn [permutation_loop]. destruct (permutation_rates _ _ _ _ _ _ _) as [pr valid].
    assert (NX : forall be b, exists r, match next_permutation perm with Some perm => permutation_loop fuel e rates bone old perm be b | None => Ok (be, b) end = Ok r).
    { intros be' b'. destruct (next_permutation perm) as [perm' |] eqn:E; [| eauto]. pose proof (next_permutation_spec _ _ F E) as (L & P & X). pose proof (lex_bound perm F) as LB.
      assert (F2 : Forall (fun x => x < 256) perm') by (eapply Permutation_Forall; eassumption). apply IH; [exact F2 |]. rewrite L. pose proof (lex_bound perm' F2) as LB2. rewrite L in LB2.
      set (P256 := 256 ^ N.of_nat (length perm)) in *. clearbody P256. clear - B X LB LB2. lia. }
    destruct valid; cbn [negb]; [| apply NX]. destruct (flt _ be); [| apply NX]. destruct (flt _ _); [eauto | apply NX].
Qed.
Definition permutation_fuel (n : nat) : nat := N.to_nat (256 ^ N.of_nat (n + 3)).
Lemma permutation_fuel_pos n : (1 <= permutation_fuel n)%nat.
Proof. unfold permutation_fuel. pose proof (N.pow_nonzero 256 (N.of_nat (n + 3)) ltac:(lia)) as P. set (Q := 256 ^ _) in *. clearbody Q. lia. Qed.
Definition short (p : list N) : Prop := (length p <= 3)%nat /\ Forall (fun x => x < 256) p.
Lemma patterns_short level n : Forall short (patterns level n).
Proof.
  assert (S1 : short [1]) by (split; [cbn; lia | repeat constructor; lia]). assert (S2 : short [2]) by (split; [cbn; lia | repeat constructor; lia]). assert (S3 : short [3]) by (split; [cbn; lia | repeat constructor; lia]).
  assert (S4 : short [1; 1]) by (split; [cbn; lia | repeat constructor; lia]). assert (S5 : short [2; 1]) by (split; [cbn; lia | repeat constructor; lia]). assert (S6 : short [1; 1; 1]) by (split; [cbn; lia | repeat constructor; lia]).
  unfold patterns. repeat (apply Forall_app; split); [repeat constructor; exact S1 | |].
  - destruct (3 <=? level); [| constructor]. apply Forall_app. split; [repeat constructor; exact S2 |]. destruct (_ <? _); [repeat constructor; exact S4 | constructor].
  - destruct (4 <=? level); [| constructor]. apply Forall_app. split; [repeat constructor; exact S3 |]. destruct (_ <? _); [| constructor]. apply Forall_app. split; [repeat constructor; exact S5 |]. destruct (_ <? _); [repeat constructor; exact S6 | constructor].
Qed.
Lemma attempt_ends e rates bone original p fuel k : short p -> (permutation_fuel (length (r_chain e bone)) <= fuel)%nat -> exists r, attempt fuel e rates bone original p k = Ok r.
Proof.
  intros [S1 S2] B. unfold attempt. set (perm := repeat 0 (length (r_chain e bone) - length p) ++ p).
  assert (F : Forall (fun x => x < 256) perm) by (apply Forall_app; split; [apply Forall_forall; intros x X; apply repeat_spec in X; subst; lia | exact S2]).
  destruct (permutation_loop_ends e rates bone original fuel perm original (k_buffer k) F) as [[error buffer] E].
  { eapply Nat.le_trans; [| exact B]. unfold permutation_fuel. assert (L : (length perm <= length (r_chain e bone) + 3)%nat) by (unfold perm; rewrite app_length, repeat_length; lia).
    assert (Q : 256 ^ N.of_nat (length perm) <= 256 ^ N.of_nat (length (r_chain e bone) + 3)) by (apply N.pow_le_mono_r; lia). set (x := 256 ^ N.of_nat (length perm)) in *. set (y := 256 ^ N.of_nat (_ + 3)) in *. clearbody x y. clear - Q. lia. }
  rewrite E. cbn [bindo]. destruct (flt _ _); eauto.
Qed.
Lemma attempts_end e rates bone original fuel : (permutation_fuel (length (r_chain e bone)) <= fuel)%nat -> forall l k, Forall short l -> exists r, attempts fuel e rates bone original l k = Ok r.
Proof.
  intros B. induction l as [| p l IH]; intros k F; cbn [attempts]; [eauto |]. inversion F as [| ? ? F1 F2]; subst. destruct (attempt_ends e rates bone original p fuel k F1 B) as [[fin k1] E]. rewrite E. cbn [bindo].
  destruct fin; [eauto | apply IH, F2].
Qed.
Lemma climb_ends e bone n : NoDup (r_chain e bone) -> forall fuel rates k, length rates = n -> Forall brates_ok rates ->
  (permutation_fuel (length (r_chain e bone)) + N.to_nat (765 * N.of_nat n - total rates) <= fuel)%nat -> exists r, climb fuel e rates bone k = Ok r.
Proof.
  intros ND. induction fuel as [| fuel IH]; intros rates k L OK B; [pose proof (permutation_fuel_pos (length (r_chain e bone))); exfalso; lia |].
  cbn [climb]. destruct (fge (k_error k) (r_threshold e bone)) eqn:G; cbn [negb]; [| eauto].
  destruct (attempts_end e rates bone (k_error k) (S fuel) ltac:(lia) (patterns (r_level e) (length (r_chain e bone))) {| k_error := k_error k; k_best_error := k_error k; k_best := k_best k; k_buffer := k_buffer k |} (patterns_short _ _)) as [[fin k1] E].
  rewrite E. cbn [bindo]. destruct fin; [eauto |]. apply (attempts_state _ _ _ _ (k_best k)) in E as [LS _]; [| exact OK | left; auto].
  destruct (fge (k_best_error k1) (k_error k)) eqn:NP; [eauto |]. destruct LS as [(L1 & _) | (L1 & L2 & L3 & _)]; [apply fge_refl in G; rewrite L1 in NP; congruence |]. rewrite L1.
  specialize (L3 ND). pose proof (rates_from_length _ _ L2) as LL. pose proof (rates_from_ok _ _ L2) as OK2. apply IH; [congruence | exact OK2 |]. pose proof (total_bound _ OK2) as TB. rewrite LL, L in TB. lia.
Qed.
(** no error is NaN *)
Definition comparable (e : search) (bone : nat) : Prop := fnan (r_threshold e bone) = false /\ forall l, fnan (r_object e true l bone) = false.
Lemma widen_bone_ends e bone c : comparable e bone -> forall fuel rates error best be, Forall brates_ok rates -> (N.to_nat (765 - sum3 (brates_at rates c)) <= fuel)%nat ->
  fnan error = false ->
  (fge error (r_threshold e bone) = false -> flt be (r_threshold e bone) = true) -> (fge error (r_threshold e bone) = true -> fge be (r_threshold e bone) = true) ->
  exists out best' be', widen_bone fuel e rates bone c error best be = Ok (out, best', be') /\ fnan be' = false /\ (out = false -> flt be' (r_threshold e bone) = true).
Proof.
  intros [NT NE]. set (thr := r_threshold e bone) in *.
  assert (BN : forall error be, (fge error thr = false -> flt be thr = true) -> (fge error thr = true -> fge be thr = true) -> fnan be = false).
  { intros error be J1 J2. destruct (fge error thr); [specialize (J2 eq_refl); apply fle_key in J2; tauto | specialize (J1 eq_refl); apply flt_key in J1; tauto]. }
  induction fuel as [| fuel IH]; intros rates error best be OK B NN J1 J2; cbn [widen_bone]; fold thr.
  - destruct (fge error thr) eqn:G; cbn [negb]; [| exists false, best, be; split; [reflexivity |]; split; [apply (BN error); rewrite G; assumption | auto]].
    destruct (N.leb_spec k_highest_bit_rate (smallest_rate (brates_at rates c))) as [| LT]; [exists true, best, be; split; [reflexivity |]; split; [apply (BN error); rewrite G; assumption | discriminate] |].
    exfalso. unfold smallest_rate, sum3, k_highest_bit_rate in *. pose proof (brates_at_ok rates c OK) as Q. unfold brates_ok, rate_ok in Q. lia.
  - destruct (fge error thr) eqn:G; cbn [negb]; [| exists false, best, be; split; [reflexivity |]; split; [apply (BN error); rewrite G; assumption | auto]].
    destruct (N.leb_spec k_highest_bit_rate (smallest_rate (brates_at rates c))) as [| LT]; [exists true, best, be; split; [reflexivity |]; split; [apply (BN error); rewrite G; assumption | discriminate] |].
    specialize (J2 eq_refl). clear J1. destruct (raise_from (brates_at rates c) (brates_at_ok _ c OK) LT) as [RF RS]. pose proof (brates_from_ok _ _ RF) as RO.
    assert (LC : (c < length rates)%nat). { destruct (Nat.lt_ge_cases c (length rates)) as [X | X]; [exact X |]. exfalso. unfold brates_at in LT. rewrite nth_overflow in LT by exact X. vm_compute in LT. discriminate. }
    assert (OK2 : Forall brates_ok (upd rates c (raise (brates_at rates c)))) by (apply upd_ok; assumption).
    assert (B2 : (N.to_nat (765 - sum3 (brates_at (upd rates c (raise (brates_at rates c))) c)) <= fuel)%nat) by (rewrite at_upd_same by exact LC; pose proof (sum3_bound _ RO); lia).
    set (rates2 := upd rates c (raise (brates_at rates c))) in *. specialize (NE rates2). set (err := r_object e true rates2 bone) in *. clearbody err rates2.
    destruct (flt err be) eqn:F.
    + apply IH; try assumption; [intros Q; apply not_ge_lt; assumption | auto].
    + apply IH; try assumption; [| auto]. intros Q. pose proof (not_ge_lt _ _ NE NT Q) as W. unfold fge in J2. rewrite (flt_le_trans _ _ _ W J2) in F. discriminate.
Qed.
Lemma widen_chain_ends e bone fuel : comparable e bone -> (765 <= fuel)%nat -> forall chain rates error m, Forall brates_ok rates -> error = r_object e true rates bone -> fge error (r_threshold e bone) = true ->
  exists rates' error' m', widen_chain fuel e rates bone chain error m = Ok (rates', error', m') /\ (flt error' (r_threshold e bone) = true \/ m' = (m + length chain)%nat).
Proof.
  intros C B. induction chain as [| c chain IH]; intros rates error m OK EE G; cbn [widen_chain]; [exists rates, error, m; split; [reflexivity | right; cbn; lia] |].
  assert (NN : fnan error = false) by (rewrite EE; apply C).
  destruct (widen_bone_ends e bone c C fuel rates error (brates_at rates c) error OK ltac:(lia) NN ltac:(congruence) ltac:(auto)) as (out & b & be & E & NB & O). rewrite E. cbn [bindo].
  destruct (flt be (r_threshold e bone)) eqn:F; [exists (upd rates c b), be, (if out then S m else m); auto |].
  destruct out; [| discriminate (O eq_refl)].
  apply (widen_bone_from e bone c rates) in E as [E1 E2]; [| apply rates_from_refl, OK | apply brates_from_refl, brates_at_ok, OK | rewrite upd_same; exact EE | symmetry; apply upd_same].
  assert (OK2 : Forall brates_ok (upd rates c b)) by (apply upd_ok; [exact OK | eapply brates_from_ok, E1]).
  assert (G2 : fge be (r_threshold e bone) = true) by (apply not_lt_ge; [exact NB | apply C | exact F]).
  destruct (IH (upd rates c b) be (S m) OK2 E2 G2) as (r' & e' & m' & W & Q). exists r', e', m'. split; [exact W |]. destruct Q as [Q | ->]; [left; exact Q | right; cbn [length]; lia].
Qed.
Lemma widen_ends e bone fuel : comparable e bone -> (766 <= fuel)%nat -> forall rates error, Forall brates_ok rates -> error = r_object e true rates bone -> exists r, widen fuel e rates bone error = Ok r.
Proof.
  intros C B rates error OK EE. destruct fuel as [| fuel]; [lia |]. cbn [widen]. destruct (fge error (r_threshold e bone)) eqn:G; cbn [negb]; [| eauto].
  destruct (widen_chain_ends e bone (S fuel) C ltac:(lia) (rev (r_chain e bone)) rates error 0%nat OK EE G) as (r' & e' & m' & W & Q). rewrite W. cbn [bindo]. destruct (m' =? length (r_chain e bone))%nat eqn:M; [eauto |].
  destruct Q as [Q | Q]; [| apply Nat.eqb_neq in M; rewrite rev_length in Q; lia]. apply flt_not_ge in Q. destruct fuel; cbn [widen]; rewrite Q; cbn [negb]; eauto.
Qed.
Definition bone_fuel (e : search) (n bone : nat) : nat := permutation_fuel (length (r_chain e bone)) + 765 * n + 766.
Lemma optimize_bone_ends e bone fuel rates best buffer : comparable e bone -> NoDup (r_chain e bone) -> Forall brates_ok rates -> (bone_fuel e (length rates) bone <= fuel)%nat ->
  exists r, optimize_bone fuel e bone rates best buffer = Ok r.
Proof.
  intros C ND OK B. unfold optimize_bone, bone_fuel in *. destruct (flt _ _); [eauto |]. set (k := {| k_error := _ |}).
  destruct (climb_ends e bone (length rates) ND fuel rates k eq_refl OK ltac:(lia)) as [[r1 k1] E]. rewrite E. cbn [bindo]. apply climb_climbed in E as [E1 E2]; [| exact OK]. cbn [k k_error k_best] in E2.
  set (r2 := if flt (k_error k1) _ then k_best k1 else r1).
  assert (R2 : rates_from rates r2). { subst r2. destruct (flt _ _) eqn:F; [| exact E1]. destruct E2 as [(E2 & _) | (_ & E2)]; [rewrite E2, flt_irrefl in F; discriminate | exact E2]. }
  destruct (widen_ends e bone fuel C ltac:(lia) r2 _ (rates_from_ok _ _ R2) eq_refl) as [[r3 e3] W]. rewrite W. cbn [bindo]. eauto.
Qed.
Definition bones_fuel (e : search) (n : nat) (order : list nat) : nat := fold_right (fun b f => (bone_fuel e n b + f)%nat) 0%nat order.
Lemma optimize_bones_end e fuel : forall order rates best buffer, Forall (fun b => comparable e b /\ NoDup (r_chain e b)) order -> Forall brates_ok rates -> (bones_fuel e (length rates) order <= fuel)%nat ->
  exists r, optimize_bones fuel e order rates best buffer = Ok r.
Proof.
  induction order as [| b order IH]; intros rates best buffer F OK B; cbn [optimize_bones]; [eauto |]. inversion F as [| ? ? [F1 F2] F3]; subst. cbn [bones_fuel fold_right] in B. fold (bones_fuel e (length rates) order) in B.
  destruct (optimize_bone_ends e b fuel rates best buffer F1 F2 OK ltac:(lia)) as [[[r1 b1] f1] E]. rewrite E. cbn [bindo]. apply optimize_bone_from in E; [| exact OK].
  apply IH; [exact F3 | eapply rates_from_ok, E |]. rewrite (rates_from_length _ _ E). lia.
Qed.

(** ** What the buffer held *)
Definition same_but_buffer (k k' : climbing) : Prop := k_error k = k_error k' /\ k_best_error k = k_best_error k' /\ k_best k = k_best k'.
Lemma permutation_loop_buffer e rates bone old fuel : forall perm be b1 b2 error out, permutation_loop fuel e rates bone old perm be b1 = Ok (error, out) ->
  exists out', permutation_loop fuel e rates bone old perm be b2 = Ok (error, out') /\ (out' = out \/ (error = be /\ out = b1 /\ out' = b2)).
Proof.
  induction fuel as [| fuel IH]; intros perm be b1 b2 error out; cbn [permutation_loop]; [discriminate |]. destruct (permutation_rates _ _ _ _ _ _ _) as [pr valid].
  assert (NX : match next_permutation perm with Some perm => permutation_loop fuel e rates bone old perm be b1 | None => Ok (be, b1) end = Ok (error, out) ->
    exists out', match next_permutation perm with Some perm => permutation_loop fuel e rates bone old perm be b2 | None => Ok (be, b2) end = Ok (error, out') /\ (out' = out \/ (error = be /\ out = b1 /\ out' = b2))).
  { destruct (next_permutation perm) as [perm' |]; [apply IH |]. intros [= <- <-]. exists b2. auto. }
  destruct valid; cbn [negb]; [| exact NX]. destruct (flt _ be); [| exact NX]. destruct (flt _ _); [intros [= <- <-]; eauto |].
  destruct (next_permutation perm) as [perm' |]; [| intros [= <- <-]; eauto]. intros H. exists out. auto.
Qed.
Lemma attempt_buffer e rates bone original before p fuel k1 k2 fin k : Forall brates_ok rates -> level_state e rates bone original before k1 -> same_but_buffer k1 k2 ->
  attempt fuel e rates bone original p k1 = Ok (fin, k) -> exists k', attempt fuel e rates bone original p k2 = Ok (fin, k') /\ same_but_buffer k k'.
Proof.
  intros OK L (S1 & S2 & S3). unfold attempt. destruct (permutation_loop _ _ _ _ _ _ _ (k_buffer k1)) as [[error buffer] | |] eqn:E; cbn [bindo]; [| discriminate | discriminate].
  destruct (permutation_loop_buffer _ _ _ _ _ _ _ _ (k_buffer k2) _ _ E) as (out' & E' & Q). rewrite E'. cbn [bindo]. rewrite <- S2, <- S3.
  destruct (flt error (k_best_error k1)) eqn:F; intros [= <- <-]; (eexists; split; [reflexivity |]); repeat split; cbn [k_best].
  destruct Q as [-> | (-> & _)]; [reflexivity |]. exfalso. destruct L as [(L & _) | (L & _)]; [rewrite L, flt_irrefl in F; discriminate | pose proof (flt_trans _ _ _ F L) as Z; rewrite flt_irrefl in Z; discriminate].
Qed.
Lemma attempts_buffer e rates bone original before fuel : Forall brates_ok rates -> forall l k1 k2 fin k, level_state e rates bone original before k1 -> same_but_buffer k1 k2 ->
  attempts fuel e rates bone original l k1 = Ok (fin, k) -> exists k', attempts fuel e rates bone original l k2 = Ok (fin, k') /\ same_but_buffer k k'.
Proof.
  intros OK. induction l as [| p l IH]; intros k1 k2 fin k L SB; cbn [attempts]; [intros [= <- <-]; eauto |].
  destruct (attempt fuel e rates bone original p k1) as [[f1 k3] | |] eqn:E; cbn [bindo]; [| discriminate | discriminate]. destruct (attempt_buffer _ _ _ _ before _ _ _ k2 _ _ OK L SB E) as (k4 & E' & SB'). rewrite E'. cbn [bindo].
  apply (attempt_state _ _ _ _ before) in E as [L3 _]; [| exact OK | exact L]. destruct f1; [intros [= <- <-]; eauto | apply IH; assumption].
Qed.
Lemma climb_buffer e bone fuel : forall rates k1 k2 rates' k, Forall brates_ok rates -> same_but_buffer k1 k2 -> climb fuel e rates bone k1 = Ok (rates', k) ->
  exists k', climb fuel e rates bone k2 = Ok (rates', k') /\ same_but_buffer k k'.
Proof.
  induction fuel as [| fuel IH]; intros rates k1 k2 rates' k OK SB.
  - cbn [climb]. destruct SB as (S1 & S2 & S3). rewrite <- S1. destruct (negb _); [| discriminate]. intros [= <- <-]. exists k2. repeat split; assumption.
  - cbn [climb]. destruct SB as (S1 & S2 & S3). rewrite <- S1. destruct (negb _); [intros [= <- <-]; exists k2; repeat split; assumption |].
    match goal with |- bindo ?X _ = _ -> exists _, bindo ?Y _ = _ /\ _ => destruct X as [[fin k3] | |] eqn:E; cbn [bindo]; [| discriminate | discriminate];
      assert (A : exists k', Y = Ok (fin, k') /\ same_but_buffer k3 k') by (eapply (attempts_buffer e rates bone _ (k_best k1)); [exact OK | | | exact E]; [left; auto | repeat split; cbn [k_best]; assumption]) end.
    destruct A as (k4 & E4 & T1 & T2 & T3). rewrite E4. cbn [bindo]. apply (attempts_state _ _ _ _ (k_best k1)) in E as [LS _]; [| exact OK | left; auto].
    destruct fin; [intros [= <- <-]; exists k4; repeat split; assumption |]. rewrite <- T2, <- T3. destruct (fge _ _); [intros [= <- <-]; exists k4; repeat split; assumption |]. apply IH; [| repeat split; cbn [k_best]; assumption].
    destruct (flt (k_best_error k3) (k_error k1)) eqn:F; [| exact OK]. destruct LS as [(L & _) | (_ & L & _)]; [rewrite L, flt_irrefl in F; discriminate | eapply rates_from_ok, L].
Qed.
Lemma optimize_bone_buffer e bone fuel rates best b1 b2 rates' best' b1' : Forall brates_ok rates -> optimize_bone fuel e bone rates best b1 = Ok (rates', best', b1') ->
  exists b2', optimize_bone fuel e bone rates best b2 = Ok (rates', best', b2').
Proof.
  intros OK. unfold optimize_bone. destruct (flt _ _); [intros [= <- <- <-]; eauto |].
  match goal with |- bindo ?X _ = _ -> exists _, bindo ?Y _ = _ => destruct X as [[r1 k1] | |] eqn:E; cbn [bindo]; [| discriminate | discriminate];
    assert (A : exists k', Y = Ok (r1, k') /\ same_but_buffer k1 k') by (eapply climb_buffer; [exact OK | | exact E]; repeat split) end.
  destruct A as (k2 & E2 & T1 & T2 & T3). rewrite E2. cbn [bindo]. rewrite <- T1, <- T3. destruct (widen _ _ _ _ _) as [[r3 e3] | |]; cbn [bindo]; [| discriminate | discriminate]. intros [= <- <- <-]. eauto.
Qed.
Lemma optimize_bones_buffer e fuel : forall order rates best b1 b2 r, Forall brates_ok rates -> optimize_bones fuel e order rates best b1 = Ok r -> optimize_bones fuel e order rates best b2 = Ok r.
Proof.
  induction order as [| b order IH]; intros rates best b1 b2 r OK; cbn [optimize_bones]; [auto |]. destruct (optimize_bone fuel e b rates best b1) as [[[r1 best1] f1] | |] eqn:E; cbn [bindo]; [| discriminate | discriminate].
  destruct (optimize_bone_buffer _ _ _ _ _ _ b2 _ _ _ OK E) as (f2 & E2). rewrite E2. cbn [bindo]. apply IH. eapply rates_from_ok, optimize_bone_from; [exact OK | exact E].
Qed.

(** ** What a transform is left with *)
Definition at_most_24 (r : brates) : Prop := 24 <= b_rotation r /\ 24 <= b_translation r /\ 24 <= b_scale r.
Lemma max_out_chain_post e bone : forall chain rates, (forall c, In c chain -> (c < length rates)%nat) ->
  flt (r_object e true (max_out_chain e rates bone chain) bone) (r_threshold e bone) = true \/ forall c, In c chain \/ at_most_24 (brates_at rates c) -> at_most_24 (brates_at (max_out_chain e rates bone chain) c).
Proof.
  induction chain as [| c chain IH]; intros rates L; cbn [max_out_chain]; [right; intros c [[] | H]; exact H |]. set (r2 := upd rates c _).
  destruct (flt (r_object e true r2 bone) (r_threshold e bone)) eqn:F; [left; exact F |].
  destruct (IH r2) as [H | H]; [intros d D; unfold r2; rewrite upd_length; apply L; right; exact D | left; exact H |]. right. intros d D. apply H.
  assert (M : forall r, at_most_24 (max_out r)) by (intros r; unfold at_most_24, max_out, k_highest_bit_rate; cbn; lia).
  destruct (Nat.eq_dec d c) as [-> | N].
  - right. unfold r2. rewrite at_upd_same by (apply L; left; reflexivity). apply M.
  - destruct D as [[-> | D] | D]; [congruence | left; exact D | right]. unfold r2. rewrite at_upd_other by congruence. exact D.
Qed.
Lemma optimize_bone_post e bone fuel rates best buffer rates' best' buffer' : Forall brates_ok rates -> comparable e bone -> r_rotation_full e = true -> (forall c, In c (r_chain e bone) -> (c < length rates)%nat) ->
  optimize_bone fuel e bone rates best buffer = Ok (rates', best', buffer') ->
  (exists s, flt (r_object e s rates' bone) (r_threshold e bone) = true) \/ forall c, In c (r_chain e bone) -> at_most_24 (brates_at rates' c).
Proof.
  intros OK C RF LC. unfold optimize_bone. destruct (flt (r_object e false rates bone) (r_threshold e bone)) eqn:F0; [intros [= <- <- <-]; left; exists false; exact F0 |].
  destruct (climb _ _ _ _ _) as [[r1 k1] | |] eqn:E; cbn [bindo]; [| discriminate | discriminate]. apply climb_climbed in E as [E1 E2]; [| exact OK]. cbn [k_error k_best] in E2.
  set (r2 := if flt (k_error k1) _ then k_best k1 else r1).
  assert (R2 : rates_from rates r2). { subst r2. destruct (flt (k_error k1) _) eqn:F; [| exact E1]. destruct E2 as [(E2 & _) | (_ & E2)]; [rewrite E2, flt_irrefl in F; discriminate | exact E2]. }
  destruct (widen _ _ _ _ _) as [[r3 e3] | |] eqn:W; cbn [bindo]; [| discriminate | discriminate]. apply widen_from in W as [W WE]; [| eapply rates_from_ok, R2 | reflexivity].
  rewrite RF, andb_true_r. intros [= <- <- <-]. destruct (fge e3 (r_threshold e bone)) eqn:G.
  - destruct (max_out_chain_post e bone (rev (r_chain e bone)) r3) as [H | H].
    + intros c D. apply in_rev in D. rewrite (rates_from_length _ _ (rates_from_trans _ _ _ R2 W)). apply LC, D.
    + left. exists true. exact H.
    + right. intros c D. apply H. left. rewrite <- in_rev. exact D.
  - left. exists true. rewrite <- WE. destruct C as [C1 C2]. apply not_ge_lt; [rewrite WE; apply C2 | exact C1 | exact G].
Qed.
