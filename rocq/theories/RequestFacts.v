(** Request ids over arbitrary histories (no assumption on how the API is used). *)
From Coq Require Import Lia.
From Verif Require Import Word WordFacts BitManip Bitset BitsetFacts DbStream StreamSpec DbStreamFacts DbStreamInv DbStreamSys DbStreamStep.
Local Open Scope N_scope.
Ltac Zify.zify_post_hook ::= idtac.

Definition is_issue (e : event) : bool := match e with EvIn _ _ | EvOut _ _ => true | _ => false end.
Definition num_issues (es : list event) : N := N.of_nat (length (filter is_issue es)).

(** the request tables have 32-bit sizes and counters *)
Definition machine_sized (s : system) : Prop :=
  forall w, N.of_nat (length (requests (get_streamer s w))) < 2 ^ 32 /\ generation (get_streamer s w) < 2 ^ 32.

Inductive table_step (e : event) (st st' : streamer) (w : bool) (pend pend' : list io) : Prop :=
| ts_quiet : generation st' = generation st -> length (requests st') = length (requests st) ->
    (forall i q, nth_error (requests st') i = Some q -> nth_error (requests st) i = Some q \/ rq_is_valid q = false) ->
    (forall x, In x pend' -> io_streamer x = w -> In x pend) -> table_step e st st' w pend pend'
| ts_issue i t : is_issue e = true -> generation st' = addw 32 (generation st) 1 -> length (requests st') = length (requests st) ->
    i < N.of_nat (length (requests st)) ->
    (forall j q, nth_error (requests st') j = Some q -> nth_error (requests st) j = Some q \/ rq_gen q = generation st) ->
    (forall x, In x pend' -> io_streamer x = w -> In x pend \/ (io_id x = make_request_id i (generation st) /\ io_tier x = t)) ->
    table_step e st st' w pend pend'.

Lemma table_refl e st w pend : table_step e st st w pend pend. Proof. apply ts_quiet; auto. Qed.

Lemma build_table st a t f k id st' : build_request st a t f k = Ok (Some (id, st')) ->
  exists i, id = make_request_id i (generation st) /\ i < N.of_nat (length (requests st)) /\ generation st' = addw 32 (generation st) 1 /\
    length (requests st') = length (requests st) /\
    (forall j q, nth_error (requests st') j = Some q -> nth_error (requests st) j = Some q \/ rq_gen q = generation st).
Proof.
  unfold build_request. destruct (nth_error (requests st) (N.to_nat (next_request st))) as [q|] eqn:E; [|discriminate].
  destruct (rq_is_valid q); [discriminate|]. intros H. injection H as <- <-. cbn [requests generation].
  assert (L : (N.to_nat (next_request st) < length (requests st))%nat) by (apply nth_error_Some; congruence).
  exists (next_request st). rewrite upd_length'. repeat split; auto; [lia|].
  intros j q' Ej. rewrite nth_error_upd' in Ej by auto. destruct (Nat.eqb j _); [injection Ej as <-; right; reflexivity | left; exact Ej].
Qed.

Lemma handle_call_table s t c w : get_streamer (handle_call s t c) w = get_streamer s w.
Proof. destruct w; reflexivity. Qed.
Lemma set_rt_table s t r w : get_streamer (set_rt s t r) w = get_streamer s w.
Proof. destruct w; reflexivity. Qed.
Lemma set_streamer_get s w st w' : get_streamer (set_streamer s w st) w' = if Bool.eqb w' w then st else get_streamer s w'.
Proof. destruct w, w'; reflexivity. Qed.

Lemma finish_io_table ok s w id w' : get_streamer (finish_io ok s w id) w' = get_streamer s w'.
Proof. unfold finish_io. destruct (find _ _); auto. destruct (ok && io_in i), w'; reflexivity. Qed.
Lemma finish_io_pending ok s w id x : In x (pending (finish_io ok s w id)) -> In x (pending s) /\ io_is w id x = false.
Proof.
  unfold finish_io. destruct (find _ _) eqn:E.
  - destruct (ok && io_in i); cbn [pending set_pending]; rewrite filter_In, negb_true_iff; tauto.
  - intros H. split; auto. destruct (io_is w id x) eqn:Q; auto. pose proof (find_none_in _ _ E x H); congruence.
Qed.

Lemma execute_frame db ok s q s' : execute_request db ok s q = Ok s' -> (forall w, get_streamer s' w = get_streamer s w) /\ pending s' = pending s.
Proof.
  unfold execute_request, bindo. destruct (rq_action q).
  - destruct (if ok then _ else _) as [x| |]; try discriminate. destruct (bitset_set_range _ _ _ _); try discriminate. intros H. injection H as <-. split; auto using set_rt_table.
  - destruct (bitset_set_range _ _ _ _); try discriminate. destruct (bitset_set_range _ _ _ _); try discriminate. intros H. injection H as <-. split; auto using set_rt_table.
Qed.

Lemma finish_request_frame db ok s w id s' : finish_request db ok s w id = Ok s' ->
  pending s' = pending s /\ forall w', generation (get_streamer s' w') = generation (get_streamer s w') /\
    length (requests (get_streamer s' w')) = length (requests (get_streamer s w')) /\
    forall i q, nth_error (requests (get_streamer s' w')) i = Some q -> nth_error (requests (get_streamer s w')) i = Some q \/ rq_is_valid q = false.
Proof.
  unfold finish_request. destruct (_ <=? _); [intros H; injection H as <-; auto|].
  destruct (nth_error (requests (get_streamer s w)) (N.to_nat (get_request_index id))) as [q|] eqn:E; [|discriminate].
  destruct (negb (rq_is_valid q)); [intros H; injection H as <-; auto|]. destruct (negb _); [intros H; injection H as <-; auto|].
  unfold bindo. destruct (execute_request db ok s q) as [s2| |] eqn:X; try discriminate. intros H. injection H as <-.
  destruct (execute_frame _ _ _ _ _ X) as [G P]. split; [exact P|]. intros w'. rewrite set_streamer_get, !G. destruct (Bool.eqb w' w) eqn:W.
  - apply eqb_prop in W. subst w'. cbn [generation requests]. rewrite upd_length'. repeat split; auto. intros i q' Ei.
    assert (L : (N.to_nat (get_request_index id) < length (requests (get_streamer s w)))%nat) by (apply nth_error_Some; congruence).
    rewrite nth_error_upd' in Ei by auto. destruct (Nat.eqb i _); [injection Ei as <-; right; reflexivity | left; exact Ei].
  - repeat split; auto.
Qed.

(** every event: the table of each streamer is untouched, has requests freed, or gets one new request *)
Lemma step_table db s e r s' : step db s e = Ok (r, s') -> forall w, table_step e (get_streamer s w) (get_streamer s' w) w (pending s) (pending s').
Proof.
  intros H w. destruct e as [t n|t n|w0 id|w0 id]; cbn [step] in H; unfold bindo in H.
  - destruct (stream_in db s t n) as [[r1 s1]| |] eqn:E; try discriminate. injection H as <- <-. cbn [fst snd].
    revert E. unfold stream_in, bindo. destruct t; [intros H; injection H as <- <-; apply table_refl | |];
    (destruct (is_streaming _ _); [intros H; injection H as <- <-; apply table_refl|]; destruct (scan_pending _ _) as [f|]; [|intros H; injection H as <- <-; apply table_refl];
       cbv zeta; destruct (_ =? 0); [intros H; injection H as <- <-; apply table_refl|];
       match goal with |- context [build_request ?a ?b ?c ?d ?e] => destruct (build_request a b c d e) as [[[id st']|]| |] eqn:B end; try discriminate;
       [|intros H; injection H as <- <-; apply table_refl]; destruct (nth_error _ _); try discriminate; destruct (nth_error _ _); try discriminate;
       destruct (bitset_set_range _ _ _ _); try discriminate; intros H; injection H as <- <-;
       apply build_table in B; destruct B as (i & B1 & B2 & B3 & B4 & B5);
       rewrite handle_call_table, set_rt_table, set_streamer_get; destruct (Bool.eqb w _) eqn:W;
       [ apply eqb_prop in W; subst w; eapply ts_issue; [reflexivity | exact B3 | exact B4 | exact B2 | exact B5 |];
         intros x Hx Hw; cbn in Hx; destruct Hx as [<- |Hx]; [right; cbn; split; [exact B1 | reflexivity] | left; exact Hx]
       | apply ts_quiet; auto; intros x Hx Hw; cbn in Hx; destruct Hx as [<- |Hx]; [cbn in Hw; rewrite <- Hw in W; rewrite ?Bool.eqb_reflx in W; discriminate W | exact Hx] ]).
  - destruct (stream_out db s t n) as [[r1 s1]| |] eqn:E; try discriminate. injection H as <- <-. cbn [fst snd].
    revert E. unfold stream_out, bindo. destruct t; [intros H; injection H as <- <-; apply table_refl | |];
    (destruct (is_streaming _ _); [intros H; injection H as <- <-; apply table_refl|]; destruct (scan_loaded _ _) as [f|]; [|intros H; injection H as <- <-; apply table_refl];
       cbv zeta; destruct (_ =? 0); [intros H; injection H as <- <-; apply table_refl|];
       match goal with |- context [build_request ?a ?b ?c ?d ?e] => destruct (build_request a b c d e) as [[[id st']|]| |] eqn:B end; try discriminate;
       [|intros H; injection H as <- <-; apply table_refl]; destruct (nth_error _ _); try discriminate; destruct (nth_error _ _); try discriminate;
       destruct (bitset_set_range _ _ _ _); try discriminate; destruct (for_chunks _ _ _ _ _ _ _); try discriminate; intros H; injection H as <- <-;
       apply build_table in B; destruct B as (i & B1 & B2 & B3 & B4 & B5);
       rewrite handle_call_table, set_rt_table, set_streamer_get; destruct (Bool.eqb w _) eqn:W;
       [ apply eqb_prop in W; subst w; eapply ts_issue; [reflexivity | exact B3 | exact B4 | exact B2 | exact B5 |];
         intros x Hx Hw; cbn in Hx; destruct Hx as [<- |Hx]; [right; cbn; split; [exact B1 | reflexivity] | left; exact Hx]
       | apply ts_quiet; auto; intros x Hx Hw; cbn in Hx; destruct Hx as [<- |Hx]; [cbn in Hw; rewrite <- Hw in W; rewrite ?Bool.eqb_reflx in W; discriminate W | exact Hx] ]).
  - destruct (finish_request db true (finish_io true s w0 id) w0 id) eqn:E; try discriminate. injection H as <- <-.
    apply finish_request_frame in E. destruct E as [P G]. destruct (G w) as (G1 & G2 & G3). rewrite finish_io_table in *.
    apply ts_quiet; auto. intros x Hx _. rewrite P in Hx. apply finish_io_pending in Hx. tauto.
  - destruct (finish_request db false (finish_io false s w0 id) w0 id) eqn:E; try discriminate. injection H as <- <-.
    apply finish_request_frame in E. destruct E as [P G]. destruct (G w) as (G1 & G2 & G3). rewrite finish_io_table in *.
    apply ts_quiet; auto. intros x Hx _. rewrite P in Hx. apply finish_io_pending in Hx. tauto.
Qed.

(** generations handed out since the request *)
Definition ahead (s : system) (w : bool) (g j : N) : Prop := generation (get_streamer s w) = (g + 1 + j) mod 2 ^ 32.
Definition dead (s : system) (w : bool) (i g : N) : Prop :=
  (forall q, nth_error (requests (get_streamer s w)) (N.to_nat i) = Some q -> rq_is_valid q = true -> rq_gen q <> g) /\
  (forall x, In x (pending s) -> io_streamer x = w -> io_id x <> make_request_id i g).

Lemma ahead_step db s e r s' w g j : step db s e = Ok (r, s') -> ahead s w g j -> machine_sized s ->
  machine_sized s' /\ exists j', ahead s' w g j' /\ j <= j' /\ j' <= j + (if is_issue e then 1 else 0).
Proof.
  intros H A M. split.
  - intros w'. destruct (M w') as [M1 M2]. destruct (step_table db s e r s' H w') as [G LE _ _ | i t IS G LE _ _ _]; rewrite LE, G; split; auto.
    unfold addw. apply N.mod_lt. discriminate.
  - unfold ahead in *. destruct (step_table db s e r s' H w) as [G _ _ _ | i t IS G _ _ _ _].
    + exists j. rewrite G. split; auto. lia.
    + exists (j + 1). rewrite G, IS. split; [|lia]. rewrite A. unfold addw.
      rewrite N.add_mod_idemp_l by discriminate. f_equal. lia.
Qed.

Lemma gen_differs g j : g < 2 ^ 32 -> j + 1 < 2 ^ 32 -> (g + 1 + j) mod 2 ^ 32 <> g.
Proof.
  intros G J E. change (2 ^ 32) with 4294967296 in *.
  destruct (N.lt_ge_cases (g + 1 + j) 4294967296) as [Q|Q].
  - rewrite N.mod_small in E by auto. lia.
  - replace (g + 1 + j) with (g + 1 + j - 4294967296 + 1 * 4294967296) in E by lia. rewrite N.mod_add, N.mod_small in E by lia. lia.
Qed.

Lemma dead_step db s e r s' w i g j : step db s e = Ok (r, s') -> ahead s w g j -> machine_sized s -> i < 2 ^ 32 -> g < 2 ^ 32 ->
  j + (if is_issue e then 1 else 0) < 2 ^ 32 -> dead s w i g -> dead s' w i g.
Proof.
  intros H A M I G J [D1 D2]. destruct (step_table db s e r s' H w) as [GE LE R P | i' t IS GE LE IL R P].
  - split.
    + intros q E V. destruct (R _ _ E) as [Q|Q]; [eauto | congruence].
    + intros x X W. eauto.
  - rewrite IS in J. assert (ND : generation (get_streamer s w) <> g) by (rewrite A; apply gen_differs; auto).
    destruct (M w) as [M1 M2]. split.
    + intros q E V. destruct (R _ _ E) as [Q|Q]; [eauto | congruence].
    + intros x X W Q. destruct (P x X W) as [Z|[Z _]]; [eapply D2; eauto|]. rewrite Z in Q.
      assert (B : i' < 2 ^ 32) by lia.
      destruct (request_id_inj i' _ B M2) as [_ U]. destruct (request_id_inj i g I G) as [_ U']. rewrite Q in U. congruence.
Qed.

Lemma run_ahead db es : forall s s' w g j, run db s es = Ok s' -> ahead s w g j -> machine_sized s ->
  machine_sized s' /\ exists j', ahead s' w g j' /\ j <= j' /\ j' <= j + num_issues es.
Proof.
  induction es as [|e es IH]; intros s s' w g j H A M; cbn [run] in H.
  - injection H as <-. split; auto. exists j. split; auto. unfold num_issues. cbn. lia.
  - unfold bindo in H. destruct (step db s e) as [[r s1]| |] eqn:E; try discriminate. cbn [snd] in H.
    destruct (ahead_step _ _ _ _ _ _ _ _ E A M) as (M1 & j1 & A1 & B1 & B2).
    destruct (IH _ _ _ _ _ H A1 M1) as (M2 & j2 & A2 & C1 & C2). split; auto. exists j2. split; auto. split; [lia|].
    unfold num_issues in *. cbn [filter]. destruct (is_issue e); cbn [length]; lia.
Qed.

Lemma run_dead db es : forall s s' w i g j, run db s es = Ok s' -> ahead s w g j -> machine_sized s -> i < 2 ^ 32 -> g < 2 ^ 32 ->
  j + num_issues es < 2 ^ 32 -> dead s w i g -> dead s' w i g.
Proof.
  induction es as [|e es IH]; intros s s' w i g j H A M I G J D; cbn [run] in H.
  - injection H as <-. auto.
  - unfold bindo in H. destruct (step db s e) as [[r s1]| |] eqn:E; try discriminate. cbn [snd] in H.
    destruct (ahead_step _ _ _ _ _ _ _ _ E A M) as (M1 & j1 & A1 & B1 & B2).
    assert (N1 : num_issues (e :: es) = (if is_issue e then 1 else 0) + num_issues es) by (unfold num_issues; cbn [filter]; destruct (is_issue e); cbn [length]; lia).
    eapply (IH s1 s' w i g j1); eauto; [lia|]. eapply dead_step; eauto. lia.
Qed.

(** finishing an id leaves it dead *)
Lemma finish_kills db ok s w i g r s' : i < 2 ^ 32 -> g < 2 ^ 32 -> step db s (finish_event ok w (make_request_id i g)) = Ok (r, s') -> dead s' w i g.
Proof.
  intros I G H. destruct (request_id_inj i g I G) as [RI RG]. set (id := make_request_id i g) in *.
  assert (H' : finish_request db ok (finish_io ok s w id) w id = Ok s').
  { unfold finish_event in H. destruct ok; cbn [step] in H; unfold bindo in H; destruct (finish_request _ _ _ _ _) eqn:E; try discriminate; injection H as _ <-; reflexivity. }
  clear H. split.
  - intros q E V Q. revert H'. unfold finish_request. rewrite RI, RG, finish_io_table.
    destruct (N.leb_spec (N.of_nat (length (requests (get_streamer s w)))) i) as [L|L].
    + intros H. injection H as <-. rewrite finish_io_table in E. assert (nth_error (requests (get_streamer s w)) (N.to_nat i) <> None) by congruence. apply nth_error_Some in H. lia.
    + destruct (nth_error (requests (get_streamer s w)) (N.to_nat i)) as [q0|] eqn:E0; [|discriminate].
      destruct (rq_is_valid q0) eqn:V0; cbn [negb].
      2:{ intros H. injection H as <-. rewrite finish_io_table, E0 in E. injection E as <-. congruence. }
      destruct (N.eqb_spec (rq_gen q0) g) as [GE|GE]; cbn [negb].
      2:{ intros H. injection H as <-. rewrite finish_io_table, E0 in E. injection E as <-. congruence. }
      unfold bindo. destruct (execute_request _ _ _ _) as [s2| |] eqn:X; try discriminate. intros H. injection H as <-.
      apply execute_frame in X. destruct X as [X _]. rewrite set_streamer_get, Bool.eqb_reflx in E. cbn [requests] in E.
      rewrite (X w), finish_io_table in E. rewrite nth_error_upd' in E by lia. rewrite Nat.eqb_refl in E. injection E as <-. discriminate V.
  - intros x X W Q. apply finish_request_frame in H'. destruct H' as [P _]. rewrite P in X. apply finish_io_pending in X.
    destruct X as [_ X]. unfold io_is in X. rewrite W, Bool.eqb_reflx, Q, N.eqb_refl in X. discriminate.
Qed.

Lemma dead_noop db ok s w i g : i < 2 ^ 32 -> g < 2 ^ 32 -> dead s w i g -> step db s (finish_event ok w (make_request_id i g)) = Ok (Done, s).
Proof.
  intros I G [D1 D2]. destruct (request_id_inj i g I G) as [RI RG]. set (id := make_request_id i g) in *.
  assert (F : find (io_is w id) (pending s) = None).
  { apply DbStreamSys.find_none. intros x X. unfold io_is. destruct (Bool.eqb (io_streamer x) w) eqn:W; auto. apply eqb_prop in W.
    cbn [andb]. apply N.eqb_neq. auto. }
  assert (R : finish_request db ok s w id = Ok s).
  { unfold finish_request. rewrite RI, RG. destruct (N.leb_spec (N.of_nat (length (requests (get_streamer s w)))) i) as [L|L]; auto.
    destruct (nth_error (requests (get_streamer s w)) (N.to_nat i)) as [q0|] eqn:E0; [|apply nth_error_None in E0; lia].
    destruct (rq_is_valid q0) eqn:V0; cbn [negb]; auto. destruct (N.eqb_spec (rq_gen q0) g) as [GE|GE]; cbn [negb]; auto. destruct (D1 _ eq_refl V0 GE). }
  eapply finish_request_none; eauto.
Qed.

(** the id of a dispatched call *)
Lemma dispatch_id db s e c s' : step db s e = Ok (Dispatched c, s') -> machine_sized s -> exists t i, sc_id c = make_request_id i (generation (get_streamer s (streamer_of s t))) /\
  (e = EvIn t (match e with EvIn _ n | EvOut _ n => n | _ => 0 end) \/ e = EvOut t (match e with EvIn _ n | EvOut _ n => n | _ => 0 end)) /\ i < 2 ^ 32 /\ ahead s' (streamer_of s t) (generation (get_streamer s (streamer_of s t))) 0.
Proof.
  intros H M. destruct e as [t n|t n|w0 id|w0 id]; cbn [step] in H; unfold bindo in H.
  - destruct (stream_in db s t n) as [[r1 s1]| |] eqn:E; try discriminate. injection H as -> <-. cbn [fst snd]. exists t.
    revert E. unfold stream_in, bindo. destruct t; [discriminate | |];
    (destruct (is_streaming _ _); [discriminate|]; destruct (scan_pending _ _) as [f|]; [|discriminate];
       cbv zeta; destruct (_ =? 0); [discriminate|];
       match goal with |- context [build_request ?a ?b ?c ?d ?e] => destruct (build_request a b c d e) as [[[id st']|]| |] eqn:B end; try discriminate;
       destruct (nth_error _ _); try discriminate; destruct (nth_error _ _); try discriminate;
       destruct (bitset_set_range _ _ _ _); try discriminate; intros H; injection H as <- <-;
       apply build_table in B; destruct B as (i & B1 & B2 & B3 & B4 & B5);
       match goal with |- context [streamer_of s ?t] => pose proof (M (streamer_of s t)) as [M1 M2] end;
       exists i; cbn [sc_id]; split; [exact B1|]; split; [auto|]; split; [lia|];
       unfold ahead; rewrite handle_call_table, set_rt_table, set_streamer_get, Bool.eqb_reflx, B3; unfold addw; f_equal; lia).
  - destruct (stream_out db s t n) as [[r1 s1]| |] eqn:E; try discriminate. injection H as -> <-. cbn [fst snd]. exists t.
    revert E. unfold stream_out, bindo. destruct t; [discriminate | |];
    (destruct (is_streaming _ _); [discriminate|]; destruct (scan_loaded _ _) as [f|]; [|discriminate];
       cbv zeta; destruct (_ =? 0); [discriminate|];
       match goal with |- context [build_request ?a ?b ?c ?d ?e] => destruct (build_request a b c d e) as [[[id st']|]| |] eqn:B end; try discriminate;
       destruct (nth_error _ _); try discriminate; destruct (nth_error _ _); try discriminate;
       destruct (bitset_set_range _ _ _ _); try discriminate; destruct (for_chunks _ _ _ _ _ _ _); try discriminate; intros H; injection H as <- <-;
       apply build_table in B; destruct B as (i & B1 & B2 & B3 & B4 & B5);
       match goal with |- context [streamer_of s ?t] => pose proof (M (streamer_of s t)) as [M1 M2] end;
       exists i; cbn [sc_id]; split; [exact B1|]; split; [auto|]; split; [lia|];
       unfold ahead; rewrite handle_call_table, set_rt_table, set_streamer_get, Bool.eqb_reflx, B3; unfold addw; f_equal; lia).
  - destruct (finish_request _ _ _ _ _); discriminate.
  - destruct (finish_request _ _ _ _ _); discriminate.
Qed.
