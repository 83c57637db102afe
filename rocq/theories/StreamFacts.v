(** Consequences of the streaming invariant for reachable states. *)
From Coq Require Import Lia.
From Verif Require Import Word WordFacts BitManip Bitset BitsetFacts DbStream StreamSpec DbStreamFacts DbStreamInv DbStreamSys DbStreamStep.
Local Open Scope N_scope.
Ltac Zify.zify_post_hook ::= idtac.

(** the event finishes this very request *)
Definition finishes (e : event) (which : bool) (id : N) : Prop := e = EvComplete which id \/ e = EvCancel which id.

(** a stretch of history: allowed events, none of which finishes the given request *)
Inductive other_events (db : database) (which : bool) (id : N) : system -> system -> Prop :=
| oe_nil s : other_events db which id s s
| oe_step s e r s1 s2 : allowed db s e -> ~ finishes e which id -> step db s e = Ok (r, s1) -> other_events db which id s1 s2 -> other_events db which id s s2.

Section Facts.
Variable db : database.
Hypothesis WF : well_formed db.

Lemma step_highest s n : step db s (EvIn Highest n) = Ok (InvalidTier, s) /\ step db s (EvOut Highest n) = Ok (InvalidTier, s).
Proof. split; reflexivity. Qed.

Lemma tier_dec (t : quality_tier) : t = Highest \/ streamable t.
Proof. destruct t; [left; reflexivity | right; discriminate | right; discriminate]. Qed.

Lemma step_any s iv fl e : sys_inv db s iv fl -> allowed db s e ->
  exists r s' iv' fl', step db s e = Ok (r, s') /\ sys_inv db s' iv' fl' /\ shared s' = shared s /\
    forall t F, streamable t -> fl t = Some F -> ~ finishes e (sof (shared s) t) (make_request_id (fl_slot F) (fl_gen F)) -> fl' t = Some F /\ iv' t = iv t.
Proof.
  assert (SH : forall r s', step db s e = Ok (r, s') -> shared s' = shared s).
  { clear. intros r s'. assert (FR : forall ok s0 w id s1, finish_request db ok s0 w id = Ok s1 -> shared s1 = shared s0).
    { intros ok s0 w id s1. unfold finish_request. destruct (_ <=? _); [congruence|]. destruct (nth_error _ _); [|discriminate].
      destruct (negb (rq_is_valid r0)); [congruence|]. destruct (negb _); [congruence|]. unfold bindo.
      destruct (execute_request db ok s0 r0) as [s2| |] eqn:E; try discriminate. intros H. injection H as <-.
      assert (shared s2 = shared s0); [|exact H]. revert E. unfold execute_request, bindo. destruct (rq_action r0).
      - destruct (if ok then _ else _) as [x| |]; try discriminate. destruct (bitset_set_range _ _ _ _); try discriminate. intros H. injection H as <-. reflexivity.
      - destruct (bitset_set_range _ _ _ _); try discriminate. destruct (bitset_set_range _ _ _ _); try discriminate. intros H. injection H as <-. reflexivity. }
    assert (FI : forall ok w id, shared (finish_io ok s w id) = shared s).
    { intros. unfold finish_io. destruct (find _ _); auto. destruct (ok && io_in i); reflexivity. }
    destruct e as [t n|t n|w id|w id]; cbn [step]; unfold bindo.
    - destruct (stream_in db s t n) as [[r1 s1]| |] eqn:E; try discriminate. intros H. injection H as <- <-. cbn [fst snd].
      assert (shared s1 = shared s); [|destruct r1; auto].
      revert E. unfold stream_in, bindo. destruct t; [intros H; injection H as <- <-; auto| |];
      (destruct (is_streaming _ _); [intros H; injection H as <- <-; auto|]; destruct (scan_pending _ _); [|intros H; injection H as <- <-; auto];
       cbv zeta; destruct (_ =? 0); [intros H; injection H as <- <-; auto|]; destruct (build_request _ _ _ _ _) as [[[? ?]|]| |]; try discriminate;
       [|intros H; injection H as <- <-; auto]; destruct (nth_error _ _); try discriminate; destruct (nth_error _ _); try discriminate;
       destruct (bitset_set_range _ _ _ _); try discriminate; intros H; injection H as <- <-; reflexivity).
    - destruct (stream_out db s t n) as [[r1 s1]| |] eqn:E; try discriminate. intros H. injection H as <- <-. cbn [fst snd].
      assert (shared s1 = shared s); [|destruct r1; auto].
      revert E. unfold stream_out, bindo. destruct t; [intros H; injection H as <- <-; auto| |];
      (destruct (is_streaming _ _); [intros H; injection H as <- <-; auto|]; destruct (scan_loaded _ _); [|intros H; injection H as <- <-; auto];
       cbv zeta; destruct (_ =? 0); [intros H; injection H as <- <-; auto|]; destruct (build_request _ _ _ _ _) as [[[? ?]|]| |]; try discriminate;
       [|intros H; injection H as <- <-; auto]; destruct (nth_error _ _); try discriminate; destruct (nth_error _ _); try discriminate;
       destruct (bitset_set_range _ _ _ _); try discriminate; destruct (for_chunks _ _ _ _ _ _ _); try discriminate; intros H; injection H as <- <-; reflexivity).
    - destruct (finish_request _ _ _ _ _) eqn:E; try discriminate. intros H. injection H as <- <-. apply FR in E. rewrite E. apply FI.
    - destruct (finish_request _ _ _ _ _) eqn:E; try discriminate. intros H. injection H as <- <-. apply FR in E. rewrite E. apply FI. }
  intros I A.
  enough (exists r s' iv' fl', step db s e = Ok (r, s') /\ sys_inv db s' iv' fl' /\
    forall t F, streamable t -> fl t = Some F -> ~ finishes e (sof (shared s) t) (make_request_id (fl_slot F) (fl_gen F)) -> fl' t = Some F /\ iv' t = iv t) as H.
  { destruct H as (r & s' & iv' & fl' & H1 & H2 & H3). exists r, s', iv', fl'. repeat (split; eauto). }
  destruct e as [t n|t n|w id|w id].
  - destruct (tier_dec t) as [-> |S]; [exists InvalidTier, s, iv, fl; auto|].
    destruct (step_in db WF s iv fl t n I S A) as (r & s' & E & P). destruct r; try contradiction.
    + destruct P as [_ ->]. exists InProgress, s, iv, fl. auto.
    + destruct P as (_ & _ & ->). exists Done, s, iv, fl. auto.
    + destruct P as (_ & ->). exists NoFreeRequests, s, iv, fl. auto.
    + destruct P as (b & i & g & FN & _ & _ & _ & _ & I'). eexists _, s', iv, _. split; [exact E|]. split; [exact I'|].
      intros t0 F S0 E0 _. split; auto. rewrite upd_fl_other; auto. intros ->. congruence.
  - destruct (tier_dec t) as [-> |S]; [exists InvalidTier, s, iv, fl; auto|].
    destruct (step_out db WF s iv fl t n I S A) as (r & s' & E & P). destruct r; try contradiction.
    + destruct P as [_ ->]. exists InProgress, s, iv, fl. auto.
    + destruct P as (_ & _ & ->). exists Done, s, iv, fl. auto.
    + destruct P as (_ & ->). exists NoFreeRequests, s, iv, fl. auto.
    + destruct P as (a & b & i & g & FN & _ & _ & _ & _ & _ & I'). eexists _, s', iv, _. split; [exact E|]. split; [exact I'|].
      intros t0 F S0 E0 _. split; auto. rewrite upd_fl_other; auto. intros ->. congruence.
  - destruct (step_finish db WF s iv fl true w id I A) as [[E _] | (s' & t & F & E & S & EF & EW & ID & I')].
    + exists Done, s, iv, fl. auto.
    + eexists Done, s', _, _. split; [exact E|]. split; [exact I'|]. intros t0 F0 S0 E0 NF. assert (D : t0 <> t).
      { intros ->. apply NF. rewrite EF in E0. injection E0 as <-. left. rewrite EW, ID. reflexivity. }
      rewrite !upd_fl_other by auto. auto.
  - destruct (step_finish db WF s iv fl false w id I A) as [[E _] | (s' & t & F & E & S & EF & EW & ID & I')].
    + exists Done, s, iv, fl. auto.
    + eexists Done, s', _, _. split; [exact E|]. split; [exact I'|]. intros t0 F0 S0 E0 NF. assert (D : t0 <> t).
      { intros ->. apply NF. rewrite EF in E0. injection E0 as <-. right. rewrite EW, ID. reflexivity. }
      rewrite !upd_fl_other by auto. auto.
Qed.

Lemma reach_inv sh n0 n1 s : 1 <= N.of_nat n0 < 2 ^ 32 -> 1 <= N.of_nat n1 < 2 ^ 32 -> reachable db sh n0 n1 s ->
  exists iv fl, sys_inv db s iv fl /\ shared s = sh.
Proof.
  intros H0 H1 R. induction R.
  - exists (fun _ => (0, 0)), (fun _ => None). split; [apply sys_init; auto | reflexivity].
  - destruct IHR as (iv & fl & I & Sh). destruct (step_any s iv fl e I H) as (r' & s2 & iv' & fl' & E & I' & S' & _).
    rewrite H2 in E. injection E as <- <-. exists iv', fl'. split; auto. congruence.
Qed.

Lemma other_inv w id s s' t F iv fl : other_events db w id s s' -> sys_inv db s iv fl -> streamable t -> fl t = Some F ->
  sof (shared s) t = w -> id = make_request_id (fl_slot F) (fl_gen F) ->
  exists iv' fl', sys_inv db s' iv' fl' /\ shared s' = shared s /\ fl' t = Some F /\ iv' t = iv t.
Proof.
  intros O. revert iv fl. induction O; intros iv fl I S EF EW ID.
  - exists iv, fl. auto.
  - destruct (step_any s iv fl e I H) as (r' & s3 & iv' & fl' & E & I' & S' & K). rewrite H1 in E. injection E as <- <-.
    destruct (K t F S EF) as [K1 K2]; [rewrite EW, <- ID; auto|].
    destruct (IHO iv' fl' I' S K1) as (iv2 & fl2 & A & B & C & D); [congruence | auto |].
    exists iv2, fl2. split; auto. split; [congruence|]. split; auto. congruence.
Qed.

Lemma resident_iff s iv fl t c ch : sys_inv db s iv fl -> streamable t -> chunk_at db t c ch ->
  (chunk_resident s t ch <-> live_lo (fst (iv t)) (fl t) <= c < snd (iv t)) /\
  (chunk_absent s t ch <-> ~ live_lo (fst (iv t)) (fl t) <= c < snd (iv t)).
Proof.
  intros [I _] S H. specialize (I t S). split; [apply (inv_resident_iff db WF t S _ _ _ _ _ _ _ I H)|].
  split.
  - intros A L. destruct (wf_chunk db WF t S c ch H) as (_ & Z & _).
    pose proof (proj1 (inv_resident db WF t S _ _ _ _ _ _ _ I H) L (ck_offset ch)) as P. specialize (A (ck_offset ch)). rewrite P in A by lia. discriminate A. lia.
  - intros L. exact (proj2 (inv_resident db WF t S _ _ _ _ _ _ _ I H) L).
Qed.

Lemma streamed_in_iff s iv fl t : sys_inv db s iv fl -> streamable t -> fl t = None ->
  (is_streamed_in db s t = true <-> forall c ch, chunk_at db t c ch -> chunk_resident s t ch).
Proof.
  intros I S EF. pose proof (proj1 I t S) as IT. rewrite EF in IT.
  pose proof (inv_loaded_count db WF t S _ _ _ _ _ IT) as C. pose proof (ti_ab _ _ _ _ _ _ _ IT) as AB.
  assert (E : is_streamed_in db s t = (snd (iv t) - fst (iv t) =? num_chunks db t)).
  { unfold is_streamed_in. rewrite C. destruct t; [destruct (S eq_refl)| |]; reflexivity. }
  rewrite E, N.eqb_eq. split.
  - intros Q c ch H. apply (resident_iff s iv fl t c ch I S H). rewrite EF. cbn [live_lo]. pose proof (chunk_lt db t c ch H). lia.
  - intros Q. destruct (N.eq_dec (num_chunks db t) 0) as [Z|Z]; [lia|].
    destruct (chunk_exists db t 0) as (c0 & H0); [lia|]. destruct (chunk_exists db t (num_chunks db t - 1)) as (c1 & H1); [lia|].
    pose proof (proj1 (proj1 (resident_iff s iv fl t _ _ I S H0)) (Q _ _ H0)) as A0.
    pose proof (proj1 (proj1 (resident_iff s iv fl t _ _ I S H1)) (Q _ _ H1)) as A1.
    rewrite EF in *. cbn [live_lo] in *. lia.
Qed.

(** a streamer with nothing in flight always has a free request *)
Lemma build_free sh sts pend fl act t f k : req_inv db sh sts pend fl ->
  (forall t', streamable t' -> sof sh t' = sof sh t -> fl t' = None) -> build_request (sts (sof sh t)) act t f k <> Ok None.
Proof.
  intros I Z. pose proof (ri_slot _ _ _ _ _ I) as RS. unfold build_request. destruct (nth_error _ _) as [q|] eqn:E; [|discriminate].
  destruct (rq_is_valid q) eqn:V; [|discriminate]. exfalso. destruct (RS _ _ _ E V) as (F & A & B & _).
  rewrite Z in A; [discriminate | apply valid_streamable; exact V | exact B].
Qed.
End Facts.
