(** The request table, and the preservation of the invariant by every event of an allowed history. *)
From Coq Require Import Lia.
From Verif Require Import Word WordFacts BitManip Bitset BitsetFacts DbStream StreamSpec DbStreamFacts DbStreamInv TrackArrayFacts.
Local Open Scope N_scope.
Ltac Zify.zify_post_hook ::= idtac.

Definition sof (sh : bool) (t : quality_tier) : bool := match t with Medium => false | _ => negb sh end.
Definition flight_req (t : quality_tier) (F : flight) : request :=
  {| rq_action := fl_action F; rq_tier := t; rq_first := fl_first F; rq_num := fl_num F; rq_gen := fl_gen F |}.
Definition io_of (db : database) (sh : bool) (t : quality_tier) (F : flight) : io :=
  {| io_streamer := sof sh t; io_id := make_request_id (fl_slot F) (fl_gen F); io_tier := t;
     io_offset := fl_first F * db_max_chunk_size db;
     io_size := (fl_num F - 1) * db_max_chunk_size db + last_size db t (fl_first F + fl_num F - 1);
     io_in := match fl_action F with StreamIn => true | StreamOut => false end |}.

Record req_inv (db : database) (sh : bool) (sts : bool -> streamer) (pend : list io) (fl : quality_tier -> option flight) : Prop := {
  ri_len : forall w, 1 <= N.of_nat (length (requests (sts w))) < 2 ^ 32;
  ri_next : forall w, next_request (sts w) < N.of_nat (length (requests (sts w)));
  ri_gen : forall w, generation (sts w) < 2 ^ 32;
  ri_slot : forall w i q, nth_error (requests (sts w)) i = Some q -> rq_is_valid q = true ->
      exists F, fl (rq_tier q) = Some F /\ sof sh (rq_tier q) = w /\ fl_slot F = N.of_nat i /\ q = flight_req (rq_tier q) F;
  ri_fl : forall t F, streamable t -> fl t = Some F ->
      nth_error (requests (sts (sof sh t))) (N.to_nat (fl_slot F)) = Some (flight_req t F) /\ fl_slot F < 2 ^ 32 /\ fl_gen F < 2 ^ 32;
  ri_pend : forall x, In x pend <-> exists t F, streamable t /\ fl t = Some F /\ x = io_of db sh t F
}.

Definition upd_fl {A} (f : quality_tier -> A) (t : quality_tier) (v : A) : quality_tier -> A := fun t' => if tier_eqb t' t then v else f t'.

Lemma tier_eqb_spec a b : tier_eqb a b = true <-> a = b.
Proof. destruct a, b; cbn; split; congruence. Qed.
Lemma tier_eqb_refl a : tier_eqb a a = true. Proof. destruct a; reflexivity. Qed.
Lemma upd_fl_same {A} (f : quality_tier -> A) t v : upd_fl f t v t = v. Proof. unfold upd_fl. rewrite tier_eqb_refl. reflexivity. Qed.
Lemma upd_fl_other {A} (f : quality_tier -> A) t v t' : t' <> t -> upd_fl f t v t' = f t'.
Proof. unfold upd_fl. destruct (tier_eqb t' t) eqn:E; auto. apply tier_eqb_spec in E. congruence. Qed.
Lemma valid_streamable q : rq_is_valid q = true <-> streamable (rq_tier q).
Proof. unfold rq_is_valid, streamable. destruct (rq_tier q); cbn; split; congruence. Qed.
Lemma nth_error_upd' {A} (l : list A) i j x : (i < length l)%nat -> nth_error (upd l i x) j = if Nat.eqb j i then Some x else nth_error l j.
Proof.
  revert i j. induction l; intros i j H; cbn in *; [lia|]. destruct i, j; cbn; auto. apply IHl. lia.
Qed.
Lemma upd_length' {A} (l : list A) i x : length (upd l i x) = length l.
Proof. revert i. induction l; intros [|i]; cbn; auto. Qed.

Section Sys.
Variable db : database.
Hypothesis WF : well_formed db.

Lemma req_init sh n0 n1 : 1 <= N.of_nat n0 < 2 ^ 32 -> 1 <= N.of_nat n1 < 2 ^ 32 ->
  req_inv db sh (get_streamer (initialize db sh n0 n1)) [] (fun _ => None).
Proof.
  intros H0 H1. assert (L : forall k, length (repeat rq_default k) = k) by (intros; apply repeat_length).
  constructor; try (intros [|]; cbn; rewrite ?L; lia).
  - intros w i q E V. assert (q = rq_default) by (destruct w; cbn in E; apply nth_error_In in E; apply repeat_spec in E; auto). subst q. discriminate.
  - discriminate.
  - intros x. split; [intros [] | intros (t & F & _ & E & _); discriminate].
Qed.

(** handing out a request *)
Lemma build_inv sh sts pend fl act t f k : req_inv db sh sts pend fl -> streamable t -> fl t = None ->
  build_request (sts (sof sh t)) act t f k = Ok None \/
  exists st' i g, build_request (sts (sof sh t)) act t f k = Ok (Some (make_request_id i g, st')) /\
    let F := {| fl_action := act; fl_first := f; fl_num := k; fl_slot := i; fl_gen := g |} in
    req_inv db sh (fun w => if Bool.eqb w (sof sh t) then st' else sts w) (io_of db sh t F :: pend) (upd_fl fl t (Some F)).
Proof.
  intros I S N. destruct I. set (w0 := sof sh t) in *. unfold build_request.
  pose proof (ri_next0 w0) as HN. pose proof (ri_len0 w0) as HL. pose proof (ri_gen0 w0) as HG.
  set (st := sts w0) in *. set (i := next_request st) in *.
  destruct (nth_error (requests st) (N.to_nat i)) as [q|] eqn:E; [|apply nth_error_None in E; lia].
  destruct (rq_is_valid q) eqn:V; [left; reflexivity|]. right.
  eexists _, i, (generation st). split; [reflexivity|]. cbv zeta.
  assert (LT : (N.to_nat i < length (requests st))%nat) by lia.
  constructor.
  - intros w. destruct (Bool.eqb w w0); auto. cbn [requests]. rewrite upd_length'. auto.
  - intros w. destruct (Bool.eqb w w0); auto. cbn [requests next_request]. rewrite upd_length'. apply N.mod_lt. lia.
  - intros w. destruct (Bool.eqb w w0); auto. cbn [generation]. unfold addw. apply N.mod_lt. discriminate.
  - intros w j q' Ej Vj. destruct (Bool.eqb w w0) eqn:Ew.
    + apply eqb_prop in Ew. subst w. cbn [requests] in Ej. rewrite nth_error_upd' in Ej by auto.
      destruct (Nat.eqb_spec j (N.to_nat i)) as [-> |D].
      * injection Ej as <-. cbn [rq_tier]. rewrite upd_fl_same. eexists. split; [reflexivity|]. cbn [fl_slot]. repeat split; auto. lia.
      * destruct (ri_slot0 _ _ _ Ej Vj) as (F & A & B & C & D'). exists F. rewrite upd_fl_other; auto. intro Q. rewrite Q in A. congruence.
    + destruct (ri_slot0 _ _ _ Ej Vj) as (F & A & B & C & D'). exists F. rewrite upd_fl_other; auto. intro Q. rewrite Q in A. congruence.
  - intros t' F St EF. destruct (tier_eqb t' t) eqn:Et.
    + apply tier_eqb_spec in Et. subst t'. rewrite upd_fl_same in EF. injection EF as <-. cbn [fl_slot fl_gen]. fold w0. rewrite Bool.eqb_reflx.
      cbn [requests]. rewrite nth_error_upd' by auto. rewrite Nat.eqb_refl. repeat split; auto; lia.
    + assert (D : t' <> t) by (intro Q; apply tier_eqb_spec in Q; congruence). rewrite upd_fl_other in EF by auto.
      destruct (ri_fl0 t' F St EF) as (A & B & C). repeat split; auto.
      destruct (Bool.eqb (sof sh t') w0) eqn:Ew; auto. apply eqb_prop in Ew. rewrite Ew in A. cbn [requests]. rewrite nth_error_upd' by auto.
      destruct (Nat.eqb_spec (N.to_nat (fl_slot F)) (N.to_nat i)) as [Q|Q]; auto. exfalso. rewrite Q in A. fold st in A. rewrite E in A. injection A as ->.
      assert (rq_is_valid (flight_req t' F) = true) by (apply valid_streamable; exact St). congruence.
  - intros x. cbn [In]. rewrite ri_pend0. split.
    + intros [<- | (t' & F & A & B & C)].
      * exists t. eexists. rewrite upd_fl_same. eauto.
      * exists t', F. rewrite upd_fl_other; auto. intros ->. congruence.
    + intros (t' & F & A & B & C). destruct (tier_eqb t' t) eqn:Et.
      * apply tier_eqb_spec in Et. subst t'. rewrite upd_fl_same in B. injection B as <-. auto.
      * right. exists t', F. rewrite upd_fl_other in B; auto. intros ->. rewrite tier_eqb_refl in Et. discriminate.
Qed.

(** completing or cancelling an id *)
Inductive finish_view sh (sts : bool -> streamer) pend fl w id : Prop :=
| fv_none : find (io_is w id) pend = None ->
    (N.of_nat (length (requests (sts w))) <= get_request_index id \/
     exists q, nth_error (requests (sts w)) (N.to_nat (get_request_index id)) = Some q /\ (rq_is_valid q = false \/ rq_gen q <> get_generation_id id)) ->
    (forall t F, streamable t -> fl t = Some F -> sof sh t = w -> make_request_id (fl_slot F) (fl_gen F) <> id) ->
    finish_view sh sts pend fl w id
| fv_some t F : streamable t -> fl t = Some F -> sof sh t = w -> id = make_request_id (fl_slot F) (fl_gen F) ->
    fl_slot F = get_request_index id -> get_request_index id < N.of_nat (length (requests (sts w))) ->
    nth_error (requests (sts w)) (N.to_nat (get_request_index id)) = Some (flight_req t F) -> fl_gen F = get_generation_id id ->
    find (io_is w id) pend = Some (io_of db sh t F) ->
    (let st := sts w in
     req_inv db sh (fun w' => if Bool.eqb w' w then {| requests := upd (requests st) (N.to_nat (get_request_index id)) (rq_reset (flight_req t F));
                                                      next_request := next_request st; generation := generation st |} else sts w')
       (filter (fun y => negb (io_is w id y)) pend) (upd_fl fl t None)) ->
    finish_view sh sts pend fl w id.

Lemma find_none {A} (f : A -> bool) l : (forall x, In x l -> f x = false) -> find f l = None.
Proof. induction l; cbn; intros H; auto. rewrite H by auto. apply IHl; intros; apply H; auto. Qed.

Lemma find_none_in {A} (f : A -> bool) l : find f l = None -> forall x, In x l -> f x = false.
Proof. induction l as [|a l IH]; cbn; intros H x []; subst; destruct (f _) eqn:E; try discriminate; auto. Qed.

Lemma io_match sh sts pend fl w id t F : req_inv db sh sts pend fl -> streamable t -> fl t = Some F -> id < 2 ^ 64 ->
  io_is w id (io_of db sh t F) = true ->
  sof sh t = w /\ fl_slot F = get_request_index id /\ fl_gen F = get_generation_id id /\ id = make_request_id (fl_slot F) (fl_gen F).
Proof.
  intros I S E L H. unfold io_is, io_of in H. cbn [io_streamer io_id] in H. apply andb_true_iff in H. destruct H as [H1 H2].
  apply eqb_prop in H1. apply N.eqb_eq in H2. destruct (ri_fl _ _ _ _ _ I t F S E) as (_ & B & C).
  destruct (request_id_inj _ _ B C) as [P Q]. rewrite H2 in P, Q. auto.
Qed.

Lemma finish_inv sh sts pend fl w id : req_inv db sh sts pend fl -> id < 2 ^ 64 -> finish_view sh sts pend fl w id.
Proof.
  intros I L. pose proof I as I'. destruct I.
  assert (NONE : (forall t F, streamable t -> fl t = Some F -> sof sh t = w -> fl_slot F = get_request_index id -> fl_gen F = get_generation_id id -> False) ->
                 find (io_is w id) pend = None /\ (forall t F, streamable t -> fl t = Some F -> sof sh t = w -> make_request_id (fl_slot F) (fl_gen F) <> id)).
  { intros H. split.
    - apply find_none. intros x Hx. apply ri_pend0 in Hx. destruct Hx as (t & F & S & E & ->).
      destruct (io_is w id (io_of db sh t F)) eqn:Q; auto. exfalso. destruct (io_match _ _ _ _ _ _ _ _ I' S E L Q) as (A & B & C & _). eapply H; eauto.
    - intros t F S E W Q. destruct (ri_fl0 t F S E) as (_ & B & C). destruct (request_id_inj _ _ B C) as [P R]. rewrite Q in P, R. eapply H; eauto. }
  set (i := get_request_index id) in *.
  destruct (N.le_gt_cases (N.of_nat (length (requests (sts w)))) i) as [OOB|IB].
  { destruct NONE as [A B].
    { intros t F S E W Si _. destruct (ri_fl0 t F S E) as (N & _). rewrite W, Si in N.
      assert (X : nth_error (requests (sts w)) (N.to_nat i) <> None) by congruence. apply nth_error_Some in X. lia. }
    apply fv_none; auto. }
  destruct (nth_error (requests (sts w)) (N.to_nat i)) as [q|] eqn:Eq; [|apply nth_error_None in Eq; lia].
  destruct (rq_is_valid q) eqn:V.
  2:{ destruct NONE as [A B].
      { intros t F S E W Si _. destruct (ri_fl0 t F S E) as (N & _). rewrite W, Si, Eq in N. injection N as ->.
        assert (rq_is_valid (flight_req t F) = true) by (apply valid_streamable; exact S). congruence. }
      apply fv_none; auto. right. exists q. fold i. auto. }
  destruct (N.eq_dec (rq_gen q) (get_generation_id id)) as [G|G].
  2:{ destruct NONE as [A B].
      { intros t F S E W Si Sg. destruct (ri_fl0 t F S E) as (N & _). rewrite W, Si, Eq in N. injection N as ->. apply G. exact Sg. }
      apply fv_none; auto. right. exists q. fold i. auto. }
  destruct (ri_slot0 _ _ _ Eq V) as (F & EF & EW & ES & EQ). set (t := rq_tier q) in *.
  assert (S : streamable t) by (apply valid_streamable; exact V).
  assert (Sl : fl_slot F = i) by lia.
  assert (Gn : fl_gen F = get_generation_id id) by (rewrite <- G, EQ; reflexivity).
  assert (ID : id = make_request_id (fl_slot F) (fl_gen F)) by (rewrite Sl, Gn; symmetry; apply request_id_of; exact L).
  assert (IOM : io_is w id (io_of db sh t F) = true).
  { unfold io_is, io_of. cbn [io_streamer io_id]. rewrite EW, Bool.eqb_reflx, <- ID, N.eqb_refl. reflexivity. }
  (* the pending entries that match the id are this one *)
  assert (UNI : forall t' F', streamable t' -> fl t' = Some F' -> io_is w id (io_of db sh t' F') = true -> t' = t).
  { intros t' F' S' E' M. destruct (io_match _ _ _ _ _ _ _ _ I' S' E' L M) as (A & B & C & _).
    destruct (ri_fl0 t' F' S' E') as (N & _). rewrite A, B in N. fold i in N. rewrite Eq in N. injection N as N. unfold t. rewrite N. reflexivity. }
  apply (fv_some sh sts pend fl w id t F); auto.
  - fold i. rewrite Eq. f_equal. exact EQ.
  - destruct (find (io_is w id) pend) as [x|] eqn:Fd.
    + apply find_some in Fd. destruct Fd as [X1 X2]. apply ri_pend0 in X1. destruct X1 as (t' & F' & S' & E' & ->).
      pose proof (UNI _ _ S' E' X2) as Z. rewrite Z in E' |- *. rewrite EF in E'. injection E' as <-. reflexivity.
    + assert (In (io_of db sh t F) pend) by (apply ri_pend0; eauto). rewrite (find_none_in _ _ Fd _ H) in IOM. discriminate.
  - cbv zeta. fold i. assert (LT : (N.to_nat i < length (requests (sts w)))%nat) by lia. constructor.
    + intros w'. destruct (Bool.eqb w' w); auto. cbn [requests]. rewrite upd_length'. auto.
    + intros w'. destruct (Bool.eqb w' w); auto. cbn [requests next_request]. rewrite upd_length'. auto.
    + intros w'. destruct (Bool.eqb w' w); auto. cbn [generation]. auto.
    + intros w' j q' Ej Vj. destruct (Bool.eqb w' w) eqn:Ew.
      * apply eqb_prop in Ew. subst w'. cbn [requests] in Ej. rewrite nth_error_upd' in Ej by auto. destruct (Nat.eqb_spec j (N.to_nat i)) as [-> |D].
        -- injection Ej as <-. discriminate Vj.
        -- destruct (ri_slot0 _ _ _ Ej Vj) as (F' & A & B & C & D'). exists F'. rewrite upd_fl_other; auto. intros Q. rewrite Q in A. rewrite EF in A. injection A as <-. lia.
      * destruct (ri_slot0 _ _ _ Ej Vj) as (F' & A & B & C & D'). exists F'. rewrite upd_fl_other; auto.
        intros Q. rewrite Q, EW in B. subst w'. rewrite Bool.eqb_reflx in Ew. discriminate.
    + intros t' F' S' E'. assert (D : t' <> t) by (intros ->; rewrite upd_fl_same in E'; discriminate). rewrite upd_fl_other in E' by auto.
      destruct (ri_fl0 t' F' S' E') as (A & B & C). repeat split; auto.
      destruct (Bool.eqb (sof sh t') w) eqn:Ew; auto. apply eqb_prop in Ew. rewrite Ew in A. cbn [requests]. rewrite nth_error_upd' by auto.
      destruct (Nat.eqb_spec (N.to_nat (fl_slot F')) (N.to_nat i)) as [Q|Q]; auto. exfalso. rewrite Q, Eq in A. injection A as A. apply D. unfold t. rewrite A. reflexivity.
    + intros x. rewrite filter_In, ri_pend0. split.
      * intros ((t' & F' & S' & E' & ->) & M). exists t', F'. rewrite upd_fl_other; auto. intros ->. rewrite EF in E'. injection E' as <-. rewrite IOM in M. discriminate.
      * intros (t' & F' & S' & E' & ->). assert (D : t' <> t) by (intros ->; rewrite upd_fl_same in E'; discriminate). rewrite upd_fl_other in E' by auto.
        split; [eauto|]. destruct (io_is w id (io_of db sh t' F')) eqn:Q; auto. exfalso. apply D. eapply UNI; eauto.
Qed.
End Sys.
