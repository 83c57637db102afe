(** Every event of an allowed history preserves the invariant, and what each call returns. *)
From Coq Require Import Lia.
From Verif Require Import Word WordFacts BitManip Bitset BitsetFacts DbStream StreamSpec DbStreamFacts DbStreamInv DbStreamSys.
Local Open Scope N_scope.
Ltac Zify.zify_post_hook ::= idtac.

Lemma req_inv_ext db sh sts sts' pend fl : (forall w, sts w = sts' w) -> req_inv db sh sts pend fl -> req_inv db sh sts' pend fl.
Proof.
  intros E I. destruct I. constructor; intros; rewrite <- ?E in *; eauto.
Qed.

Definition sys_inv (db : database) (s : system) (iv : quality_tier -> N * N) (fl : quality_tier -> option flight) : Prop :=
  (forall t, streamable t -> tier_inv db t (rt s t) (mem s t) (fst (iv t)) (snd (iv t)) (fl t)) /\
  req_inv db (shared s) (get_streamer s) (pending s) fl.

Section Step.
Variable db : database.
Hypothesis WF : well_formed db.

Lemma sys_init sh n0 n1 : 1 <= N.of_nat n0 < 2 ^ 32 -> 1 <= N.of_nat n1 < 2 ^ 32 ->
  sys_inv db (initialize db sh n0 n1) (fun _ => (0, 0)) (fun _ => None).
Proof.
  intros H0 H1. split.
  - intros t S. destruct t; [destruct (S eq_refl) | |]; cbn [rt mem initialize medium_rt low_rt medium_mem low_mem fst snd]; apply inv_init; auto.
  - apply req_init; auto.
Qed.

Lemma assemble s s' iv fl t iv_t fl_t : sys_inv db s iv fl -> streamable t ->
  tier_inv db t (rt s' t) (mem s' t) (fst iv_t) (snd iv_t) fl_t ->
  (forall t', streamable t' -> t' <> t -> rt s' t' = rt s t' /\ mem s' t' = mem s t') ->
  req_inv db (shared s') (get_streamer s') (pending s') (upd_fl fl t fl_t) ->
  sys_inv db s' (upd_fl iv t iv_t) (upd_fl fl t fl_t).
Proof.
  intros [A _] S T O R. split; auto. intros t' S'. destruct (tier_eqb t' t) eqn:E.
  - apply tier_eqb_spec in E. subst t'. rewrite !upd_fl_same. exact T.
  - assert (D : t' <> t) by (intro Q; apply tier_eqb_spec in Q; congruence). rewrite !upd_fl_other by auto.
    destruct (O t' S' D) as [-> ->]. auto.
Qed.

Lemma last_size_of t c ch : chunk_at db t c ch -> last_size db t c = ck_size ch.
Proof. unfold chunk_at, last_size. intros ->. reflexivity. Qed.

Lemma sys_streaming s iv fl t : sys_inv db s iv fl -> streamable t -> (is_streaming s t = false <-> fl t = None).
Proof.
  intros [A _] S. specialize (A t S). apply inv_streaming in A; auto.
  unfold is_streaming. destruct t; [destruct (S eq_refl) | |]; rewrite negb_false_iff; exact A.
Qed.

(** what a dispatched call tells the streamer: the bytes of chunks [f, f+k) *)
Definition call_for (t : quality_tier) (act_in : bool) (f k : N) (c : stream_call) : Prop :=
  sc_in c = act_in /\ 1 <= k /\ f + k <= num_chunks db t /\
  forall x, in_range (sc_offset c) (sc_size c) x = true <->
    exists i ch, f <= i < f + k /\ chunk_at db t i ch /\ ck_offset ch <= x < ck_offset ch + ck_size ch.

Lemma step_in s iv fl t nreq : sys_inv db s iv fl -> streamable t -> allowed db s (EvIn t nreq) ->
  exists r s', step db s (EvIn t nreq) = Ok (r, s') /\
  match r with
  | InProgress => fl t <> None /\ s' = s
  | Done => fl t = None /\ iv t = (0, num_chunks db t) /\ s' = s
  | NoFreeRequests => fl t = None /\ s' = s
  | Dispatched c => exists b i g, fl t = None /\ iv t = (0, b) /\ b < num_chunks db t /\
      let k := N.min nreq (num_chunks db t - b) in
      call_for t true b k c /\ sc_id c = make_request_id i g /\
      sys_inv db s' iv (upd_fl fl t (Some {| fl_action := StreamIn; fl_first := b; fl_num := k; fl_slot := i; fl_gen := g |}))
  | _ => False
  end.
Proof.
  intros I S AL. pose proof (sys_streaming s iv fl t I S) as ISS. pose proof I as [IT IR]. specialize (IT t S).
  destruct AL as [NR AL]. specialize (AL S). cbn [step].
  destruct (is_streaming s t) eqn:STR.
  { exists InProgress, s. split; [unfold stream_in; rewrite STR; destruct t; [destruct (S eq_refl)| |]; reflexivity|]. split; auto. intro Q. apply ISS in Q. discriminate. }
  assert (FN : fl t = None) by (apply ISS; reflexivity). clear ISS. specialize (AL eq_refl).
  destruct (iv t) as [a b] eqn:EI. cbn [fst snd] in IT. rewrite FN in IT.
  set (n := num_chunks db t) in *. pose proof (ti_ab _ _ _ _ _ _ _ IT) as AB. fold n in AB.
  pose proof (ti_fl _ _ _ _ _ _ _ IT) as A0.
  assert (A : a = 0).
  { destruct AL as [AL|AL].
    - apply A0. destruct (N.eq_dec a b) as [Q|Q]; auto. destruct (chunk_exists db t a) as (ch & H); [fold n; lia|].
      exfalso. apply (AL a ch H). intros x X. apply (inv_resident db WF t S _ _ _ _ _ _ _ IT H); auto. cbn [live_lo]. lia.
    - destruct AL as [(ch & H & R) _]. assert (0 <= 0 /\ live_lo a None <= 0) as [_ Q]; [|cbn [live_lo] in Q; lia].
      split; [lia|]. apply (inv_resident_iff db WF t S _ _ _ _ _ _ _ IT H) in R. lia. }
  subst a. clear A0 AL.
  destruct (size_ok db WF t S) as [S1 S2]. fold n in S1, S2. pose proof (wf_count db WF t S) as NC. fold n in NC.
  pose proof (scan_pending_spec (loaded (rt s t)) b 0 (ti_lw _ _ _ _ _ _ _ IT) (ti_lh _ _ _ _ _ _ _ IT)) as SC.
  rewrite (ti_ll _ _ _ _ _ _ _ IT) in SC. fold n in SC. specialize (SC ltac:(lia) ltac:(lia)). change (0 * 32 + b) with b in SC.
  assert (EQ : stream_in db s t nreq = match scan_pending (loaded (rt s t)) 0 with None => Ok (Done, s) | Some first =>
    let last := clamp_last first nreq n in let num := clamp_num first last in if num =? 0 then Ok (Done, s) else
    bindo (build_request (get_streamer s (streamer_of s t)) StreamIn t first num) (fun o => match o with None => Ok (NoFreeRequests, s) | Some (id, st') =>
      match nth_error (db_chunks db t) (N.to_nat first), nth_error (db_chunks db t) (N.to_nat last) with
      | Some cf, Some cl => bindo (bitset_set_range (streaming (rt s t)) first num true) (fun streaming' =>
        Ok (Dispatched {| sc_in := true; sc_offset := ck_offset cf; sc_size := stream_size db num (ck_size cl);
                          sc_can_alloc := match bulk_data (rt s t) with None => true | Some _ => false end; sc_id := id |},
            set_rt (set_streamer s (streamer_of s t) st') t {| loaded := loaded (rt s t); streaming := streaming'; bulk_data := bulk_data (rt s t); tier_metadata := tier_metadata (rt s t) |}))
      | _, _ => UB end end) end).
  { unfold stream_in. rewrite STR. destruct t; [destruct (S eq_refl)| |]; reflexivity. }
  rewrite EQ. clear EQ. rewrite SC.
  destruct (N.ltb_spec b (32 * bitset_size_from_num_bits n)) as [Q|Q].
  2:{ exists Done, s. split; [reflexivity|]. cbn [fst snd]. assert (b = n) by lia. subst b. auto. }
  assert (N1 : 1 <= n). { destruct (N.eq_dec n 0) as [Z|Z]; [|lia]. rewrite Z in Q. change (bitset_size_from_num_bits 0) with 0 in Q. lia. }
  destruct (clamp_spec b nreq n) as [CN CL]; [lia | change (2 ^ 32) with 4294967296; lia | lia | lia |].
  cbv zeta. rewrite CN. destruct (N.eq_dec b n) as [BN|BN].
  { subst b. replace (N.min nreq (n - n) =? 0) with true by (symmetry; apply N.eqb_eq; lia). exists Done, s. split; [reflexivity|]. auto. }
  specialize (CL ltac:(lia)). set (k := N.min nreq (n - b)) in *. set (last := clamp_last b nreq n) in *.
  replace (k =? 0) with false by (symmetry; apply N.eqb_neq; lia).
  change (streamer_of s t) with (sof (shared s) t).
  destruct (build_inv db (shared s) (get_streamer s) (pending s) fl StreamIn t b k IR S FN) as [BR | (st' & i & g & BR & RI)].
  { rewrite BR. exists NoFreeRequests, s. split; [reflexivity | auto]. }
  rewrite BR. cbn [bindo]. destruct (chunk_exists db t b) as (cf & Hf); [fold n; lia|]. destruct (chunk_exists db t last) as (cl & Hl); [fold n; lia|].
  unfold chunk_at in Hf, Hl. rewrite Hf, Hl.
  destruct (dispatch_in db WF t S _ _ b k i g (next_buffer s) IT) as (sr & E & TI); [lia | fold n; lia|].
  rewrite E. cbn [bindo fst snd]. eexists _, _. split; [reflexivity|]. cbv zeta in RI.
  assert (HL : chunk_at db t (b + k - 1) cl). { unfold chunk_at. replace (b + k - 1) with last by lia. exact Hl. }
  destruct (stream_size_eq db WF t S b k cl) as [SS _]; [lia | fold n; lia | exact HL |].
  destruct (wf_chunk db WF t S b cf Hf) as (OF & _).
  exists b, i, g. cbv zeta. fold n. fold k. do 3 (split; [auto; lia|]). split; [|split; [reflexivity|split]].
  - split; [reflexivity|]. split; [lia|]. split; [fold n; lia|]. intros x.
    cbn [sc_offset sc_size]. rewrite SS, OF. apply range_chunks; auto; fold n; lia.
  - intros t0 H.
    destruct (tier_eqb t0 t) eqn:Et.
    + apply tier_eqb_spec in Et. subst t0. rewrite upd_fl_same, EI.
      replace (rt (handle_call _ t _) t) with
        {| loaded := loaded (rt s t); streaming := sr; bulk_data := bulk_data (rt s t); tier_metadata := tier_metadata (rt s t) |}
        by (destruct t; reflexivity).
      match goal with |- tier_inv _ _ _ ?m _ _ _ => replace m with (mem_in (mem s t) (match bulk_data (rt s t) with None => true | Some _ => false end) (next_buffer s)) end.
      * exact TI.
      * unfold mem_in. destruct t; [destruct (S eq_refl)| |]; unfold handle_call; cbn;
        destruct (bm_buffer _) eqn:Eb; cbn; auto; destruct (bulk_data _) eqn:Ed; reflexivity.
    + assert (D : t0 <> t) by (intro Z; apply tier_eqb_spec in Z; congruence). rewrite upd_fl_other by auto.
      destruct I as [I _]. specialize (I t0 H).
      destruct t, t0; try (destruct (S eq_refl)); try (destruct (H eq_refl)); try (destruct (D eq_refl)); exact I.
  - eapply req_inv_ext with (sts := fun w => if Bool.eqb w (sof (shared s) t) then st' else get_streamer s w).
    { intros w. destruct t; [destruct (S eq_refl)| |]; destruct w; cbn; destruct (shared s); reflexivity. }
    match goal with |- req_inv _ ?sh _ ?p _ => replace sh with (shared s) by (destruct t; reflexivity);
      replace p with (io_of db (shared s) t {| fl_action := StreamIn; fl_first := b; fl_num := k; fl_slot := i; fl_gen := g |} :: pending s) end.
    + exact RI.
    + unfold io_of, handle_call. cbn [fl_first fl_num fl_slot fl_gen fl_action sc_offset sc_size sc_id sc_in]. rewrite (last_size_of t _ cl HL), SS, OF.
      destruct t; [destruct (S eq_refl)| |]; reflexivity.
Qed.

Lemma step_out s iv fl t nreq : sys_inv db s iv fl -> streamable t -> allowed db s (EvOut t nreq) ->
  exists r s', step db s (EvOut t nreq) = Ok (r, s') /\
  match r with
  | InProgress => fl t <> None /\ s' = s
  | Done => fl t = None /\ iv t = (0, 0) /\ s' = s
  | NoFreeRequests => fl t = None /\ s' = s
  | Dispatched c => exists a b i g, fl t = None /\ iv t = (a, b) /\ a < b /\
      let k := N.min nreq (b - a) in
      call_for t false a k c /\ sc_id c = make_request_id i g /\ (sc_can_alloc c = true <-> k = b - a) /\
      sys_inv db s' iv (upd_fl fl t (Some {| fl_action := StreamOut; fl_first := a; fl_num := k; fl_slot := i; fl_gen := g |}))
  | _ => False
  end.
Proof.
  intros I S AL. pose proof (sys_streaming s iv fl t I S) as ISS. pose proof I as [IT IR]. specialize (IT t S).
  destruct AL as [NR AL]. specialize (AL S). cbn [step].
  destruct (is_streaming s t) eqn:STR.
  { exists InProgress, s. split; [unfold stream_out; rewrite STR; destruct t; [destruct (S eq_refl)| |]; reflexivity|]. split; auto. intro Q. apply ISS in Q. discriminate. }
  assert (FN : fl t = None) by (apply ISS; reflexivity). clear ISS. specialize (AL eq_refl).
  destruct (iv t) as [a b] eqn:EI. cbn [fst snd] in IT. rewrite FN in IT.
  set (n := num_chunks db t) in *. pose proof (ti_ab _ _ _ _ _ _ _ IT) as AB. fold n in AB.
  pose proof (ti_fl _ _ _ _ _ _ _ IT) as A0.
  destruct (size_ok db WF t S) as [S1 S2]. fold n in S1, S2. pose proof (wf_count db WF t S) as NC. fold n in NC.
  pose proof (scan_loaded_spec (loaded (rt s t)) a b 0 (ti_lw _ _ _ _ _ _ _ IT) (ti_lh _ _ _ _ _ _ _ IT)) as SC.
  rewrite (ti_ll _ _ _ _ _ _ _ IT) in SC. fold n in SC. specialize (SC ltac:(lia) ltac:(lia)). change (0 * 32 + a) with a in SC.
  assert (EQ : stream_out db s t nreq = match scan_loaded (loaded (rt s t)) 0 with None => Ok (Done, s) | Some first =>
    let last := clamp_last first nreq n in let num := clamp_num first last in if num =? 0 then Ok (Done, s) else
    bindo (build_request (get_streamer s (streamer_of s t)) StreamOut t first num) (fun o => match o with None => Ok (NoFreeRequests, s) | Some (id, st') =>
      match nth_error (db_chunks db t) (N.to_nat first), nth_error (db_chunks db t) (N.to_nat last) with
      | Some cf, Some cl => 
        let can_deallocate := num =? bitset_count_set_bits (loaded (rt s t)) in
        bindo (bitset_set_range (streaming (rt s t)) first num true) (fun streaming' =>
        bindo (for_chunks (N.to_nat num) (db_chunks db t) first (mem s t) (bulk_data (rt s t)) (fun _ => 0) (tier_metadata (rt s t))) (fun meta' =>
        Ok (Dispatched {| sc_in := false; sc_offset := ck_offset cf; sc_size := stream_size db num (ck_size cl);
                          sc_can_alloc := can_deallocate; sc_id := id |},
            set_rt (set_streamer s (streamer_of s t) st') t {| loaded := loaded (rt s t); streaming := streaming'; bulk_data := if can_deallocate then None else bulk_data (rt s t); tier_metadata := meta' |})))
      | _, _ => UB end end) end).
  { unfold stream_out. rewrite STR. destruct t; [destruct (S eq_refl)| |]; reflexivity. }
  rewrite EQ. clear EQ. rewrite SC.
  destruct (N.ltb_spec a b) as [Q|Q].
  2:{ exists Done, s. split; [reflexivity|]. cbn [fst snd]. assert (a = b) by lia. specialize (A0 H). subst a. split; auto. split; auto. congruence. }
  assert (KB : N.min nreq (n - a) <= b - a).
  { destruct (N.le_gt_cases (N.min nreq (n - a)) (b - a)) as [Z|Z]; auto. exfalso.
    destruct (chunk_exists db t a) as (ca & Ha); [fold n; lia|]. destruct (chunk_exists db t b) as (cb & Hb); [fold n; lia|].
    assert (R : chunk_resident s t cb).
    { apply (AL a) with (c' := b); auto; [|lia]. split.
      - exists ca. split; auto. intros x X. apply (inv_resident db WF t S _ _ _ _ _ _ _ IT Ha); auto. cbn [live_lo]. lia.
      - intros c' ch' C' H' R'. apply (inv_resident_iff db WF t S _ _ _ _ _ _ _ IT H') in R'. cbn [live_lo] in R'. lia. }
    apply (inv_resident_iff db WF t S _ _ _ _ _ _ _ IT Hb) in R. cbn [live_lo] in R. lia. }
  clear AL.
  destruct (clamp_spec a nreq n) as [CN CL]; [lia | change (2 ^ 32) with 4294967296; lia | lia | lia |].
  cbv zeta. rewrite CN. specialize (CL ltac:(lia)).
  assert (KE : N.min nreq (n - a) = N.min nreq (b - a)) by lia. rewrite KE in *.
  set (k := N.min nreq (b - a)) in *. set (last := clamp_last a nreq n) in *.
  replace (k =? 0) with false by (symmetry; apply N.eqb_neq; lia).
  change (streamer_of s t) with (sof (shared s) t).
  destruct (build_inv db (shared s) (get_streamer s) (pending s) fl StreamOut t a k IR S FN) as [BR | (st' & i & g & BR & RI)].
  { rewrite BR. exists NoFreeRequests, s. split; [reflexivity | auto]. }
  rewrite BR. cbn [bindo]. destruct (chunk_exists db t a) as (cf & Hf); [fold n; lia|]. destruct (chunk_exists db t last) as (cl & Hl); [fold n; lia|].
  unfold chunk_at in Hf, Hl. rewrite Hf, Hl.
  assert (HL : chunk_at db t (a + k - 1) cl). { unfold chunk_at. replace (a + k - 1) with last by lia. exact Hl. }
  destruct (stream_size_eq db WF t S a k cl) as [SS _]; [lia | fold n; lia | exact HL |].
  destruct (wf_chunk db WF t S a cf Hf) as (OF & _).
  destruct (dispatch_out db WF t S _ _ a b k i g (ck_offset cf) (stream_size db k (ck_size cl)) IT) as (sr & mt & E & E2 & TI); [lia | lia | |].
  { intros x. rewrite SS, OF. apply range_chunks; auto; fold n; lia. }
  rewrite E, E2. cbn [bindo fst snd]. eexists _, _. split; [reflexivity|]. cbv zeta in RI, TI.
  exists a, b, i, g. cbv zeta. fold n. fold k. do 3 (split; [auto; lia|]). split; [|split; [reflexivity|split; [|split]]].
  - split; [reflexivity|]. split; [lia|]. split; [fold n; lia|]. intros x.
    cbn [sc_offset sc_size]. rewrite SS, OF. apply range_chunks; auto; fold n; lia.
  - cbn [sc_can_alloc]. rewrite (inv_loaded_count db WF t S _ _ _ _ _ IT), N.eqb_eq. reflexivity.
  - intros t0 H.
    destruct (tier_eqb t0 t) eqn:Et.
    + apply tier_eqb_spec in Et. subst t0. rewrite upd_fl_same, EI.
      match goal with |- tier_inv _ _ ?r ?m _ _ _ => match type of TI with tier_inv _ _ ?r' ?m' _ _ _ => replace r with r' by (destruct t; reflexivity); replace m with m' end end.
      * exact TI.
      * destruct t; [destruct (S eq_refl)| |]; reflexivity.
    + assert (D : t0 <> t) by (intro Z; apply tier_eqb_spec in Z; congruence). rewrite upd_fl_other by auto.
      destruct I as [I _]. specialize (I t0 H).
      destruct t, t0; try (destruct (S eq_refl)); try (destruct (H eq_refl)); try (destruct (D eq_refl)); exact I.
  - eapply req_inv_ext with (sts := fun w => if Bool.eqb w (sof (shared s) t) then st' else get_streamer s w).
    { intros w. destruct t; [destruct (S eq_refl)| |]; destruct w; cbn; destruct (shared s); reflexivity. }
    match goal with |- req_inv _ ?sh _ ?p _ => replace sh with (shared s) by (destruct t; reflexivity);
      replace p with (io_of db (shared s) t {| fl_action := StreamOut; fl_first := a; fl_num := k; fl_slot := i; fl_gen := g |} :: pending s) end.
    + exact RI.
    + unfold io_of, handle_call. cbn [fl_first fl_num fl_slot fl_gen fl_action sc_offset sc_size sc_id sc_in]. rewrite (last_size_of t _ cl HL), SS, OF.
      destruct t; [destruct (S eq_refl)| |]; reflexivity.
Qed.

(** the loaded interval once the request in flight has finished *)
Definition after_finish (success : bool) (ab : N * N) (F : flight) : N * N :=
  match fl_action F with
  | StreamIn => if success then (0, snd ab + fl_num F) else ab
  | StreamOut => if fst ab + fl_num F =? snd ab then (0, 0) else (fst ab + fl_num F, snd ab)
  end.

Definition finish_event (success : bool) (w : bool) (id : N) : event := if success then EvComplete w id else EvCancel w id.

Lemma finish_request_none s w id success sts pend : finish_request db success s w id = Ok s ->
  find (io_is w id) (pending s) = None -> sts = get_streamer s -> pend = pending s -> step db s (finish_event success w id) = Ok (Done, s).
Proof.
  intros H F _ _. unfold finish_event. destruct success; cbn [step]; unfold finish_io; rewrite F, H; reflexivity.
Qed.

Lemma step_finish s iv fl success w id : sys_inv db s iv fl -> id < 2 ^ 64 ->
  (step db s (finish_event success w id) = Ok (Done, s) /\
   forall t F, streamable t -> fl t = Some F -> sof (shared s) t = w -> make_request_id (fl_slot F) (fl_gen F) <> id) \/
  exists s' t F, step db s (finish_event success w id) = Ok (Done, s') /\ streamable t /\ fl t = Some F /\ sof (shared s) t = w /\
    id = make_request_id (fl_slot F) (fl_gen F) /\
    sys_inv db s' (upd_fl iv t (after_finish success (iv t) F)) (upd_fl fl t None).
Proof.
  intros I L. pose proof I as [IT IR]. destruct (finish_inv db (shared s) (get_streamer s) (pending s) fl w id IR L)
    as [FN [OOB | (q & Eq & V)] NO | t F S EF EW ID SI LT NT EG FD RI].
  - left. split; auto. eapply finish_request_none; eauto. unfold finish_request. apply N.leb_le in OOB. rewrite OOB. reflexivity.
  - left. split; auto. eapply finish_request_none; eauto. unfold finish_request. rewrite Eq.
    destruct (_ <=? _); auto. destruct V as [V|V]; [rewrite V; reflexivity|]. destruct (rq_is_valid q); cbn [negb]; auto.
    apply N.eqb_neq in V. rewrite V. reflexivity.
  - right. specialize (IT t S). rewrite EF in IT. destruct (iv t) as [a b] eqn:EI. cbn [fst snd] in IT.
    pose proof (ti_fl _ _ _ _ _ _ _ IT) as FL. destruct F as [act f k slot gen]. cbn [fl_action fl_first fl_num fl_slot fl_gen] in *.
    set (n := num_chunks db t) in *. pose proof (ti_ab _ _ _ _ _ _ _ IT) as AB. fold n in AB.
    assert (NE : forall s2 ok, get_streamer s2 w = get_streamer s w ->
      finish_request db ok s2 w id = bindo (execute_request db ok s2 (flight_req t {| fl_action := act; fl_first := f; fl_num := k; fl_slot := slot; fl_gen := gen |}))
        (fun s3 => Ok (set_streamer s3 w {| requests := upd (requests (get_streamer s3 w)) (N.to_nat (get_request_index id))
            (rq_reset (flight_req t {| fl_action := act; fl_first := f; fl_num := k; fl_slot := slot; fl_gen := gen |}));
            next_request := next_request (get_streamer s3 w); generation := generation (get_streamer s3 w) |}))).
    { intros s2 ok Es. unfold finish_request. rewrite Es, NT. replace (_ <=? _) with false by (symmetry; apply N.leb_gt; exact LT).
      replace (rq_is_valid _) with true by (symmetry; apply valid_streamable; exact S).
      cbn [negb flight_req rq_gen fl_gen]. rewrite EG, N.eqb_refl. reflexivity. }
    assert (RNG : act = StreamIn -> forall x, in_range (f * db_max_chunk_size db) ((k - 1) * db_max_chunk_size db + last_size db t (f + k - 1)) x = true <->
       exists c ch, f <= c < f + k /\ chunk_at db t c ch /\ ck_offset ch <= x < ck_offset ch + ck_size ch).
    { intros -> x. destruct FL as (K & _ & FB & FN). fold n in FN. destruct (chunk_exists db t (f + k - 1)) as (cl & Hl); [fold n; lia|].
      rewrite (last_size_of t _ cl Hl). apply range_chunks; auto; fold n; lia. }
    assert (FIN : forall s2 iv_t r m, 
       step db s (finish_event success w id) = bindo (Ok s2) (fun s' => Ok (Done, s')) ->
       rt s2 t = r -> mem s2 t = m -> (forall t', streamable t' -> t' <> t -> rt s2 t' = rt s t' /\ mem s2 t' = mem s t') ->
       shared s2 = shared s -> pending s2 = filter (fun y => negb (io_is w id y)) (pending s) ->
       (forall w', get_streamer s2 w' = if Bool.eqb w' w then {| requests := upd (requests (get_streamer s w)) (N.to_nat (get_request_index id))
            (rq_reset (flight_req t {| fl_action := act; fl_first := f; fl_num := k; fl_slot := slot; fl_gen := gen |}));
            next_request := next_request (get_streamer s w); generation := generation (get_streamer s w) |} else get_streamer s w') ->
       tier_inv db t r m (fst iv_t) (snd iv_t) None ->
       iv_t = after_finish success (a, b) {| fl_action := act; fl_first := f; fl_num := k; fl_slot := slot; fl_gen := gen |} ->
       exists s' t0 F, step db s (finish_event success w id) = Ok (Done, s') /\ streamable t0 /\ fl t0 = Some F /\ sof (shared s) t0 = w /\
         id = make_request_id (fl_slot F) (fl_gen F) /\ sys_inv db s' (upd_fl iv t0 (after_finish success (iv t0) F)) (upd_fl fl t0 None)).
    { intros s2 iv_t r m H1 H2 H3 H4 H5 H6 H7 H8 H9. exists s2, t, {| fl_action := act; fl_first := f; fl_num := k; fl_slot := slot; fl_gen := gen |}.
      split; [exact H1|]. do 4 (split; [auto|]). rewrite EI, <- H9. apply (assemble s); auto.
      - rewrite H2, H3. exact H8.
      - rewrite H5, H6. eapply req_inv_ext; [|exact RI]. intros w'. symmetry. apply H7. }
    cbn [fl_slot] in SI. clear IR RI.
    destruct act.
    + destruct FL as (K & A0 & FB & FN). subst a f. fold n in FN. specialize (RNG eq_refl). destruct success.
      * destruct (complete_in db WF t S _ _ b k slot gen _ _ IT RNG) as (mt & l' & s' & E1 & E2 & E3 & TI). cbv zeta in TI.
        eapply FIN; [ | reflexivity | reflexivity | | | | | | reflexivity ].
        -- cbn [finish_event step]. unfold finish_io. rewrite FD. cbn [io_in io_of fl_action andb io_tier io_offset io_size fl_first fl_num].
           rewrite NE by (destruct w; reflexivity).
           match goal with |- context [execute_request _ _ ?x _] => set (s1 := x) end.
           assert (R1 : rt s1 t = rt s t) by (subst s1; destruct t; [destruct (S eq_refl)| |]; reflexivity).
           assert (M1 : mem s1 t = {| bm_buffer := bm_buffer (mem s t); bm_resident := fun x => if in_range (b * db_max_chunk_size db) ((k - 1) * db_max_chunk_size db + last_size db t (b + k - 1)) x then true else bm_resident (mem s t) x |})
             by (subst s1; destruct t; [destruct (S eq_refl)| |]; reflexivity).
           unfold execute_request, flight_req. cbn [rq_action rq_tier rq_first rq_num fl_action fl_first fl_num].
           rewrite R1, M1. cbn [bm_buffer]. rewrite E1. cbn [bindo]. rewrite E2. cbn [bindo streaming].
           rewrite E3. cbn [bindo]. reflexivity.
        -- intros t' S' D. destruct t, t'; try (destruct (S eq_refl)); try (destruct (S' eq_refl)); try (destruct (D eq_refl)); destruct w; split; reflexivity.
        -- destruct w; destruct t; reflexivity.
        -- destruct w; destruct t; reflexivity.
        -- intros w'. destruct w, w', t; reflexivity.
        -- match goal with |- tier_inv _ _ ?r ?m _ _ _ => match type of TI with tier_inv _ _ ?r' ?m' _ _ _ =>
             replace r with r' by (destruct w; destruct t; [destruct (S eq_refl)| | | destruct (S eq_refl)| |]; reflexivity);
             replace m with m' by (destruct w; destruct t; [destruct (S eq_refl)| | | destruct (S eq_refl)| |]; reflexivity) end end.
           exact TI.
      * destruct (cancel_in db WF t S _ _ b k slot gen IT) as (s' & E3 & TI).
        eapply FIN; [ | reflexivity | reflexivity | | | | | | reflexivity ].
        -- cbn [finish_event step]. unfold finish_io. rewrite FD. cbn [io_in io_of fl_action andb io_tier io_offset io_size fl_first fl_num].
           rewrite NE by (destruct w; reflexivity).
           unfold execute_request, flight_req. cbn [rq_action rq_tier rq_first rq_num fl_action fl_first fl_num bindo].
           match goal with |- context [bitset_set_range (streaming ?r) _ _ _] => replace (streaming r) with (streaming (rt s t)) by (destruct t; [destruct (S eq_refl)| |]; reflexivity) end.
           rewrite E3. cbn [bindo]. reflexivity.
        -- intros t' S' D. destruct t, t'; try (destruct (S eq_refl)); try (destruct (S' eq_refl)); try (destruct (D eq_refl)); destruct w; split; reflexivity.
        -- destruct w; destruct t; reflexivity.
        -- destruct w; destruct t; reflexivity.
        -- intros w'. destruct w, w', t; reflexivity.
        -- match goal with |- tier_inv _ _ ?r ?m _ _ _ => match type of TI with tier_inv _ _ ?r' ?m' _ _ _ =>
             replace r with r' by (destruct w; destruct t; [destruct (S eq_refl)| | | destruct (S eq_refl)| |]; reflexivity);
             replace m with m' by (destruct w; destruct t; [destruct (S eq_refl)| | | destruct (S eq_refl)| |]; reflexivity) end end.
           exact TI.
    + destruct FL as (K & FA & FN). subst f. 
      destruct (complete_out db WF t S _ _ a b k slot gen IT) as (l' & s' & E2 & E3 & TI).
      eapply (FIN _ (if a + k =? b then 0 else a + k, if a + k =? b then 0 else b)); [ | reflexivity | reflexivity | | | | | | ].
      * replace (step db s (finish_event success w id)) with
          (bindo (finish_request db success (set_pending s (filter (fun y => negb (io_is w id y)) (pending s))) w id) (fun s' => Ok (Done, s'))).
        2:{ destruct success; cbn [finish_event step]; unfold finish_io; rewrite FD; reflexivity. }
        rewrite NE by (destruct w; reflexivity).
        unfold execute_request, flight_req. cbn [rq_action rq_tier rq_first rq_num fl_action fl_first fl_num bindo].
        match goal with |- context [bitset_set_range (loaded ?r) _ _ _] => replace (loaded r) with (loaded (rt s t)) by (destruct t; [destruct (S eq_refl)| |]; reflexivity) end.
        rewrite E2. cbn [bindo].
        match goal with |- context [bitset_set_range (streaming ?r) _ _ _] => replace (streaming r) with (streaming (rt s t)) by (destruct t; [destruct (S eq_refl)| |]; reflexivity) end.
        rewrite E3. cbn [bindo]. reflexivity.
      * intros t' S' D. destruct t, t'; try (destruct (S eq_refl)); try (destruct (S' eq_refl)); try (destruct (D eq_refl)); destruct w; split; reflexivity.
      * destruct w; destruct t; reflexivity.
      * destruct w; destruct t; reflexivity.
      * intros w'. destruct w, w', t; reflexivity.
      * cbn [fst snd]. match goal with |- tier_inv _ _ ?r ?m _ _ _ => match type of TI with tier_inv _ _ ?r' ?m' _ _ _ =>
             replace r with r' by (destruct w; destruct t; [destruct (S eq_refl)| | | destruct (S eq_refl)| |]; reflexivity);
             replace m with m' by (destruct w; destruct t; [destruct (S eq_refl)| | | destruct (S eq_refl)| |]; reflexivity) end end.
        exact TI.
      * unfold after_finish. cbn [fl_action fl_num fst snd]. destruct (a + k =? b); reflexivity.
Qed.
End Step.
