(** Properties C23, C24 and C32: streaming databases in and out.  The vocabulary is in StreamSpec.v: which bytes of the bulk
    data the streamer holds ([chunk_resident] / [chunk_absent]), what decompression sees ([visible_metadata]), how the API
    may be used ([allowed]) and the states this reaches ([reachable]). *)
From Coq Require Import Lia.
From Verif Require Import Word WordFacts BitManip Bitset BitsetFacts DbStream StreamSpec DbStreamFacts DbStreamInv DbStreamSys DbStreamStep StreamFacts RequestFacts.
Local Open Scope N_scope.
Ltac Zify.zify_post_hook ::= idtac.

Definition streamer_size (n : nat) : Prop := 1 <= N.of_nat n < 2 ^ 32.

(** the metadata word: bulk data offset in the high half, sample indices in the low half *)
Lemma seg_metadata_eq sg : cs_samples_offset sg < 2 ^ 32 -> cs_sample_indices sg < 2 ^ 32 ->
  seg_metadata sg = cs_samples_offset sg * 2 ^ 32 + cs_sample_indices sg.
Proof.
  intros O1 O2. unfold seg_metadata, shlw.
  assert (M : N.shiftl (cs_samples_offset sg) 32 < 2 ^ 64).
  { rewrite N.shiftl_mul_pow2. change (2 ^ 64) with (2 ^ 32 * 2 ^ 32). apply N.mul_lt_mono_pos_r; [reflexivity | exact O1]. }
  rewrite N.mod_small by exact M. rewrite <- N.shiftl_mul_pow2. symmetry. rewrite N.add_nocarry_lxor, N.lxor_lor; auto.
  all: apply N.bits_inj; intros i; rewrite N.land_spec, N.bits_0, testbit_shiftl; destruct (N.leb_spec 32 i); cbn [andb]; auto;
    rewrite (testbit_high _ _ O2) by auto; apply andb_false_r.
Qed.

(** * C23 *)
(** No allowed call ever reads the headers of a chunk that is not in memory, indexes outside of a table or dereferences a
    null bulk data pointer. *)
Theorem C23_streaming_is_safe : forall db sh n0 n1 s e, well_formed db -> streamer_size n0 -> streamer_size n1 ->
  reachable db sh n0 n1 s -> allowed db s e -> exists r s', step db s e = Ok (r, s').
Proof.
  intros db sh n0 n1 s e W H0 H1 R A. destruct (reach_inv db W sh n0 n1 s H0 H1 R) as (iv & fl & I & _).
  destruct (step_any db W s iv fl e I A) as (r & s' & _ & _ & E & _). eauto.
Qed.
Print Assumptions C23_streaming_is_safe.

(** At any time, either a chunk is entirely in memory, its segments are visible with their own metadata, and the pointer
    decompression uses is the streamer's live buffer; or no byte of it is in memory and its segments are not visible. *)
Theorem C23_visible_iff_resident : forall db sh n0 n1 s t c ch sg, well_formed db -> streamer_size n0 -> streamer_size n1 ->
  reachable db sh n0 n1 s -> streamable t -> chunk_at db t c ch -> In sg (ck_segs ch) ->
  cs_samples_offset sg < 2 ^ 32 -> cs_sample_indices sg < 2 ^ 32 ->
  (chunk_resident s t ch /\ visible_metadata s t sg = cs_samples_offset sg * 2 ^ 32 + cs_sample_indices sg /\
     exists p, bulk_data (rt s t) = Some p /\ bm_buffer (mem s t) = Some p) \/
  (chunk_absent s t ch /\ visible_metadata s t sg = 0).
Proof.
  intros db sh n0 n1 s t c ch sg W H0 H1 R S H J O1 O2. rewrite <- (seg_metadata_eq sg O1 O2). destruct (reach_inv db W sh n0 n1 s H0 H1 R) as (iv & fl & I & _).
  destruct (resident_iff db W s iv fl t c ch I S H) as [P Q]. pose proof (proj1 I t S) as IT.
  pose proof (ti_meta _ _ _ _ _ _ _ IT c ch sg H J) as M. unfold visible_metadata.
  destruct ((live_lo (fst (iv t)) (fl t) <=? c) && (c <? snd (iv t))) eqn:E.
  - apply andb_true_iff in E. rewrite N.leb_le, N.ltb_lt in E. left. split; [apply P; exact E|]. split; auto.
    apply (ti_ptr _ _ _ _ _ _ _ IT). lia.
  - apply andb_false_iff in E. rewrite N.leb_gt, N.ltb_ge in E. right. split; auto. apply Q. lia.
Qed.
Print Assumptions C23_visible_iff_resident.

(** A chunk of a request in flight is never visible. *)
Theorem C23_in_flight_is_invisible : forall db sh n0 n1 s t c ch, well_formed db -> streamer_size n0 -> streamer_size n1 ->
  reachable db sh n0 n1 s -> streamable t -> chunk_at db t c ch ->
  bitset_test (streaming (rt s t)) c = Ok true -> chunk_absent s t ch.
Proof.
  intros db sh n0 n1 s t c ch W H0 H1 R S H B. destruct (reach_inv db W sh n0 n1 s H0 H1 R) as (iv & fl & I & _).
  apply (resident_iff db W s iv fl t c ch I S H). pose proof (proj1 I t S) as IT.
  pose proof (chunk_lt db t c ch H) as L. destruct (size_ok db W t S) as [S1 _].
  rewrite bitset_test_spec in B by (rewrite (ti_sl _ _ _ _ _ _ _ IT); lia). injection B as B. rewrite (ti_sh _ _ _ _ _ _ _ IT) in B.
  apply andb_true_iff in B. rewrite N.leb_le, N.ltb_lt in B. pose proof (ti_fl _ _ _ _ _ _ _ IT) as F.
  destruct (fl t) as [X|]; cbn [fl_lo fl_hi live_lo] in *; [|lia]. destruct (fl_action X); lia.
Qed.
Print Assumptions C23_in_flight_is_invisible.

(** * C24 *)
Theorem C24_is_streamed_in_is_exact : forall db sh n0 n1 s t, well_formed db -> streamer_size n0 -> streamer_size n1 ->
  reachable db sh n0 n1 s -> streamable t -> is_streaming s t = false ->
  (is_streamed_in db s t = true <-> forall c ch, chunk_at db t c ch -> chunk_resident s t ch).
Proof.
  intros db sh n0 n1 s t W H0 H1 R S NS. destruct (reach_inv db W sh n0 n1 s H0 H1 R) as (iv & fl & I & _).
  apply (streamed_in_iff db W s iv fl); auto. apply (sys_streaming db W s iv fl t); auto.
Qed.
Print Assumptions C24_is_streamed_in_is_exact.

(** In any state at all, a call made while a request is in flight on the tier is refused and changes nothing. *)
Theorem C24_one_request_at_a_time : forall db s t n, streamable t -> is_streaming s t = true ->
  step db s (EvIn t n) = Ok (InProgress, s) /\ step db s (EvOut t n) = Ok (InProgress, s).
Proof.
  intros db s t n S H. cbn [step]. unfold stream_in, stream_out. rewrite H. destruct t; [destruct (S eq_refl) | |]; split; reflexivity.
Qed.
Print Assumptions C24_one_request_at_a_time.

(** stream_in answers done only when the whole tier is in memory. *)
Theorem C24_done_means_streamed_in : forall db sh n0 n1 s t n s', well_formed db -> streamer_size n0 -> streamer_size n1 ->
  reachable db sh n0 n1 s -> streamable t -> allowed db s (EvIn t n) -> step db s (EvIn t n) = Ok (Done, s') ->
  s' = s /\ is_streamed_in db s t = true /\ forall c ch, chunk_at db t c ch -> chunk_resident s t ch.
Proof.
  intros db sh n0 n1 s t n s' W H0 H1 R S A E. destruct (reach_inv db W sh n0 n1 s H0 H1 R) as (iv & fl & I & _).
  destruct (step_in db W s iv fl t n I S A) as (r & s2 & E2 & P). rewrite E in E2. injection E2 as <- <-. destruct P as (F & V & ->).
  assert (Q : forall c ch, chunk_at db t c ch -> chunk_resident s t ch).
  { intros c ch H. apply (resident_iff db W s iv fl t c ch I S H). rewrite F, V. cbn [live_lo fst snd]. pose proof (chunk_lt db t c ch H). lia. }
  split; auto. split; auto. apply (streamed_in_iff db W s iv fl); auto.
Qed.
Print Assumptions C24_done_means_streamed_in.

Lemma request_id_lt i g : i < 2 ^ 32 -> g < 2 ^ 32 -> make_request_id i g < 2 ^ 64.
Proof.
  intros B1 B2. unfold make_request_id, shlw.
  assert (M : N.shiftl g 32 < 2 ^ 64).
  { rewrite N.shiftl_mul_pow2. change (2 ^ 64) with (2 ^ 32 * 2 ^ 32). apply N.mul_lt_mono_pos_r; [reflexivity | exact B2]. }
  rewrite N.mod_small by exact M.
  destruct (N.eq_dec (N.lor (N.shiftl g 32) i) 0) as [-> |NZ]; [reflexivity|]. apply N.log2_lt_pow2; [lia|]. rewrite N.log2_lor.
  apply N.max_lub_lt.
  - destruct (N.eq_dec g 0) as [-> |]; [reflexivity|]. rewrite N.log2_shiftl by auto. apply N.log2_lt_pow2 in B2; lia.
  - destruct (N.eq_dec i 0) as [-> |]; [reflexivity|]. apply N.log2_lt_pow2 in B1; lia.
Qed.

(** A dispatched stream in: the first [b] chunks are in memory, the streamer is asked for exactly the bytes of the next
    [n] ones (or all the remaining ones), and whatever else happens in the meantime, once the streamer finishes the request
    those chunks are in memory too (if it completes it) or the tier is as before (if it cancels it). *)
Theorem C24_stream_in_takes_effect : forall db sh n0 n1 s t n c s1 s2 ok r s3, well_formed db -> streamer_size n0 -> streamer_size n1 ->
  reachable db sh n0 n1 s -> streamable t -> allowed db s (EvIn t n) -> step db s (EvIn t n) = Ok (Dispatched c, s1) ->
  other_events db (streamer_of s t) (sc_id c) s1 s2 -> step db s2 (finish_event ok (streamer_of s t) (sc_id c)) = Ok (r, s3) ->
  exists b, b < num_chunks db t /\ let k := N.min n (num_chunks db t - b) in
    (forall i ch, chunk_at db t i ch -> (chunk_resident s t ch <-> i < b)) /\
    (forall x, in_range (sc_offset c) (sc_size c) x = true <->
       exists i ch, b <= i < b + k /\ chunk_at db t i ch /\ ck_offset ch <= x < ck_offset ch + ck_size ch) /\
    sc_in c = true /\ is_streaming s1 t = true /\ is_streaming s2 t = true /\ is_streaming s3 t = false /\
    (forall i ch, chunk_at db t i ch -> (chunk_resident s3 t ch <-> i < if ok then b + k else b)).
Proof.
  intros db sh n0 n1 s t n c s1 s2 ok r s3 W H0 H1 R S A E O X. destruct (reach_inv db W sh n0 n1 s H0 H1 R) as (iv & fl & I & _).
  destruct (step_in db W s iv fl t n I S A) as (r0 & s0 & E0 & P). rewrite E in E0. injection E0 as <- <-.
  destruct P as (b & i & g & F & V & L & CF & ID & I1). cbv zeta in I1, CF. set (k := N.min n (num_chunks db t - b)) in *. destruct CF as (C1 & C2 & C3 & C4).
  set (F1 := {| fl_action := StreamIn; fl_first := b; fl_num := k; fl_slot := i; fl_gen := g |}) in *.
  assert (SH : shared s1 = shared s).
  { destruct (step_any db W s iv fl _ I A) as (r' & s' & iv' & fl' & E' & _ & Q & _). rewrite E in E'. injection E' as _ <-. exact Q. }
  change (streamer_of s t) with (sof (shared s) t) in *.
  destruct (other_inv db W _ _ s1 s2 t F1 iv (upd_fl fl t (Some F1)) O I1 S) as (iv2 & fl2 & I2 & SH2 & FL2 & IV2); [apply upd_fl_same | congruence | exact ID |].
  assert (LT : sc_id c < 2 ^ 64).
  { rewrite ID. destruct I2 as [_ RI]. destruct (ri_fl _ _ _ _ _ RI t F1 S FL2) as (_ & B1 & B2). cbn [fl_slot fl_gen F1] in B1, B2.
    apply request_id_lt; assumption. }
  destruct (step_finish db W s2 iv2 fl2 ok (sof (shared s) t) (sc_id c) I2 LT) as [[_ NO] | (s' & t' & F' & E' & S' & EF & EW & EID & I3)].
  { exfalso. apply (NO t F1 S FL2); [congruence | symmetry; exact ID]. }
  rewrite X in E'. injection E' as _ <-.
  assert (T : t' = t).
  { destruct I2 as [_ RI]. destruct (ri_fl _ _ _ _ _ RI t F1 S FL2) as (A1 & B1 & B2). destruct (ri_fl _ _ _ _ _ RI t' F' S' EF) as (A2 & D1 & D2).
    rewrite EW in A2. rewrite SH2, SH in A1. destruct (request_id_inj _ _ B1 B2) as [U1 _]. destruct (request_id_inj _ _ D1 D2) as [U2 _].
    cbn [fl_slot fl_gen F1] in U1. rewrite <- ID, EID, U2 in U1. cbn [fl_slot F1] in A1. rewrite <- U1 in A1. rewrite A2 in A1. injection A1 as A1. congruence. }
  subst t'. rewrite FL2 in EF. injection EF as <-.
  exists b. split; [exact L|]. cbv zeta. fold k. split; [|split; [exact C4|split; [exact C1|]]].
  - intros j ch H. rewrite (proj1 (resident_iff db W s iv fl t j ch I S H)), F, V. cbn [live_lo fst snd]. lia.
  - split; [|split; [|split]].
    + apply not_false_iff_true. intro Z. apply (sys_streaming db W s1 _ _ t I1 S) in Z. rewrite upd_fl_same in Z. discriminate.
    + apply not_false_iff_true. intro Z. apply (sys_streaming db W s2 _ _ t I2 S) in Z. congruence.
    + apply (sys_streaming db W s3 _ _ t I3 S). apply upd_fl_same.
    + intros j ch H. rewrite (proj1 (resident_iff db W s3 _ _ t j ch I3 S H)), !upd_fl_same, IV2, V. unfold after_finish. cbn [fl_action F1 live_lo].
      destruct ok; cbn [fst snd fl_num F1]; lia.
Qed.
Print Assumptions C24_stream_in_takes_effect.

(** A dispatched stream out: with chunks [a, b) in memory, the streamer is told to drop exactly the bytes of the first [n] of
    them, they stop being available at once, and it may free the buffer exactly when nothing else is in memory. *)
Theorem C24_stream_out_takes_effect : forall db sh n0 n1 s t n c s1 s2 ok r s3, well_formed db -> streamer_size n0 -> streamer_size n1 ->
  reachable db sh n0 n1 s -> streamable t -> allowed db s (EvOut t n) -> step db s (EvOut t n) = Ok (Dispatched c, s1) ->
  other_events db (streamer_of s t) (sc_id c) s1 s2 -> step db s2 (finish_event ok (streamer_of s t) (sc_id c)) = Ok (r, s3) ->
  exists a b, a < b <= num_chunks db t /\ let k := N.min n (b - a) in
    (forall i ch, chunk_at db t i ch -> (chunk_resident s t ch <-> a <= i < b)) /\
    (forall x, in_range (sc_offset c) (sc_size c) x = true <->
       exists i ch, a <= i < a + k /\ chunk_at db t i ch /\ ck_offset ch <= x < ck_offset ch + ck_size ch) /\
    sc_in c = false /\ is_streaming s1 t = true /\ is_streaming s2 t = true /\ is_streaming s3 t = false /\
    (sc_can_alloc c = true <-> a + k = b) /\
    (forall i ch, chunk_at db t i ch -> (chunk_resident s1 t ch <-> a + k <= i < b) /\ (chunk_resident s3 t ch <-> a + k <= i < b)).
Proof.
  intros db sh n0 n1 s t n c s1 s2 ok r s3 W H0 H1 R S A E O X. destruct (reach_inv db W sh n0 n1 s H0 H1 R) as (iv & fl & I & _).
  destruct (step_out db W s iv fl t n I S A) as (r0 & s0 & E0 & P). rewrite E in E0. injection E0 as <- <-.
  destruct P as (a & b & i & g & F & V & L & CF & ID & CA & I1). cbv zeta in I1, CF, CA. set (k := N.min n (b - a)) in *. destruct CF as (C1 & C2 & C3 & C4).
  set (F1 := {| fl_action := StreamOut; fl_first := a; fl_num := k; fl_slot := i; fl_gen := g |}) in *.
  assert (SH : shared s1 = shared s).
  { destruct (step_any db W s iv fl _ I A) as (r' & s' & iv' & fl' & E' & _ & Q & _). rewrite E in E'. injection E' as _ <-. exact Q. }
  change (streamer_of s t) with (sof (shared s) t) in *.
  destruct (other_inv db W _ _ s1 s2 t F1 iv (upd_fl fl t (Some F1)) O I1 S) as (iv2 & fl2 & I2 & SH2 & FL2 & IV2); [apply upd_fl_same | congruence | exact ID |].
  assert (LT : sc_id c < 2 ^ 64).
  { rewrite ID. destruct I2 as [_ RI]. destruct (ri_fl _ _ _ _ _ RI t F1 S FL2) as (_ & B1 & B2). cbn [fl_slot fl_gen F1] in B1, B2.
    apply request_id_lt; assumption. }
  destruct (step_finish db W s2 iv2 fl2 ok (sof (shared s) t) (sc_id c) I2 LT) as [[_ NO] | (s' & t' & F' & E' & S' & EF & EW & EID & I3)].
  { exfalso. apply (NO t F1 S FL2); [congruence | symmetry; exact ID]. }
  rewrite X in E'. injection E' as _ <-.
  assert (T : t' = t).
  { destruct I2 as [_ RI]. destruct (ri_fl _ _ _ _ _ RI t F1 S FL2) as (A1 & B1 & B2). destruct (ri_fl _ _ _ _ _ RI t' F' S' EF) as (A2 & D1 & D2).
    rewrite EW in A2. rewrite SH2, SH in A1. destruct (request_id_inj _ _ B1 B2) as [U1 _]. destruct (request_id_inj _ _ D1 D2) as [U2 _].
    cbn [fl_slot fl_gen F1] in U1. rewrite <- ID, EID, U2 in U1. cbn [fl_slot F1] in A1. rewrite <- U1 in A1. rewrite A2 in A1. injection A1 as A1. congruence. }
  subst t'. rewrite FL2 in EF. injection EF as <-. pose proof (ti_ab _ _ _ _ _ _ _ (proj1 I t S)) as AB. rewrite V in AB. cbn [fst snd] in AB.
  exists a, b. split; [lia|]. cbv zeta. fold k. split; [|split; [exact C4|split; [exact C1|]]].
  - intros j ch H. rewrite (proj1 (resident_iff db W s iv fl t j ch I S H)), F, V. cbn [live_lo fst snd]. lia.
  - split; [|split; [|split; [|split; [rewrite CA; lia|]]]].
    + apply not_false_iff_true. intro Z. apply (sys_streaming db W s1 _ _ t I1 S) in Z. rewrite upd_fl_same in Z. discriminate.
    + apply not_false_iff_true. intro Z. apply (sys_streaming db W s2 _ _ t I2 S) in Z. congruence.
    + apply (sys_streaming db W s3 _ _ t I3 S). apply upd_fl_same.
    + intros j ch H. split.
      * rewrite (proj1 (resident_iff db W s1 _ _ t j ch I1 S H)), !upd_fl_same, V. cbn [live_lo fl_action F1 fl_num fst snd]. lia.
      * rewrite (proj1 (resident_iff db W s3 _ _ t j ch I3 S H)), !upd_fl_same, IV2, V. unfold after_finish. cbn [fl_action F1 live_lo fl_num fst snd].
        destruct (N.eqb_spec (a + k) b); cbn [fst snd]; lia.
Qed.
Print Assumptions C24_stream_out_takes_effect.

(** A streamer with nothing in flight always accepts a request. *)
Lemma no_free_inv db s t n s' : step db s (EvIn t n) = Ok (NoFreeRequests, s') ->
  exists f k, build_request (get_streamer s (streamer_of s t)) StreamIn t f k = Ok None.
Proof.
  cbn [step]. unfold bindo at 1. destruct (stream_in db s t n) as [[r1 s1]| |] eqn:E; try discriminate. intros H. injection H as -> _.
  revert E. unfold stream_in, bindo. destruct t; [discriminate | |];
    (destruct (is_streaming _ _); [discriminate|]; destruct (scan_pending _ _) as [f|]; [|discriminate];
     cbv zeta; destruct (_ =? 0); [discriminate|];
     match goal with |- context [build_request ?a ?b ?c ?d ?e] => destruct (build_request a b c d e) as [[[id st']|]| |] eqn:B end; try discriminate;
     [destruct (nth_error _ _); try discriminate; destruct (nth_error _ _); try discriminate; destruct (bitset_set_range _ _ _ _); discriminate | eauto]).
Qed.

Theorem C24_idle_streamer_accepts : forall db sh n0 n1 s t n s', well_formed db -> streamer_size n0 -> streamer_size n1 ->
  reachable db sh n0 n1 s -> streamable t ->
  (forall t', streamable t' -> streamer_of s t' = streamer_of s t -> is_streaming s t' = false) ->
  step db s (EvIn t n) <> Ok (NoFreeRequests, s').
Proof.
  intros db sh n0 n1 s t n s' W H0 H1 R S Z E. destruct (reach_inv db W sh n0 n1 s H0 H1 R) as (iv & fl & I & _).
  apply no_free_inv in E. destruct E as (f & k & E). revert E. change (streamer_of s t) with (sof (shared s) t).
  apply (build_free db _ (get_streamer s) (pending s) fl); [exact (proj2 I)|]. intros t' S' Q. apply (sys_streaming db W s iv fl t' I S'). apply Z; auto.
Qed.
Print Assumptions C24_idle_streamer_accepts.

(** Progress: asking for [n] chunks and completing the request, [k] times from a fresh context, brings in the first k*n
    chunks; as soon as that covers the tier it is streamed in and stream_in answers done. *)
Fixpoint fill (db : database) (s : system) (t : quality_tier) (n : N) (k : nat) : outcome system :=
  match k with
  | O => Ok s
  | S k' => bindo (step db s (EvIn t n)) (fun p =>
      match fst p with
      | Dispatched c => bindo (step db (snd p) (EvComplete (streamer_of s t) (sc_id c))) (fun q => fill db (snd q) t n k')
      | _ => fill db (snd p) t n k'
      end)
  end.

Lemma fill_spec db t n : well_formed db -> streamable t -> 1 <= n < 2 ^ 32 -> forall k s iv fl, sys_inv db s iv fl ->
  (forall t', streamable t' -> fl t' = None) -> fst (iv t) = 0 ->
  exists s' iv', fill db s t n k = Ok s' /\ sys_inv db s' iv' (fun _ => None) /\ iv' t = (0, N.min (snd (iv t) + N.of_nat k * n) (num_chunks db t)).
Proof.
  intros W S B. induction k as [|k IH]; intros s iv fl I Z A0.
  - exists s, iv. split; [reflexivity|]. split.
    + destruct I as [I1 I2]. split; [intros t' S'; rewrite <- (Z t' S'); auto|].
      destruct I2. constructor; auto.
      * intros w i q E V. destruct (ri_slot w i q E V) as (F & Q & _). rewrite Z in Q by (apply valid_streamable; exact V). discriminate.
      * discriminate.
      * intros x. rewrite ri_pend. split; intros (t' & F & S' & E & _); [rewrite Z in E by auto|]; discriminate.
    + pose proof (ti_ab _ _ _ _ _ _ _ (proj1 I t S)). destruct (iv t) as [a b]. cbn [fst snd] in *. subst a. f_equal. lia.
  - assert (AL : allowed db s (EvIn t n)).
    { split; [exact B|]. intros _ _. destruct (N.eq_dec (snd (iv t)) 0) as [Q|Q].
      - left. intros c ch H R. apply (resident_iff db W s iv fl t c ch I S H) in R. lia.
      - right. pose proof (ti_ab _ _ _ _ _ _ _ (proj1 I t S)). destruct (chunk_exists db t 0) as (ch & H'); [lia|]. split; [|intros; lia].
        exists ch. split; auto. apply (resident_iff db W s iv fl t 0 ch I S H'). rewrite (Z t S). cbn [live_lo]. lia. }
    destruct (step_in db W s iv fl t n I S AL) as (r & s1 & E & P). cbn [fill]. rewrite E. cbn [bindo fst snd].
    pose proof (ti_ab _ _ _ _ _ _ _ (proj1 I t S)) as AB.
    destruct r; try contradiction.
    + destruct P as [P _]. rewrite Z in P; [congruence | exact S].
    + destruct P as (_ & V & ->). destruct (IH s iv fl I Z A0) as (s' & iv' & X1 & X2 & X3). exists s', iv'. split; auto. split; auto.
      rewrite X3, V. cbn [snd]. f_equal. lia.
    + exfalso. apply no_free_inv in E. destruct E as (f & k0 & E). revert E. change (streamer_of s t) with (sof (shared s) t).
      apply (build_free db _ (get_streamer s) (pending s) fl); [exact (proj2 I)|]. auto.
    + destruct P as (b & i & g & _ & V & L & CF & ID & I1). cbv zeta in I1. set (kk := N.min n (num_chunks db t - b)) in *.
      set (F1 := {| fl_action := StreamIn; fl_first := b; fl_num := kk; fl_slot := i; fl_gen := g |}) in *.
      assert (SH : shared s1 = shared s).
      { destruct (step_any db W s iv fl _ I AL) as (r' & s' & iv' & fl' & E' & _ & Q & _). rewrite E in E'. injection E' as _ <-. exact Q. }
      change (streamer_of s t) with (sof (shared s) t) in *. rewrite <- SH.
      assert (FL : upd_fl fl t (Some F1) t = Some F1) by apply upd_fl_same.
      assert (LT : sc_id c < 2 ^ 64).
      { rewrite ID. destruct I1 as [_ RI]. destruct (ri_fl _ _ _ _ _ RI t F1 S FL) as (_ & B1 & B2). cbn [fl_slot fl_gen F1] in B1, B2.
        apply request_id_lt; assumption. }
      destruct (step_finish db W s1 iv (upd_fl fl t (Some F1)) true (sof (shared s1) t) (sc_id c) I1 LT) as [[_ NO] | (s' & t' & F' & E' & S' & EF & EW & EID & I3)].
      { exfalso. apply (NO t F1 S FL); [congruence | symmetry; exact ID]. }
      assert (T : t' = t). { destruct (tier_eqb t' t) eqn:Q; [apply tier_eqb_spec; exact Q|]. rewrite upd_fl_other in EF by (intros ->; rewrite tier_eqb_refl in Q; discriminate). rewrite Z in EF by auto. discriminate. }
      subst t'. rewrite FL in EF. injection EF as <-. cbn [finish_event] in E'. rewrite E'. cbn [bindo fst snd].
      destruct (IH s' _ _ I3) as (s'' & iv'' & X1 & X2 & X3).
      * intros t' S2. destruct (tier_eqb t' t) eqn:Q; [apply tier_eqb_spec in Q; subst t'; apply upd_fl_same|].
        assert (D : t' <> t) by (intros ->; rewrite tier_eqb_refl in Q; discriminate). rewrite !upd_fl_other by auto. auto.
      * rewrite upd_fl_same, V. reflexivity.
      * exists s'', iv''. split; [exact X1|]. split; [exact X2|]. rewrite X3, upd_fl_same, V. cbn [after_finish fl_action F1 snd fl_num]. f_equal. lia.
Qed.

Theorem C24_streaming_in_progresses : forall db sh n0 n1 t n k, well_formed db -> streamer_size n0 -> streamer_size n1 ->
  streamable t -> 1 <= n < 2 ^ 32 ->
  exists s, fill db (initialize db sh n0 n1) t n k = Ok s /\
    (forall c ch, chunk_at db t c ch -> (chunk_resident s t ch <-> c < N.of_nat k * n)) /\
    (num_chunks db t <= N.of_nat k * n -> is_streamed_in db s t = true /\ step db s (EvIn t n) = Ok (Done, s)).
Proof.
  intros db sh n0 n1 t n k W H0 H1 S B.
  destruct (fill_spec db t n W S B k _ _ _ (sys_init db sh n0 n1 H0 H1)) as (s & iv & E & I & V); [auto | reflexivity |].
  cbn [fst snd] in V. exists s. split; [exact E|].
  assert (RES : forall c ch, chunk_at db t c ch -> (chunk_resident s t ch <-> c < N.of_nat k * n)).
  { intros c ch H. rewrite (proj1 (resident_iff db W s iv _ t c ch I S H)), V. cbn [live_lo fst snd]. pose proof (chunk_lt db t c ch H). lia. }
  split; [exact RES|]. intros Q.
  assert (ALL : forall c ch, chunk_at db t c ch -> chunk_resident s t ch).
  { intros c ch H. apply RES with (c := c); auto. pose proof (chunk_lt db t c ch H). lia. }
  split; [apply (streamed_in_iff db W s iv (fun _ => None)); auto|].
  assert (AL : allowed db s (EvIn t n)).
  { split; [exact B|]. intros _ _. destruct (N.eq_dec (num_chunks db t) 0) as [Z|Z].
    - left. intros c ch H. apply chunk_lt in H. lia.
    - right. destruct (chunk_exists db t 0) as (ch & H'); [lia|]. split; [|intros; lia]. exists ch. eauto. }
  destruct (step_in db W s iv _ t n I S AL) as (r & s1 & E1 & P). rewrite E1. destruct r; try contradiction.
  - destruct P as [P _]. congruence.
  - destruct P as (_ & _ & ->). reflexivity.
  - exfalso. apply no_free_inv in E1. destruct E1 as (f & k0 & E1). revert E1. change (streamer_of s t) with (sof (shared s) t).
    apply (build_free db _ (get_streamer s) (pending s) (fun _ => None)); [exact (proj2 I)|]. auto.
  - destruct P as (b & i & g & _ & V' & L & _). rewrite V in V'. injection V' as V'. lia.
Qed.
Print Assumptions C24_streaming_in_progresses.

(** * C32 *)
(** For any history whatsoever: once a request has been finished (completed or cancelled), completing or cancelling the same
    id again changes nothing, as long as fewer than 2^32 requests were issued since. *)
Theorem C32_requests_finish_at_most_once : forall db s e c s0 es1 s1 ok1 r s2 es2 s3 ok2 t n, machine_sized s ->
  e = EvIn t n \/ e = EvOut t n ->
  step db s e = Ok (Dispatched c, s0) -> run db s0 es1 = Ok s1 ->
  step db s1 (finish_event ok1 (streamer_of s t) (sc_id c)) = Ok (r, s2) -> run db s2 es2 = Ok s3 ->
  num_issues (es1 ++ es2) < 2 ^ 32 ->
  step db s3 (finish_event ok2 (streamer_of s t) (sc_id c)) = Ok (Done, s3).
Proof.
  intros db s e c s0 es1 s1 ok1 r s2 es2 s3 ok2 t n M ET H0 H1 H2 H3 NI.
  destruct (dispatch_id db s e c s0 H0 M) as (t' & i & ID & T & IL & AH).
  assert (t' = t) by (destruct ET as [-> | ->], T as [T|T]; congruence). subst t'. set (w := streamer_of s t) in *. set (g := generation (get_streamer s w)) in *.
  assert (G : g < 2 ^ 32) by (apply M).
  assert (N2 : num_issues (es1 ++ es2) = num_issues es1 + num_issues es2) by (unfold num_issues; rewrite filter_app, app_length; lia).
  assert (M0 : machine_sized s0).
  { intros w'. destruct (M w') as [M1 M2]. destruct (step_table db s e _ s0 H0 w') as [Gq LE _ _ | i' t' IS Gq LE _ _ _]; rewrite LE, Gq; split; auto.
    unfold addw. apply N.mod_lt. discriminate. }
  destruct (run_ahead db es1 _ _ w g 0 H1 AH M0) as (M1 & j1 & A1 & _ & J1).
  rewrite ID in H2 |- *.
  destruct (ahead_step db s1 _ _ s2 w g j1 H2 A1 M1) as (M2 & j2 & A2 & _ & J2).
  assert (NF : is_issue (finish_event ok1 w (make_request_id i g)) = false) by (destruct ok1; reflexivity). rewrite NF in J2.
  apply dead_noop; auto. eapply (run_dead db es2 s2 s3 w i g j2); eauto; [lia|]. eapply finish_kills; eauto.
Qed.
Print Assumptions C32_requests_finish_at_most_once.

(** * The hypotheses are met: a database with three medium chunks and two low ones, and histories on it *)
Definition demo_seg (h o so : N) : cseg := {| cs_clip_hash := h; cs_sample_indices := 2863311530; cs_samples_offset := so; cs_segment_header_offset := o |}.
Definition demo_db : database :=
  {| db_max_chunk_size := 64;
     db_medium := [ {| ck_offset := 0; ck_size := 64; ck_segs := [demo_seg 7 16 32; demo_seg 7 40 48] |};
                    {| ck_offset := 64; ck_size := 64; ck_segs := [demo_seg 9 64 96] |};
                    {| ck_offset := 128; ck_size := 50; ck_segs := [demo_seg 9 88 160] |} ];
     db_low := [ {| ck_offset := 0; ck_size := 64; ck_segs := [demo_seg 7 16 32] |};
                 {| ck_offset := 64; ck_size := 30; ck_segs := [demo_seg 9 64 96] |} ] |}.

Lemma demo_wf : well_formed demo_db.
Proof.
  split; [split; [discriminate | reflexivity]|]. intros t S. unfold num_chunks. split.
  - intros c ch H. unfold chunk_at in H. destruct t; [destruct (S eq_refl) | |]; cbn [db_chunks demo_db db_medium db_low db_max_chunk_size length] in *.
    + assert (c = 0 \/ c = 1 \/ c = 2) as [-> |[-> | ->]].
      { pose proof (proj1 (nth_error_Some _ (N.to_nat c)) ltac:(rewrite H; discriminate)) as L. cbn [length] in L. lia. }
      all: cbn in H; injection H as <-; cbn; repeat split; intros; try lia; reflexivity.
    + assert (c = 0 \/ c = 1) as [-> | ->].
      { pose proof (proj1 (nth_error_Some _ (N.to_nat c)) ltac:(rewrite H; discriminate)) as L. cbn [length] in L. lia. }
      all: cbn in H; injection H as <-; cbn; repeat split; intros; try lia; reflexivity.
  - destruct t; [destruct (S eq_refl) | |]; cbn; repeat constructor; cbn; intuition discriminate.
Qed.

Definition after_ev (s : system) (e : event) : system := match step demo_db s e with Ok (_, s') => s' | _ => s end.
Definition answer (s : system) (e : event) : option result := match step demo_db s e with Ok (r, _) => Some r | _ => None end.
Lemma after_ok s e r : answer s e = Some r -> step demo_db s e = Ok (r, after_ev s e).
Proof. unfold answer, after_ev. destruct (step demo_db s e) as [[r' s']| |]; congruence. Qed.
Lemma demo_reach sh n0 n1 s e r : reachable demo_db sh n0 n1 s -> allowed demo_db s e -> answer s e = Some r -> reachable demo_db sh n0 n1 (after_ev s e).
Proof. intros R A E. eapply reach_step; [exact R | exact A | apply after_ok; exact E]. Qed.
Lemma demo_empty t : streamable t -> forall s, (forall b, bm_resident (mem s t) b = false) -> forall c ch, chunk_at demo_db t c ch -> ~ chunk_resident s t ch.
Proof.
  intros S s H c ch C R. destruct (proj1 (proj2 demo_wf t S) c ch C) as (_ & Z & _). specialize (R (ck_offset ch)). rewrite H in R. discriminate R. lia.
Qed.

(** one chunk in, then completed *)
Definition d0 : system := initialize demo_db false 2 2.
Definition d1 : system := after_ev d0 (EvIn Medium 1).
Definition d2 : system := after_ev d1 (EvComplete false 0).
Lemma d1_reach : reachable demo_db false 2 2 d1.
Proof.
  eapply demo_reach; [apply reach_init | | vm_compute; reflexivity]. split; [lia|]. intros _ _. left. apply demo_empty; [discriminate | reflexivity].
Qed.
Lemma d2_reach : reachable demo_db false 2 2 d2.
Proof. eapply demo_reach; [apply d1_reach | reflexivity | vm_compute; reflexivity]. Qed.

Example C23_streaming_is_safe_sat : well_formed demo_db /\ streamer_size 2 /\ reachable demo_db false 2 2 d2 /\
  allowed demo_db d2 (EvOut Medium 1) /\
  (exists c, step demo_db d2 (EvOut Medium 1) = Ok (Dispatched c, after_ev d2 (EvOut Medium 1)) /\ sc_offset c = 0 /\ sc_size c = 64 /\ sc_can_alloc c = true).
Proof.
  split; [apply demo_wf|]. split; [split; [discriminate | reflexivity]|]. split; [apply d2_reach|]. split.
  - split; [lia|]. intros _ _ c [(ch & H & R) _] c' ch' L H'. replace c' with c in H' by lia. assert (ch' = ch) as -> by (unfold chunk_at in *; congruence). exact R.
  - eexists. split; [apply after_ok; vm_compute; reflexivity|]. cbn [sc_offset sc_size sc_can_alloc]. auto.
Qed.

Lemma all_bytes (f : N -> bool) v k : forallb (fun i => Bool.eqb (f (N.of_nat i)) v) (seq 0 k) = true -> forall b, b < N.of_nat k -> f b = v.
Proof.
  intros H b B. rewrite forallb_forall in H. specialize (H (N.to_nat b)). rewrite N2Nat.id in H. apply eqb_prop, H. apply in_seq. lia.
Qed.
Lemma d2_chunk0 : chunk_resident d2 Medium {| ck_offset := 0; ck_size := 64; ck_segs := [demo_seg 7 16 32; demo_seg 7 40 48] |}.
Proof.
  intros b B. cbn [ck_offset ck_size] in B. apply (all_bytes _ true 64); [vm_compute; reflexivity | lia].
Qed.

Example C24_hypotheses_sat : is_streaming d1 Medium = true /\ is_streaming d2 Medium = false /\ is_streamed_in demo_db d2 Medium = false /\
  visible_metadata d2 Medium (demo_seg 7 40 48) = seg_metadata (demo_seg 7 40 48) /\ visible_metadata d2 Medium (demo_seg 9 64 96) = 0.
Proof. vm_compute. auto. Qed.

(** * What the discipline of [allowed] protects from *)
(** Asking to stream out more chunks than were streamed in (the default asks for all of them) reads the headers of chunks
    that are not in memory. *)
Theorem C23_stream_out_of_partial_tier_refuted : exists db s, well_formed db /\ reachable db false 2 2 s /\
  is_streaming s Medium = false /\ step db s (EvOut Medium 4294967295) = UB.
Proof. exists demo_db, d2. split; [apply demo_wf|]. split; [apply d2_reach|]. split; vm_compute; reflexivity. Qed.
Print Assumptions C23_stream_out_of_partial_tier_refuted.

(** After the first chunk of a streamed in tier is streamed out, stream_in answers done although the chunk is missing. *)
Definition f1 : system := after_ev d0 (EvIn Medium 4294967295).
Definition f2 : system := after_ev f1 (EvComplete false 0).
Definition f3 : system := after_ev f2 (EvOut Medium 1).
Definition f4 : system := after_ev f3 (EvComplete false 4294967297).
Lemma f3_reach : reachable demo_db false 2 2 f3.
Proof.
  eapply demo_reach; [eapply demo_reach; [eapply demo_reach; [apply reach_init | | vm_compute; reflexivity] | reflexivity | vm_compute; reflexivity] | | vm_compute; reflexivity].
  - split; [lia|]. intros _ _. left. apply demo_empty; [discriminate | reflexivity].
  - split; [lia|]. intros _ _ c [(ch & H & R) _] c' ch' L H'. replace c' with c in H' by lia. assert (ch' = ch) as -> by (unfold chunk_at in *; congruence). exact R.
Qed.
Lemma f4_reach : reachable demo_db false 2 2 f4.
Proof. eapply demo_reach; [apply f3_reach | reflexivity | vm_compute; reflexivity]. Qed.
Theorem C24_done_after_partial_stream_out_refuted : exists db s s' ch, well_formed db /\ reachable db false 2 2 s /\
  step db s (EvIn Medium 1) = Ok (Done, s') /\ is_streamed_in db s Medium = false /\ chunk_at db Medium 0 ch /\ chunk_absent s Medium ch.
Proof.
  exists demo_db, f4. eexists. exists (nth 0 (db_medium demo_db) (Build_chunk 0 0 [])). split; [apply demo_wf|]. split; [apply f4_reach|].
  split; [apply after_ok; vm_compute; reflexivity|]. split; [vm_compute; reflexivity|]. split; [reflexivity|].
  intros b B. cbn [ck_offset ck_size nth db_medium demo_db] in B. apply (all_bytes _ false 64); [vm_compute; reflexivity | lia].
Qed.
Print Assumptions C24_done_after_partial_stream_out_refuted.

(** While a tier is being streamed out is_streamed_in still answers true. *)
Definition g3 : system := after_ev f2 (EvOut Medium 3).
Theorem C24_streamed_in_while_streaming_out_refuted : exists db s ch, well_formed db /\ step db f2 (EvOut Medium 3) = Ok (Dispatched {| sc_in := false; sc_offset := 0; sc_size := 178; sc_can_alloc := true; sc_id := 4294967297 |}, s) /\
  reachable db false 2 2 f2 /\ is_streamed_in db s Medium = true /\ chunk_at db Medium 0 ch /\ chunk_absent s Medium ch.
Proof.
  exists demo_db, g3, (nth 0 (db_medium demo_db) (Build_chunk 0 0 [])). split; [apply demo_wf|].
  split; [apply after_ok; vm_compute; reflexivity|]. split; [|split; [vm_compute; reflexivity|split; [reflexivity|]]].
  - eapply demo_reach; [eapply demo_reach; [apply reach_init | | vm_compute; reflexivity] | reflexivity | vm_compute; reflexivity].
    split; [lia|]. intros _ _. left. apply demo_empty; [discriminate | reflexivity].
  - intros b B. cbn [ck_offset ck_size nth db_medium demo_db] in B. apply (all_bytes _ false 64); [vm_compute; reflexivity | lia].
Qed.
Print Assumptions C24_streamed_in_while_streaming_out_refuted.

(** Asking for no chunk streams the whole tier in. *)
Theorem C24_zero_chunks_refuted : exists c s, step demo_db d0 (EvIn Medium 0) = Ok (Dispatched c, s) /\ sc_offset c = 0 /\ sc_size c = 178.
Proof. eexists. eexists. split; [apply after_ok; vm_compute; reflexivity|]. auto. Qed.
Print Assumptions C24_zero_chunks_refuted.

(** With one streamer for both tiers, a request can be refused for lack of request slots although one is free. *)
Definition h1 : system := after_ev (initialize demo_db true 2 2) (EvIn Medium 1).
Definition h2 : system := after_ev h1 (EvIn Lowest 1).
Definition h3 : system := after_ev h2 (EvComplete false 4294967297).
Lemma h3_reach : reachable demo_db true 2 2 h3.
Proof.
  eapply demo_reach; [eapply demo_reach; [eapply demo_reach; [apply reach_init | | vm_compute; reflexivity] | | vm_compute; reflexivity] | reflexivity | vm_compute; reflexivity].
  - split; [lia|]. intros _ _. left. apply demo_empty; [discriminate | reflexivity].
  - split; [lia|]. intros _ _. left. apply demo_empty; [discriminate | reflexivity].
Qed.
Theorem C24_free_slot_is_not_used_refuted : exists db s s', well_formed db /\ reachable db true 2 2 s /\ is_streaming s Lowest = false /\
  existsb (fun q => negb (rq_is_valid q)) (requests (streamer0 s)) = true /\ step db s (EvIn Lowest 1) = Ok (NoFreeRequests, s').
Proof.
  exists demo_db, h3. eexists. split; [apply demo_wf|]. split; [apply h3_reach|]. split; [vm_compute; reflexivity|]. split; [vm_compute; reflexivity|].
  apply after_ok. vm_compute. reflexivity.
Qed.
Print Assumptions C24_free_slot_is_not_used_refuted.

Example C32_requests_finish_at_most_once_sat : exists c, machine_sized d0 /\ step demo_db d0 (EvIn Medium 1) = Ok (Dispatched c, d1) /\
  step demo_db d1 (EvComplete false (sc_id c)) = Ok (Done, d2) /\ step demo_db d2 (EvComplete false (sc_id c)) = Ok (Done, d2).
Proof.
  eexists. split; [|split; [apply after_ok; vm_compute; reflexivity|split; [apply after_ok; vm_compute; reflexivity|]]].
  - intros w. destruct w; vm_compute; auto.
  - cbn [sc_id]. reflexivity.
Qed.
