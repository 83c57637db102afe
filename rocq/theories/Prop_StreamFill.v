(** Properties C24 and C46: the whole database can be streamed in, from a fresh context and with the allowed calls only: asking for
    chunks and completing the requests brings in every chunk of both tiers.  So the states the theorems about fully streamed databases
    (C46_fully_streamed_plays_the_original) talk about are reached, for every database. *)
From Coq Require Import Lia.
From Verif Require Import Word WordFacts BitManip Bitset BitsetFacts DbStream StreamSpec DbStreamFacts DbStreamInv DbStreamSys DbStreamStep StreamFacts RequestFacts Prop_Stream.
Local Open Scope N_scope.
Ltac Zify.zify_post_hook ::= idtac.

(** the other tier is not disturbed, and the calls are allowed *)
Lemma fill_reaches db sh n0 n1 t n : well_formed db -> streamable t -> 1 <= n < 2 ^ 32 -> forall k s iv fl, reachable db sh n0 n1 s -> sys_inv db s iv fl ->
  (forall t', streamable t' -> fl t' = None) -> fst (iv t) = 0 ->
  exists s' iv' fl', fill db s t n k = Ok s' /\ reachable db sh n0 n1 s' /\ sys_inv db s' iv' fl' /\ (forall t', streamable t' -> fl' t' = None) /\
    iv' t = (0, N.min (snd (iv t) + N.of_nat k * n) (num_chunks db t)) /\ forall t', t' <> t -> iv' t' = iv t'.
Proof.
  intros W S B. induction k as [|k IH]; intros s iv fl R I Z A0.
  - exists s, iv, fl. split; [reflexivity|]. split; [exact R|]. split; [exact I|]. split; [exact Z|]. split; [|reflexivity].
    pose proof (ti_ab _ _ _ _ _ _ _ (proj1 I t S)). destruct (iv t) as [a b]. cbn [fst snd] in *. subst a. f_equal. lia.
  - assert (AL : allowed db s (EvIn t n)).
    { split; [exact B|]. intros _ _. destruct (N.eq_dec (snd (iv t)) 0) as [Q|Q].
      - left. intros c ch H X. apply (resident_iff db W s iv fl t c ch I S H) in X. lia.
      - right. pose proof (ti_ab _ _ _ _ _ _ _ (proj1 I t S)). destruct (chunk_exists db t 0) as (ch & H'); [lia|]. split; [|intros; lia].
        exists ch. split; auto. apply (resident_iff db W s iv fl t 0 ch I S H'). rewrite (Z t S). cbn [live_lo]. lia. }
    destruct (step_in db W s iv fl t n I S AL) as (r & s1 & E & P). cbn [fill]. rewrite E. cbn [bindo fst snd].
    pose proof (ti_ab _ _ _ _ _ _ _ (proj1 I t S)) as AB. pose proof (reach_step _ _ _ _ _ _ _ _ R AL E) as R1.
    destruct r; try contradiction.
    + destruct P as [P _]. rewrite Z in P; [congruence | exact S].
    + destruct P as (_ & V & ->). destruct (IH s iv fl R I Z A0) as (s' & iv' & fl' & X1 & X2 & X3 & X4 & X5 & X6). exists s', iv', fl'. do 4 (split; auto). split; [|exact X6].
      rewrite X5, V. cbn [snd]. f_equal. lia.
    + exfalso. apply no_free_inv in E. destruct E as (f & k0 & E). revert E. change (streamer_of s t) with (sof (shared s) t).
      apply (build_free db _ (get_streamer s) (pending s) fl); [exact (proj2 I)|]. auto.
    + destruct P as (b & i & g & _ & V & L & CF & ID & I1). cbv zeta in I1. set (kk := N.min n (num_chunks db t - b)) in *.
      set (F1 := {| fl_action := StreamIn; fl_first := b; fl_num := kk; fl_slot := i; fl_gen := g |}) in *.
      assert (SH : shared s1 = shared s).
      { destruct (step_any db W s iv fl _ I AL) as (r' & s' & iv' & fl' & E' & _ & Q & _). rewrite E in E'. injection E' as _ <-. exact Q. }
      change (streamer_of s t) with (sof (shared s) t) in *. rewrite <- SH.
      assert (FL : upd_fl fl t (Some F1) t = Some F1) by apply upd_fl_same.
      assert (LT : sc_id c < 2 ^ 64).
      { rewrite ID. destruct I1 as [_ RI]. destruct (ri_fl _ _ _ _ _ RI t F1 S FL) as (_ & B1 & B2). cbn [fl_slot fl_gen F1] in B1, B2.
        apply request_id_lt; assumption. }
      destruct (step_finish db W s1 iv (upd_fl fl t (Some F1)) true (sof (shared s1) t) (sc_id c) I1 LT) as [[_ NO] | (s' & t' & F' & E' & S' & EF & EW & EID & I3)].
      { exfalso. apply (NO t F1 S FL); [congruence | symmetry; exact ID]. }
      assert (T : t' = t). { destruct (tier_eqb t' t) eqn:Q; [apply tier_eqb_spec; exact Q|]. rewrite upd_fl_other in EF by (intros ->; rewrite tier_eqb_refl in Q; discriminate). rewrite Z in EF by auto. discriminate. }
      subst t'. rewrite FL in EF. injection EF as <-. cbn [finish_event] in E'. rewrite E'. cbn [bindo fst snd].
      assert (R2 : reachable db sh n0 n1 s') by (eapply reach_step; [exact R1 | | exact E']; exact LT).
      destruct (IH s' _ _ R2 I3) as (s'' & iv'' & fl'' & X1 & X2 & X3 & X4 & X5 & X6).
      * intros t' S2. destruct (tier_eqb t' t) eqn:Q; [apply tier_eqb_spec in Q; subst t'; apply upd_fl_same|].
        assert (D : t' <> t) by (intros ->; rewrite tier_eqb_refl in Q; discriminate). rewrite !upd_fl_other by auto. auto.
      * rewrite upd_fl_same, V. reflexivity.
      * exists s'', iv'', fl''. do 4 (split; [assumption|]). split.
        -- rewrite X5, upd_fl_same, V. cbn [after_finish fl_action F1 snd fl_num]. f_equal. lia.
        -- intros t' D. rewrite (X6 t' D). apply upd_fl_other. exact D.
Qed.
(** Asking [n] chunks of the medium tier at a time, then [n'] of the lowest tier at a time, as often as needed: all of the database is in *)
Theorem C24_whole_database_streams_in : forall db sh n0 n1 n k n' k', well_formed db -> streamer_size n0 -> streamer_size n1 -> 1 <= n < 2 ^ 32 -> 1 <= n' < 2 ^ 32 ->
  num_chunks db Medium <= N.of_nat k * n -> num_chunks db Lowest <= N.of_nat k' * n' ->
  exists s s', fill db (initialize db sh n0 n1) Medium n k = Ok s /\ fill db s Lowest n' k' = Ok s' /\ reachable db sh n0 n1 s' /\
    (forall t, streamable t -> is_streamed_in db s' t = true /\ is_streaming s' t = false) /\
    forall t c ch, streamable t -> chunk_at db t c ch -> chunk_resident s' t ch.
Proof.
  intros db sh n0 n1 n k n' k' W H0 H1 B B' Q Q'. assert (SM : streamable Medium) by discriminate. assert (SL : streamable Lowest) by discriminate.
  destruct (fill_reaches db sh n0 n1 Medium n W SM B k _ _ _ (reach_init db sh n0 n1) (sys_init db sh n0 n1 H0 H1)) as (s & iv & fl & E & R & I & Z & V & O); [auto | reflexivity |].
  assert (VL : iv Lowest = (0, 0)) by (rewrite O by discriminate; reflexivity).
  destruct (fill_reaches db sh n0 n1 Lowest n' W SL B' k' _ _ _ R I Z) as (s' & iv' & fl' & E' & R' & I' & Z' & V' & O'); [rewrite VL; reflexivity |].
  exists s, s'. split; [exact E|]. split; [exact E'|]. split; [exact R'|].
  assert (FULL : forall t, streamable t -> iv' t = (0, num_chunks db t)).
  { intros [| |] S; [destruct (S eq_refl) | |].
    - rewrite O', V by discriminate. cbn [fst snd]. f_equal. lia.
    - rewrite V', VL. cbn [fst snd]. f_equal. lia. }
  assert (ALL : forall t c ch, streamable t -> chunk_at db t c ch -> chunk_resident s' t ch).
  { intros t c ch S H. apply (resident_iff db W s' iv' fl' t c ch I' S H). rewrite (FULL t S), (Z' t S). cbn [live_lo fst snd]. pose proof (chunk_lt db t c ch H). lia. }
  split; [|exact ALL]. intros t S. split.
  - apply (streamed_in_iff db W s' iv' fl'); auto. intros c ch. apply ALL. exact S.
  - apply (sys_streaming db W s' iv' fl' t I' S). auto.
Qed.
Print Assumptions C24_whole_database_streams_in.
(** the database of C23, one chunk at a time *)
Example C24_whole_database_sat : exists s s', fill demo_db (initialize demo_db false 2 2) Medium 1 3 = Ok s /\ fill demo_db s Lowest 2 1 = Ok s' /\
  is_streamed_in demo_db s' Medium = true /\ is_streamed_in demo_db s' Lowest = true.
Proof.
  assert (SZ : streamer_size 2) by (split; [discriminate | reflexivity]). assert (B1 : 1 <= 1 < 2 ^ 32) by (split; [discriminate | reflexivity]). assert (B2 : 1 <= 2 < 2 ^ 32) by (split; [discriminate | reflexivity]).
  assert (K1 : num_chunks demo_db Medium <= N.of_nat 3 * 1) by (vm_compute; discriminate). assert (K2 : num_chunks demo_db Lowest <= N.of_nat 1 * 2) by (vm_compute; discriminate).
  destruct (C24_whole_database_streams_in demo_db false 2 2 1 3 2 1 demo_wf SZ SZ B1 B2 K1 K2) as (s & s' & E & E' & _ & A & _).
  exists s, s'. split; [exact E|]. split; [exact E'|]. split; [exact (proj1 (A Medium ltac:(discriminate))) | exact (proj1 (A Lowest ltac:(discriminate)))].
Qed.
