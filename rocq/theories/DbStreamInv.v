(** The invariant of the streaming runtime and its preservation by every event. *)
From Coq Require Import Lia.
From Verif Require Import Word WordFacts BitManip Bitset BitsetFacts DbStream StreamSpec DbStreamFacts.
Local Open Scope N_scope.
Ltac Zify.zify_post_hook ::= idtac.

Record flight := { fl_action : streaming_action; fl_first : N; fl_num : N; fl_slot : N; fl_gen : N }.

(** first chunk still registered: a stream out in flight already dropped its chunks *)
Definition live_lo (a : N) (fl : option flight) : N :=
  match fl with Some F => match fl_action F with StreamOut => a + fl_num F | StreamIn => a end | None => a end.
Definition fl_lo (fl : option flight) : N := match fl with Some F => fl_first F | None => 0 end.
Definition fl_hi (fl : option flight) : N := match fl with Some F => fl_first F + fl_num F | None => 0 end.

Record tier_inv (db : database) (t : quality_tier) (r : tier_rt) (m : bulk_mem) (a b : N) (fl : option flight) : Prop := {
  ti_lw : words_ok (loaded r);
  ti_ll : blen (loaded r) = bitset_size_from_num_bits (num_chunks db t);
  ti_lh : holds (loaded r) a b;
  ti_sw : words_ok (streaming r);
  ti_sl : blen (streaming r) = bitset_size_from_num_bits (num_chunks db t);
  ti_sh : holds (streaming r) (fl_lo fl) (fl_hi fl);
  ti_ab : a <= b <= num_chunks db t;
  ti_fl : match fl with
          | None => a = b -> a = 0
          | Some F => 1 <= fl_num F /\
            match fl_action F with
            | StreamIn => a = 0 /\ fl_first F = b /\ b + fl_num F <= num_chunks db t
            | StreamOut => fl_first F = a /\ a + fl_num F <= b
            end
          end;
  ti_res : forall x, bm_resident m x = true <->
             exists c ch, live_lo a fl <= c < b /\ chunk_at db t c ch /\ ck_offset ch <= x < ck_offset ch + ck_size ch;
  ti_meta : forall c ch sg, chunk_at db t c ch -> In sg (ck_segs ch) ->
             tier_metadata r (cs_segment_header_offset sg) = if (live_lo a fl <=? c) && (c <? b) then seg_metadata sg else 0;
  ti_ptr : live_lo a fl < b -> exists p, bulk_data r = Some p /\ bm_buffer m = Some p;
  ti_null : b <= live_lo a fl -> bulk_data r = None;
  ti_buf : forall F, fl = Some F -> fl_action F = StreamIn -> exists p, bm_buffer m = Some p
}.

Definition wf := well_formed.

Section Tier.
Variable db : database.
Hypothesis WF : well_formed db.
Variable t : quality_tier.
Hypothesis ST : streamable t.
Let n := num_chunks db t.
Let mx := db_max_chunk_size db.

Lemma chunk_exists c : c < n -> exists ch, chunk_at db t c ch.
Proof.
  intros H. unfold chunk_at. destruct (nth_error (db_chunks db t) (N.to_nat c)) eqn:E; eauto.
  apply nth_error_None in E. unfold n, num_chunks in H. lia.
Qed.
Lemma chunk_lt c ch : chunk_at db t c ch -> c < n.
Proof. intros H. unfold chunk_at in H. assert (nth_error (db_chunks db t) (N.to_nat c) <> None) by congruence. apply nth_error_Some in H0. unfold n, num_chunks. lia. Qed.
Lemma chunk_fun c ch ch' : chunk_at db t c ch -> chunk_at db t c ch' -> ch = ch'.
Proof. unfold chunk_at. congruence. Qed.

Lemma wf_chunk c ch : chunk_at db t c ch -> ck_offset ch = c * mx /\ 1 <= ck_size ch <= mx /\ (c + 1 < n -> ck_size ch = mx) /\ ck_offset ch + ck_size ch < 2 ^ 32.
Proof. destruct WF as [_ W]. destruct (W t ST) as [W1 _]. intros H. apply W1 in H. exact H. Qed.
Lemma wf_nodup : NoDup (map cs_segment_header_offset (flat_map ck_segs (db_chunks db t))).
Proof. destruct WF as [_ W]. destruct (W t ST) as [_ W1]. exact W1. Qed.
Lemma wf_max : 2 <= mx < 2 ^ 32. Proof. exact (proj1 WF). Qed.

Lemma wf_count : n <= 2147483648.
Proof.
  destruct (N.eq_dec n 0) as [E|E]; [lia|]. destruct (chunk_exists (n - 1)) as (ch & H); [lia|].
  apply wf_chunk in H. pose proof wf_max. change (2 ^ 32) with 4294967296 in *.
  assert ((n - 1) * 2 <= (n - 1) * mx) by (apply N.mul_le_mono_l; lia). lia.
Qed.
Lemma size_ok : n <= 32 * bitset_size_from_num_bits n /\ 32 * bitset_size_from_num_bits n < 2 ^ 32.
Proof.
  pose proof wf_count. destruct (bitset_size_spec n) as (A & B & _); [change (2 ^ 32) with 4294967296; lia|].
  split; auto. change (2 ^ 32) with 4294967296. lia.
Qed.

(** two chunks never share a byte *)
Lemma chunk_of_byte c ch c' ch' x : chunk_at db t c ch -> chunk_at db t c' ch' ->
  ck_offset ch <= x < ck_offset ch + ck_size ch -> ck_offset ch' <= x < ck_offset ch' + ck_size ch' -> c = c'.
Proof.
  intros H H' X X'. apply wf_chunk in H. apply wf_chunk in H'. destruct H as (O & S & _). destruct H' as (O' & S' & _).
  rewrite O in X. rewrite O' in X'. pose proof wf_max.
  assert (A : forall k s, 1 <= s <= mx -> k * mx <= x < k * mx + s -> x / mx = k).
  { intros k s Hs Hx. symmetry. apply (N.div_unique x mx k (x - k * mx)); lia. }
  rewrite <- (A c _ S X), <- (A c' _ S' X'). reflexivity.
Qed.

Definition last_size (c : N) : N := match nth_error (db_chunks db t) (N.to_nat c) with Some ch => ck_size ch | None => 0 end.

Lemma stream_size_eq f k cl : 1 <= k -> f + k <= n -> chunk_at db t (f + k - 1) cl ->
  stream_size db k (ck_size cl) = (k - 1) * mx + ck_size cl /\ f * mx + ((k - 1) * mx + ck_size cl) < 2 ^ 32.
Proof.
  intros K L H. pose proof (wf_chunk _ _ H) as (O & S & _ & B). pose proof wf_max as M. fold mx in M.
  assert (E : (f + k - 1) * mx = f * mx + (k - 1) * mx) by (rewrite <- N.mul_add_distr_r; f_equal; lia).
  rewrite O, E in B. change (2 ^ 32) with 4294967296 in *. split; [|lia].
  unfold stream_size, addw, mulw, subw. change (2 ^ 32) with 4294967296. fold mx. pose proof wf_count.
  replace (k + (4294967296 - 1)) with (k - 1 + 1 * 4294967296) by lia.
  rewrite N.mod_add, (N.mod_small (k - 1)), (N.mod_small (_ * mx)), N.mod_small by lia. reflexivity.
Qed.

Lemma range_chunks f k cl x : 1 <= k -> f + k <= n -> chunk_at db t (f + k - 1) cl ->
  in_range (f * mx) ((k - 1) * mx + ck_size cl) x = true <->
  exists c ch, f <= c < f + k /\ chunk_at db t c ch /\ ck_offset ch <= x < ck_offset ch + ck_size ch.
Proof.
  intros K L H. pose proof (wf_chunk _ _ H) as (O & S & _). pose proof wf_max as M. fold mx in M.
  assert (E : (f + k - 1) * mx = f * mx + (k - 1) * mx) by (rewrite <- N.mul_add_distr_r; f_equal; lia).
  unfold in_range. rewrite andb_true_iff, N.leb_le, N.ltb_lt. split.
  - intros [X1 X2]. set (c := x / mx). pose proof (N.div_mod x mx) as D. fold c in D. pose proof (N.mod_lt x mx) as R.
    assert (C1 : f <= c). { destruct (N.lt_ge_cases c f) as [Q|Q]; auto. assert ((c + 1) * mx <= f * mx) by (apply N.mul_le_mono_r; lia). lia. }
    assert (C2 : c <= f + k - 1). { destruct (N.le_gt_cases c (f + k - 1)) as [Q|Q]; auto. assert ((f + k - 1 + 1) * mx <= c * mx) by (apply N.mul_le_mono_r; lia). lia. }
    destruct (chunk_exists c) as (ch & Hc); [lia|]. exists c, ch. split; [lia|]. split; auto.
    destruct (wf_chunk _ _ Hc) as (O' & S' & S2 & _). rewrite O'. destruct (N.eq_dec c (f + k - 1)) as [Q|Q].
    + rewrite Q in Hc. rewrite (chunk_fun _ _ _ Hc H). rewrite Q in *. lia.
    + rewrite S2 by lia. lia.
  - intros (c & ch & C & Hc & X). destruct (wf_chunk _ _ Hc) as (O' & S' & _). rewrite O' in X.
    assert (f * mx <= c * mx) by (apply N.mul_le_mono_r; lia). split; [lia|].
    destruct (N.eq_dec c (f + k - 1)) as [Q|Q].
    + rewrite Q in Hc. rewrite (chunk_fun _ _ _ Hc H) in X. rewrite Q in *. lia.
    + assert ((c + 1) * mx <= (f + k - 1) * mx) by (apply N.mul_le_mono_r; lia). lia.
Qed.

(* ---------- what the invariant says about residency ---------- *)
Lemma inv_resident r m a b fl c ch : tier_inv db t r m a b fl -> chunk_at db t c ch ->
  (live_lo a fl <= c < b -> forall x, ck_offset ch <= x < ck_offset ch + ck_size ch -> bm_resident m x = true) /\
  (~ (live_lo a fl <= c < b) -> forall x, ck_offset ch <= x < ck_offset ch + ck_size ch -> bm_resident m x = false).
Proof.
  intros I H. split; intros C x X.
  - apply (ti_res _ _ _ _ _ _ _ I). eauto 6.
  - destruct (bm_resident m x) eqn:E; auto. exfalso. apply (ti_res _ _ _ _ _ _ _ I) in E. destruct E as (c' & ch' & C' & H' & X').
    rewrite (chunk_of_byte _ _ _ _ _ H H' X X') in C. auto.
Qed.

Lemma inv_resident_iff r m a b fl c ch : tier_inv db t r m a b fl -> chunk_at db t c ch ->
  (forall x, ck_offset ch <= x < ck_offset ch + ck_size ch -> bm_resident m x = true) <-> live_lo a fl <= c < b.
Proof.
  intros I H. destruct (inv_resident _ _ _ _ _ _ _ I H) as [P Q]. split; auto. intros R.
  destruct (N.le_gt_cases (live_lo a fl) c) as [A|A]; [destruct (N.lt_ge_cases c b) as [B|B]; [lia|]|];
  (destruct (wf_chunk _ _ H) as (_ & S & _); specialize (R (ck_offset ch)); specialize (Q ltac:(lia) (ck_offset ch)); rewrite Q in R by lia; discriminate R; lia).
Qed.

Lemma inv_streaming r m a b fl : tier_inv db t r m a b fl -> (bitset_count_set_bits (streaming r) =? 0) = true <-> fl = None.
Proof.
  intros I. destruct size_ok as [S1 S2]. pose proof (ti_fl _ _ _ _ _ _ _ I) as F. pose proof (ti_ab _ _ _ _ _ _ _ I) as AB. fold n in AB.
  rewrite (count_holds _ (fl_lo fl) (fl_hi fl) (ti_sw _ _ _ _ _ _ _ I) (ti_sh _ _ _ _ _ _ _ I)).
  - rewrite N.eqb_eq. destruct fl as [F'|]; cbn [fl_lo fl_hi]; [|tauto]. split; [lia | discriminate].
  - destruct fl; cbn [fl_lo fl_hi]; lia.
  - rewrite (ti_sl _ _ _ _ _ _ _ I). fold n. destruct fl as [F'|]; cbn [fl_lo fl_hi]; [|lia]. destruct F as [F1 F2].
    fold n in F2. destruct (fl_action F'); lia.
  - rewrite (ti_sl _ _ _ _ _ _ _ I). fold n. exact S2.
Qed.

Lemma inv_loaded_count r m a b fl : tier_inv db t r m a b fl -> bitset_count_set_bits (loaded r) = b - a.
Proof.
  intros I. destruct size_ok as [S1 S2]. pose proof (ti_ab _ _ _ _ _ _ _ I) as AB. fold n in AB.
  apply (count_holds _ a b (ti_lw _ _ _ _ _ _ _ I) (ti_lh _ _ _ _ _ _ _ I)); rewrite ?(ti_ll _ _ _ _ _ _ _ I); fold n; lia.
Qed.

(* ---------- initial state ---------- *)
Lemma inv_init : tier_inv db t (new_rt db t) no_mem 0 0 None.
Proof.
  destruct (bitset_reset_spec (bitset_size_from_num_bits n) false) as (W & L & M).
  assert (H : holds (bitset_reset (bitset_size_from_num_bits n) false) 0 0).
  { intros i. replace ((0 <=? i) && (i <? 0)) with false by (symmetry; apply andb_false_iff; rewrite N.ltb_ge; lia).
    destruct (N.lt_ge_cases i (32 * bitset_size_from_num_bits n)) as [Q|Q]; auto.
    unfold bmem. rewrite nth_overflow, N.bits_0; auto. rewrite L. assert (bitset_size_from_num_bits n <= i / 32) by (apply N.div_le_lower_bound; lia). lia. }
  constructor; cbn [new_rt no_mem loaded streaming bulk_data tier_metadata bm_resident bm_buffer live_lo fl_lo fl_hi]; fold n; auto; try lia.
  - unfold blen. rewrite L. lia.
  - unfold blen. rewrite L. lia.
  - intros x. split; [discriminate|]. intros (c & ch & C & _). lia.
  - intros c ch sg _ _. replace ((0 <=? c) && (c <? 0)) with false; auto. symmetry; apply andb_false_iff; rewrite N.ltb_ge; lia.
  - discriminate.
Qed.

Lemma holds_set bs bs' f k (a b : N) : holds bs 0 0 -> (forall j, bmem bs' j = if (f <=? j) && (j <? f + k) then true else bmem bs j) -> holds bs' f (f + k).
Proof.
  intros H M i. rewrite M, (H i). destruct ((f <=? i) && (i <? f + k)); auto. apply andb_false_iff. rewrite N.ltb_ge. lia.
Qed.
Lemma holds_clear bs bs' f k : holds bs f (f + k) -> (forall j, bmem bs' j = if (f <=? j) && (j <? f + k) then false else bmem bs j) -> holds bs' 0 0.
Proof.
  intros H M i. rewrite M, (H i). replace ((0 <=? i) && (i <? 0)) with false by (symmetry; apply andb_false_iff; rewrite N.ltb_ge; lia).
  destruct ((f <=? i) && (i <? f + k)); auto.
Qed.

(* ---------- dispatching a stream in ---------- *)
Definition mem_in (m : bulk_mem) (can_alloc : bool) (nb : N) : bulk_mem :=
  match bm_buffer m with
  | None => if can_alloc then {| bm_buffer := Some nb; bm_resident := fun _ => false |} else m
  | Some _ => m
  end.

Lemma dispatch_in r m b k slot gen nb : tier_inv db t r m 0 b None -> 1 <= k -> b + k <= n ->
  exists st', bitset_set_range (streaming r) b k true = Ok st' /\
  tier_inv db t {| loaded := loaded r; streaming := st'; bulk_data := bulk_data r; tier_metadata := tier_metadata r |}
    (mem_in m (match bulk_data r with None => true | Some _ => false end) nb) 0 b
    (Some {| fl_action := StreamIn; fl_first := b; fl_num := k; fl_slot := slot; fl_gen := gen |}).
Proof.
  intros I K L. destruct size_ok as [S1 S2]. destruct I. cbn [live_lo fl_lo fl_hi] in *.
  destruct (set_range_holds (streaming r) b k true) as (st' & E & W & B & M); [auto | rewrite ti_sl0; fold n; lia |].
  exists st'. split; auto.
  assert (MM : forall x, bm_resident (mem_in m (match bulk_data r with None => true | Some _ => false end) nb) x = true <-> bm_resident m x = true).
  { intros x. unfold mem_in. destruct (bm_buffer m) eqn:Eb; [tauto|]. destruct (bulk_data r) eqn:Ed; cbn [bm_resident]; [tauto|].
    split; [discriminate|]. intros R. apply ti_res0 in R. destruct R as (c & ch & C & _). destruct ti_ptr0 as (p & P & _); [lia | congruence]. }
  constructor; cbn [loaded streaming bulk_data tier_metadata live_lo fl_lo fl_hi fl_action fl_first fl_num fl_slot fl_gen]; auto.
  - rewrite B. exact ti_sl0.
  - eapply holds_set; eauto.
  - intros x. rewrite MM. apply ti_res0.
  - intros Hb. destruct ti_ptr0 as (p & P & Q); auto. exists p. split; auto. unfold mem_in. rewrite Q. exact Q.
  - intros F EF _. unfold mem_in. destruct (bm_buffer m) eqn:Eb; [rewrite Eb; eauto|]. destruct (bulk_data r) eqn:Ed; [|cbn; eauto].
    destruct (N.lt_ge_cases 0 b) as [Q|Q]; [destruct ti_ptr0 as (p & P & P'); auto; congruence|]. specialize (ti_null0 Q). congruence.
Qed.

(* ---------- completing or cancelling a stream in ---------- *)
Lemma complete_in r m b k slot gen off size : tier_inv db t r m 0 b
    (Some {| fl_action := StreamIn; fl_first := b; fl_num := k; fl_slot := slot; fl_gen := gen |}) ->
  (forall x, in_range off size x = true <-> exists c ch, b <= c < b + k /\ chunk_at db t c ch /\ ck_offset ch <= x < ck_offset ch + ck_size ch) ->
  let m' := {| bm_buffer := bm_buffer m; bm_resident := fun x => if in_range off size x then true else bm_resident m x |} in
  let ptr := match bulk_data r with None => bm_buffer m | p => p end in
  exists meta' l' s', for_chunks (N.to_nat k) (db_chunks db t) b m' ptr seg_metadata (tier_metadata r) = Ok meta' /\
    bitset_set_range (loaded r) b k true = Ok l' /\ bitset_set_range (streaming r) b k false = Ok s' /\
    tier_inv db t {| loaded := l'; streaming := s'; bulk_data := ptr; tier_metadata := meta' |} m' 0 (b + k) None.
Proof.
  intros I R m' ptr. destruct size_ok as [S1 S2]. destruct I. cbn [live_lo fl_lo fl_hi fl_action fl_first fl_num fl_slot fl_gen] in *.
  destruct ti_fl0 as (F1 & _ & _ & F2). fold n in F2.
  destruct (ti_buf0 _ eq_refl eq_refl) as (p & P).
  assert (Hp : ptr = Some p).
  { unfold ptr. destruct (bulk_data r) eqn:Ed; auto. destruct (N.lt_ge_cases 0 b) as [Q|Q].
    - destruct ti_ptr0 as (p' & P1 & P2); auto. congruence.
    - specialize (ti_null0 Q). congruence. }
  assert (RES : forall x, bm_resident m' x = true <-> exists c ch, 0 <= c < b + k /\ chunk_at db t c ch /\ ck_offset ch <= x < ck_offset ch + ck_size ch).
  { intros x. unfold m'. cbn [bm_resident]. destruct (in_range off size x) eqn:E.
    - split; auto. intros _. apply R in E. destruct E as (c & ch & C & H). exists c, ch. split; [lia | auto].
    - rewrite ti_res0. split; intros (c & ch & C & H).
      + exists c, ch. split; [lia | auto].
      + exists c, ch. split; auto. destruct (N.lt_ge_cases c b) as [Q|Q]; [lia|]. exfalso.
        assert (in_range off size x = true) by (apply R; exists c, ch; split; [lia | auto]). congruence. }
  destruct (for_chunks_spec (db_chunks db t) m' ptr seg_metadata wf_nodup (N.to_nat k) b (tier_metadata r)) as (meta' & FC & FM).
  { intros c C. destruct (chunk_exists c) as (ch & H); [lia|]. exists ch. split; auto. rewrite Hp. apply read_chunk_ok; auto.
    intros x X. apply RES. exists c, ch. split; [lia | auto]. }
  destruct (set_range_holds (loaded r) b k true) as (l' & El & Wl & Bl & Ml); [auto | rewrite ti_ll0; fold n; lia |].
  destruct (set_range_holds (streaming r) b k false) as (s' & Es & Ws & Bs & Ms); [auto | rewrite ti_sl0; fold n; lia |].
  exists meta', l', s'. do 3 (split; auto).
  constructor; cbn [loaded streaming bulk_data tier_metadata live_lo fl_lo fl_hi]; auto; try congruence.
  - intros i. rewrite Ml, (ti_lh0 i). apply Bool.eq_iff_eq_true. destruct ((b <=? i) && (i <? b + k)) eqn:Q.
    + apply andb_true_iff in Q. rewrite N.leb_le, N.ltb_lt in Q. rewrite andb_true_iff, N.leb_le, N.ltb_lt. lia.
    + apply andb_false_iff in Q. rewrite N.leb_gt, N.ltb_ge in Q. rewrite !andb_true_iff, !N.leb_le, !N.ltb_lt. lia.
  - eapply holds_clear; eauto.
  - fold n. lia.

  - intros c ch sg H J. rewrite (FM c ch sg H J). rewrite N2Nat.id. rewrite (ti_meta0 c ch sg H J).
    destruct ((b <=? c) && (c <? b + k)) eqn:Q.
    + apply andb_true_iff in Q. rewrite N.leb_le, N.ltb_lt in Q.
      replace ((0 <=? c) && (c <? b + k)) with true; auto. symmetry. apply andb_true_iff. rewrite N.leb_le, N.ltb_lt. lia.
    + apply andb_false_iff in Q. rewrite N.leb_gt, N.ltb_ge in Q.
      replace ((0 <=? c) && (c <? b + k)) with ((0 <=? c) && (c <? b)); auto.
      apply Bool.eq_iff_eq_true. rewrite !andb_true_iff, !N.leb_le, !N.ltb_lt. lia.
  - intros _. exists p. split; auto.
  - intros; lia.
Qed.

Lemma cancel_in r m b k slot gen : tier_inv db t r m 0 b
    (Some {| fl_action := StreamIn; fl_first := b; fl_num := k; fl_slot := slot; fl_gen := gen |}) ->
  exists s', bitset_set_range (streaming r) b k false = Ok s' /\
    tier_inv db t {| loaded := loaded r; streaming := s'; bulk_data := bulk_data r; tier_metadata := tier_metadata r |} m 0 b None.
Proof.
  intros I. destruct size_ok as [S1 S2]. destruct I. cbn [live_lo fl_lo fl_hi fl_action fl_first fl_num fl_slot fl_gen] in *.
  destruct ti_fl0 as (F1 & _ & _ & F2). fold n in F2.
  destruct (set_range_holds (streaming r) b k false) as (s' & Es & Ws & Bs & Ms); [auto | rewrite ti_sl0; fold n; lia |].
  exists s'. split; auto.
  constructor; cbn [loaded streaming bulk_data tier_metadata live_lo fl_lo fl_hi]; auto; try congruence.
  eapply holds_clear; eauto.
Qed.

(* ---------- stream out ---------- *)
Lemma dispatch_out r m a b k slot gen off size : tier_inv db t r m a b None -> 1 <= k -> a + k <= b ->
  (forall x, in_range off size x = true <-> exists c ch, a <= c < a + k /\ chunk_at db t c ch /\ ck_offset ch <= x < ck_offset ch + ck_size ch) ->
  let can := k =? bitset_count_set_bits (loaded r) in
  exists st' meta', bitset_set_range (streaming r) a k true = Ok st' /\
  for_chunks (N.to_nat k) (db_chunks db t) a m (bulk_data r) (fun _ => 0) (tier_metadata r) = Ok meta' /\
  tier_inv db t {| loaded := loaded r; streaming := st'; bulk_data := if can then None else bulk_data r; tier_metadata := meta' |}
    {| bm_buffer := if can then None else bm_buffer m; bm_resident := fun x => if in_range off size x then false else bm_resident m x |} a b
    (Some {| fl_action := StreamOut; fl_first := a; fl_num := k; fl_slot := slot; fl_gen := gen |}).
Proof.
  intros I K L R can. assert (HC : can = true <-> a + k = b).
  { unfold can. rewrite (inv_loaded_count _ _ _ _ _ I), N.eqb_eq. lia. }
  clearbody can. destruct size_ok as [S1 S2]. pose proof I as I'. destruct I. cbn [live_lo fl_lo fl_hi] in *. fold n in ti_ab0.
  destruct (set_range_holds (streaming r) a k true) as (st' & E & W & B & M); [auto | rewrite ti_sl0; fold n; lia |].
  destruct ti_ptr0 as (p & P1 & P2); [lia|].
  destruct (for_chunks_spec (db_chunks db t) m (bulk_data r) (fun _ => 0) wf_nodup (N.to_nat k) a (tier_metadata r)) as (meta' & FC & FM).
  { intros c C. destruct (chunk_exists c) as (ch & H); [lia|]. exists ch. split; auto. rewrite P1. apply read_chunk_ok; auto.
    intros x X. apply ti_res0. exists c, ch. split; [lia | auto]. }
  exists st', meta'. do 2 (split; auto).
  constructor; cbn [loaded streaming bulk_data tier_metadata live_lo fl_lo fl_hi fl_action fl_first fl_num fl_slot fl_gen bm_buffer bm_resident]; auto; try congruence.
  - eapply holds_set; eauto.
  - intros x. destruct (in_range off size x) eqn:Q.
    + split; [discriminate|]. intros (c & ch & C & H & X). apply R in Q. destruct Q as (c' & ch' & C' & H' & X').
      rewrite (chunk_of_byte _ _ _ _ _ H H' X X') in C. lia.
    + rewrite ti_res0. split; intros (c & ch & C & H).
      * exists c, ch. split; auto. destruct (N.lt_ge_cases c (a + k)) as [Z|Z]; [|lia]. exfalso.
        assert (in_range off size x = true) by (apply R; exists c, ch; split; [lia | auto]). congruence.
      * exists c, ch. split; [lia | auto].
  - intros c ch sg H J. rewrite (FM c ch sg H J), (ti_meta0 c ch sg H J), N2Nat.id.
    destruct ((a <=? c) && (c <? a + k)) eqn:Q.
    + apply andb_true_iff in Q. rewrite N.leb_le, N.ltb_lt in Q.
      replace ((a + k <=? c) && (c <? b)) with false; auto. symmetry. apply andb_false_iff. rewrite N.leb_gt. lia.
    + apply andb_false_iff in Q. rewrite N.leb_gt, N.ltb_ge in Q.
      replace ((a + k <=? c) && (c <? b)) with ((a <=? c) && (c <? b)); auto.
      apply Bool.eq_iff_eq_true. rewrite !andb_true_iff, !N.leb_le, !N.ltb_lt. lia.
  - intros Q. destruct can; [assert (a + k = b) by (apply HC; auto); lia|]. exists p. auto.
  - intros Q. assert (C : can = true) by (apply HC; lia). rewrite C. reflexivity.
  - intros F EF Q. injection EF as <-. discriminate.
Qed.

Lemma complete_out r m a b k slot gen : tier_inv db t r m a b
    (Some {| fl_action := StreamOut; fl_first := a; fl_num := k; fl_slot := slot; fl_gen := gen |}) ->
  exists l' s', bitset_set_range (loaded r) a k false = Ok l' /\ bitset_set_range (streaming r) a k false = Ok s' /\
    tier_inv db t {| loaded := l'; streaming := s'; bulk_data := bulk_data r; tier_metadata := tier_metadata r |} m
      (if a + k =? b then 0 else a + k) (if a + k =? b then 0 else b) None.
Proof.
  intros I. destruct size_ok as [S1 S2]. destruct I. cbn [live_lo fl_lo fl_hi fl_action fl_first fl_num fl_slot fl_gen] in *.
  destruct ti_fl0 as (F1 & _ & F2). fold n in ti_ab0.
  destruct (set_range_holds (loaded r) a k false) as (l' & El & Wl & Bl & Ml); [auto | rewrite ti_ll0; fold n; lia |].
  destruct (set_range_holds (streaming r) a k false) as (s' & Es & Ws & Bs & Ms); [auto | rewrite ti_sl0; fold n; lia |].
  exists l', s'. do 2 (split; auto).
  assert (LH : holds l' (a + k) b).
  { intros i. rewrite Ml, (ti_lh0 i). apply Bool.eq_iff_eq_true. destruct ((a <=? i) && (i <? a + k)) eqn:Q.
    + apply andb_true_iff in Q. rewrite N.leb_le, N.ltb_lt in Q. rewrite andb_true_iff, N.leb_le, N.ltb_lt. split; [discriminate | lia].
    + apply andb_false_iff in Q. rewrite N.leb_gt, N.ltb_ge in Q. rewrite !andb_true_iff, !N.leb_le, !N.ltb_lt. lia. }
  destruct (N.eqb_spec (a + k) b) as [Q|Q].
  - constructor; cbn [loaded streaming bulk_data tier_metadata live_lo fl_lo fl_hi]; auto; try congruence; try lia.
    + intros i. rewrite (LH i). apply Bool.eq_iff_eq_true. rewrite !andb_true_iff, !N.leb_le, !N.ltb_lt. lia.
    + eapply holds_clear; eauto.
    + intros x. rewrite ti_res0. split; intros (c & ch & C & H); lia.
    + intros c ch sg H J. rewrite (ti_meta0 c ch sg H J).
      replace ((a + k <=? c) && (c <? b)) with false by (symmetry; apply andb_false_iff; rewrite N.leb_gt, N.ltb_ge; lia).
      replace ((0 <=? c) && (c <? 0)) with false by (symmetry; apply andb_false_iff; rewrite N.ltb_ge; lia). reflexivity.
    + intros _. apply ti_null0. lia.
  - constructor; cbn [loaded streaming bulk_data tier_metadata live_lo fl_lo fl_hi]; auto; try congruence; try lia.
    + eapply holds_clear; eauto.
Qed.
End Tier.
