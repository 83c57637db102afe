(** Proofs about the second pass of write_database_bulk_data: the key frames. *)
From Coq Require Import Lia.
From Verif Require Import Word WordFacts MemoryUtils SeekSpec DbTiers DbStream DbBuild BuildSpec ByteFacts DbBuildFacts DbHeaderFacts.
Local Open Scope N_scope.
Ltac Zify.zify_post_hook ::= idtac.

Lemma data_bytes_bits bits frames : Forall (fun f => fm_bits f = bits) frames -> bits * N.of_nat (length frames) <= 8 * data_bytes frames.
Proof.
  intros F. unfold data_bytes. rewrite (sum_bits bits frames F). set (x := bits * N.of_nat (length frames)). clearbody x.
  pose proof (N.div_mod (x + 7) 8 ltac:(lia)) as D. pose proof (N.mod_lt (x + 7) 8 ltac:(lia)) as R. set (q := (x + 7) / 8) in *. set (r := (x + 7) mod 8) in *. clearbody q r. lia.
Qed.
Lemma frames_stored_same m m' off frames lo hi : frames_ok frames -> same_but lo hi m m' ->
  (8 * (off + data_bytes frames) <= lo \/ hi <= 8 * off) -> frames_stored m off frames -> frames_stored m' off frames.
Proof.
  intros (_ & bits & B & F) (_ & _ & SB) D FS i f d b K D' Lb. rewrite <- (FS i f d b K D' Lb). apply SB.
  pose proof (data_bytes_bits bits frames (frames_same_bits _ _ _ F)) as DB. rewrite Forall_forall in F. destruct (F f (nth_error_In _ _ K)) as (E & _).
  rewrite E in *. assert (L : (i < length frames)%nat) by (apply nth_error_Some; congruence).
  assert (MM : N.of_nat i * bits + bits <= bits * N.of_nat (length frames)) by (replace (N.of_nat i * bits + bits) with (bits * (N.of_nat i + 1)) by lia; apply N.mul_le_mono_l; lia).
  lia.
Qed.

(** where the key frames of segment [i] of chunk [k] go *)
Definition place (max : N) (k : nat) (g : list seg_job) (i : nat) : N := N.of_nat k * max + 12 + 20 * N.of_nat (length g) + rel g i.
Definition visited (k i k' i' : nat) : bool := (k' <? k)%nat || (k' =? k)%nat && (i' <? i)%nat.
Definition offsets (max : N) (k i k' : nat) (g : list seg_job) (i' : nat) : N := if visited k i k' i' then place max k' g i' else rel g i'.

Record sinv (max : N) (G : list (list seg_job)) (m : list N) (k i : nat) : Prop := {
  s_head : forall k' g, nth_error G k' = Some g -> group_in m (N.of_nat k' * max) k' g (offsets max k i k' g) /\ word_at m (N.of_nat k' * max + 4) (chunk_size_of max G k');
  s_data : forall k' g i' j, nth_error G k' = Some g -> nth_error g i' = Some j -> visited k i k' i' = true -> frames_stored m (place max k' g i') (sj_frames j);
  s_ok : bytes_ok m }.

Definition groups_ok (max : N) (G : list (list seg_job)) (len : N) : Prop :=
  Forall (fun g => Forall (job_ok max) g /\ body g + 3 <= max) G /\
  N.of_nat (length G - 1) * max + body (last G []) + 15 <= len /\ N.of_nat (length G - 1) * max + body (last G []) + 15 < 2 ^ 32.

Lemma last_nth {A} (l : list A) d : last l d = nth (length l - 1) l d.
Proof.
  induction l as [|a l IH]; [reflexivity|]. destruct l as [|b l]; [reflexivity|]. change (last (a :: b :: l) d) with (last (b :: l) d). rewrite IH. cbn [length].
  replace (S (S (length l)) - 1)%nat with (S (length l)) by lia. replace (S (length l) - 1)%nat with (length l) by lia. reflexivity.
Qed.
(** a chunk ends before the next one, and the last one before the padding *)
Lemma group_end max G len k g : groups_ok max G len -> nth_error G k = Some g ->
  (N.of_nat k * max + body g + 3 <= N.of_nat k * max + max) /\ N.of_nat k * max + body g <= N.of_nat (length G - 1) * max + body (last G []) /\
  ((S k < length G)%nat -> N.of_nat k * max + max <= N.of_nat (length G - 1) * max).
Proof.
  intros (F & _ & _) K. rewrite Forall_forall in F. destruct (F g (nth_error_In _ _ K)) as (_ & B). assert (L : (k < length G)%nat) by (apply nth_error_Some; congruence).
  split; [lia|]. destruct (Nat.eq_dec (S k) (length G)) as [E|E].
  - rewrite last_nth. replace (length G - 1)%nat with k by lia. rewrite (nth_error_nth _ _ [] K). split; [lia|]. intros. lia.
  - pose proof (mul_lt_le k (length G - 1) max ltac:(lia)). split; [lia|]. auto.
Qed.

Lemma place_bounds max k g i j : nth_error g i = Some j ->
  N.of_nat k * max + 12 + 20 * N.of_nat (length g) <= place max k g i /\ place max k g i + dj j <= N.of_nat k * max + body g.
Proof.
  intros K. unfold place. pose proof (rel_S g i j K) as R. pose proof (rel_le g (S i)) as L. pose proof (body_split g) as B. lia.
Qed.
Lemma rel_mono g i i' : (i <= i')%nat -> rel g i <= rel g i'.
Proof.
  intros L. unfold rel. rewrite <- (firstn_skipn i (firstn i' g)). rewrite firstn_firstn. rewrite Nat.min_l by auto. rewrite map_app, ClipOrderFacts.sumN_app. lia.
Qed.

Lemma visited_next k i k' i' : visited k (S i) k' i' = (visited k i k' i' || ((k' =? k)%nat && (i' =? i)%nat))%bool.
Proof. unfold visited. destruct (Nat.ltb_spec k' k), (Nat.eqb_spec k' k), (Nat.ltb_spec i' (S i)), (Nat.ltb_spec i' i), (Nat.eqb_spec i' i); cbn; auto; lia. Qed.
Lemma visited_new k i : visited k i k i = false.
Proof. unfold visited. destruct (Nat.ltb_spec k k), (Nat.ltb_spec i i); destruct (Nat.eqb_spec k k); cbn; auto; lia. Qed.

Lemma sinv_step max G m k g i j : max <= 2 ^ 31 -> groups_ok max G (blen m) -> sinv max G m k i -> nth_error G k = Some g -> nth_error g i = Some j ->
  exists m1 m2,
    read32 m (N.of_nat k * max + 8) = Ok (N.of_nat (length g)) /\
    read32 m (N.of_nat k * max + 12 + N.of_nat i * 20 + 8) = Ok (rel g i) /\
    write32 m (N.of_nat k * max + 12 + N.of_nat i * 20 + 8) (place max k g i) = Ok m1 /\
    write_frames (sj_frames j) m1 (place max k g i) 0 = Ok m2 /\ length m2 = length m /\ sinv max G m2 k (S i).
Proof.
  intros MX GO SI KG KJ. destruct (s_head _ _ _ _ _ SI k g KG) as ((_ & W2 & W3) & _). pose proof (s_ok _ _ _ _ _ SI) as BM.
  pose proof (W3 i j KJ) as (w & _ & _ & _ & W4 & _). unfold offsets in W4. rewrite visited_new in W4.
  destruct (group_end max G (blen m) k g GO KG) as (E1 & E2 & E3). destruct GO as (GF & GL & G32). change (2 ^ 32) with 4294967296 in G32.
  destruct (place_bounds max k g i j KJ) as (P1 & P2). pose proof (body_split g) as BS.
  assert (IL : (i < length g)%nat) by (apply nth_error_Some; congruence).
  set (base := N.of_nat k * max) in *. set (p := place max k g i) in *.
  assert (HA : base + 12 + N.of_nat i * 20 + 8 = base + 12 + 20 * N.of_nat i + 8) by lia. rewrite HA. clear HA.
  rewrite Forall_forall in GF. destruct (GF g (nth_error_In _ _ KG)) as (JF & _). rewrite Forall_forall in JF. pose proof (JF j (nth_error_In _ _ KJ)) as JO.
  destruct JO as (J1 & J2 & J3 & FO & JB). fold (dj j) in JB.
  destruct (write32_ok m (base + 12 + 20 * N.of_nat i + 8) p BM) as (m1 & M1 & S1 & R1); [lia | change (2 ^ 32) with 4294967296; lia|].
  pose proof (same_but_blen _ _ _ _ S1) as L1. pose proof (same_but_ok _ _ _ _ S1) as B1.
  pose proof FO as (FL & bits & FB & FF).
  pose proof (data_bytes_bits bits (sj_frames j) (frames_same_bits _ _ _ FF)) as DB. fold (dj j) in DB.
  destruct (write_frames_ok bits (sj_frames j) m1 p 0 FF) as (m2 & M2 & S2 & C2); [lia | auto | rewrite L1; lia |].
  pose proof (same_but_blen _ _ _ _ S2) as L2. pose proof (same_but_ok _ _ _ _ S2) as B2.
  exists m1, m2. split; [exact W2|]. split; [exact W4|]. split; [exact M1|]. split; [exact M2|].
  split; [destruct S1 as (X1 & _), S2 as (X2 & _); congruence|].
  assert (S2' : same_but (8 * p) (8 * (p + dj j)) m1 m2) by (eapply same_but_weaken; [exact S2 | lia | lia]). clear S2.
  constructor; auto.
  - intros k' g' KG'. destruct (s_head _ _ _ _ _ SI k' g' KG') as (Q1 & Q2).
    assert (GF' := GF g' (nth_error_In _ _ KG')). destruct GF' as (_ & BB'). pose proof (body_split g') as BS'.
    destruct (Nat.lt_trichotomy k' k) as [LT|[EQ|GT]].
    + pose proof (mul_lt_le k' k max LT) as ML. fold base in ML.
      assert (QX : group_in m2 (N.of_nat k' * max) k' g' (offsets max k i k' g')).
      { apply (group_same m1 m2 _ _ _ _ _ _ B1 S2'); [lia|]. apply (group_same m m1 _ _ _ _ _ _ BM S1); [lia | exact Q1]. }
      split.
      * eapply group_ext; [|exact QX]. intros i' _. unfold offsets. rewrite visited_next. destruct (Nat.eqb_spec k' k); [lia|]. cbn [andb]. rewrite orb_false_r. reflexivity.
      * apply (word_same m1 m2 _ _ _ _ B1 S2'); [lia|]. apply (word_same m m1 _ _ _ _ BM S1); [lia | exact Q2].
    + subst k'. fold base in Q1, Q2 |- *. assert (g' = g) by congruence. subst g'.
      split; [|apply (word_same m1 m2 _ _ _ _ B1 S2'); [lia|]; apply (word_same m m1 _ _ _ _ BM S1); [lia | exact Q2]].
      apply (group_same m1 m2 _ _ _ _ _ _ B1 S2'); [lia|]. destruct Q1 as (Q11 & Q12 & Q13).
      split; [apply (word_same m m1 _ _ _ _ BM S1); [lia | exact Q11]|]. split; [apply (word_same m m1 _ _ _ _ BM S1); [lia | exact Q12]|].
      intros i' j' K'. destruct (Nat.eq_dec i' i) as [-> |NE].
      * assert (j' = j) by congruence. subst j'. destruct (Q13 i j KJ) as (w' & V1 & V2 & V3 & V4 & V5 & V6). exists w'. split; auto.
        split; [apply (word_same m m1 _ _ _ _ BM S1); [lia | exact V2]|]. split; [apply (word_same m m1 _ _ _ _ BM S1); [lia | exact V3]|].
        split; [|split; [apply (word_same m m1 _ _ _ _ BM S1); [lia | exact V5] | apply (word_same m m1 _ _ _ _ BM S1); [lia | exact V6]]].
        unfold offsets. rewrite visited_next, !Nat.eqb_refl, orb_true_r. exact R1.
      * apply (seg_words_same m m1 _ _ _ _ _ _ BM S1); [destruct (Nat.lt_trichotomy i' i) as [?|[?|?]]; lia|].
        unfold offsets. rewrite visited_next. destruct (Nat.eqb_spec i' i); [lia|]. rewrite andb_false_r, orb_false_r. apply (Q13 i' j' K').
    + pose proof (mul_lt_le k k' max GT) as ML. fold base in ML.
      assert (QX : group_in m2 (N.of_nat k' * max) k' g' (offsets max k i k' g')).
      { apply (group_same m1 m2 _ _ _ _ _ _ B1 S2'); [lia|]. apply (group_same m m1 _ _ _ _ _ _ BM S1); [lia | exact Q1]. }
      split.
      * eapply group_ext; [|exact QX]. intros i' _. unfold offsets. rewrite visited_next. destruct (Nat.eqb_spec k' k); [lia|]. cbn [andb]. rewrite orb_false_r. reflexivity.
      * apply (word_same m1 m2 _ _ _ _ B1 S2'); [lia|]. apply (word_same m m1 _ _ _ _ BM S1); [lia | exact Q2].
  - intros k' g' i' j' KG' KJ' V. rewrite visited_next in V. apply orb_true_iff in V. destruct V as [V|V].
    + pose proof (s_data _ _ _ _ _ SI k' g' i' j' KG' KJ' V) as FS.
      destruct (place_bounds max k' g' i' j' KJ') as (P1' & P2').
      destruct (GF g' (nth_error_In _ _ KG')) as (JF' & BB'). rewrite Forall_forall in JF'. destruct (JF' j' (nth_error_In _ _ KJ')) as (_ & _ & _ & FO' & _).
      unfold visited in V. apply orb_true_iff in V. destruct V as [V|V].
      * apply Nat.ltb_lt in V. pose proof (mul_lt_le k' k max V) as ML. fold base in ML. fold (dj j') in *.
        eapply frames_stored_same; [exact FO' | exact S2' | fold (dj j'); lia |]. eapply frames_stored_same; [exact FO' | exact S1 | fold (dj j'); lia | exact FS].
      * apply andb_true_iff in V. destruct V as (V1 & V2). apply Nat.eqb_eq in V1. apply Nat.ltb_lt in V2. subst k'. assert (g' = g) by congruence. subst g'.
        fold base in P1', P2'.
        assert (PL : place max k g i' + dj j' <= p).
        { unfold p, place. pose proof (rel_S g i' j' KJ') as RS. pose proof (rel_mono g (S i') i ltac:(lia)). lia. }
        eapply frames_stored_same; [exact FO' | exact S2' | fold (dj j'); lia |]. eapply frames_stored_same; [exact FO' | exact S1 | fold (dj j'); lia | exact FS].
    + apply andb_true_iff in V. destruct V as (V1 & V2). apply Nat.eqb_eq in V1. apply Nat.eqb_eq in V2. subst k' i'. assert (g' = g) by congruence. subst g'.
      assert (j' = j) by congruence. subst j'. fold p. intros n f d b K D Lb.
      assert (EB : fm_bits f = bits) by (rewrite Forall_forall in FF; apply (FF f (nth_error_In _ _ K))). rewrite EB in *. rewrite <- (C2 n f d b K D Lb). f_equal. lia.
Qed.

(** moving on to the next chunk changes nothing *)
Lemma sinv_next max G m k g : sinv max G m k (length g) -> nth_error G k = Some g -> sinv max G m (S k) 0.
Proof.
  intros SI KG.
  assert (V : forall k' g' i', nth_error G k' = Some g' -> (i' < length g')%nat -> visited (S k) 0 k' i' = visited k (length g) k' i').
  { intros k' g' i' K L. unfold visited. destruct (Nat.ltb_spec k' (S k)), (Nat.ltb_spec k' k), (Nat.eqb_spec k' (S k)), (Nat.eqb_spec k' k), (Nat.ltb_spec i' 0), (Nat.ltb_spec i' (length g)); cbn; auto; try lia.
    subst k'. assert (g' = g) by congruence. subst g'. lia. }
  constructor.
  - intros k' g' K. destruct (s_head _ _ _ _ _ SI k' g' K) as (Q1 & Q2). split; auto. eapply group_ext; [|exact Q1]. intros i' L. unfold offsets. rewrite (V k' g' i' K L). reflexivity.
  - intros k' g' i' j K KJ VI. assert (L : (i' < length g')%nat) by (apply nth_error_Some; congruence). rewrite (V k' g' i' K L) in VI. apply (s_data _ _ _ _ _ SI k' g' i' j K KJ VI).
  - apply (s_ok _ _ _ _ _ SI).
Qed.

Lemma skipn_nth_cons {A} (l : list A) n x : nth_error l n = Some x -> skipn n l = x :: skipn (S n) l.
Proof. revert n; induction l as [|a l IH]; intros [|n] H; try discriminate H; cbn in H; [injection H as ->; reflexivity|]. cbn [skipn]. apply IH. exact H. Qed.

Lemma sample_pass_ok max G : max <= 2 ^ 31 -> forall jobs m k g i,
  groups_ok max G (blen m) -> sinv max G m k i -> nth_error G k = Some g -> (i <= length g)%nat ->
  (forall k' g', nth_error G k' = Some g' -> (0 < k')%nat -> g' <> []) ->
  jobs = skipn i g ++ concat (skipn (S k) G) ->
  exists m', sample_pass jobs m (N.of_nat k * max) (N.of_nat i) = Ok m' /\ length m' = length m /\ sinv max G m' (length G) 0.
Proof.
  intros MX. induction jobs as [|j rest IH]; intros m k g i GO SI KG IL NE EQ.
  - cbn [sample_pass]. exists m. split; auto. split; auto. symmetry in EQ. apply app_eq_nil in EQ. destruct EQ as (E1 & E2).
    assert (I : i = length g) by (pose proof (skipn_length i g) as SL; rewrite E1 in SL; cbn in SL; lia). subst i.
    assert (KL : (k < length G)%nat) by (apply nth_error_Some; congruence).
    assert (KE : S k = length G).
    { destruct (Nat.eq_dec (S k) (length G)) as [X|X]; auto. exfalso. destruct (nth_error G (S k)) as [g'|] eqn:K'.
      - rewrite (skipn_nth_cons G (S k) g' K') in E2. cbn [concat] in E2. apply app_eq_nil in E2. destruct E2 as (E2 & _). apply (NE (S k) g' K'); [lia | auto].
      - apply nth_error_None in K'. lia. }
    rewrite <- KE. apply (sinv_next max G m k g SI KG).
  - (* the chunk the segment is in *)
    assert (STEP : forall k g i, sinv max G m k i -> nth_error G k = Some g -> nth_error g i = Some j -> rest = skipn (S i) g ++ concat (skipn (S k) G) ->
      exists m', (bindo (read32 m (N.of_nat k * max + 8)) (fun n =>
        let at_ := N.of_nat k * max + sizeof_chunk_header + N.of_nat i * sizeof_chunk_segment_header + 8 in
        bindo (read32 m at_) (fun rel =>
        let samples_offset := addw 32 (addw 32 (wrapw 32 (N.of_nat k * max)) (addw 32 sizeof_chunk_header (mulw 32 n sizeof_chunk_segment_header))) rel in
        bindo (write32 m at_ samples_offset) (fun m =>
        bindo (write_frames (sj_frames j) m samples_offset 0) (fun m =>
        sample_pass rest m (N.of_nat k * max) (addw 32 (N.of_nat i) 1)))))) = Ok m' /\ length m' = length m /\ sinv max G m' (length G) 0).
    { clear k g i SI KG IL EQ. intros k g i SI KG KJ ER.
      destruct (sinv_step max G m k g i j MX GO SI KG KJ) as (m1 & m2 & R1 & R2 & W1 & W2 & LM & SI2).
      destruct (group_end max G (blen m) k g GO KG) as (E1 & E2 & _). pose proof GO as (_ & GL & G32). change (2 ^ 32) with 4294967296 in G32.
      assert (IL : (i < length g)%nat) by (apply nth_error_Some; congruence). pose proof (body_split g) as BS.
      destruct (place_bounds max k g i j KJ) as (P1 & P2).
      rewrite R1. cbn [bindo]. cbv zeta. unfold sizeof_chunk_header, sizeof_chunk_segment_header. rewrite R2. cbn [bindo].
      set (base := N.of_nat k * max) in *.
      assert (SO : addw 32 (addw 32 (wrapw 32 base) (addw 32 12 (mulw 32 (N.of_nat (length g)) 20))) (rel g i) = place max k g i).
      { unfold place in *. fold base in P1, P2 |- *. set (r := rel g i) in *. set (l := N.of_nat (length g)) in *. clearbody r l.
        unfold wrapw. rewrite N.mod_small by (change (2 ^ 32) with 4294967296; lia). rewrite mulw_small by (change (2 ^ 32) with 4294967296; lia).
        rewrite (addw32 12) by lia. rewrite (addw32 base) by lia. rewrite addw32 by lia. lia. }
      rewrite SO, W1. cbn [bindo]. rewrite W2. cbn [bindo]. rewrite addw32 by lia. replace (N.of_nat i + 1) with (N.of_nat (S i)) by lia.
      destruct (IH m2 k g (S i)) as (m' & X1 & X2 & X3); auto.
      - unfold blen. rewrite LM. exact GO.
      - exists m'. split; auto. split; [congruence | auto]. }
    cbn [sample_pass]. destruct (s_head _ _ _ _ _ SI k g KG) as ((_ & W2 & _) & WS). unfold word_at in W2, WS. fold (read32 m (N.of_nat k * max + 8)) in W2. fold (read32 m (N.of_nat k * max + 4)) in WS.
    rewrite W2. cbn [bindo]. destruct (N.leb_spec (N.of_nat (length g)) (N.of_nat i)) as [L|L].
    + assert (i = length g) by lia. subst i. rewrite skipn_all in EQ. cbn [app] in EQ.
      destruct (nth_error G (S k)) as [g'|] eqn:K'.
      2:{ apply nth_error_None in K'. rewrite skipn_all2 in EQ by auto. discriminate EQ. }
      assert (KL : (S k < length G)%nat) by (apply nth_error_Some; congruence).
      rewrite WS. cbn [bindo]. unfold chunk_size_of. destruct (Nat.eqb_spec (S k) (length G)) as [X|_]; [lia|].
      rewrite (skipn_nth_cons G (S k) g' K') in EQ. cbn [concat] in EQ.
      destruct g' as [|j0 g'']; [exfalso; apply (NE (S k) [] K'); [lia | reflexivity]|]. cbn [app] in EQ. injection EQ as <- ER.
      replace (N.of_nat k * max + max) with (N.of_nat (S k) * max) by lia. change 0 with (N.of_nat 0).
      apply (STEP (S k) (j :: g'') 0%nat); auto. apply (sinv_next max G m k g SI KG).
    + cbn [bindo]. destruct (nth_error g i) as [j0|] eqn:KJ; [|apply nth_error_None in KJ; lia].
      rewrite (skipn_nth_cons g i j0 KJ) in EQ. cbn [app] in EQ. injection EQ as <- ER. apply (STEP k g i); auto.
Qed.
