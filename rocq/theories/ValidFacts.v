(** Proofs about is_valid. *)
From Coq Require Import Lia.
From Verif Require Import Word WordFacts MemoryUtils MemoryFacts Hash HashFacts DbTiers DbBuild DbHeaderFacts RewriteFacts Pieces DbLayout LayoutSpec LayoutFacts LayoutOps.
Local Open Scope N_scope.
Ltac Zify.zify_post_hook ::= idtac.

Lemma le_of_bytes l : bytes_ok l -> le_bytes (length l) (of_le_bytes l) = l /\ of_le_bytes l < 256 ^ N.of_nat (length l).
Proof.
  induction l as [|b l IH]; intros B; [split; reflexivity|]. inversion B as [|? ? B0 B1]; subst. destruct (IH B1) as (E & L). cbn [length le_bytes of_le_bytes].
  split.
  - rewrite N.mul_comm, N.mod_add by discriminate. rewrite N.mod_small by auto. f_equal. rewrite N.div_add by discriminate. rewrite N.div_small by auto. exact E.
  - rewrite Nat2N.inj_succ, N.pow_succ_r'. nia.
Qed.
Lemma cut n m : bytes_ok m -> (n <= length m)%nat -> exists v r, m = le_bytes n v ++ r /\ v < 256 ^ N.of_nat n /\ bytes_ok r.
Proof.
  intros B L. destruct (le_of_bytes (firstn n m)) as (E & V).
  { apply Forall_forall. intros x X. unfold bytes_ok in B. rewrite Forall_forall in B. apply B. rewrite <- (firstn_skipn n m). apply in_or_app. auto. }
  rewrite firstn_length, Nat.min_l in E, V by auto. exists (of_le_bytes (firstn n m)), (skipn n m). split; [|split; auto].
  - rewrite E. symmetry. apply firstn_skipn.
  - apply Forall_forall. intros x X. unfold bytes_ok in B. rewrite Forall_forall in B. apply B. rewrite <- (firstn_skipn n m). apply in_or_app. auto.
Qed.
Lemma le_inj n : forall a b r r', a < 256 ^ N.of_nat n -> b < 256 ^ N.of_nat n -> le_bytes n a ++ r = le_bytes n b ++ r' -> a = b /\ r = r'.
Proof.
  intros a b r r' A B E.
  assert (P : le_bytes n a = le_bytes n b /\ r = r').
  { assert (L : length (le_bytes n a) = length (le_bytes n b)) by (rewrite !le_bytes_length; reflexivity).
    revert L E. generalize (le_bytes n a) (le_bytes n b). induction l as [|x l IH]; intros [|y l'] L E; cbn [length app] in *; try discriminate L; [auto|].
    injection E as -> E. destruct (IH l' ltac:(lia) E) as (-> & ->). auto. }
  destruct P as (P & ->). split; auto. rewrite <- (of_le_bytes_le_bytes n a A), <- (of_le_bytes_le_bytes n b B), P. reflexivity.
Qed.
Lemma word_inj a b r r' : a < 2 ^ 32 -> b < 2 ^ 32 -> word a ++ r = word b ++ r' -> a = b /\ r = r'.
Proof. intros A B. apply (le_inj 4); auto. Qed.
Lemma half_inj a b r r' : a < 2 ^ 16 -> b < 2 ^ 16 -> half a ++ r = half b ++ r' -> a = b /\ r = r'.
Proof. intros A B. apply (le_inj 2); auto. Qed.

Lemma header_cut m : bytes_ok m -> 16 <= blen m -> exists size hash tag version rest,
  m = concat [word size; word hash; word tag; half version; rest] /\ size < 2 ^ 32 /\ hash < 2 ^ 32 /\ tag < 2 ^ 32 /\ version < 2 ^ 16 /\ bytes_ok rest /\ blen m = 14 + blen rest.
Proof.
  intros B L. unfold blen in L. destruct (cut 4 m B ltac:(lia)) as (size & r1 & E1 & V1 & B1).
  assert (L1 : length m = (4 + length r1)%nat) by (rewrite E1, app_length, le_bytes_length; reflexivity).
  destruct (cut 4 r1 B1 ltac:(lia)) as (hash & r2 & E2 & V2 & B2).
  assert (L2 : length r1 = (4 + length r2)%nat) by (rewrite E2, app_length, le_bytes_length; reflexivity).
  destruct (cut 4 r2 B2 ltac:(lia)) as (tag & r3 & E3 & V3 & B3).
  assert (L3 : length r2 = (4 + length r3)%nat) by (rewrite E3, app_length, le_bytes_length; reflexivity).
  destruct (cut 2 r3 B3 ltac:(lia)) as (version & r4 & E4 & V4 & B4).
  assert (L4 : length r3 = (2 + length r4)%nat) by (rewrite E4, app_length, le_bytes_length; reflexivity).
  exists size, hash, tag, version, r4. split; [|split; [exact V1|split; [exact V2|split; [exact V3|split; [exact V4|split; auto]]]]].
  - cbn [concat]. rewrite app_nil_r. unfold word, half. rewrite E1, E2, E3, E4. reflexivity.
  - unfold blen. lia.
Qed.

Lemma aligned_iff addr : addr < 2 ^ 64 -> (is_aligned_to addr class_alignment = true <-> addr mod 16 = 0).
Proof.
  intros A. unfold is_aligned_to, class_alignment. change (subw 64 16 1) with (N.ones 4). rewrite N.land_ones. change (2 ^ 4) with 16. apply N.eqb_eq.
Qed.

(** the hash check *)
Lemma hash_check size hash ps : size < 2 ^ 32 -> hash < 2 ^ 32 -> 8 <= size -> size <= 8 + blen (concat ps) ->
  check_content_hash (concat (word size :: word hash :: ps)) = Ok (if negb (hash32 (firstn (N.to_nat (size - 8)) (concat ps)) =? hash) then Some invalid_hash else None).
Proof.
  intros S H S8 SB. unfold check_content_hash. rewrite (read32_piece (word size :: word hash :: ps) 0 size off_size eq_refl eq_refl S). cbn [bindo].
  unfold content_hash, sizeof_raw. rewrite subw_ge by (try lia; change (2 ^ 32) with 4294967296 in S; change (2 ^ 64) with 18446744073709551616; lia).
  pose proof (load_mid (word size ++ word hash) (firstn (N.to_nat (size - 8)) (concat ps)) (skipn (N.to_nat (size - 8)) (concat ps))) as E.
  rewrite firstn_skipn, <- app_assoc in E. rewrite firstn_length, Nat.min_l in E by (unfold blen in SB; lia).
  change (blen (word size ++ word hash)) with 8 in E. change (word size ++ word hash ++ concat ps) with (concat (word size :: word hash :: ps)) in E. rewrite E. cbn [bindo].
  rewrite (read32_piece (word size :: word hash :: ps) 1 hash off_hash eq_refl eq_refl H). reflexivity.
Qed.

Lemma version_test v : (v <? version_first) || (version_latest <? v) = false <-> 7 <= v <= 10.
Proof. unfold version_first, version_latest. destruct (N.ltb_spec v 7); destruct (N.ltb_spec 10 v); cbn [orb]; split; intros; try discriminate; try lia; reflexivity. Qed.

Lemma db_valid_iff addr m check s : addr < 2 ^ 64 -> bytes_ok m -> 16 <= blen m -> claims_size m s -> 8 <= s <= blen m ->
  exists r, db_is_valid addr m check = Ok r /\ (r = None <-> addr mod 16 = 0 /\ well_formed_buffer database_tag [] check m).
Proof.
  intros A B L (r0 & C & S32) (S8 & SB). destruct (header_cut m B L) as (size & hash & tag & version & rest & E & V1 & V2 & V3 & V4 & B4 & LM).
  assert (ES : size = s). { rewrite C in E. cbn [concat] in E. symmetry. apply (word_inj s size r0 _ S32 V1 E). } subst s.
  assert (CE : concat [word tag; half version; rest] = word tag ++ half version ++ [] ++ rest) by (cbn [concat app]; rewrite app_nil_r; reflexivity).
  assert (W : well_formed_buffer database_tag [] check m <-> tag = database_tag /\ 7 <= version <= 10 /\ (check = true -> hash = hash32 (firstn (N.to_nat (size - 8)) (concat [word tag; half version; rest])))).
  { split.
    - intros (size' & hash' & version' & rest' & E' & S' & H' & V' & K). rewrite E in E'. cbn [concat] in E'. rewrite app_nil_r in E'.
      destruct (word_inj _ _ _ _ V1 S' E') as (<- & E1). destruct (word_inj _ _ _ _ V2 H' E1) as (<- & E2). destruct (word_inj _ _ _ _ V3 (eq_refl : database_tag < 2 ^ 32) E2) as (-> & E3).
      assert (V16 : version' < 2 ^ 16) by (change (2 ^ 16) with 65536; clear - V'; lia). destruct (half_inj _ _ _ _ V4 V16 E3) as (<- & E4). cbn [app] in E4. subst rest'. split; auto. split; auto. rewrite CE. exact K.
    - intros (-> & V & K). exists size, hash, version, rest. cbv zeta. rewrite <- CE. split; [rewrite E; cbn [concat]; reflexivity|]. auto. }
  unfold db_is_valid. destruct (is_aligned_to addr class_alignment) eqn:AL; cbn [negb].
  2:{ eexists. split; [reflexivity|]. split; [discriminate|]. intros (A16 & _). apply aligned_iff in A16; auto. congruence. }
  apply aligned_iff in AL; auto. rewrite E. rewrite (read32_piece [word size; word hash; word tag; half version; rest] 2 tag off_tag eq_refl eq_refl V3). cbn [bindo].
  destruct (N.eqb_spec tag tag_compressed_database) as [T|T]; cbn [negb].
  2:{ eexists. split; [reflexivity|]. split; [discriminate|]. rewrite <- E, W. intros (_ & T' & _). exfalso. apply T. exact T'. }
  rewrite (read16_piece [word size; word hash; word tag; half version; rest] 3 version off_version eq_refl eq_refl V4). cbn [bindo].
  destruct ((version <? version_first) || (version_latest <? version)) eqn:V.
  { eexists. split; [reflexivity|]. split; [discriminate|]. rewrite <- E, W. intros (_ & _ & V' & _). apply version_test in V'. congruence. }
  apply version_test in V. destruct check.
  - rewrite hash_check; auto. 2:{ rewrite LM in SB. rewrite blen_concat. unfold lens. cbn [map sum_n]. rewrite blen_word, blen_half. lia. }
    eexists. split; [reflexivity|]. rewrite <- E, W. destruct (N.eqb_spec (hash32 (firstn (N.to_nat (size - 8)) (concat [word tag; half version; rest]))) hash) as [HE|HE]; cbn [negb]; split; try discriminate; auto.
    intros (_ & _ & _ & K). exfalso. apply HE. symmetry. auto.
  - eexists. split; [reflexivity|]. rewrite <- E, W. split; auto. intros _. split; auto. split; auto. split; auto. discriminate.
Qed.

Lemma tracks_valid_iff addr m check s : addr < 2 ^ 64 -> bytes_ok m -> 16 <= blen m -> claims_size m s -> 8 <= s <= blen m ->
  exists r, tracks_is_valid addr m check = Ok r /\ (r = None <-> addr mod 16 = 0 /\ well_formed_buffer tracks_tag [0] check m).
Proof.
  intros A B L (r0 & C & S32) (S8 & SB). destruct (header_cut m B L) as (size & hash & tag & version & rest1 & E & V1 & V2 & V3 & V4 & B4 & LM).
  assert (ES : size = s). { rewrite C in E. cbn [concat] in E. symmetry. apply (word_inj s size r0 _ S32 V1 E). } subst s.
  destruct rest1 as [|alg rest]. { change (blen []) with 0 in LM. lia. }
  assert (CE : concat [word tag; half version; alg :: rest] = word tag ++ half version ++ [alg] ++ rest) by (cbn [concat app]; rewrite app_nil_r; reflexivity).
  assert (W : well_formed_buffer tracks_tag [0] check m <-> tag = tracks_tag /\ alg = 0 /\ 7 <= version <= 10 /\ (check = true -> hash = hash32 (firstn (N.to_nat (size - 8)) (concat [word tag; half version; alg :: rest])))).
  { split.
    - intros (size' & hash' & version' & rest' & E' & S' & H' & V' & K). rewrite E in E'. cbn [concat] in E'. rewrite app_nil_r in E'.
      destruct (word_inj _ _ _ _ V1 S' E') as (<- & E1). destruct (word_inj _ _ _ _ V2 H' E1) as (<- & E2). destruct (word_inj _ _ _ _ V3 (eq_refl : tracks_tag < 2 ^ 32) E2) as (-> & E3).
      assert (V16 : version' < 2 ^ 16) by (change (2 ^ 16) with 65536; clear - V'; lia). destruct (half_inj _ _ _ _ V4 V16 E3) as (<- & E4). cbn [app] in E4. injection E4 as -> ->. split; auto. split; auto. split; auto. rewrite CE. exact K.
    - intros (-> & -> & V & K). exists size, hash, version, rest. cbv zeta. rewrite <- CE. split; [rewrite E; cbn [concat]; reflexivity|]. auto. }
  unfold tracks_is_valid. destruct (is_aligned_to addr class_alignment) eqn:AL; cbn [negb].
  2:{ eexists. split; [reflexivity|]. split; [discriminate|]. intros (A16 & _). apply aligned_iff in A16; auto. congruence. }
  apply aligned_iff in AL; auto. rewrite E. rewrite (read32_piece [word size; word hash; word tag; half version; alg :: rest] 2 tag off_tag eq_refl eq_refl V3). cbn [bindo].
  destruct (N.eqb_spec tag tag_compressed_tracks) as [T|T]; cbn [negb].
  2:{ eexists. split; [reflexivity|]. split; [discriminate|]. rewrite <- E, W. intros (_ & T' & _). exfalso. apply T. exact T'. }
  assert (LA : load8 (concat [word size; word hash; word tag; half version; alg :: rest]) off_algorithm = Ok alg) by reflexivity.
  rewrite LA. cbn [bindo]. destruct (N.eqb_spec alg 0) as [AZ|AZ]; cbn [negb].
  2:{ eexists. split; [reflexivity|]. split; [discriminate|]. rewrite <- E, W. intros (_ & _ & T' & _). exfalso. apply AZ. exact T'. }
  rewrite (read16_piece [word size; word hash; word tag; half version; alg :: rest] 3 version off_version eq_refl eq_refl V4). cbn [bindo].
  destruct ((version <? version_first) || (version_latest <? version)) eqn:V.
  { eexists. split; [reflexivity|]. split; [discriminate|]. rewrite <- E, W. intros (_ & _ & _ & V' & _). apply version_test in V'. congruence. }
  apply version_test in V. destruct check.
  - rewrite hash_check; auto. 2:{ rewrite LM in SB. rewrite blen_concat. unfold lens. cbn [map sum_n]. rewrite blen_word, blen_half. lia. }
    eexists. split; [reflexivity|]. rewrite <- E, W. destruct (N.eqb_spec (hash32 (firstn (N.to_nat (size - 8)) (concat [word tag; half version; alg :: rest]))) hash) as [HE|HE]; cbn [negb]; split; try discriminate; auto.
    intros (_ & _ & _ & _ & K). exfalso. apply HE. symmetry. auto.
  - eexists. split; [reflexivity|]. rewrite <- E, W. split; auto. intros _. repeat split; auto; try lia; discriminate.
Qed.

(** one byte changed anywhere but in the size *)
Lemma upd_app_r (a b : list N) i x : (length a <= i)%nat -> upd (a ++ b) i x = a ++ upd b (i - length a) x.
Proof. revert i. induction a as [|y a IH]; intros i L; cbn [app length] in *; [rewrite Nat.sub_0_r; reflexivity|]. destruct i; [lia|]. cbn [upd Nat.sub]. rewrite IH by lia. reflexivity. Qed.
Lemma upd_at (l : list N) i x y : nth_error l i = Some y -> l = firstn i l ++ y :: skipn (S i) l /\ upd l i x = firstn i l ++ x :: skipn (S i) l.
Proof.
  revert i. induction l as [|z l IH]; intros [|i] E; cbn [nth_error] in E; try discriminate E.
  - injection E as ->. split; reflexivity.
  - destruct (IH i E) as (E1 & E2). cbn [firstn skipn upd app]. split; [f_equal; exact E1|f_equal; exact E2].
Qed.
Lemma hash_byte_changed (l : list N) n i x : bytes_ok l -> x < 256 -> (i < n)%nat -> (i < length l)%nat -> nth i l 0 <> x -> hash32 (firstn n (upd l i x)) <> hash32 (firstn n l).
Proof.
  intros B X IN IL NE. destruct (nth_error l i) as [y|] eqn:E; [|apply nth_error_None in E; lia].
  assert (Y : nth i l 0 = y) by (apply nth_error_nth; exact E). destruct (upd_at l i x y E) as (E1 & E2).
  assert (YB : y < 256) by (unfold bytes_ok in B; rewrite Forall_forall in B; apply B; eapply nth_error_In; exact E).
  rewrite E2. rewrite E1 at 3. rewrite !firstn_app, firstn_firstn, Nat.min_r by lia. rewrite firstn_length, Nat.min_l by lia.
  destruct (n - i)%nat as [|k] eqn:K; [lia|]. cbn [firstn]. apply hash32_single; auto; [|congruence].
  apply Forall_forall. intros z Z. unfold bytes_ok in B. rewrite Forall_forall in B. apply B. rewrite E1. apply in_or_app. right. right.
  rewrite <- (firstn_skipn k (skipn (S i) l)). apply in_or_app. auto.
Qed.
Lemma corrupt_rejected tag algorithm m i x : bytes_ok m -> x < 256 -> (4 <= i)%nat -> (exists s, claims_size m s /\ (i < N.to_nat s)%nat /\ s <= blen m) -> nth i m 0 <> x ->
  well_formed_buffer tag algorithm true m -> ~ well_formed_buffer tag algorithm true (upd m i x).
Proof.
  intros B X I4 (s & (r0 & C & S32) & IS & SB) NE (size & hash & version & rest & W) (size' & hash' & version' & rest' & W').
  cbv zeta in W, W'. set (c := word tag ++ half version ++ algorithm ++ rest) in *. set (c' := word tag ++ half version' ++ algorithm ++ rest') in *.
  destruct W as (E & S1 & H1 & V1 & K1). destruct W' as (E' & S2 & H2 & V2 & K2). specialize (K1 eq_refl). specialize (K2 eq_refl).
  assert (ES : size = s) by (rewrite C in E; symmetry; apply (word_inj s size r0 _ S32 S1 E)). subst s. clear C r0.
  rewrite E in E'. rewrite upd_app_r in E' by (rewrite word_len; lia). rewrite word_len in E'. destruct (word_inj _ _ _ _ S1 S2 E') as (<- & E2).
  assert (BC : bytes_ok c). { apply Forall_forall. intros z Z. unfold bytes_ok in B. rewrite Forall_forall in B. apply B. rewrite E. apply in_or_app. right. apply in_or_app. auto. }
  destruct (Nat.lt_ge_cases i 8) as [I8|I8].
  - (* the hash itself *)
    assert (EH : exists h, upd (word hash ++ c) (i - 4) x = word h ++ c /\ word h <> word hash /\ h < 2 ^ 32).
    { destruct (nth_error (word hash) (i - 4)) as [y|] eqn:Y; [|apply nth_error_None in Y; rewrite word_len in Y; lia].
      assert (UE : upd (word hash ++ c) (i - 4) x = upd (word hash) (i - 4) x ++ c).
      { clear - I4 I8. assert (J : (i - 4 < 4)%nat) by lia. generalize dependent (i - 4)%nat. intros j J. unfold word. do 4 (destruct j as [|j]; [reflexivity|]). lia. }
      assert (BU : bytes_ok (upd (word hash) (i - 4) x)) by (apply Forall_upd; [apply word_bytes|exact X]).
      destruct (le_of_bytes _ BU) as (LE & LB). rewrite upd_length, word_len in LE, LB. exists (of_le_bytes (upd (word hash) (i - 4) x)). unfold word at 2. rewrite LE. split; [exact UE|]. split; [|exact LB].
      unfold word at 1. rewrite LE. intros Q. destruct (upd_at (word hash) (i - 4) x y Y) as (Q1 & Q2). rewrite Q2 in Q. rewrite Q1 in Q at 3.
      apply app_inv_head in Q. injection Q as ->. apply NE. rewrite E. rewrite app_nth2 by (rewrite word_len; lia). rewrite word_len. rewrite app_nth1 by (rewrite word_len; lia). apply nth_error_nth. exact Y. }
    destruct EH as (h & EU & HN & HB). rewrite EU in E2. destruct (word_inj _ _ _ _ HB H2 E2) as (-> & Ec). apply HN. rewrite K1, K2, Ec. reflexivity.
  - (* the content *)
    rewrite upd_app_r in E2 by (rewrite word_len; lia). rewrite word_len in E2. destruct (word_inj _ _ _ _ H1 H2 E2) as (<- & E3).
    assert (LM : blen m = 8 + blen c) by (rewrite E, !blen_app, !blen_word; lia).
    apply (hash_byte_changed c (N.to_nat (size - 8)) (i - 4 - 4) x); auto.
    + lia.
    + unfold blen in *. lia.
    + intros Q. apply NE. rewrite E. rewrite app_nth2 by (rewrite word_len; lia). rewrite word_len. rewrite app_nth2 by (rewrite word_len; lia). rewrite word_len. exact Q.
    + rewrite E3. congruence.
Qed.
