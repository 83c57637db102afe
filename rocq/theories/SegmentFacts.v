(** Facts about segmenting. *)
From Coq Require Import Lia.
From Verif Require Import Word WordFacts Segment SeekSpec.

Lemma sumN_app a b : sumN (a ++ b) = sumN a + sumN b.
Proof. induction a; simpl; lia. Qed.
Lemma sumN_repeat x n : sumN (repeat x n) = x * N.of_nat n.
Proof. induction n; simpl repeat; simpl sumN; [lia | rewrite IHn; lia]. Qed.
Lemma repeat_snoc {A} (x : A) n : repeat x n ++ [x] = repeat x (S n).
Proof. induction n; simpl; auto. now rewrite IHn. Qed.

(** sizes b+1 for the first r segments, b for the others *)
Definition balanced (b : N) (r m : nat) : list N := repeat (b + 1) r ++ repeat b (m - r).

Lemma distribute_zero l : distribute l 0 = (l, 0).
Proof. destruct l; reflexivity. Qed.

Lemma distribute_repeat b m : forall left, b + 1 < 2 ^ 32 ->
  distribute (repeat b m) left =
  if left <? N.of_nat m then (balanced b (N.to_nat left) m, 0) else (repeat (b + 1) m, left - N.of_nat m).
Proof.
  induction m; intros left Hb.
  - simpl. destruct left; reflexivity.
  - simpl repeat. cbn [distribute]. destruct (N.eqb_spec left 0) as [-> | Hl].
    + assert (L : (0 <? N.of_nat (S m)) = true) by (apply N.ltb_lt; lia). rewrite L.
      unfold balanced. simpl N.to_nat. rewrite Nat.sub_0_r. reflexivity.
    + rewrite IHm by auto. rewrite addw_small by auto.
      destruct (N.ltb_spec (left - 1) (N.of_nat m)), (N.ltb_spec left (N.of_nat (S m))); try lia.
      * f_equal. unfold balanced. replace (N.to_nat left) with (S (N.to_nat (left - 1))) by lia.
        cbn [repeat app]. f_equal.
      * simpl repeat. f_equal. lia.
Qed.

Lemma rebalance_repeat m : forall fuel b left, (0 < m)%nat -> (N.to_nat left <= fuel)%nat ->
  b + left + 1 < 2 ^ 32 ->
  rebalance fuel (repeat b m) left =
  Ok (balanced (b + left / N.of_nat m) (N.to_nat (left mod N.of_nat m)) m).
Proof.
  induction fuel; intros b left Hm Hf Hb.
  - assert (left = 0) as -> by lia. simpl rebalance. rewrite N.div_0_l, N.mod_0_l by lia.
    unfold balanced. simpl. rewrite Nat.sub_0_r, N.add_0_r. reflexivity.
  - cbn [rebalance]. destruct (N.eqb_spec left 0) as [-> | Hl].
    + rewrite N.div_0_l, N.mod_0_l by lia. unfold balanced. simpl. rewrite Nat.sub_0_r, N.add_0_r. reflexivity.
    + rewrite distribute_repeat by lia.
      destruct (N.ltb_spec left (N.of_nat m)) as [L | L].
      * rewrite N.div_small, N.mod_small by auto. rewrite N.add_0_r.
        destruct fuel; reflexivity.
      * rewrite IHfuel by lia. f_equal.
        assert (D : left = 1 * N.of_nat m + (left - N.of_nat m)) by lia.
        rewrite D at 3 4. rewrite N.div_add_l by lia.
        rewrite (N.add_comm (1 * N.of_nat m)), N.mod_add by lia.
        f_equal. lia.
Qed.

(** closed form of the split *)
Lemma split_closed n ideal max : 1 <= ideal <= max -> max < n -> n + ideal <= 2 ^ 32 ->
  exists m last, (1 <= m)%nat /\ 1 <= last <= ideal /\ n = N.of_nat m * ideal + last /\
    split_samples_per_segment n ideal max =
      if last <=? mulw 32 (N.of_nat m) (max - ideal)
      then Ok (balanced (ideal + last / N.of_nat m) (N.to_nat (last mod N.of_nat m)) m)
      else Ok (repeat ideal m ++ [last]).
Proof.
  intros Hi Hn Ho. unfold split_samples_per_segment.
  destruct (N.leb_spec n max); [lia |]. destruct (N.eqb_spec ideal 0); [lia |].
  set (est := (n + ideal - 1) / ideal).
  assert (E1 : subw 32 (addw 32 n ideal) 1 / ideal = est).
  { unfold est. f_equal. destruct (N.eq_dec (n + ideal) (2 ^ 32)) as [E | E].
    - unfold addw. rewrite E, N.mod_same by (apply pow2_nz).
      change (subw 32 0 1) with (2 ^ 32 - 1). lia.
    - rewrite addw_small by lia. rewrite subw_ge; lia. }
  rewrite E1.
  pose proof (N.div_mod (n + ideal - 1) ideal ltac:(lia)) as DM. fold est in DM.
  pose proof (N.mod_lt (n + ideal - 1) ideal ltac:(lia)) as ML.
  set (rm := (n + ideal - 1) mod ideal) in *.
  assert (Eb : 2 <= est).
  { assert (~ est <= 1); [| lia]. intro. assert (ideal * est <= ideal * 1) by (apply N.mul_le_mono_l; auto). lia. }
  rewrite (N.mul_comm ideal est) in DM.
  assert (P1 : est * ideal = (est - 1) * ideal + ideal).
  { replace est with (est - 1 + 1) at 1 by lia. rewrite N.mul_add_distr_r. lia. }
  rewrite (mulw_small 32 est ideal) by lia.
  rewrite (subw_ge 32 (est * ideal) n) by lia.
  set (last := ideal - (est * ideal - n)).
  assert (L1 : 1 <= last <= ideal) by (unfold last; lia).
  rewrite (subw_ge 32 ideal (est * ideal - n)) by lia.
  fold last.
  rewrite (subw_ge 32 max ideal) by lia.
  set (m := N.to_nat (est - 1)).
  assert (M1 : N.of_nat m = est - 1) by (unfold m; lia).
  exists m, last.
  split; [lia |]. split; [exact L1 |]. split; [rewrite M1; unfold last; lia |].
  rewrite <- M1. destruct (N.leb_spec last (mulw 32 (N.of_nat m) (max - ideal))); auto.
  rewrite rebalance_repeat; auto; lia.
Qed.

Lemma mulw_le w a b : mulw w a b <= a * b.
Proof. apply N.mod_le. apply pow2_nz. Qed.

Lemma balanced_sum b r m : (r <= m)%nat -> sumN (balanced b r m) = b * N.of_nat m + N.of_nat r.
Proof.
  intros. unfold balanced. rewrite sumN_app, !sumN_repeat. replace (N.of_nat m) with (N.of_nat r + N.of_nat (m - r)) by lia.
  rewrite N.mul_add_distr_r, N.mul_add_distr_l. lia.
Qed.

Lemma balanced_length b r m : (r <= m)%nat -> length (balanced b r m) = m.
Proof. intros. unfold balanced. rewrite app_length, !repeat_length. lia. Qed.

Lemma balanced_bounds b r m lo hi : lo <= b -> b + (if (0 <? r)%nat then 1 else 0) <= hi ->
  Forall (fun s => lo <= s <= hi) (balanced b r m).
Proof.
  intros Hl Hh. unfold balanced. apply Forall_app. split; apply Forall_forall; intros x Hx; apply repeat_spec in Hx as E; subst x.
  - destruct r; [destruct Hx |]. simpl in Hh. lia.
  - destruct (0 <? r)%nat; lia.
Qed.

Theorem split_partition n ideal max : 1 <= ideal <= max -> max < 2 ^ 32 -> n + ideal <= 2 ^ 32 ->
  exists sizes, split_samples_per_segment n ideal max = Ok sizes /\
    (n <= max -> sizes = []) /\
    (max < n -> sumN sizes = n /\ Forall (fun s => 1 <= s <= max) sizes /\ (2 <= length sizes)%nat).
Proof.
  intros Hi Hm Ho. destruct (N.le_gt_cases n max) as [C | C].
  { exists []. split; [| split; [auto | lia]]. unfold split_samples_per_segment.
    destruct (N.leb_spec n max); [reflexivity | lia]. }
  destruct (split_closed n ideal max Hi C Ho) as (m & last & M1 & L1 & E & S).
  destruct (N.leb_spec last (mulw 32 (N.of_nat m) (max - ideal))) as [B | B]; eexists; (split; [exact S |]); (split; [lia |]); intros _.
  - assert (B' : last <= N.of_nat m * (max - ideal)) by (eapply N.le_trans; [exact B | apply mulw_le]).
    pose proof (N.div_mod last (N.of_nat m) ltac:(lia)) as DM.
    pose proof (N.mod_lt last (N.of_nat m) ltac:(lia)) as ML.
    assert (R : (N.to_nat (last mod N.of_nat m) <= m)%nat) by lia.
    split; [| split].
    + rewrite balanced_sum by auto. rewrite N2Nat.id, N.mul_add_distr_r, (N.mul_comm ideal), (N.mul_comm (last / _)). lia.
    + apply balanced_bounds; [apply N.le_trans with ideal; [lia | apply N.le_add_r] |].
      assert (Q : last / N.of_nat m <= max - ideal).
      { apply N.div_le_upper_bound; lia. }
      set (q := last / N.of_nat m) in *. set (r := last mod N.of_nat m) in *. clearbody q r.
      destruct (0 <? N.to_nat r)%nat eqn:Z; [| lia].
      apply Nat.ltb_lt in Z.
      assert (q < max - ideal); [| lia].
      assert (~ max - ideal <= q); [| lia]. intro K.
      assert (N.of_nat m * (max - ideal) <= N.of_nat m * q) by (apply N.mul_le_mono_l; auto). lia.
    + rewrite balanced_length by auto.
      assert (~ (m = 1)%nat); [| lia]. intros ->. change (N.of_nat 1) with 1 in *. lia.
  - split; [| split].
    + rewrite sumN_app, sumN_repeat. simpl sumN. rewrite (N.mul_comm ideal). lia.
    + apply Forall_app. split; [apply Forall_forall; intros x Hx; apply repeat_spec in Hx; subst; lia | constructor; [lia | constructor]].
    + rewrite app_length, repeat_length. simpl. lia.
Qed.

(** offsets are prefix sums *)
Lemma segment_offsets_nth sizes : forall start i, start + sumN sizes < 2 ^ 32 -> (i < length sizes)%nat ->
  nth_error (segment_offsets start sizes) i = Some (start + sumN (firstn i sizes)).
Proof.
  induction sizes; intros start i Hs Hi; simpl in *; [lia |].
  destruct i; simpl; [f_equal; lia |].
  rewrite addw_small by lia. rewrite IHsizes by lia. f_equal. lia.
Qed.

Lemma segment_offsets_length sizes : forall start, length (segment_offsets start sizes) = length sizes.
Proof. induction sizes; simpl; auto. Qed.

(** every sample is in exactly one segment *)
Lemma sumN_firstn_le l : forall i j, (i <= j)%nat -> sumN (firstn i l) <= sumN (firstn j l).
Proof.
  induction l; intros i j H; destruct i, j; simpl; try lia. specialize (IHl i j). lia.
Qed.

Lemma sumN_firstn_S l i : (i < length l)%nat -> sumN (firstn (S i) l) = sumN (firstn i l) + nth i l 0.
Proof.
  revert i. induction l; intros i H; simpl in *; [lia |].
  destruct i; [simpl; lia |]. simpl nth. rewrite !firstn_cons. simpl sumN. rewrite IHl by lia. lia.
Qed.

Lemma cover_exists l : forall k, k < sumN l ->
  exists i, (i < length l)%nat /\ sumN (firstn i l) <= k < sumN (firstn i l) + nth i l 0.
Proof.
  induction l; intros k H; simpl in *; [lia |].
  destruct (N.lt_ge_cases k a) as [C | C].
  - exists 0%nat. simpl. lia.
  - destruct (IHl (k - a)) as (i & I1 & I2); [lia |].
    exists (S i). simpl. lia.
Qed.

Lemma cover_unique l i j k : (i < length l)%nat -> (j < length l)%nat ->
  sumN (firstn i l) <= k < sumN (firstn i l) + nth i l 0 ->
  sumN (firstn j l) <= k < sumN (firstn j l) + nth j l 0 -> i = j.
Proof.
  intros Hi Hj A B. destruct (Nat.lt_trichotomy i j) as [C | [C | C]]; auto.
  - pose proof (sumN_firstn_le l (S i) j C). rewrite sumN_firstn_S in H by auto. lia.
  - pose proof (sumN_firstn_le l (S j) i C). rewrite sumN_firstn_S in H by auto. lia.
Qed.

(** segment search: any layout whose average is a good estimate *)
Lemma start_at_ok sizes i : sumN sizes < 2 ^ 32 - 1 -> (i < length sizes)%nat ->
  start_at (segment_start_indices sizes) (N.of_nat i) = Ok (sumN (firstn i sizes)).
Proof.
  intros Hs Hi. unfold start_at, segment_start_indices. rewrite Nat2N.id.
  rewrite nth_error_app1 by (rewrite segment_offsets_length; auto).
  rewrite segment_offsets_nth; auto. lia.
Qed.

Lemma start_at_sentinel sizes : start_at (segment_start_indices sizes) (N.of_nat (length sizes)) = Ok 0xFFFFFFFF.
Proof.
  unfold start_at, segment_start_indices. rewrite Nat2N.id.
  rewrite nth_error_app2 by (rewrite segment_offsets_length; auto).
  rewrite segment_offsets_length, Nat.sub_diag. reflexivity.
Qed.

(** position i is at or before the segment of k: the loop walks to the next start *)
Lemma search_walks wrapping sizes s k0 k1 : sumN sizes < 2 ^ 32 - 1 -> (s < length sizes)%nat -> k0 < 2 ^ 32 - 1 ->
  sumN (firstn s sizes) <= k0 < sumN (firstn s sizes) + nth s sizes 0 ->
  forall n i, (i <= s)%nat -> (s + 1 < i + n)%nat ->
  search_segments n wrapping (segment_start_indices sizes) (N.of_nat i) k0 k1 =
  search_segments (n - (s + 1 - i)) wrapping (segment_start_indices sizes) (N.of_nat (s + 1)) k0 k1.
Proof.
  intros Hs Hl Hk0 Hk. intros n i. remember (s + 1 - i)%nat as d eqn:Ed. revert n i Ed.
  induction d; intros n i Ed Hi Hn; [lia |].
  destruct n; [lia |]. simpl Nat.sub. cbn [search_segments].
  rewrite start_at_ok by lia. cbn [bindo].
  pose proof (sumN_firstn_le sizes i s Hi).
  destruct (N.ltb_spec k0 (sumN (firstn i sizes))); [lia |].
  replace (N.of_nat i + 1) with (N.of_nat (i + 1)) by lia.
  destruct (Nat.eq_dec i s) as [-> | NE].
  - f_equal. lia.
  - apply IHd; lia.
Qed.

Lemma search_found wrapping sizes s k0 k1 n : sumN sizes < 2 ^ 32 - 1 -> (s < length sizes)%nat -> N.of_nat (length sizes) < 2 ^ 30 -> k0 < 2 ^ 32 - 1 ->
  sumN (firstn s sizes) <= k0 < sumN (firstn s sizes) + nth s sizes 0 ->
  search_segments (S n) wrapping (segment_start_indices sizes) (N.of_nat (s + 1)) k0 k1 =
  Ok (N.of_nat s,
      if wrapping && (k1 =? 0) then 0
      else if k1 <? (if (s + 1 <? length sizes)%nat then sumN (firstn (s + 1) sizes) else 0xFFFFFFFF)
           then N.of_nat s else N.of_nat (s + 1)).
Proof.
  intros Hs Hl Hll Hk0 Hk. cbn [search_segments].
  assert (L32 : N.of_nat (s + 1) < 2 ^ 32).
  { lia. }
  assert (SW : subw 32 (N.of_nat (s + 1)) 1 = N.of_nat s) by (rewrite subw_ge; lia).
  destruct (Nat.ltb_spec (s + 1) (length sizes)) as [C | C].
  - rewrite start_at_ok by auto. cbn [bindo].
    rewrite Nat.add_1_r, sumN_firstn_S by auto.
    destruct (N.ltb_spec k0 (sumN (firstn s sizes) + nth s sizes 0)); [| lia].
    rewrite Nat.add_1_r in SW. rewrite SW. reflexivity.
  - replace (s + 1)%nat with (length sizes) in * by lia.
    rewrite start_at_sentinel. cbn [bindo].
    destruct (N.ltb_spec k0 0xFFFFFFFF); [| lia]. rewrite SW. reflexivity.
Qed.

(** prefix sums of the balanced layout *)
Lemma firstn_repeat {A} (x : A) : forall n i, firstn i (repeat x n) = repeat x (Nat.min i n).
Proof. induction n; intros [| i]; simpl; auto. now rewrite IHn. Qed.

Lemma balanced_prefix b r m j : (r <= m)%nat -> (j <= m)%nat ->
  sumN (firstn j (balanced b r m)) = b * N.of_nat j + N.of_nat (Nat.min j r).
Proof.
  intros Hr Hj. unfold balanced. rewrite firstn_app, repeat_length, !firstn_repeat, sumN_app, !sumN_repeat.
  destruct (Nat.le_gt_cases j r).
  - rewrite !(Nat.min_l j r) by auto. replace (j - r)%nat with 0%nat by lia. simpl Nat.min. change (N.of_nat 0) with 0. lia.
  - rewrite !(Nat.min_r j r) by lia. rewrite (Nat.min_l (j - r)) by lia.
    replace (N.of_nat j) with (N.of_nat r + N.of_nat (j - r)) by lia. rewrite !N.mul_add_distr_l, N.mul_add_distr_r. lia.
Qed.

(** the walk from a start at most two segments early *)
Lemma find_segments_from wrapping sizes n s k0 k1 t :
  sumN sizes = n -> n < 2 ^ 30 -> N.of_nat (length sizes) < 2 ^ 30 -> (s < length sizes)%nat ->
  sumN (firstn s sizes) <= k0 < sumN (firstn s sizes) + nth s sizes 0 ->
  (t <= s)%nat -> (s <= t + 2)%nat ->
  Forall (fun x => 1 <= x) sizes ->
  k1 < n -> (k1 = k0 \/ k1 = k0 + 1 \/ (wrapping = true /\ k1 = 0)) ->
  exists s1, (s1 < length sizes)%nat /\
    sumN (firstn s1 sizes) <= k1 < sumN (firstn s1 sizes) + nth s1 sizes 0 /\
    search_segments 4 wrapping (segment_start_indices sizes) (N.of_nat t) k0 k1 = Ok (N.of_nat s, N.of_nat s1).
Proof.
  intros Hsum Hn Hlen Hs Hk Ht1 Ht2 Hpos Hk1 Hk1'.
  assert (K0 : k0 < 2 ^ 32 - 1).
  { pose proof (sumN_firstn_le sizes (S s) (length sizes) Hs) as L. rewrite firstn_all, sumN_firstn_S in L by auto. lia. }
  rewrite (search_walks wrapping sizes s k0 k1) by (auto; lia).
  destruct (4 - (s + 1 - t))%nat as [| f] eqn:F; [lia |].
  rewrite search_found by (auto; lia).
  assert (P : forall j, (j < length sizes)%nat -> 1 <= nth j sizes 0).
  { intros j Hj. rewrite Forall_forall in Hpos. apply Hpos. apply nth_In; auto. }
  destruct (wrapping && (k1 =? 0)) eqn:W.
  - apply andb_true_iff in W as [W1 W2]. apply N.eqb_eq in W2.
    exists 0%nat. split; [lia |]. split; [| reflexivity]. simpl. specialize (P 0%nat ltac:(lia)). lia.
  - assert (k1 = k0 \/ k1 = k0 + 1) as Hk1''.
    { destruct Hk1' as [? | [? | [-> ->]]]; auto. simpl in W. discriminate. }
    destruct (Nat.ltb_spec (s + 1) (length sizes)) as [C | C].
    + pose proof (sumN_firstn_S sizes s Hs) as FS. rewrite <- Nat.add_1_r in FS. rewrite FS.
      destruct (N.ltb_spec k1 (sumN (firstn s sizes) + nth s sizes 0)) as [L | L].
      * exists s. split; [auto |]. split; [lia | reflexivity].
      * exists (s + 1)%nat. split; [auto |]. split; [| reflexivity]. rewrite FS. specialize (P (s + 1)%nat C). lia.
    + destruct (N.ltb_spec k1 0xFFFFFFFF); [| lia].
      exists s. split; [auto |]. split; [| reflexivity].
      assert (Q : sumN sizes = sumN (firstn s sizes) + nth s sizes 0).
      { rewrite <- (sumN_firstn_S sizes s Hs). rewrite firstn_all2 by lia. reflexivity. }
      lia.
Qed.

Lemma find_segments_ok wrapping sizes n s k0 k1 a :
  sumN sizes = n -> n < 2 ^ 30 -> N.of_nat (length sizes) < 2 ^ 30 -> (s < length sizes)%nat ->
  sumN (firstn s sizes) <= k0 < sumN (firstn s sizes) + nth s sizes 0 ->
  Forall (fun x => 1 <= x) sizes ->
  k1 < n -> (k1 = k0 \/ k1 = k0 + 1 \/ (wrapping = true /\ k1 = 0)) ->
  n / N.of_nat (length sizes) = a -> 1 <= a -> k0 / a = N.of_nat s \/ k0 / a = N.of_nat (s + 1) ->
  exists s1 f0 f1,
    find_segments wrapping n (N.of_nat (length sizes)) (segment_start_indices sizes) k0 k1
      = Ok (N.of_nat s, f0, N.of_nat s1, f1) /\
    (s1 < length sizes)%nat /\
    f0 < nth s sizes 0 /\ sumN (firstn s sizes) + f0 = k0 /\
    f1 < nth s1 sizes 0 /\ sumN (firstn s1 sizes) + f1 = k1.
Proof.
  intros Hsum Hn Hlen Hs Hk Hpos Hk1 Hk1' Ha Ha1 Happ.
  assert (K0 : k0 < n).
  { pose proof (sumN_firstn_le sizes (S s) (length sizes) Hs) as L. rewrite firstn_all, sumN_firstn_S in L by auto. lia. }
  unfold find_segments. rewrite Ha. destruct (N.eqb_spec a 0); [lia |].
  set (i := k0 / a) in *. clearbody i.
  set (t := N.to_nat (if 0 <? i then i - 1 else 0)).
  assert (T : (if 0 <? i then i - 1 else 0) = N.of_nat t) by (unfold t; lia). rewrite T.
  assert (TS : (t <= s)%nat /\ (s <= t + 2)%nat).
  { unfold t. destruct (N.ltb_spec 0 i); destruct Happ; lia. }
  destruct (find_segments_from wrapping sizes n s k0 k1 t) as (s1 & S1 & S2 & S3); auto; try tauto.
  rewrite S3. cbn [bindo]. rewrite !start_at_ok by (auto; lia). cbn [bindo].
  exists s1, (k0 - sumN (firstn s sizes)), (k1 - sumN (firstn s1 sizes)).
  rewrite !subw_ge by lia. split; [reflexivity |]. repeat split; try lia.
Qed.

Theorem seek_finds_segments wrapping n ideal max sizes k0 k1 :
  2 <= ideal -> ideal <= max -> 2 * ideal <= max + 1 -> max < n -> n < 2 ^ 30 ->
  n / ideal * (max - ideal) < 2 ^ 32 ->
  split_samples_per_segment n ideal max = Ok sizes ->
  k0 < n -> k1 < n -> (k1 = k0 \/ k1 = k0 + 1 \/ (wrapping = true /\ k1 = 0)) ->
  exists s0 s1 f0 f1,
    find_segments wrapping n (N.of_nat (length sizes)) (segment_start_indices sizes) k0 k1
      = Ok (N.of_nat s0, f0, N.of_nat s1, f1) /\
    (s0 < length sizes)%nat /\ (s1 < length sizes)%nat /\
    f0 < nth s0 sizes 0 /\ sumN (firstn s0 sizes) + f0 = k0 /\
    f1 < nth s1 sizes 0 /\ sumN (firstn s1 sizes) + f1 = k1.
Proof.
  intros Hi Him Hmax Hn Hn30 Hov Hsplit Hk0 Hk1 Hk1'.
  destruct (split_partition n ideal max) as (sizes' & P1 & _ & P3); try lia.
  rewrite Hsplit in P1. injection P1 as <-. destruct (P3 Hn) as (Psum & Pfa & Plen). clear P3.
  assert (Ppos : Forall (fun x => 1 <= x) sizes) by (eapply Forall_impl; [| exact Pfa]; simpl; intros; lia).
  destruct (cover_exists sizes k0) as (s & S1 & S2); [lia |].
  destruct (split_closed n ideal max) as (m & last & M1 & L1 & E & S); try lia.
  assert (Mm : N.of_nat m <= n / ideal).
  { apply N.div_le_lower_bound; lia. }
  assert (NoOv : N.of_nat m * (max - ideal) < 2 ^ 32).
  { eapply N.le_lt_trans; [apply N.mul_le_mono_r; exact Mm | exact Hov]. }
  rewrite mulw_small in S by auto.
  assert (Mn : N.of_nat m * 1 <= N.of_nat m * ideal) by (apply N.mul_le_mono_l; lia).
  assert (Llen : N.of_nat (length sizes) < 2 ^ 30 /\ exists a, n / N.of_nat (length sizes) = a /\ 1 <= a /\
                 (k0 / a = N.of_nat s \/ k0 / a = N.of_nat (s + 1))).
  { destruct (N.leb_spec last (N.of_nat m * (max - ideal))) as [B | B]; rewrite Hsplit in S; injection S as ->.
    - set (q := last / N.of_nat m) in *. set (r := last mod N.of_nat m) in *.
      pose proof (N.div_mod last (N.of_nat m) ltac:(lia)) as DM. fold q r in DM.
      pose proof (N.mod_lt last (N.of_nat m) ltac:(lia)) as ML. fold r in ML.
      assert (R : (N.to_nat r <= m)%nat) by lia.
      rewrite balanced_length in * by auto.
      split; [lia |]. exists (ideal + q). split; [| split; [lia |]].
      { symmetry. apply (N.div_unique n (N.of_nat m) (ideal + q) r); [auto |]. rewrite N.mul_add_distr_l. lia. }
      assert (S2' : (ideal + q) * N.of_nat s + N.of_nat (Nat.min s (N.to_nat r)) <= k0 <
                    (ideal + q) * N.of_nat (S s) + N.of_nat (Nat.min (S s) (N.to_nat r))).
      { pose proof (sumN_firstn_S (balanced (ideal + q) (N.to_nat r) m) s) as FS.
        rewrite balanced_length in FS by auto. rewrite <- FS in S2 by auto.
        rewrite !balanced_prefix in S2 by (auto; lia). lia. }
      assert (Rb : r <= ideal + q).
      { assert (r <= last) by (destruct (N.eq_dec q 0); [lia |]; assert (N.of_nat m * 1 <= N.of_nat m * q) by (apply N.mul_le_mono_l; lia); lia). lia. }
      clearbody q r.
      set (b := ideal + q) in *.
      assert (B1 : 1 <= b) by (unfold b; lia). clearbody b.
      pose proof (N.div_mod k0 b ltac:(lia)) as DK. pose proof (N.mod_lt k0 b ltac:(lia)) as MK.
      set (i := k0 / b) in *. set (x := k0 mod b) in *. clearbody i x.
      rewrite Nat2N.inj_succ, N.mul_succ_r in S2'.
      assert (C1 : N.of_nat s <= i).
      { destruct (N.le_gt_cases (N.of_nat s) i) as [| C]; auto. exfalso.
        assert (b * (i + 1) <= b * N.of_nat s) by (apply N.mul_le_mono_l; lia). rewrite N.mul_add_distr_l in *. lia. }
      assert (C2 : i <= N.of_nat (s + 1)).
      { destruct (N.le_gt_cases i (N.of_nat (s + 1))) as [| C]; auto. exfalso.
        assert (b * (N.of_nat s + 2) <= b * i) by (apply N.mul_le_mono_l; lia). rewrite N.mul_add_distr_l in *. lia. }
      lia.
    - assert (m = 1%nat) as ->.
      { destruct (Nat.eq_dec m 1); auto. exfalso.
        assert (2 * (max - ideal) <= N.of_nat m * (max - ideal)) by (apply N.mul_le_mono_r; lia). lia. }
      assert (last = ideal) as -> by lia.
      simpl repeat in *. simpl app in *. simpl length in *. change (N.of_nat 2) with 2.
      split; [lia |]. exists ideal.
      assert (En : n = 2 * ideal) by lia. split; [rewrite En; rewrite N.mul_comm, N.div_mul; lia |]. split; [lia |].
      left. symmetry.
      destruct s as [| [| s]]; simpl in S2; [| | lia].
      + apply (N.div_unique k0 ideal 0 k0); lia.
      + apply (N.div_unique k0 ideal 1 (k0 - ideal)); lia. }
  destruct Llen as (Ll & a & A1 & A2 & A3).
  destruct (find_segments_ok wrapping sizes n s k0 k1 a) as (s1 & f0 & f1 & F); auto.
  exists s, s1, f0, f1. tauto.
Qed.
