(** Facts about the stripped key frame lookup. *)
From Coq Require Import Lia.
From Verif Require Import Word WordFacts BitSpec BitManip BitManipFacts SubTracksFacts Strip SeekSpec.
Local Open Scope N_scope.

Lemma shlw_ff k i : N.testbit (shlw 32 0xFFFFFFFF k) i = (i <? 32) && (k <=? i).
Proof.
  rewrite testbit_shlw, testbit_ff. destruct (N.ltb_spec i 32), (N.leb_spec k i); simpl; auto.
  apply N.ltb_lt. lia.
Qed.

Lemma closest_before_spec m k f : m < 2 ^ 32 -> k <= 31 -> f <= k -> present m f = true ->
  exists r, closest_before m k = Ok r /\ f <= r <= k /\ present m r = true /\ (forall j, r < j <= k -> present m j = false).
Proof.
  intros Hm Hk Hf Hp. unfold closest_before. destruct (N.ltb_spec 31 k); [lia |].
  set (c := N.land m (shlw 32 0xFFFFFFFF (31 - k))).
  assert (C32 : c < 2 ^ 32).
  { apply testbit_lt. intros i Hi. unfold c. rewrite N.land_spec, (testbit_high m 32 Hm i Hi). reflexivity. }
  assert (CB : forall i, N.testbit c i = N.testbit m i && (i <? 32) && (31 - k <=? i)).
  { intro i. unfold c. rewrite N.land_spec, shlw_ff, andb_assoc. reflexivity. }
  assert (C0 : c <> 0).
  { intro Z. assert (N.testbit c (31 - f) = false) by (rewrite Z; apply N.bits_0). rewrite CB in H0. unfold present in Hp. rewrite Hp in H0.
    destruct (N.ltb_spec (31 - f) 32); [| lia]. destruct (N.leb_spec (31 - k) (31 - f)); [discriminate | lia]. }
  destruct (lsb_exists c C0) as [i Hi]. rewrite (count_trailing_zeros_spec c i C32 Hi).
  destruct Hi as [Hi1 Hi2]. rewrite CB in Hi1. apply andb_true_iff in Hi1 as [Hi1 L1]. apply andb_true_iff in Hi1 as [Hi1 L2].
  apply N.leb_le in L1. apply N.ltb_lt in L2.
  exists (31 - i). rewrite subw_ge by (try reflexivity; lia). split; [reflexivity |].
  assert (NF : i <= 31 - f).
  { destruct (N.le_gt_cases i (31 - f)); auto. specialize (Hi2 (31 - f) ltac:(lia)). rewrite CB in Hi2. unfold present in Hp. rewrite Hp in Hi2.
    destruct (N.ltb_spec (31 - f) 32); [| lia]. destruct (N.leb_spec (31 - k) (31 - f)); [discriminate | lia]. }
  split; [lia |]. unfold present. split; [replace (31 - (31 - i)) with i by lia; auto |].
  intros j Hj. specialize (Hi2 (31 - j) ltac:(lia)). rewrite CB in Hi2.
  destruct (N.ltb_spec (31 - j) 32); [| lia]. destruct (N.leb_spec (31 - k) (31 - j)); [| lia].
  rewrite !andb_true_r in Hi2. exact Hi2.
Qed.

Lemma closest_after_spec m k f : m < 2 ^ 32 -> k <= f -> f <= 31 -> present m f = true ->
  exists r, closest_after m k = Ok r /\ k <= r <= f /\ present m r = true /\ (forall j, k <= j < r -> present m j = false).
Proof.
  intros Hm Hk Hf Hp. unfold closest_after. destruct (N.ltb_spec 31 k); [lia |].
  set (c := N.land m (N.shiftr 0xFFFFFFFF k)).
  assert (CB : forall i, N.testbit c i = N.testbit m i && (i + k <? 32)).
  { intro i. unfold c. rewrite N.land_spec, testbit_shiftr, testbit_ff. reflexivity. }
  assert (C32 : c < 2 ^ 32).
  { apply testbit_lt. intros i Hi. rewrite CB, (testbit_high m 32 Hm i Hi). reflexivity. }
  unfold present in *.
  assert (CF : N.testbit c (31 - f) = true).
  { rewrite CB, Hp. apply N.ltb_lt. lia. }
  assert (C0 : c <> 0) by (intro Z; rewrite Z, N.bits_0 in CF; discriminate).
  pose proof (is_msb_log2 c C0) as Hi. set (i := N.log2 c) in *. rewrite (count_leading_zeros_spec c i C32 Hi).
  destruct Hi as [Hi1 Hi2]. pose proof Hi1 as Hi1'. rewrite CB in Hi1. apply andb_true_iff in Hi1 as [Hi1 L1]. apply N.ltb_lt in L1.
  exists (31 - i). split; [reflexivity |].
  assert (NF : 31 - f <= i).
  { destruct (N.le_gt_cases (31 - f) i); auto. rewrite Hi2 in CF by auto. discriminate. }
  split; [lia |]. split; [replace (31 - (31 - i)) with i by lia; auto |].
  intros j Hj. specialize (Hi2 (31 - j) ltac:(lia)). rewrite CB in Hi2.
  destruct (N.ltb_spec (31 - j + k) 32); [| lia]. rewrite andb_true_r in Hi2. exact Hi2.
Qed.

(** rank *)
Definition count_below (m k : N) : N := N.of_nat (length (filter (present m) (map N.of_nat (seq 0 (N.to_nat k))))).

Lemma rev_count (g : nat -> bool) n : length (filter (fun b => g (n - 1 - b)%nat) (seq 0 n)) = length (filter g (seq 0 n)).
Proof.
  revert g. induction n; intro g; [reflexivity |].
  replace (seq 0 (S n)) with ([0]%nat ++ map S (seq 0 n)) at 1 by (rewrite seq_shift; reflexivity).
  rewrite seq_S, !filter_app, !app_length, filter_map_S, map_length.
  rewrite (filter_ext_in (fun x => g (S n - 1 - S x)%nat) (fun b => g (n - 1 - b)%nat)).
  - rewrite IHn. rewrite Nat.add_comm. f_equal. rewrite Nat.add_0_l. cbn [filter]. replace (S n - 1 - 0)%nat with n by lia. destruct (g n); reflexivity.
  - intros b Hb. f_equal. lia.
Qed.

Lemma stored_rank_spec m k : m < 2 ^ 32 -> k <= 31 -> stored_rank m k = Ok (count_below m k).
Proof.
  intros Hm Hk. unfold stored_rank. destruct (N.ltb_spec 31 k); [lia |]. f_equal.
  assert (S32 : N.shiftr 0xFFFFFFFF k < 2 ^ 32).
  { apply testbit_lt. intros i Hi. rewrite testbit_shiftr, testbit_ff. apply N.ltb_ge. lia. }
  rewrite count_set_bits32_spec by (apply and_not_lt; auto). unfold num_set_bits, count_below. f_equal.
  rewrite filter_map_S, map_length.
  rewrite (filter_ext_in _ (fun b => (fun j => (N.of_nat j <? k) && present m (N.of_nat j)) (32 - 1 - b)%nat)).
  - rewrite (rev_count (fun j => (N.of_nat j <? k) && present m (N.of_nat j)) 32).
    replace 32%nat with (N.to_nat k + (32 - N.to_nat k))%nat by lia. rewrite seq_app, filter_app, app_length.
    rewrite (filter_ext_in _ (fun j => present m (N.of_nat j)) (seq 0 (N.to_nat k))).
    + rewrite (filter_ext_in _ (fun _ => false) (seq (0 + N.to_nat k) _)).
      * assert (Z : forall q : list nat, filter (fun _ => false) q = []) by (induction q; auto). rewrite Z. simpl. lia.
      * intros j Hj. apply in_seq in Hj. destruct (N.ltb_spec (N.of_nat j) k); [lia | reflexivity].
    + intros j Hj. apply in_seq in Hj. destruct (N.ltb_spec (N.of_nat j) k); [reflexivity | lia].
  - intros b Hb. apply in_seq in Hb. rewrite testbit_and_not by auto. rewrite testbit_shiftr, testbit_ff. unfold present.
    replace (31 - N.of_nat (32 - 1 - b)) with (N.of_nat b) by lia.
    f_equal. destruct (N.ltb_spec (N.of_nat b + k) 32), (N.ltb_spec (N.of_nat (32 - 1 - b)) k); try reflexivity; lia.
Qed.

Lemma nth_filter_rank (g : nat -> bool) n k : (k < n)%nat -> g k = true ->
  nth_error (filter g (seq 0 n)) (length (filter g (seq 0 k))) = Some k.
Proof.
  intros Hk Hg. replace n with (k + S (n - k - 1))%nat by lia. rewrite seq_app, filter_app.
  rewrite nth_error_app2, Nat.sub_diag by lia. simpl. rewrite Hg. reflexivity.
Qed.

(** a stored key frame is at its rank in storage order *)
Lemma rank_finds m k : m < 2 ^ 32 -> k <= 31 -> present m k = true ->
  exists r, stored_rank m k = Ok r /\ nth_error (stored_frames m) (N.to_nat r) = Some k.
Proof.
  intros Hm Hk Hp. exists (count_below m k). split; [apply stored_rank_spec; auto |].
  unfold stored_frames, count_below. rewrite Nat2N.id, !filter_map_S, !map_length.
  pose proof (nth_filter_rank (fun j => present m (N.of_nat j)) 32 (N.to_nat k)) as R.
  cbv beta in R. rewrite N2Nat.id in R. specialize (R ltac:(lia) Hp).
  rewrite (map_nth_error _ _ _ R). now rewrite N2Nat.id.
Qed.

Lemma wrap_present m f : f <= 31 -> present (wrapw 32 m) f = N.testbit m (31 - f).
Proof. intros Hf. unfold present. rewrite testbit_wrapw. assert ((31 - f <? 32) = true) as -> by (apply N.ltb_lt; lia). reflexivity. Qed.

Lemma available_present s f : f <= 31 -> present (available_indices s) f =
  present (clip_indices s) f || N.testbit (medium_metadata s) (31 - f) || N.testbit (low_metadata s) (31 - f).
Proof. intros Hf. unfold present, available_indices. rewrite !N.lor_spec. fold (present (wrapw 32 (medium_metadata s)) f) (present (wrapw 32 (low_metadata s)) f). now rewrite !wrap_present. Qed.

Lemma available_lt s : samples_ok s -> available_indices s < 2 ^ 32.
Proof.
  intros (H & _). apply testbit_lt. intros i Hi. unfold available_indices. rewrite !N.lor_spec, !testbit_wrapw, (testbit_high _ 32 H i Hi).
  destruct (N.ltb_spec i 32); [lia | reflexivity].
Qed.

Lemma locate_spec s f : samples_ok s -> f <= 31 -> present (available_indices s) f = true ->
  exists src r, locate s f = Ok (src, r) /\ source_offset_ok s src /\
    nth_error (stored_frames (source_indices s src)) (N.to_nat r) = Some f.
Proof.
  intros (H1 & H2 & H3) Hf Ha. rewrite available_present in Ha by auto. unfold locate.
  destruct (N.ltb_spec 31 f); [lia |]. rewrite N.shiftl_1_l, !land_pow2_test.
  destruct (N.testbit (medium_metadata s) (31 - f)) eqn:M.
  - destruct (rank_finds (wrapw 32 (medium_metadata s)) f) as (r & R1 & R2); [apply wrapw_lt | auto | now rewrite wrap_present |].
    rewrite R1. cbn [bindo]. exists (from_medium (N.shiftr (medium_metadata s) 32)), r. split; [reflexivity |]. split; [apply N.shiftr_div_pow2 | exact R2].
  - destruct (N.testbit (low_metadata s) (31 - f)) eqn:L.
    + destruct (rank_finds (wrapw 32 (low_metadata s)) f) as (r & R1 & R2); [apply wrapw_lt | auto | now rewrite wrap_present |].
      rewrite R1. cbn [bindo]. exists (from_low (N.shiftr (low_metadata s) 32)), r. split; [reflexivity |]. split; [apply N.shiftr_div_pow2 | exact R2].
    + rewrite !orb_false_r in Ha. destruct (rank_finds (clip_indices s) f) as (r & R1 & R2); auto.
      rewrite R1. cbn [bindo]. exists from_clip, r. split; [reflexivity |]. split; [exact I | exact R2].
Qed.
