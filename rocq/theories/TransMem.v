(** Reading bytes that are known to be somewhere in memory. *)
From Coq Require Import Lia.
From Verif Require Import Word WordFacts Pieces Float32 Quant DbBuild ScalarDec SubTracks TransDec TransSpec TransRing.
Local Open Scope N_scope.
Ltac Zify.zify_post_hook ::= idtac.

Definition placed (m : list N) (off : N) (l : list N) : Prop :=
  forall k b, nth_error l k = Some b -> nth_error m (N.to_nat off + k) = Some b.
(** the bytes, and fifteen more that can be read (a clip ends with fifteen bytes of padding) *)
Definition padded (m : list N) (off : N) (l : list N) : Prop := placed m off l /\ off + blen l + 15 <= blen m.

Lemma placed_app m off a b : placed m off (a ++ b) <-> placed m off a /\ placed m (off + blen a) b.
Proof.
  unfold placed, blen. split.
  - intros H. split; intros k v Hk.
    + apply H. rewrite nth_error_app1; [exact Hk |]. apply nth_error_Some. congruence.
    + replace (N.to_nat (off + N.of_nat (length a)) + k)%nat with (N.to_nat off + (length a + k))%nat by lia. apply H.
      rewrite nth_error_app2 by lia. replace (length a + k - length a)%nat with k by lia. exact Hk.
  - intros [H1 H2] k v Hk. destruct (Nat.lt_ge_cases k (length a)).
    + rewrite nth_error_app1 in Hk by lia. apply H1, Hk.
    + rewrite nth_error_app2 in Hk by lia. apply H2 in Hk.
      replace (N.to_nat (off + N.of_nat (length a)) + (k - length a))%nat with (N.to_nat off + k)%nat in Hk by lia. exact Hk.
Qed.
Lemma padded_app m off a b : padded m off (a ++ b) -> padded m off a /\ padded m (off + blen a) b.
Proof. unfold padded. rewrite placed_app, blen_app. intros [[H1 H2] H3]. repeat split; auto; lia. Qed.
Lemma placed_mid pre l post : placed (pre ++ l ++ post) (blen pre) l.
Proof.
  intros k b H. unfold blen. rewrite Nnat.Nat2N.id. rewrite nth_error_mid; [exact H |]. apply nth_error_Some. congruence.
Qed.

Lemma load8_placed m off l k b : placed m off l -> nth_error l (N.to_nat k) = Some b -> load8 m (off + k) = Ok b.
Proof.
  intros P H. apply P in H. unfold load8. replace (N.to_nat (off + k)) with (N.to_nat off + N.to_nat k)%nat by lia. rewrite H. reflexivity.
Qed.
Lemma nth_error_firstn {A} (l : list A) n k : (k < n)%nat -> nth_error (firstn n l) k = nth_error l k.
Proof.
  intros H. destruct (Nat.lt_ge_cases k (length l)) as [Hl | Hl].
  - rewrite <- (firstn_skipn n l) at 2. rewrite nth_error_app1; [reflexivity |]. rewrite firstn_length. lia.
  - rewrite (proj2 (nth_error_None l k)) by lia. apply nth_error_None. rewrite firstn_length. lia.
Qed.
Lemma nth_error_skipn {A} (l : list A) n k : nth_error (skipn n l) k = nth_error l (n + k).
Proof. revert l. induction n as [| n IH]; intros l; [reflexivity |]. destruct l; [destruct k; reflexivity |]. apply IH. Qed.
Lemma list_ext {A} (a b : list A) : (forall k, nth_error a k = nth_error b k) -> a = b.
Proof.
  revert b. induction a as [| x a IH]; intros b H.
  - destruct b; [reflexivity |]. specialize (H 0%nat). discriminate.
  - destruct b as [| y b]; [specialize (H 0%nat); discriminate |]. f_equal; [specialize (H 0%nat); cbn in H; congruence |].
    apply IH. intros k. exact (H (S k)).
Qed.
Lemma load_bytes_placed m off l n : placed m off l -> (length l <= n)%nat -> off + N.of_nat n <= blen m ->
  exists r, load_bytes m off n = Ok (l ++ r) /\ (length l + length r)%nat = n.
Proof.
  intros P Hn Hm. rewrite load_bytes_ok by assumption. set (r := firstn n (skipn (N.to_nat off) m)).
  assert (Hr : length r = n). { unfold r. rewrite firstn_length, skipn_length. unfold blen in Hm. lia. }
  exists (skipn (length l) r). split; [| rewrite skipn_length; lia]. f_equal.
  rewrite <- (firstn_skipn (length l) r) at 1. f_equal. apply list_ext. intros k.
  destruct (Nat.lt_ge_cases k (length l)) as [Hk | Hk].
  - rewrite nth_error_firstn by lia. unfold r. rewrite nth_error_firstn, nth_error_skipn by lia.
    destruct (nth_error l k) as [b |] eqn:E; [apply P, E |]. apply nth_error_None in E. lia.
  - rewrite (proj2 (nth_error_None l k)) by lia. apply nth_error_None. rewrite firstn_length. lia.
Qed.
Lemma read32_placed m off w : placed m off (le_bytes 4 w) -> off + 4 <= blen m -> w < 2 ^ 32 -> read32 m off = Ok w.
Proof.
  intros P Hm Hw. unfold read32, load_le. destruct (load_bytes_placed m off (le_bytes 4 w) 4 P) as (r & -> & Hr); [rewrite le_bytes_length; lia | exact Hm |].
  rewrite le_bytes_length in Hr. destruct r; [| cbn in Hr; lia]. rewrite app_nil_r. cbn [bindo]. rewrite of_le_bytes_le_bytes; [reflexivity | exact Hw].
Qed.

Lemma word_bytes_cons w ws : word_bytes (w :: ws) = le_bytes 4 w ++ word_bytes ws.
Proof. reflexivity. Qed.
Lemma word_bytes_len ws : length (word_bytes ws) = (4 * length ws)%nat.
Proof. induction ws as [| w ws IH]; [reflexivity |]. rewrite word_bytes_cons, app_length, le_bytes_length, IH. cbn [length]. lia. Qed.
Lemma word_bytes_blen ws : blen (word_bytes ws) = 4 * N.of_nat (length ws).
Proof. unfold blen. rewrite word_bytes_len. lia. Qed.

Lemma floats_words k ws r : Forall (fun w => w < 2 ^ 32) ws -> (length ws <= k)%nat ->
  floats k (word_bytes ws ++ r) = map f_of_bits ws ++ floats (k - length ws) r.
Proof.
  revert k. induction ws as [| w ws IH]; intros k Hw Hk; cbn [length map app] in *.
  - rewrite Nat.sub_0_r. reflexivity.
  - destruct k as [| k]; [lia |]. inversion Hw as [| ? ? Hw1 Hw2]; subst. cbn [floats].
    rewrite word_bytes_cons, <- app_assoc. f_equal.
    + rewrite firstn_app, le_bytes_length, Nat.sub_diag, firstn_O, app_nil_r, firstn_all2 by (rewrite le_bytes_length; lia).
      rewrite of_le_bytes_le_bytes; [reflexivity | exact Hw1].
    + rewrite skipn_app, le_bytes_length, Nat.sub_diag, skipn_all2 by (rewrite le_bytes_length; lia). cbn [app skipn].
      rewrite IH by (assumption || lia). reflexivity.
Qed.
Lemma floats_length k : forall l, length (floats k l) = k.
Proof. induction k as [| k IH]; intros l; [reflexivity |]. cbn. f_equal. apply IH. Qed.

(** a vector load of at most four words *)
Lemma vector_load_words m off ws : padded m off (word_bytes ws) -> Forall (fun w => w < 2 ^ 32) ws -> (0 < length ws <= 4)%nat ->
  exists r, vector_load m off = Ok (map f_of_bits ws ++ r) /\ length r = (4 - length ws)%nat.
Proof.
  intros [P B] Hw Hl. unfold vector_load, load_floats. rewrite word_bytes_blen in B.
  destruct (load_bytes_placed m off (word_bytes ws) 16 P) as (r & -> & _); [rewrite word_bytes_len; lia | lia |].
  cbn [bindo]. rewrite floats_words by (assumption || lia). eexists. split; [reflexivity |]. apply floats_length.
Qed.
Lemma lane_app_l i a b : (i < length a)%nat -> lane i (a ++ b) = lane i a.
Proof. intros H. apply app_nth1, H. Qed.
Lemma lane_words i ws : (i < length ws)%nat -> lane i (map f_of_bits ws) = f_of_bits (nth i ws 0).
Proof. intros H. unfold lane. rewrite (nth_indep _ _ (f_of_bits 0)) by (rewrite map_length; exact H). apply map_nth. Qed.

(** ** Groups of four *)
Lemma chunk4_full {A} (l : list A) : (4 <= length l)%nat -> chunk4 l = firstn 4 l :: chunk4 (skipn 4 l).
Proof. destruct l as [| a [| b [| c [| d t]]]]; cbn [length]; intros; try lia. reflexivity. Qed.
Lemma chunk4_part {A} (l : list A) : (0 < length l < 4)%nat -> chunk4 l = [l].
Proof. destruct l as [| a [| b [| c [| d t]]]]; cbn [length]; intros; try lia; reflexivity. Qed.
Lemma chunk4_step {A} (l : list A) : l <> [] -> chunk4 l = firstn 4 l :: chunk4 (skipn 4 l).
Proof. destruct l as [| a [| b [| c [| d t]]]]; intros H; try congruence; reflexivity. Qed.
Lemma chunk4_map {A B} (f : A -> B) l : chunk4 (map f l) = map (map f) (chunk4 l).
Proof.
  remember (length l) as n eqn:E. revert l E. induction n as [n IH] using (well_founded_induction Nat.lt_wf_0). intros l ->.
  destruct l as [| a [| b [| c [| d t]]]]; try reflexivity. cbn [map chunk4]. f_equal. apply (IH (length t)); [cbn; lia | reflexivity].
Qed.
Lemma chunk_ind {A} (P : list A -> Prop) : P [] -> (forall l, l <> [] -> P (skipn 4 l) -> P l) -> forall l, P l.
Proof.
  intros H0 H1 l. remember (length l) as n eqn:E. revert l E. induction n as [n IH] using (well_founded_induction Nat.lt_wf_0). intros l ->.
  destruct l as [| a t]; [exact H0 |]. apply H1; [congruence |]. apply (IH (length (skipn 4 (a :: t)))); [| reflexivity].
  rewrite skipn_length. cbn [length]. lia.
Qed.

Lemma Forall_first {A} (P : A -> Prop) n l : Forall P l -> Forall P (firstn n l).
Proof. intros H. rewrite <- (firstn_skipn n l) in H. apply Forall_app in H. apply H. Qed.
Lemma Forall_rest {A} (P : A -> Prop) n l : Forall P l -> Forall P (skipn n l).
Proof. intros H. rewrite <- (firstn_skipn n l) in H. apply Forall_app in H. apply H. Qed.
