(** Facts about a buffer seen as a concatenation of pieces. *)
From Coq Require Import Lia.
From Verif Require Import Word WordFacts DbBuild.
Local Open Scope N_scope.

Definition lens (ps : list (list N)) : list N := map blen ps.
Fixpoint sum_n (l : list N) : N := match l with [] => 0 | x :: r => x + sum_n r end.

Lemma sum_n_app a b : sum_n (a ++ b) = sum_n a + sum_n b.
Proof. induction a as [|x a IH]; cbn [app sum_n]; [reflexivity|]. rewrite IH. lia. Qed.
Lemma blen_app (a b : list N) : blen (a ++ b) = blen a + blen b.
Proof. unfold blen. rewrite app_length. lia. Qed.
Lemma blen_concat ps : blen (concat ps) = sum_n (lens ps).
Proof. induction ps as [|p ps IH]; [reflexivity|]. cbn [concat lens map sum_n]. rewrite blen_app, IH. reflexivity. Qed.
Lemma blen_nat (a : list N) : N.to_nat (blen a) = length a.
Proof. unfold blen. lia. Qed.

Lemma load_mid a b c : load_bytes (a ++ b ++ c) (blen a) (length b) = Ok b.
Proof.
  unfold load_bytes. rewrite !blen_app. destruct (N.leb_spec (blen a + N.of_nat (length b)) (blen a + (blen b + blen c))) as [_|H]; [|unfold blen in H; lia].
  f_equal. rewrite blen_nat, skipn_app, skipn_all, Nat.sub_diag. cbn [app skipn]. rewrite firstn_app, Nat.sub_diag, firstn_all, app_nil_r. reflexivity.
Qed.
Lemma store_mid a b b' c : length b' = length b -> store_bytes (a ++ b ++ c) (blen a) b' = Ok (a ++ b' ++ c).
Proof.
  intros L. unfold store_bytes. rewrite !blen_app. destruct (N.leb_spec (blen a + blen b') (blen a + (blen b + blen c))) as [_|H]; [|unfold blen in H; lia].
  f_equal. rewrite blen_nat, firstn_app, Nat.sub_diag, firstn_all, app_nil_r. f_equal. f_equal.
  rewrite L, app_assoc, skipn_app. rewrite (skipn_all2 (a ++ b)) by (rewrite app_length; lia). rewrite app_length, Nat.sub_diag. reflexivity.
Qed.

Lemma split_at (ps : list (list N)) i p : nth_error ps i = Some p -> concat ps = concat (firstn i ps) ++ p ++ concat (skipn (S i) ps).
Proof.
  revert i. induction ps as [|q ps IH]; intros [|i] E; cbn [nth_error] in E; try discriminate E.
  - injection E as ->. reflexivity.
  - cbn [firstn skipn concat]. rewrite (IH i E) at 1. rewrite <- app_assoc. reflexivity.
Qed.
Lemma upd_split (ps : list (list N)) i q : (i < length ps)%nat -> concat (upd ps i q) = concat (firstn i ps) ++ q ++ concat (skipn (S i) ps).
Proof.
  revert i. induction ps as [|p ps IH]; intros [|i] L; cbn [length] in L; try lia.
  - reflexivity.
  - cbn [upd firstn skipn concat]. rewrite (IH i) by lia. rewrite <- app_assoc. reflexivity.
Qed.

(** the piece number [i] is read or written as a whole *)
Lemma load_piece ps i p off n : nth_error ps i = Some p -> off = sum_n (lens (firstn i ps)) -> n = length p -> load_bytes (concat ps) off n = Ok p.
Proof. intros E -> ->. rewrite (split_at ps i p E), <- blen_concat. apply load_mid. Qed.
Lemma store_piece ps i p off q : nth_error ps i = Some p -> off = sum_n (lens (firstn i ps)) -> length q = length p ->
  store_bytes (concat ps) off q = Ok (concat (upd ps i q)).
Proof.
  intros E -> L. rewrite (split_at ps i p E), <- blen_concat, (store_mid _ p q _ L). f_equal. symmetry. apply upd_split. apply nth_error_Some. congruence.
Qed.
Lemma load_le_piece ps i v k off n : nth_error ps i = Some (le_bytes k v) -> off = sum_n (lens (firstn i ps)) -> n = k -> v < 256 ^ N.of_nat k ->
  load_le (concat ps) off n = Ok v.
Proof.
  intros E O -> V. unfold load_le. rewrite (load_piece ps i (le_bytes k v) off k E O ltac:(symmetry; apply le_bytes_length)). cbn [bindo].
  rewrite of_le_bytes_le_bytes; auto.
Qed.
Lemma write32_piece ps i p off v : nth_error ps i = Some p -> off = sum_n (lens (firstn i ps)) -> length p = 4%nat ->
  write32 (concat ps) off v = Ok (concat (upd ps i (le_bytes 4 v))).
Proof. intros E O L. unfold write32. apply (store_piece ps i p); auto. Qed.

Lemma repeat_pieces l : repeat 0 (N.to_nat (sum_n l)) = concat (map (fun n => repeat 0 (N.to_nat n)) l).
Proof. induction l as [|x l IH]; [reflexivity|]. cbn [sum_n map concat]. rewrite N2Nat.inj_add, repeat_app, IH. reflexivity. Qed.
