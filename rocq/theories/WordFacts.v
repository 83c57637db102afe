(** Lemmas on machine words and bit views of memory. *)
From Coq Require Import Lia ZifyBool ZifyNat ZifyN.
From Verif Require Export Word.
Open Scope N_scope.
Ltac Zify.zify_post_hook ::= Z.div_mod_to_equations.

Arguments N.add : simpl never.
Arguments N.mul : simpl never.
Arguments N.sub : simpl never.
Arguments N.pow : simpl never.
Arguments N.div : simpl never.
Arguments N.modulo : simpl never.
Arguments N.shiftl : simpl never.
Arguments N.shiftr : simpl never.
Arguments N.land : simpl never.
Arguments N.lor : simpl never.
Arguments N.lxor : simpl never.
Arguments N.testbit : simpl never.
Arguments N.min : simpl never.
Arguments N.max : simpl never.
Arguments N.of_nat : simpl never.
Arguments N.to_nat : simpl never.
Arguments N.leb : simpl never.
Arguments N.ltb : simpl never.
Arguments N.eqb : simpl never.

Lemma pow2_pos n : 0 < 2 ^ n.
Proof. apply N.neq_0_lt_0, N.pow_nonzero; lia. Qed.

Lemma pow2_nz n : 2 ^ n <> 0.
Proof. pose proof (pow2_pos n); lia. Qed.
#[global] Hint Resolve pow2_pos pow2_nz : core.

Lemma pow2_add a b : 2 ^ (a + b) = 2 ^ a * 2 ^ b.
Proof. apply N.pow_add_r. Qed.

Lemma pow2_le a b : a <= b -> 2 ^ a <= 2 ^ b.
Proof. intros; apply N.pow_le_mono_r; lia. Qed.

Lemma pow2_lt a b : a < b -> 2 ^ a < 2 ^ b.
Proof. intros; apply N.pow_lt_mono_r; lia. Qed.

Lemma testbit_high x n : x < 2 ^ n -> forall i, n <= i -> N.testbit x i = false.
Proof.
  intros H i Hi. destruct (N.eq_dec x 0) as [->|Hx]; [apply N.bits_0|].
  apply N.bits_above_log2. apply N.lt_le_trans with n; [|exact Hi].
  apply N.log2_lt_pow2; lia.
Qed.

Lemma testbit_lt x n : (forall i, n <= i -> N.testbit x i = false) -> x < 2 ^ n.
Proof.
  intros H. destruct (N.eq_dec x 0) as [->|Hx]; [apply pow2_pos|].
  apply N.log2_lt_pow2; [lia|].
  destruct (N.lt_ge_cases (N.log2 x) n) as [L|L]; [exact L|].
  specialize (H _ L). rewrite N.bit_log2 in H; [discriminate|exact Hx].
Qed.

Lemma testbit_mod_pow2 x n i : N.testbit (x mod 2 ^ n) i = (i <? n) && N.testbit x i.
Proof.
  destruct (N.ltb_spec i n) as [L|L]; cbn [andb].
  - apply N.mod_pow2_bits_low; exact L.
  - apply N.mod_pow2_bits_high; exact L.
Qed.

Lemma testbit_ones_sub1 n i : N.testbit (2 ^ n - 1) i = (i <? n).
Proof.
  replace (2 ^ n - 1) with (N.ones n) by (rewrite N.ones_equiv; lia).
  destruct (N.ltb_spec i n) as [L|L].
  - apply N.ones_spec_low; exact L.
  - apply N.ones_spec_high; exact L.
Qed.

Lemma testbit_shiftl x n i : N.testbit (N.shiftl x n) i = (n <=? i) && N.testbit x (i - n).
Proof.
  destruct (N.leb_spec n i) as [L|L]; cbn [andb].
  - apply N.shiftl_spec_high'; exact L.
  - apply N.shiftl_spec_low; exact L.
Qed.

Lemma testbit_shiftr x n i : N.testbit (N.shiftr x n) i = N.testbit x (i + n).
Proof. apply N.shiftr_spec'. Qed.

Lemma testbit_notw w x i : x < 2 ^ w -> N.testbit (notw w x) i = (i <? w) && negb (N.testbit x i).
Proof.
  intros H. unfold notw. rewrite N.lxor_spec, testbit_ones_sub1.
  destruct (N.ltb_spec i w) as [L|L]; cbn [andb].
  - apply xorb_true_r.
  - rewrite (testbit_high x w H i L); reflexivity.
Qed.

Lemma testbit_shlw w x n i : N.testbit (shlw w x n) i = (i <? w) && (n <=? i) && N.testbit x (i - n).
Proof.
  unfold shlw. rewrite testbit_mod_pow2, testbit_shiftl, andb_assoc; reflexivity.
Qed.

Lemma testbit_wrapw w x i : N.testbit (wrapw w x) i = (i <? w) && N.testbit x i.
Proof. apply testbit_mod_pow2. Qed.

Lemma testbit_pow2 n i : N.testbit (2 ^ n) i = (i =? n).
Proof.
  destruct (N.eqb_spec i n) as [->|H].
  - apply N.pow2_bits_true.
  - apply N.pow2_bits_false; congruence.
Qed.

Lemma wrapw_lt w x : wrapw w x < 2 ^ w.
Proof. apply N.mod_lt; auto. Qed.
Lemma addw_lt w x y : addw w x y < 2 ^ w.
Proof. apply N.mod_lt; auto. Qed.
Lemma subw_lt w x y : subw w x y < 2 ^ w.
Proof. apply N.mod_lt; auto. Qed.
Lemma mulw_lt w x y : mulw w x y < 2 ^ w.
Proof. apply N.mod_lt; auto. Qed.
Lemma shlw_lt w x y : shlw w x y < 2 ^ w.
Proof. apply N.mod_lt; auto. Qed.
Lemma notw_lt w x : x < 2 ^ w -> notw w x < 2 ^ w.
Proof.
  intros H. apply testbit_lt. intros i Hi. rewrite testbit_notw by exact H.
  destruct (N.ltb_spec i w); [lia|reflexivity].
Qed.

Lemma wrapw_small w x : x < 2 ^ w -> wrapw w x = x.
Proof. apply N.mod_small. Qed.
Lemma addw_small w x y : x + y < 2 ^ w -> addw w x y = x + y.
Proof. apply N.mod_small. Qed.
Lemma mulw_small w x y : x * y < 2 ^ w -> mulw w x y = x * y.
Proof. apply N.mod_small. Qed.

Lemma subw_ge w x y : x < 2 ^ w -> y <= x -> subw w x y = x - y.
Proof.
  intros Hx Hy. unfold subw.
  replace (x + (2 ^ w - y)) with (x - y + 1 * 2 ^ w) by lia.
  rewrite N.mod_add by auto. apply N.mod_small; lia.
Qed.

Lemma subw_lt_wrap w x y : x < y -> y < 2 ^ w -> subw w x y = 2 ^ w + x - y.
Proof. intros Hx Hy. unfold subw. rewrite N.mod_small; lia. Qed.

Lemma notw_sub w x : x < 2 ^ w -> notw w x = 2 ^ w - 1 - x.
Proof.
  intros H. unfold notw.
  replace (2 ^ w - 1) with (N.ones w) by (rewrite N.ones_equiv; lia).
  change (N.lxor x (N.ones w)) with (N.lnot x w).
  destruct (N.eq_dec x 0) as [->|Hx].
  - rewrite N.sub_0_r. apply N.lnot_0_l.
  - apply N.lnot_sub_low. apply N.log2_lt_pow2; lia.
Qed.

Lemma land_ones_mod x n : N.land x (2 ^ n - 1) = x mod 2 ^ n.
Proof.
  replace (2 ^ n - 1) with (N.ones n) by (rewrite N.ones_equiv; lia).
  apply N.land_ones.
Qed.

(** Lists *)
Lemma upd_length {A} (l : list A) n x : length (upd l n x) = length l.
Proof. revert n; induction l as [|h t IH]; intros [|n]; cbn; auto. Qed.

Lemma nth_upd {A} (l : list A) n x m d : (n < length l)%nat ->
  nth m (upd l n x) d = if Nat.eqb m n then x else nth m l d.
Proof.
  revert n m; induction l as [|h t IH]; intros [|n] [|m] H; cbn in *; try lia; auto.
  apply IH; lia.
Qed.

Lemma nth_error_upd {A} (l : list A) n x m : (n < length l)%nat ->
  nth_error (upd l n x) m = if Nat.eqb m n then Some x else nth_error l m.
Proof.
  revert n m; induction l as [|h t IH]; intros [|n] [|m] H; cbn in *; try lia; auto.
  apply IH; lia.
Qed.

Lemma Forall_upd {A} (P : A -> Prop) l n x : Forall P l -> P x -> Forall P (upd l n x).
Proof.
  intros H Hx; revert n; induction H as [|h t Hh Ht IH]; intros [|n]; cbn; auto.
Qed.

Lemma blen_upd m n x : blen (upd m n x) = blen m.
Proof. unfold blen; rewrite upd_length; reflexivity. Qed.

Lemma blen_app a b : blen (a ++ b) = blen a + blen b.
Proof. unfold blen; rewrite app_length; lia. Qed.

Lemma bytes_ok_nth m i : bytes_ok m -> nth i m 0 < 256.
Proof.
  intros H. destruct (Nat.lt_ge_cases i (length m)) as [L|L].
  - apply (proj1 (Forall_forall _ _) H). apply nth_In; exact L.
  - rewrite nth_overflow by exact L. lia.
Qed.

Lemma load8_ok m off : off < blen m -> load8 m off = Ok (nth (N.to_nat off) m 0).
Proof.
  unfold load8, blen; intros H.
  destruct (nth_error m (N.to_nat off)) as [b|] eqn:E.
  - rewrite (nth_error_nth _ _ _ E); reflexivity.
  - apply nth_error_None in E; lia.
Qed.

Lemma load8_oob m off : blen m <= off -> load8 m off = UB.
Proof.
  unfold load8, blen; intros H.
  replace (nth_error m (N.to_nat off)) with (@None N); [reflexivity|].
  symmetry; apply nth_error_None; lia.
Qed.

Lemma store8_ok m off b : off < blen m -> store8 m off b = Ok (upd m (N.to_nat off) b).
Proof. unfold store8; intros H; destruct (N.ltb_spec off (blen m)); [reflexivity|lia]. Qed.

Lemma mbit_oob m i : 8 * blen m <= i -> mbit m i = false.
Proof.
  intros H; unfold mbit. rewrite nth_overflow; [apply N.bits_0|]. unfold blen in H; lia.
Qed.

Lemma mbit_upd m off b i : off < blen m ->
  mbit (upd m (N.to_nat off) b) i =
  if i / 8 =? off then N.testbit b (7 - i mod 8) else mbit m i.
Proof.
  intros H; unfold mbit. rewrite nth_upd by (unfold blen in H; lia).
  destruct (N.eqb_spec (i / 8) off) as [E|E];
  destruct (Nat.eqb_spec (N.to_nat (i / 8)) (N.to_nat off)) as [E'|E']; try reflexivity; lia.
Qed.

(** Memory extensionality: the bit view determines the bytes. *)
Lemma mbit_ext a b : bytes_ok a -> bytes_ok b -> length a = length b ->
  (forall i, i < 8 * blen a -> mbit a i = mbit b i) -> a = b.
Proof.
  intros Ha Hb L H. apply nth_ext with (d := 0) (d' := 0); [exact L|].
  intros n Hn. apply N.bits_inj; intros j.
  destruct (N.lt_ge_cases j 8) as [J|J].
  - specialize (H (8 * N.of_nat n + (7 - j))).
    assert (E : 8 * N.of_nat n + (7 - j) < 8 * blen a) by (unfold blen; lia).
    specialize (H E). unfold mbit in H.
    replace ((8 * N.of_nat n + (7 - j)) / 8) with (N.of_nat n) in H by lia.
    replace ((8 * N.of_nat n + (7 - j)) mod 8) with (7 - j) in H by lia.
    replace (7 - (7 - j)) with j in H by lia.
    rewrite Nat2N.id in H. exact H.
  - rewrite !(testbit_high _ 8); auto; change (2 ^ 8) with 256; apply bytes_ok_nth; auto.
Qed.

(** little endian *)
Lemma le_bytes_length n v : length (le_bytes n v) = n.
Proof. revert v; induction n as [|n IH]; intros v; cbn; auto. Qed.

Lemma le_bytes_ok n v : bytes_ok (le_bytes n v).
Proof.
  revert v; induction n as [|n IH]; intros v; cbn; constructor; [lia|apply IH].
Qed.

Lemma of_le_bytes_le_bytes n v : v < 256 ^ N.of_nat n -> of_le_bytes (le_bytes n v) = v.
Proof.
  revert v; induction n as [|n IH]; intros v H; cbn [le_bytes of_le_bytes].
  - change (256 ^ N.of_nat 0) with 1 in H; lia.
  - rewrite Nat2N.inj_succ, N.pow_succ_r' in H. rewrite IH; lia.
Qed.

Lemma of_le_bytes_lt l : bytes_ok l -> of_le_bytes l < 256 ^ blen l.
Proof.
  intros H; unfold blen; induction H as [|b l Hb Hl IH]; cbn [of_le_bytes length].
  - change (256 ^ N.of_nat 0) with 1; lia.
  - rewrite Nat2N.inj_succ, N.pow_succ_r'; lia.
Qed.

Lemma testbit_add_256 a b i : a < 256 ->
  N.testbit (a + 256 * b) i = if i <? 8 then N.testbit a i else N.testbit b (i - 8).
Proof.
  intros Ha.
  assert (E : a + 256 * b = N.lor a (N.shiftl b 8)).
  { rewrite N.shiftl_mul_pow2. change (2 ^ 8) with 256. rewrite (N.mul_comm b).
    apply N.bits_inj_iff; intros j. 
    destruct (N.lt_ge_cases j 8) as [J|J].
    - rewrite <- (N.mod_pow2_bits_low _ 8 j J). change (2 ^ 8) with 256.
      replace ((a + 256 * b) mod 256) with a by lia.
      rewrite N.lor_spec. change 256 with (2 ^ 8). rewrite N.mul_comm.
      rewrite N.mul_pow2_bits_low by exact J. rewrite orb_false_r; reflexivity.
    - rewrite N.lor_spec, (testbit_high a 8 Ha j J), orb_false_l.
      replace j with (j - 8 + 8) by lia. rewrite <- !N.div_pow2_bits.
      change (2 ^ 8) with 256. f_equal; lia. }
  rewrite E, N.lor_spec, testbit_shiftl.
  destruct (N.ltb_spec i 8) as [L|L]; destruct (N.leb_spec 8 i) as [L'|L']; try lia; cbn [andb].
  - apply orb_false_r.
  - rewrite (testbit_high a 8 Ha i L); reflexivity.
Qed.

Lemma testbit_of_le_bytes l i : bytes_ok l ->
  N.testbit (of_le_bytes l) i = N.testbit (nth (N.to_nat (i / 8)) l 0) (i mod 8).
Proof.
  intros H; revert i; induction H as [|b l Hb Hl IH]; intros i; cbn [of_le_bytes].
  - rewrite N.bits_0. destruct (N.to_nat (i / 8)); cbn; symmetry; apply N.bits_0.
  - rewrite testbit_add_256 by exact Hb.
    destruct (N.ltb_spec i 8) as [L|L].
    + replace (i / 8) with 0 by lia. replace (i mod 8) with i by lia. reflexivity.
    + rewrite IH. replace (N.to_nat (i / 8)) with (S (N.to_nat ((i - 8) / 8))) by lia.
      cbn [nth]. f_equal. lia.
Qed.

Lemma nth_firstn_lt {A} (l : list A) n i d : (i < n)%nat -> nth i (firstn n l) d = nth i l d.
Proof.
  revert n i; induction l as [|h t IH]; intros [|n] i H; cbn; try lia; auto.
  destruct i; auto. apply IH; lia.
Qed.

Lemma nth_skipn {A} (l : list A) n i d : nth i (skipn n l) d = nth (n + i) l d.
Proof.
  revert l; induction n as [|n IH]; intros l; cbn; auto.
  destruct l; cbn; auto. destruct i; reflexivity.
Qed.

Lemma load_bytes_ok m off n : off + N.of_nat n <= blen m ->
  load_bytes m off n = Ok (firstn n (skipn (N.to_nat off) m)).
Proof. unfold load_bytes; intros H. destruct (N.leb_spec (off + N.of_nat n) (blen m)); [reflexivity|lia]. Qed.

Lemma bytes_ok_firstn n m : bytes_ok m -> bytes_ok (firstn n m).
Proof. unfold bytes_ok; rewrite !Forall_forall; intros H x Hx; apply H.
  rewrite <- (firstn_skipn n m), in_app_iff; auto. Qed.
Lemma bytes_ok_skipn n m : bytes_ok m -> bytes_ok (skipn n m).
Proof. unfold bytes_ok; rewrite !Forall_forall; intros H x Hx; apply H.
  rewrite <- (firstn_skipn n m), in_app_iff; auto. Qed.
Lemma bytes_ok_app a b : bytes_ok a -> bytes_ok b -> bytes_ok (a ++ b).
Proof. intros; apply Forall_app; auto. Qed.

(** The bits of an unaligned little-endian load. *)
Lemma testbit_load_le m off n v i : bytes_ok m -> load_le m off n = Ok v ->
  N.testbit v i = if i <? 8 * N.of_nat n then N.testbit (nth (N.to_nat (off + i / 8)) m 0) (i mod 8) else false.
Proof.
  intros Hm H. unfold load_le, load_bytes in H.
  destruct (N.leb_spec (off + N.of_nat n) (blen m)) as [L|L]; cbn [bindo] in H; [|discriminate].
  injection H as <-. rewrite testbit_of_le_bytes by (apply bytes_ok_firstn, bytes_ok_skipn, Hm).
  destruct (N.ltb_spec i (8 * N.of_nat n)) as [L'|L'].
  - rewrite nth_firstn_lt by lia. rewrite nth_skipn. do 2 f_equal; lia.
  - rewrite nth_overflow; [apply N.bits_0|]. rewrite firstn_length. lia.
Qed.

Lemma load_le_ok m off n : off + N.of_nat n <= blen m -> exists v, load_le m off n = Ok v.
Proof. intros H. unfold load_le. rewrite load_bytes_ok by exact H. cbn. eauto. Qed.

Lemma load_le_oob m off n : blen m < off + N.of_nat n -> load_le m off n = UB.
Proof.
  intros H. unfold load_le, load_bytes.
  destruct (N.leb_spec (off + N.of_nat n) (blen m)); [lia|reflexivity].
Qed.

Lemma load_le_lt m off n v : bytes_ok m -> load_le m off n = Ok v -> v < 2 ^ (8 * N.of_nat n).
Proof.
  intros Hm H. apply testbit_lt; intros i Hi. rewrite (testbit_load_le _ _ _ _ i Hm H).
  destruct (N.ltb_spec i (8 * N.of_nat n)); [lia|reflexivity].
Qed.
