(** Proofs about the model of core/memory_utils.h. *)
From Coq Require Import Lia ZifyBool ZifyNat ZifyN.
From Verif Require Export WordFacts MemoryUtils.
Open Scope N_scope.
Ltac Zify.zify_post_hook ::= Z.div_mod_to_equations.

(* ---------- alignment ---------- *)

Lemma is_power_of_two_spec v : v < 2 ^ 64 ->
  (is_power_of_two v = true <-> exists k, v = 2 ^ k).
Proof.
  intros Hv. unfold is_power_of_two. rewrite andb_true_iff, negb_true_iff, N.eqb_neq, N.eqb_eq.
  split.
  - intros [Hnz H]. rewrite subw_ge in H by lia.
    exists (N.log2 v). apply N.bits_inj; intros i. rewrite testbit_pow2.
    pose proof (N.bit_log2 v Hnz) as Hl.
    destruct (N.lt_trichotomy i (N.log2 v)) as [L|[L|L]].
    + destruct (N.eqb_spec i (N.log2 v)); [lia|].
      (* if a lower bit were set, the top bit would survive v-1 *)
      destruct (N.testbit v i) eqn:Ei; [|reflexivity]. exfalso.
      assert (Hge : 2 ^ N.log2 v + 2 ^ i <= v).
      { pose proof (N.log2_spec v ltac:(lia)) as [Hlo _].
        assert (E : v = 2 ^ N.log2 v + v mod 2 ^ N.log2 v).
        { pose proof (N.div_mod v (2 ^ N.log2 v) (pow2_nz _)) as D.
          assert (v / 2 ^ N.log2 v = 1) as Q.
          { pose proof (N.log2_spec v ltac:(lia)) as [_ Hhi]. rewrite N.pow_succ_r' in Hhi.
            symmetry; apply N.div_unique with (v - 2 ^ N.log2 v); lia. }
          rewrite Q in D. lia. }
        assert (N.testbit (v mod 2 ^ N.log2 v) i = true) as Hm.
        { rewrite testbit_mod_pow2. destruct (N.ltb_spec i (N.log2 v)); [exact Ei|lia]. }
        assert (2 ^ i <= v mod 2 ^ N.log2 v); [|lia].
        destruct (N.le_gt_cases (2 ^ i) (v mod 2 ^ N.log2 v)) as [K|K]; [exact K|].
        rewrite (testbit_high _ i K i (N.le_refl i)) in Hm; discriminate. }
      assert (N.log2 (v - 1) = N.log2 v) as El.
      { apply N.log2_unique. lia. pose proof (N.log2_spec v ltac:(lia)).
        pose proof (pow2_pos i). lia. }
      assert (N.testbit (N.land v (v - 1)) (N.log2 v) = true) as Hb.
      { rewrite N.land_spec, Hl. rewrite <- El at 1. rewrite N.bit_log2; [reflexivity|].
        pose proof (pow2_pos i). pose proof (pow2_pos (N.log2 v)). lia. }
      rewrite H, N.bits_0 in Hb; discriminate.
    + subst i. rewrite Hl. symmetry; apply N.eqb_refl.
    + destruct (N.eqb_spec i (N.log2 v)); [lia|]. apply N.bits_above_log2; exact L.
  - intros [k ->]. split; [apply pow2_nz|]. rewrite subw_ge by (pose proof (pow2_pos k); lia).
    apply N.bits_inj; intros i. rewrite N.land_spec, testbit_pow2, testbit_ones_sub1, N.bits_0.
    destruct (N.eqb_spec i k), (N.ltb_spec i k); cbn; try reflexivity; lia.
Qed.

Lemma is_aligned_to_spec v k : k < 64 -> (is_aligned_to v (2 ^ k) = true <-> v mod 2 ^ k = 0).
Proof.
  intros Hk. unfold is_aligned_to. pose proof (pow2_lt k 64 Hk). pose proof (pow2_pos k).
  rewrite subw_ge by lia. rewrite land_ones_mod. apply N.eqb_eq.
Qed.

Lemma land_not_low x k w : x < 2 ^ w -> k <= w -> N.land x (notw w (2 ^ k - 1)) = 2 ^ k * (x / 2 ^ k).
Proof.
  intros Hx Hk. pose proof (pow2_le k w Hk). pose proof (pow2_pos k).
  apply N.bits_inj; intros i. rewrite N.land_spec, testbit_notw by lia. rewrite testbit_ones_sub1.
  rewrite N.mul_comm.
  destruct (N.ltb_spec i k) as [L|L]; cbn [negb].
  - rewrite !andb_false_r. symmetry; apply N.mul_pow2_bits_low; exact L.
  - rewrite N.mul_pow2_bits_high by exact L. rewrite N.div_pow2_bits.
    replace (i - k + k) with i by lia. rewrite andb_true_r.
    destruct (N.ltb_spec i w) as [L'|L']; [apply andb_true_r|].
    rewrite (testbit_high x w Hx i L'); reflexivity.
Qed.

(** align_to returns the least multiple of the alignment that is >= the value *)
Lemma align_to_spec w v k : w <= 64 -> k <= w -> k < 64 -> v + (2 ^ k - 1) < 2 ^ w ->
  let r := align_to w v (2 ^ k) in
  v <= r /\ r mod 2 ^ k = 0 /\ r < v + 2 ^ k /\ (forall m, v <= m -> m mod 2 ^ k = 0 -> r <= m).
Proof.
  intros Hw Hk Hk64 Hv r. pose proof (pow2_le w 64 Hw). pose proof (pow2_pos k).
  pose proof (pow2_lt k 64 Hk64).
  assert (E : r = 2 ^ k * ((v + (2 ^ k - 1)) / 2 ^ k)).
  { unfold r, align_to. rewrite subw_ge by lia. rewrite addw_small by lia.
    rewrite land_not_low by lia. apply wrapw_small.
    pose proof (N.mul_div_le (v + (2 ^ k - 1)) (2 ^ k)). lia. }
  pose proof (N.div_mod (v + (2 ^ k - 1)) (2 ^ k) ltac:(lia)) as D.
  pose proof (N.mod_lt (v + (2 ^ k - 1)) (2 ^ k) ltac:(lia)) as M.
  split; [|split; [|split]].
  - lia.
  - rewrite E, N.mul_comm. apply N.mod_mul; lia.
  - lia.
  - intros m Hm Hmm. rewrite E.
    apply N.div_exact in Hmm; [|lia]. rewrite Hmm. apply N.mul_le_mono_l.
    rewrite <- N.lt_succ_r. apply N.div_lt_upper_bound; [lia|].
    rewrite N.mul_succ_r. lia.
Qed.

Lemma get_required_padding_spec s k : k < 64 -> s + (2 ^ k - 1) < 2 ^ 64 ->
  get_required_padding s (2 ^ k) < 2 ^ k /\
  s + get_required_padding s (2 ^ k) = align_to 64 s (2 ^ k).
Proof.
  intros Hk Hs. pose proof (align_to_spec 64 s k ltac:(lia) ltac:(lia) Hk Hs) as (A & B & C & _).
  pose proof (pow2_lt k 64 Hk). pose proof (pow2_pos k).
  assert (E : get_required_padding s (2 ^ k) = align_to 64 s (2 ^ k) - s).
  { unfold get_required_padding.
    assert (E : align_to 64 s (2 ^ k) =
      N.land (addw 64 s (subw 64 (2 ^ k) 1)) (notw 64 (subw 64 (2 ^ k) 1))).
    { unfold align_to. apply wrapw_small.
      rewrite subw_ge by lia. rewrite addw_small by lia. rewrite land_not_low by lia.
      pose proof (N.mul_div_le (s + (2 ^ k - 1)) (2 ^ k)). lia. }
    rewrite <- E. apply subw_ge; [|exact A]. apply wrapw_lt. }
  rewrite E. split; lia.
Qed.

(* ---------- byte_swap ---------- *)

(** A mask literal's bit is decided by enumerating the (finite) index range. *)
Lemma N_lt_cases (P : N -> Prop) (n : nat) : Forall P (map N.of_nat (seq 0 n)) -> forall i, i < N.of_nat n -> P i.
Proof.
  intros H i Hi. rewrite Forall_forall in H. apply H. apply in_map_iff.
  exists (N.to_nat i). split; [lia|]. apply in_seq. lia.
Qed.

Ltac bswap_bit v :=
  rewrite ?N.lor_spec, ?testbit_shlw, ?testbit_shiftl, ?testbit_shiftr, ?N.land_spec;
  rewrite ?N.lor_spec, ?testbit_shlw, ?testbit_shiftl, ?testbit_shiftr, ?N.land_spec;
  rewrite ?N.lor_spec, ?testbit_shlw, ?testbit_shiftl, ?testbit_shiftr, ?N.land_spec;
  let f := fresh "f" in
  set (f := N.testbit v); clearbody f; vm_compute;
  repeat match goal with |- context [f ?k] => destruct (f k) end; reflexivity.

Ltac bswap_all v := repeat (apply Forall_cons; [bswap_bit v|]); apply Forall_nil.

Lemma testbit_byte_swap16 v i : v < 2 ^ 16 ->
  N.testbit (byte_swap16 v) i = if i <? 16 then N.testbit v (8 * (1 - i / 8) + i mod 8) else false.
Proof.
  intros Hv. unfold byte_swap16.
  destruct (N.ltb_spec i 16) as [L|L].
  - revert i L. apply (N_lt_cases _ 16). cbn [seq map]. bswap_all v.
  - rewrite N.lor_spec, testbit_shiftl, testbit_shiftr, !N.land_spec.
    rewrite (testbit_high 0xFF00 16) by (reflexivity || lia).
    rewrite (testbit_high 0xFF 8) by (reflexivity || lia). rewrite !andb_false_r. reflexivity.
Qed.

Lemma testbit_byte_swap32 v i : v < 2 ^ 32 ->
  N.testbit (byte_swap32 v) i = if i <? 32 then N.testbit v (8 * (3 - i / 8) + i mod 8) else false.
Proof.
  intros Hv. unfold byte_swap32.
  destruct (N.ltb_spec i 32) as [L|L].
  - revert i L. apply (N_lt_cases _ 32). cbn [seq map]. bswap_all v.
  - rewrite N.lor_spec, testbit_shlw, testbit_shiftr, N.land_spec.
    assert (E : (i <? 32) = false) by (destruct (N.ltb_spec i 32); [lia|reflexivity]).
    rewrite E. cbn [andb orb]. rewrite N.land_spec.
    rewrite (testbit_high 0xFF00FF00 32) by (reflexivity || lia). apply andb_false_r.
Qed.

Definition swap_stage64 (lo hi k v : N) : N :=
  N.lor (shlw 64 (N.land v lo) k) (N.shiftr (N.land v hi) k).

Lemma swap_stage64_bits lo hi k v :
  forallb (fun i => Bool.eqb (N.testbit lo (i - k) && (k <=? i)) (N.testbit i (N.log2 k)) &&
                    Bool.eqb (N.testbit hi (i + k)) (negb (N.testbit i (N.log2 k))) &&
                    (if N.testbit i (N.log2 k) then N.lxor i k =? i - k else N.lxor i k =? i + k))
          (map N.of_nat (seq 0 64)) = true ->
  forall i, i < 64 -> N.testbit (swap_stage64 lo hi k v) i = N.testbit v (N.lxor i k).
Proof.
  intros H i Hi. rewrite forallb_forall in H. specialize (H i).
  assert (In i (map N.of_nat (seq 0 64))) as I.
  { apply in_map_iff. exists (N.to_nat i). split; [lia|apply in_seq; lia]. }
  specialize (H I). rewrite !andb_true_iff in H. destruct H as [[H1 H2] H3].
  apply eqb_prop in H1, H2. unfold swap_stage64.
  rewrite N.lor_spec, testbit_shlw, testbit_shiftr, !N.land_spec, H2.
  assert (E : (i <? 64) = true) by (apply N.ltb_lt; lia). rewrite E. cbn [andb].
  destruct (N.testbit i (N.log2 k)); apply N.eqb_eq in H3; rewrite H3; cbn [negb].
  - apply andb_true_iff in H1. destruct H1 as [A B]. rewrite A, B, andb_false_r, orb_false_r, andb_true_r. reflexivity.
  - rewrite andb_true_r. apply andb_false_iff in H1. destruct H1 as [A|A]; rewrite A, ?andb_false_r; reflexivity.
Qed.

Lemma testbit_byte_swap64 v i : v < 2 ^ 64 ->
  N.testbit (byte_swap64 v) i = if i <? 64 then N.testbit v (8 * (7 - i / 8) + i mod 8) else false.
Proof.
  intros Hv.
  change (byte_swap64 v) with (swap_stage64 0x00FF00FF00FF00FF 0xFF00FF00FF00FF00 8
    (swap_stage64 0x0000FFFF0000FFFF 0xFFFF0000FFFF0000 16
      (swap_stage64 0x00000000FFFFFFFF 0xFFFFFFFF00000000 32 v))).
  destruct (N.ltb_spec i 64) as [L|L].
  - assert (B : forall j, j < 64 -> N.lxor j 8 < 64 /\ N.lxor (N.lxor j 8) 16 < 64 /\
                 N.lxor (N.lxor (N.lxor j 8) 16) 32 = 8 * (7 - j / 8) + j mod 8).
    { apply (N_lt_cases _ 64). cbn [seq map].
      repeat (apply Forall_cons; [vm_compute; auto|]). apply Forall_nil. }
    destruct (B i L) as (B1 & B2 & B3).
    rewrite swap_stage64_bits by (vm_compute; auto; exact L).
    rewrite swap_stage64_bits by (vm_compute; auto; exact B1).
    rewrite swap_stage64_bits by (vm_compute; auto; exact B2).
    rewrite B3. reflexivity.
  - unfold swap_stage64 at 1. rewrite N.lor_spec, testbit_shlw, testbit_shiftr, N.land_spec.
    assert (E : (i <? 64) = false) by (destruct (N.ltb_spec i 64); [lia|reflexivity]).
    rewrite E. cbn [andb orb]. rewrite N.land_spec.
    rewrite (testbit_high 0xFF00FF00FF00FF00 64) by (reflexivity || lia). apply andb_false_r.
Qed.

Lemma byte_swap32_lt v : v < 2 ^ 32 -> byte_swap32 v < 2 ^ 32.
Proof. intros Hv. apply testbit_lt. intros i Hi. rewrite testbit_byte_swap32 by exact Hv.
  destruct (N.ltb_spec i 32); [lia|reflexivity]. Qed.
Lemma byte_swap64_lt v : v < 2 ^ 64 -> byte_swap64 v < 2 ^ 64.
Proof. intros Hv. apply testbit_lt. intros i Hi. rewrite testbit_byte_swap64 by exact Hv.
  destruct (N.ltb_spec i 64); [lia|reflexivity]. Qed.
Lemma byte_swap16_lt v : v < 2 ^ 16 -> byte_swap16 v < 2 ^ 16.
Proof. intros Hv. apply testbit_lt. intros i Hi. rewrite testbit_byte_swap16 by exact Hv.
  destruct (N.ltb_spec i 16); [lia|reflexivity]. Qed.

(** byte_swap reverses the object representation. *)
Lemma le_bytes_eq n a b : (forall i, i < 8 * N.of_nat n -> N.testbit a i = N.testbit b i) -> le_bytes n a = le_bytes n b.
Proof.
  revert a b; induction n as [|n IH]; intros a b H; [reflexivity|]. cbn [le_bytes]. f_equal.
  - change 256 with (2 ^ 8). apply N.bits_inj; intros i. rewrite !testbit_mod_pow2.
    destruct (N.ltb_spec i 8); cbn [andb]; [|reflexivity]. apply H; lia.
  - apply IH. intros i Hi. change 256 with (2 ^ 8). rewrite !N.div_pow2_bits. apply H; lia.
Qed.

Lemma nth_le_bytes n v k : (k < n)%nat -> nth k (le_bytes n v) 0 = (v / 256 ^ N.of_nat k) mod 256.
Proof.
  revert v k; induction n as [|n IH]; intros v k H; [lia|]. cbn [le_bytes].
  destruct k as [|k]; cbn [nth].
  - change (256 ^ N.of_nat 0) with 1. rewrite N.div_1_r; reflexivity.
  - rewrite IH by lia. rewrite Nat2N.inj_succ, N.pow_succ_r', N.div_div; [reflexivity|lia|].
    apply N.pow_nonzero; lia.
Qed.

Lemma testbit_nth_le_bytes n v k j : (k < n)%nat ->
  N.testbit (nth k (le_bytes n v) 0) j = (j <? 8) && N.testbit v (8 * N.of_nat k + j).
Proof.
  intros H. rewrite nth_le_bytes by exact H. change 256 with (2 ^ 8) at 2. rewrite testbit_mod_pow2.
  f_equal. replace (256 ^ N.of_nat k) with (2 ^ (8 * N.of_nat k)) by (rewrite N.pow_mul_r; reflexivity).
  rewrite N.div_pow2_bits. f_equal; lia.
Qed.

Lemma le_bytes_rev n v v' :
  (forall i, i < 8 * N.of_nat n -> N.testbit v' i = N.testbit v (8 * (N.of_nat n - 1 - i / 8) + i mod 8)) ->
  le_bytes n v' = rev (le_bytes n v).
Proof.
  intros H. apply nth_ext with (d := 0) (d' := 0).
  - rewrite rev_length, !le_bytes_length; reflexivity.
  - intros k Hk. rewrite le_bytes_length in Hk.
    rewrite rev_nth by (rewrite le_bytes_length; exact Hk). rewrite le_bytes_length.
    apply N.bits_inj; intros j. rewrite !testbit_nth_le_bytes by lia.
    destruct (N.ltb_spec j 8) as [J|J]; [|reflexivity]. cbn [andb].
    rewrite H by lia. f_equal; lia.
Qed.

Lemma le_bytes_byte_swap32 v : v < 2 ^ 32 -> le_bytes 4 (byte_swap32 v) = rev (le_bytes 4 v).
Proof.
  intros Hv. apply le_bytes_rev. intros i Hi. rewrite testbit_byte_swap32 by exact Hv.
  destruct (N.ltb_spec i 32); [|lia]. reflexivity.
Qed.
Lemma le_bytes_byte_swap64 v : v < 2 ^ 64 -> le_bytes 8 (byte_swap64 v) = rev (le_bytes 8 v).
Proof.
  intros Hv. apply le_bytes_rev. intros i Hi. rewrite testbit_byte_swap64 by exact Hv.
  destruct (N.ltb_spec i 64); [|lia]. reflexivity.
Qed.
Lemma le_bytes_byte_swap16 v : v < 2 ^ 16 -> le_bytes 2 (byte_swap16 v) = rev (le_bytes 2 v).
Proof.
  intros Hv. apply le_bytes_rev. intros i Hi. rewrite testbit_byte_swap16 by exact Hv.
  destruct (N.ltb_spec i 16); [|lia]. reflexivity.
Qed.

Lemma byte_swap32_involutive v : v < 2 ^ 32 -> byte_swap32 (byte_swap32 v) = v.
Proof.
  intros Hv. pose proof (byte_swap32_lt v Hv) as Hw.
  rewrite <- (of_le_bytes_le_bytes 4 (byte_swap32 _)) by (apply byte_swap32_lt; exact Hw).
  rewrite !le_bytes_byte_swap32, rev_involutive by assumption. apply of_le_bytes_le_bytes; exact Hv.
Qed.
Lemma byte_swap64_involutive v : v < 2 ^ 64 -> byte_swap64 (byte_swap64 v) = v.
Proof.
  intros Hv. pose proof (byte_swap64_lt v Hv) as Hw.
  rewrite <- (of_le_bytes_le_bytes 8 (byte_swap64 _)) by (apply byte_swap64_lt; exact Hw).
  rewrite !le_bytes_byte_swap64, rev_involutive by assumption. apply of_le_bytes_le_bytes; exact Hv.
Qed.
Lemma byte_swap16_involutive v : v < 2 ^ 16 -> byte_swap16 (byte_swap16 v) = v.
Proof.
  intros Hv. pose proof (byte_swap16_lt v Hv) as Hw.
  rewrite <- (of_le_bytes_le_bytes 2 (byte_swap16 _)) by (apply byte_swap16_lt; exact Hw).
  rewrite !le_bytes_byte_swap16, rev_involutive by assumption. apply of_le_bytes_le_bytes; exact Hv.
Qed.

(* ---------- memcpy_bits ---------- *)

Lemma memcpy_bits_byte_bit db sb d s n j :
  db < 256 -> sb < 256 -> d < 8 -> s < 8 -> 1 <= n -> d + n <= 8 -> s + n <= 8 -> j < 8 ->
  N.testbit (memcpy_bits_byte db sb d s n) (7 - j) =
  if (d <=? j) && (j <? d + n) then N.testbit sb (7 - (s + (j - d))) else N.testbit db (7 - j).
Proof.
  intros Hdb Hsb Hd Hs Hn Hdn Hsn Hj. unfold memcpy_bits_byte.
  change 0xFF with (2 ^ 8 - 1).
  assert (Hlt1 : N.shiftr (2 ^ 8 - 1) d < 2 ^ 32).
  { rewrite N.shiftr_div_pow2. apply N.le_lt_trans with (2 ^ 8 - 1); [|reflexivity].
    apply N.div_le_upper_bound; [apply pow2_nz|]. pose proof (pow2_pos d).
    assert (1 * (2 ^ 8 - 1) <= 2 ^ d * (2 ^ 8 - 1)) by (apply N.mul_le_mono_r; lia). lia. }
  rewrite N.lor_spec, N.land_spec, N.lor_spec, !testbit_notw by (exact Hlt1 || apply shlw_lt).
  rewrite !testbit_shlw, N.land_spec, !testbit_shiftr, !testbit_ones_sub1.
  assert (B1 : (7 - j <? 32) = true) by (apply N.ltb_lt; lia). rewrite B1. cbn [andb].
  destruct (N.leb_spec d j) as [L1|L1]; cbn [andb].
  - destruct (N.ltb_spec j (d + n)) as [L2|L2].
    + (* copied bit *)
      assert (B2 : (7 - j + d <? 8) = true) by (apply N.ltb_lt; lia).
      assert (B3 : (8 - n - d <=? 7 - j) = true) by (apply N.leb_le; lia).
      assert (B4 : (7 - j - (8 - n - d) <? 8) = true) by (apply N.ltb_lt; lia).
      assert (B5 : (7 - j - (8 - n - d) + (8 - n) <? 8) = true) by (apply N.ltb_lt; lia).
      rewrite B2, B3, B4, B5. cbn [andb negb orb]. rewrite andb_false_r, andb_true_r. cbn [orb].
      f_equal; lia.
    + (* after the range *)
      assert (B3 : (8 - n - d <=? 7 - j) = false) by (apply N.leb_gt; lia).
      rewrite B3. cbn [andb negb orb]. rewrite orb_true_r, andb_true_r, orb_false_r. reflexivity.
  - assert (B2 : (7 - j + d <? 8) = false) by (apply N.ltb_ge; lia).
    rewrite B2. cbn [negb orb]. rewrite andb_true_r.
    assert (B5 : (7 - j - (8 - n - d) + (8 - n) <? 8) = false \/ (8 - n - d <=? 7 - j) = false).
    { destruct (N.leb_spec (8 - n - d) (7 - j)); [left; apply N.ltb_ge; lia|right; reflexivity]. }
    destruct B5 as [B5|B5]; rewrite B5, ?andb_false_r; cbn [andb]; apply orb_false_r.
Qed.

Lemma memcpy_bits_byte_lt db sb d s n :
  db < 256 -> sb < 256 -> d < 8 -> s < 8 -> 1 <= n -> d + n <= 8 -> s + n <= 8 ->
  memcpy_bits_byte db sb d s n < 256.
Proof.
  intros Hdb Hsb Hd Hs Hn Hdn Hsn. change 256 with (2 ^ 8). apply testbit_lt. intros i Hi.
  unfold memcpy_bits_byte. rewrite N.lor_spec, N.land_spec, (testbit_high db 8 Hdb i Hi). cbn [andb orb].
  rewrite testbit_shlw, N.land_spec. change 0xFF with (2 ^ 8 - 1). rewrite testbit_shiftr with (x := 2 ^ 8 - 1).
  rewrite testbit_ones_sub1.
  destruct (N.leb_spec (8 - n - d) i) as [L|L]; [|rewrite andb_false_r; reflexivity].
  assert (B : (i - (8 - n - d) + (8 - n) <? 8) = false) by (apply N.ltb_ge; lia).
  rewrite B, !andb_false_r. reflexivity.
Qed.

Definition memcpy_bits_post (dest : list N) (dbo : N) (src : list N) (sbo n : N) (dest' : list N) : Prop :=
  length dest' = length dest /\ bytes_ok dest' /\
  forall i, mbit dest' i = if (dbo <=? i) && (i <? dbo + n) then mbit src (sbo + (i - dbo)) else mbit dest i.

Lemma memcpy_bits_step dest dbo src sbo n c :
  bytes_ok dest -> bytes_ok src ->
  dbo / 8 < blen dest -> sbo / 8 < blen src -> 1 <= n ->
  c = memcpy_bits_count (dbo mod 8) (sbo mod 8) n ->
  memcpy_bits_post dest dbo src sbo c
    (upd dest (N.to_nat (dbo / 8))
       (wrapw 8 (memcpy_bits_byte (nth (N.to_nat (dbo / 8)) dest 0) (nth (N.to_nat (sbo / 8)) src 0) (dbo mod 8) (sbo mod 8) c))).
Proof.
  intros Hd Hs Ld Ls Hn Hc.
  assert (C1 : 1 <= c /\ dbo mod 8 + c <= 8 /\ sbo mod 8 + c <= 8).
  { unfold memcpy_bits_count in Hc. lia. }
  destruct C1 as (C1 & C2 & C3).
  pose proof (bytes_ok_nth dest (N.to_nat (dbo / 8)) Hd) as Bd.
  pose proof (bytes_ok_nth src (N.to_nat (sbo / 8)) Hs) as Bs.
  set (nb := memcpy_bits_byte _ _ _ _ _).
  assert (Hnb : nb < 2 ^ 8) by (apply memcpy_bits_byte_lt; auto; lia).
  rewrite wrapw_small by exact Hnb.
  split; [apply upd_length|]. split; [apply Forall_upd; auto|].
  intros i. rewrite mbit_upd by exact Ld.
  destruct (N.eqb_spec (i / 8) (dbo / 8)) as [E|E].
  - unfold nb. rewrite memcpy_bits_byte_bit by (auto; lia).
    destruct (N.leb_spec (dbo mod 8) (i mod 8)) as [L1|L1]; destruct (N.leb_spec dbo i) as [L2|L2]; cbn [andb]; try lia.
    + destruct (N.ltb_spec (i mod 8) (dbo mod 8 + c)) as [L3|L3]; destruct (N.ltb_spec i (dbo + c)) as [L4|L4]; try lia.
      * unfold mbit. replace ((sbo + (i - dbo)) / 8) with (sbo / 8) by lia.
        replace ((sbo + (i - dbo)) mod 8) with (sbo mod 8 + (i mod 8 - dbo mod 8)) by lia. reflexivity.
      * unfold mbit. rewrite E. reflexivity.
    + unfold mbit. rewrite E. reflexivity.
  - destruct (N.leb_spec dbo i) as [L2|L2]; destruct (N.ltb_spec i (dbo + c)) as [L4|L4]; cbn [andb]; try reflexivity. lia.
Qed.

Lemma memcpy_bits_loop_spec fuel : forall dest dbo src sbo n,
  bytes_ok dest -> bytes_ok src -> 1 <= n -> (N.to_nat n <= fuel)%nat ->
  dbo + n <= 8 * blen dest -> sbo + n <= 8 * blen src ->
  exists dest', memcpy_bits_loop fuel dest dbo src sbo n = Ok dest' /\ memcpy_bits_post dest dbo src sbo n dest'.
Proof.
  induction fuel as [|fuel IH]; intros dest dbo src sbo n Hd Hs Hn Hf Ld Ls; [lia|].
  cbn [memcpy_bits_loop].
  set (c := memcpy_bits_count (dbo mod 8) (sbo mod 8) n).
  rewrite !load8_ok by lia. cbn [bindo]. rewrite store8_ok by lia. cbn [bindo].
  assert (C1 : 1 <= c /\ c <= n /\ dbo mod 8 + c <= 8 /\ sbo mod 8 + c <= 8).
  { unfold c, memcpy_bits_count. lia. }
  pose proof (memcpy_bits_step dest dbo src sbo n c Hd Hs ltac:(lia) ltac:(lia) Hn eq_refl) as P.
  set (d1 := upd _ _ _) in *. destruct P as (P1 & P2 & P3).
  destruct (N.leb_spec n c) as [L|L].
  - exists d1. split; [reflexivity|]. replace n with c by lia. split; [exact P1|split; [exact P2|exact P3]].
  - destruct (IH d1 (dbo + c) src (sbo + c) (n - c)) as (d2 & E & Q1 & Q2 & Q3); auto; try lia.
    { unfold blen; rewrite P1. unfold blen in Ld. lia. }
    exists d2. split; [exact E|]. split; [congruence|]. split; [exact Q2|].
    intros i. rewrite Q3, P3.
    destruct (N.leb_spec (dbo + c) i); destruct (N.ltb_spec i (dbo + c + (n - c)));
    destruct (N.leb_spec dbo i); destruct (N.ltb_spec i (dbo + c)); destruct (N.ltb_spec i (dbo + n));
    cbn [andb]; try lia; try reflexivity. f_equal; lia.
Qed.

Lemma memcpy_bits_spec dest dbo src sbo n :
  bytes_ok dest -> bytes_ok src -> dbo + n <= 8 * blen dest -> sbo + n <= 8 * blen src ->
  exists dest', memcpy_bits dest dbo src sbo n = Ok dest' /\ memcpy_bits_post dest dbo src sbo n dest'.
Proof.
  intros Hd Hs Ld Ls. unfold memcpy_bits.
  destruct (N.eqb_spec n 0) as [->|Hn].
  - exists dest. split; [reflexivity|]. split; [reflexivity|]. split; [exact Hd|].
    intros i. destruct (N.leb_spec dbo i); destruct (N.ltb_spec i (dbo + 0)); cbn [andb]; try lia; reflexivity.
  - apply memcpy_bits_loop_spec; auto; lia.
Qed.

(** The ranges are also necessary: any access outside either buffer is reported as [UB]. *)
Lemma memcpy_bits_loop_oob fuel : forall dest dbo src sbo n,
  bytes_ok dest -> bytes_ok src -> 1 <= n -> (N.to_nat n <= fuel)%nat ->
  8 * blen dest < dbo + n \/ 8 * blen src < sbo + n ->
  memcpy_bits_loop fuel dest dbo src sbo n = UB.
Proof.
  induction fuel as [|fuel IH]; intros dest dbo src sbo n Hd Hs Hn Hf L; [lia|].
  cbn [memcpy_bits_loop].
  set (c := memcpy_bits_count (dbo mod 8) (sbo mod 8) n).
  destruct (N.lt_ge_cases (dbo / 8) (blen dest)) as [A|A]; [|rewrite load8_oob by exact A; reflexivity].
  rewrite load8_ok by exact A. cbn [bindo].
  destruct (N.lt_ge_cases (sbo / 8) (blen src)) as [B|B]; [|rewrite load8_oob by exact B; reflexivity].
  rewrite load8_ok by exact B. cbn [bindo]. rewrite store8_ok by exact A. cbn [bindo].
  assert (C1 : 1 <= c /\ c <= n /\ dbo mod 8 + c <= 8 /\ sbo mod 8 + c <= 8).
  { unfold c, memcpy_bits_count. lia. }
  pose proof (memcpy_bits_step dest dbo src sbo n c Hd Hs A B Hn eq_refl) as P.
  set (d1 := upd _ _ _) in *. destruct P as (P1 & P2 & P3).
  destruct (N.leb_spec n c) as [K|K]; [lia|].
  apply IH; auto; try lia. unfold blen in *; rewrite P1; lia.
Qed.

Lemma memcpy_bits_oob dest dbo src sbo n :
  bytes_ok dest -> bytes_ok src -> n <> 0 -> 8 * blen dest < dbo + n \/ 8 * blen src < sbo + n ->
  memcpy_bits dest dbo src sbo n = UB.
Proof.
  intros Hd Hs Hn L. unfold memcpy_bits. destruct (N.eqb_spec n 0) as [->|_]; [congruence|].
  apply memcpy_bits_loop_oob; auto; lia.
Qed.
