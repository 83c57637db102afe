From Coq Require Import Lia ZifyBool ZifyNat ZifyN.
From Verif Require Export MemoryFacts Packing PackSpec.
Open Scope N_scope.
Ltac Zify.zify_post_hook ::= Z.div_mod_to_equations.

Lemma Ok_inj {A} (a b : A) : Ok a = Ok b -> a = b.
Proof. congruence. Qed.

Lemma field_at_unique m p n v v' : v < 2 ^ n -> v' < 2 ^ n -> field_at m p n v -> field_at m p n v' -> v = v'.
Proof.
  intros Hv Hv' F F'. apply N.bits_inj. intros i.
  destruct (N.lt_ge_cases i n) as [L|L].
  - pose proof (F (n - 1 - i) ltac:(lia)) as A. pose proof (F' (n - 1 - i) ltac:(lia)) as B.
    replace (n - 1 - (n - 1 - i)) with i in A, B by lia. congruence.
  - rewrite (testbit_high v n Hv i L), (testbit_high v' n Hv' i L). reflexivity.
Qed.

Lemma field_at_ext m m' p n v : (forall i, p <= i < p + n -> mbit m i = mbit m' i) -> field_at m p n v -> field_at m' p n v.
Proof. intros H F j Hj. rewrite <- (H (p + j)) by lia. apply F; exact Hj. Qed.

Lemma fields_at_ext m m' n vs : forall p, (forall i, p <= i < p + n * blen vs -> mbit m i = mbit m' i) ->
  fields_at m p n vs -> fields_at m' p n vs.
Proof.
  induction vs as [|v vs IH]; intros p H F; [exact I|]. destruct F as [F1 F2]. unfold blen in H. cbn [length] in H. split.
  - eapply field_at_ext; [|exact F1]. intros i Hi. apply H. nia.
  - eapply IH; [|exact F2]. intros i Hi. apply H. unfold blen in Hi. nia.
Qed.

Lemma fields_at_shift m m' p p' n vs : (forall j, j < n * blen vs -> mbit m (p + j) = mbit m' (p' + j)) ->
  fields_at m p n vs -> fields_at m' p' n vs.
Proof.
  revert p p'. induction vs as [|v vs IH]; intros p p' H F; [exact I|]. destruct F as [F1 F2].
  unfold blen in H. cbn [length] in H. split.
  - intros j Hj. rewrite <- H by nia. apply F1; exact Hj.
  - eapply IH; [|exact F2]. intros j Hj. unfold blen in Hj. rewrite <- !N.add_assoc. apply H. nia.
Qed.

(** the bits of a big-endian load *)
Lemma testbit_be32 m o v i : bytes_ok m -> load_le m o 4 = Ok v -> i < 32 ->
  N.testbit (byte_swap32 v) (31 - i) = mbit m (8 * o + i).
Proof.
  intros Hm E Hi. pose proof (load_le_lt m o 4 v Hm E) as Hv. change (8 * N.of_nat 4) with 32 in Hv.
  rewrite testbit_byte_swap32 by exact Hv. replace (31 - i <? 32) with true by lia.
  rewrite (testbit_load_le m o 4 v _ Hm E). change (8 * N.of_nat 4) with 32.
  replace (8 * (3 - (31 - i) / 8) + (31 - i) mod 8 <? 32) with true by lia.
  unfold mbit. f_equal; [f_equal; lia|lia].
Qed.

Lemma testbit_be64 m o v i : bytes_ok m -> load_le m o 8 = Ok v -> i < 64 ->
  N.testbit (byte_swap64 v) (63 - i) = mbit m (8 * o + i).
Proof.
  intros Hm E Hi. pose proof (load_le_lt m o 8 v Hm E) as Hv. change (8 * N.of_nat 8) with 64 in Hv.
  rewrite testbit_byte_swap64 by exact Hv. replace (63 - i <? 64) with true by lia.
  rewrite (testbit_load_le m o 8 v _ Hm E). change (8 * N.of_nat 8) with 64.
  replace (8 * (7 - (63 - i) / 8) + (63 - i) mod 8 <? 64) with true by lia.
  unfold mbit. f_equal; [f_equal; lia|lia].
Qed.

Lemma mask_val n : n <= 23 -> subw 32 (shlw 32 1 n) 1 = 2 ^ n - 1.
Proof.
  intros H. unfold shlw. rewrite N.shiftl_1_l. assert (P : 2 ^ n < 2 ^ 32) by (apply pow2_lt; lia).
  rewrite N.mod_small by exact P. apply subw_ge; [exact P|pose proof (pow2_pos n); lia].
Qed.

Lemma unpack_component_uXX_spec n m p : bytes_ok m -> 1 <= n <= 23 -> p / 8 + 4 <= blen m ->
  exists v, unpack_component_uXX n m p = Ok v /\ v < 2 ^ n /\ field_at m p n v.
Proof.
  intros Hm Hn Hb. unfold unpack_component_uXX.
  replace (23 <? n) with false by lia.
  destruct (load_le_ok m (p / 8) 4) as [u Eu]; [exact Hb|]. rewrite Eu. cbn [bindo].
  rewrite (subw_ge 32 32 n) by (lia || (change (2 ^ 32) with 4294967296; lia)).
  rewrite (subw_ge 32 (32 - n) (p mod 8)) by (lia || (change (2 ^ 32) with 4294967296; lia)).
  unfold shr32c. replace (32 - n - p mod 8 <? 32) with true by lia. cbn [bindo].
  rewrite mask_val by lia. rewrite land_ones_mod.
  eexists. split; [reflexivity|]. split; [apply N.mod_lt; apply N.pow_nonzero; discriminate|].
  intros j Hj. rewrite testbit_mod_pow2. replace (n - 1 - j <? n) with true by lia. cbn [andb].
  rewrite testbit_shiftr.
  replace (n - 1 - j + (32 - n - p mod 8)) with (31 - (p mod 8 + j)) by lia.
  rewrite (testbit_be32 m (p / 8) u) by (assumption || lia). f_equal; lia.
Qed.

Lemma unpack_uXX_spec k n m : forall p, bytes_ok m -> 1 <= n <= 23 ->
  p + n * N.of_nat k < 2 ^ 32 -> (k <> 0%nat -> (p + n * (N.of_nat k - 1)) / 8 + 4 <= blen m) ->
  exists vs, unpack_uXX k n m p = Ok vs /\ length vs = k /\ Forall (fun v => v < 2 ^ n) vs /\ fields_at m p n vs.
Proof.
  induction k as [|k IH]; intros p Hm Hn Ho Hb; cbn [unpack_uXX].
  - exists []. repeat split; constructor.
  - assert (P : p <= p + n * (N.of_nat (S k) - 1)) by nia.
    assert (Q : p / 8 <= (p + n * (N.of_nat (S k) - 1)) / 8) by (apply N.div_le_mono; [discriminate|exact P]).
    specialize (Hb ltac:(discriminate)).
    destruct (unpack_component_uXX_spec n m p Hm Hn ltac:(lia)) as (v & E & Hv & F). rewrite E. cbn [bindo].
    rewrite addw_small by nia.
    destruct (IH (p + n)) as (vs & E2 & L & W & F2); [assumption|assumption|nia| |].
    { intros Hk. replace (p + n + n * (N.of_nat k - 1)) with (p + n * (N.of_nat (S k) - 1)) by nia. exact Hb. }
    rewrite E2. cbn [bindo]. exists (v :: vs). split; [reflexivity|]. split; [cbn; lia|]. split; [constructor; assumption|].
    split; assumption.
Qed.

Lemma fields_at_unique m n vs vs' : forall p, length vs = length vs' -> Forall (fun v => v < 2 ^ n) vs ->
  Forall (fun v => v < 2 ^ n) vs' -> fields_at m p n vs -> fields_at m p n vs' -> vs = vs'.
Proof.
  revert vs'. induction vs as [|v vs IH]; intros [|v' vs'] p L W W' F F'; try discriminate L; [reflexivity|].
  inversion W; inversion W'; subst. destruct F as [F1 F2], F' as [F1' F2']. f_equal.
  - eapply field_at_unique; eassumption.
  - eapply IH; try eassumption. cbn in L; lia.
Qed.

(** reading what is there *)
Lemma unpack_uXX_fields k n m p vs : bytes_ok m -> 1 <= n <= 23 ->
  p + n * N.of_nat k < 2 ^ 32 -> (k <> 0%nat -> (p + n * (N.of_nat k - 1)) / 8 + 4 <= blen m) ->
  length vs = k -> Forall (fun v => v < 2 ^ n) vs -> fields_at m p n vs -> unpack_uXX k n m p = Ok vs.
Proof.
  intros Hm Hn Ho Hb L W F. destruct (unpack_uXX_spec k n m p Hm Hn Ho Hb) as (vs' & E & L' & W' & F').
  rewrite E. f_equal. eapply fields_at_unique; try eassumption. congruence.
Qed.

Lemma unpack_component_32_spec m o s : bytes_ok m -> s < 8 -> o + 8 <= blen m ->
  exists v, unpack_component_32 m o s = Ok v /\ v < 2 ^ 32 /\ field_at m (8 * o + s) 32 v.
Proof.
  intros Hm Hs Hb. unfold unpack_component_32.
  destruct (load_le_ok m o 8) as [u Eu]; [exact Hb|]. rewrite Eu. cbn [bindo].
  unfold shl64c. replace (s <? 64) with true by lia. cbn [bindo].
  eexists. split; [reflexivity|]. split; [unfold wrapw; apply N.mod_lt; discriminate|].
  intros j Hj. rewrite testbit_wrapw. replace (32 - 1 - j <? 32) with true by lia. cbn [andb].
  rewrite testbit_shiftr, testbit_shlw.
  replace (32 - 1 - j + 32 <? 64) with true by lia. replace (s <=? 32 - 1 - j + 32) with true by lia. cbn [andb].
  replace (32 - 1 - j + 32 - s) with (63 - (s + j)) by lia.
  rewrite (testbit_be64 m o u) by (assumption || lia). f_equal; lia.
Qed.

Lemma unpack_32_loop_spec k m s : forall o, bytes_ok m -> s < 8 -> (k <> 0%nat -> o + 4 * (N.of_nat k - 1) + 8 <= blen m) ->
  exists vs, unpack_32_loop k m o s = Ok vs /\ length vs = k /\ Forall (fun v => v < 2 ^ 32) vs /\ fields_at m (8 * o + s) 32 vs.
Proof.
  induction k as [|k IH]; intros o Hm Hs Hb; cbn [unpack_32_loop].
  - exists []. repeat split; constructor.
  - destruct (unpack_component_32_spec m o s Hm Hs ltac:(lia)) as (v & E & Hv & F). rewrite E. cbn [bindo].
    destruct (IH (o + 4)) as (vs & E2 & L & W & F2); [assumption|assumption|lia|].
    rewrite E2. cbn [bindo]. exists (v :: vs). split; [reflexivity|]. split; [cbn; lia|]. split; [constructor; assumption|].
    split; [assumption|]. replace (8 * o + s + 32) with (8 * (o + 4) + s) by lia. assumption.
Qed.

Lemma unpack_32_fields k m p vs : bytes_ok m -> (k <> 0%nat -> p / 8 + 4 * (N.of_nat k - 1) + 8 <= blen m) ->
  length vs = k -> Forall (fun v => v < 2 ^ 32) vs -> fields_at m p 32 vs -> unpack_32 k m p = Ok vs.
Proof.
  intros Hm Hb L W F. unfold unpack_32.
  destruct (unpack_32_loop_spec k m (p mod 8) (p / 8) Hm ltac:(lia) Hb) as (vs' & E & L' & W' & F').
  replace (8 * (p / 8) + p mod 8) with p in F' by lia.
  rewrite E. f_equal. eapply fields_at_unique; try eassumption. congruence.
Qed.

(* ---------- writers ---------- *)

Lemma mbit_le_swap64 v i : v < 2 ^ 64 -> i < 64 -> mbit (le_bytes 8 (byte_swap64 v)) i = N.testbit v (63 - i).
Proof.
  intros Hv Hi. unfold mbit. rewrite testbit_nth_le_bytes by lia. replace (7 - i mod 8 <? 8) with true by lia. cbn [andb].
  rewrite N2Nat.id, testbit_byte_swap64 by exact Hv.
  replace (8 * (i / 8) + (7 - i mod 8) <? 64) with true by lia. f_equal; lia.
Qed.

Lemma mbit_le_swap32 v i : v < 2 ^ 32 -> i < 32 -> mbit (le_bytes 4 (byte_swap32 v)) i = N.testbit v (31 - i).
Proof.
  intros Hv Hi. unfold mbit. rewrite testbit_nth_le_bytes by lia. replace (7 - i mod 8 <? 8) with true by lia. cbn [andb].
  rewrite N2Nat.id, testbit_byte_swap32 by exact Hv.
  replace (8 * (i / 8) + (7 - i mod 8) <? 32) with true by lia. f_equal; lia.
Qed.

Lemma mbit_app_l a b i : i < 8 * blen a -> mbit (a ++ b) i = mbit a i.
Proof. intros H. unfold mbit. f_equal. apply app_nth1. unfold blen in H. lia. Qed.

Lemma mbit_app_r a b i : 8 * blen a <= i -> mbit (a ++ b) i = mbit b (i - 8 * blen a).
Proof. intros H. unfold mbit. f_equal; [|lia]. rewrite app_nth2 by (unfold blen in H; lia). f_equal. unfold blen in *. lia. Qed.

Lemma mbit_skipn m k i : mbit (skipn k m) i = mbit m (8 * N.of_nat k + i).
Proof.
  unfold mbit. f_equal; [|lia].
  replace (N.to_nat ((8 * N.of_nat k + i) / 8)) with (k + N.to_nat (i / 8))%nat by lia.
  revert m; induction k as [|k IH]; intros m; [reflexivity|]. destruct m as [|x m]; [cbn; destruct (N.to_nat _); reflexivity|]. cbn. apply IH.
Qed.

Lemma write64_spec v out : v < 2 ^ 64 -> bytes_ok out -> 8 <= blen out ->
  exists out', unaligned_write64 (byte_swap64 v) out = Ok out' /\ bytes_ok out' /\ length out' = length out /\
  (forall i, i < 64 -> mbit out' i = N.testbit v (63 - i)) /\ (forall i, 64 <= i -> mbit out' i = mbit out i).
Proof.
  intros Hv Ho L. unfold unaligned_write64, store_bytes.
  assert (B8 : blen (le_bytes 8 (byte_swap64 v)) = 8) by (unfold blen; rewrite le_bytes_length; reflexivity).
  rewrite B8. replace (0 + 8 <=? blen out) with true by lia.
  change (N.to_nat 0) with 0%nat. cbn [firstn]. rewrite le_bytes_length. change (0 + 8)%nat with 8%nat.
  eexists. split; [reflexivity|]. cbn [app]. split; [|split; [|split]].
  - apply bytes_ok_app; [apply le_bytes_ok|apply bytes_ok_skipn; exact Ho].
  - rewrite app_length, le_bytes_length, skipn_length. unfold blen in L. lia.
  - intros i Hi. rewrite mbit_app_l by (rewrite B8; lia). apply mbit_le_swap64; assumption.
  - intros i Hi. rewrite mbit_app_r by (rewrite B8; lia). rewrite B8, mbit_skipn. f_equal; lia.
Qed.

Lemma shlw_lt w x n : shlw w x n < 2 ^ w.
Proof. unfold shlw. apply N.mod_lt. apply N.pow_nonzero; discriminate. Qed.

Lemma lor_lt w a b : a < 2 ^ w -> b < 2 ^ w -> N.lor a b < 2 ^ w.
Proof.
  intros Ha Hb. apply testbit_lt. intros i Hi. rewrite N.lor_spec, (testbit_high a w Ha i Hi), (testbit_high b w Hb i Hi). reflexivity.
Qed.

Lemma shl64c_ok x n : n < 64 -> shl64c x n = Ok (shlw 64 x n).
Proof. intros H. unfold shl64c. replace (n <? 64) with true by lia. reflexivity. Qed.
Lemma shl32c_ok x n : n < 32 -> shl32c x n = Ok (shlw 32 x n).
Proof. intros H. unfold shl32c. replace (n <? 32) with true by lia. reflexivity. Qed.

(** a component shifted to bit position [p] from the top of a [w]-bit word shows up exactly there *)
Lemma testbit_top w p n v i : p + n <= w -> v < 2 ^ n -> i < w ->
  N.testbit (shlw w v (w - p - n)) (w - 1 - i) = (p <=? i) && (i <? p + n) && N.testbit v (n - 1 - (i - p)).
Proof.
  intros Hp Hv Hi. rewrite testbit_shlw. replace (w - 1 - i <? w) with true by lia. cbn [andb].
  destruct (N.leb_spec p i) as [A|A], (N.ltb_spec i (p + n)) as [B|B]; cbn [andb]; try lia.
  - replace (w - p - n <=? w - 1 - i) with true by lia. cbn [andb]. f_equal; lia.
  - replace (w - p - n <=? w - 1 - i) with true by lia. cbn [andb].
    apply (testbit_high v n Hv). lia.
Qed.

Ltac consts := change (2 ^ 32) with 4294967296; change (2 ^ 64) with 18446744073709551616.

Lemma scalar_be_bytes_spec n v : 1 <= n <= 32 -> v < 2 ^ n ->
  exists l, scalar_be_bytes n v = Ok l /\ bytes_ok l /\ blen l = 4 /\ field_at l 0 n v.
Proof.
  intros Hn Hv. unfold scalar_be_bytes.
  rewrite (subw_ge 32 32 n) by (lia || (consts; lia)).
  rewrite shl32c_ok by lia. cbn [bindo]. eexists. split; [reflexivity|]. split; [apply le_bytes_ok|].
  split; [unfold blen; rewrite le_bytes_length; reflexivity|].
  intros j Hj. rewrite N.add_0_l, mbit_le_swap32 by (apply shlw_lt || lia).
  replace (32 - n) with (32 - 0 - n) by lia. replace (31 - j) with (32 - 1 - j) by lia.
  rewrite testbit_top by (assumption || lia).
  replace (0 <=? j) with true by lia. replace (j <? 0 + n) with true by lia. cbn [andb]. f_equal; lia.
Qed.

Lemma muln k n : n <= 23 -> k <= 4 -> mulw 32 n k = n * k.
Proof. intros Hn Hk. apply mulw_small. consts. nia. Qed.
Lemma sub64 k : k <= 64 -> subw 32 64 k = 64 - k.
Proof. intros H. apply subw_ge; [consts; lia|exact H]. Qed.

Lemma pack2_spec n x y out : 1 <= n <= 23 -> x < 2 ^ n -> y < 2 ^ n -> bytes_ok out -> 8 <= blen out ->
  exists out', pack_vector2_uXX x y n out = Ok out' /\ bytes_ok out' /\ length out' = length out /\ fields_at out' 0 n [x; y].
Proof.
  intros Hn Hx Hy Ho L. unfold pack_vector2_uXX.
  rewrite !muln by lia. rewrite !sub64 by lia. rewrite !shl64c_ok by lia. cbn [bindo].
  destruct (write64_spec (N.lor (shlw 64 x (64 - n * 1)) (shlw 64 y (64 - n * 2))) out) as (o & E & W & Le & Lo & Hi);
    [apply lor_lt; apply shlw_lt|exact Ho|exact L|].
  exists o. split; [exact E|]. split; [exact W|]. split; [exact Le|].
  assert (T : forall i, i < 64 -> mbit o i = (i <? n) && N.testbit x (n - 1 - i) || (n <=? i) && (i <? 2 * n) && N.testbit y (n - 1 - (i - n))).
  { intros i Hi'. rewrite Lo by exact Hi'. rewrite N.lor_spec.
    replace (63 - i) with (64 - 1 - i) by lia. replace (64 - n * 1) with (64 - 0 - n) by lia. replace (64 - n * 2) with (64 - n - n) by lia.
    rewrite !testbit_top by (assumption || lia). rewrite N.sub_0_r. replace (0 <=? i) with true by lia. cbn [andb].
    replace (0 + n) with n by lia. replace (n + n) with (2 * n) by lia. reflexivity. }
  cbn [fields_at]. split; [|split; [|exact I]]; intros j Hj; rewrite T by lia.
  - replace (0 + j <? n) with true by lia. replace (n <=? 0 + j) with false by lia. cbn. rewrite orb_false_r. f_equal; lia.
  - replace (0 + n + j <? n) with false by lia. replace (n <=? 0 + n + j) with true by lia.
    replace (0 + n + j <? 2 * n) with true by lia. cbn. f_equal; lia.
Qed.

(** three components in one 64-bit word *)
Lemma pack3w_spec n x y z out : 1 <= n <= 21 -> x < 2 ^ n -> y < 2 ^ n -> z < 2 ^ n -> bytes_ok out -> 8 <= blen out ->
  exists out', unaligned_write64 (byte_swap64 (N.lor (N.lor (shlw 64 x (64 - n * 1)) (shlw 64 y (64 - n * 2))) (shlw 64 z (64 - n * 3)))) out = Ok out' /\
    bytes_ok out' /\ length out' = length out /\ fields_at out' 0 n [x; y; z].
Proof.
  intros Hn Hx Hy Hz Ho L.
  destruct (write64_spec (N.lor (N.lor (shlw 64 x (64 - n * 1)) (shlw 64 y (64 - n * 2))) (shlw 64 z (64 - n * 3))) out) as (o & E & W & Le & Lo & Hi);
    [repeat apply lor_lt; apply shlw_lt|exact Ho|exact L|].
  exists o. split; [exact E|]. split; [exact W|]. split; [exact Le|].
  assert (T : forall i, i < 64 -> mbit o i = (i <? n) && N.testbit x (n - 1 - i) || (n <=? i) && (i <? 2 * n) && N.testbit y (n - 1 - (i - n))
                || (2 * n <=? i) && (i <? 3 * n) && N.testbit z (n - 1 - (i - 2 * n))).
  { intros i Hi'. rewrite Lo by exact Hi'. rewrite !N.lor_spec.
    replace (63 - i) with (64 - 1 - i) by lia. replace (64 - n * 1) with (64 - 0 - n) by lia.
    replace (64 - n * 2) with (64 - n - n) by lia. replace (64 - n * 3) with (64 - 2 * n - n) by lia.
    rewrite !testbit_top by (assumption || lia). rewrite N.sub_0_r. replace (0 <=? i) with true by lia. cbn [andb].
    replace (0 + n) with n by lia. replace (2 * n + n) with (3 * n) by lia. replace (n + n) with (2 * n) by lia. reflexivity. }
  cbn [fields_at]. split; [|split; [|split; [|exact I]]]; intros j Hj; rewrite T by lia.
  - replace (0 + j <? n) with true by lia. replace (n <=? 0 + j) with false by lia. replace (2 * n <=? 0 + j) with false by lia.
    cbn. rewrite !orb_false_r. f_equal; lia.
  - replace (0 + n + j <? n) with false by lia. replace (n <=? 0 + n + j) with true by lia.
    replace (0 + n + j <? 2 * n) with true by lia. replace (2 * n <=? 0 + n + j) with false by lia. cbn. rewrite orb_false_r. f_equal; lia.
  - replace (0 + n + n + j <? n) with false by lia. replace (0 + n + n + j <? 2 * n) with false by lia.
    replace (2 * n <=? 0 + n + n + j) with true by lia. replace (0 + n + n + j <? 3 * n) with true by lia.
    rewrite andb_false_r. cbn. f_equal; lia.
Qed.

(** append one field with memcpy_bits after existing fields *)
Lemma append_fields m n vs src ws : bytes_ok m -> bytes_ok src -> 1 <= n ->
  n * blen vs + n * blen ws <= 8 * blen m -> n * blen ws <= 8 * blen src ->
  fields_at m 0 n vs -> fields_at src 0 n ws ->
  exists m', memcpy_bits m (n * blen vs) src 0 (n * blen ws) = Ok m' /\ bytes_ok m' /\ length m' = length m /\ fields_at m' 0 n (vs ++ ws).
Proof.
  intros Hm Hs Hn L1 L2 F G. destruct (memcpy_bits_spec m (n * blen vs) src 0 (n * blen ws)) as (m' & E & P1 & P2 & P3); try assumption.
  exists m'. split; [exact E|]. split; [exact P2|]. split; [exact P1|].
  assert (A : fields_at m' 0 n vs).
  { apply (fields_at_ext m); [|exact F]. intros i Hi. rewrite P3.
    replace (n * blen vs <=? i) with false by lia. reflexivity. }
  assert (B : fields_at m' (n * blen vs) n ws).
  { apply (fields_at_shift src m' 0); [|exact G]. intros j Hj. rewrite P3.
    replace (n * blen vs <=? n * blen vs + j) with true by lia.
    replace (n * blen vs + j <? n * blen vs + n * blen ws) with true by lia. cbn [andb]. f_equal; lia. }
  assert (Gn : forall us p, fields_at m' p n us -> fields_at m' (p + n * blen us) n ws -> fields_at m' p n (us ++ ws)).
  { intros us; induction us as [|u us IH]; intros p X Y.
    - unfold blen in Y. cbn in Y. rewrite N.mul_0_r, N.add_0_r in Y. exact Y.
    - destruct X as [X1 X2]. split; [exact X1|]. apply IH; [exact X2|]. unfold blen in *. cbn [length] in Y.
      replace (p + n + n * N.of_nat (length us)) with (p + n * N.of_nat (S (length us))) by lia. exact Y. }
  apply Gn; [exact A|]. rewrite N.add_0_l. exact B.
Qed.

Lemma pack3_spec n x y z out : 1 <= n <= 23 -> x < 2 ^ n -> y < 2 ^ n -> z < 2 ^ n -> bytes_ok out -> 16 <= blen out ->
  exists out', pack_vector3_uXX x y z n out = Ok out' /\ bytes_ok out' /\ length out' = length out /\ fields_at out' 0 n [x; y; z].
Proof.
  intros Hn Hx Hy Hz Ho L. unfold pack_vector3_uXX. rewrite !muln by lia.
  destruct (N.leb_spec 64 (n * 3)) as [C|C].
  - destruct (pack2_spec n x y out Hn Hx Hy Ho ltac:(lia)) as (o & E & W & Le & F).
    unfold pack_vector2_uXX in E. rewrite !muln in E by lia. rewrite !sub64 in * by lia. rewrite !shl64c_ok in * by lia. cbn [bindo] in *.
    rewrite E. cbn [bindo].
    destruct (scalar_be_bytes_spec n z ltac:(lia) Hz) as (l & El & Wl & Bl & Fl). unfold scalar_be_bytes in El.
    rewrite (subw_ge 32 32 n) in * by (lia || (consts; lia)). rewrite shl32c_ok in * by lia. cbn [bindo] in *.
    apply Ok_inj in El. rewrite El.
    destruct (append_fields o n [x; y] l [z] W Wl ltac:(lia)) as (m' & E' & W' & L' & F').
    + unfold blen in *. cbn [length]. lia.
    + rewrite Bl. cbn [length blen]. unfold blen. cbn [length]. lia.
    + exact F.
    + split; [exact Fl|exact I].
    + exists m'. replace (n * blen [x; y]) with (n * 2) in E' by (unfold blen; cbn [length]; lia).
      replace (n * blen [z]) with n in E' by (unfold blen; cbn [length]; lia).
      split; [exact E'|]. split; [exact W'|]. split; [congruence|exact F'].
  - rewrite !sub64 by lia. rewrite !shl64c_ok by lia. cbn [bindo].
    destruct (pack3w_spec n x y z out ltac:(lia) Hx Hy Hz Ho ltac:(lia)) as (o & R). exists o; exact R.
Qed.

Lemma pack4_spec n x y z w out : 1 <= n <= 23 -> x < 2 ^ n -> y < 2 ^ n -> z < 2 ^ n -> w < 2 ^ n -> bytes_ok out -> 16 <= blen out ->
  exists out', pack_vector4_uXX x y z w n out = Ok out' /\ bytes_ok out' /\ length out' = length out /\ fields_at out' 0 n [x; y; z; w].
Proof.
  intros Hn Hx Hy Hz Hw Ho L. unfold pack_vector4_uXX. rewrite !muln by lia.
  destruct (N.leb_spec 64 (n * 3)) as [C|C].
  - destruct (pack2_spec n x y out Hn Hx Hy Ho ltac:(lia)) as (o & E & W & Le & F).
    unfold pack_vector2_uXX in E. rewrite !muln in E by lia. rewrite !sub64 in * by lia. rewrite !shl64c_ok in * by lia. cbn [bindo] in *.
    rewrite E. cbn [bindo].
    destruct (pack2_spec n z w (repeat 0 8) Hn Hz Hw) as (l & El & Wl & Ll & Fl).
    { apply Forall_forall. intros b Hb. apply repeat_spec in Hb. subst b. reflexivity. }
    { unfold blen. cbn. lia. }
    unfold pack_vector2_uXX in El. rewrite !muln in El by lia. rewrite !sub64 in * by lia. rewrite !shl64c_ok in * by lia. cbn [bindo] in *.
    assert (El' : l = le_bytes 8 (byte_swap64 (N.lor (shlw 64 z (64 - n * 1)) (shlw 64 w (64 - n * 2))))).
    { unfold unaligned_write64, store_bytes in El. unfold blen in El. rewrite le_bytes_length in El. cbn [repeat length] in El.
      change (0 + N.of_nat 8 <=? N.of_nat 8) with true in El. apply Ok_inj in El. rewrite <- El.
      change (N.to_nat 0) with 0%nat. cbn [firstn app Nat.add skipn]. apply app_nil_r. }
    rewrite <- El'.
    destruct (append_fields o n [x; y] l [z; w] W Wl ltac:(lia)) as (m' & E' & W' & L' & F').
    + unfold blen in *. cbn [length]. lia.
    + unfold blen. rewrite Ll. cbn [length repeat]. lia.
    + exact F.
    + exact Fl.
    + exists m'. replace (n * blen [x; y]) with (n * 2) in E' by (unfold blen; cbn [length]; lia).
      replace (n * blen [z; w]) with (n * 2) in E' by (unfold blen; cbn [length]; lia).
      split; [exact E'|]. split; [exact W'|]. split; [congruence|exact F'].
  - rewrite !sub64 by lia. rewrite !shl64c_ok by lia. cbn [bindo].
    destruct (pack3w_spec n x y z out ltac:(lia) Hx Hy Hz Ho ltac:(lia)) as (o & E & W & Le & F).
    rewrite E. cbn [bindo].
    destruct (scalar_be_bytes_spec n w ltac:(lia) Hw) as (l & El & Wl & Bl & Fl). unfold scalar_be_bytes in El.
    rewrite (subw_ge 32 32 n) in * by (lia || (consts; lia)). rewrite shl32c_ok in * by lia. cbn [bindo] in *.
    apply Ok_inj in El. rewrite El.
    destruct (append_fields o n [x; y; z] l [w] W Wl ltac:(lia)) as (m' & E' & W' & L' & F').
    + unfold blen in *. cbn [length]. lia.
    + rewrite Bl. unfold blen. cbn [length]. lia.
    + exact F.
    + split; [exact Fl|exact I].
    + exists m'. replace (n * blen [x; y; z]) with (n * 3) in E' by (unfold blen; cbn [length]; lia).
      replace (n * blen [w]) with n in E' by (unfold blen; cbn [length]; lia).
      split; [exact E'|]. split; [exact W'|]. split; [congruence|exact F'].
Qed.

(** [m'] is [m] with only the bits [p, p+n) changed *)
Definition only_changed (m m' : list N) (p n : N) : Prop :=
  length m' = length m /\ bytes_ok m' /\ forall i, i < p \/ p + n <= i -> mbit m' i = mbit m i.

Lemma copy_fields dest p src n vs : bytes_ok dest -> bytes_ok src -> p + n * blen vs <= 8 * blen dest ->
  n * blen vs <= 8 * blen src -> fields_at src 0 n vs ->
  exists d', memcpy_bits dest p src 0 (n * blen vs) = Ok d' /\ only_changed dest d' p (n * blen vs) /\ fields_at d' p n vs.
Proof.
  intros Hd Hs L1 L2 F. destruct (memcpy_bits_spec dest p src 0 (n * blen vs)) as (d' & E & P1 & P2 & P3); try assumption.
  exists d'. split; [exact E|]. split.
  - split; [exact P1|]. split; [exact P2|]. intros i Hi. rewrite P3.
    destruct (N.leb_spec p i), (N.ltb_spec i (p + n * blen vs)); cbn [andb]; try lia; reflexivity.
  - apply (fields_at_shift src d' 0); [|exact F]. intros j Hj. rewrite P3.
    replace (p <=? p + j) with true by lia. replace (p + j <? p + n * blen vs) with true by lia. cbn [andb]. f_equal; lia.
Qed.

Lemma write_component_spec dest p n v : bytes_ok dest -> 1 <= n <= 32 -> v < 2 ^ n -> p + n <= 8 * blen dest ->
  exists d', write_component dest p n v = Ok d' /\ only_changed dest d' p n /\ field_at d' p n v.
Proof.
  intros Hd Hn Hv L. unfold write_component. destruct (scalar_be_bytes_spec n v Hn Hv) as (l & E & W & B & F).
  rewrite E. cbn [bindo].
  destruct (copy_fields dest p l n [v]) as (d' & E' & O & G); try assumption.
  - unfold blen at 1. cbn [length]. lia.
  - rewrite B. unfold blen. cbn [length]. lia.
  - split; [exact F|exact I].
  - replace (n * blen [v]) with n in * by (unfold blen; cbn [length]; lia). exists d'. destruct G. auto.
Qed.

Lemma write_components_spec n vs : forall dest p, bytes_ok dest -> 1 <= n <= 32 -> Forall (fun v => v < 2 ^ n) vs ->
  p + n * blen vs <= 8 * blen dest ->
  exists d', write_components dest p n vs = Ok d' /\ only_changed dest d' p (n * blen vs) /\ fields_at d' p n vs.
Proof.
  induction vs as [|v vs IH]; intros dest p Hd Hn Hv L; cbn [write_components].
  - exists dest. repeat split; auto.
  - inversion Hv as [|? ? H1 H2]; subst. unfold blen in *. cbn [length] in *.
    destruct (write_component_spec dest p n v Hd Hn H1) as (d1 & E1 & (A1 & A2 & A3) & F1); [unfold blen; nia|].
    rewrite E1. cbn [bindo].
    destruct (IH d1 (p + n) A2 Hn H2) as (d2 & E2 & (B1 & B2 & B3) & F2); [nia|].
    exists d2. split; [exact E2|]. split.
    + split; [congruence|]. split; [exact B2|]. intros i Hi. rewrite B3 by nia. apply A3. nia.
    + split; [|exact F2]. eapply field_at_ext; [|exact F1]. intros i Hi. symmetry. apply B3. left. lia.
Qed.

Lemma shlw32_0 v : v < 2 ^ 32 -> shlw 32 v 0 = v.
Proof. intros H. unfold shlw. rewrite N.shiftl_0_r. apply N.mod_small; exact H. Qed.

Lemma write_raw_components vs : forall dest p, Forall (fun v => v < 2 ^ 32) vs -> write_raw dest p vs = write_components dest p 32 vs.
Proof.
  induction vs as [|v vs IH]; intros dest p H; [reflexivity|]. inversion H; subst. cbn [write_raw write_components].
  unfold write_component, write_raw_component, scalar_be_bytes. change (subw 32 32 32) with 0. rewrite shl32c_ok by reflexivity. cbn [bindo].
  rewrite shlw32_0 by assumption. destruct (memcpy_bits _ _ _ _ _); cbn [bindo]; auto.
Qed.

Lemma packed_roundtrip k n dest p packed vs : bytes_ok dest -> bytes_ok packed -> 1 <= n <= 23 -> length vs = k -> k <> 0%nat ->
  Forall (fun v => v < 2 ^ n) vs -> fields_at packed 0 n vs -> n * N.of_nat k <= 8 * blen packed ->
  p + n * N.of_nat k < 2 ^ 32 -> (p + n * (N.of_nat k - 1)) / 8 + 4 <= blen dest ->
  exists d', memcpy_bits dest p packed 0 (n * N.of_nat k) = Ok d' /\ only_changed dest d' p (n * N.of_nat k) /\ unpack_uXX k n d' p = Ok vs.
Proof.
  intros Hd Hp Hn Hk K0 Hv F L1 L2 L3.
  assert (B : blen vs = N.of_nat k) by (unfold blen; lia).
  destruct (copy_fields dest p packed n vs) as (d' & E & O & G); try assumption; rewrite ?B; try assumption; try nia.
  rewrite B in *. exists d'. split; [exact E|]. split; [exact O|]. destruct O as (O1 & O2 & O3).
  apply unpack_uXX_fields; auto. intros _. unfold blen in *. rewrite O1. exact L3.
Qed.

Lemma pack2_roundtrip n x y scratch dest p : 1 <= n <= 23 -> x < 2 ^ n -> y < 2 ^ n ->
  bytes_ok scratch -> 16 <= blen scratch -> bytes_ok dest -> p + n * 2 < 2 ^ 32 -> (p + n) / 8 + 4 <= blen dest ->
  exists packed d', pack_vector2_uXX x y n scratch = Ok packed /\ memcpy_bits dest p packed 0 (n * 2) = Ok d' /\
    only_changed dest d' p (n * 2) /\ unpack_uXX 2 n d' p = Ok [x; y].
Proof.
  intros Hn Hx Hy Hs Ls Hd L2 L3.
  destruct (pack2_spec n x y scratch Hn Hx Hy Hs ltac:(lia)) as (o & E & W & Le & F).
  destruct (packed_roundtrip 2 n dest p o [x; y]) as (d' & A & B & C); auto; try (cbn; lia).
  - unfold blen in *. rewrite Le. nia.
  - exists o, d'. auto.
Qed.

Lemma pack3_roundtrip n x y z scratch dest p : 1 <= n <= 23 -> x < 2 ^ n -> y < 2 ^ n -> z < 2 ^ n ->
  bytes_ok scratch -> 16 <= blen scratch -> bytes_ok dest -> p + n * 3 < 2 ^ 32 -> (p + n * 2) / 8 + 4 <= blen dest ->
  exists packed d', pack_vector3_uXX x y z n scratch = Ok packed /\ memcpy_bits dest p packed 0 (n * 3) = Ok d' /\
    only_changed dest d' p (n * 3) /\ unpack_uXX 3 n d' p = Ok [x; y; z].
Proof.
  intros Hn Hx Hy Hz Hs Ls Hd L2 L3.
  destruct (pack3_spec n x y z scratch Hn Hx Hy Hz Hs ltac:(lia)) as (o & E & W & Le & F).
  destruct (packed_roundtrip 3 n dest p o [x; y; z]) as (d' & A & B & C); auto; try (cbn; lia).
  - unfold blen in *. rewrite Le. nia.
  - exists o, d'. auto.
Qed.

Lemma pack4_roundtrip n x y z w scratch dest p : 1 <= n <= 23 -> x < 2 ^ n -> y < 2 ^ n -> z < 2 ^ n -> w < 2 ^ n ->
  bytes_ok scratch -> 16 <= blen scratch -> bytes_ok dest -> p + n * 4 < 2 ^ 32 -> (p + n * 3) / 8 + 4 <= blen dest ->
  exists packed d', pack_vector4_uXX x y z w n scratch = Ok packed /\ memcpy_bits dest p packed 0 (n * 4) = Ok d' /\
    only_changed dest d' p (n * 4) /\ unpack_uXX 4 n d' p = Ok [x; y; z; w].
Proof.
  intros Hn Hx Hy Hz Hw Hs Ls Hd L2 L3.
  destruct (pack4_spec n x y z w scratch Hn Hx Hy Hz Hw Hs ltac:(lia)) as (o & E & W & Le & F).
  destruct (packed_roundtrip 4 n dest p o [x; y; z; w]) as (d' & A & B & C); auto; try (cbn; lia).
  - unfold blen in *. rewrite Le. nia.
  - exists o, d'. auto.
Qed.

Lemma scalar_roundtrip n v dest p : 1 <= n <= 23 -> v < 2 ^ n -> bytes_ok dest -> p + n < 2 ^ 32 -> p / 8 + 4 <= blen dest ->
  exists d', write_component dest p n v = Ok d' /\ only_changed dest d' p n /\ unpack_uXX 1 n d' p = Ok [v].
Proof.
  intros Hn Hv Hd L1 L2. destruct (write_component_spec dest p n v Hd ltac:(lia) Hv ltac:(lia)) as (d' & E & O & F).
  exists d'. split; [exact E|]. split; [exact O|]. destruct O as (O1 & O2 & O3).
  apply unpack_uXX_fields; auto; try lia.
  - intros _. replace (p + n * (N.of_nat 1 - 1)) with p by lia. unfold blen in *. rewrite O1; exact L2.
  - split; [exact F|exact I].
Qed.

Lemma raw_roundtrip vs dest p : Forall (fun v => v < 2 ^ 32) vs -> vs <> [] -> bytes_ok dest ->
  p / 8 + 4 * (blen vs - 1) + 8 <= blen dest ->
  exists d', write_raw dest p vs = Ok d' /\ only_changed dest d' p (32 * blen vs) /\ unpack_32 (length vs) d' p = Ok vs.
Proof.
  intros Hv Hn Hd L. rewrite write_raw_components by exact Hv.
  assert (B : 1 <= blen vs) by (destruct vs; [congruence|unfold blen; cbn; lia]).
  destruct (write_components_spec 32 vs dest p Hd ltac:(lia) Hv ltac:(lia)) as (d' & E & O & F).
  exists d'. split; [exact E|]. split; [exact O|]. destruct O as (O1 & O2 & O3).
  apply unpack_32_fields; auto. intros _. unfold blen in *. rewrite O1. exact L.
Qed.

Lemma unpack_zero_bits_ub m p : p mod 8 = 0 -> unpack_component_uXX 0 m p = UB.
Proof.
  intros H. unfold unpack_component_uXX. replace (23 <? 0) with false by reflexivity.
  rewrite H. change (subw 32 (subw 32 32 0) 0) with 32.
  unfold load_le, load_bytes. destruct (_ <=? _); reflexivity.
Qed.
