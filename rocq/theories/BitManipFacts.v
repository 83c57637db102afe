(** Proofs about the model of core/bit_manip_utils.h. *)
From Coq Require Import Lia ZifyBool ZifyNat ZifyN.
From Verif Require Export WordFacts BitManip BitSpec.
From Verif Require Import MemoryFacts.
Open Scope N_scope.
Ltac Zify.zify_post_hook ::= Z.div_mod_to_equations.

(* ---------- population count ---------- *)

Lemma filter_seq_shift (f : nat -> bool) a n :
  length (filter f (seq a n)) = length (filter (fun i => f (a + i)%nat) (seq 0 n)).
Proof.
  revert a f; induction n as [|n IH]; intros a f; [reflexivity|].
  cbn [seq filter]. rewrite Nat.add_0_r.
  assert (E : length (filter f (seq (S a) n)) = length (filter (fun i => f (a + i)%nat) (seq 1 n))).
  { rewrite (IH (S a)), (IH 1%nat). f_equal. apply filter_ext. intros i. f_equal. lia. }
  destruct (f a); cbn [length]; rewrite E; reflexivity.
Qed.

Lemma filter_len_ext (f g : nat -> bool) l : (forall i, In i l -> f i = g i) -> length (filter f l) = length (filter g l).
Proof.
  induction l as [|a l IH]; intros H; [reflexivity|]. cbn. rewrite (H a (or_introl eq_refl)).
  destruct (g a); cbn; rewrite IH; auto; intros i Hi; apply H; right; exact Hi.
Qed.

Lemma num_set_bits_ext w a b : (forall i, i < N.of_nat w -> N.testbit a i = N.testbit b i) -> num_set_bits w a = num_set_bits w b.
Proof.
  intros H. unfold num_set_bits. f_equal. apply filter_len_ext. intros i Hi. apply in_seq in Hi. apply H. lia.
Qed.

Lemma num_set_bits_cat n a b : a < 256 -> num_set_bits (8 + n) (a + 256 * b) = num_set_bits 8 a + num_set_bits n b.
Proof.
  intros Ha. unfold num_set_bits. rewrite seq_app, filter_app, app_length, Nat2N.inj_add. f_equal; f_equal.
  - apply filter_len_ext. intros i Hi. apply in_seq in Hi. rewrite testbit_add_256 by exact Ha.
    destruct (N.ltb_spec (N.of_nat i) 8); [reflexivity|lia].
  - rewrite filter_seq_shift. apply filter_len_ext. intros i _. cbv beta. rewrite testbit_add_256 by exact Ha.
    destruct (N.ltb_spec (N.of_nat (0 + 8 + i)) 8); [lia|]. f_equal; lia.
Qed.

Lemma filter_len_le {A} (f : A -> bool) l : (length (filter f l) <= length l)%nat.
Proof. induction l as [|a l IH]; cbn; [lia|]. destruct (f a); cbn; lia. Qed.

Lemma num_set_bits_le w v : num_set_bits w v <= N.of_nat w.
Proof.
  unfold num_set_bits. pose proof (filter_len_le (fun i => N.testbit v (N.of_nat i)) (seq 0 w)) as H.
  rewrite seq_length in H. lia.
Qed.

Definition sumN (l : list N) : N := fold_right N.add 0 l.

Lemma num_set_bits_bytes l : bytes_ok l -> num_set_bits (8 * length l) (of_le_bytes l) = sumN (map (num_set_bits 8) l).
Proof.
  intros H; induction H as [|b l Hb Hl IH]; [reflexivity|].
  cbn [length of_le_bytes map]. change (sumN (num_set_bits 8 b :: map (num_set_bits 8) l))
    with (num_set_bits 8 b + sumN (map (num_set_bits 8) l)). rewrite <- IH.
  replace (8 * S (length l))%nat with (8 + 8 * length l)%nat by lia. apply num_set_bits_cat; exact Hb.
Qed.

Lemma byte_all (P : N -> bool) : forallb P (map N.of_nat (seq 0 256)) = true -> forall a, a < 256 -> P a = true.
Proof.
  intros H a Ha. rewrite forallb_forall in H. apply H. apply in_map_iff. exists (N.to_nat a).
  split; [lia|apply in_seq; lia].
Qed.

(* lane-wise operations *)
Lemma land_cat a b m n : a < 256 -> m < 256 -> N.land (a + 256 * b) (m + 256 * n) = N.land a m + 256 * N.land b n.
Proof.
  intros Ha Hm. assert (Hl : N.land a m < 256).
  { change 256 with (2 ^ 8). apply testbit_lt. intros i Hi. rewrite N.land_spec, (testbit_high a 8 Ha i Hi). reflexivity. }
  apply N.bits_inj; intros i. rewrite N.land_spec, !testbit_add_256 by assumption.
  destruct (i <? 8); rewrite N.land_spec; reflexivity.
Qed.

Lemma shr_land_cat k a b m n : a < 256 -> k <= 8 -> m < 2 ^ (8 - k) ->
  N.land (N.shiftr (a + 256 * b) k) (m + 256 * n) = N.land (N.shiftr a k) m + 256 * N.land (N.shiftr b k) n.
Proof.
  intros Ha Hk Hm.
  assert (Hm' : m < 256) by (apply N.lt_le_trans with (1 := Hm); change 256 with (2 ^ 8); apply pow2_le; lia).
  assert (Hl : N.land (N.shiftr a k) m < 256).
  { change 256 with (2 ^ 8). apply testbit_lt. intros i Hi. rewrite N.land_spec, (testbit_high m 8 Hm' i Hi). apply andb_false_r. }
  apply N.bits_inj; intros i. rewrite N.land_spec, testbit_shiftr, !testbit_add_256 by assumption.
  destruct (N.ltb_spec i 8) as [L|L]; rewrite N.land_spec, testbit_shiftr.
  - destruct (N.ltb_spec (i + k) 8) as [L2|L2]; [reflexivity|].
    rewrite (testbit_high m (8 - k) Hm i) by lia. rewrite !andb_false_r. reflexivity.
  - destruct (N.ltb_spec (i + k) 8) as [L2|L2]; [lia|]. f_equal. f_equal. lia.
Qed.

Lemma land_lanes m l : bytes_ok l -> m < 256 ->
  N.land (of_le_bytes l) (of_le_bytes (repeat m (length l))) = of_le_bytes (map (fun a => N.land a m) l).
Proof.
  intros H Hm; induction H as [|b l Hb Hl IH]; [reflexivity|].
  cbn [length repeat of_le_bytes map]. rewrite land_cat by assumption. rewrite IH. reflexivity.
Qed.

Lemma shr_land_lanes k m l : bytes_ok l -> k <= 8 -> m < 2 ^ (8 - k) ->
  N.land (N.shiftr (of_le_bytes l) k) (of_le_bytes (repeat m (length l))) = of_le_bytes (map (fun a => N.land (N.shiftr a k) m) l).
Proof.
  intros H Hk Hm; induction H as [|b l Hb Hl IH]; [cbn; rewrite N.shiftr_0_l; reflexivity|].
  cbn [length repeat of_le_bytes map]. rewrite shr_land_cat by assumption. rewrite IH. reflexivity.
Qed.

Lemma of_le_map_add (f g : N -> N) (l : list N) : of_le_bytes (map f l) + of_le_bytes (map g l) = of_le_bytes (map (fun a => f a + g a) l).
Proof. induction l as [|a l IH]; [reflexivity|]. cbn [map of_le_bytes]. rewrite <- IH. lia. Qed.

Lemma of_le_map_le (f : N -> N) (l : list N) : (forall a, In a l -> f a <= a) -> of_le_bytes (map f l) <= of_le_bytes l.
Proof.
  induction l as [|a l IH]; intros H; [cbn; lia|]. cbn [map of_le_bytes].
  pose proof (H a (or_introl eq_refl)). specialize (IH (fun x Hx => H x (or_intror Hx))). lia.
Qed.

Lemma of_le_map_sub (f : N -> N) (l : list N) : (forall a, In a l -> f a <= a) ->
  of_le_bytes l - of_le_bytes (map f l) = of_le_bytes (map (fun a => a - f a) l).
Proof.
  induction l as [|a l IH]; intros H; [reflexivity|]. cbn [map of_le_bytes].
  rewrite <- IH by (intros x Hx; apply H; right; exact Hx).
  pose proof (H a (or_introl eq_refl)).
  pose proof (of_le_map_le f l (fun x Hx => H x (or_intror Hx))). lia.
Qed.

Definition b1 (a : N) := a - N.land (N.shiftr a 1) 0x55.
Definition b2 (a : N) := N.land a 0x33 + N.land (N.shiftr a 2) 0x33.

Definition b_checks (a : N) : bool :=
  (N.land (N.shiftr a 1) 0x55 <=? a) && (b1 a <? 256) && (b2 (b1 a) <? 256) &&
  (N.land (b2 (b1 a)) 15 <=? 4) && (N.shiftr (b2 (b1 a)) 4 <=? 4) &&
  (N.land (b2 (b1 a)) 15 + N.shiftr (b2 (b1 a)) 4 =? num_set_bits 8 a).

Lemma b_checks_all a : a < 256 -> b_checks a = true.
Proof. apply byte_all. vm_compute. reflexivity. Qed.

(* third step: (y + (y >> 4)) & 0x0F0F..: lanes hold two nibbles <= 4 *)
Lemma nibble_step : forall l, bytes_ok l ->
  Forall (fun y => N.land y 15 <= 4 /\ N.shiftr y 4 <= 4) l ->
  N.land (of_le_bytes l + N.shiftr (of_le_bytes l) 4) (of_le_bytes (repeat 0x0F (length l)))
  = of_le_bytes (map (fun y => N.land y 15 + N.shiftr y 4) l)
  /\ of_le_bytes l + N.shiftr (of_le_bytes l) 4 < 256 ^ blen l.
Proof.
  intros l H F. induction H as [|y l Hy Hl IH]; [split; reflexivity|].
  inversion F as [|y' l' [F1 F2] Fl]; subst. destruct (IH Fl) as [IH1 IH2].
  cbn [length repeat of_le_bytes map].
  set (t := of_le_bytes l) in *.
  assert (E : (y + 256 * t) + N.shiftr (y + 256 * t) 4 =
              (y + N.shiftr y 4 + 16 * (t mod 16)) + 256 * (t + N.shiftr t 4)).
  { rewrite !N.shiftr_div_pow2. change (2 ^ 4) with 16. lia. }
  assert (T : t mod 16 <= 4).
  { unfold t. inversion Fl as [|z l2 [G1 G2] _]; subst; cbn [of_le_bytes]; [lia|].
    change 15 with (2 ^ 4 - 1) in G1. rewrite land_ones_mod in G1. change (2 ^ 4) with 16 in G1. lia. }
  assert (B : y + N.shiftr y 4 + 16 * (t mod 16) < 256).
  { change 15 with (2 ^ 4 - 1) in F1. rewrite land_ones_mod in F1.
    rewrite N.shiftr_div_pow2 in *. change (2 ^ 4) with 16 in *. lia. }
  rewrite E. split.
  - rewrite land_cat by (lia || exact B). rewrite IH1. f_equal.
    change 15 with (2 ^ 4 - 1) in *. rewrite !land_ones_mod in *.
    rewrite N.shiftr_div_pow2 in *. change (2 ^ 4) with 16 in *. lia.
  - unfold blen in *. cbn [length]. rewrite Nat2N.inj_succ, N.pow_succ_r'. lia.
Qed.

Lemma swar_lanes l : bytes_ok l ->
  let v := of_le_bytes l in
  let n := length l in
  let x1 := v - N.land (N.shiftr v 1) (of_le_bytes (repeat 0x55 n)) in
  let x2 := N.land x1 (of_le_bytes (repeat 0x33 n)) + N.land (N.shiftr x1 2) (of_le_bytes (repeat 0x33 n)) in
  N.land (N.shiftr v 1) (of_le_bytes (repeat 0x55 n)) <= v /\
  x2 < 256 ^ blen l /\ x2 + N.shiftr x2 4 < 256 ^ blen l /\
  N.land (x2 + N.shiftr x2 4) (of_le_bytes (repeat 0x0F n)) = of_le_bytes (map (num_set_bits 8) l).
Proof.
  intros H v n x1 x2.
  assert (Hin : forall a, In a l -> a < 256) by (apply Forall_forall; exact H).
  assert (C : forall a, In a l -> b_checks a = true) by (intros a Ha; apply b_checks_all; auto).
  unfold b_checks in C.
  assert (E1 : N.land (N.shiftr v 1) (of_le_bytes (repeat 0x55 n)) = of_le_bytes (map (fun a => N.land (N.shiftr a 1) 0x55) l)).
  { apply shr_land_lanes; [exact H|lia|reflexivity]. }
  assert (X1 : x1 = of_le_bytes (map b1 l)).
  { unfold x1. rewrite E1. apply of_le_map_sub. intros a Ha. specialize (C a Ha). lia. }
  assert (O1 : bytes_ok (map b1 l)).
  { apply Forall_map, Forall_forall. intros a Ha. specialize (C a Ha). cbv beta. lia. }
  assert (X2 : x2 = of_le_bytes (map b2 (map b1 l))).
  { unfold x2. rewrite X1. unfold n. rewrite <- (map_length b1 l).
    rewrite land_lanes by (exact O1 || lia). rewrite shr_land_lanes by (exact O1 || lia || reflexivity).
    apply of_le_map_add. }
  assert (O2 : bytes_ok (map b2 (map b1 l))).
  { apply Forall_map, Forall_map, Forall_forall. intros a Ha. specialize (C a Ha). cbv beta. lia. }
  assert (F2 : Forall (fun y => N.land y 15 <= 4 /\ N.shiftr y 4 <= 4) (map b2 (map b1 l))).
  { apply Forall_map, Forall_map, Forall_forall. intros a Ha. specialize (C a Ha). cbv beta. lia. }
  destruct (nibble_step _ O2 F2) as [N1 N2].
  assert (Lb : blen (map b2 (map b1 l)) = blen l) by (unfold blen; rewrite !map_length; reflexivity).
  split; [|split; [|split]].
  - rewrite E1. apply of_le_map_le. intros a Ha. specialize (C a Ha). lia.
  - rewrite X2, <- Lb. apply of_le_bytes_lt; exact O2.
  - rewrite X2, <- Lb. exact N2.
  - rewrite X2. unfold n. rewrite <- (map_length b1 l), <- (map_length b2 (map b1 l)). rewrite N1.
    rewrite !map_map. f_equal. apply map_ext_in. intros a Ha. specialize (C a Ha). lia.
Qed.

Lemma count_set_bits32_spec v : v < 2 ^ 32 -> count_set_bits32 v = num_set_bits 32 v.
Proof.
  intros Hv. set (l := le_bytes 4 v).
  assert (El : v = of_le_bytes l) by (symmetry; apply of_le_bytes_le_bytes; exact Hv).
  assert (Ol : bytes_ok l) by apply le_bytes_ok.
  assert (Ll : length l = 4%nat) by apply le_bytes_length.
  pose proof (swar_lanes l Ol) as S. cbv zeta in S. rewrite Ll, <- El in S.
  unfold blen in S. rewrite Ll in S. change (256 ^ N.of_nat 4) with (2 ^ 32) in S.
  change (of_le_bytes (repeat 85 4)) with 0x55555555 in S.
  change (of_le_bytes (repeat 51 4)) with 0x33333333 in S.
  change (of_le_bytes (repeat 15 4)) with 0x0F0F0F0F in S.
  destruct S as (S1 & S2 & S3 & S4).
  unfold count_set_bits32. rewrite subw_ge by (exact Hv || exact S1).
  set (x1 := v - _) in *. set (x2 := N.land x1 _ + _) in *.
  rewrite (addw_small 32 (N.land x1 _)) by exact S2. fold x2.
  rewrite addw_small by exact S3. rewrite S4.
  rewrite El. replace 32%nat with (8 * length l)%nat at 1 by (rewrite Ll; reflexivity).
  rewrite num_set_bits_bytes by exact Ol.
  destruct l as [|a0 [|a1 [|a2 [|a3 [|]]]]]; try discriminate Ll.
  cbn [map of_le_bytes sumN fold_right].
  pose proof (num_set_bits_le 8 a0). pose proof (num_set_bits_le 8 a1).
  pose proof (num_set_bits_le 8 a2). pose proof (num_set_bits_le 8 a3).
  unfold mulw. rewrite N.shiftr_div_pow2. change (2 ^ 32) with 4294967296. change (2 ^ 24) with 16777216. lia.
Qed.

Lemma count_set_bits64_spec v : v < 2 ^ 64 -> count_set_bits64 v = num_set_bits 64 v.
Proof.
  intros Hv. set (l := le_bytes 8 v).
  assert (El : v = of_le_bytes l) by (symmetry; apply of_le_bytes_le_bytes; exact Hv).
  assert (Ol : bytes_ok l) by apply le_bytes_ok.
  assert (Ll : length l = 8%nat) by apply le_bytes_length.
  pose proof (swar_lanes l Ol) as S. cbv zeta in S. rewrite Ll, <- El in S.
  unfold blen in S. rewrite Ll in S. change (256 ^ N.of_nat 8) with (2 ^ 64) in S.
  change (of_le_bytes (repeat 85 8)) with 0x5555555555555555 in S.
  change (of_le_bytes (repeat 51 8)) with 0x3333333333333333 in S.
  change (of_le_bytes (repeat 15 8)) with 0x0F0F0F0F0F0F0F0F in S.
  destruct S as (S1 & S2 & S3 & S4).
  unfold count_set_bits64. rewrite subw_ge by (exact Hv || exact S1).
  set (x1 := v - _) in *. set (x2 := N.land x1 _ + _) in *.
  rewrite (addw_small 64 (N.land x1 _)) by exact S2. fold x2.
  rewrite addw_small by exact S3. rewrite S4.
  rewrite El. replace 64%nat with (8 * length l)%nat at 1 by (rewrite Ll; reflexivity).
  rewrite num_set_bits_bytes by exact Ol.
  destruct l as [|a0 [|a1 [|a2 [|a3 [|a4 [|a5 [|a6 [|a7 [|]]]]]]]]]; try discriminate Ll.
  cbn [map of_le_bytes sumN fold_right].
  pose proof (num_set_bits_le 8 a0). pose proof (num_set_bits_le 8 a1).
  pose proof (num_set_bits_le 8 a2). pose proof (num_set_bits_le 8 a3).
  pose proof (num_set_bits_le 8 a4). pose proof (num_set_bits_le 8 a5).
  pose proof (num_set_bits_le 8 a6). pose proof (num_set_bits_le 8 a7).
  unfold mulw. rewrite N.shiftr_div_pow2. change (2 ^ 64) with 18446744073709551616. change (2 ^ 56) with 72057594037927936.
  set (z0 := num_set_bits 8 a0) in *. clearbody z0.
  set (z1 := num_set_bits 8 a1) in *. clearbody z1.
  set (z2 := num_set_bits 8 a2) in *. clearbody z2.
  set (z3 := num_set_bits 8 a3) in *. clearbody z3.
  set (z4 := num_set_bits 8 a4) in *. clearbody z4.
  set (z5 := num_set_bits 8 a5) in *. clearbody z5.
  set (z6 := num_set_bits 8 a6) in *. clearbody z6.
  set (z7 := num_set_bits 8 a7) in *. clearbody z7.
  clear - H H0 H1 H2 H3 H4 H5 H6.
  set (low := 1 * (z0) + 256 * (z0+z1) + 65536 * (z0+z1+z2) + 16777216 * (z0+z1+z2+z3) + 4294967296 * (z0+z1+z2+z3+z4) + 1099511627776 * (z0+z1+z2+z3+z4+z5) + 281474976710656 * (z0+z1+z2+z3+z4+z5+z6)).
  set (hi := 1 * (z1+z2+z3+z4+z5+z6+z7) + 256 * (z2+z3+z4+z5+z6+z7) + 65536 * (z3+z4+z5+z6+z7) + 16777216 * (z4+z5+z6+z7) + 4294967296 * (z5+z6+z7) + 1099511627776 * (z6+z7) + 281474976710656 * (z7)).
  match goal with |- ((?p mod _) / _ = _) => replace p with (low + 72057594037927936 * (z0+z1+z2+z3+z4+z5+z6+z7) + hi * 18446744073709551616) end.
  2:{ unfold low, hi. clear. Ltac Zify.zify_post_hook ::= idtac. lia. }
  Ltac Zify.zify_post_hook ::= Z.div_mod_to_equations.
  assert (Hlow : low < 72057594037927936) by (unfold low; lia).
  rewrite N.mod_add by lia. rewrite N.mod_small by lia.
  rewrite N.mul_comm, N.div_add by lia. rewrite (N.div_small low) by exact Hlow. lia.
Qed.

Lemma num_set_bits_wrap n m v : (n <= m)%nat -> v < 2 ^ N.of_nat n -> num_set_bits m v = num_set_bits n v.
Proof.
  intros L Hv. replace m with (n + (m - n))%nat by lia. unfold num_set_bits.
  rewrite seq_app, filter_app, app_length.
  replace (length (filter _ (seq (0 + n) (m - n)))) with 0%nat; [rewrite Nat.add_0_r; reflexivity|].
  symmetry. rewrite filter_seq_shift. rewrite (filter_len_ext _ (fun _ => false)).
  - clear. induction (m - n)%nat as [|k IH] using nat_ind; [reflexivity|]. 
    rewrite seq_S, filter_app, app_length, IH. reflexivity.
  - intros i _. apply (testbit_high v _ Hv). lia.
Qed.

Lemma count_set_bits16_spec v : v < 2 ^ 16 -> count_set_bits16 v = num_set_bits 16 v.
Proof.
  intros Hv. assert (v < 2 ^ 32) by (apply N.lt_trans with (1 := Hv); reflexivity).
  unfold count_set_bits16. rewrite count_set_bits32_spec by assumption.
  rewrite (num_set_bits_wrap 16 32) by (lia || exact Hv). apply wrapw_small.
  pose proof (num_set_bits_le 16 v). change (2 ^ 16) with 65536. lia.
Qed.
Lemma count_set_bits8_spec v : v < 2 ^ 8 -> count_set_bits8 v = num_set_bits 8 v.
Proof.
  intros Hv. assert (v < 2 ^ 32) by (apply N.lt_trans with (1 := Hv); reflexivity).
  unfold count_set_bits8. rewrite count_set_bits32_spec by assumption.
  rewrite (num_set_bits_wrap 8 32) by (lia || exact Hv). apply wrapw_small.
  pose proof (num_set_bits_le 8 v). change (2 ^ 8) with 256. lia.
Qed.

(* ---------- leading / trailing zeros ---------- *)

Lemma count_prefix_true (f : nat -> bool) n k : (k <= n)%nat ->
  (forall i, (i < n)%nat -> f i = (k <=? i)%nat) -> length (filter f (seq 0 n)) = (n - k)%nat.
Proof.
  intros Hk H. replace n with (k + (n - k))%nat at 1 by lia. rewrite seq_app, filter_app, app_length.
  rewrite (filter_len_ext f (fun _ => false) (seq 0 k)).
  2:{ intros i Hi. apply in_seq in Hi. rewrite H by lia. apply Nat.leb_gt. lia. }
  rewrite (filter_len_ext f (fun _ => true) (seq (0 + k) (n - k))).
  2:{ intros i Hi. apply in_seq in Hi. rewrite H by lia. apply Nat.leb_le. lia. }
  assert (A : forall m s, length (filter (fun _ : nat => false) (seq s m)) = 0%nat).
  { induction m as [|m IH]; intros s; [reflexivity|]. cbn. apply IH. }
  assert (B : forall m s, length (filter (fun _ : nat => true) (seq s m)) = m).
  { induction m as [|m IH]; intros s; [reflexivity|]. cbn. rewrite IH. reflexivity. }
  rewrite A, B. lia.
Qed.

(** Bit [i] of the smeared word is set iff a bit in [i, i+w) was set *)
Definition smeared (v x w : N) : Prop :=
  forall i, N.testbit x i = true <-> exists j, i <= j /\ j < i + w /\ N.testbit v j = true.

Lemma smeared_step v x w : smeared v x w -> smeared v (N.lor x (N.shiftr x w)) (w + w).
Proof.
  intros S i. rewrite N.lor_spec, testbit_shiftr, orb_true_iff, (S i), (S (i + w)).
  split.
  - intros [(j & A & B & C)|(j & A & B & C)]; exists j; repeat split; auto; lia.
  - intros (j & A & B & C). destruct (N.lt_ge_cases j (i + w)); [left|right]; exists j; repeat split; auto; lia.
Qed.

Lemma smear32 v : smeared v
  (let value := N.lor v (N.shiftr v 1) in
  let value := N.lor value (N.shiftr value 2) in
  let value := N.lor value (N.shiftr value 4) in
  let value := N.lor value (N.shiftr value 8) in
  N.lor value (N.shiftr value 16)) 32.
Proof.
  assert (S : smeared v v 1).
  { intros i. split; [intros H; exists i; repeat split; auto; lia|]. intros (j & A & B & C).
    replace i with j by lia. exact C. }
  cbv zeta.
  apply (smeared_step v _ 16), (smeared_step v _ 8), (smeared_step v _ 4), (smeared_step v _ 2), (smeared_step v _ 1), S.
Qed.

Lemma count_leading_zeros_spec v i : v < 2 ^ 32 -> is_msb v i -> count_leading_zeros v = 31 - i.
Proof.
  intros Hv [H1 H2]. unfold count_leading_zeros. pose proof (smear32 v) as S. cbv zeta in S |- *.
  set (x := N.lor _ (N.shiftr _ 16)) in *.
  assert (Hi : i < 32).
  { destruct (N.lt_ge_cases i 32) as [L|L]; [exact L|]. rewrite (testbit_high v 32 Hv i L) in H1. discriminate. }
  assert (X : forall j, N.testbit x j = (j <=? i)).
  { intros j. destruct (N.leb_spec j i) as [L|L].
    - apply S. exists i. repeat split; auto; lia.
    - destruct (N.testbit x j) eqn:E; [|reflexivity]. apply S in E. destruct E as (k & A & B & C).
      rewrite H2 in C by lia. discriminate. }
  assert (Hx : x < 2 ^ 32).
  { apply testbit_lt. intros j Hj. rewrite X. apply N.leb_gt. lia. }
  rewrite count_set_bits32_spec by (apply notw_lt; exact Hx).
  unfold num_set_bits. rewrite (count_prefix_true _ 32 (N.to_nat (i + 1))); [lia|lia|].
  intros k Hk. rewrite testbit_notw by exact Hx. rewrite X.
  assert (E : (N.of_nat k <? 32) = true) by (apply N.ltb_lt; lia). rewrite E. cbn [andb].
  destruct (N.leb_spec (N.of_nat k) i); destruct (Nat.leb_spec (N.to_nat (i + 1)) k); try lia; reflexivity.
Qed.

Lemma count_leading_zeros_0 : count_leading_zeros 0 = 32.
Proof. reflexivity. Qed.

Lemma is_msb_log2 v : v <> 0 -> is_msb v (N.log2 v).
Proof. intros H. split; [apply N.bit_log2; exact H|]. intros j Hj. apply N.bits_above_log2; exact Hj. Qed.

(** isolating the lowest set bit *)
Lemma land_neg v i : v < 2 ^ 32 -> is_lsb v i -> N.land v (subw 32 0 v) = 2 ^ i.
Proof.
  intros Hv [H1 H2].
  assert (Hi : i < 32).
  { destruct (N.lt_ge_cases i 32) as [L|L]; [exact L|]. rewrite (testbit_high v 32 Hv i L) in H1. discriminate. }
  assert (Hnz : v <> 0) by (intros ->; rewrite N.bits_0 in H1; discriminate).
  rewrite subw_lt_wrap by lia. rewrite N.add_0_r.
  (* v = 2^i * (2*q + 1) *)
  assert (D : v mod 2 ^ i = 0).
  { apply N.bits_inj; intros j. rewrite testbit_mod_pow2, N.bits_0.
    destruct (N.ltb_spec j i) as [L|L]; cbn [andb]; [apply H2; exact L|reflexivity]. }
  apply N.div_exact in D; [|apply pow2_nz].
  assert (O : N.odd (v / 2 ^ i) = true).
  { rewrite <- N.bit0_odd, N.div_pow2_bits. rewrite N.add_0_l. exact H1. }
  apply N.odd_spec in O. destruct O as [q Oq].
  set (p := 2 ^ i) in *.
  assert (P32 : 2 ^ 32 = p * (2 * 2 ^ (31 - i))).
  { unfold p. rewrite <- N.pow_succ_r', <- N.pow_add_r. f_equal. lia. }
  assert (Ev : v = p * (2 * q + 1)) by congruence.
  assert (Q : q < 2 ^ (31 - i)).
  { rewrite P32 in Hv. rewrite Ev in Hv. apply N.mul_lt_mono_pos_l in Hv; [lia|apply pow2_pos]. }
  assert (En : 2 ^ 32 - v = p * (2 * (2 ^ (31 - i) - 1 - q) + 1)).
  { rewrite P32, Ev, <- N.mul_sub_distr_l. f_equal. lia. }
  rewrite En, Ev. unfold p. rewrite !(N.mul_comm (2 ^ i)).
  apply N.bits_inj; intros j. rewrite N.land_spec, testbit_pow2.
  destruct (N.lt_trichotomy j i) as [L|[L|L]].
  - rewrite N.mul_pow2_bits_low by exact L. cbn [andb]. symmetry; apply N.eqb_neq; lia.
  - subst j. rewrite !N.mul_pow2_bits_high by lia. rewrite N.sub_diag, !N.testbit_odd_0, N.eqb_refl. reflexivity.
  - rewrite !N.mul_pow2_bits_high by lia. replace (j - i) with (N.succ (j - i - 1)) by lia.
    rewrite !N.testbit_odd_succ by lia.
    replace (2 ^ (31 - i) - 1 - q) with (notw (31 - i) q) by (apply notw_sub; exact Q).
    rewrite testbit_notw by exact Q.
    destruct (N.eqb_spec j i); [lia|].
    destruct (N.testbit q (j - i - 1)), (j - i - 1 <? 31 - i); reflexivity.
Qed.

Lemma count_trailing_zeros_spec v i : v < 2 ^ 32 -> is_lsb v i -> count_trailing_zeros v = i.
Proof.
  intros Hv H. pose proof H as [H1 H2].
  assert (Hi : i < 32).
  { destruct (N.lt_ge_cases i 32) as [L|L]; [exact L|]. rewrite (testbit_high v 32 Hv i L) in H1. discriminate. }
  unfold count_trailing_zeros.
  destruct (N.eqb_spec v 0) as [->|Hnz]; [rewrite N.bits_0 in H1; discriminate|]. cbn [negb].
  rewrite (land_neg v i Hv H).
  rewrite (count_leading_zeros_spec (2 ^ i) i).
  - rewrite subw_ge; [lia| |lia]. reflexivity.
  - apply pow2_lt; exact Hi.
  - split; [rewrite testbit_pow2; apply N.eqb_refl|]. intros j Hj. rewrite testbit_pow2. apply N.eqb_neq. lia.
Qed.

Lemma count_trailing_zeros_0 : count_trailing_zeros 0 = 32.
Proof. reflexivity. Qed.

Lemma least_bit (P : N -> bool) n : P n = true -> exists i, P i = true /\ forall j, j < i -> P j = false.
Proof.
  induction n as [n IH] using (well_founded_ind N.lt_wf_0). intros H.
  destruct (existsb (fun k => P (N.of_nat k)) (seq 0 (N.to_nat n))) eqn:E.
  - apply existsb_exists in E. destruct E as (k & Hk & Pk). apply in_seq in Hk.
    apply (IH (N.of_nat k)); [lia|exact Pk].
  - exists n. split; [exact H|]. intros j Hj. destruct (P j) eqn:Ej; [|reflexivity].
    assert (existsb (fun k => P (N.of_nat k)) (seq 0 (N.to_nat n)) = true) as C; [|congruence].
    apply existsb_exists. exists (N.to_nat j). rewrite N2Nat.id. split; [apply in_seq; lia|exact Ej].
Qed.

Lemma lsb_exists v : v <> 0 -> exists i, is_lsb v i.
Proof. intros H. apply (least_bit (N.testbit v) (N.log2 v)). apply N.bit_log2; exact H. Qed.

(* ---------- rotation ---------- *)

Lemma rotate_bits_left_spec v n i : v < 2 ^ 32 -> n < 32 -> i < 32 ->
  N.testbit (rotate_bits_left v n) ((i + n) mod 32) = N.testbit v i.
Proof.
  intros Hv Hn Hi. unfold rotate_bits_left.
  change 31 with (2 ^ 5 - 1). rewrite !land_ones_mod. change (2 ^ 5) with 32.
  rewrite (N.mod_small n 32) by exact Hn.
  assert (E : subw 32 0 n mod 32 = if n =? 0 then 0 else 32 - n).
  { unfold subw. rewrite N.add_0_l. change (2 ^ 32) with 4294967296. destruct (N.eqb_spec n 0); lia. }
  rewrite E, N.lor_spec, testbit_shlw, testbit_shiftr.
  assert (B1 : ((i + n) mod 32 <? 32) = true) by (apply N.ltb_lt; lia). rewrite B1. cbn [andb].
  destruct (N.eqb_spec n 0) as [->|Nz].
  - rewrite !N.add_0_r. replace (i mod 32) with i by lia. rewrite N.sub_0_r.
    assert (B : (0 <=? i) = true) by (apply N.leb_le; lia). rewrite B. cbn [andb]. apply orb_diag.
  - destruct (N.lt_ge_cases (i + n) 32) as [L|L].
    + replace ((i + n) mod 32) with (i + n) by lia.
      assert (B : (n <=? i + n) = true) by (apply N.leb_le; lia). rewrite B. cbn [andb].
      replace (i + n - n) with i by lia.
      rewrite (testbit_high v 32 Hv (i + n + (32 - n))) by lia. apply orb_false_r.
    + replace ((i + n) mod 32) with (i + n - 32) by lia.
      assert (B : (n <=? i + n - 32) = false) by (apply N.leb_gt; lia). rewrite B. cbn [andb orb].
      f_equal; lia.
Qed.

Lemma rotate_bits_left_lt v n : v < 2 ^ 32 -> rotate_bits_left v n < 2 ^ 32.
Proof.
  intros Hv. unfold rotate_bits_left. apply testbit_lt. intros i Hi.
  rewrite N.lor_spec, testbit_shlw, testbit_shiftr.
  assert (B : (i <? 32) = false) by (apply N.ltb_ge; lia). rewrite B. cbn [andb orb].
  apply (testbit_high v 32 Hv). lia.
Qed.

Lemma testbit_and_not a b i : a < 2 ^ 32 -> b < 2 ^ 32 ->
  N.testbit (and_not a b) i = negb (N.testbit a i) && N.testbit b i.
Proof.
  intros Ha Hb. unfold and_not. rewrite N.land_spec, testbit_notw by exact Ha.
  destruct (N.ltb_spec i 32) as [L|L]; [reflexivity|].
  rewrite (testbit_high b 32 Hb i L). rewrite !andb_false_r. reflexivity.
Qed.
