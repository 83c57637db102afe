(** seek() on stripped clips: composition of the key frame choice, the segment search, the bit set lookup and the
    new interpolation alpha. *)
From Coq Require Import ZArith NArith Reals Lra Lia List.
From Flocq Require Import Core.
From Verif Require Import Word WordFacts Float32 Float32Facts Quant QuantFacts Interp InterpFacts Segment SegmentFacts SubTracksFacts Strip SeekSpec StripFacts.
Import ListNotations.
Local Open Scope R_scope.

Lemma sample_index_R al k : ffinite al = true -> 0 <= FR al <= 1 -> (k < 2 ^ 24)%N ->
  ffinite (fadd al (f_of_N k)) = true /\ FR (fadd al (f_of_N k)) = rnd (FR al + IZR (Z.of_N k)) /\
  IZR (Z.of_N k) <= FR (fadd al (f_of_N k)) <= IZR (Z.of_N (k + 1)).
Proof.
  intros Ha Hr Hk. destruct (f_of_N_exact k) as [K1 K2]; [lia |].
  assert (B0 : 0 <= IZR (Z.of_N k)) by (apply IZR_le; lia).
  assert (B1 : IZR (Z.of_N k) <= IZR (2 ^ 24)) by (apply IZR_le; lia).
  assert (B2 : IZR (Z.of_N (k + 1)) = IZR (Z.of_N k) + 1) by (rewrite <- plus_IZR; f_equal; lia).
  destruct (fadd_R al (f_of_N k)) as (A1 & A2); auto.
  { rewrite K2. apply (small_fbig' _ (2 ^ 25)); [lia |]. assert (IZR (2 ^ 24) + 1 <= IZR (2 ^ 25)) by (rewrite <- plus_IZR; apply IZR_le; lia). lra. }
  rewrite K2 in A2. split; auto. split; auto. rewrite A2. split.
  - apply rnd_ge_f; [apply f32_int; lia | lra].
  - apply rnd_le_f; [apply f32_int; lia | lra].
Qed.

(** wrapping pairs: the second key frame is before the first *)
Lemma alpha_wrap al k k1 : ffinite al = true -> 0 <= FR al <= 1 -> (k1 < k < 2 ^ 24)%N ->
  let a := find_linear_interpolation_alpha (fadd al (f_of_N k)) k k1 rp_none in
  ffinite a = true /\ 0 <= FR a <= 1 /\ FR a = rnd (FR (fadd al (f_of_N k)) - IZR (Z.of_N k)).
Proof.
  intros Ha Hr Hk a. destruct (sample_index_R al k Ha Hr ltac:(lia)) as (S1 & S2 & S3).
  destruct (f_of_N_exact k) as [K1 K2]; [lia |].
  unfold a, find_linear_interpolation_alpha. destruct (N.eqb_spec k k1); [lia |]. destruct (N.ltb_spec k k1); [lia |].
  assert (B2 : IZR (Z.of_N (k + 1)) = IZR (Z.of_N k) + 1) by (rewrite <- plus_IZR; f_equal; lia).
  destruct (fsub_R (fadd al (f_of_N k)) (f_of_N k)) as (A1 & A2); auto.
  { rewrite K2. apply (small_fbig' _ 1); [lia |]. lra. }
  rewrite K2 in A2. split; auto. rewrite A2. split; [split |]; [| | reflexivity].
  - rewrite <- rnd_0. apply rnd_le. lra.
  - rewrite <- (rnd_id 1) by (apply (f32_int 1); vm_compute; discriminate). apply rnd_le. lra.
Qed.

Lemma alpha_forward al k0 k1 c0 c1 : ffinite al = true -> 0 <= FR al <= 1 -> (k0 < 2 ^ 22)%N ->
  (c0 <= k0)%N -> (k1 <= c1 <= 2 ^ 24)%N -> k1 = (k0 + 1)%N ->
  alpha_consistent al k0 c0 c1 (find_linear_interpolation_alpha (fadd al (f_of_N k0)) c0 c1 rp_none).
Proof.
  intros Ha Hr Hk Hc0 Hc1 ->. destruct (sample_index_R al k0 Ha Hr ltac:(lia)) as (S1 & S2 & S3).
  assert (L0 : IZR (Z.of_N c0) <= IZR (Z.of_N k0)) by (apply IZR_le; lia).
  assert (L1 : IZR (Z.of_N (k0 + 1)) <= IZR (Z.of_N c1)) by (apply IZR_le; lia).
  destruct (alpha_range (fadd al (f_of_N k0)) c0 c1 rp_none ltac:(lia) S1 ltac:(lra)) as (a & A1 & A2 & A3 & A4 & A5).
  cbv beta iota in A3. cbn [apply_rounding_policy] in A3. rewrite A3. unfold alpha_consistent. rewrite <- S2. repeat split; auto; try lra; try lia.
  intro. apply A4. lia.
Qed.

Lemma alpha_same al k0 c : alpha_consistent al k0 c c (find_linear_interpolation_alpha (fadd al (f_of_N k0)) c c rp_none).
Proof.
  unfold find_linear_interpolation_alpha. rewrite N.eqb_refl. unfold alpha_consistent. rewrite f_zero_R.
  repeat split; try lra; try lia.
Qed.

Lemma alpha_back al k0 c1 : ffinite al = true -> 0 <= FR al <= 1 -> (c1 < k0 < 2 ^ 24)%N ->
  alpha_consistent al k0 k0 c1 (find_linear_interpolation_alpha (fadd al (f_of_N k0)) k0 c1 rp_none).
Proof.
  intros Ha Hr Hk. destruct (alpha_wrap al k0 c1 Ha Hr Hk) as (A1 & A2 & A3).
  destruct (sample_index_R al k0 Ha Hr ltac:(lia)) as (S1 & S2 & S3).
  unfold alpha_consistent. rewrite <- S2. repeat split; auto; try lra; try lia.
Qed.

Lemma last_self avail k c : last_available avail k c -> avail k = true -> c = k.
Proof. intros (H1 & H2 & H3) H. destruct (N.eq_dec c k); auto. rewrite H3 in H by lia. discriminate. Qed.
Lemma first_self avail k c : first_available avail k c -> avail k = true -> c = k.
Proof. intros (H1 & H2 & H3) H. destruct (N.eq_dec c k); auto. rewrite H3 in H by lia. discriminate. Qed.

Theorem seek_single_spec s n k0 k1 al : samples_ok s -> (1 <= n <= 32)%N ->
  present (available_indices s) 0 = true -> present (available_indices s) (n - 1) = true ->
  neighbours n k0 k1 -> ffinite al = true -> 0 <= FR al <= 1 ->
  exists c0 c1 a src0 r0 src1 r1,
    seek_stripped_single s k0 k1 al = Ok (c0, c1, a, (src0, r0), (src1, r1)) /\
    (c0 < n)%N /\ (c1 < n)%N /\
    last_available (present (available_indices s)) k0 c0 /\ first_available (present (available_indices s)) k1 c1 /\
    alpha_consistent al k0 c0 c1 a /\ found_in s c0 src0 r0 /\ found_in s c1 src1 r1.
Proof.
  intros Hs Hn Pf Pl (Hk0 & Hk1 & Hp) Ha Hr.
  pose proof (available_lt s Hs) as Alt. set (av := available_indices s) in *.
  destruct (closest_before_spec av k0 0 Alt ltac:(lia) ltac:(lia) Pf) as (c0 & C1 & C2 & C3 & C4).
  destruct (closest_after_spec av k1 (n - 1) Alt ltac:(lia) ltac:(lia) Pl) as (c1 & D1 & D2 & D3 & D4).
  destruct (locate_spec s c0 Hs ltac:(lia) C3) as (src0 & r0 & L1 & L2 & L3).
  destruct (locate_spec s c1 Hs ltac:(lia) D3) as (src1 & r1 & M1 & M2 & M3).
  assert (LA : last_available (present av) k0 c0) by (repeat split; auto; lia).
  assert (FA : first_available (present av) k1 c1) by (repeat split; auto; lia).
  exists c0, c1, (find_linear_interpolation_alpha (fadd al (f_of_N k0)) c0 c1 rp_none), src0, r0, src1, r1.
  unfold seek_stripped_single. fold av. rewrite C1. cbn [bindo]. rewrite D1. cbn [bindo]. rewrite L1, M1. cbn [bindo].
  split; [reflexivity |]. split; [lia |]. split; [lia |]. split; [auto |]. split; [auto |].
  split; [| split; split; auto].
  destruct Hp as [E | [[E1 E2] | [[E1 E2] | [E1 E2]]]].
  - apply (alpha_forward al k0 k1); auto; lia.
  - assert (c0 = (n - 1)%N) by (rewrite E1 in LA; apply (last_self _ _ _ LA); auto).
    assert (c1 = (n - 1)%N) by (rewrite E2 in FA; apply (first_self _ _ _ FA); auto). subst c0 c1. apply alpha_same.
  - assert (c0 = (n - 1)%N) by (rewrite E1 in LA; apply (last_self _ _ _ LA); auto).
    assert (c1 = 0%N) by (rewrite E2 in FA; apply (first_self _ _ _ FA); auto). subst c0 c1.
    destruct (N.eq_dec n 1) as [-> | ]; [apply alpha_same |]. rewrite <- E1. apply alpha_back; auto. lia.
  - assert (c0 = 0%N) by lia. assert (c1 = 0%N) by (rewrite E2 in FA; apply (first_self _ _ _ FA); auto).
    subst c0 c1. apply alpha_same.
Qed.

Theorem seek_multi_spec wrapping n ideal max sizes segs k0 k1 al :
  (2 <= ideal <= max)%N -> (2 * ideal <= max + 1)%N -> (max <= 32)%N -> (max < n < 2 ^ 22)%N ->
  split_samples_per_segment n ideal max = Ok sizes -> length segs = length sizes ->
  (forall i s, nth_error segs i = Some s -> samples_ok s /\ present (available_indices s) 0 = true /\
                present (available_indices s) (nth i sizes 0 - 1)%N = true) ->
  neighbours n k0 k1 -> (k1 = 0%N -> k0 = (n - 1)%N -> wrapping = true) -> (k1 = 0%N -> k0 = 0%N -> wrapping = true) ->
  ffinite al = true -> 0 <= FR al <= 1 ->
  exists s0 s1 g0 g1 f0 f1 c0 c1 a src0 r0 src1 r1,
    seek_stripped_multi wrapping n segs (segment_start_indices sizes) k0 k1 al
      = Ok ((start_of sizes s0 + c0)%N, (start_of sizes s1 + c1)%N, a, (N.of_nat s0, src0, r0), (N.of_nat s1, src1, r1)) /\
    nth_error segs s0 = Some g0 /\ nth_error segs s1 = Some g1 /\
    (start_of sizes s0 + f0 = k0)%N /\ (f0 < nth s0 sizes 0)%N /\ (start_of sizes s1 + f1 = k1)%N /\ (f1 < nth s1 sizes 0)%N /\
    (c0 < nth s0 sizes 0)%N /\ (c1 < nth s1 sizes 0)%N /\
    last_available (present (available_indices g0)) f0 c0 /\ first_available (present (available_indices g1)) f1 c1 /\
    alpha_consistent al k0 (start_of sizes s0 + c0) (start_of sizes s1 + c1) a /\
    found_in g0 c0 src0 r0 /\ found_in g1 c1 src1 r1.
Proof.
  intros Hi Hm2 Hm32 Hn Hsp Hlen Hseg (Hk0 & Hk1 & Hp) Hw Hw0 Ha Hr.
  assert (Hov : (n / ideal * (max - ideal) < 2 ^ 32)%N).
  { apply N.le_lt_trans with (n * 32)%N; [| lia]. apply N.mul_le_mono; [| lia].
    apply N.div_le_upper_bound; [lia |]. apply N.le_trans with (1 * n)%N; [lia |]. apply N.mul_le_mono_r. lia. }
  destruct (split_partition n ideal max) as (sizes' & P1 & _ & P3); try lia.
  rewrite Hsp in P1. injection P1 as <-. destruct (P3 ltac:(lia)) as (Psum & Pfa & Plen). clear P3.
  destruct (seek_finds_segments wrapping n ideal max sizes k0 k1) as (s0 & s1 & f0 & f1 & F1 & F2 & F3 & F4 & F5 & F6 & F7); auto; try lia.
  { destruct Hp as [? | [[? ?] | [[? ?] | [? ?]]]]; [right; left | left; lia | right; right; split | right; right; split]; auto. }
  destruct (nth_error segs s0) as [g0 |] eqn:G0; [| apply nth_error_None in G0; lia].
  destruct (nth_error segs s1) as [g1 |] eqn:G1; [| apply nth_error_None in G1; lia].
  destruct (Hseg s0 g0 G0) as (Ok0 & Pf0 & Pl0). destruct (Hseg s1 g1 G1) as (Ok1 & Pf1 & Pl1).
  assert (Sz : forall i, (i < length sizes)%nat -> (1 <= nth i sizes 0 <= 32)%N).
  { intros i Hi'. rewrite Forall_forall in Pfa. specialize (Pfa (nth i sizes 0%N) (nth_In _ _ Hi')). lia. }
  pose proof (Sz s0 F2) as Z0. pose proof (Sz s1 F3) as Z1.
  pose proof (available_lt g0 Ok0) as Alt0. pose proof (available_lt g1 Ok1) as Alt1.
  destruct (closest_before_spec (available_indices g0) f0 0 Alt0 ltac:(lia) ltac:(lia) Pf0) as (c0 & C1 & C2 & C3 & C4).
  destruct (closest_after_spec (available_indices g1) f1 (nth s1 sizes 0%N - 1) Alt1 ltac:(lia) ltac:(lia) Pl1) as (c1 & D1 & D2 & D3 & D4).
  destruct (locate_spec g0 c0 Ok0 ltac:(lia) C3) as (src0 & r0 & L1 & L2 & L3).
  destruct (locate_spec g1 c1 Ok1 ltac:(lia) D3) as (src1 & r1 & M1 & M2 & M3).
  assert (LA : last_available (present (available_indices g0)) f0 c0) by (repeat split; auto; lia).
  assert (FA : first_available (present (available_indices g1)) f1 c1) by (repeat split; auto; lia).
  assert (EndLt : forall i, (i < length sizes)%nat -> (start_of sizes i + nth i sizes 0%N <= n)%N).
  { intros i Hi'. unfold start_of. rewrite <- sumN_firstn_S by auto. rewrite <- Psum. pose proof (sumN_firstn_le sizes (S i) (length sizes) Hi') as L. rewrite firstn_all in L. exact L. }
  pose proof (EndLt s0 F2) as E0. pose proof (EndLt s1 F3) as E1.
  exists s0, s1, g0, g1, f0, f1, c0, c1,
    (find_linear_interpolation_alpha (fadd al (f_of_N k0)) (start_of sizes s0 + c0) (start_of sizes s1 + c1) rp_none), src0, r0, src1, r1.
  fold (start_of sizes s0) in F5. fold (start_of sizes s1) in F7.
  split; [| split; [exact G0 |]; split; [exact G1 |]; do 6 (split; [lia |]); split; [auto |]; split; [auto |]; split; [| split; split; auto]].
  - unfold seek_stripped_multi. rewrite Hlen, F1. cbn [bindo]. unfold segment_at. rewrite !Nat2N.id, G0, G1. cbn [bindo].
    rewrite C1. cbn [bindo]. rewrite D1. cbn [bindo]. rewrite !start_at_ok by (auto; lia). cbn [bindo].
    rewrite L1. cbn [bindo]. rewrite M1. cbn [bindo]. fold (start_of sizes s0) (start_of sizes s1).
    rewrite !addw_small by lia. reflexivity.
  - assert (CU : forall i j a b, (i < length sizes)%nat -> (j < length sizes)%nat -> (a < nth i sizes 0)%N -> (b < nth j sizes 0)%N ->
       (start_of sizes i + a = start_of sizes j + b)%N -> i = j /\ a = b).
    { intros i j a b I1 I2 I3 I4 I5. assert (i = j).
      { unfold start_of in I5. apply (cover_unique sizes i j (sumN (firstn i sizes) + a)%N); auto; lia. }
      subst j. split; auto. lia. }
    assert (S00 : start_of sizes 0 = 0%N) by reflexivity.
    assert (first_frame : forall i f, (i < length sizes)%nat -> (f < nth i sizes 0)%N -> (start_of sizes i + f = 0)%N -> i = 0%nat /\ f = 0%N).
    { intros i f I1 I2 I3. apply (CU i 0%nat f 0%N); auto; try lia. pose proof (Sz 0%nat ltac:(lia)). lia. }
    assert (last_frame : forall i f, (i < length sizes)%nat -> (f < nth i sizes 0)%N -> (start_of sizes i + f = n - 1)%N -> f = (nth i sizes 0 - 1)%N).
    { intros i f I1 I2 I3. pose proof (EndLt i I1). lia. }
    destruct Hp as [E | [[X1 X2] | [[X1 X2] | [X1 X2]]]].
    + apply (alpha_forward al k0 k1); auto; lia.
    + assert (f0 = (nth s0 sizes 0 - 1)%N) by (apply last_frame; auto; lia).
      assert (f1 = (nth s1 sizes 0 - 1)%N) by (apply last_frame; auto; lia).
      assert (c0 = f0) by (apply (last_self _ _ _ LA); congruence). assert (c1 = f1) by (apply (first_self _ _ _ FA); congruence).
      destruct (CU s0 s1 f0 f1) as [Es Ef]; auto; [lia |]. subst c0 c1. rewrite <- Es, <- Ef. apply alpha_same.
    + assert (f0 = (nth s0 sizes 0 - 1)%N) by (apply last_frame; auto; lia).
      destruct (first_frame s1 f1) as [-> Ef1]; auto; [lia |].
      assert (c0 = f0) by (apply (last_self _ _ _ LA); congruence). assert (c1 = f1) by (apply (first_self _ _ _ FA); congruence).
      subst c0 c1. rewrite F5, F7. apply alpha_back; auto. lia.
    + destruct (first_frame s0 f0) as [-> Ef0]; auto; [lia |]. destruct (first_frame s1 f1) as [-> Ef1]; auto; [lia |].
      assert (c0 = 0%N) by lia. assert (c1 = f1) by (apply (first_self _ _ _ FA); congruence). subst c0 c1. rewrite Ef1. apply alpha_same.
Qed.
