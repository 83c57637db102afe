(** Preparing a transform clip: loops, rotations, constant sub-tracks. *)
From Coq Require Import ZArith NArith Bool Reals Lra Lia List Permutation.
From Verif Require Import Word WordFacts Float32 Float32Facts Interp InterpFacts Segment SegmentFacts SeekSpec Strip TransMeta TransDec TransEnc TransFile TransQuant TransQuantStream TransQuantRange TransQuantSub TransQuantSpec TransQuantClip TransQuantTop TrackArray TrackArrayFacts TransList TransListSpec.
From Verif Require ScalarEnc.
Import ListNotations.
Local Open Scope N_scope.
Ltac Zify.zify_post_hook ::= idtac.

Lemma feq_fin (x y : f32) : feq x y = true -> ffinite x = true -> ffinite y = true.
Proof. destruct x as [[] | [] | |[]], y as [[] | [] | |[]]; cbn; intros H F; try discriminate; reflexivity. Qed.

(** ** The range of four components *)
Lemma range_extremes4 samples c : (c < 4)%nat -> samples <> [] -> Forall full_vec samples -> bounded 10000000000 c samples -> extremes c samples (calculate_track_range samples true).
Proof.
  intros C NE F B. destruct samples as [| s0 rest]; [congruence |]. unfold calculate_track_range. set (l := s0 :: rest) in *. cbv zeta.
  destruct f_1e10_R as [T1 T2]. destruct f_m1e10_R as [T3 T4].
  destruct (fold_lane fmin l c C F (splat ScalarEnc.f_1e10) eq_refl) as [N1 N2]. destruct (fold_lane fmax l c C F (splat (ScalarEnc.fneg ScalarEnc.f_1e10)) eq_refl) as [X1 X2].
  assert (LS : forall x, lane c (splat x) = x) by (intros x; destruct c as [| [| [| [| c]]]]; try lia; reflexivity). rewrite LS in N2, X2.
  assert (FL : Forall (fun x => ffinite x = true) (map (lane c) l)) by (apply Forall_map; eapply Forall_impl; [| exact B]; intros v [H _]; exact H).
  destruct (fold_min _ FL _ T1) as (M1 & M2 & M3 & M4). destruct (fold_max _ FL _ T3) as (Y1 & Y2 & Y3 & Y4). rewrite <- N2 in *. rewrite <- X2 in *.
  set (mn := fold_left (fun m s => map2 fmin m s) l (splat ScalarEnc.f_1e10)) in *. set (mx := fold_left (fun m s => map2 fmax m s) l (splat (ScalarEnc.fneg ScalarEnc.f_1e10))) in *.
  assert (S0 : In s0 l) by (left; reflexivity). assert (B0 : forall v, In v l -> (- 10000000000 <= FR (lane c v) <= 10000000000)%R). { intros v Hv. unfold bounded in B. rewrite Forall_forall in B. destruct (B v Hv) as [_ H]. apply Raux.Rabs_le_inv, H. }
  assert (A1 : exists a, In a l /\ FR (lane c mn) = FR (lane c a)).
  { destruct M2 as [M2 | M2]; [| apply in_map_iff in M2 as (a & <- & Ha); exists a; auto]. exists s0. split; [exact S0 |]. pose proof (M4 _ (in_map (lane c) l s0 S0)) as Q. specialize (B0 s0 S0). rewrite M2, T2 in *. lra. }
  assert (A2 : exists b, In b l /\ FR (lane c mx) = FR (lane c b)).
  { destruct Y2 as [Y2 | Y2]; [| apply in_map_iff in Y2 as (a & <- & Ha); exists a; auto]. exists s0. split; [exact S0 |]. pose proof (Y4 _ (in_map (lane c) l s0 S0)) as Q. specialize (B0 s0 S0). rewrite Y2, T4 in *. lra. }
  assert (A3 : forall v, In v l -> (FR (lane c mn) <= FR (lane c v) <= FR (lane c mx))%R) by (intros v Hv; split; [apply M4, in_map, Hv | apply Y4, in_map, Hv]).
  constructor; unfold from_min_max; cbn [r_min r_max r_extent]; auto; [repeat split; [exact N1 | exact X1 | unfold full_vec in *; rewrite map2_length; congruence] |]. apply map2_lane; unfold full_vec in *; [congruence | rewrite X1; exact C].
Qed.
Lemma stream_extremes ch samples c : (c < width ch)%nat -> samples <> [] -> Forall full_vec samples -> bounded 10000000000 c samples -> extremes c samples (stream_range ch samples).
Proof. intros C. destruct ch; cbn [width] in C; [apply range_extremes4 | apply range_extremes | apply range_extremes]; exact C. Qed.

Lemma all_equal_ok a b : full_vec a -> full_vec b -> (all_equal a b = true <-> forall c, (c < 4)%nat -> feq (lane c a) (lane c b) = true).
Proof.
  unfold full_vec. intros La Lb. do 5 (destruct a as [| ? a]; try discriminate La). do 5 (destruct b as [| ? b]; try discriminate Lb). cbn [all_equal]. rewrite !andb_true_iff. split.
  - intros (H0 & H1 & H2 & H3 & _) c Hc. destruct c as [| [| [| [| c]]]]; try lia; assumption.
  - intros H. repeat split; [exact (H 0%nat ltac:(lia)) | exact (H 1%nat ltac:(lia)) | exact (H 2%nat ltac:(lia)) | exact (H 3%nat ltac:(lia))].
Qed.
(** components past the third are zero in the ranges of vectors *)
Lemma vector_range_w samples : full_vec (r_min (calculate_track_range samples false)) -> full_vec (r_max (calculate_track_range samples false)) ->
  lane 3 (r_min (calculate_track_range samples false)) = f_zero /\ lane 3 (r_max (calculate_track_range samples false)) = f_zero.
Proof.
  assert (Z : forall v, full_vec (zero_w v) -> lane 3 (zero_w v) = f_zero) by (intros v; unfold full_vec, zero_w; destruct v as [| ? [| ? [| ? [| ? v]]]]; cbn; intros H; try discriminate H; reflexivity).
  unfold calculate_track_range. destruct samples; [intros _ _; split; reflexivity |]. cbv zeta. unfold from_min_max. cbn [r_min r_max]. intros A B. split; apply Z; assumption.
Qed.
(** a range is constant when the components of the samples are those of the first one *)
Lemma range_constant ch samples : samples <> [] -> Forall full_vec samples -> (forall c, (c < width ch)%nat -> bounded 10000000000 c samples) ->
  (is_range_constant (stream_range ch samples) = true <-> forall k c, (k < length samples)%nat -> (c < width ch)%nat -> feq (lane c (nth k samples [])) (lane c (nth 0 samples [])) = true).
Proof.
  intros NE F B. assert (L0 : (0 < length samples)%nat) by (destruct samples; [congruence | cbn; lia]).
  assert (EX : forall c, (c < width ch)%nat -> extremes c samples (stream_range ch samples)) by (intros c Hc; apply stream_extremes; auto).
  assert (W0 : (0 < width ch)%nat) by (destruct ch; cbn; lia). destruct (ex_full _ _ _ (EX 0%nat W0)) as (F1 & F2 & _).
  unfold is_range_constant. rewrite (all_equal_ok _ _ F1 F2).
  assert (FIN : forall c k, (c < width ch)%nat -> (k < length samples)%nat -> ffinite (lane c (nth k samples [])) = true).
  { intros c k Hc Hk. specialize (B c Hc). unfold bounded in B. rewrite Forall_forall in B. apply B, nth_In, Hk. }
  split.
  - intros H k c Hk Hc. destruct (EX c Hc) as [_ [D1 D2] _ _ W _]. assert (C4 : (c < 4)%nat) by (destruct ch; cbn in Hc; lia). specialize (H c C4). apply feq_R in H; [| exact D1 | exact D2].
    apply feq_R; [apply FIN; assumption | apply FIN; assumption |]. pose proof (W _ (nth_In samples [] Hk)). pose proof (W _ (nth_In samples [] L0)). lra.
  - intros H c Hc. destruct (Nat.lt_ge_cases c (width ch)) as [Hw | Hw].
    + destruct (EX c Hw) as [_ [D1 D2] [a [Ia Ea]] [b [Ib Eb]] W _]. apply feq_R; [exact D1 | exact D2 |]. rewrite Ea, Eb. apply (In_nth _ _ []) in Ia as (ka & Ka & <-). apply (In_nth _ _ []) in Ib as (kb & Kb & <-).
      pose proof (H ka c Ka Hw) as Ha. pose proof (H kb c Kb Hw) as Hb. apply feq_R in Ha; [| apply FIN; assumption | apply FIN; assumption]. apply feq_R in Hb; [| apply FIN; assumption | apply FIN; assumption]. exact (eq_trans Ha (eq_sym Hb)).
    + assert (E : c = 3%nat) by (destruct ch; cbn in Hw; lia). subst c. destruct ch; cbn in Hw; try lia; unfold stream_range in *; destruct (vector_range_w samples F1 F2) as [-> ->]; reflexivity.
Qed.

(** ** Constant sub-tracks *)
Section Compact.
  Context (R : rtm) (M : metric) (s : lsettings) (i n : N) (default : qvv) (x : channel -> list vec).
  Hypotheses (N1 : 1 <= n) (LX : forall ch, N.of_nat (length (x ch)) = n) (FX : forall ch, Forall full_vec (x ch)) (FD : forall ch, full_vec (part ch default))
    (BX : forall ch c, l_raw s ch = true -> (c < width ch)%nat -> bounded 10000000000 c (x ch)).

  Definition fate_of (c : compacted) (ch : channel) : fate :=
    if k_default c ch then Defaulted (part ch default) else if k_constant c ch then Held (nth 0 (x ch) []) else Animated.
  (** the streams once the sub-tracks before [ch] were compacted *)
  Definition stage (fates : channel -> fate) (ch : channel) : streams := fun c => match (if before c ch then collapsed (fates c) else None) with Some v => [v] | None => x c end.

  Lemma viewed_get ch v : viewed R s ch v = get_sample R s ch v. Proof. destruct ch; reflexivity. Qed.
  Lemma stage_sample fates ch c k : k < n -> sample_clamped (stage fates ch) c k = match (if before c ch then collapsed (fates c) else None) with Some v => v | None => nth (N.to_nat k) (x c) [] end.
  Proof.
    intros K. unfold sample_clamped, stage. destruct (if before c ch then collapsed (fates c) else None) as [v |].
    - cbn [length]. change (N.of_nat 1 - 1) with 0. rewrite N.min_0_r. reflexivity.
    - rewrite LX. replace (N.min k (n - 1)) with k by lia. reflexivity.
  Qed.
  Lemma stage_transform fates ch k : k < n -> raw_transform R s (stage fates ch) k = transform_at R s x fates ch k.
  Proof. intros K. unfold raw_transform, transform_at. rewrite !stage_sample by exact K. reflexivity. Qed.
  Lemma stage_own fates ch : stage fates ch ch = x ch. Proof. unfold stage. destruct ch; reflexivity. Qed.

  Lemma samples_constant_ok fates ch v : l_raw s ch = false -> (are_samples_constant R M s i n (stage fates ch) ch v = true <-> can_replace R M s i n x fates ch v).
  Proof.
    intros RW. unfold are_samples_constant, can_replace. rewrite RW, forallb_forall. split.
    - intros H k K. specialize (H (N.to_nat k)). rewrite N2Nat.id in H. cbv zeta in *. rewrite stage_transform in H by exact K. apply negb_true_iff, H, in_seq. lia.
    - intros H k K. apply in_seq in K. specialize (H (N.of_nat k) ltac:(lia)). cbv zeta in *. rewrite stage_transform by lia. rewrite H. reflexivity.
  Qed.
  Lemma raw_view ch v : l_raw s ch = true -> viewed R s ch v = v.
  Proof. destruct ch; cbn; [intros ->; reflexivity | reflexivity | reflexivity]. Qed.
  Lemma constant_ok fates ch : are_constant R M s i n (stage fates ch) ch = true <-> can_replace R M s i n x fates ch (viewed R s ch (nth 0 (x ch) [])).
  Proof.
    unfold are_constant. destruct (N.eqb_spec n 0) as [E | _]; [lia |]. rewrite stage_own. destruct (l_raw s ch) eqn:RW.
    - rewrite raw_view by exact RW. assert (NE : x ch <> []) by (intros E; specialize (LX ch); rewrite E in LX; cbn in LX; lia). rewrite (range_constant ch (x ch) NE (FX ch)) by (intros c Hc; apply BX; assumption).
      unfold can_replace. rewrite RW. specialize (LX ch). split; intros H k c K C; [apply H; [lia | exact C] |]. specialize (H (N.of_nat k) c ltac:(lia) C). rewrite Nat2N.id in H. exact H.
    - rewrite <- viewed_get. apply samples_constant_ok, RW.
  Qed.
  Definition dropped fates ch : Prop := can_replace R M s i n x fates ch (part ch default) /\ (l_raw s ch = true -> feq (component 3 (nth 0 (x ch) [])) (component 3 (part ch default)) = true).
  Lemma default_ok fates ch : can_replace R M s i n x fates ch (viewed R s ch (nth 0 (x ch) [])) ->
    (are_default R M s i n (stage fates ch) ch (part ch default) = true <-> dropped fates ch).
  Proof.
    intros CR. unfold are_default, dropped. destruct (N.eqb_spec n 0) as [E | _]; [lia |]. rewrite stage_own. destruct (l_raw s ch) eqn:RW.
    - rewrite raw_view in CR by exact RW. unfold can_replace in *. rewrite RW in *. pose proof (LX ch) as LC. assert (L0 : (0 < length (x ch))%nat) by lia.
      assert (FV : forall k, (k < length (x ch))%nat -> full_vec (nth k (x ch) [])) by (intros k Hk; pose proof (FX ch) as F; rewrite Forall_forall in F; apply F, nth_In, Hk).
      assert (FIN : forall c k, (c < width ch)%nat -> (k < length (x ch))%nat -> ffinite (lane c (nth k (x ch) [])) = true). { intros c k Hc Hk. pose proof (BX ch c RW Hc) as B. unfold bounded in B. rewrite Forall_forall in B. apply B, nth_In, Hk. }
      rewrite (all_equal_ok _ _ (FV 0%nat L0) (FD ch)). split.
      + intros H. split; [| intros _; exact (H 3%nat ltac:(lia))]. intros k c K C. assert (C4 : (c < 4)%nat) by (destruct ch; cbn in C; lia). specialize (H c C4). specialize (CR k c K C). unfold component, lane in *.
        assert (FD' : ffinite (nth c (part ch default) f_zero) = true) by (exact (feq_fin _ _ H (FIN c 0%nat C L0))).
        apply feq_R in H; [| apply FIN; assumption | exact FD']. apply feq_R in CR; [| apply FIN; [exact C | lia] | apply FIN; assumption]. apply feq_R; [apply FIN; [exact C | lia] | exact FD' | congruence].
      + intros [H H3] c C. destruct (Nat.lt_ge_cases c (width ch)) as [W | W]; [exact (H 0 c ltac:(lia) W) |]. assert (E : c = 3%nat) by (destruct ch; cbn in W; lia). subst c. exact (H3 eq_refl).
    - rewrite samples_constant_ok by exact RW. split; [intros H; split; [exact H | discriminate] | intros [H _]; exact H].
  Qed.

  (** one kind of sub-track *)
  Lemma raw_transform_ext st st' k : (forall a, st a = st' a) -> raw_transform R s st k = raw_transform R s st' k.
  Proof. intros H. unfold raw_transform, sample_clamped. rewrite !H. reflexivity. Qed.
  Lemma forallb_ext' {A} (f g : A -> bool) l : (forall a, f a = g a) -> forallb f l = forallb g l.
  Proof. intros H. induction l as [| a l IH]; [reflexivity |]. cbn [forallb]. rewrite H, IH. reflexivity. Qed.
  Lemma samples_constant_ext st st' ch v : (forall a, st a = st' a) -> are_samples_constant R M s i n st ch v = are_samples_constant R M s i n st' ch v.
  Proof. intros H. unfold are_samples_constant. apply forallb_ext'. intros k. cbv zeta. rewrite (raw_transform_ext _ _ _ H). reflexivity. Qed.
  Lemma constant_ext st st' ch : (forall a, st a = st' a) -> are_constant R M s i n st ch = are_constant R M s i n st' ch.
  Proof. intros H. unfold are_constant. rewrite (samples_constant_ext st st' _ _ H), H. reflexivity. Qed.
  Lemma default_ext st st' ch v : (forall a, st a = st' a) -> are_default R M s i n st ch v = are_default R M s i n st' ch v.
  Proof. intros H. unfold are_default. rewrite (samples_constant_ext st st' _ _ H), H. reflexivity. Qed.
  Lemma compact_channel_ok ch c : k_constant c ch = false -> k_default c ch = false ->
    let c' := compact_channel R M s i n default ch c in
    let constant := are_constant R M s i n (k_streams c) ch in
    let dropped := are_default R M s i n (k_streams c) ch (part ch default) in
    (forall a, a <> ch -> k_streams c' a = k_streams c a /\ k_constant c' a = k_constant c a /\ k_default c' a = k_default c a) /\
    k_constant c' ch = constant /\ k_default c' ch = constant && dropped /\
    k_streams c' ch = if constant then [if dropped then part ch default else nth 0 (k_streams c ch) []] else k_streams c ch.
  Proof.
    intros C D. cbv zeta. unfold compact_channel. assert (NZ : n =? 0 = false) by (apply N.eqb_neq; lia). rewrite NZ.
    assert (EQ : channel_eqb ch ch = true) by (destruct ch; reflexivity). assert (NE : forall a, a <> ch -> channel_eqb a ch = false) by (intros a H; destruct a, ch; try reflexivity; congruence).
    destruct (are_constant R M s i n (k_streams c) ch); [| auto]. destruct (are_default R M s i n (k_streams c) ch (part ch default)); cbn [k_streams k_constant k_default]; unfold at_channel; rewrite ?EQ; (split; [intros a H; rewrite (NE a H); auto |]); auto.
  Qed.

  Definition bone := compact_bone R M s i n default x.
  Theorem compact_bone_ok :
    let fates := fate_of bone in
    (forall ch, fate_ok R M s i n default x fates ch) /\
    (forall ch, k_streams bone ch = match collapsed (fates ch) with Some v => [v] | None => x ch end) /\
    (forall ch, k_default bone ch = true -> k_constant bone ch = true).
  Proof.
    cbv zeta. remember bone as b eqn:EB0. set (fates := fate_of b).
    set (c0 := {| k_streams := x; k_constant := fun _ => false; k_default := fun _ => false |}).
    set (c1 := compact_channel R M s i n default Rotation c0). set (c2 := compact_channel R M s i n default Translation c1). assert (EB : b = compact_channel R M s i n default Scale c2) by (rewrite EB0; reflexivity). clear EB0.
    destruct (compact_channel_ok Rotation c0 eq_refl eq_refl) as (O1 & A1 & B1 & S1). fold c1 in O1, A1, B1, S1.
    destruct (O1 Translation ltac:(discriminate)) as (T1 & T2 & T3). destruct (O1 Scale ltac:(discriminate)) as (X1 & X2 & X3).
    destruct (compact_channel_ok Translation c1 T2 T3) as (O2 & A2 & B2 & S2). fold c2 in O2, A2, B2, S2.
    destruct (O2 Rotation ltac:(discriminate)) as (U1 & U2 & U3). destruct (O2 Scale ltac:(discriminate)) as (Y1 & Y2 & Y3). rewrite X1 in Y1. rewrite X2 in Y2. rewrite X3 in Y3.
    destruct (compact_channel_ok Scale c2 Y2 Y3) as (O3 & A3 & B3 & S3). rewrite <- EB in O3, A3, B3, S3.
    destruct (O3 Rotation ltac:(discriminate)) as (V1 & V2 & V3). destruct (O3 Translation ltac:(discriminate)) as (W1 & W2 & W3).
    pose proof V1 as V0. rewrite U1 in V1. rewrite U2 in V2. rewrite U3 in V3. clear O1 O2 O3 U1 U2 U3. clearbody c1 c2.
    (* what a channel is, once its flags are those of its stage *)
    assert (KEY : forall ch c, (forall a, k_streams c a = stage fates ch a) -> k_constant b ch = are_constant R M s i n (k_streams c) ch ->
      k_default b ch = are_constant R M s i n (k_streams c) ch && are_default R M s i n (k_streams c) ch (part ch default) ->
      k_streams b ch = (if are_constant R M s i n (k_streams c) ch then [if are_default R M s i n (k_streams c) ch (part ch default) then part ch default else nth 0 (k_streams c ch) []] else k_streams c ch) ->
      fate_ok R M s i n default x fates ch /\ k_streams b ch = (match collapsed (fates ch) with Some v => [v] | None => x ch end) /\ (k_default b ch = true -> k_constant b ch = true)).
    { intros ch c ST KC KD KS. rewrite (constant_ext _ _ ch ST) in KC, KD, KS. rewrite (default_ext _ _ ch _ ST) in KD, KS. rewrite ST, stage_own in KS.
      pose proof (constant_ok fates ch) as CO. pose proof (default_ok fates ch) as DO. unfold fate_ok. cbv zeta. fold (dropped fates ch).
      assert (FE : fates ch = fate_of b ch) by reflexivity. unfold fate_of in FE. rewrite KC, KD in FE. rewrite KC, KD, KS, FE.
      destruct (are_constant R M s i n (stage fates ch) ch); cbn [andb] in *.
      - pose proof (proj1 CO eq_refl) as CR. specialize (DO CR). destruct (are_default R M s i n (stage fates ch) ch (part ch default)); cbn [collapsed].
        + repeat split; try (exact CR); apply (proj1 DO eq_refl).
        + split; [| auto]. split; [reflexivity |]. split; [exact CR |]. intros H. pose proof (proj2 DO H). discriminate.
      - cbn [collapsed]. split; [| auto]. intros H. pose proof (proj2 CO H). discriminate. }
    assert (ST0 : forall a, k_streams c0 a = stage fates Rotation a) by (intros []; reflexivity).
    destruct (KEY Rotation c0 ST0) as (K1 & K2 & K3); [congruence | congruence | congruence |].
    assert (ST1 : forall a, k_streams c1 a = stage fates Translation a). { intros []; [| rewrite T1; reflexivity | rewrite X1; reflexivity]. rewrite <- V1, K2. reflexivity. }
    destruct (KEY Translation c1 ST1) as (L1 & L2 & L3); [congruence | congruence | congruence |].
    assert (ST2 : forall a, k_streams c2 a = stage fates Scale a). { intros []; [| | rewrite Y1; reflexivity]. - rewrite <- V0, K2. reflexivity. - rewrite <- W1, L2. reflexivity. }
    destruct (KEY Scale c2 ST2) as (M1 & M2 & M3); [assumption | assumption | assumption |].
    split; [intros []; assumption |]. split; intros []; assumption.
  Qed.
End Compact.
