(** What is decoded of a quantized sample, compared with the sample. *)
From Coq Require Import ZArith NArith Bool Reals Lra Lia List.
From Flocq Require Import Core.
From Verif Require Import Word WordFacts Float32 Float32Facts Quant QuantFacts Headers PackSpec ScalarLanes ScalarRead TransFloat TransSpec TransDec TransMem TransEnc TransEncSpec TransQuant TransQuantFloat TransQuantLane TransQuantStream TransQuantRange TransQuantSub TransQuantSpec.
From Verif Require ScalarEnc.
Import ListNotations.
Local Open Scope N_scope.
Ltac Zify.zify_post_hook ::= idtac.

Definition clip_bits (q : qsettings) (o : source) (ch : channel) : list N := map f_bits (firstn 3 (r_min (clip_range q o ch))) ++ map f_bits (firstn 3 (r_extent (clip_range q o ch))).
Lemma bits_lane v c : full_vec v -> (c < 3)%nat -> nth c (map f_bits (firstn 3 v)) 0 = f_bits (lane c v).
Proof. unfold full_vec. intros L C. do 5 (destruct v as [| ? v]; try discriminate L). destruct c as [| [| [| c]]]; try lia; reflexivity. Qed.
Lemma clip_values q o ch c : full_vec (r_min (clip_range q o ch)) -> full_vec (r_extent (clip_range q o ch)) -> (c < 3)%nat ->
  clip_value (clip_bits q o ch) c = lane c (r_min (clip_range q o ch)) /\ clip_value (clip_bits q o ch) (3 + c) = lane c (r_extent (clip_range q o ch)).
Proof.
  intros F1 F2 C. unfold clip_value, clip_bits. assert (L : length (map f_bits (firstn 3 (r_min (clip_range q o ch)))) = 3%nat) by (rewrite map_length, firstn_length, F1; reflexivity).
  rewrite app_nth1 by (rewrite L; exact C). rewrite app_nth2 by (rewrite L; lia). rewrite L. replace (3 + c - 3)%nat with c by lia. rewrite !bits_lane by assumption. rewrite !f_of_bits_bits. split; reflexivity.
Qed.
Lemma words_back n v : map f_of_bits (lanes n v) = firstn (N.to_nat n) v.
Proof. unfold lanes. rewrite map_map. rewrite <- (map_id (firstn (N.to_nat n) v)) at 2. apply map_ext. apply f_of_bits_bits. Qed.

Lemma slack_mono W W' A A' : (W <= W')%R -> (A <= A')%R -> (slack W A <= rounding W' A')%R.
Proof. intros H1 H2. unfold slack, rounding. simpl. lra. Qed.
Lemma scaled_mono a b n : 1 <= n <= 23 -> (a <= b)%R -> (a / (2 * IZR (Mz n)) <= b / (2 * IZR (2 ^ Z.of_N n - 1)))%R.
Proof. intros Hn H. change (2 ^ Z.of_N n - 1)%Z with (Mz n). pose proof (half n Hn) as [P _]. apply Rmult_le_compat_r; lra. Qed.

Section Error.
  Context (q : qsettings) (total : N) (o : source) (ch : channel) (start n rate : N).
  Hypotheses (K : source_ok q total o) (C : o_constant o ch = false) (Fit : segment_fits q total start n).
  Local Notation clip := (o_lossy o ch).
  Local Notation seg := (firstn (N.to_nat n) (skipn (N.to_nat start) (o_lossy o ch))).
  Local Notation s := (samples_of q start n o ch).

  Lemma seg_in v : In v seg -> In v clip.
  Proof. intros H. apply In_nth_error in H as [k E]. assert (Hk : (k < N.to_nat n)%nat). { assert (k < length seg)%nat by (apply nth_error_Some; congruence). rewrite firstn_length in H. lia. }
    rewrite nth_error_firstn, nth_error_skipn in E by exact Hk. eapply nth_error_In, E. Qed.
  Lemma seg_nth k v : k < n -> nth_error clip (N.to_nat start + N.to_nat k) = Some v -> nth_error seg (N.to_nat k) = Some v.
  Proof. intros H E. rewrite nth_error_firstn, nth_error_skipn by lia. exact E. Qed.

  Section Reduced.
    Hypothesis V : q_variable q ch = true.
    Local Notation M c := (lane c (r_min (clip_range q o ch))).
    Local Notation X c := (lane c (r_max (clip_range q o ch))).
    Local Notation f := (fun v => ScalarEnc.normalize_sample v (r_min (clip_range q o ch)) (r_extent (clip_range q o ch))).
    Lemma s_map : s = map f seg.
    Proof. rewrite (samples_eq q total o K ch start n C Fit), (clip_stream_eq q total o K ch C V). rewrite <- firstn_map, <- skipn_map. reflexivity. Qed.
    Lemma f_lane v c : In v clip -> (c < 3)%nat -> lane c (f v) = ScalarEnc.normalize_lane (lane c v) (M c) (fsub (X c) (M c)) /\ full_vec (f v).
    Proof.
      intros I Hc. destruct (clip_full q total o K ch start n C Fit V) as (F1 & F2 & F3). pose proof (ok_lossy _ _ _ K ch) as FL. rewrite Forall_forall in FL. specialize (FL v I).
      rewrite normalize_lanes by (try assumption; lia). rewrite (ex_extent _ _ _ (clip_extremes q total o K ch start n C Fit V c Hc)). split; [reflexivity |]. apply normalize_full; assumption.
    Qed.

    Section Component.
      Context (c : nat) (A W : R).
      Hypotheses (Hc : (c < 3)%nat) (BA : at_most A c clip) (A10 : (A <= 10000000000)%R) (AW : apart W c clip).
      Lemma clip_facts : ffinite (M c) = true /\ ffinite (X c) = true /\ (Rabs (FR (M c)) <= A)%R /\ (Rabs (FR (X c)) <= A)%R /\ (width (M c) (X c) <= W)%R /\
        forall v, In v clip -> ffinite (lane c v) = true /\ (FR (M c) <= FR (lane c v) <= FR (X c))%R.
      Proof.
        pose proof (clip_extremes q total o K ch start n C Fit V c Hc) as E. destruct (ex_fin _ _ _ E) as [FM FX]. destruct (ex_min _ _ _ E) as (a & Ia & Ea). destruct (ex_max _ _ _ E) as (b & Ib & Eb).
        split; [exact FM |]. split; [exact FX |]. unfold width. rewrite Ea, Eb. split; [apply (BA a Ia) |]. split; [apply (BA b Ib) |]. split; [apply (AW b a Ib Ia) |].
        intros v I. split; [apply (BA v I) |]. rewrite <- Ea, <- Eb. apply (ex_within _ _ _ E), I.
      Qed.
      Lemma one_near x m v : 1 <= m <= 23 -> In x clip -> pack_scalar_unsigned (lane c (f x)) m = Ok v ->
        let y := in_range (unit_value m v) (fsub (X c) (M c)) (M c) in
        ffinite y = true /\ (Rabs (FR y - FR (lane c x)) <= W / (2 * IZR (2 ^ Z.of_N m - 1)) + rounding W A)%R.
      Proof.
        intros Hm I E y. cbv beta in E. destruct clip_facts as (FM & FX & BM & BX & BW & H). destruct (H x I) as [Fx Bx]. rewrite (proj1 (f_lane x c I Hc)) in E.
        destruct (lane_one (M c) (X c) A FM FX BM BX A10 (lane c x) m v Hm Fx Bx E) as [F B]. split; [exact F |]. eapply Rle_trans; [exact B |]. apply Rplus_le_compat; [apply scaled_mono; assumption | apply slack_mono; [exact BW | apply Rle_refl]].
      Qed.
      Lemma split_near x m v Ws : q_split q = true -> 1 <= m <= 23 -> In x seg -> apart Ws c seg ->
        let g := segment_range q o ch s in
        pack_scalar_unsigned (ScalarEnc.normalize_lane (lane c (f x)) (lane c (r_min g)) (lane c (r_extent g))) m = Ok v ->
        let y := in_range (in_range (unit_value m v) (lane c (r_extent g)) (lane c (r_min g))) (fsub (X c) (M c)) (M c) in
        ffinite y = true /\ (Rabs (FR y - FR (lane c x)) <= (Ws + W / 80) / (2 * IZR (2 ^ Z.of_N m - 1)) + rounding W A)%R.
      Proof.
        intros SP Hm I AWs g E y. destruct clip_facts as (FM & FX & BM & BX & BW & H). destruct (H x (seg_in x I)) as [Fx Bx].
        pose proof (segment_extremes q total o K ch start n C Fit V c Hc) as EX. destruct (segment_lanes q total o K ch start n C Fit V c Hc) as (L1 & L2 & _). fold g in L1, L2. set (r := bone_stream_range q ch s) in *.
        destruct (ex_fin _ _ _ EX) as [N1 N2]. destruct (ex_min _ _ _ EX) as (a' & Ia & Ea). destruct (ex_max _ _ _ EX) as (b' & Ib & Eb). rewrite s_map in Ia, Ib. apply in_map_iff in Ia as (a & <- & Ia). apply in_map_iff in Ib as (b & <- & Ib).
        destruct (H a (seg_in a Ia)) as [Fa Ba]. destruct (H b (seg_in b Ib)) as [Fb Bb].
        pose proof (ex_within _ _ _ EX (f x)) as WI. rewrite s_map in WI. specialize (WI (in_map f seg x I)).
        cbv beta in E, WI, Ea, Eb. rewrite (proj1 (f_lane x c (seg_in x I) Hc)) in E, WI. rewrite (proj1 (f_lane a c (seg_in a Ia) Hc)) in Ea. rewrite (proj1 (f_lane b c (seg_in b Ib) Hc)) in Eb.
        unfold y. rewrite L1, L2 in E |- *.
        destruct (lane_split (M c) (X c) A FM FX BM BX A10 (lane c x) (lane c a) (lane c b) m v (lane c (r_min r)) (lane c (r_max r)) Hm Fx Bx Fa Ba Fb Bb N1 Ea N2 Eb WI E) as (u & k & _ & _ & _ & _ & F & B).
        split; [exact F |]. eapply Rle_trans; [exact B |]. apply Rplus_le_compat; [| apply slack_mono; [exact BW | apply Rle_refl]]. apply scaled_mono; [exact Hm |]. pose proof (AWs b a Ib Ia) as Q. change component with lane in Q. lra.
      Qed.
    End Component.
  End Reduced.

  Lemma unit_nth n' l c : nth c (map (unit_value n') l) (unit_value n' 0) = unit_value n' (nth c l 0). Proof. apply map_nth. Qed.

  (** the decoded sample *)
  Theorem decoded_kept k x : (q_variable q ch = true -> rate_ok q rate) -> k < n -> nth_error clip (N.to_nat (start + k)) = Some x ->
    kept_sample (if q_variable q ch then Some rate else None) (q_split q) (N.to_nat (q_components q ch)) clip seg (nth (N.to_nat (start + k)) (o_raw o ch) []) x
      (decoded (q_split q) (stored_sample q start n rate o ch k) (clip_bits q o ch)).
  Proof.
    intros RO Hk EX. pose proof (nth_error_In _ _ EX) as Ix. replace (N.to_nat (start + k)) with (N.to_nat start + N.to_nat k)%nat in EX by lia. pose proof (seg_nth k x Hk EX) as ES. pose proof (nth_error_In _ _ ES) as Is.
    unfold stored_sample. cbv zeta. destruct (q_variable q ch) eqn:V.
    2:{ cbn [kept_sample]. unfold decoded. cbn [s_bits]. change (32 =? 32) with true. cbv iota. cbn [s_vals]. rewrite words_back. f_equal. rewrite (samples_eq q total o K ch start n C Fit). unfold clip_stream, is_normalized. rewrite V. cbn [andb].
        apply nth_vec, ES. }
    destruct (RO eq_refl) as [R24 R0]. unfold kept_sample, variable_stored. set (rb := range_bytes q o ch s).
    destruct (clip_full q total o K ch start n C Fit V) as (F1 & _ & F3).
    destruct (N.eqb_spec rate 0) as [E0 | E0].
    - (* one sample for the segment *)
      subst rate. unfold decoded. cbn [s_bits]. change (0 =? 32) with false. cbv iota. split; [reflexivity |]. intros c A W Ws Hc BA A10 AW _.
      destruct (q_split q) eqn:SP; [| exfalso; apply R0; reflexivity].
      assert (S0 : exists x0, nth_error seg 0 = Some x0). { destruct seg as [| x0 ?] eqn:Q; [destruct (N.to_nat k); discriminate | exists x0; reflexivity]. }
      destruct S0 as [x0 S0]. assert (CV : value (splat f_zero) (constant_sample q s) = ScalarEnc.normalize_sample x0 (r_min (clip_range q o ch)) (r_extent (clip_range q o ch))).
      { unfold constant_sample. rewrite SP, s_map by exact V. destruct seg as [| y0 r]; [discriminate |]. cbn in S0. injection S0 as ->. reflexivity. }
      assert (I0 : In x0 clip) by (apply seg_in; eapply nth_error_In, S0).
      destruct (f_lane V x0 c I0 Hc) as [L0 _]. pose proof (nth_vec seg 0 x0 S0) as N0.
      assert (P : exists v, pack_scalar_unsigned (lane c (ScalarEnc.normalize_sample x0 (r_min (clip_range q o ch)) (r_extent (clip_range q o ch)))) 16 = Ok v /\ nth c (packed_lanes 16 (value (splat f_zero) (constant_sample q s))) 0 = v).
      { rewrite CV. destruct (packed_lane 16 (ScalarEnc.normalize_sample x0 (r_min (clip_range q o ch)) (r_extent (clip_range q o ch))) c ltac:(lia)) as (v & Pv & _ & Ev); [| exact Hc | exists v; auto].
        apply (clip_units q total o K ch start n C Fit V). rewrite (clip_stream_eq q total o K ch C V). apply (in_map (fun v => ScalarEnc.normalize_sample v (r_min (clip_range q o ch)) (r_extent (clip_range q o ch))) clip x0 I0). }
      destruct P as (v & Pv & Ev). destruct (one_near V c A W Hc BA A10 AW x0 16 v ltac:(lia) I0 Pv) as [FY BY].
      assert (EY : component c (map (fun c => in_range (normalized true {| s_bits := 0; s_vals := packed_lanes 16 (value (splat f_zero) (constant_sample q s)); s_range := rb |} c) (clip_value (clip_bits q o ch) (3 + c)) (clip_value (clip_bits q o ch) c)) [0; 1; 2]%nat)
                 = in_range (unit_value 16 v) (fsub (lane c (r_max (clip_range q o ch))) (lane c (r_min (clip_range q o ch)))) (lane c (r_min (clip_range q o ch)))).
      { destruct (clip_values q o ch c F1 F3 Hc) as [Q1 Q2]. rewrite (ex_extent _ _ _ (clip_extremes q total o K ch start n C Fit V c Hc)) in Q2. rewrite <- Ev, <- Q2, <- Q1. destruct c as [| [| [| c]]]; try lia; reflexivity. }
      rewrite EY. split; [exact FY |]. rewrite <- N0 in BY. exact BY.
    - destruct (N.eqb_spec rate 24) as [E24 | E24].
      + subst rate. unfold decoded. cbn [s_bits]. change (32 =? 32) with true. cbv iota. cbn [s_vals]. apply words_back.
      + assert (Hn : 1 <= rate <= 23) by lia.
        assert (G : near clip seg (2 ^ Z.of_N rate - 1) (fun W Ws => if q_split q then (Ws + W / 80)%R else W) x
                      (decoded (q_split q) {| s_bits := rate; s_vals := packed_lanes rate (nth (N.to_nat k) (segment_normalized q o ch s) []); s_range := rb |} (clip_bits q o ch))).
        2:{ destruct rate as [| p]; [congruence |]. destruct p as [p | p |]; try exact G. destruct p as [p | p |]; try exact G. destruct p as [p | p |]; try exact G. destruct p as [p | p |]; try exact G. destruct p as [p | p |]; try exact G. congruence. }
        unfold decoded. cbn [s_bits]. rewrite (proj2 (N.eqb_neq rate 32)) by lia. split; [reflexivity |]. intros c A W Ws Hc BA A10 AW AWs.
        set (z := nth (N.to_nat k) (segment_normalized q o ch s) []).
        assert (UZ : unit_lanes z). { pose proof (normalized_units q total o K ch start n C Fit V) as NU. rewrite Forall_forall in NU. apply NU. apply nth_In. rewrite (normalized_length q total o K ch start n C Fit V). lia. }
        destruct (packed_lane rate z c Hn UZ Hc) as (v & Pv & _ & Ev).
        destruct (clip_values q o ch c F1 F3 Hc) as [Q1 Q2]. rewrite (ex_extent _ _ _ (clip_extremes q total o K ch start n C Fit V c Hc)) in Q2.
        assert (EY : component c (map (fun c => in_range (normalized (q_split q) {| s_bits := rate; s_vals := packed_lanes rate z; s_range := rb |} c) (clip_value (clip_bits q o ch) (3 + c)) (clip_value (clip_bits q o ch) c)) [0; 1; 2]%nat)
                   = in_range (normalized (q_split q) {| s_bits := rate; s_vals := packed_lanes rate z; s_range := rb |} c) (fsub (lane c (r_max (clip_range q o ch))) (lane c (r_min (clip_range q o ch)))) (lane c (r_min (clip_range q o ch)))).
        { rewrite <- Q2, <- Q1. destruct c as [| [| [| c]]]; try lia; reflexivity. }
        rewrite EY. unfold normalized. cbn [s_bits s_vals s_range]. rewrite (proj2 (N.eqb_neq rate 0)), Ev by lia. cbv zeta.
        assert (EZ : z = if q_split q then ScalarEnc.normalize_sample (ScalarEnc.normalize_sample x (r_min (clip_range q o ch)) (r_extent (clip_range q o ch))) (r_min (segment_range q o ch s)) (r_extent (segment_range q o ch s)) else ScalarEnc.normalize_sample x (r_min (clip_range q o ch)) (r_extent (clip_range q o ch))).
        { unfold z. rewrite (normalized_eq q total o K ch start n C V). pose proof (map_nth_error (fun v => ScalarEnc.normalize_sample v (r_min (clip_range q o ch)) (r_extent (clip_range q o ch))) _ _ ES) as EM. rewrite <- (s_map V) in EM.
          destruct (q_split q); [| apply nth_vec, EM]. apply nth_vec. exact (map_nth_error (fun v => ScalarEnc.normalize_sample v (r_min (segment_range q o ch s)) (r_extent (segment_range q o ch s))) _ _ EM). }
        destruct (q_split q) eqn:SP.
        * destruct (segment_full q total o K ch start n C Fit V) as [G1 G2]. destruct (f_lane V x c Ix Hc) as [_ FX]. rewrite EZ, normalize_lanes in Pv by (try assumption; lia).
          destruct (split_near V c A W Hc BA A10 AW x rate v Ws SP Hn Is AWs Pv) as [FY BY].
          destruct (segment_lanes q total o K ch start n C Fit V c Hc) as (_ & _ & u & k' & Hu & Hk' & Eu & Ek & _).
          assert (R1 : unit_value 8 (nth c rb 0) = lane c (r_min (segment_range q o ch s)) /\ unit_value 8 (nth (3 + c) rb 0) = lane c (r_extent (segment_range q o ch s))).
          { unfold rb, range_bytes. rewrite SP, V, C. cbn [andb negb]. destruct (range_units q total o K ch start n C Fit V) as [U1 U2].
            rewrite app_nth1 by (cbn [packed_lanes length]; exact Hc). rewrite app_nth2 by (cbn [packed_lanes length]; lia). replace (3 + c - length (packed_lanes 8 (r_min (segment_range q o ch s))))%nat with c by (cbn [packed_lanes length]; lia).
            destruct (packed_lane 8 _ c ltac:(lia) U1 Hc) as (a1 & P1 & _ & E1). destruct (packed_lane 8 _ c ltac:(lia) U2 Hc) as (a2 & P2 & _ & E2). rewrite E1, E2. rewrite Eu in P1 |- *. rewrite Ek in P2 |- *.
            pose proof (pack_unpack u 8 ltac:(lia) Hu) as PU. pose proof (pack_unpack k' 8 ltac:(lia) Hk') as PK. change (unpack_scalar_unsigned u 8) with (unit_value 8 u) in PU. change (unpack_scalar_unsigned k' 8) with (unit_value 8 k') in PK. rewrite P1 in PU. rewrite P2 in PK. injection PU as ->. injection PK as ->. split; reflexivity. }
          destruct R1 as [R1 R2]. rewrite R1, R2. split; [exact FY | exact BY].
        * rewrite EZ in Pv. destruct (one_near V c A W Hc BA A10 AW x rate v Hn Ix Pv) as [FY BY]. split; [exact FY | exact BY].
  Qed.
End Error.
