(** One kind of sub-track of one bone, quantized in one segment. *)
From Coq Require Import ZArith NArith Bool Reals Lra Lia List.
From Flocq Require Import Core.
From Verif Require Import Word WordFacts Float32 Float32Facts Quant QuantFacts Headers PackSpec ScalarLanes TransFloat TransSpec TransDec TransMem TransEnc TransEncSpec TransQuant TransQuantFloat TransQuantLane TransQuantStream TransQuantRange.
From Verif Require ScalarEnc.
Import ListNotations.
Local Open Scope N_scope.
Ltac Zify.zify_post_hook ::= idtac.

(** a bone to compress, with [total] samples: constant sub-tracks have one sample, the others one per key frame, in the lossy and in the raw
    clip; components that are range reduced are finite and at most 1e10 *)
Record source_ok (q : qsettings) (total : N) (o : source) : Prop := {
  ok_default : forall ch, o_default o ch = true -> o_constant o ch = true;
  ok_no_scale : q_has_scale q = false -> o_default o Scale = true;
  ok_constant : forall ch, o_constant o ch = true -> length (o_lossy o ch) = 1%nat;
  ok_animated : forall ch, o_constant o ch = false -> N.of_nat (length (o_lossy o ch)) = total /\ N.of_nat (length (o_raw o ch)) = total;
  ok_lossy : forall ch, Forall full_vec (o_lossy o ch);
  ok_raw : forall ch, Forall full_vec (o_raw o ch);
  ok_bounded : forall ch c, o_constant o ch = false -> q_variable q ch = true -> (c < 3)%nat -> bounded 10000000000 c (o_lossy o ch)
}.
Definition rate_ok (q : qsettings) (rate : N) : Prop := rate <= 24 /\ (q_split q = false -> rate <> 0).
(** samples [start .. start + n) of the clip are a segment: the whole clip when it is not split *)
Definition segment_fits (q : qsettings) (total start n : N) : Prop := 1 <= n /\ start + n <= total /\ (q_split q = false -> start = 0 /\ n = total) /\ n * 16 < 2 ^ 32.

(** ** What the segment stores *)
Definition samples_of (q : qsettings) (start n : N) (o : source) (ch : channel) : list vec := value [] (segment_stream q start n o ch).
Definition range_bytes (q : qsettings) (o : source) (ch : channel) (s : list vec) : list N :=
  if q_split q && q_variable q ch && negb (o_constant o ch) then packed_lanes 8 (r_min (segment_range q o ch s)) ++ packed_lanes 8 (r_extent (segment_range q o ch s)) else repeat 0 6.
Definition stored_sample (q : qsettings) (start n rate : N) (o : source) (ch : channel) (k : N) : stored :=
  let s := samples_of q start n o ch in
  if q_variable q ch then
    variable_stored rate (value (splat f_zero) (constant_sample q s)) (nth (N.to_nat (start + k)) (o_raw o ch) []) (nth (N.to_nat k) (segment_normalized q o ch s) []) (range_bytes q o ch s)
  else {| s_bits := 32; s_vals := lanes (q_components q ch) (nth (N.to_nat k) s []); s_range := range_bytes q o ch s |}.

Lemma nth_vec (l : list vec) (k : nat) (v : vec) : nth_error l k = Some v -> @nth vec k l [] = v.
Proof. intros H. apply nth_error_nth, H. Qed.

Section Sub.
  Context (q : qsettings) (total : N) (o : source).
  Hypothesis K : source_ok q total o.

  Lemma animated_normalized ch : o_constant o ch = false -> q_variable q ch = true -> is_normalized q ch = true.
  Proof.
    intros C V. unfold is_normalized. rewrite V. destruct ch; try reflexivity. destruct (q_has_scale q) eqn:H; [reflexivity |]. rewrite (ok_default _ _ _ K Scale (ok_no_scale _ _ _ K H)) in C. discriminate.
  Qed.
  Lemma animated_range ch (s : list vec) : o_constant o ch = false -> exists is4, bone_stream_range q ch s = calculate_track_range s is4.
  Proof.
    intros C. destruct ch; [exists true; reflexivity | exists false; reflexivity |]. unfold bone_stream_range. destruct (q_has_scale q) eqn:H; [exists false; reflexivity |]. rewrite (ok_default _ _ _ K Scale (ok_no_scale _ _ _ K H)) in C. discriminate.
  Qed.

  Section Animated.
    Context (ch : channel) (start n : N).
    Hypotheses (C : o_constant o ch = false) (Fit : segment_fits q total start n).
    Local Notation clip := (o_lossy o ch).
    Lemma clip_nonempty : clip <> [].
    Proof. destruct (ok_animated _ _ _ K ch C) as [L _]. destruct Fit as (F1 & F2 & _). intros E. rewrite E in L. cbn in L. lia. Qed.

    (** the samples of the segment *)
    Lemma segment_samples (l : list vec) : N.of_nat (length l) = total -> (if q_split q then firstn (N.to_nat n) (skipn (N.to_nat start) l) else l) = firstn (N.to_nat n) (skipn (N.to_nat start) l).
    Proof. intros L. destruct Fit as (F1 & F2 & F3 & _). destruct (q_split q); [reflexivity |]. destruct (F3 eq_refl) as [-> ->]. cbn [N.to_nat skipn]. symmetry. apply firstn_all2. lia. Qed.
    Lemma clip_stream_length : length (clip_stream q o ch) = length clip.
    Proof. unfold clip_stream, normalize_stream. rewrite C. destruct (is_normalized q ch); [apply map_length | reflexivity]. Qed.
    Lemma segment_stream_ok : segment_stream q start n o ch = Ok (firstn (N.to_nat n) (skipn (N.to_nat start) (clip_stream q o ch))).
    Proof.
      unfold segment_stream. rewrite C, orb_false_r. destruct (ok_animated _ _ _ K ch C) as [L _]. pose proof clip_stream_length as CL. destruct (q_split q) eqn:SP; cbn [negb].
      - rewrite (proj2 (N.leb_le _ _)); [reflexivity |]. destruct Fit as (_ & F2 & _). lia.
      - rewrite <- (segment_samples (clip_stream q o ch)), SP by lia. reflexivity.
    Qed.
    Local Notation s := (samples_of q start n o ch).
    Lemma samples_eq : s = firstn (N.to_nat n) (skipn (N.to_nat start) (clip_stream q o ch)).
    Proof. unfold samples_of. rewrite segment_stream_ok. reflexivity. Qed.
    Lemma samples_length : length s = N.to_nat n.
    Proof. rewrite samples_eq, firstn_length, skipn_length, clip_stream_length. destruct (ok_animated _ _ _ K ch C) as [L _]. destruct Fit as (F1 & F2 & _). lia. Qed.
    Lemma samples_nth k : (k < N.to_nat n)%nat -> nth_error s k = nth_error (clip_stream q o ch) (N.to_nat start + k).
    Proof. intros H. rewrite samples_eq, nth_error_firstn by exact H. apply nth_error_skipn. Qed.
    Lemma clip_sample k : k < n -> exists v, nth_error clip (N.to_nat start + N.to_nat k) = Some v /\ In v clip /\ full_vec v.
    Proof.
      intros H. destruct (ok_animated _ _ _ K ch C) as [L _]. destruct Fit as (_ & F2 & _). destruct (nth_error clip (N.to_nat start + N.to_nat k)) as [v |] eqn:E; [| apply nth_error_None in E; lia].
      exists v. pose proof (nth_error_In _ _ E) as I. split; [reflexivity |]. split; [exact I |]. pose proof (ok_lossy _ _ _ K ch) as FL. rewrite Forall_forall in FL. apply FL, I.
    Qed.
    Lemma raw_sample_at k : k < n -> exists v, nth_error (o_raw o ch) (N.to_nat (start + k)) = Some v /\ full_vec v.
    Proof.
      intros H. destruct (ok_animated _ _ _ K ch C) as [_ L]. destruct Fit as (_ & F2 & _). destruct (nth_error (o_raw o ch) (N.to_nat (start + k))) as [v |] eqn:E; [| apply nth_error_None in E; lia].
      exists v. split; [reflexivity |]. pose proof (ok_raw _ _ _ K ch) as FL. rewrite Forall_forall in FL. apply FL. eapply nth_error_In, E.
    Qed.

    (** a variable format *)
    Section Reduced.
      Hypothesis V : q_variable q ch = true.
      Lemma clip_extremes c : (c < 3)%nat -> extremes c clip (clip_range q o ch).
      Proof. intros Hc. unfold clip_range. rewrite C. destruct (animated_range ch clip C) as [is4 ->]. apply range_extremes; [exact Hc | exact clip_nonempty | apply K | apply K; assumption]. Qed.
      Lemma clip_stream_eq : clip_stream q o ch = map (fun v => ScalarEnc.normalize_sample v (r_min (clip_range q o ch)) (r_extent (clip_range q o ch))) clip.
      Proof. unfold clip_stream, normalize_stream. rewrite (animated_normalized ch C V), C. reflexivity. Qed.
      Lemma clip_full : full_vec (r_min (clip_range q o ch)) /\ full_vec (r_max (clip_range q o ch)) /\ full_vec (r_extent (clip_range q o ch)).
      Proof. apply (ex_full _ _ _ (clip_extremes 0 ltac:(lia))). Qed.
      (** normalized samples come from samples of the clip *)
      Lemma from_clip w : In w (clip_stream q o ch) -> exists v, In v clip /\ full_vec v /\ full_vec w /\
        forall c, (c < 3)%nat -> lane c w = ScalarEnc.normalize_lane (lane c v) (lane c (r_min (clip_range q o ch))) (fsub (lane c (r_max (clip_range q o ch))) (lane c (r_min (clip_range q o ch)))).
      Proof.
        rewrite clip_stream_eq. intros H. apply in_map_iff in H as (v & <- & I). destruct clip_full as (F1 & F2 & F3). pose proof (ok_lossy _ _ _ K ch) as FL. rewrite Forall_forall in FL. specialize (FL v I).
        exists v. split; [exact I |]. split; [exact FL |]. split; [apply normalize_full; assumption |]. intros c Hc. rewrite normalize_lanes by (try assumption; lia). rewrite (ex_extent _ _ _ (clip_extremes c Hc)). reflexivity.
      Qed.
      (** the range of the clip, as the lemmas on components want it *)
      Lemma clip_lane c v : (c < 3)%nat -> In v clip ->
        let M := lane c (r_min (clip_range q o ch)) in let X := lane c (r_max (clip_range q o ch)) in
        ffinite (lane c v) = true /\ ffinite M = true /\ ffinite X = true /\ (FR M <= FR (lane c v) <= FR X)%R /\ (Rabs (FR M) <= 10000000000)%R /\ (Rabs (FR X) <= 10000000000)%R.
      Proof.
        intros Hc I M X. pose proof (clip_extremes c Hc) as E. pose proof (ok_bounded _ _ _ K ch c C V Hc) as B. unfold bounded in B. rewrite Forall_forall in B.
        destruct (ex_fin _ _ _ E) as [FM FX]. destruct (ex_min _ _ _ E) as (a & Ia & Ea). destruct (ex_max _ _ _ E) as (b & Ib & Eb).
        split; [apply B, I |]. split; [exact FM |]. split; [exact FX |]. split; [apply (ex_within _ _ _ E), I |]. unfold M, X. rewrite Ea, Eb. split; apply B; assumption.
      Qed.
      Lemma clip_units w : In w (clip_stream q o ch) -> unit_lanes w.
      Proof.
        intros I c Hc. destruct (from_clip w I) as (v & Iv & _ & _ & E). rewrite (E c Hc). destruct (clip_lane c v Hc Iv) as (F1 & F2 & F3 & B & BM & BX).
        destruct (clip_normalize (lane c v) _ _ _ F1 F2 F3 B BM BX (Rle_refl _)) as (Fy & By & _). split; assumption.
      Qed.
      Lemma samples_in w : In w s -> In w (clip_stream q o ch).
      Proof. intros I. apply In_nth_error in I as [k E]. assert (Hk : (k < N.to_nat n)%nat) by (rewrite <- samples_length; apply nth_error_Some; congruence). rewrite samples_nth in E by exact Hk. eapply nth_error_In, E. Qed.
      Lemma samples_nonempty : s <> [].
      Proof. intros E. pose proof samples_length as L. rewrite E in L. destruct Fit as (F1 & _). cbn in L. lia. Qed.
      Lemma samples_full : Forall full_vec s.
      Proof. apply Forall_forall. intros w I. destruct (from_clip w (samples_in w I)) as (v & _ & _ & F & _). exact F. Qed.
      (** the segment range, before it is padded *)
      Lemma segment_extremes c : (c < 3)%nat -> extremes c s (bone_stream_range q ch s).
      Proof.
        intros Hc. destruct (animated_range ch s C) as [is4 ->]. apply range_extremes; [exact Hc | exact samples_nonempty | exact samples_full |].
        apply Forall_forall. intros w I. destruct (clip_units w (samples_in w I) c Hc) as [F B]. split; [exact F |]. rewrite Rabs_pos_eq by apply B. lra.
      Qed.
      Lemma segment_range_eq : segment_range q o ch s = fixup_range (bone_stream_range q ch s).
      Proof. unfold segment_range. rewrite C, (animated_normalized ch C V). reflexivity. Qed.
      Lemma segment_lanes c : (c < 3)%nat -> let g := bone_stream_range q ch s in
        lane c (r_min (segment_range q o ch s)) = padded_range_min (lane c (r_min g)) /\ lane c (r_extent (segment_range q o ch s)) = padded_range_extent (padded_range_min (lane c (r_min g))) (lane c (r_max g)) /\
        exists u k, u <= 255 /\ k <= 255 /\ lane c (r_min (segment_range q o ch s)) = unit_value 8 u /\ lane c (r_extent (segment_range q o ch s)) = unit_value 8 k /\
          forall w, In w s -> (U u <= FR (lane c w) <= U u + U k)%R.
      Proof.
        intros Hc g. pose proof (segment_extremes c Hc) as E. fold g in E. destruct (ex_full _ _ _ E) as (F1 & F2 & _). rewrite segment_range_eq. destruct (fixup_lanes g c F1 F2 ltac:(lia)) as (L1 & L2 & _ & _).
        fold g. split; [exact L1 |]. split; [exact L2 |]. destruct (ex_fin _ _ _ E) as [N1 N2]. destruct (ex_min _ _ _ E) as (a & Ia & Ea). destruct (ex_max _ _ _ E) as (b & Ib & Eb).
        destruct (clip_units a (samples_in a Ia) c Hc) as [_ Ra]. destruct (clip_units b (samples_in b Ib) c Hc) as [_ Rb]. rewrite <- Ea in Ra. rewrite <- Eb in Rb.
        destruct (padded_min_spec _ N1 Ra) as (u & Hu & Eu & Bu). pose proof (ex_within _ _ _ E b Ib) as W. rewrite <- Eb in W. destruct (padded_extent_spec u _ Hu N2 ltac:(lra)) as (k & Hk & Ek & B1 & B2).
        exists u, k. rewrite L1, L2. split; [exact Hu |]. split; [exact Hk |]. split; [exact Eu |]. rewrite Eu. split; [exact Ek |]. intros w I. pose proof (ex_within _ _ _ E w I). lra.
      Qed.
      Lemma segment_full : full_vec (r_min (segment_range q o ch s)) /\ full_vec (r_extent (segment_range q o ch s)).
      Proof. rewrite segment_range_eq. destruct (ex_full _ _ _ (segment_extremes 0 ltac:(lia))) as (F1 & F2 & _). destruct (fixup_lanes (bone_stream_range q ch s) 0 F1 F2 ltac:(lia)) as (_ & _ & A). exact A. Qed.
      Lemma normalized_eq : segment_normalized q o ch s = if q_split q then map (fun v => ScalarEnc.normalize_sample v (r_min (segment_range q o ch s)) (r_extent (segment_range q o ch s))) s else s.
      Proof. unfold segment_normalized, normalize_stream. rewrite (animated_normalized ch C V), andb_true_r, C. reflexivity. Qed.
      Lemma normalized_length : length (segment_normalized q o ch s) = N.to_nat n.
      Proof. rewrite normalized_eq. destruct (q_split q); [rewrite map_length |]; apply samples_length. Qed.
      Lemma normalized_units : Forall unit_lanes (segment_normalized q o ch s).
      Proof.
        rewrite normalized_eq. destruct (q_split q); [| apply Forall_forall; intros w I; apply clip_units, samples_in, I]. apply Forall_forall. intros z I c Hc. apply in_map_iff in I as (w & <- & I).
        destruct segment_full as [F1 F2]. pose proof samples_full as FL. rewrite Forall_forall in FL. rewrite normalize_lanes by (try assumption; try apply FL; try assumption; lia).
        destruct (segment_lanes c Hc) as (_ & _ & u & k & Hu & Hk & Eu & Ek & B). rewrite Eu, Ek. destruct (clip_units w (samples_in w I) c Hc) as [Fw Bw].
        destruct (segment_normalize (lane c w) u k Hu Hk Fw Bw (B w I)) as (Fz & Bz & _). split; assumption.
      Qed.
      Lemma range_units : unit_lanes (r_min (segment_range q o ch s)) /\ unit_lanes (r_extent (segment_range q o ch s)).
      Proof.
        split; intros c Hc; destruct (segment_lanes c Hc) as (_ & _ & u & k & Hu & Hk & Eu & Ek & _); [rewrite Eu; destruct (unit8 u Hu) as (A & _ & B) | rewrite Ek; destruct (unit8 k Hk) as (A & _ & B)]; (split; [exact A | exact B]).
      Qed.
      Lemma range_words_ok : in_words 8 6 (range_bytes q o ch s).
      Proof.
        unfold range_bytes. rewrite V, C, andb_true_r, andb_true_r. destruct (q_split q); [| split; [reflexivity | repeat constructor]]. destruct range_units as [U1 U2]. destruct (packed_words 8 _ ltac:(lia) U1) as [A1 A2]. destruct (packed_words 8 _ ltac:(lia) U2) as [B1 B2].
        split; [rewrite app_length; cbn [packed_lanes length]; reflexivity |]. apply Forall_app. split; assumption.
      Qed.
      Lemma u24_ok v : unit_lanes v -> pack_vector3_u24 v = Ok (packed_lanes 8 v).
      Proof.
        intros H. unfold pack_vector3_u24, packed_lanes. change (nth 0 v f_zero) with (lane 0 v). change (nth 1 v f_zero) with (lane 1 v). change (nth 2 v f_zero) with (lane 2 v).
        destruct (packed_lane 8 v 0 ltac:(lia) H) as (x & -> & X & _); [lia |]. destruct (packed_lane 8 v 1 ltac:(lia) H) as (y & -> & Y & _); [lia |]. destruct (packed_lane 8 v 2 ltac:(lia) H) as (z & -> & Z & _); [lia |].
        cbn [bindo value]. unfold wrapw. rewrite !N.mod_small by assumption. reflexivity.
      Qed.
    End Reduced.
    Lemma range_words_any : in_words 8 6 (range_bytes q o ch s).
    Proof. destruct (q_variable q ch) eqn:V; [apply range_words_ok, V |]. unfold range_bytes. rewrite V, andb_false_r. split; [reflexivity | repeat constructor]. Qed.
  End Animated.

  (** the quantized stream and the segment range *)
  Record quantized_as (ch : channel) (start n rate : N) (t : tstream) (g : frange) : Prop := {
    qa_packed : ts_packed_size t = 4 * q_components q ch;
    qa_constant : o_default o ch = false -> o_constant o ch = true ->
      stream_ok t /\ 0 < ts_num_samples t /\ ts_sample_size t = 4 * q_components q ch /\ sample_at t 0 (word_bytes (lanes (q_components q ch) (nth 0 (o_lossy o ch) [])));
    qa_rate : o_constant o ch = false -> ts_rate t = if q_variable q ch then rate else 255;
    qa_sample : forall k, o_constant o ch = false -> k < n -> stream_ok t /\ stream_sample t k (stored_sample q start n rate o ch k);
    qa_range : o_constant o ch = false -> q_variable q ch = true -> q_split q = true ->
      pack_vector3_u24 (r_min g) = Ok (firstn 3 (range_bytes q o ch (samples_of q start n o ch))) /\ pack_vector3_u24 (r_extent g) = Ok (skipn 3 (range_bytes q o ch (samples_of q start n o ch)))
  }.
  Lemma components_34 ch : q_components q ch = 3 \/ q_components q ch = 4.
  Proof. destruct ch; cbn; [destruct (q_full q) |  |]; auto. Qed.
  Lemma four_le n v : n = 3 \/ n = 4 -> full_vec v -> (N.to_nat n <= length v)%nat.
  Proof. unfold full_vec. intros [-> | ->] ->; [change (N.to_nat 3) with 3%nat; lia | change (N.to_nat 4) with 4%nat; lia]. Qed.

  Lemma quantized_ok junk ch start n rate : allocator_ok junk -> (q_variable q Rotation = true -> q_full q = false) -> segment_fits q total start n -> (o_constant o ch = false -> q_variable q ch = true -> rate_ok q rate) ->
    exists t g, quantized junk q start n rate o ch = Ok (t, g) /\ quantized_as ch start n rate t g.
  Proof.
    intros J QF Fit RO. destruct (o_constant o ch) eqn:C.
    - (* constant, maybe default *)
      pose proof (ok_constant _ _ _ K ch C) as L1. pose proof (ok_lossy _ _ _ K ch) as FL.
      assert (S1 : segment_stream q start n o ch = Ok (o_lossy o ch)).
      { unfold segment_stream. rewrite C, orb_true_r. unfold clip_stream, normalize_stream. rewrite C. destruct (is_normalized q ch); reflexivity. }
      destruct (o_lossy o ch) as [| v0 [| ? ?]] eqn:EL; try discriminate L1. inversion FL as [| ? ? F0 _]; subst.
      unfold quantized. rewrite S1. cbn [bindo]. assert (CS : exists c, constant_sample q [v0] = Ok c) by (unfold constant_sample; destruct (q_split q); [exists v0 | eexists]; reflexivity). destruct CS as [c ->]. cbn [bindo].
      assert (SN : segment_normalized q o ch [v0] = [v0]) by (unfold segment_normalized, normalize_stream; rewrite C; destruct (_ && _); reflexivity). rewrite SN.
      assert (SM : N.of_nat (length [v0]) * 16 < 2 ^ 32) by reflexivity.
      assert (AS : forall sz t, raw_stream (q_components q ch) sz [v0] t -> (o_default o ch = false -> sz = 4 * q_components q ch) -> quantized_as ch start n rate t (segment_range q o ch [v0])).
      { intros sz t R E. constructor; try (intros; congruence); [apply (rs_packed _ _ _ _ R) |]. intros D _. split; [apply (rs_ok _ _ _ _ R) |]. split; [rewrite (rs_num _ _ _ _ R); reflexivity |]. split; [rewrite (rs_size _ _ _ _ R); apply E, D |].
        rewrite EL. cbn [nth]. apply (rs_at _ _ _ _ R 0 v0 eq_refl). }
      assert (FF : forall m, m = 3 \/ m = 4 -> Forall (fun v => (N.to_nat m <= length v)%nat) [v0]) by (intros m Hm; constructor; [apply four_le; assumption | constructor]).
      assert (SUB : exists t, quantize_sub_track junk q start rate o ch c [v0] = Ok t /\ quantized_as ch start n rate t (segment_range q o ch [v0])).
      { unfold quantize_sub_track. rewrite C. destruct (o_default o ch) eqn:D.
        - destruct (float_ok junk (q_components q ch) [v0] J) as (t & E & R); [destruct (components_34 ch) as [-> | ->]; lia | constructor; [exact F0 | constructor] | exact SM |].
          exists t. split; [exact E |]. apply (AS 16 t R). discriminate.
        - destruct (q_variable q ch) eqn:V.
          + assert (C3 : q_components q ch = 3) by (destruct ch; cbn; [rewrite (QF V) | |]; reflexivity).
            destruct (fixed_ok junk 3 [v0] J ltac:(lia) (FF 3 (or_introl eq_refl))) as (t & E & R); [reflexivity |]. exists t. split; [exact E |]. apply (AS (4 * 3)); rewrite C3; [exact R | reflexivity].
          + destruct (fixed_ok junk (q_components q ch) [v0] J) as (t & E & R); [destruct (components_34 ch) as [-> | ->]; lia | apply FF, components_34 | destruct (components_34 ch) as [-> | ->]; reflexivity |].
            exists t. split; [exact E |]. apply (AS _ t R). reflexivity. }
      destruct SUB as (t & E & A). unfold quantize_channel. destruct ch; try (rewrite E; cbn [bindo]; exists t; eexists; split; [reflexivity | exact A]).
      destruct (q_has_scale q) eqn:HS; [rewrite E; cbn [bindo]; exists t; eexists; split; [reflexivity | exact A] |].
      destruct (float_ok junk 3 [v0] J ltac:(lia)) as (t' & E' & R); [constructor; [exact F0 | constructor] | exact SM |]. rewrite E'. cbn [bindo]. exists t'. eexists. split; [reflexivity |]. apply (AS 16 t' R). rewrite (ok_no_scale _ _ _ K HS). discriminate.
    - (* animated *)
      assert (D : o_default o ch = false) by (destruct (o_default o ch) eqn:D; [rewrite (ok_default _ _ _ K ch D) in C; discriminate | reflexivity]).
      unfold quantized. rewrite (segment_stream_ok ch start n C Fit). cbn [bindo]. rewrite <- (samples_eq ch start n C Fit). pose proof (samples_length ch start n C Fit) as SL. set (s := samples_of q start n o ch) in *.
      assert (CS : constant_sample q s = Ok (value (splat f_zero) (constant_sample q s))).
      { unfold constant_sample. destruct (q_split q); [| reflexivity]. destruct s as [| s0 s']; [destruct Fit as (F1 & _); cbn in SL; lia | reflexivity]. }
      rewrite CS. cbn [bindo]. set (c := value (splat f_zero) (constant_sample q s)) in *.
      assert (QC : quantize_channel junk q start rate o ch c (segment_normalized q o ch s) = quantize_sub_track junk q start rate o ch c (segment_normalized q o ch s)).
      { unfold quantize_channel. destruct ch; try reflexivity. destruct (q_has_scale q) eqn:HS; [reflexivity |]. rewrite (ok_no_scale _ _ _ K HS) in D. discriminate. }
      rewrite QC. unfold quantize_sub_track. rewrite D, C. destruct (q_variable q ch) eqn:V.
      + destruct (RO eq_refl eq_refl) as [R24 R0]. pose proof (normalized_length ch start n C Fit V) as NL. fold s in NL. destruct (ok_animated _ _ _ K ch C) as [LC LR]. destruct Fit as (F1 & F2 & F3 & F4) eqn:EF. clear EF.
        assert (Fit' : segment_fits q total start n) by (unfold segment_fits; auto).
        assert (CU : rate = 0 -> unit_lanes c).
        { intros E0. unfold c, constant_sample. destruct (q_split q) eqn:SP; [| exfalso; apply (R0 eq_refl), E0]. destruct s as [| s0 s'] eqn:ES; [cbn in SL; lia |]. cbn [nth_error value].
          apply (clip_units ch start n C Fit' V), (samples_in ch start n C Fit'). fold s. rewrite ES. left. reflexivity. }
        destruct (variable_ok junk rate c (skipn (N.to_nat start) (o_raw o ch)) (segment_normalized q o ch s) J R24 CU) as (t & E & VS).
        * rewrite NL, skipn_length. lia.
        * apply Forall_rest, K.
        * intros _ _. apply (normalized_units ch start n C Fit' V).
        * rewrite NL. lia.
        * rewrite NL. rewrite N2Nat.id. exact F4.
        * rewrite E. cbn [bindo]. exists t, (segment_range q o ch s). split; [reflexivity |]. constructor; try (intros; congruence).
          -- rewrite (vs_packed _ _ _ _ _ VS). destruct ch; cbn; [rewrite (QF V) | |]; reflexivity.
          -- intros _. rewrite V. apply (vs_rate _ _ _ _ _ VS).
          -- intros k _ Hk. split; [apply (vs_ok _ _ _ _ _ VS) |]. unfold stored_sample. cbv zeta. rewrite V. fold s. fold c.
             destruct (raw_sample_at ch start n C Fit' k Hk) as (r & Er & _). rewrite (nth_vec _ _ _ Er).
             destruct (nth_error (segment_normalized q o ch s) (N.to_nat k)) as [l |] eqn:EL; [| apply nth_error_None in EL; lia]. rewrite (nth_vec _ _ _ EL).
             apply (vs_sample _ _ _ _ _ VS); [| exact EL]. rewrite nth_error_skipn. replace (N.to_nat start + N.to_nat k)%nat with (N.to_nat (start + k)) by lia. exact Er.
          -- intros _ _ SP. destruct (range_units ch start n C Fit' V) as [U1 U2]. fold s in U1, U2. fold s. unfold range_bytes. rewrite SP, V, C. cbn [andb negb]. rewrite !u24_ok by assumption. split; reflexivity.
      + assert (SN : segment_normalized q o ch s = s) by (unfold segment_normalized, is_normalized; rewrite V; cbn [andb]; rewrite andb_false_r; reflexivity). rewrite SN.
        assert (SC : s = firstn (N.to_nat n) (skipn (N.to_nat start) (o_lossy o ch))). { unfold s. rewrite (samples_eq ch start n C Fit). unfold clip_stream, is_normalized. rewrite V. reflexivity. }
        assert (SF : Forall full_vec s) by (rewrite SC; apply Forall_first, Forall_rest, K). destruct Fit as (F1 & F2 & F3 & F4). clear RO.
        destruct (fixed_ok junk (q_components q ch) s J) as (t & E & R).
        * destruct (components_34 ch) as [-> | ->]; lia.
        * eapply Forall_impl; [| exact SF]. intros v Hv. apply four_le; [apply components_34 | exact Hv].
        * rewrite SL, N2Nat.id. destruct (components_34 ch) as [-> | ->]; lia.
        * rewrite E. cbn [bindo]. exists t, (segment_range q o ch s). split; [reflexivity |]. constructor; try (intros; congruence).
          -- apply (rs_packed _ _ _ _ R).
          -- intros _. rewrite V. apply (rs_rate _ _ _ _ R).
          -- intros k _ Hk. split; [apply (rs_ok _ _ _ _ R) |]. unfold stored_sample. cbv zeta. rewrite V. fold s.
             destruct (nth_error s (N.to_nat k)) as [v |] eqn:EV; [| apply nth_error_None in EV; lia]. rewrite (nth_vec _ _ _ EV).
             apply (raw_sample _ _ _ _ _ _ _ R); [apply components_34 | lia | exact EV |]. apply four_le; [apply components_34 |]. rewrite Forall_forall in SF. apply SF. eapply nth_error_In, EV.
  Qed.
End Sub.
