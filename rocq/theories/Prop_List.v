(** C44: from a list of transform tracks to what is played back.
    Model: TransList.v, then the models of C43, C34-C36 and C41.
    Vocabulary: TransListSpec.v ([fate], [fate_ok], [wraps], [clip_of], the input); [kept_of_source] in Prop_Quant.v; [used], [legal] in
    TransTop.v; [sought], [chosen], [in_segment] in TransPlaySpec.v. *)
From Coq Require Import ZArith NArith Bool Reals Lra Lia List Permutation.
From Flocq Require Import Core Plus_error.
From Verif Require Import Word WordFacts Float32 Float32Facts ScalarLanes Quant Interp InterpFacts Headers PackSpec ScalarDec Segment SegmentFacts SeekSpec Strip TransMeta TransMetaSpec TransDec TransSpec TransEnc TransEncSpec TransEncBytes3 TransRing TransClipSpec
  TransFile TransFileFacts TransFilePlay TransSeek TransPlaySpec TransTop TransExample
  TransQuant TransQuantStream TransQuantRange TransQuantSub TransQuantSpec TransQuantError TransQuantTop TransQuantSize TransQuantClip TrackArray TransList TransListSpec TransListFacts TransListTop TransListClip Prop_Trans Prop_Quant.
From Verif Require ScalarEnc Prop_Float.
Import ListNotations.
Local Open Scope N_scope.
Ltac Zify.zify_post_hook ::= idtac.

(** [v] is what is kept of key frame [f] of segment [i] of a sub-track of transform [b] whose samples are [x]; see [kept_of_source] *)
Definition kept_of_track (p : tclip) (rates : N -> N -> channel -> N) (b : N) (x : channel -> list vec) (ch : channel) (i : nat) (f : N) (v : list f32) : Prop :=
  kept_of_source p rates b {| o_default := fun _ => false; o_constant := fun _ => false; o_lossy := x; o_raw := x; o_output_index := 0 |} ch i f v.
(** what the tracks become is what the context shows, at two key frames *)
Definition plays_tracks (p : tclip) (rates : N -> N -> channel -> N) (ts : list qtrack) (samples : qtrack -> channel -> list vec) (fates : nat -> channel -> fate)
    (rp : rounding_policy) (i0 : nat) (f0 : N) (i1 : nat) (f1 : N) (c : pcontext) : Prop :=
  forall b y ch, nth_error ts b = Some y -> y_output_index y <> 0xFFFFFFFF ->
    let i := y_output_index y in
    match fates b ch with
    | Defaulted _ => forall w,
        (exists events, play_tracks w c = Ok events /\ NoDup (map fst events) /\ forall e, In (ch, i, e) events <-> tw_skip w ch i = false /\ tw_skip_default w ch = false /\ e = ODefault) /\
        (exists events, play_track w c i = Ok events /\ NoDup (map fst events) /\ forall e, In (ch, i, e) events <-> tw_skip_default w ch = false /\ e = ODefault)
    | Held v => forall w, let shown := firstn (N.to_nat (components (formats_of p) ch)) v in
        (exists events, play_tracks w c = Ok events /\ NoDup (map fst events) /\ forall e, In (ch, i, e) events <-> tw_skip w ch i = false /\ e = OConst shown) /\
        (exists events, play_track w c i = Ok events /\ NoDup (map fst events) /\ forall e, In (ch, i, e) events <-> e = OConst shown)
    | Animated =>
        exists y0 y1 z0 z1, kept_of_track p rates (N.of_nat b) (samples y) ch i0 f0 y0 /\ kept_of_track p rates (N.of_nat b) (samples y) ch i1 f1 y1 /\
          Forall2 same_number z0 y0 /\ Forall2 same_number z1 y1 /\ (ch <> Rotation -> z0 = y0 /\ z1 = y1) /\
          forall w,
          (exists events, play_tracks w c = Ok events /\ NoDup (map fst events) /\ forall e, In (ch, i, e) events <-> tw_skip w ch i = false /\ e = OMix (policy_of w rp i) z0 z1) /\
          (exists events, play_track w c i = Ok events /\ NoDup (map fst events) /\ forall e, In (ch, i, e) events <-> e = OMix (policy_of w rp i) y0 y1)
    end.
(** the bit rates: 0 to 24, 0 only when the clip is split *)
Definition rates_legal (p : tclip) (rates : N -> N -> channel -> N) (fates : nat -> channel -> fate) : Prop :=
  forall g i ch, g < num_segments p -> fates i ch = Animated -> p_variable p ch = true -> rates g (N.of_nat i) ch <= 24 /\ (num_segments p <= 1 -> rates g (N.of_nat i) ch <> 0).
(** the looping policy and the number of samples that are left *)
Definition loops (R : rtm) (M : metric) (s : lsettings) (lp : looping_policy) (n : N) (ts : list qtrack) (n' : N) (wrapped : bool) : Prop :=
  (wraps R M s lp n ts -> n' = n - 1 /\ wrapped = true) /\ (~ wraps R M s lp n ts -> n' = n /\ wrapped = match lp with lp_wrap => true | lp_clamp => false end).

Lemma default_shown list_name tracks error rates l p bss rp i0 f0 i1 f1 c b o ch : sources_input list_name tracks error rates l p -> length bss = length (p_segments p) ->
  plays (with_bones p bss) (contents rates l p) rp i0 f0 i1 f1 c -> nth_error l (N.to_nat b) = Some o -> o_output_index o <> 0xFFFFFFFF -> o_default o ch = true ->
  let i := o_output_index o in forall w,
  (exists events, play_tracks w c = Ok events /\ NoDup (map fst events) /\ forall e, In (ch, i, e) events <-> tw_skip w ch i = false /\ tw_skip_default w ch = false /\ e = ODefault) /\
  (exists events, play_track w c i = Ok events /\ NoDup (map fst events) /\ forall e, In (ch, i, e) events <-> tw_skip_default w ch = false /\ e = ODefault).
Proof.
  intros I L PL Eo Oi D i w. pose proof (si_mapping _ _ _ _ _ _ I) as MP. assert (Ej : nth_error (p_mapping p) (N.to_nat i) = Some b) by (apply MP; exists o; auto).
  pose proof (output_contents_nth (settings_of p) (sizes_of p) rates l _ _ _ _ Ej Eo) as Ex. fold (contents rates l p) in Ex. set (x := content_of _ _ _ o) in Ex.
  assert (Hi : i < len (contents rates l p)). { assert (N.to_nat i < length (contents rates l p))%nat by (apply nth_error_Some; congruence). unfold len. lia. }
  destruct (plays_sub _ _ rp i0 f0 i1 f1 c w ch i x PL Hi Ex) as [P1 P2]. unfold TransPlaySpec.shown in P1, P2. cbn [x content_of ct_default] in P1, P2. rewrite D in P1, P2. split; [exact P1 | exact P2].
Qed.

Section Tracks.
  Context (R : rtm) (M : metric) (s : lsettings) (additive1 : bool) (stripped : bool) (hard : N -> N) (lp : looping_policy) (n : N) (rate : f32) (ts : list qtrack)
    (list_name : list N) (tracks : list ttrack) (error : list N).
  Hypotheses (I : list_input R s n rate ts) (FIN : finite_samples R s ts) (DE : described list_name tracks error ts).
  (** what [prepare_ok] gives *)
  Context (x : prepared) (n' : N) (wrapped : bool).
  Hypotheses (CO : clip_of s additive1 n' wrapped stripped hard rate (pr_clip x)) (B : 1 <= n' <= n) (LS : length (pr_sources x) = length ts)
    (SO : forall k y, nth_error ts k = Some y -> exists o, nth_error (pr_sources x) k = Some o /\ source_of R M s n' (N.of_nat k) y o)
    (NE : p_mapping (pr_clip x) <> []) (MP : mapping_ok (pr_sources x) (p_mapping (pr_clip x))) (HS : p_has_scale (pr_clip x) = has_scale_left (pr_sources x))
    (TI : stripping_ok (pr_clip x) -> clip_timing (pr_clip x)) (TD : p_trivial_defaults (pr_clip x) <= 1).
  Let fates := fates_of R s n' ts (pr_sources x).
  Lemma tracks_input rates : stripping_ok (pr_clip x) -> rates_legal (pr_clip x) rates fates ->
    sources_input list_name tracks error rates (pr_sources x) (pr_clip x).
  Proof.
    intros ST RL. pose proof (proj2 (finite_iff R s n rate ts I) FIN) as V.
    assert (FS : Forall (source_ok (settings_of (pr_clip x)) (p_num_samples (pr_clip x))) (pr_sources x)).
    { apply Forall_forall. intros o Io. apply In_nth_error in Io as [k Ek]. assert (Lk : (k < length ts)%nat) by (rewrite <- LS; apply nth_error_Some; congruence). destruct (nth_error ts k) as [y |] eqn:Ey; [| apply nth_error_None in Ey; lia].
      destruct (SO k y Ey) as (o' & Eo' & So). rewrite Ek in Eo'. injection Eo' as <-. rewrite (co_samples _ _ _ _ _ _ _ _ CO).
      apply (source_is_ok R M s n n' (N.of_nat k) y o (pr_clip x) rate ts wrapped additive1 stripped hard I V B (nth_error_In _ _ Ey) So CO).
      intros E. rewrite HS in E. apply has_scale_spec in E. rewrite Forall_forall in E. apply E. eapply nth_error_In, Ek. }
    constructor; try assumption.
    - intros g i o ch Eo Hg C Vr. assert (Li : (N.to_nat i < length ts)%nat) by (rewrite <- LS; apply nth_error_Some; congruence). destruct (nth_error ts (N.to_nat i)) as [y |] eqn:Ey; [| apply nth_error_None in Ey; lia].
      assert (A : fates (N.to_nat i) ch = Animated). { unfold fates, fates_of. rewrite Ey, Eo. unfold source_fate. rewrite Forall_forall in FS. pose proof (FS o (nth_error_In _ _ Eo)) as K. rewrite C. destruct (o_default o ch) eqn:D; [rewrite (ok_default _ _ _ K ch D) in C; discriminate | reflexivity]. }
      destruct (RL g (N.to_nat i) ch Hg A Vr) as [R1 R2]. rewrite N2Nat.id in R1, R2. split; [exact R1 |]. cbn [settings_of q_split]. intros Q. apply R2, N.ltb_ge, Q.
    - rewrite (co_samples _ _ _ _ _ _ _ _ CO). unfold len. rewrite LS. eapply N.le_lt_trans; [| exact (in_size _ _ _ _ _ I)]. apply N.mul_le_mono_l. lia.
    - split; [rewrite (co_default_scale _ _ _ _ _ _ _ _ CO); destruct additive1; lia |]. split; [exact TD |]. rewrite (co_wrap _ _ _ _ _ _ _ _ CO). destruct wrapped; lia.
    - apply TI, ST.
    - intros E. specialize (ST E). eapply Forall_impl; [| exact ST]. cbn beta. intros g H. repeat split; apply H.
    - rewrite (de_count _ _ _ _ DE). symmetry. exact LS.
    - apply DE.
    - apply DE.
    - eapply N.le_lt_trans; [| exact (de_text _ _ _ _ DE)]. apply N.add_le_mono_l, names_le, (mapping_nodup (pr_sources x)), MP.
  Qed.
  Lemma tracks_played rates bss rp k0 k1 al i0 f0 i1 f1 c a : sources_input list_name tracks error rates (pr_sources x) (pr_clip x) -> length bss = length (p_segments (pr_clip x)) ->
    chosen (pr_clip x) k0 k1 al i0 f0 i1 f1 a -> plays (with_bones (pr_clip x) bss) (contents rates (pr_sources x) (pr_clip x)) rp i0 f0 i1 f1 c ->
    plays_tracks (pr_clip x) rates ts (prepared_samples R s n') fates rp i0 f0 i1 f1 c.
  Proof.
    intros SI L CH PL b y ch Ey Oi. cbv zeta. destruct (SO b y Ey) as (o & Eo & So). pose proof (sf_output _ _ _ _ _ _ _ So) as OO.
    assert (Eo' : nth_error (pr_sources x) (N.to_nat (N.of_nat b)) = Some o) by (rewrite Nat2N.id; exact Eo). assert (Oo : o_output_index o <> 0xFFFFFFFF) by congruence.
    destruct (plays_kept _ _ _ rates _ _ bss rp _ _ _ _ _ _ _ c _ SI L CH PL (N.of_nat b) o ch Eo' Oo) as [P1 P2]. cbv zeta in P1, P2. rewrite OO in P1, P2.
    pose proof (default_shown _ _ _ rates _ _ bss rp i0 f0 i1 f1 c (N.of_nat b) o ch SI L PL Eo' Oo) as P0. cbv zeta in P0. rewrite OO in P0.
    assert (FE : fates b = source_fate y o (prepared_samples R s n' y)) by (unfold fates, fates_of; rewrite Ey, Eo; reflexivity). rewrite FE.
    pose proof (sf_lossy _ _ _ _ _ _ _ So ch) as SL. pose proof (sf_raw _ _ _ _ _ _ _ So ch) as SR. unfold source_fate in *. destruct (o_default o ch) eqn:D; [apply P0; reflexivity |].
    destruct (o_constant o ch) eqn:C; cbn [collapsed] in SL.
    - intros w. specialize (P1 eq_refl eq_refl w). rewrite SL in P1. exact P1.
    - unfold kept_of_track, kept_of_source in *. cbn [o_lossy o_raw]. rewrite SL, SR in P2. exact (P2 eq_refl).
  Qed.
  Lemma fates_right i y : nth_error ts i = Some y -> forall ch, fate_ok R M s (N.of_nat i) n' (y_default y) (prepared_samples R s n' y) (fates i) ch.
  Proof. intros Ey. destruct (SO i y Ey) as (o & Eo & So). unfold fates, fates_of. rewrite Ey, Eo. apply So. Qed.
  Lemma scale_right : p_has_scale (pr_clip x) = false <-> forall i y, nth_error ts i = Some y -> exists v, fates i Scale = Defaulted v.
  Proof.
    rewrite HS. split.
    - intros E i y Ey. apply has_scale_spec in E. rewrite Forall_forall in E. destruct (SO i y Ey) as (o & Eo & So). unfold fates, fates_of. rewrite Ey, Eo. unfold source_fate. rewrite (E o (nth_error_In _ _ Eo)). eauto.
    - intros H. unfold has_scale_left. rewrite negb_false_iff, N.eqb_eq. f_equal. f_equal.
      assert (F : Forall (fun o => o_default o Scale = true) (pr_sources x)).
      { apply Forall_forall. intros o Io. apply In_nth_error in Io as [k Ek]. assert (Lk : (k < length ts)%nat) by (rewrite <- LS; apply nth_error_Some; congruence). destruct (nth_error ts k) as [y |] eqn:Ey; [| apply nth_error_None in Ey; lia].
        destruct (H k y Ey) as [v E]. unfold fates, fates_of in E. rewrite Ey, Ek in E. unfold source_fate in E. destruct (o_default o Scale); [reflexivity |]. destruct (o_constant o Scale); discriminate E. }
      clear - F. induction F as [| o l D F IH]; [reflexivity |]. cbn [filter]. rewrite D, IH. reflexivity.
  Qed.
End Tracks.

(** Compression of tracks whose samples are finite succeeds, whatever the error metric says; what becomes of every sub-track follows from
    the error metric alone ([fate_ok]), as does the looping policy ([loops]); then, after any legal history of a context that ends with a
    seek, a dropped sub-track is a default one, a held one is its first sample, bit for bit, and the others are what quantization keeps of
    their samples at the two key frames the seek selects. *)
Theorem C44_tracks_come_back : forall R M s additive1 stripped hard lp n rate ts list_name tracks error,
  list_input R s n rate ts -> finite_samples R s ts -> described list_name tracks error ts ->
  exists p n' wrapped fates,
    clip_of s additive1 n' wrapped stripped hard rate p /\ loops R M s lp n ts n' wrapped /\
    (forall i y, nth_error ts i = Some y -> forall ch, fate_ok R M s (N.of_nat i) n' (y_default y) (prepared_samples R s n' y) (fates i) ch) /\
    (p_has_scale p = false <-> forall i y, nth_error ts i = Some y -> exists v, fates i Scale = Defaulted v) /\
    forall rates junk j f, stripping_ok p -> rates_legal p rates fates -> (forall g i ch, allocator_ok (junk g i ch)) -> junks_ok j ->
    exists m, compress_list R M s additive1 stripped hard rates junk j f list_name tracks error lp rate ts = Ok (Some m) /\
    forall ds c0 h t rp, Forall (legal ds p) (h ++ [call_seek t rp]) ->
      exists c time lp k0 k1 al i0 f0 i1 f1, used ds c0 m (h ++ [call_seek t rp]) = Ok c /\
        feq time (sought ds (x_duration c) t) = true /\
        find_linear_interpolation_samples_with_sample_rate n' rate time rp lp = Ok (k0, k1, al) /\
        chosen p k0 k1 al i0 f0 i1 f1 (x_alpha c) /\ plays_tracks p rates ts (prepared_samples R s n') fates rp i0 f0 i1 f1 c.
Proof.
  intros R M s additive1 stripped hard lp n rate ts list_name tracks error I FIN DE.
  destruct (prepare_ok R M s additive1 stripped hard lp n rate ts I (proj2 (finite_iff _ _ _ _ _ I) FIN)) as (x & n' & wr & EP & CO & B & W1 & W2 & LS & SO & NE & MP & HS & TI & TD).
  assert (TD1 : p_trivial_defaults (pr_clip x) <= 1) by (rewrite TD; destruct (has_trivial_default_values _ _ _ _); lia).
  exists (pr_clip x), n', wr, (fates_of R s n' ts (pr_sources x)). split; [exact CO |]. split; [split; assumption |].
  split; [intros i y Ey; eapply fates_right; eassumption |]. split; [eapply scale_right; eassumption |].
  intros rates junk j f ST RL AL J.
  assert (SI : sources_input list_name tracks error rates (pr_sources x) (pr_clip x)) by (eapply tracks_input; eassumption).
  destruct (quantized_input junk list_name tracks error rates _ _ SI AL) as (bss & EQ & L & CI).
  destruct (compress_made j f list_name tracks error (with_bones (pr_clip x) bss) (contents rates (pr_sources x) (pr_clip x)) CI J) as (m & EC & MD). exists m.
  split. { unfold compress_list. rewrite EP. cbn [bindo]. unfold compress_sources. rewrite EQ. cbn [bindo]. rewrite EC. reflexivity. }
  intros ds c0 h t rp LG. destruct (made_sought _ _ m MD ds c0 h t rp LG) as (c & U & tm & lp1 & k0 & k1 & al & i0 & f0 & i1 & f1 & FT & EF & CH & PL). apply (chosen_with _ bss _ _ _ _ _ _ _ _ L) in CH.
  exists c, tm, lp1, k0, k1, al, i0, f0, i1, f1. split; [exact U |]. split; [exact FT |]. cbn [with_bones p_num_samples p_sample_rate] in EF. rewrite (co_samples _ _ _ _ _ _ _ _ CO), (co_rate _ _ _ _ _ _ _ _ CO) in EF. split; [exact EF |]. split; [exact CH |].
  eapply tracks_played; eassumption.
Qed.
Print Assumptions C44_tracks_come_back.

(** At the time of key frame [k], rounding to the nearest one, a clip none of whose key frames was stripped shows key frame [k] of the tracks. *)
Theorem C44_key_frames_come_back : forall R M s additive1 hard lp n rate ts list_name tracks error,
  list_input R s n rate ts -> finite_samples R s ts -> described list_name tracks error ts ->
  exists p n' wrapped fates,
    clip_of s additive1 n' wrapped false hard rate p /\ loops R M s lp n ts n' wrapped /\
    (forall i y, nth_error ts i = Some y -> forall ch, fate_ok R M s (N.of_nat i) n' (y_default y) (prepared_samples R s n' y) (fates i) ch) /\
    forall rates junk j f, rates_legal p rates fates -> (forall g i ch, allocator_ok (junk g i ch)) -> junks_ok j ->
    exists m, compress_list R M s additive1 false hard rates junk j f list_name tracks error lp rate ts = Ok (Some m) /\
    forall ds c0 policies k, clamp_sample_time ds = true -> k < n' ->
      exists c i0 f0 i1 f1, used ds c0 m (map call_looping policies ++ [call_seek (fdiv (f_of_N k) rate) rp_nearest]) = Ok c /\
        plays_tracks p rates ts (prepared_samples R s n') fates rp_nearest i0 f0 i1 f1 c /\
        ((exists g, in_segment p k i0 g f0) /\ FR (x_alpha c) = 0%R \/ (exists g, in_segment p k i1 g f1) /\ FR (x_alpha c) = 1%R).
Proof.
  intros R M s additive1 hard lp n rate ts list_name tracks error I FIN DE.
  destruct (prepare_ok R M s additive1 false hard lp n rate ts I (proj2 (finite_iff _ _ _ _ _ I) FIN)) as (x & n' & wr & EP & CO & B & W1 & W2 & LS & SO & NE & MP & HS & TI & TD).
  assert (TD1 : p_trivial_defaults (pr_clip x) <= 1) by (rewrite TD; destruct (has_trivial_default_values _ _ _ _); lia).
  exists (pr_clip x), n', wr, (fates_of R s n' ts (pr_sources x)). split; [exact CO |]. split; [split; assumption |].
  split; [intros i y Ey; eapply fates_right; eassumption |]. intros rates junk j f RL AL J.
  assert (St : p_stripped (pr_clip x) = false) by apply (co_stripped _ _ _ _ _ _ _ _ CO). assert (ST : stripping_ok (pr_clip x)) by (intros E; congruence).
  assert (SI : sources_input list_name tracks error rates (pr_sources x) (pr_clip x)) by (eapply tracks_input; eassumption).
  destruct (quantized_input junk list_name tracks error rates _ _ SI AL) as (bss & EQ & L & CI).
  destruct (compress_made j f list_name tracks error (with_bones (pr_clip x) bss) (contents rates (pr_sources x) (pr_clip x)) CI J) as (m & EC & MD). exists m.
  split. { unfold compress_list. rewrite EP. cbn [bindo]. unfold compress_sources. rewrite EQ. cbn [bindo]. rewrite EC. reflexivity. }
  intros ds c0 policies k Cl Hk. pose proof (TI ST) as T. pose proof (co_samples _ _ _ _ _ _ _ _ CO) as NS. pose proof (co_rate _ _ _ _ _ _ _ _ CO) as NR.
  destruct (made_plays _ _ m MD ds c0 policies (fdiv (f_of_N k) rate) rp_nearest (or_introl Cl)) as (c & k0 & k1 & al & i0 & f0 & i1 & f1 & U & EF & CH & PL).
  apply (chosen_with _ bss _ _ _ _ _ _ _ _ L) in CH. exists c, i0, f0, i1, f1. split; [exact U |]. split; [eapply tracks_played; eassumption |].
  rewrite <- NS in Hk. rewrite <- NR in EF.
  destruct (Prop_Float.C10_key_frame_time_selects_key_frame (p_num_samples (pr_clip x)) (p_sample_rate (pr_clip x)) (in_effect ds (with_bones (pr_clip x) bss) policies) k (ti_samples _ T) (ti_rate _ T) (ti_sane _ T) Hk) as (j0 & j1 & a & S0 & FA & S2).
  unfold seek_key_frames in S0. cbn [with_bones p_num_samples p_sample_rate] in EF. unfold sought in EF. rewrite Cl, S0 in EF. injection EF as -> -> ->.
  destruct CH as (g0 & h0 & g1 & h1 & I0 & I1 & _ & _ & C). rewrite St in C. destruct C as (-> & -> & ->). destruct S2 as [[-> A] | [-> A]]; [left | right]; eauto.
Qed.
Print Assumptions C44_key_frames_come_back.

(** The rotation that is compressed by a format without w is the normalized one or its opposite, the one whose w is not negative. *)
Theorem C44_positive_w : forall R s q t sc, rotation_full (l_rotation s) = false -> length (quat_normalize R q) = 4%nat -> (forall c, (c < 4)%nat -> ffinite (component c (quat_normalize R q)) = true) ->
  let v := prepared_sample R s Rotation (Qvv q t sc) in
  (0 <= FR (component 3 v))%R /\
  ((forall c, (c < 4)%nat -> FR (component c v) = FR (component c (quat_normalize R q))) \/ (forall c, (c < 4)%nat -> FR (component c v) = (- FR (component c (quat_normalize R q)))%R)).
Proof.
  intros R s q t sc F L FIN. unfold prepared_sample. cbn [v_rotation]. rewrite F. cbn [andb]. cbv zeta. rewrite positive_w_eq. set (r := quat_normalize R q) in *. unfold ensure_positive_w.
  destruct (fge (lane 3 r) f_zero) eqn:E.
  - split; [| left; reflexivity]. unfold fge in E. apply fle_R in E; [exact E | reflexivity | exact (FIN 3%nat ltac:(lia))].
  - assert (C : forall c, (c < 4)%nat -> FR (component c (map (fun x => fmul x (ScalarEnc.fneg f_one)) r)) = (- FR (component c r))%R).
    { intros c C. unfold component. change (nth c (map (fun x => fmul x (ScalarEnc.fneg f_one)) r) f_zero) with (lane c (map (fun x => fmul x (ScalarEnc.fneg f_one)) r)). rewrite map_lane; [| exact L | exact C]. apply negated_R, FIN, C. }
    split; [| right; exact C]. rewrite (C 3%nat) by lia. unfold fge in E. apply fle_Rf in E; [| reflexivity | exact (FIN 3%nat ltac:(lia))]. change (FR f_zero) with 0%R in E. change (lane 3 r) with (component 3 r) in E. lra.
Qed.
Print Assumptions C44_positive_w.

(** Samples that are not finite are refused: no buffer is made. *)
Theorem C44_bad_samples_are_refused : forall R M s additive1 stripped hard rates junk j f list_name tracks error lp n rate ts,
  list_input R s n rate ts -> ~ finite_samples R s ts ->
  compress_list R M s additive1 stripped hard rates junk j f list_name tracks error lp rate ts = Ok None.
Proof.
  intros R M s additive1 stripped hard rates junk j f list_name tracks error lp n rate ts I NF. destruct (samples_are_valid R s ts) eqn:V; [exfalso; apply NF, (finite_iff _ _ _ _ _ I), V |].
  unfold compress_list, prepare_clip. rewrite V. reflexivity.
Qed.
Print Assumptions C44_bad_samples_are_refused.

(** ** Trivial default values *)
Lemma near_zero a b : ffinite a = true -> ffinite b = true -> (fle (fabs (fsub a b)) f_zero = true <-> FR a = FR b).
Proof.
  intros A B. assert (Z : FR f_zero = 0%R) by reflexivity. split.
  - intros H. apply near_elim in H as (_ & _ & H); [| reflexivity]. rewrite Z in H. assert (E : rnd (FR a - FR b) = 0%R) by (pose proof (Rabs_pos (rnd (FR a - FR b))) as P; destruct (Req_dec (rnd (FR a - FR b)) 0) as [Q | Q]; [exact Q | apply Rabs_pos_lt in Q; lra]).
    unfold rnd, Rminus in E. apply round_plus_eq_0 in E; [lra | typeclasses eauto | typeclasses eauto | typeclasses eauto | apply FR_f32 | apply generic_format_opp, FR_f32].
  - intros E. apply near_intro; [exact A | exact B | reflexivity |]. rewrite E, Z. replace (FR b - FR b)%R with 0%R by lra. rewrite rnd_0, Rabs_R0. lra.
Qed.

(** the default values of the tracks can be compared *)
Definition defaults_finite (ts : list qtrack) : Prop := forall y ch c, In y ts -> length (part ch (y_default y)) = 4%nat /\ ((c < 3)%nat -> ffinite (component c (part ch (y_default y))) = true).
Lemma near3 v x : length v = 4%nat -> (forall c, (c < 3)%nat -> ffinite (component c v) = true) -> ffinite x = true -> (near_equal3 v (splat x) = true <-> forall c, (c < 3)%nat -> FR (component c v) = FR x).
Proof.
  intros L F X. destruct v as [| a [| b [| c [| d [|]]]]]; try discriminate L. unfold near_equal3, splat. cbn [combine firstn forallb repeat]. rewrite !andb_true_iff.
  rewrite !near_zero by first [exact X | exact (F 0%nat ltac:(lia)) | exact (F 1%nat ltac:(lia)) | exact (F 2%nat ltac:(lia))]. split.
  - intros (H0 & H1 & H2 & _) [| [| [| k]]] K; [exact H0 | exact H1 | exact H2 | lia].
  - intros H. repeat split; [exact (H 0%nat ltac:(lia)) | exact (H 1%nat ltac:(lia)) | exact (H 2%nat ltac:(lia))].
Qed.
(** When a clip with scales says its default values are trivial, they are: no rotation, no translation, and the default scale of the clip. *)
Theorem C44_trivial_defaults_are_trivial : forall R additive1 ts, defaults_finite ts -> has_trivial_default_values R additive1 true ts = true ->
  forall y, In y ts -> quat_near_identity R (v_rotation (y_default y)) = true /\
    forall c, (c < 3)%nat -> FR (component c (v_translation (y_default y))) = 0%R /\ FR (component c (v_scale (y_default y))) = IZR (if additive1 then 0 else 1).
Proof.
  intros R additive1 ts F H y Iy. unfold has_trivial_default_values in H. cbv zeta in H.
  destruct (forallb (fun d => quat_near_identity R (v_rotation d) && near_equal3 (v_translation d) (splat f_zero)) (map y_default ts)) eqn:E; [| discriminate H]. cbn [negb] in H.
  assert (Id : In (y_default y) (map y_default ts)) by (apply in_map, Iy). rewrite forallb_forall in E. specialize (E _ Id). apply andb_prop in E as [E1 E2]. split; [exact E1 |].
  assert (F3 : forall ch, length (part ch (y_default y)) = 4%nat /\ forall c, (c < 3)%nat -> ffinite (component c (part ch (y_default y))) = true) by (intros ch; split; [apply (F y ch 0%nat Iy) | intros c; apply (F y ch c Iy)]).
  destruct (F3 Translation) as [T1 T2]. destruct (F3 Scale) as [S1 S2]. cbn [part] in *. pose proof (proj1 (near3 _ f_zero T1 T2 eq_refl) E2) as E3.
  assert (A : forall v, forallb (fun d => near_equal3 (v_scale d) (splat v)) (map y_default ts) = true -> ffinite v = true -> forall c, (c < 3)%nat -> FR (component c (v_scale (y_default y))) = FR v).
  { intros v Hv Fv. rewrite forallb_forall in Hv. exact (proj1 (near3 _ v S1 S2 Fv) (Hv _ Id)). }
  destruct (forallb (fun d => near_equal3 (v_scale d) (splat f_one)) (map y_default ts)) eqn:O; [| destruct (additive1 && negb _); discriminate H].
  intros c C. split; [exact (E3 c C) |]. destruct additive1; cbn [andb] in H; [| rewrite (A f_one O eq_refl c C); exact f_one_R].
  destruct (forallb (fun d => near_equal3 (v_scale d) (splat f_zero)) (map y_default ts)) eqn:Z; [| discriminate H]. rewrite (A f_zero Z eq_refl c C). reflexivity.
Qed.
Print Assumptions C44_trivial_defaults_are_trivial.
(** For clips that are not additive1, when they are it says so. *)
Theorem C44_trivial_defaults_are_found : forall R has_scale ts, defaults_finite ts ->
  (forall y, In y ts -> quat_near_identity R (v_rotation (y_default y)) = true /\
    forall c, (c < 3)%nat -> FR (component c (v_translation (y_default y))) = 0%R /\ FR (component c (v_scale (y_default y))) = 1%R) ->
  has_trivial_default_values R false has_scale ts = true.
Proof.
  intros R has_scale ts F H. unfold has_trivial_default_values. cbv zeta.
  assert (E : forallb (fun d => quat_near_identity R (v_rotation d) && near_equal3 (v_translation d) (splat f_zero)) (map y_default ts) = true).
  { apply forallb_forall. intros d Id. apply in_map_iff in Id as (y & <- & Iy). destruct (H y Iy) as [H1 H2]. rewrite H1. apply (proj2 (near3 (v_translation (y_default y)) f_zero (proj1 (F y Translation 0%nat Iy)) (fun c => proj2 (F y Translation c Iy)) eq_refl)). intros c C. rewrite (proj1 (H2 c C)). reflexivity. }
  assert (O : forallb (fun d => near_equal3 (v_scale d) (splat f_one)) (map y_default ts) = true).
  { apply forallb_forall. intros d Id. apply in_map_iff in Id as (y & <- & Iy). destruct (H y Iy) as [H1 H2]. apply (proj2 (near3 (v_scale (y_default y)) f_one (proj1 (F y Scale 0%nat Iy)) (fun c => proj2 (F y Scale c Iy)) eq_refl)). intros c C. rewrite (proj2 (H2 c C)). symmetry. exact f_one_R. }
  rewrite E, O. destruct has_scale; reflexivity.
Qed.
Print Assumptions C44_trivial_defaults_are_found.
(** Additive1 clips with scales never say so, even when every default value is that of the format. *)
Theorem C44_additive1_defaults_are_never_trivial : forall R ts, ts <> [] -> defaults_finite ts -> has_trivial_default_values R true true ts = false.
Proof.
  intros R ts NE F. destruct (has_trivial_default_values R true true ts) eqn:E; [| reflexivity]. exfalso. pose proof E as E0. unfold has_trivial_default_values in E0. cbv zeta in E0.
  destruct ts as [| y ts]; [congruence |]. pose proof (C44_trivial_defaults_are_trivial R true _ F E y (or_introl eq_refl)) as [_ H]. pose proof (proj2 (H 0%nat ltac:(lia))) as Z.
  destruct (negb (forallb _ _)) in E0; [discriminate E0 |]. destruct (forallb (fun d => near_equal3 (v_scale d) (splat f_one)) (map y_default (y :: ts))) eqn:O; [| destruct (true && negb _); discriminate E0].
  cbn [map forallb] in O. apply andb_prop in O as [O _]. apply (proj1 (near3 (v_scale (y_default y)) f_one (proj1 (F y Scale 0%nat (or_introl eq_refl))) (fun c => proj2 (F y Scale c (or_introl eq_refl))) eq_refl)) with (c := 0%nat) in O; [| lia].
  cbn [part] in O. rewrite Z, f_one_R in O. lra.
Qed.
Print Assumptions C44_additive1_defaults_are_never_trivial.

(** * The theorems on a list of two tracks, four samples, the last of which repeats the first *)
Definition ex_R : rtm := {|
  quat_is_normalized := fun v => forallb (fun x => fle (fabs x) f_one) v;
  quat_normalize := fun v => if forallb (fun x => fle (fabs x) f_one) v then v else [f_zero; f_zero; f_zero; f_one];
  quat_from_positive_w := fun v => v;
  quat_near_identity := fun v => feq (lane 0 v) f_zero && feq (lane 1 v) f_zero && feq (lane 2 v) f_zero |}.
Definition ex_distance (a b : qvv) : f32 :=
  let d ch := fabs (fsub (lane 0 (part ch a)) (lane 0 (part ch b))) in fmax (d Rotation) (fmax (d Translation) (d Scale)).
Definition ex_M : metric := {| m_error := fun _ _ => ex_distance; m_loop_error := fun _ => ex_distance; m_precision := fun _ => ex_value 1 100 |}.
Definition ex_ls : lsettings := {| l_rotation := TransDec.quatf_drop_w_variable; l_translation := true; l_scale := true; l_optimize_loops := true |}.
Definition ex_qvv (r t s : f32) : qvv := Qvv [r; f_zero; f_zero; ScalarEnc.fneg (ex_value 1 2)] [t; f_one; f_zero; f_zero] [s; f_one; f_one; f_zero].
(** animated rotations, translations that are nearly constant, scales that are nearly 1 *)
Definition ex_y0 : qtrack := {|
  y_samples := [ex_qvv (ex_value 1 10) (ex_value 1 2) f_one; ex_qvv (ex_value 2 10) (ex_value 505 1000) f_one; ex_qvv (ex_value 3 10) (ex_value 1 2) (ex_value 1001 1000); ex_qvv (ex_value 1 10) (ex_value 1 2) f_one];
  y_default := ex_qvv f_zero f_zero f_one; y_output_index := 1 |}.
(** default rotations, animated translations, scales that are held at 2 *)
Definition ex_y1 : qtrack := {|
  y_samples := [ex_qvv f_zero f_one (f_of_N 2); ex_qvv f_zero (f_of_N 3) (f_of_N 2); ex_qvv f_zero (f_of_N 7) (f_of_N 2); ex_qvv f_zero f_one (f_of_N 2)];
  y_default := ex_qvv f_zero f_zero f_one; y_output_index := 0 |}.
Definition ex_list : list qtrack := [ex_y0; ex_y1].
Definition ex_list_rate : f32 := f_of_N 30.
Lemma one_small v c : fle (fabs (nth c v f_zero)) f_one = true -> small c v.
Proof.
  intros H. destruct (fle_abs_back _ f_one eq_refl H) as [F L]. split; [exact F |]. unfold component. rewrite f_one_R in L. lra.
Qed.
Lemma ex_R_ok : rtm_ok ex_R.
Proof.
  intros v L. cbn [ex_R quat_normalize]. destruct (forallb (fun x => fle (fabs x) f_one) v) eqn:E.
  - split; [exact L |]. intros c C _. rewrite forallb_forall in E. apply one_small, E, nth_In. rewrite L. exact C.
  - split; [reflexivity |]. intros c C _. apply one_small. destruct c as [| [| [| [| c]]]]; [vm_compute; reflexivity | vm_compute; reflexivity | vm_compute; reflexivity | vm_compute; reflexivity | lia].
Qed.
Lemma ex_list_input : list_input ex_R ex_ls 4 ex_list_rate ex_list.
Proof.
  assert (SM : forallb (fun y => forallb (fun x => forallb (fun ch => forallb (fun c => bounded_b c [part ch x]) (seq 0 4)) [Rotation; Translation; Scale]) (y_samples y)) ex_list = true) by (vm_compute; reflexivity).
  constructor.
  - exact ex_R_ok.
  - change (2 ^ 22) with 4194304. lia.
  - repeat constructor.
  - repeat constructor; intros []; reflexivity.
  - intros y x ch c Iy Ix C _. rewrite forallb_forall in SM. specialize (SM y Iy). rewrite forallb_forall in SM. specialize (SM x Ix). rewrite forallb_forall in SM. specialize (SM ch ltac:(destruct ch; cbn; auto)). rewrite forallb_forall in SM.
    specialize (SM c). assert (Ic : In c (seq 0 4)) by (apply in_seq; destruct ch; cbn in C; lia). specialize (SM Ic). apply bounded_ok in SM. inversion SM as [| ? ? H]. exact H.
  - split; [reflexivity |]. pose proof (ci_timing _ _ _ _ _ (ex_input false)) as T. exact (ti_sane _ T).
  - split; [discriminate |]. cbn. apply perm_swap.
  - reflexivity.
Qed.
Lemma ex_list_finite : finite_samples ex_R ex_ls ex_list.
Proof. apply (finite_iff _ _ _ _ _ ex_list_input). vm_compute. reflexivity. Qed.
Definition ex_names : list ttrack := firstn 2 ex_ttracks.
Lemma ex_described : described [97] ex_names ex_error ex_list.
Proof.
  pose proof (ci_descriptions _ _ _ _ _ (ex_input false)) as D. destruct (ci_names _ _ _ _ _ (ex_input false)) as (N1 & N2 & N3). constructor; [reflexivity | | split; [exact N1 |]; split; [| exact N3] | reflexivity].
  - apply Forall_forall. intros t It. rewrite Forall_forall in D. apply D. apply (first_in 2), It.
  - apply Forall_forall. intros t It. rewrite Forall_forall in N2. apply N2. apply (first_in 2), It.
Qed.
Definition ex_five (_ _ : N) (_ : channel) : N := 5.
(** every fate, the loop, and the file: one bit rate for all *)
Example C44_example : exists p fates m, clip_of ex_ls false 3 true false (fun _ => 0) ex_list_rate p /\
  (forall i y ch, nth_error ex_list i = Some y -> fate_ok ex_R ex_M ex_ls (N.of_nat i) 3 (y_default y) (prepared_samples ex_R ex_ls 3 y) (fates i) ch) /\
  compress_list ex_R ex_M ex_ls false false (fun _ => 0) ex_five ex_allocator ex_junks ex_flags [97] ex_names ex_error lp_clamp ex_list_rate ex_list = Ok (Some m) /\
  forall policies k, k < 3 -> exists c i0 f0 i1 f1, used ex_settings ex_blank m (map call_looping policies ++ [call_seek (fdiv (f_of_N k) ex_list_rate) rp_nearest]) = Ok c /\
    plays_tracks p ex_five ex_list (prepared_samples ex_R ex_ls 3) fates rp_nearest i0 f0 i1 f1 c.
Proof.
  destruct (C44_key_frames_come_back ex_R ex_M ex_ls false (fun _ => 0) lp_clamp 4 ex_list_rate ex_list [97] ex_names ex_error ex_list_input ex_list_finite ex_described) as (p & n' & w & fates & CO & LO & FO & H).
  assert (W : wraps ex_R ex_M ex_ls lp_clamp 4 ex_list).
  { split; [reflexivity |]. split; [reflexivity |]. split; [intros Q; specialize (Q Scale); discriminate Q |]. split; [lia |]. split; [discriminate |].
    intros [| [| i]] y E; cbn [nth_error ex_list] in E; [injection E as <-; vm_compute; reflexivity | injection E as <-; vm_compute; reflexivity | destruct i; discriminate]. }
  destruct (proj1 LO W) as [-> ->]. change (4 - 1) with 3 in *. exists p, fates.
  assert (SZ : sizes_of p = [3]) by (apply (co_whole _ _ _ _ _ _ _ _ CO); left; lia).
  destruct (H ex_five ex_allocator ex_junks ex_flags) as (m & E & P).
  - intros g i ch _ _ _. unfold ex_five. split; [lia | discriminate].
  - exact ex_allocator_ok.
  - exact ex_junks_ok.
  - exists m. split; [exact CO |]. split; [intros i y ch Ey; exact (FO i y Ey ch) |]. split; [exact E |]. intros policies k K. destruct (P ex_settings ex_blank policies k eq_refl K) as (c & i0 & f0 & i1 & f1 & U & PL & _). exists c, i0, f0, i1, f1. auto.
Qed.
(** what the program computes: (default, constant) of the sub-tracks of each track, the samples that are left, the looping policy, the order *)
Example C44_example_fates : bindo (prepare_clip ex_R ex_M ex_ls false false (fun _ => 0) lp_clamp ex_list_rate ex_list) (fun o => match o with None => UB | Some x =>
    Ok (map (fun o => map (fun ch => (o_default o ch, o_constant o ch)) [Rotation; Translation; Scale]) (pr_sources x), p_num_samples (pr_clip x), p_wrap (pr_clip x), p_mapping (pr_clip x)) end) =
  Ok ([[(false, false); (false, true); (true, true)]; [(true, true); (false, false); (false, true)]], 3, 1, [1; 0]).
Proof. vm_compute. reflexivity. Qed.
(** and what it shows of the last key frame that is left, next to the first: rotations -0.3 and -0.1 (w is made positive), the translation
    1/2 and the scale 2 that are held, and translations 7 and 1 *)
Example C44_example_values : bindo (compress_list ex_R ex_M ex_ls false false (fun _ => 0) ex_five ex_allocator ex_junks ex_flags [97] ex_names ex_error lp_clamp ex_list_rate ex_list)
    (fun o => match o with None => UB | Some m => seen_after m [call_seek (fdiv (f_of_N 2) (f_of_N 30)) rp_floor] end) = Ok (0,
  [(Rotation, 0, ([], [])); (Translation, 1, ([1056964608; 1065353216; 0], [])); (Scale, 1, ([], [])); (Scale, 0, ([1073741824; 1065353216; 1065353216], []));
   (Rotation, 1, ([3197737370; 0; 0], [3184315596; 0; 0])); (Translation, 0, ([1088421888; 1065353216; 0], [1065353216; 1065353216; 0]))]).
Proof. vm_compute. reflexivity. Qed.
(** a sample that is not finite *)
Example C44_example_refused : let y := {| y_samples := [ex_qvv f_zero (fdiv f_one f_zero) f_one]; y_default := ex_qvv f_zero f_zero f_one; y_output_index := 0 |} in
  compress_list ex_R ex_M ex_ls false false (fun _ => 0) ex_five ex_allocator ex_junks ex_flags [97] ex_names ex_error lp_clamp ex_list_rate [y] = Ok None.
Proof. vm_compute. reflexivity. Qed.
(** Without scales it is not looked at the default scales: a clip whose scales are all 2, by default, says that its default values are trivial
    and that its default scale is 1. *)
Definition ex_twice : qtrack := {| y_samples := [ex_qvv f_zero f_zero (f_of_N 2)]; y_default := Qvv [f_zero; f_zero; f_zero; f_one] [f_zero; f_zero; f_zero; f_zero] [f_of_N 2; f_of_N 2; f_of_N 2; f_zero]; y_output_index := 0 |}.
Theorem C44_trivial_without_scales_refuted : ~ forall R M s additive1 stripped hard lp rate ts x, prepare_clip R M s additive1 stripped hard lp rate ts = Ok (Some x) -> p_trivial_defaults (pr_clip x) = 1 ->
  forall y c, In y ts -> (c < 3)%nat -> FR (component c (v_scale (y_default y))) = IZR (Z.of_N (p_default_scale (pr_clip x))).
Proof.
  intros H. destruct (prepare_clip ex_R ex_M ex_ls false false (fun _ => 0) lp_clamp ex_list_rate [ex_twice]) as [[x |] | |] eqn:E.
  - specialize (H _ _ _ _ _ _ _ _ _ _ E).
    assert (Q : bindo (prepare_clip ex_R ex_M ex_ls false false (fun _ => 0) lp_clamp ex_list_rate [ex_twice]) (fun o => match o with None => UB | Some x => Ok (p_trivial_defaults (pr_clip x), p_default_scale (pr_clip x)) end) = Ok (1, 1)) by (vm_compute; reflexivity).
    rewrite E in Q. cbn [bindo] in Q. injection Q as Q1 Q2. specialize (H Q1 ex_twice 0%nat (or_introl eq_refl) ltac:(lia)). rewrite Q2 in H. cbn [Z.of_N] in H.
    assert (Z : FR (f_of_N 2) = 2%R) by (apply (f_of_N_exact 2); lia). change (component 0 (v_scale (y_default ex_twice))) with (f_of_N 2) in H. rewrite Z in H. lra.
  - assert (Q : match prepare_clip ex_R ex_M ex_ls false false (fun _ => 0) lp_clamp ex_list_rate [ex_twice] with Ok (Some _) => true | _ => false end = true) by (vm_compute; reflexivity). rewrite E in Q. discriminate Q.
  - assert (Q : match prepare_clip ex_R ex_M ex_ls false false (fun _ => 0) lp_clamp ex_list_rate [ex_twice] with Ok (Some _) => true | _ => false end = true) by (vm_compute; reflexivity). rewrite E in Q. discriminate Q.
  - assert (Q : match prepare_clip ex_R ex_M ex_ls false false (fun _ => 0) lp_clamp ex_list_rate [ex_twice] with Ok (Some _) => true | _ => false end = true) by (vm_compute; reflexivity). rewrite E in Q. discriminate Q.
Qed.
Print Assumptions C44_trivial_without_scales_refuted.
