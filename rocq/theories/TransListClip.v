(** From a list of transform tracks to a clip that C43 is about. *)
From Coq Require Import ZArith NArith Bool Reals Lra Lia List Permutation.
From Verif Require Import Word WordFacts Pieces Float32 Float32Facts Interp InterpFacts Segment SegmentFacts SeekSpec Strip TransMeta TransMetaSpec TransDec TransEnc TransEncSpec TransRing TransFile TransFilePlay TransPlaySpec TransTop
  TransQuant TransQuantStream TransQuantRange TransQuantSub TransQuantSpec TransQuantClip TransQuantTop TrackArray TrackArrayFacts TransList TransListSpec TransListFacts TransListTop.
From Verif Require ScalarEnc TrackSpec.
Import ListNotations.
Local Open Scope N_scope.
Ltac Zify.zify_post_hook ::= idtac.

(** ** Segments *)
Lemma segments_sizes hard sizes : forall i start, map g_num_samples (segments_of hard i start sizes) = sizes.
Proof. induction sizes as [| n t IH]; intros i start; cbn [segments_of map g_num_samples]; [reflexivity |]. rewrite IH. reflexivity. Qed.
Lemma segments_starts hard sizes : forall i start, map g_start (segments_of hard i start sizes) = segment_offsets start sizes.
Proof. induction sizes as [| n t IH]; intros i start; cbn [segments_of map g_start segment_offsets]; [reflexivity |]. rewrite IH. reflexivity. Qed.
Lemma segments_hard hard sizes : forall i start k g, nth_error (segments_of hard i start sizes) k = Some g -> g_hard g = hard (i + N.of_nat k).
Proof.
  induction sizes as [| n t IH]; intros i start [| k] g E; cbn [segments_of nth_error] in E; try discriminate E.
  - injection E as <-. change (N.of_nat 0) with 0. rewrite N.add_0_r. reflexivity.
  - apply IH in E. rewrite E. f_equal. lia.
Qed.
Lemma sizes_ok s n : 1 <= n < 2 ^ 22 - 2 -> exists sizes, segment_sizes_of s n = Ok sizes /\
  ((n <= 31 \/ forall ch, l_variable s ch = false) -> sizes = [n]) /\
  (31 < n -> (exists ch, l_variable s ch = true) -> split_samples_per_segment n 16 31 = Ok sizes /\ (2 <= length sizes)%nat /\ Forall (fun k => 1 <= k <= 31) sizes /\ sumN sizes = n).
Proof.
  intros N1. change (2 ^ 22) with 4194304 in N1. unfold segment_sizes_of.
  destruct (negb (l_variable s Rotation) && negb (l_variable s Translation) && negb (l_variable s Scale)) eqn:RW.
  - exists [n]. assert (E : split_samples_per_segment n 4294967295 4294967295 = Ok []) by (unfold split_samples_per_segment; destruct (N.leb_spec n 4294967295); [reflexivity | lia]).
    rewrite E. split; [reflexivity |]. split; [auto |]. intros _ [ch V]. apply andb_prop in RW as [RW R3]. apply andb_prop in RW as [R1 R2]. apply negb_true_iff in R1, R2, R3. destruct ch; congruence.
  - destruct (split_partition n 16 31) as (sizes & E & Q1 & Q2); [lia | reflexivity | change (2 ^ 32) with 4294967296; lia |]. rewrite E. cbn [bindo]. destruct (N.le_gt_cases n 31) as [C | C].
    + rewrite (Q1 C). exists [n]. split; [reflexivity |]. split; [auto | lia].
    + destruct (Q2 C) as (A1 & A2 & A3). exists sizes. assert (NE : match sizes with [] => [n] | _ => sizes end = sizes) by (destruct sizes; [cbn in A3; lia | reflexivity]).
      rewrite NE. split; [reflexivity |]. split; [| intros _ _; auto]. intros [L | V]; [lia |]. rewrite !V in RW. discriminate.
Qed.

(** ** The order of the tracks in the file *)
Lemma all_some_ok {A} (l : list A) : all_some (map Some l) = Ok l.
Proof. induction l as [| x l IH]; [reflexivity |]. cbn [map all_some]. rewrite IH. reflexivity. Qed.
Lemma mapping_made R s n rate ts : list_input R s n rate ts -> exists m, create_output_track_mapping (map (fun y => as_track (y_output_index y)) ts) = Ok (map Some m) /\ m <> [] /\
  forall j k, nth_error m (N.to_nat j) = Some k <-> exists y, nth_error ts (N.to_nat k) = Some y /\ y_output_index y = j /\ j <> 0xFFFFFFFF.
Proof.
  intros I. destruct (in_outputs _ _ _ _ _ I) as [NE P]. pose proof (in_size _ _ _ _ _ I) as SZ. pose proof (in_samples _ _ _ _ _ I) as NS. change (2 ^ 22) with 4194304 in *.
  set (tr := map (fun y => as_track (y_output_index y)) ts) in *.
  assert (OE : TrackSpec.outputs tr = filter (fun o => negb (o =? 0xFFFFFFFF)) (map y_output_index ts)) by (unfold TrackSpec.outputs, tr; rewrite map_map; reflexivity).
  assert (LT : length tr = length ts) by apply map_length.
  assert (LB : N.of_nat (length ts) < 4194304) by (assert ((N.of_nat (length ts) + 1) * 1 <= (N.of_nat (length ts) + 1) * (n + 1)) by (apply N.mul_le_mono_l; lia); lia).
  destruct (create_mapping_spec tr) as (m & E & L & H); [rewrite LT; unfold k_invalid_track_index; lia | rewrite OE; exact P |].
  exists m. split; [exact E |]. split; [intros Z; rewrite Z, OE in L; destruct (filter _ _); [congruence | discriminate L] |].
  assert (FW : forall i y, nth_error ts i = Some y -> y_output_index y <> 0xFFFFFFFF -> nth_error m (N.to_nat (y_output_index y)) = Some (N.of_nat i)).
  { intros i y Ey O. apply (H i (as_track (y_output_index y))); [unfold tr; rewrite nth_error_map, Ey; reflexivity | exact O]. }
  intros j k. split.
  - intros Ek. assert (Lj : (N.to_nat j < length m)%nat) by (apply nth_error_Some; congruence). rewrite L, OE in Lj.
    assert (Ij : In j (filter (fun o => negb (o =? 0xFFFFFFFF)) (map y_output_index ts))). { eapply Permutation_in; [apply Permutation_sym, P |]. apply in_map_iff. exists (N.to_nat j). split; [apply N2Nat.id | apply in_seq; lia]. }
    apply filter_In in Ij as [Ij Nj]. apply negb_true_iff, N.eqb_neq in Nj. apply in_map_iff in Ij as (y & Ey & Iy). apply In_nth_error in Iy as [i Ei].
    pose proof (FW i y Ei ltac:(congruence)) as Q. rewrite Ey, Ek in Q. injection Q as ->. exists y. rewrite Nat2N.id. auto.
  - intros (y & Ey & Oy & Nj). rewrite <- Oy, (FW _ y Ey) by congruence. rewrite N2Nat.id. reflexivity.
Qed.

(** ** The clip *)
Definition fates_of (R : rtm) (s : lsettings) (n : N) (ts : list qtrack) (l : list source) (i : nat) : channel -> fate :=
  match nth_error ts i, nth_error l i with Some y, Some o => source_fate y o (prepared_samples R s n y) | _, _ => fun _ => Animated end.
Theorem prepare_ok R M s additive1 stripped hard lp n rate ts : list_input R s n rate ts -> samples_are_valid R s ts = true ->
  exists x n' (wrapped : bool), prepare_clip R M s additive1 stripped hard lp rate ts = Ok (Some x) /\ clip_of s additive1 n' wrapped stripped hard rate (pr_clip x) /\ 1 <= n' <= n /\
    (wraps R M s lp n ts -> n' = n - 1 /\ wrapped = true) /\ (~ wraps R M s lp n ts -> n' = n /\ wrapped = match lp with lp_wrap => true | lp_clamp => false end) /\
    length (pr_sources x) = length ts /\
    (forall k y, nth_error ts k = Some y -> exists o, nth_error (pr_sources x) k = Some o /\ source_of R M s n' (N.of_nat k) y o) /\
    p_mapping (pr_clip x) <> [] /\ mapping_ok (pr_sources x) (p_mapping (pr_clip x)) /\ p_has_scale (pr_clip x) = has_scale_left (pr_sources x) /\
    (stripping_ok (pr_clip x) -> clip_timing (pr_clip x)) /\ p_trivial_defaults (pr_clip x) = (if has_trivial_default_values R additive1 (has_scale_left (pr_sources x)) ts then 1 else 0).
Proof.
  intros I V. pose proof (in_samples _ _ _ _ _ I) as NS. destruct (loop_ok R M s lp n ts (in_count _ _ _ _ _ I) ltac:(lia)) as (n' & lp' & bones & EL & F & B & W1 & W2).
  assert (NS' : 1 <= n' < 2 ^ 22 - 2) by lia. destruct (sizes_ok s n' NS') as (sizes & ES & S1 & S2). destruct (mapping_made _ _ _ _ _ I) as (m & EM & NE & MM).
  destruct (bones_ok R M s n n' rate ts I V B ts (fun y H => H) bones 0 F) as [LB HB]. set (l := compact_bones R M s 0 n' (combine ts bones)) in *.
  assert (N0 : match ts with [] => 0 | y :: _ => N.of_nat (length (y_samples y)) end = n).
  { destruct ts as [| y ts']; [exfalso; destruct (in_outputs _ _ _ _ _ I) as [H _]; apply H; reflexivity |]. pose proof (in_count _ _ _ _ _ I) as C. rewrite Forall_forall in C. apply C. left. reflexivity. }
  set (p := {| p_segments := segments_of hard 0 0 sizes; p_mapping := m; p_rotation := l_rotation s; p_translation := l_translation s; p_scale := l_scale s; p_has_scale := has_scale_left l; p_stripped := stripped;
    p_num_samples := n'; p_sample_rate := rate; p_default_scale := if additive1 then 0 else 1; p_trivial_defaults := if has_trivial_default_values R additive1 (has_scale_left l) ts then 1 else 0; p_wrap := match lp' with lp_wrap => 1 | lp_clamp => 0 end |}).
  assert (SZ : sizes_of p = sizes) by apply segments_sizes.
  exists {| pr_sources := l; pr_clip := p |}, n', (match lp' with lp_wrap => true | lp_clamp => false end). cbn [pr_sources pr_clip].
  split. { unfold prepare_clip. rewrite V. cbn [negb]. cbv zeta. rewrite N0, EL, ES. cbn [bindo]. rewrite EM. cbn [bindo]. rewrite all_some_ok. reflexivity. }
  split. { constructor; try reflexivity; [auto | intros i g E; apply (segments_hard hard sizes 0 0 i g E) | destruct lp'; reflexivity | rewrite SZ; exact S1 | intros C E; rewrite SZ; apply S2; assumption]. }
  split; [exact B |]. split; [intros W; destruct (W1 W) as [-> ->]; auto |]. split; [intros W; destruct (W2 W) as [-> ->]; auto |]. split; [exact LB |].
  split; [intros k y Ey; destruct (HB k y Ey) as (o & Eo & So); exists o; auto |]. split; [exact NE |]. split; [| split; [reflexivity |]; split; [| reflexivity]].
  - intros j k. cbn [p p_mapping]. rewrite MM. split.
    + intros (y & Ey & Oy & Nj). destruct (HB _ y Ey) as (o & Eo & So). exists o. rewrite (sf_output _ _ _ _ _ _ _ So). auto.
    + intros (o & Eo & Oo & Nj). assert (L : (N.to_nat k < length ts)%nat) by (rewrite <- LB; apply nth_error_Some; congruence). destruct (nth_error ts (N.to_nat k)) as [y |] eqn:Ey; [| apply nth_error_None in Ey; lia].
      destruct (HB _ y Ey) as (o' & Eo' & So). rewrite Eo in Eo'. injection Eo' as <-. exists y. rewrite <- (sf_output _ _ _ _ _ _ _ So). auto.
  - intros ST. destruct (in_rate _ _ _ _ _ I) as [R1 R2]. constructor; try assumption.
    + rewrite SZ. cbn [p p_num_samples]. destruct (N.le_gt_cases n' 31) as [C | C]; [left; apply S1; auto |].
      destruct (l_variable s Rotation) eqn:V1; [| destruct (l_variable s Translation) eqn:V2; [| destruct (l_variable s Scale) eqn:V3; [| left; apply S1; right; intros []; assumption]]].
      all: right; exists 16, 31; repeat (split; [lia |]); split; [apply S2; eauto |]; apply segments_starts.
    + intros E. specialize (ST E). eapply Forall_impl; [| exact ST]. cbn beta. intros g H. split; apply H.
Qed.

Lemma has_scale_spec l : has_scale_left l = false -> Forall (fun o => o_default o Scale = true) l.
Proof.
  unfold has_scale_left. rewrite negb_false_iff, N.eqb_eq. intros E. apply Nat2N.inj in E. induction l as [| o l IH]; [constructor |]. cbn [filter] in E. destruct (o_default o Scale) eqn:D.
  - constructor; [exact D | apply IH; cbn in E; lia].
  - exfalso. cbn [length] in E. assert (H : (length (filter (fun o => o_default o Scale) l) <= length l)%nat) by (clear; induction l as [| o l IH]; [cbn; lia |]; cbn [filter]; destruct (o_default o Scale); cbn [length]; lia). lia.
Qed.
Lemma source_is_ok R M s n0 n i y o p rate all wrapped ds st hard : list_input R s n0 rate all -> samples_are_valid R s all = true -> 1 <= n <= n0 -> In y all ->
  source_of R M s n i y o -> clip_of s ds n wrapped st hard rate p -> (p_has_scale p = false -> o_default o Scale = true) -> source_ok (settings_of p) n o.
Proof.
  intros I V B Iy So CO HS. destruct (track_prepared R s n0 n rate all I V B y Iy) as (P1 & P2 & P3 & P4). destruct (co_formats _ _ _ _ _ _ _ _ CO) as (F1 & F2 & F3).
  pose proof (sf_lossy _ _ _ _ _ _ _ So) as SL. pose proof (sf_raw _ _ _ _ _ _ _ So) as SR. pose proof (sf_default _ _ _ _ _ _ _ So) as SD.
  assert (AN : forall ch, o_constant o ch = false -> o_lossy o ch = prepared_samples R s n y ch).
  { intros ch C. rewrite SL. unfold source_fate. rewrite C. destruct (o_default o ch) eqn:D; [rewrite (SD ch D) in C; discriminate | reflexivity]. }
  assert (CN : forall ch, o_constant o ch = true -> exists v, o_lossy o ch = [v] /\ full_vec v).
  { intros ch C. rewrite SL. unfold source_fate. rewrite C. destruct (o_default o ch); cbn [collapsed]; [exists (part ch (y_default y)); auto |]. eexists; split; [reflexivity |]. pose proof (P2 ch) as Q. rewrite Forall_forall in Q. apply Q, nth_In. specialize (P1 ch). lia. }
  constructor.
  - exact SD.
  - exact HS.
  - intros ch C. destruct (CN ch C) as (v & -> & _). reflexivity.
  - intros ch C. rewrite (AN ch C), SR. split; apply P1.
  - intros ch. destruct (o_constant o ch) eqn:C; [destruct (CN ch C) as (v & -> & Fv); repeat constructor; exact Fv | rewrite (AN ch C); apply P2].
  - intros ch. rewrite SR. apply P2.
  - intros ch c C _ Hc. rewrite (AN ch C). apply P3. destruct ch; cbn; lia.
Qed.

(** ** Finite samples *)
Definition prepared_rotation (R : rtm) (s : lsettings) (x : qvv) : vec := if rotation_full (l_rotation s) && quat_is_normalized R (v_rotation x) then v_rotation x else quat_normalize R (v_rotation x).
Lemma prepared_rotation_eq R s x : prepared_rotation R s x = initial_sample R s Rotation x. Proof. exact (initial_eq R s Rotation x). Qed.
Lemma finite_iff R s n rate ts : list_input R s n rate ts -> (samples_are_valid R s ts = true <-> finite_samples R s ts).
Proof.
  intros I. unfold samples_are_valid, finite_samples. rewrite forallb_forall.
  assert (Q : forall y x, In y ts -> In x (y_samples y) -> (sample_is_finite R s x = true <->
    (forall c, (c < 4)%nat -> ffinite (component c (prepared_rotation R s x)) = true) /\
    (forall c, (c < 3)%nat -> ffinite (component c (v_translation x)) = true /\ ffinite (component c (v_scale x)) = true))).
  { intros y x Iy Ix. rewrite (prepared_rotation_eq R s x). pose proof (initial_full R s n rate ts I y x Rotation Iy Ix) as L0. pose proof (initial_full R s n rate ts I y x Translation Iy Ix) as L1. pose proof (initial_full R s n rate ts I y x Scale Iy Ix) as L2.
    unfold full_vec in *. cbn [initial_sample part] in L1, L2. unfold sample_is_finite. rewrite !andb_true_iff.
    assert (FI : forall (v : vec) k, (k <= length v)%nat -> (forallb ffinite (firstn k v) = true <-> forall c, (c < k)%nat -> ffinite (component c v) = true)).
    { intros v k K. rewrite forallb_forall. split.
      - intros H c C. apply H. unfold component. rewrite <- (nth_firstn_lt _ k _ _ C). apply nth_In. rewrite firstn_length. lia.
      - intros H a Ia. apply (In_nth _ _ f_zero) in Ia as (c & C & <-). rewrite firstn_length in C. rewrite nth_firstn_lt by lia. apply H. lia. }
    rewrite !FI by lia. assert (E4 : forallb ffinite (initial_sample R s Rotation x) = forallb ffinite (firstn 4 (initial_sample R s Rotation x))) by (rewrite firstn_all2; [reflexivity | lia]). rewrite E4. rewrite FI by lia. split; [intros [[A B] C]; split; [exact A | intros c H; split; auto] | intros [A B]; split; [split; [exact A |] |]; intros c H; apply B, H]. }
  split.
  - intros H y x Iy Ix. specialize (H y Iy). rewrite forallb_forall in H. cbv zeta. apply (Q y x Iy Ix), H, Ix.
  - intros H y Iy. rewrite forallb_forall. intros x Ix. apply (Q y x Iy Ix). exact (H y x Iy Ix).
Qed.

(** ** Names *)
Lemma sum_n_sumN l : sum_n l = sumN l. Proof. induction l as [| x l IH]; [reflexivity |]. cbn [sumN]. rewrite <- IH. reflexivity. Qed.
Lemma sum_incl {A} (f : A -> N) m : NoDup m -> forall l, incl m l -> sumN (map f m) <= sumN (map f l).
Proof.
  induction 1 as [| a m NI ND IH]; intros l IN; [cbn; lia |]. destruct (in_split a l (IN a (or_introl eq_refl))) as (l1 & l2 & ->).
  assert (I2 : incl m (l1 ++ l2)). { intros b Ib. specialize (IN b (or_intror Ib)). apply in_app_or in IN. apply in_or_app. destruct IN as [IN | [-> | IN]]; [left; exact IN | contradiction | right; exact IN]. }
  specialize (IH _ I2). rewrite !map_app, !sumN_app in *. cbn [map sumN] in *. lia.
Qed.
Lemma names_le tracks mapping : NoDup mapping -> output_names_size tracks mapping <= sumN (map (fun t => blen (tt_name t)) tracks).
Proof.
  intros ND. unfold output_names_size. rewrite sum_n_sumN. set (f := fun i : N => match nth_error tracks (N.to_nat i) with Some t => blen (tt_name t) | None => 0 end).
  assert (Q : forall l0 l1, tracks = l0 ++ l1 -> map f (map N.of_nat (seq (length l0) (length l1))) = map (fun t => blen (tt_name t)) l1).
  { intros l0 l1. revert l0. induction l1 as [| t l1 IH]; intros l0 E; [reflexivity |]. cbn [length seq map]. f_equal.
    - unfold f. rewrite Nat2N.id, E, nth_error_app2, Nat.sub_diag by lia. reflexivity.
    - specialize (IH (l0 ++ [t])). rewrite app_length, Nat.add_1_r in IH. apply IH. rewrite E, <- app_assoc. reflexivity. }
  rewrite <- (Q [] tracks eq_refl). cbn [length].
  set (g := fun i : N => (N.to_nat i <? length tracks)%nat).
  assert (E : sumN (map f mapping) = sumN (map f (filter g mapping))).
  { clear ND Q. induction mapping as [| i m IH]; [reflexivity |]. cbn [filter map sumN]. destruct (g i) eqn:G; cbn [map sumN]; [rewrite IH; reflexivity |].
    unfold g in G. apply Nat.ltb_ge in G. apply nth_error_None in G. unfold f at 1. rewrite G. exact IH. }
  rewrite E. apply sum_incl; [apply NoDup_filter, ND |]. intros i Ii. apply filter_In in Ii as [_ G]. apply Nat.ltb_lt in G. apply in_map_iff. exists (N.to_nat i). split; [apply N2Nat.id | apply in_seq; lia].
Qed.
