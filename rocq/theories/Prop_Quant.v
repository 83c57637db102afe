(** C43: range reduction and quantization of transform clips.
    Model: TransQuant.v, [compress_sources] in TransQuantClip.v, then the models of C34-C36 and C41.
    Vocabulary: [kept_sample] in TransQuantSpec.v (what is kept of a sample); [source_ok] in TransQuantSub.v and [sources_input] in
    TransQuantClip.v (what is compressed); [used], [legal] in TransTop.v; [sought], [chosen], [in_segment] in TransPlaySpec.v. *)
From Coq Require Import Lia Reals Lra.
From Verif Require Import Word Float32 Float32Facts Quant Interp InterpFacts Headers PackSpec ScalarDec SeekSpec Segment Strip TransMeta TransDec TransSpec TransRing TransMem TransEnc TransEncSpec TransEncBytes3
  TransClipSpec TransFile TransFileFacts TransFilePlay TransSeek TransPlaySpec TransTop TransExample
  TransQuant TransQuantStream TransQuantRange TransQuantSub TransQuantSpec TransQuantError TransQuantTop TransQuantSize TransQuantClip Prop_Trans.
From Verif Require ScalarEnc Prop_Float.
Import ListNotations.
Local Open Scope N_scope.
Ltac Zify.zify_post_hook ::= idtac.

(** [y] is what is kept of key frame [f] of segment [i] for a kind of sub-track of bone [b], which is [o] *)
Definition kept_of_source (p : tclip) (rates : N -> N -> channel -> N) (b : N) (o : source) (ch : channel) (i : nat) (f : N) (y : list f32) : Prop :=
  let k := N.to_nat (start_of (sizes_of p) i + f) in
  let clip := o_lossy o ch in
  let segment := firstn (N.to_nat (nth i (sizes_of p) 0)) (skipn (N.to_nat (start_of (sizes_of p) i)) clip) in
  kept_sample (if p_variable p ch then Some (rates (N.of_nat i) b ch) else None) (1 <? num_segments p) (N.to_nat (components (formats_of p) ch)) clip segment
    (nth k (o_raw o ch) []) (nth k clip []) y.

Lemma chosen_with p bss k0 k1 al i0 f0 i1 f1 a : length bss = length (p_segments p) -> chosen (with_bones p bss) k0 k1 al i0 f0 i1 f1 a -> chosen p k0 k1 al i0 f0 i1 f1 a.
Proof.
  intros L. assert (ES : sizes_of (with_bones p bss) = sizes_of p) by (apply with_bones_map; [reflexivity | exact L]).
  assert (IS : forall k i g f, in_segment (with_bones p bss) k i g f -> exists g', in_segment p k i g' f /\ g_num_samples g' = g_num_samples g /\ g_hard g' = g_hard g).
  { intros k i g f (E & S0 & F). rewrite ES in S0. cbn [with_bones p_segments] in E. rewrite nth_error_map in E. destruct (nth_error (combine (p_segments p) bss) i) as [[g' bs] |] eqn:C; [| discriminate]. injection E as <-.
    exists g'. split; [| split; reflexivity]. split; [| split; assumption]. rewrite <- (combine_fst (p_segments p) bss L), nth_error_map, C. reflexivity. }
  intros (g0 & h0 & g1 & h1 & I0 & I1 & B0 & B1 & C). destruct (IS _ _ _ _ I0) as (g0' & J0 & N0 & H0). destruct (IS _ _ _ _ I1) as (g1' & J1 & N1 & H1).
  exists g0', h0, g1', h1. rewrite N0, N1, H0, H1. rewrite ES in C. repeat (split; [assumption |]). exact C.
Qed.
Lemma in_pose_other f ch s clip : ch <> Rotation -> in_pose f ch s clip = decoded (fm_has_segments f) s clip.
Proof. destruct ch; [congruence | reflexivity | reflexivity]. Qed.

(** what a context that is at key frame [f0] of segment [i0] and key frame [f1] of segment [i1] shows of every bone that is output: a
    constant sub-track is its only sample, bit for bit; an animated one is what is kept of its samples at the two key frames *)
Definition plays_sources (p : tclip) (rates : N -> N -> channel -> N) (l : list source) (rp : rounding_policy) (i0 : nat) (f0 : N) (i1 : nat) (f1 : N) (c : pcontext) : Prop :=
  forall b o ch, nth_error l (N.to_nat b) = Some o -> o_output_index o <> 0xFFFFFFFF ->
    let i := o_output_index o in
    (o_default o ch = false -> o_constant o ch = true ->
     forall w, let v := firstn (N.to_nat (components (formats_of p) ch)) (nth 0 (o_lossy o ch) []) in
       (exists events, play_tracks w c = Ok events /\ NoDup (map fst events) /\ forall e, In (ch, i, e) events <-> tw_skip w ch i = false /\ e = OConst v) /\
       (exists events, play_track w c i = Ok events /\ NoDup (map fst events) /\ forall e, In (ch, i, e) events <-> e = OConst v)) /\
    (o_constant o ch = false ->
     exists y0 y1 z0 z1, kept_of_source p rates b o ch i0 f0 y0 /\ kept_of_source p rates b o ch i1 f1 y1 /\
       Forall2 same_number z0 y0 /\ Forall2 same_number z1 y1 /\ (ch <> Rotation -> z0 = y0 /\ z1 = y1) /\
       forall w,
       (exists events, play_tracks w c = Ok events /\ NoDup (map fst events) /\ forall e, In (ch, i, e) events <-> tw_skip w ch i = false /\ e = OMix (policy_of w rp i) z0 z1) /\
       (exists events, play_track w c i = Ok events /\ NoDup (map fst events) /\ forall e, In (ch, i, e) events <-> e = OMix (policy_of w rp i) y0 y1)).

Lemma plays_kept list_name tracks error rates l p bss rp k0 k1 al i0 f0 i1 f1 c a : sources_input list_name tracks error rates l p -> length bss = length (p_segments p) ->
  chosen p k0 k1 al i0 f0 i1 f1 a -> plays (with_bones p bss) (contents rates l p) rp i0 f0 i1 f1 c -> plays_sources p rates l rp i0 f0 i1 f1 c.
Proof.
  intros I L CH PL b o ch Eo Oi i.
  pose proof (si_mapping _ _ _ _ _ _ I) as MP. assert (Ej : nth_error (p_mapping p) (N.to_nat i) = Some b) by (apply MP; exists o; auto).
  pose proof (output_contents_nth (settings_of p) (sizes_of p) rates l _ _ _ _ Ej Eo) as Ex. fold (contents rates l p) in Ex. set (x := content_of _ _ _ o) in Ex.
  assert (Hi : i < len (contents rates l p)). { assert (N.to_nat i < length (contents rates l p))%nat by (apply nth_error_Some; congruence). unfold len. lia. }
  pose proof (si_sources _ _ _ _ _ _ I) as FS. rewrite Forall_forall in FS. pose proof (FS o (nth_error_In _ _ Eo)) as K. clear FS.
  pose proof (with_bones_formats p bss L) as FE. pose proof (settings_ok p) as SM. split.
  - intros D C w v. destruct (plays_sub _ _ rp i0 f0 i1 f1 c w ch i x PL Hi Ex) as [P1 P2]. unfold TransPlaySpec.shown in P1, P2. cbn [x content_of ct_default ct_constant ct_words] in P1, P2. rewrite D, C, words_back, (sm_components _ _ SM) in P1, P2. split; [exact P1 | exact P2].
  - intros C. assert (D : o_default o ch = false). { destruct (o_default o ch) eqn:D; [| reflexivity]. rewrite (ok_default _ _ _ K ch D) in C. discriminate. }
    destruct (timing_split p (si_timing _ _ _ _ _ _ I)) as [SP _].
    assert (KS : forall i g fr, nth_error (p_segments p) i = Some g -> fr < g_num_samples g -> kept_of_source p rates b o ch i fr (decoded (1 <? num_segments p) (ct_sample x (N.of_nat i) fr ch) (ct_clip x ch))).
    { intros s g fr Eg Hf. assert (Ls : (s < length (p_segments p))%nat) by (apply nth_error_Some; congruence). assert (Ln : (s < length (sizes_of p))%nat) by (unfold sizes_of; rewrite map_length; exact Ls).
      pose proof (split_fits _ _ _ _ SP Ln) as Fit. assert (En : nth s (sizes_of p) 0 = g_num_samples g) by (apply nth_error_nth; unfold sizes_of; rewrite nth_error_map, Eg; reflexivity).
      cbn [x content_of ct_sample ct_clip]. rewrite Nat2N.id. destruct (ok_animated _ _ _ K ch C) as [LL _]. destruct Fit as (Fa & Fb & Fc & Fd).
      destruct (nth_error (o_lossy o ch) (N.to_nat (start_of (sizes_of p) s + fr))) as [v |] eqn:Ev; [| apply nth_error_None in Ev; lia].
      unfold kept_of_source. cbv zeta. match goal with |- kept_sample _ _ _ _ _ _ ?X _ => replace X with v by (symmetry; exact (nth_vec _ _ _ Ev)) end. rewrite <- (sm_components _ _ SM).
      apply (decoded_kept (settings_of p) (p_num_samples p) o ch (start_of (sizes_of p) s) (nth s (sizes_of p) 0) (rates (N.of_nat s) b ch) K C (conj Fa (conj Fb (conj Fc Fd))) fr v); [| rewrite En; exact Hf | exact Ev].
      intros V. apply (si_rates _ _ _ _ _ _ I _ _ o); [exact Eo | unfold num_segments; lia | exact C | exact V]. }
    destruct CH as (g0 & h0 & g1 & h1 & (Eg0 & _) & (Eg1 & _) & B0 & B1 & _).
    exists (decoded (1 <? num_segments p) (ct_sample x (N.of_nat i0) f0 ch) (ct_clip x ch)), (decoded (1 <? num_segments p) (ct_sample x (N.of_nat i1) f1 ch) (ct_clip x ch)),
      (in_pose (formats_of p) ch (ct_sample x (N.of_nat i0) f0 ch) (ct_clip x ch)), (in_pose (formats_of p) ch (ct_sample x (N.of_nat i1) f1 ch) (ct_clip x ch)).
    split; [exact (KS i0 g0 f0 Eg0 B0) |]. split; [exact (KS i1 g1 f1 Eg1 B1) |].
    split; [apply same_numbers |]. split; [apply same_numbers |]. split; [intros NR; split; apply in_pose_other, NR |].
    intros w. destruct (plays_sub _ _ rp i0 f0 i1 f1 c w ch i x PL Hi Ex) as [P1 P2]. unfold TransPlaySpec.shown in P1, P2. rewrite FE in P1, P2. assert (D' : ct_default x ch = false) by exact D. assert (C' : ct_constant x ch = false) by exact C. rewrite D', C' in P1, P2. split; [exact P1 | exact P2].
Qed.

(** Compression succeeds, whatever the allocations and the local buffers hold at first and whichever legal bit rates are chosen; then,
    after any legal history of the context that ends with a seek, the sources are shown at the two key frames the seek selects. *)
Theorem C43_source_samples_come_back : forall junk j f list_name tracks error rates l p,
  sources_input list_name tracks error rates l p -> (forall g i ch, allocator_ok (junk g i ch)) -> junks_ok j ->
  exists m, compress_sources junk j f list_name tracks error rates l p = Ok m /\
  forall ds c0 h t rp, Forall (legal ds p) (h ++ [call_seek t rp]) ->
    exists c time lp k0 k1 al i0 f0 i1 f1, used ds c0 m (h ++ [call_seek t rp]) = Ok c /\
      feq time (sought ds (x_duration c) t) = true /\
      find_linear_interpolation_samples_with_sample_rate (p_num_samples p) (p_sample_rate p) time rp lp = Ok (k0, k1, al) /\
      chosen p k0 k1 al i0 f0 i1 f1 (x_alpha c) /\ plays_sources p rates l rp i0 f0 i1 f1 c.
Proof.
  intros junk j f list_name tracks error rates l p I AL J. destruct (quantized_input junk list_name tracks error rates l p I AL) as (bss & EQ & L & CI).
  destruct (compress_made j f list_name tracks error (with_bones p bss) (contents rates l p) CI J) as (m & EC & M). exists m.
  split; [unfold compress_sources; rewrite EQ; exact EC |]. intros ds c0 h t rp LG.
  destruct (made_sought _ _ m M ds c0 h t rp LG) as (c & U & tm & lp & k0 & k1 & al & i0 & f0 & i1 & f1 & FT & EF & CH & PL). apply (chosen_with p bss _ _ _ _ _ _ _ _ L) in CH.
  exists c, tm, lp, k0, k1, al, i0, f0, i1, f1. split; [exact U |]. split; [exact FT |]. split; [exact EF |]. split; [exact CH |]. exact (plays_kept _ _ _ rates l p bss rp _ _ _ _ _ _ _ c _ I L CH PL).
Qed.
Print Assumptions C43_source_samples_come_back.

(** At the time of key frame [k] of the clip, rounding to the nearest one, an unstripped clip shows key frame [k] of the sources: it is the
    first of the two and alpha is zero, or the second and alpha is one. *)
Theorem C43_key_frames_come_back : forall junk j f list_name tracks error rates l p,
  sources_input list_name tracks error rates l p -> (forall g i ch, allocator_ok (junk g i ch)) -> junks_ok j -> p_stripped p = false ->
  exists m, compress_sources junk j f list_name tracks error rates l p = Ok m /\
  forall ds c0 policies k, clamp_sample_time ds = true -> k < p_num_samples p ->
    exists c i0 f0 i1 f1, used ds c0 m (map call_looping policies ++ [call_seek (fdiv (f_of_N k) (p_sample_rate p)) rp_nearest]) = Ok c /\
      plays_sources p rates l rp_nearest i0 f0 i1 f1 c /\
      ((exists g, in_segment p k i0 g f0) /\ FR (x_alpha c) = 0%R \/ (exists g, in_segment p k i1 g f1) /\ FR (x_alpha c) = 1%R).
Proof.
  intros junk j f list_name tracks error rates l p I AL J St. destruct (quantized_input junk list_name tracks error rates l p I AL) as (bss & EQ & L & CI).
  destruct (compress_made j f list_name tracks error (with_bones p bss) (contents rates l p) CI J) as (m & EC & M). exists m.
  split; [unfold compress_sources; rewrite EQ; exact EC |]. intros ds c0 policies k Cl Hk. pose proof (si_timing _ _ _ _ _ _ I) as T.
  destruct (made_plays _ _ m M ds c0 policies (fdiv (f_of_N k) (p_sample_rate p)) rp_nearest (or_introl Cl)) as (c & k0 & k1 & al & i0 & f0 & i1 & f1 & U & EF & CH & PL).
  apply (chosen_with p bss _ _ _ _ _ _ _ _ L) in CH. exists c, i0, f0, i1, f1. split; [exact U |]. split; [exact (plays_kept _ _ _ rates l p bss _ _ _ _ _ _ _ _ c _ I L CH PL) |].
  destruct (Prop_Float.C10_key_frame_time_selects_key_frame (p_num_samples p) (p_sample_rate p) (in_effect ds (with_bones p bss) policies) k (ti_samples _ T) (ti_rate _ T) (ti_sane _ T) Hk) as (j0 & j1 & a & S & FA & S2).
  unfold seek_key_frames in S. cbn [with_bones p_num_samples p_sample_rate] in EF. unfold sought in EF. rewrite Cl, S in EF. injection EF as -> -> ->.
  destruct CH as (g0 & h0 & g1 & h1 & I0 & I1 & _ & _ & C). rewrite St in C. destruct C as (-> & -> & ->). destruct S2 as [[-> A] | [-> A]]; [left | right]; eauto.
Qed.
Print Assumptions C43_key_frames_come_back.

(** The streams that quantization gives are streams that C34-C36 and C40-C42 are about. *)
Theorem C43_quantized_streams_can_be_packed : forall junk list_name tracks error rates l p,
  sources_input list_name tracks error rates l p -> (forall g i ch, allocator_ok (junk g i ch)) ->
  exists bss, quantize_segments junk (settings_of p) rates l 0 0 (sizes_of p) = Ok bss /\ length bss = length (p_segments p) /\
    clip_input list_name tracks error (with_bones p bss) (contents rates l p).
Proof. exact quantized_input. Qed.
Print Assumptions C43_quantized_streams_can_be_packed.

(** * The theorems on a clip: three bones, six samples, two segments, bit rates 7, 0 and 24 *)
Definition bounded_b (c : nat) (l : list vec) : bool := forallb (fun v => ffinite (lane c v) && fle (ScalarEnc.fneg ScalarEnc.f_1e10) (lane c v) && fle (lane c v) ScalarEnc.f_1e10) l.
Lemma bounded_ok c l : bounded_b c l = true -> bounded 10000000000 c l.
Proof.
  intros H. apply Forall_forall. intros v I. pose proof (proj1 (forallb_forall _ _) H v I) as Q. cbv beta in Q. apply andb_prop in Q as [Q Q3]. apply andb_prop in Q as [Q1 Q2]. split; [exact Q1 |].
  destruct f_1e10_R as [F1 E1]. destruct f_m1e10_R as [F2 E2]. apply fle_R in Q2; [| exact F2 | exact Q1]. apply fle_R in Q3; [| exact Q1 | exact F1]. rewrite E2 in Q2. rewrite E1 in Q3. apply Rabs_le. lra.
Qed.
Definition ex_value (n d : N) : f32 := fdiv (f_of_N n) (f_of_N d).
Definition ex_samples (b : N) : list vec := map (fun k => [ex_value (k + 1) (7 + b); ScalarEnc.fneg (ex_value k 10); ex_value (3 * k) 11; f_one]) [0; 1; 2; 3; 4; 5].
(** bone 0: animated rotation; bone 1: constant rotation, animated translation; bone 2: animated scale *)
Definition ex_animated (b : N) (ch : channel) : bool := match ch with Rotation => b =? 0 | Translation => b =? 1 | Scale => b =? 2 end.
Definition ex_source (b : N) : source := {|
  o_default := fun ch => negb (ex_animated b ch) && negb (match ch with Rotation => b =? 1 | _ => false end);
  o_constant := fun ch => negb (ex_animated b ch);
  o_lossy := fun ch => if ex_animated b ch then ex_samples b else [[ex_value 1 3; ex_value 2 3; f_zero; f_one]];
  o_raw := fun ch => if ex_animated b ch then ex_samples b else [];
  o_output_index := match b with 0 => 1 | 1 => 2 | _ => 0 end |}.
Definition ex_sources : list source := map ex_source [0; 1; 2].
Definition ex_rates (g i : N) (ch : channel) : N := match i with 0 => 7 | 1 => if g =? 0 then 0 else 19 | _ => 24 end.
Lemma ex_source_ok stripped b : b < 3 -> source_ok (settings_of (ex_tclip stripped)) 6 (ex_source b).
Proof.
  intros Hb. assert (B : b = 0 \/ b = 1 \/ b = 2) by lia.
  assert (FV : Forall full_vec (ex_samples b)) by (apply Forall_forall; intros v I; apply in_map_iff in I as (k & <- & _); reflexivity).
  constructor.
  - intros ch. cbn. intros H. apply andb_prop in H as [H _]. exact H.
  - discriminate.
  - intros ch. cbn. destruct (ex_animated b ch); [discriminate | reflexivity].
  - intros ch. cbn. destruct (ex_animated b ch); [split; reflexivity | discriminate].
  - intros ch. cbn [ex_source o_lossy]. destruct (ex_animated b ch); [exact FV | repeat constructor].
  - intros ch. cbn [ex_source o_raw]. destruct (ex_animated b ch); [exact FV | constructor].
  - intros ch c C _ Hc. cbn [ex_source o_lossy o_constant] in *. destruct (ex_animated b ch); [| discriminate]. apply bounded_ok. assert (Cc : (c = 0 \/ c = 1 \/ c = 2)%nat) by lia.
    destruct B as [-> | [-> | ->]], Cc as [-> | [-> | ->]]; vm_compute; reflexivity.
Qed.
Lemma ex_sources_input stripped : sources_input [97] ex_ttracks ex_error ex_rates ex_sources (ex_tclip stripped).
Proof.
  pose proof (ex_input stripped) as CI. constructor.
  - discriminate.
  - intros j k. cbn [ex_tclip p_mapping]. split.
    + destruct (N.to_nat j) as [| [| [| x]]] eqn:E; cbn [nth_error]; intros H; [| | | destruct x; discriminate]; injection H as <-; [assert (j = 0) by lia | assert (j = 1) by lia | assert (j = 2) by lia]; subst j; eexists; (split; [reflexivity |]; split; [reflexivity | discriminate]).
    + intros (o & E & X & _). destruct (N.to_nat k) as [| [| [| x]]] eqn:K; cbn in E; [| | | destruct x; discriminate]; injection E as <-; cbn in X; subst j; [assert (k = 0) by lia | assert (k = 1) by lia | assert (k = 2) by lia]; subst k; reflexivity.
  - apply Forall_forall. intros o Io. apply in_map_iff in Io as (b & <- & Ib). apply ex_source_ok. destruct Ib as [<- | [<- | [<- | []]]]; reflexivity.
  - intros g i o ch _ Hg _ _. split; [unfold ex_rates; destruct i as [| [i | i |]]; try (destruct (g =? 0)); discriminate |]. discriminate.
  - reflexivity.
  - apply (ci_bits _ _ _ _ _ CI).
  - apply (ci_timing _ _ _ _ _ CI).
  - intros St. pose proof (ci_segments _ _ _ _ _ CI) as [S0 [S1 _]]. apply Forall_cons; [exact (so_hard _ _ _ _ S0 St) |]. apply Forall_cons; [exact (so_hard _ _ _ _ S1 St) | constructor].
  - reflexivity.
  - apply (ci_descriptions _ _ _ _ _ CI).
  - apply (ci_names _ _ _ _ _ CI).
  - reflexivity.
Qed.
Definition ex_allocator (_ _ : N) (_ : channel) (n : N) : list N := repeat 0xCD (N.to_nat n).
Lemma ex_allocator_ok g i ch : allocator_ok (ex_allocator g i ch).
Proof. intros n. split; [apply Forall_forall; intros x H; apply repeat_spec in H; subst x; reflexivity |]. unfold blen, ex_allocator. rewrite repeat_length. apply N2Nat.id. Qed.
Example C43_example : exists m, compress_sources ex_allocator ex_junks ex_flags [97] ex_ttracks ex_error ex_rates ex_sources (ex_tclip false) = Ok m /\
  forall policies k, k < 6 -> exists c i0 f0 i1 f1, used ex_settings ex_blank m (map call_looping policies ++ [call_seek (fdiv (f_of_N k) (f_of_N 30)) rp_nearest]) = Ok c /\
    plays_sources (ex_tclip false) ex_rates ex_sources rp_nearest i0 f0 i1 f1 c.
Proof.
  destruct (C43_key_frames_come_back ex_allocator ex_junks ex_flags [97] ex_ttracks ex_error ex_rates ex_sources (ex_tclip false) (ex_sources_input false) ex_allocator_ok ex_junks_ok eq_refl) as (m & E & H).
  exists m. split; [exact E |]. intros policies k Hk. destruct (H ex_settings ex_blank policies k eq_refl Hk) as (c & i0 & f0 & i1 & f1 & U & P & _). exists c, i0, f0, i1, f1. auto.
Qed.
(** what the program computes: the animated rotation of bone 0 in key frame 2, in 7 bits, then in key frame 3, the
    first of the second segment; the source is 3/7, -2/10, 6/11 and 4/7, -3/10, 9/11: compare with the words of the sources below *)
Example C43_example_values : bindo (compress_sources ex_allocator ex_junks ex_flags [97] ex_ttracks ex_error ex_rates ex_sources (ex_tclip false))
    (fun m => bindo (seen_after m [call_seek (fdiv (f_of_N 2) (f_of_N 30)) rp_floor]) (fun r => Ok (fst r, filter (fun x => match x with (Rotation, 1, _) => true | _ => false end) (snd r)))) = Ok (0,
  [(Rotation, 1, ([1054567864; 3192704204; 1057727210], [1058162981; 3197737369; 1062286566]))]).
Proof. vm_compute. reflexivity. Qed.
Example C43_example_sources : map f_bits [ex_value 3 7; ScalarEnc.fneg (ex_value 2 10); ex_value 6 11; ex_value 4 7; ScalarEnc.fneg (ex_value 3 10); ex_value 9 11] =
  [1054567863; 3192704205; 1057727209; 1058162981; 3197737370; 1062302813].
Proof. vm_compute. reflexivity. Qed.
