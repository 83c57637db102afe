(** C39: decompression leaves the floating point environment as it found it. *)
From Coq Require Import NArith List Bool Lia.
From Verif Require Import Word Float32 Headers DbBuild ScalarDec SubTracks SubTracksFacts TransDec TransSpec TransRing TransMem TransConst TransPose TransPoseFacts TransSingle TransEnc TransFile TransSeek FpEnv.
Import ListNotations.
Local Open Scope N_scope.
Ltac Zify.zify_post_hook ::= idtac.

(** what the property talks about: every bit of the register but the six sticky flags (0-5): the exception mask, the rounding mode, ... *)
Definition same_controls (csr csr' : N) : Prop := forall i, 6 <= i -> N.testbit csr' i = N.testbit csr i.
(** flags an instruction can raise *)
Definition are_flags (raised : N) : Prop := raised < 2 ^ 6.

Lemma flags_high raised i : are_flags raised -> 6 <= i -> N.testbit raised i = false.
Proof.
  intros H Hi. destruct (N.eq_dec raised 0) as [-> | Z]; [apply N.bits_0 |]. apply N.bits_above_log2. apply N.lt_le_trans with 6; [| exact Hi]. apply N.log2_lt_pow2; [lia | exact H].
Qed.
Lemma flags_mask_bits i : N.testbit flags_mask i = (i <? 6).
Proof.
  change flags_mask with (N.ones 6). destruct (N.ltb_spec i 6); [apply N.ones_spec_low | apply N.ones_spec_high]; lia.
Qed.
Lemma mask_mask_bits i : N.testbit mask_mask i = (7 <=? i) && (i <? 13).
Proof.
  change mask_mask with (N.shiftl (N.ones 6) 7). destruct (N.leb_spec 7 i); cbn [andb].
  - rewrite N.shiftl_spec_high' by lia. destruct (N.ltb_spec i 13); [apply N.ones_spec_low | apply N.ones_spec_high]; lia.
  - apply N.shiftl_spec_low. lia.
Qed.
Lemma masked_no_trap csr raised : are_flags raised -> traps (N.lor (N.ldiff csr mask_mask) mask_mask) raised = false.
Proof.
  intros R. unfold traps. replace (N.ldiff raised (N.shiftr (N.lor (N.ldiff csr mask_mask) mask_mask) 7)) with 0; [reflexivity |].
  symmetry. apply N.bits_inj. intros i. rewrite N.bits_0, N.ldiff_spec, N.shiftr_spec, N.lor_spec, mask_mask_bits by lia.
  destruct (N.ltb_spec i 6) as [L | L]; [| rewrite flags_high by assumption; reflexivity].
  replace (7 <=? i + 7) with true by (symmetry; apply N.leb_le; lia). replace (i + 7 <? 13) with true by (symmetry; apply N.ltb_lt; lia).
  cbn [andb]. rewrite orb_true_r. apply andb_false_r.
Qed.
(** what the guard leaves: exactly the register with its flags cleared *)
Lemma guarded_restores {A} (work : outcome A) raised csr v : are_flags raised -> work = Ok v ->
  guarded true work raised csr true = Ok (v, N.ldiff csr flags_mask).
Proof.
  intros R ->. unfold guarded, disable_fp_exceptions, set_exception_mask. cbn [bindo]. unfold raise. rewrite (masked_no_trap csr raised R). cbn [bindo andb].
  f_equal. f_equal. unfold restore_fp_exceptions, set_exception_mask, set_exception_state, get_exception_mask.
  apply N.bits_inj. intros i. repeat (rewrite ?N.lor_spec, ?N.ldiff_spec, ?N.land_spec). rewrite mask_mask_bits, flags_mask_bits, N.bits_0.
  destruct (N.ltb_spec i 6) as [L | L]; [| rewrite (flags_high raised i R L)];
    destruct (N.leb_spec 7 i), (N.ltb_spec i 13); try lia; destruct (N.testbit csr i); cbn [andb orb negb]; rewrite ?andb_false_r; reflexivity.
Qed.
Lemma guarded_leaks {A} (work : outcome A) raised csr v : are_flags raised -> work = Ok v ->
  guarded true work raised csr false = Ok (v, N.lor (N.lor csr mask_mask) raised).
Proof.
  intros R ->. unfold guarded, disable_fp_exceptions, set_exception_mask. cbn [bindo]. unfold raise. rewrite (masked_no_trap csr raised R). cbn [bindo andb].
  f_equal. f_equal. f_equal. apply N.bits_inj. intros i. rewrite !N.lor_spec, N.ldiff_spec. destruct (N.testbit mask_mask i), (N.testbit csr i); reflexivity.
Qed.
Lemma cleared_controls csr : same_controls csr (N.ldiff csr flags_mask).
Proof. intros i Hi. rewrite N.ldiff_spec, flags_mask_bits. replace (i <? 6) with false by (symmetry; apply N.ltb_ge; lia). apply andb_true_r. Qed.
Lemma same_refl csr : same_controls csr csr. Proof. intros i _. reflexivity. Qed.

(** Decompressing every track of a scalar clip: whatever the call is handed, and whatever exceptions its arithmetic raises, it
    does not trap, it writes what it writes without the guard, and it leaves the exception mask and the other controls alone. *)
Theorem C39_scalar_tracks : forall ds c w raised csr values, are_flags raised -> ScalarDec.decompress_tracks ds c w = Ok values ->
  exists csr', scalar_tracks_fp true ds c w raised csr = Ok (values, csr') /\ same_controls csr csr'.
Proof.
  intros ds c w raised csr values R H. pose proof H as H'. unfold ScalarDec.decompress_tracks in H'. unfold scalar_tracks_fp.
  destruct (h_num_tracks (d_tracks c)) as [n | |]; try discriminate. cbn [bindo] in *. destruct (n =? 0).
  { injection H' as <-. exists csr. split; [reflexivity | apply same_refl]. }
  destruct (flt (d_time c) f_zero). { injection H' as <-. exists csr. split; [reflexivity | apply same_refl]. }
  eexists. split; [apply guarded_restores; eassumption | apply cleared_controls].
Qed.
Print Assumptions C39_scalar_tracks.
Theorem C39_scalar_track : forall ds c i w raised csr values, are_flags raised -> ScalarDec.decompress_track ds c i w = Ok values ->
  exists csr', scalar_track_fp true ds c i w raised csr = Ok (values, csr') /\ same_controls csr csr'.
Proof.
  intros ds c i w raised csr values R H. pose proof H as H'. unfold ScalarDec.decompress_track in H'. unfold scalar_track_fp.
  destruct (h_num_tracks (d_tracks c)) as [n | |]; try discriminate. cbn [bindo] in *. destruct (n =? 0).
  { injection H' as <-. exists csr. split; [reflexivity | apply same_refl]. }
  destruct (flt (d_time c) f_zero). { injection H' as <-. exists csr. split; [reflexivity | apply same_refl]. }
  destruct (n <=? i). { injection H' as <-. exists csr. split; [reflexivity | apply same_refl]. }
  eexists. split; [apply guarded_restores; eassumption | apply cleared_controls].
Qed.
Print Assumptions C39_scalar_track.

(** The same for every track of a transform clip. *)
Theorem C39_transform_tracks : forall w c raised csr events, are_flags raised -> play_tracks w c = Ok events ->
  exists csr', transform_tracks_fp true w c raised csr = Ok (events, csr') /\ same_controls csr csr'.
Proof.
  intros w c raised csr events R H. pose proof H as H'. unfold play_tracks in H'. unfold transform_tracks_fp.
  destruct (h_num_tracks (x_tracks c)) as [n | |]; try discriminate. cbn [bindo] in *. destruct (n =? 0).
  { injection H' as <-. exists csr. split; [reflexivity | apply same_refl]. }
  destruct (flt (x_time c) f_zero). { injection H' as <-. exists csr. split; [reflexivity | apply same_refl]. }
  eexists. split; [apply guarded_restores; eassumption | apply cleared_controls].
Qed.
Print Assumptions C39_transform_tracks.

(** the three sub-tracks of a track are all default *)
Definition all_default (r t s : list sub) (i : N) : Prop := forall ch, nth_error (subs r t s ch) (N.to_nat i) = Some SDefault.

Lemma combined_ok c r t s i xr xt xs : clip_layout c r t s -> nth_error r (N.to_nat i) = Some xr -> nth_error t (N.to_nat i) = Some xt ->
  nth_error s (N.to_nat i) = Some xs -> combined_type c i = Ok (N.lor (N.lor (kind xr) (kind xt)) (kind xs)).
Proof.
  intros H Xr Xt Xs. unfold combined_type.
  pose proof (cl_num_r _ _ _ _ H) as Nr. pose proof (cl_num_t _ _ _ _ H) as Nt. pose proof (cl_num_s _ _ _ _ H) as Ns.
  cbv zeta. set (n := num_sub_track_entries (c_num_tracks c)).
  assert (Hr : N.of_nat (length (entries_of r)) = n) by (rewrite entries_length, Nr; reflexivity).
  assert (Ht : N.of_nat (length (entries_of t)) = n) by (rewrite entries_length, Nt; reflexivity).
  assert (Hs : N.of_nat (length (entries_of s)) = n) by (rewrite entries_length, Ns; reflexivity).
  pose proof (cl_types _ _ _ _ H) as T. fold (entries_of r) (entries_of t) (entries_of s) in T.
  unfold word_bytes in T. rewrite !map_app, !concat_app in T. fold (word_bytes (entries_of r)) (word_bytes (entries_of t)) in T.
  apply placed_app in T as [T1 T2]. apply placed_app in T2 as [T2 T3]. rewrite !word_bytes_blen, Hr in T2. rewrite !word_bytes_blen, Hr, Ht in T3.
  replace (c_types c + 4 * (0 * n)) with (c_types c) by lia. replace (c_types c + 4 * (1 * n)) with (c_types c + 4 * n) by lia.
  assert (Rr : read_entries (N.to_nat n) (c_mem c) (c_types c) = Ok (entries_of r)).
  { rewrite <- Hr, Nnat.Nat2N.id. apply read_entries_ok; [apply entries_words | exact T1]. }
  assert (Rt : read_entries (N.to_nat n) (c_mem c) (c_types c + 4 * n) = Ok (entries_of t)).
  { rewrite <- Ht at 1. rewrite Nnat.Nat2N.id. apply read_entries_ok; [apply entries_words | exact T2]. }
  assert (Rs : read_entries (N.to_nat n) (c_mem c) (c_types c + 4 * ((if c_has_scale c then 2 else 0) * n)) = Ok (if c_has_scale c then entries_of s else entries_of r)).
  { destruct (c_has_scale c).
    - replace (c_types c + 4 * (2 * n)) with (c_types c + 4 * n + 4 * n) by lia. rewrite <- Hs at 1. rewrite Nnat.Nat2N.id. apply read_entries_ok; [apply entries_words | exact T3].
    - replace (c_types c + 4 * (0 * n)) with (c_types c) by lia. exact Rr. }
  rewrite Rr. cbn [bindo]. rewrite (type_ok r i xr Xr). cbn [bindo]. rewrite Rt. cbn [bindo]. rewrite (type_ok t i xt Xt). cbn [bindo]. rewrite Rs. cbn [bindo].
  destruct (c_has_scale c) eqn:Hsc.
  - rewrite (type_ok s i xs Xs). reflexivity.
  - rewrite (type_ok r i xr Xr). cbn [bindo]. pose proof (cl_no_scale _ _ _ _ H Hsc) as Fs. rewrite Forall_forall in Fs.
    rewrite (Fs xs) by (apply nth_error_In in Xs; exact Xs). reflexivity.
Qed.
Lemma kind_zero x : kind x = 0 <-> x = SDefault.
Proof. destruct x; cbn; split; congruence. Qed.

(** Decompressing one track of a transform clip: the same, unless its three sub-tracks are all default. *)
Theorem C39_transform_track : forall w c t r tr s i raised csr, are_flags raised ->
  h_num_tracks (x_tracks c) = Ok (c_num_tracks t) -> tcontext_of c = Ok t -> clip_layout t r tr s ->
  ~ all_default r tr s i -> exists events csr', play_track w c i = Ok events /\
  transform_track_fp true w c i raised csr = Ok (events, csr') /\ same_controls csr csr'.
Proof.
  intros w c t r tr s i raised csr R Hn Ht L D. unfold play_track, transform_track_fp. rewrite Hn. cbn [bindo]. destruct (_ =? 0).
  { eexists _, csr. split; [reflexivity |]. split; [reflexivity | apply same_refl]. }
  destruct (flt (x_time c) f_zero). { eexists _, csr. split; [reflexivity |]. split; [reflexivity | apply same_refl]. }
  destruct (N.leb_spec (c_num_tracks t) i) as [G | G]. { eexists _, csr. split; [reflexivity |]. split; [reflexivity | apply same_refl]. }
  rewrite Ht. cbn [bindo]. destruct (decompress_track_written w t r tr s i L G) as (events & E & _). rewrite E.
  assert (Z : forall l, N.of_nat (length l) = c_num_tracks t -> exists x : sub, nth_error l (N.to_nat i) = Some x).
  { intros l Hl. destruct (nth_error l (N.to_nat i)) as [x |] eqn:X; [exists x; reflexivity |]. apply nth_error_None in X. lia. }
  destruct (Z r (cl_num_r _ _ _ _ L)) as [xr Xr]. destruct (Z tr (cl_num_t _ _ _ _ L)) as [xt Xt]. destruct (Z s (cl_num_s _ _ _ _ L)) as [xs Xs].
  rewrite (combined_ok t r tr s i xr xt xs L Xr Xt Xs). cbn [bindo]. 
  assert (K : (N.lor (N.lor (kind xr) (kind xt)) (kind xs) =? 0) = false).
  { apply N.eqb_neq. intros Q. apply N.lor_eq_0_iff in Q as [Q Q3]. apply N.lor_eq_0_iff in Q as [Q1 Q2]. apply kind_zero in Q1, Q2, Q3. subst.
    apply D. intros ch. destruct ch; assumption. }
  rewrite K. cbn [negb]. eexists _, _. split; [reflexivity |]. split; [apply guarded_restores; [exact R | reflexivity] | apply cleared_controls].
Qed.
Print Assumptions C39_transform_track.

(** For a track whose three sub-tracks are all default the call returns with every exception silenced, whatever the mask was. *)
Theorem C39_all_default_refuted : forall w c t r tr s i raised csr, are_flags raised ->
  h_num_tracks (x_tracks c) = Ok (c_num_tracks t) -> tcontext_of c = Ok t -> clip_layout t r tr s -> flt (x_time c) f_zero = false ->
  i < c_num_tracks t -> all_default r tr s i ->
  exists events csr', play_track w c i = Ok events /\ transform_track_fp true w c i raised csr = Ok (events, csr') /\
  (forall b, 7 <= b < 13 -> N.testbit csr' b = true) /\ (same_controls csr csr' <-> forall b, 7 <= b < 13 -> N.testbit csr b = true).
Proof.
  intros w c t r tr s i raised csr R Hn Ht L T G D. unfold play_track, transform_track_fp. rewrite Hn, T. cbn [bindo].
  replace (c_num_tracks t =? 0) with false by (symmetry; apply N.eqb_neq; lia). replace (c_num_tracks t <=? i) with false by (symmetry; apply N.leb_gt; exact G).
  rewrite Ht. cbn [bindo]. destruct (decompress_track_written w t r tr s i L G) as (events & E & _). rewrite E.
  rewrite (combined_ok t r tr s i SDefault SDefault SDefault L (D Rotation) (D Translation) (D Scale)). cbn [bindo kind]. change (N.lor (N.lor 0 0) 0 =? 0) with true. cbn [negb].
  eexists _, _. split; [reflexivity |]. split; [apply guarded_leaks; [exact R | reflexivity] |].
  assert (M : forall b, 7 <= b < 13 -> N.testbit mask_mask b = true).
  { intros b Hb. rewrite mask_mask_bits. apply andb_true_iff. split; [apply N.leb_le | apply N.ltb_lt]; lia. }
  split. { intros b Hb. rewrite !N.lor_spec, (M b Hb), orb_true_r. reflexivity. }
  split.
  - intros S b Hb. rewrite <- (S b) by lia. rewrite !N.lor_spec, (M b Hb), orb_true_r. reflexivity.
  - intros S b Hb. rewrite !N.lor_spec, (flags_high raised b R Hb), orb_false_r. rewrite mask_mask_bits.
    destruct (N.leb_spec 7 b); [| apply orb_false_r]. destruct (N.ltb_spec b 13); [| apply orb_false_r]. rewrite (S b) by lia. reflexivity.
Qed.
Print Assumptions C39_all_default_refuted.

(** a history of decompression calls of any number of clips *)
Inductive fp_call :=
  | scalar_tracks_call (ds : dsettings) (c : dcontext) (w : writer)
  | scalar_track_call (ds : dsettings) (c : dcontext) (i : N) (w : writer)
  | transform_tracks_call (w : twriter) (c : pcontext)
  | transform_track_call (w : twriter) (c : pcontext) (i : N).
(** the register after a call that raises the flags [raised] *)
Definition after_call (k : fp_call) (raised csr : N) : outcome N :=
  match k with
  | scalar_tracks_call ds c w => bindo (scalar_tracks_fp true ds c w raised csr) (fun x => Ok (snd x))
  | scalar_track_call ds c i w => bindo (scalar_track_fp true ds c i w raised csr) (fun x => Ok (snd x))
  | transform_tracks_call w c => bindo (transform_tracks_fp true w c raised csr) (fun x => Ok (snd x))
  | transform_track_call w c i => bindo (transform_track_fp true w c i raised csr) (fun x => Ok (snd x))
  end.
Fixpoint after_calls (ks : list (fp_call * N)) (csr : N) : outcome N :=
  match ks with [] => Ok csr | (k, raised) :: ks => bindo (after_call k raised csr) (fun csr => after_calls ks csr) end.
(** the calls succeed, and none of them is for a track of a transform clip all of whose sub-tracks are default *)
Definition harmless (k : fp_call) : Prop :=
  match k with
  | scalar_tracks_call ds c w => exists v, ScalarDec.decompress_tracks ds c w = Ok v
  | scalar_track_call ds c i w => exists v, ScalarDec.decompress_track ds c i w = Ok v
  | transform_tracks_call w c => exists v, play_tracks w c = Ok v
  | transform_track_call w c i => exists t r tr s, h_num_tracks (x_tracks c) = Ok (c_num_tracks t) /\ tcontext_of c = Ok t /\ clip_layout t r tr s /\ ~ all_default r tr s i
  end.
Theorem C39_history : forall ks csr, Forall (fun k => harmless (fst k) /\ are_flags (snd k)) ks ->
  exists csr', after_calls ks csr = Ok csr' /\ same_controls csr csr'.
Proof.
  induction ks as [| [k raised] ks IH]; intros csr F; cbn [after_calls]. { exists csr. split; [reflexivity | apply same_refl]. }
  inversion F as [| ? ? [H R] F']; subst. cbn [fst snd] in *.
  assert (A : exists csr1, after_call k raised csr = Ok csr1 /\ same_controls csr csr1).
  { destruct k as [ds c w | ds c i w | w c | w c i]; cbn [harmless after_call] in *.
    - destruct H as [v H]. destruct (C39_scalar_tracks ds c w raised csr v R H) as (c1 & E & S). exists c1. rewrite E. split; [reflexivity | exact S].
    - destruct H as [v H]. destruct (C39_scalar_track ds c i w raised csr v R H) as (c1 & E & S). exists c1. rewrite E. split; [reflexivity | exact S].
    - destruct H as [v H]. destruct (C39_transform_tracks w c raised csr v R H) as (c1 & E & S). exists c1. rewrite E. split; [reflexivity | exact S].
    - destruct H as (t & r & tr & s & Hn & Ht & L & D). destruct (C39_transform_track w c t r tr s i raised csr R Hn Ht L D) as (v & c1 & _ & E & S). exists c1. rewrite E. split; [reflexivity | exact S]. }
  destruct A as (c1 & E & S). rewrite E. cbn [bindo]. destruct (IH c1 F') as (c2 & E2 & S2). exists c2. split; [exact E2 |]. intros b Hb. rewrite S2, S by exact Hb. reflexivity.
Qed.
Print Assumptions C39_history.

(** Compression (compress_track_list, convert_track_list, pre_process_track_list) runs in a scope whose end restores the environment. *)
Theorem C39_compression : forall (A : Type) (work : outcome A) raised csr v, are_flags raised -> work = Ok v ->
  exists csr', scoped_disable work raised csr = Ok (v, csr') /\ same_controls csr csr'.
Proof. intros A work raised csr v R H. eexists. split; [apply guarded_restores; eassumption | apply cleared_controls]. Qed.
Print Assumptions C39_compression.

(** The sticky flags are not part of what is restored: those that the caller had, and those of the call, are lost. *)
Theorem C39_flags_refuted : forall w c n raised csr events, are_flags raised -> play_tracks w c = Ok events ->
  h_num_tracks (x_tracks c) = Ok n -> n <> 0 -> flt (x_time c) f_zero = false ->
  exists csr', transform_tracks_fp true w c raised csr = Ok (events, csr') /\ forall b, b < 6 -> N.testbit csr' b = false.
Proof.
  intros w c n raised csr events R H Hn Hz T. unfold play_tracks in H. unfold transform_tracks_fp. rewrite Hn, T in *. cbn [bindo] in *.
  replace (n =? 0) with false in * by (symmetry; apply N.eqb_neq; exact Hz). eexists. split; [apply guarded_restores; eassumption |].
  intros b Hb. rewrite N.ldiff_spec, flags_mask_bits. replace (b <? 6) with true by (symmetry; apply N.ltb_lt; exact Hb). apply andb_false_r.
Qed.
Print Assumptions C39_flags_refuted.

(** Not vacuous: a clip of two tracks, the second with a constant translation.  Its context satisfies the hypotheses of
    C39_transform_track for the second track and of C39_all_default_refuted for the first. *)
Definition example_words (l : list N) : list N := concat (map (le_bytes 4) l).
Definition example_clip : list N :=
  example_words [200; 0; 0xAC11AC11; 10; 2; 3; 0x41F00000; 0]
  ++ example_words [1; 0; 0; 0; 0; 0; 1; 0; 0; 0; 52; 60; 72]
  ++ example_words (write_packed_sub_track_types [0; 0] ++ write_packed_sub_track_types [0; 1])
  ++ example_words [1065353216; 1073741824; 1077936128] ++ repeat 0 32.
Definition example_key_frame : key_frame :=
  {| kf_format := 104; kf_range := 104; kf_data := repeat 0 32; kf_offset := 0; kf_rotation_bits := 0; kf_translation_bits := 0 |}.
Definition example_context : pcontext :=
  {| x_tracks := example_clip; x_db := None; x_hash := 0; x_db_hash := 0; x_duration := f_one; x_time := f_one; x_alpha := f_zero;
     x_rotation := quatf_drop_w_variable; x_translation := true; x_scale := true; x_has_scale := false; x_has_segments := false;
     x_looping := Interp.lp_clamp; x_rounding := Interp.rp_none; x_single := true; x_kf0 := example_key_frame; x_kf1 := example_key_frame |}.
Definition example_constant : list N := [1065353216; 1073741824; 1077936128].
Lemma placed_self a l b : placed (a ++ l ++ b) (blen a) l.
Proof. intros k x Hx. unfold blen. rewrite Nnat.Nat2N.id, nth_error_app2 by lia. replace (length a + k - length a)%nat with k by lia. rewrite nth_error_app1; [exact Hx | apply nth_error_Some; congruence]. Qed.
Lemma placed_nil m off : placed m off []. Proof. intros k x Hx. destruct k; discriminate Hx. Qed.
Example C39_example : exists t, tcontext_of example_context = Ok t /\ h_num_tracks (x_tracks example_context) = Ok (c_num_tracks t) /\ c_num_tracks t = 2 /\
  flt (x_time example_context) f_zero = false /\ clip_layout t [SDefault; SDefault] [SDefault; SConst example_constant] [SDefault; SDefault] /\
  all_default [SDefault; SDefault] [SDefault; SConst example_constant] [SDefault; SDefault] 0 /\
  ~ all_default [SDefault; SDefault] [SDefault; SConst example_constant] [SDefault; SDefault] 1 /\ are_flags 0x21.
Proof.
  eexists. split; [vm_compute; reflexivity |]. split; [vm_compute; reflexivity |]. split; [reflexivity |]. split; [vm_compute; reflexivity |].
  split; [| split; [intros ch; destruct ch; reflexivity | split; [intros A; specialize (A Translation); discriminate A | vm_compute; reflexivity]]].
  assert (K : forall c, c_rotation_format c = quatf_drop_w_variable -> c_translation_variable c = true -> c_scale_variable c = true -> c_has_segments c = false ->
    (blen (c_mem c) = 136) -> key_frame_layout c example_key_frame [] [] []).
  { intros c E1 E2 E3 E4 L. constructor; rewrite ?E1, ?E2, ?E3, ?E4; try reflexivity.
    - split; [apply placed_nil |]. rewrite L. vm_compute. discriminate.
    - intros X. discriminate X.
    - constructor; [apply Forall_forall; intros b Hb; change (In b (repeat 0 32)) in Hb; apply repeat_spec in Hb; subst b; reflexivity | exact I | reflexivity |].
      vm_compute. discriminate.
    - constructor.
    - constructor.
    - constructor. }
  constructor; cbn [c_num_tracks c_has_scale c_mem c_types c_constants c_clip_range c_num_const_rotations c_num_const_translations c_num_anim_rotations
    c_num_anim_translations c_num_anim_scales c_rotation_format c_translation_variable c_scale_variable c_has_segments c_kf0 c_kf1 c_single_segment].
  all: try reflexivity; try (apply K; reflexivity).
  - intros _. repeat constructor.
  - match goal with |- placed ?m _ ?l => change (placed (firstn 84 m ++ l ++ skipn 92 m) (blen (firstn 84 m)) l) end. apply placed_self.
  - split; [| vm_compute; discriminate]. 
    match goal with |- placed ?m _ ?l => change (placed (firstn 92 m ++ l ++ skipn 104 m) (blen (firstn 92 m)) l) end. apply placed_self.
  - constructor.
  - repeat constructor.
  - constructor.
  - split; [apply placed_nil | vm_compute; discriminate].
  - constructor.
Qed.
