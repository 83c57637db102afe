(** From the bytes of the writers in memory to the layout the decoder needs. *)
From Coq Require Import Lia.
From Verif Require Import Word WordFacts Pieces MemoryUtils MemoryFacts Float32 Quant Headers HeadersFacts Packing PackSpec PackingFacts SubTracks DbBuild
  TransDec TransSpec TransRing TransMem TransConst TransAnim TransAnim2 TransPose TransEnc TransEncSpec TransEncFacts TransEncAnim TransEncAnim2 TransEncBytes TransEncBytes2 TransEncBytes3 TransClipSpec TransClip.
Local Open Scope N_scope.
Ltac Zify.zify_post_hook ::= idtac.

Definition same_formats (f : formats) (c : tcontext) : Prop :=
  c_rotation_format c = fm_rotation f /\ c_translation_variable c = fm_translation f /\ c_scale_variable c = fm_scale f /\
  c_has_scale c = fm_has_scale f /\ c_has_segments c = fm_has_segments f.

Definition well_formed (l : list content) : Prop := Forall (fun c => forall ch, ct_default c ch = true -> ct_constant c ch = true) l.

Section Subs.
  Context (g0 k0 g1 k1 : N) (ch : channel).
  Lemma constants_subs out : constants (clip_subs out g0 k0 g1 k1 ch) = map (fun c => ct_words c ch) (ct_constants ch out).
  Proof.
    unfold constants, clip_subs, ct_constants. induction out as [| c out IH]; [reflexivity |]. cbn [map flat_map filter]. rewrite IH. unfold sub_of.
    destruct (ct_default c ch); cbn [negb andb]; [reflexivity |]. destruct (ct_constant c ch); reflexivity.
  Qed.
  Lemma animated_subs out : well_formed out -> animated (clip_subs out g0 k0 g1 k1 ch) =
    map (fun c => {| x0 := ct_sample c g0 k0 ch; x1 := ct_sample c g1 k1 ch; xclip := ct_clip c ch |}) (ct_animated ch out).
  Proof.
    unfold animated, clip_subs, ct_animated. induction 1 as [| c out Hc F IH]; [reflexivity |]. cbn [map flat_map filter]. rewrite IH. unfold sub_of.
    destruct (ct_default c ch) eqn:E; [rewrite (Hc ch E) |]; cbn [negb]; [reflexivity |]. destruct (ct_constant c ch); reflexivity.
  Qed.
  Lemma kinds_subs out : kinds (clip_subs out g0 k0 g1 k1 ch) = map (fun c => if ct_default c ch then 0 else if ct_constant c ch then 1 else 2) out.
  Proof.
    unfold kinds, clip_subs. rewrite map_map. apply map_ext. intros c. unfold sub_of. destruct (ct_default c ch), (ct_constant c ch); reflexivity.
  Qed.
End Subs.
Lemma held_well_formed f g n l out : Forall2 (bone_holds f g n) l out -> well_formed out.
Proof. intros H. eapply F2_right; [| exact H]. intros b c Hb. exact (bh_default_constant _ _ _ _ _ Hb). Qed.

Lemma held_stored f g n b c ch k : bone_holds f g n b c -> ct_constant c ch = false -> k < n ->
  if variable f ch then stored_ok (fm_has_segments f) (ct_sample c g k ch) else is_raw (components f ch) (ct_sample c g k ch).
Proof.
  intros Hb Hc Hk. pose proof (bh_sample _ _ _ _ _ Hb ch k Hc Hk) as [_ Hs]. pose proof (bh_variable _ _ _ _ _ Hb ch Hc) as Hv.
  pose proof (bh_packed _ _ _ _ _ Hb ch) as Hp. pose proof (bh_range_words _ _ _ _ _ Hb ch k) as Hr. pose proof (bh_one_segment _ _ _ _ _ Hb ch Hc) as H1.
  unfold is_bit_rate_variable, k_invalid_bit_rate in Hv. unfold stream_sample in Hs. rewrite <- Hv. destruct (N.eqb_spec (ts_rate (b_stream b ch)) 255) as [E | E]; cbn [negb].
  - destruct Hs as (S1 & S2 & _). split; [exact S1 |]. rewrite Hp in S2. unfold components in *. destruct ch; unfold rotation_components in *; [destruct (rotation_full (fm_rotation f)) |..]; exact S2.
  - split; [exact Hr |]. destruct (N.eqb_spec (ts_rate (b_stream b ch)) 0) as [E0 | E0].
    { left. destruct Hs as (S1 & S2 & _). split; [exact S1 |]. split; [| exact S2]. destruct (fm_has_segments f); [reflexivity |]. contradiction (H1 eq_refl E0). }
    right. destruct (N.eqb_spec (ts_rate (b_stream b ch)) 24) as [E24 | E24]; [right | left].
    + destruct Hs as (S1 & S2 & _). split; assumption.
    + destruct Hs as (S1 & _ & S2 & _). split; assumption.
Qed.
Lemma held_all_stored f g n l out ch k : Forall2 (bone_holds f g n) l out -> k < n ->
  if variable f ch then Forall (stored_ok (fm_has_segments f)) (samples out g k ch) else Forall (is_raw (components f ch)) (samples out g k ch).
Proof.
  intros H Hk. pose proof (held_animated f g n l out H ch) as F.
  assert (A : Forall (fun c => if variable f ch then stored_ok (fm_has_segments f) (ct_sample c g k ch) else is_raw (components f ch) (ct_sample c g k ch)) (ct_animated ch out)).
  { eapply F2_right; [| exact F]. intros b c [Hb Hc]. exact (held_stored f g n b c ch k Hb Hc Hk). }
  unfold samples. destruct (variable f ch); apply Forall_map; exact A.
Qed.

(** the bytes of a segment's formats and ranges *)
Definition segment_formats (f : formats) (out : list content) (g k : N) : list N :=
  when (variable f Rotation) (rotation_formats 9 (samples out g k Rotation)) ++ when (variable f Translation) (vector_formats 9 (samples out g k Translation)) ++
  when (variable f Scale) (vector_formats 9 (samples out g k Scale)).
Definition segment_ranges (f : formats) (out : list content) (g k : N) : list N :=
  when (variable f Rotation) (rotation_ranges (samples out g k Rotation)) ++ when (variable f Translation) (vector_ranges (samples out g k Translation)) ++
  when (variable f Scale) (vector_ranges (samples out g k Scale)).
Lemma format_code_latest v l : 9 <= v -> rotation_formats v l = rotation_formats 9 l /\ vector_formats v l = vector_formats 9 l.
Proof.
  intros Hv. assert (E : forall s, format_code v s = format_code 9 s). { intros s. unfold format_code. rewrite (proj2 (N.leb_le 9 v) Hv). reflexivity. }
  unfold rotation_formats, vector_formats. rewrite (map_ext _ _ E). split; reflexivity.
Qed.
Lemma held_key_frame f g n l out c kf k : Forall2 (bone_holds f g n) l out -> k < n -> same_formats f c -> 9 <= c_version c ->
  padded (c_mem c) (kf_format kf) (segment_formats f out g k) ->
  (fm_has_segments f = true -> padded (c_mem c) (kf_range kf) (segment_ranges f out g k)) ->
  stream (kf_data kf) (kf_offset kf) (key_frame_samples f out g k) ->
  kf_rotation_bits kf = stored_sizes (samples out g k Rotation) -> kf_translation_bits kf = stored_sizes (samples out g k Translation) ->
  key_frame_layout c kf (samples out g k Rotation) (samples out g k Translation) (samples out g k Scale).
Proof.
  intros H Hk (F1 & F2 & F3 & F4 & F5) Hv Pf Pr St B1 B2. unfold segment_formats, segment_ranges, variable in *.
  pose proof (held_all_stored f g n l out Rotation k H Hk) as A1. pose proof (held_all_stored f g n l out Translation k H Hk) as A2. pose proof (held_all_stored f g n l out Scale k H Hk) as A3.
  cbn [variable components] in A1, A2, A3.
  constructor; rewrite ?F1, ?F2, ?F3, ?F4, ?F5; try assumption.
  rewrite (proj1 (format_code_latest _ _ Hv)), !(proj2 (format_code_latest _ _ Hv)). exact Pf.
Qed.

(** the bytes of the clip *)
Definition clip_types (f : formats) (out : list content) : list N :=
  let k ch := map (fun c => if ct_default c ch then 0 else if ct_constant c ch then 1 else 2) out in
  word_bytes (write_packed_sub_track_types (k Rotation) ++ write_packed_sub_track_types (k Translation) ++ when (fm_has_scale f) (write_packed_sub_track_types (k Scale))).
Definition clip_constants (f : formats) (out : list content) : list N :=
  let w ch := map (fun c => ct_words c ch) (ct_constants ch out) in
  constant_layout (rotation_full (fm_rotation f)) (w Rotation) (w Translation) (w Scale).
Definition clip_ranges (f : formats) (out : list content) : list N :=
  let w ch := map (fun c => ct_clip c ch) (ct_animated ch out) in
  when (variable f Rotation) (rotation_clip_ranges (w Rotation)) ++ when (variable f Translation) (vector_clip_ranges (w Translation)) ++
  when (variable f Scale) (vector_clip_ranges (w Scale)).

(** a segment of the clip, as the decoder sees it from the context's key frame *)
Record key_frame_placed (f : formats) (out : list content) (c : tcontext) (kf : key_frame) (g k : N) : Prop := {
  kp_formats : padded (c_mem c) (kf_format kf) (segment_formats f out g k);
  kp_ranges : fm_has_segments f = true -> padded (c_mem c) (kf_range kf) (segment_ranges f out g k);
  kp_data : stream (kf_data kf) (kf_offset kf) (key_frame_samples f out g k);
  kp_rotations : kf_rotation_bits kf = stored_sizes (samples out g k Rotation);
  kp_translations : kf_translation_bits kf = stored_sizes (samples out g k Translation)
}.
Record clip_placed (f : formats) (out : list content) (c : tcontext) (g0 k0 g1 k1 : N) : Prop := {
  cp_formats : same_formats f c;
  cp_version : 9 <= c_version c;
  cp_num : c_num_tracks c = N.of_nat (length out);
  cp_small : c_num_tracks c + 16 < 2 ^ 32;
  cp_types : placed (c_mem c) (c_types c) (clip_types f out);
  cp_constants : padded (c_mem c) (c_constants c) (clip_constants f out);
  cp_clip : padded (c_mem c) (c_clip_range c) (clip_ranges f out);
  cp_const_r : c_num_const_rotations c = N.of_nat (length (ct_constants Rotation out));
  cp_const_t : c_num_const_translations c = N.of_nat (length (ct_constants Translation out));
  cp_anim_r : c_num_anim_rotations c = N.of_nat (length (ct_animated Rotation out));
  cp_anim_t : c_num_anim_translations c = N.of_nat (length (ct_animated Translation out));
  cp_anim_s : c_num_anim_scales c = N.of_nat (length (ct_animated Scale out));
  cp_kf0 : key_frame_placed f out c (c_kf0 c) g0 k0;
  cp_kf1 : key_frame_placed f out c (c_kf1 c) g1 k1;
  cp_single : c_single_segment c = true -> kf_range (c_kf1 c) = kf_range (c_kf0 c)
}.

Lemma clip_placed_layout f out c n0 n1 nz lz l0 l1 g0 k0 g1 k1 : clip_placed f out c g0 k0 g1 k1 ->
  Forall2 (bone_holds f 0 nz) lz out -> Forall2 (bone_holds f g0 n0) l0 out -> Forall2 (bone_holds f g1 n1) l1 out -> k0 < n0 -> k1 < n1 ->
  clip_layout c (clip_subs out g0 k0 g1 k1 Rotation) (clip_subs out g0 k0 g1 k1 Translation) (clip_subs out g0 k0 g1 k1 Scale).
Proof.
  intros P Hz H0 H1 Hk0 Hk1. pose proof (held_well_formed _ _ _ _ _ Hz) as W. destruct P as [P1 P2 P3 P4 P5 P6 P7 P8 P9 P10 P11 P12 [Q1 Q2 Q3 Q4 Q5] [R1 R2 R3 R4 R5] P15].
  assert (Fs := P1). destruct Fs as (F1 & F2 & F3 & F4 & F5).
  assert (X0 : forall ch, map x0 (animated (clip_subs out g0 k0 g1 k1 ch)) = samples out g0 k0 ch) by (intros ch; rewrite (animated_subs _ _ _ _ _ _ W), map_map; reflexivity).
  assert (X1 : forall ch, map x1 (animated (clip_subs out g0 k0 g1 k1 ch)) = samples out g1 k1 ch) by (intros ch; rewrite (animated_subs _ _ _ _ _ _ W), map_map; reflexivity).
  assert (XC : forall ch, map xclip (animated (clip_subs out g0 k0 g1 k1 ch)) = map (fun c => ct_clip c ch) (ct_animated ch out)) by (intros ch; rewrite (animated_subs _ _ _ _ _ _ W), map_map; reflexivity).
  assert (NA : forall ch, length (animated (clip_subs out g0 k0 g1 k1 ch)) = length (ct_animated ch out)) by (intros ch; rewrite (animated_subs _ _ _ _ _ _ W), map_length; reflexivity).
  constructor; rewrite ?X0, ?X1, ?XC, ?NA, ?constants_subs, ?kinds_subs, ?map_length; try assumption.
  - unfold clip_subs. rewrite map_length. symmetry. exact P3.
  - unfold clip_subs. rewrite map_length. symmetry. exact P3.
  - unfold clip_subs. rewrite map_length. symmetry. exact P3.
  - intros Hs. rewrite F4 in Hs. unfold clip_subs. apply Forall_map. eapply F2_right; [| exact Hz]. intros b c0 Hb. cbn. unfold sub_of. rewrite (bh_no_scale _ _ _ _ _ Hb Hs). reflexivity.
  - rewrite F4. exact P5.
  - rewrite F1. exact P6.
  - rewrite F1. apply Forall_map. eapply F2_right; [| apply (held_constant f 0 nz lz out Hz Rotation)]. intros b c0 (Hb & Hd & Hc). exact (proj1 (proj2 (proj2 (proj2 (bh_words _ _ _ _ _ Hb Rotation Hd Hc eq_refl))))).
  - apply Forall_map. eapply F2_right; [| apply (held_constant f 0 nz lz out Hz Translation)]. intros b c0 (Hb & Hd & Hc). exact (proj1 (proj2 (proj2 (proj2 (bh_words _ _ _ _ _ Hb Translation Hd Hc eq_refl))))).
  - apply Forall_map. eapply F2_right; [| apply (held_constant f 0 nz lz out Hz Scale)]. intros b c0 (Hb & Hd & Hc). exact (proj1 (proj2 (proj2 (proj2 (bh_words _ _ _ _ _ Hb Scale Hd Hc eq_refl))))).
  - rewrite F1, F2, F3. exact P7.
  - rewrite !Forall_app. assert (G : forall ch, Forall (in_words 32 6) (map (fun c => ct_clip c ch) (ct_animated ch out))); [| auto].
    intros ch. rewrite <- (proj2 (held_clip f 0 nz lz out Hz ch)). apply Forall_map. eapply Forall_impl; [| exact (proj1 (held_clip f 0 nz lz out Hz ch))]. intros b Hb. apply clip_words_ok, Hb.
  - apply (held_key_frame f g0 n0 l0); assumption.
  - apply (held_key_frame f g1 n1 l1); assumption.
Qed.

(** the writers write these bytes *)
Lemma write_constants_clip junk f n bones mapping l out : Forall2 (bone_holds f 0 n) l out -> mapped bones mapping l -> length junk = 4%nat ->
  write_constant_track_data junk (fm_rotation f) (fm_has_scale f) bones mapping = Ok (clip_constants f out).
Proof.
  intros H M J. unfold clip_constants. apply (write_constants_ok junk _ _ bones mapping l); try assumption.
  - apply (held_words f 0 n l out H Rotation eq_refl).
  - apply (held_words f 0 n l out H Translation eq_refl).
  - destruct (fm_has_scale f) eqn:E; [apply (held_words f 0 n l out H Scale eq_refl) |]. rewrite (proj2 (held_no_scale f 0 n l out H E)). reflexivity.
Qed.
Lemma write_clip_clip junk f n bones mapping l out b0 : Forall2 (bone_holds f 0 n) l out -> mapped bones mapping l -> length junk = 4%nat -> nth_error bones 0 = Some b0 ->
  (rotation_variable (fm_rotation f) = true -> ts_packed_size (b_stream b0 Rotation) <> 16) ->
  write_clip_range_data junk bones (fm_has_scale f) (variable f) mapping = Ok (clip_ranges f out).
Proof.
  intros H M J H0 Hf. rewrite (write_clip_ok junk bones (fm_has_scale f) mapping l (variable f) b0 M J H0 Hf (fun ch => proj1 (held_clip f 0 n l out H ch))).
  unfold clip_ranges. rewrite !(proj2 (held_clip f 0 n l out H _)). f_equal. f_equal. f_equal.
  destruct (fm_has_scale f) eqn:E; cbn [andb]; [reflexivity |]. rewrite (proj1 (held_no_scale f 0 n l out H E)). destruct (variable f Scale); reflexivity.
Qed.
Lemma write_formats_clip f g n k bones mapping l out : Forall2 (bone_holds f g n) l out -> mapped bones mapping l -> k < n ->
  write_format_per_track_data bones (fm_has_scale f) mapping = Ok (segment_formats f out g k).
Proof.
  intros H M Hk. apply (write_formats_ok bones _ mapping l (variable f) k 9); try assumption; try lia.
  - intros ch. apply (held_format f g n l out H).
  - apply (held_samples f g n l out H), Hk.
  - apply (held_samples f g n l out H), Hk.
  - apply (held_scale_samples f g n l out H), Hk.
Qed.
Lemma write_ranges_clip f g n k bones mapping l out : Forall2 (bone_holds f g n) l out -> mapped bones mapping l -> k < n -> fm_has_segments f = true ->
  write_segment_range_data bones (fm_has_scale f) (variable f) mapping = Ok (segment_ranges f out g k).
Proof.
  intros H M Hk Hs. apply (write_ranges_ok bones _ mapping l (variable f) k); try assumption.
  - intros ch. apply (held_format f g n l out H).
  - apply (held_samples f g n l out H), Hk.
  - apply (held_samples f g n l out H), Hk.
  - apply (held_scale_samples f g n l out H), Hk.
  - intros Hv. apply (held_ranges f g n l out H); assumption.
  - intros Hv. apply (held_ranges f g n l out H); assumption.
  - intros Hv _. apply (held_ranges f g n l out H); assumption.
Qed.
(** the key frames of a segment in its animated data: where they are, and what of the buffer is changed *)
Lemma write_animated_clip junk f g n p bones mapping l out kept dest : Forall2 (bone_holds f g n) l out -> mapped bones mapping l -> buffer_ok junk ->
  (forall k, k < n -> stored_sizes (key_frame_samples f out g k) = p) -> bytes_ok dest -> 8 * blen dest < 2 ^ 60 -> kept_before kept n * p <= 8 * blen dest ->
  exists d', write_animated_track_data junk bones (fm_has_scale f) mapping kept n dest = Ok (d', (kept_before kept n * p + 7) / 8) /\
    only_changed dest d' 0 (kept_before kept n * p) /\
    forall k, k < n -> kept k = true -> stored_at d' (kept_before kept k * p) (key_frame_samples f out g k).
Proof.
  intros H M J Hp Hd W L.
  assert (E : stored_sizes (concat (map (key_frame_samples f out g) (filter kept (sample_indices n)))) = kept_before kept n * p).
  { rewrite (sizes_concat _ p); [reflexivity |]. apply Forall_forall. intros j Hj. apply filter_In in Hj as [Hj _]. unfold sample_indices in Hj.
    apply in_map_iff in Hj as (i & <- & Hi). apply in_seq in Hi. apply Hp. lia. }
  assert (W60 : 2 ^ 60 + 7 < 2 ^ 64) by reflexivity.
  destruct (write_animated_ok junk bones (fm_has_scale f) mapping l kept n (key_frame_samples f out g) dest M J) as (d' & A & B & C); try assumption.
  - intros k Hk _. apply (held_frame f g n l out H), Hk.
  - lia.
  - rewrite E. exact L.
  - rewrite E. lia.
  - rewrite E in *. exists d'. split; [exact A |]. split; [exact B |]. intros k Hk Hkept.
    apply (frames_at (key_frame_samples f out g) kept n d' p k C Hp Hk Hkept).
Qed.
