(** C34-C36, C40-C42 and the transform half of C27: transform clips, from quantized streams to the compressed buffer and back.
    Model: TransEnc.v, TransFile.v, TransMeta.v (compression), TransSeek.v, TransDec.v (decompression).
    Vocabulary: [clip_input] (what is compressed), [used] (a context is initialized and used), [in_effect], [plays] in TransTop.v;
    [legal] too; [sought], [chosen], [pose_shown], [track_shown] in TransPlaySpec.v; [decoded] in TransSpec.v. *)
From Coq Require Import Lia Reals Lra.
From Verif Require Import Word Float32 Float32Facts Quant Interp InterpFacts Headers PackSpec Packing DbBuild ScalarDec ScalarExamples TransMeta TransMetaSpec TransDec TransSpec TransRing TransMem TransEnc TransEncSpec TransEncFacts TransEncAnim TransEncAnim2 TransEncBytes TransEncBytes2 TransEncBytes3
  TransClipSpec TransFile TransFileSizes TransFileFacts TransFilePack TransFilePlay TransFilePlay3 Strip Segment SeekSpec ScalarPlay TransSeek TransPlaySpec TransTop TransHist TransExample Prop_Float.
Import ListNotations.
Local Open Scope N_scope.
Ltac Zify.zify_post_hook ::= idtac.

(** * C41 *)
(** Compression succeeds whatever the local buffers hold at first; then, whatever the context was used for before, seeking a time
    finds the key frames on both sides of it (C09-C16), and decompress_tracks and decompress_track hand the writer, once each, every
    sub-track of every output track as it is in the streams at these key frames. *)
Theorem C41_compress_and_play : forall j f list_name tracks error p out, clip_input list_name tracks error p out -> junks_ok j ->
  exists m, compress_transforms j f list_name tracks error p = Ok m /\
  forall ds c0 policies t rp, legal ds p (call_seek t rp) ->
    let lp := in_effect ds p policies in
    exists c k0 k1 al i0 f0 i1 f1, used ds c0 m (map call_looping policies ++ [call_seek t rp]) = Ok c /\
      find_linear_interpolation_samples_with_sample_rate (p_num_samples p) (p_sample_rate p) (sought ds (clip_finite_duration (p_num_samples p) (p_sample_rate p) lp) t) rp lp = Ok (k0, k1, al) /\
      chosen p k0 k1 al i0 f0 i1 f1 (x_alpha c) /\ plays p out rp i0 f0 i1 f1 c.
Proof.
  intros j f list_name tracks error p out I J. destruct (compress_made j f list_name tracks error p out I J) as (m & E & M). exists m. split; [exact E |].
  exact (made_plays p out m M).
Qed.
Print Assumptions C41_compress_and_play.

(** At the time of a key frame, rounding to the nearest one, an unstripped clip shows that key frame: it is the first one and alpha is
    zero, or it is the second one and alpha is one. *)
Theorem C41_key_frames : forall j f list_name tracks error p out, clip_input list_name tracks error p out -> junks_ok j -> p_stripped p = false ->
  exists m, compress_transforms j f list_name tracks error p = Ok m /\
  forall ds c0 policies k, clamp_sample_time ds = true -> k < p_num_samples p ->
    exists c i0 f0 i1 f1, used ds c0 m (map call_looping policies ++ [call_seek (fdiv (f_of_N k) (p_sample_rate p)) rp_nearest]) = Ok c /\
      plays p out rp_nearest i0 f0 i1 f1 c /\
      ((exists g, in_segment p k i0 g f0) /\ FR (x_alpha c) = 0%R \/ (exists g, in_segment p k i1 g f1) /\ FR (x_alpha c) = 1%R).
Proof.
  intros j f list_name tracks error p out I J St. destruct (C41_compress_and_play j f list_name tracks error p out I J) as (m & E & H). exists m. split; [exact E |].
  intros ds c0 policies k Cl Hk. pose proof (ci_timing _ _ _ _ _ I) as T.
  destruct (H ds c0 policies (fdiv (f_of_N k) (p_sample_rate p)) rp_nearest (or_introl Cl)) as (c & k0 & k1 & al & i0 & f0 & i1 & f1 & U & EF & CH & PL).
  exists c, i0, f0, i1, f1. split; [exact U |]. split; [exact PL |].
  destruct (C10_key_frame_time_selects_key_frame (p_num_samples p) (p_sample_rate p) (in_effect ds p policies) k (ti_samples _ T) (ti_rate _ T) (ti_sane _ T) Hk) as (j0 & j1 & a & S & FA & S2).
  unfold seek_key_frames in S. unfold sought in EF. rewrite Cl, S in EF. injection EF as -> -> ->.
  destruct CH as (g0 & h0 & g1 & h1 & I0 & I1 & _ & _ & C). rewrite St in C. destruct C as (-> & -> & ->). destruct S2 as [[-> A] | [-> A]]; [left | right]; eauto.
Qed.
Print Assumptions C41_key_frames.

(** * C42: memory safety of transform playback *)
(** Any history of seek, set_looping_policy and relocated calls is defined (every load is in the buffer), for every time, NaN included when times are
    clamped; then decompress_tracks and decompress_track are defined for every writer and every index, and show nothing before the
    first seek, and otherwise the key frames around a time. *)
Theorem C42_transform_playback_stays_in_the_buffer : forall j f list_name tracks error p out, clip_input list_name tracks error p out -> junks_ok j ->
  exists m, compress_transforms j f list_name tracks error p = Ok m /\
  forall ds c0 l, Forall (legal ds p) l ->
    exists c, used ds c0 m l = Ok c /\
      ((forall w, play_tracks w c = Ok [] /\ forall i, play_track w c i = Ok []) \/
       exists lp rp time k0 k1 al i0 f0 i1 f1,
         find_linear_interpolation_samples_with_sample_rate (p_num_samples p) (p_sample_rate p) time rp lp = Ok (k0, k1, al) /\
         chosen p k0 k1 al i0 f0 i1 f1 (x_alpha c) /\ plays p out rp i0 f0 i1 f1 c).
Proof.
  intros j f list_name tracks error p out I J. destruct (compress_made j f list_name tracks error p out I J) as (m & E & M). exists m. split; [exact E |].
  exact (made_history p out m M).
Qed.
Print Assumptions C42_transform_playback_stays_in_the_buffer.

(** * C27 for transform clips *)
(** Seeks and relocations in place do not matter: the next seek leaves the same context as if they had not happened, whatever the
    context was used for before it was initialized. *)
Theorem C27_transform_seeks_do_not_matter : forall j f list_name tracks error p out, clip_input list_name tracks error p out -> junks_ok j ->
  exists m, compress_transforms j f list_name tracks error p = Ok m /\
  forall ds c0 c0' policies l t rp, clamp_sample_time ds = true -> Forall (fun x => match x with call_looping _ => False | _ => True end) l ->
    exists c, used ds c0 m (map call_looping policies ++ l ++ [call_seek t rp]) = Ok c /\ used ds c0' m (map call_looping policies ++ [call_seek t rp]) = Ok c.
Proof.
  intros j f list_name tracks error p out I J. destruct (compress_made j f list_name tracks error p out I J) as (m & E & M). exists m. split; [exact E |].
  intros ds c0 c0' policies l t rp Cl NL.
  assert (LG : forall x, legal ds p x) by (intros [t' rp' | |]; [left; exact Cl | exact Logic.I | exact Logic.I]).
  destruct (open_ok p out m ds M c0) as (ca & E1 & O1 & T1 & L1). destruct (open_ok p out m ds M c0') as (ca' & E1' & O1' & T1' & L1').
  destruct (loopings_to p out m ds policies M ca O1 T1) as (cb & E2 & O2 & T2 & L2). destruct (loopings_to p out m ds policies M ca' O1' T1') as (cb' & E2' & O2' & T2' & L2').
  destruct (calls_ok p out m ds M l cb O2 (not_sought _ _ _ _ _ T2)) as (cc & E3 & O3 & _). { apply Forall_forall. intros x _. apply LG. }
  assert (SB : same_clip cb' cb).
  { destruct O2, O2'. assert (X : x_looping cb = x_looping cb') by congruence. assert (Y : x_hash cb = x_hash cb') by congruence. repeat split; congruence. }
  destruct (calls_settled ds m l cb' cb cc NL (op_tracks _ _ _ _ O2') (op_db _ _ _ _ O2') SB (or_introl T2) E3) as [SC St].
  destruct (final_seek p out m ds M cb' t rp O2' T2' (LG _)) as (c' & E4' & _).
  pose proof M as (g0 & rest & b0 & prefix & K & B & NE & Ti & P & Se).
  assert (TO : time_ok ds (x_duration cc) t) by (left; exact Cl).
  destruct (seek_ok p out g0 rest b0 K B NE Ti prefix m P Se ds cc t rp O3 TO) as (c & E4 & _).
  assert (NT : h_num_tracks (x_tracks cb') = Ok (len out)) by (rewrite (op_tracks _ _ _ _ O2'); exact (tracks_read p out g0 rest b0 K NE Ti prefix m P Se)).
  assert (D : fle f_zero (x_duration cb') = true).
  { destruct (duration_R p Ti m ds cb' O2') as [D1 D2]. apply fle_R; [reflexivity | exact D1 |]. rewrite f_zero_R. exact D2. }
  assert (NZ : len out <> 0) by (pose proof (nonempty_len out NE) as Z; apply N.eqb_neq in Z; exact Z).
  pose proof (seek_fresh ds Cl cb' cc t rp (len out) c SC St T2' D NT NZ E4) as Q.
  exists c. unfold used. rewrite E1, E1'. cbn [bindo]. rewrite !tdo_app, E2, E2'. cbn [bindo]. rewrite tdo_app, E3. cbn [bindo tdo_all tdo]. rewrite E4, Q. split; reflexivity.
Qed.
Print Assumptions C27_transform_seeks_do_not_matter.

(** * C34: constant and default sub-tracks *)
(** After any legal history that ends with a seek, a constant sub-track is shown with the words of its only sample, bit for bit;
    a default one is announced as such unless the writer skips defaults. *)
Theorem C34_constant_sub_tracks_come_back : forall j f list_name tracks error p out, clip_input list_name tracks error p out -> junks_ok j ->
  exists m, compress_transforms j f list_name tracks error p = Ok m /\
  forall ds c0 l t rp, Forall (legal ds p) (l ++ [call_seek t rp]) ->
    exists c, used ds c0 m (l ++ [call_seek t rp]) = Ok c /\
    forall g i b ch, nth_error (p_segments p) 0 = Some g -> output_bone p g i b ->
      (b_default b ch = false -> b_constant b ch = true ->
       exists ws, in_words 32 (components (formats_of p) ch) ws /\ sample_at (b_stream b ch) 0 (word_bytes ws) /\
         forall w,
           (exists events, play_tracks w c = Ok events /\ NoDup (map fst events) /\ forall o, In (ch, i, o) events <-> tw_skip w ch i = false /\ o = OConst (map f_of_bits ws)) /\
           (exists events, play_track w c i = Ok events /\ NoDup (map fst events) /\ forall o, In (ch, i, o) events <-> o = OConst (map f_of_bits ws))) /\
      (b_default b ch = true ->
       forall w,
           (exists events, play_tracks w c = Ok events /\ NoDup (map fst events) /\ forall o, In (ch, i, o) events <-> tw_skip w ch i = false /\ tw_skip_default w ch = false /\ o = ODefault) /\
           (exists events, play_track w c i = Ok events /\ NoDup (map fst events) /\ forall o, In (ch, i, o) events <-> tw_skip_default w ch = false /\ o = ODefault)).
Proof.
  intros j f list_name tracks error p out I J. destruct (compress_made j f list_name tracks error p out I J) as (m & E & M). exists m. split; [exact E |].
  intros ds c0 l t rp L. destruct (made_sought p out m M ds c0 l t rp L) as (c & U & tm & lp & k0 & k1 & al & i0 & f0 & i1 & f1 & _ & _ & _ & PL). exists c. split; [exact U |].
  intros g i b ch Eg OB. pose proof (segments_nth p out (p_segments p) 0 0 g (ci_segments _ _ _ _ _ I) Eg) as SO. change (0 + N.of_nat 0) with 0 in SO.
  destruct (output_content p out 0 g i b SO OB) as (x & Ex & BH & Hi). split.
  - intros D C. rewrite (bh_default _ _ _ _ _ BH) in D. rewrite (bh_constant _ _ _ _ _ BH) in C. destruct (bh_words _ _ _ _ _ BH ch D C eq_refl) as (_ & _ & _ & W & At).
    exists (ct_words x ch). split; [exact W |]. split; [exact At |]. intros w. destruct (plays_sub p out rp i0 f0 i1 f1 c w ch i x PL Hi Ex) as [A B]. unfold TransPlaySpec.shown in A, B. rewrite D, C in A, B. split; [exact A | exact B].
  - intros D w. rewrite (bh_default _ _ _ _ _ BH) in D. destruct (plays_sub p out rp i0 f0 i1 f1 c w ch i x PL Hi Ex) as [A B]. unfold TransPlaySpec.shown in A, B. rewrite D in A, B. split; [exact A | exact B].
Qed.
Print Assumptions C34_constant_sub_tracks_come_back.

(** * C35: animated sub-tracks *)
(** After any legal history that ends with a seek, an animated sub-track is shown with the quantized samples that the streams of the
    two segments contain at the two key frames, decoded with its segment ranges and its clip range. *)
Theorem C35_animated_sub_tracks_come_back : forall j f list_name tracks error p out, clip_input list_name tracks error p out -> junks_ok j ->
  exists m, compress_transforms j f list_name tracks error p = Ok m /\
  forall ds c0 l t rp, Forall (legal ds p) (l ++ [call_seek t rp]) ->
    exists c time lp k0 k1 al i0 f0 i1 f1, used ds c0 m (l ++ [call_seek t rp]) = Ok c /\
      feq time (sought ds (x_duration c) t) = true /\
      find_linear_interpolation_samples_with_sample_rate (p_num_samples p) (p_sample_rate p) time rp lp = Ok (k0, k1, al) /\
      chosen p k0 k1 al i0 f0 i1 f1 (x_alpha c) /\
      forall g0 g1 i b0 b1 ch, nth_error (p_segments p) i0 = Some g0 -> nth_error (p_segments p) i1 = Some g1 -> output_bone p g0 i b0 -> output_bone p g1 i b1 -> b_constant b0 ch = false ->
        clip_words ch b0 = clip_words ch b1 /\
        exists x0 x1, stream_sample (b_stream b0 ch) f0 x0 /\ stream_sample (b_stream b1 ch) f1 x1 /\
          (fm_has_segments (formats_of p) = true -> variable (formats_of p) ch = true -> bone_range ch b0 x0 /\ bone_range ch b1 x1) /\
          forall w,
            (exists events, play_tracks w c = Ok events /\ NoDup (map fst events) /\
               forall o, In (ch, i, o) events <-> tw_skip w ch i = false /\
                 o = OMix (policy_of w rp i) (in_pose (formats_of p) ch x0 (clip_words ch b0)) (in_pose (formats_of p) ch x1 (clip_words ch b0))) /\
            (exists events, play_track w c i = Ok events /\ NoDup (map fst events) /\
               forall o, In (ch, i, o) events <->
                 o = OMix (policy_of w rp i) (decoded (fm_has_segments (formats_of p)) x0 (clip_words ch b0)) (decoded (fm_has_segments (formats_of p)) x1 (clip_words ch b0))).
Proof.
  intros j f list_name tracks error p out I J. destruct (compress_made j f list_name tracks error p out I J) as (m & E & M). exists m. split; [exact E |].
  intros ds c0 l t rp L. destruct (made_sought p out m M ds c0 l t rp L) as (c & U & tm & lp & k0 & k1 & al & i0 & f0 & i1 & f1 & FT & EF & CH & PL).
  exists c, tm, lp, k0, k1, al, i0, f0, i1, f1. split; [exact U |]. split; [exact FT |]. split; [exact EF |]. split; [exact CH |].
  intros g0 g1 i b0 b1 ch E0 E1 OB0 OB1 A. destruct CH as (h0 & d0 & h1 & d1 & (E0' & _) & (E1' & _) & F0 & F1 & _). rewrite E0 in E0'. injection E0' as <-. rewrite E1 in E1'. injection E1' as <-.
  pose proof (segments_nth p out (p_segments p) 0 i0 g0 (ci_segments _ _ _ _ _ I) E0) as S0. pose proof (segments_nth p out (p_segments p) 0 i1 g1 (ci_segments _ _ _ _ _ I) E1) as S1. rewrite N.add_0_l in S0, S1.
  destruct (output_content p out _ g0 i b0 S0 OB0) as (x & Ex & B0 & Hi). destruct (output_content p out _ g1 i b1 S1 OB1) as (x' & Ex' & B1 & _). rewrite Ex in Ex'. injection Ex' as <-.
  rewrite (bh_constant _ _ _ _ _ B0) in A. destruct (bh_clip _ _ _ _ _ B0 ch A) as [_ C0]. destruct (bh_clip _ _ _ _ _ B1 ch A) as [_ C1].
  assert (D : ct_default x ch = false). { destruct (ct_default x ch) eqn:D; [| reflexivity]. rewrite (bh_default_constant _ _ _ _ _ B0 ch D) in A. discriminate. }
  split; [congruence |]. exists (ct_sample x (N.of_nat i0) f0 ch), (ct_sample x (N.of_nat i1) f1 ch). split; [apply (bh_sample _ _ _ _ _ B0 ch f0 A F0) |]. split; [apply (bh_sample _ _ _ _ _ B1 ch f1 A F1) |].
  split; [intros HS HV; split; [exact (bh_range _ _ _ _ _ B0 ch f0 A HV HS F0) | exact (bh_range _ _ _ _ _ B1 ch f1 A HV HS F1)] |].
  intros w. destruct (plays_sub p out rp i0 f0 i1 f1 c w ch i x PL Hi Ex) as [P1 P2]. unfold TransPlaySpec.shown in P1, P2. rewrite D, A, <- C0 in P1, P2. split; [exact P1 | exact P2].
Qed.
Print Assumptions C35_animated_sub_tracks_come_back.

(** * C36: the format bytes *)
(** the number of bits of a bit rate: as many bits as its index tells, 32 for the last one *)
Definition bits_of_rate (r : N) : N := if r =? 24 then 32 else r.
(** [byte] tells [r] to the readers of version [v]: the number of bits to skip, whether it is raw, whether it is constant in the segment *)
Definition tells (v r byte : N) : Prop :=
  byte < 64 /\ component_bits v byte = bits_of_rate r /\ (byte =? raw_bit_rate_bits v) = (r =? 24) /\ (byte =? 0) = (r =? 0).
Definition rates (ch : channel) (out : list tbone) : list N :=
  map (fun b => ts_rate (b_stream b ch)) (filter (fun b => is_bit_rate_variable (b_stream b ch)) (animated_bones ch out)).
Definition rate_byte (r : N) : N := if r =? 24 then 31 else r.
Lemma rate_bits r : r <= 24 -> get_num_bits_at_bit_rate r = Ok (bits_of_rate r).
Proof.
  intros H. assert (Q : forallb (fun n => match get_num_bits_at_bit_rate (N.of_nat n) with Ok b => b =? bits_of_rate (N.of_nat n) | _ => false end) (seq 0 25) = true) by (vm_compute; reflexivity).
  pose proof (proj1 (forallb_forall _ _) Q (N.to_nat r)) as Z. cbv beta in Z. rewrite Nnat.N2Nat.id in Z. specialize (Z ltac:(apply in_seq; lia)).
  destruct (get_num_bits_at_bit_rate r); [apply N.eqb_eq in Z; congruence | discriminate | discriminate].
Qed.
Lemma rate_tells v r : 9 <= v -> r <= 24 -> tells v r (rate_byte r).
Proof.
  intros V H. unfold tells, component_bits, raw_bit_rate_bits. replace (9 <=? v) with true by (symmetry; apply N.leb_le, V). cbv iota. unfold rate_byte, bits_of_rate.
  destruct (N.eqb_spec r 24) as [-> | Ne]; [repeat split |]. destruct (N.eqb_spec r 31); [lia |]. split; [lia |]. repeat split; reflexivity.
Qed.
Definition rated (ch : channel) (b : tbone) (r : N) : Prop := ts_rate (b_stream b ch) = r /\ r <= 24.
Lemma rated_list ch out : Forall (fun r => r <= 24) (rates ch out) -> Forall2 (rated ch) (filter (fun b => is_bit_rate_variable (b_stream b ch)) (animated_bones ch out)) (rates ch out).
Proof.
  unfold rates. induction (filter _ _) as [| b l IH]; cbn [map]; intros H; [constructor |]. inversion H; subst. constructor; [split; [reflexivity | assumption] | apply IH; assumption].
Qed.
Lemma rated_entry ch b r l o : (length l < 4)%nat -> rated ch b r ->
  fent ch (len l) b {| fw_out := o; fw_group := pad4 (map rate_byte l) |} = Ok {| fw_out := o; fw_group := pad4 (map rate_byte (l ++ [r])) |}.
Proof.
  intros Hl [E H]. unfold fent. rewrite E, (rate_bits r H). cbn [bindo fw_group fw_out]. change k_highest_bit_rate with 24.
  replace (if r =? 24 then 31 else bits_of_rate r) with (rate_byte r) by (unfold rate_byte, bits_of_rate; destruct (r =? 24); reflexivity).
  destruct l as [| a0 [| a1 [| a2 [| a3 l]]]]; cbn [length] in Hl; try lia; reflexivity.
Qed.
Lemma rated_rotations bs rs o : Forall2 (rated Rotation) bs rs ->
  groups (format_flush Rotation) (fent Rotation) (chunk4 bs) {| fw_out := o; fw_group := [0; 0; 0; 0] |} =
  Ok {| fw_out := o ++ concat (map (fun l => pad4 (map rate_byte l)) (chunk4 rs)); fw_group := [0; 0; 0; 0] |}.
Proof.
  intros F. apply (grouped_ok (fent Rotation) (format_flush Rotation) (rated Rotation) (fun l => pad4 (map rate_byte l)) (fun l => pad4 (map rate_byte l))); [| | exact F].
  - intros l b a o' Hl R. apply rated_entry; assumption.
  - intros l o' Hl. unfold format_flush. cbn [fw_group fw_out]. destruct l as [| a0 [| a1 [| a2 [| a3 [| a4 l]]]]]; cbn [length] in Hl; try lia; reflexivity.
Qed.
Lemma rated_vectors ch bs rs o : ch <> Rotation -> Forall2 (rated ch) bs rs ->
  groups (format_flush ch) (fent ch) (chunk4 bs) {| fw_out := o; fw_group := [0; 0; 0; 0] |} = Ok {| fw_out := o ++ map rate_byte rs; fw_group := [0; 0; 0; 0] |}.
Proof.
  intros Hc F. rewrite <- (concat_chunk4 rate_byte rs). apply (grouped_ok (fent ch) (format_flush ch) (rated ch) (fun l => pad4 (map rate_byte l)) (map rate_byte)); [| | exact F].
  - intros l b a o' Hl R. apply rated_entry; assumption.
  - intros l o' Hl. unfold format_flush. cbn [fw_group fw_out].
    destruct ch; [contradiction | |]; destruct l as [| a0 [| a1 [| a2 [| a3 [| a4 l]]]]]; cbn [length] in Hl; try lia; reflexivity.
Qed.
Lemma padded_rates rs : exists pad, concat (map (fun l => pad4 (map rate_byte l)) (chunk4 rs)) = map rate_byte rs ++ repeat 0 pad /\ (pad < 4)%nat /\ Nat.modulo (length rs + pad) 4 = 0%nat.
Proof.
  induction rs as [| l Hl IH] using chunk_ind; [exists 0%nat; repeat split; lia |]. rewrite (chunk4_step l Hl). cbn [map concat].
  destruct (Nat.le_gt_cases (length l) 4) as [S | S].
  - rewrite firstn_all2, skipn_all2 by lia. cbn [chunk4 map concat]. exists (4 - length l)%nat. unfold pad4. rewrite map_length, app_nil_r. split; [reflexivity |].
    destruct l as [| a l]; [congruence |]. cbn [length] in S |- *. split; [lia |]. replace (Datatypes.S (length l) + (4 - Datatypes.S (length l)))%nat with 4%nat by lia. reflexivity.
  - destruct IH as (pad & E & P & Q). exists pad. split; [| split; [exact P |]].
    + rewrite E. unfold pad4. rewrite map_length, firstn_length_le by lia. cbn [repeat Nat.sub]. rewrite app_nil_r, app_assoc, <- map_app, firstn_skipn. reflexivity.
    + rewrite skipn_length in Q. replace (length l + pad)%nat with (length l - 4 + pad + 1 * 4)%nat by lia. rewrite Nat.mod_add by lia. exact Q.
Qed.

(** One byte per animated sub-track of variable bit rate, in output order, rotations first (padded with zeros to whole groups of four),
    then translations, then scales; each tells its bit rate to the readers of every version from v02_01_99_1 on. *)
Theorem C36_format_bytes_tell_the_bit_rates : forall bones (has_scale : bool) mapping out, mapped bones mapping out ->
  (forall ch, Forall (fun r => r <= 24) (rates ch out)) ->
  exists r t s pad, write_format_per_track_data bones has_scale mapping = Ok (r ++ repeat 0 pad ++ t ++ s) /\
    (pad < 4)%nat /\ Nat.modulo (length r + pad) 4 = 0%nat /\
    forall v, 9 <= v -> Forall2 (tells v) (rates Rotation out) r /\ Forall2 (tells v) (rates Translation out) t /\ Forall2 (tells v) (if has_scale then rates Scale out else []) s.
Proof.
  intros bones has_scale mapping out M R. unfold write_format_per_track_data.
  rewrite (animated_writer_spec bones has_scale mapping out (fun ch b => is_bit_rate_variable (b_stream b ch)) _ _ fent format_flush _ M).
  2:{ intros ch i b Hb. unfold format_filter, bone_at. rewrite Hb. reflexivity. }
  2:{ intros ch gs i b s0 Hb. unfold format_entry, bone_at. rewrite Hb. reflexivity. }
  assert (Q : forall v l, 9 <= v -> Forall (fun r => r <= 24) l -> Forall2 (tells v) l (map rate_byte l)).
  { intros v l V F. induction F as [| r l H F IH]; cbn [map]; constructor; [apply rate_tells; assumption | exact IH]. }
  destruct (padded_rates (rates Rotation out)) as (pad & E & P & L).
  rewrite (rated_rotations _ _ [] (rated_list Rotation out (R Rotation))). cbn [bindo]. rewrite (rated_vectors Translation _ _ _ ltac:(discriminate) (rated_list Translation out (R Translation))). cbn [bindo app]. rewrite E.
  exists (map rate_byte (rates Rotation out)), (map rate_byte (rates Translation out)), (map rate_byte (if has_scale then rates Scale out else [])), pad.
  split; [| split; [exact P |]; rewrite map_length; split; [exact L |]; intros v V; destruct has_scale; repeat split; first [apply Q; auto | constructor]].
  destruct has_scale.
  - rewrite (rated_vectors Scale _ _ _ ltac:(discriminate) (rated_list Scale out (R Scale))). cbn [bindo fw_out]. rewrite <- !app_assoc. reflexivity.
  - cbn [bindo fw_out map]. rewrite app_nil_r, <- !app_assoc. reflexivity.
Qed.
Print Assumptions C36_format_bytes_tell_the_bit_rates.
(** a byte tells one bit rate only *)
Theorem C36_format_byte_is_unique : forall v r r' byte, r <= 24 -> r' <= 24 -> tells v r byte -> tells v r' byte -> r = r'.
Proof.
  intros v r r' byte H H' (_ & A & B & _) (_ & A' & B' & _). rewrite A in A'. unfold bits_of_rate in A'. destruct (N.eqb_spec r 24), (N.eqb_spec r' 24); lia.
Qed.
Print Assumptions C36_format_byte_is_unique.
(** The clips of the versions before v02_01_99_1 use 32 for raw samples: their readers are told the right number of bits too, and a reader
    of these versions would take 31 for a number of bits. *)
Theorem C36_versions : (forall v r, r <= 24 -> tells v r (if r =? 24 then raw_bit_rate_bits v else r)) /\ forall v, v < 9 -> component_bits v 31 = 31 /\ ~ tells v 24 31.
Proof.
  assert (X : forall v, raw_bit_rate_bits v = 31 \/ raw_bit_rate_bits v = 32) by (intros v; unfold raw_bit_rate_bits; destruct (9 <=? v); auto). split.
  - intros v r H. unfold tells, component_bits, bits_of_rate. destruct (N.eqb_spec r 24) as [-> | Ne].
    + rewrite N.eqb_refl. destruct (X v) as [-> | ->]; repeat split.
    + destruct (N.eqb_spec r (raw_bit_rate_bits v)) as [E | E]; [destruct (X v); lia |]. split; [lia |]. repeat split.
  - intros v V. unfold tells, component_bits, raw_bit_rate_bits. replace (9 <=? v) with false by (symmetry; apply N.leb_gt, V). split; [reflexivity |]. intros (_ & _ & Q & _). discriminate.
Qed.
Print Assumptions C36_versions.

(** * C40: decompress_track and decompress_tracks agree *)
(** the same numbers, except that a negative zero may have lost its sign *)
Definition same_number (pose track : f32) : Prop := pose = track \/ (pose = f_zero /\ f_bits track = 0x80000000).
Definition same_output (ch : channel) (pose track : out) : Prop :=
  match ch, pose, track with
  | Rotation, OMix policy a b, OMix policy' a' b' => policy = policy' /\ Forall2 same_number a a' /\ Forall2 same_number b b'
  | _, _, _ => pose = track
  end.
Lemma same_numbers f ch s clip : Forall2 same_number (in_pose f ch s clip) (decoded (fm_has_segments f) s clip).
Proof.
  assert (R : forall l, Forall2 same_number l l) by (induction l; constructor; [left; reflexivity | assumption]).
  unfold in_pose. destruct ch; [| apply R | apply R]. destruct (rotation_variable (fm_rotation f)); [| apply R]. unfold decoded_in_group. destruct (s_bits s =? 32); [| apply R].
  induction (decoded (fm_has_segments f) s clip) as [| x l IH]; cbn [map]; constructor; [| exact IH]. unfold no_negative_zero, same_number. destruct (N.eqb_spec (f_bits x) 0x80000000); auto.
Qed.
Theorem C40_one_track_as_in_the_pose : forall j f list_name tracks error p out, clip_input list_name tracks error p out -> junks_ok j ->
  exists m, compress_transforms j f list_name tracks error p = Ok m /\
  forall ds c0 l, Forall (legal ds p) l ->
    exists c, used ds c0 m l = Ok c /\
    forall w, exists pose, play_tracks w c = Ok pose /\
      forall i, i < len out -> exists track, play_track w c i = Ok track /\
        forall ch, tw_skip w ch i = false ->
          (forall o, In (ch, i, o) pose -> exists o', In (ch, i, o') track /\ same_output ch o o') /\
          (forall o', In (ch, i, o') track -> exists o, In (ch, i, o) pose /\ same_output ch o o').
Proof.
  intros j f list_name tracks error p out I J. destruct (compress_made j f list_name tracks error p out I J) as (m & E & M). exists m. split; [exact E |].
  intros ds c0 l L. destruct (made_history p out m M ds c0 l L) as (c & U & H). exists c. split; [exact U |]. intros w.
  destruct H as [H | (lp & rp & time & k0 & k1 & al & i0 & f0 & i1 & f1 & _ & _ & PL)].
  - destruct (H w) as [H1 H2]. exists []. split; [exact H1 |]. intros i _. exists []. split; [apply H2 |]. intros ch _. split; intros o [].
  - destruct (PL w) as ((pose & EP & _) & _). exists pose. split; [exact EP |]. intros i Hi.
    destruct (nth_error out (N.to_nat i)) as [x |] eqn:Ex; [| apply nth_error_None in Ex; unfold len in Hi; lia].
    destruct (plays_sub p out rp i0 f0 i1 f1 c w Rotation i x PL Hi Ex) as [_ (track & ET & _)]. exists track. split; [exact ET |]. intros ch SK.
    destruct (plays_sub p out rp i0 f0 i1 f1 c w ch i x PL Hi Ex) as [(pose' & EP' & _ & S1) (track' & ET' & _ & S2)]. rewrite EP in EP'. injection EP' as <-. rewrite ET in ET'. injection ET' as <-.
    assert (SM : forall a b a' b' (po : rounding_policy), (ch = Rotation -> Forall2 same_number a a' /\ Forall2 same_number b b') -> (ch <> Rotation -> a = a' /\ b = b') -> same_output ch (OMix po a b) (OMix po a' b')).
    { intros a b a' b' po H1 H2. destruct ch; cbn; [destruct (H1 eq_refl); auto | |]; destruct (H2 ltac:(discriminate)) as [-> ->]; reflexivity. }
    assert (SR : forall o, match o with OMix _ _ _ => False | _ => True end -> same_output ch o o) by (intros [] Q; try contradiction; destruct ch; reflexivity).
    split; intros o Ho; [apply S1 in Ho as [_ Ho] | apply S2 in Ho]; unfold TransPlaySpec.shown in Ho; destruct (ct_default x ch) eqn:D; [| destruct (ct_constant x ch) eqn:C | | destruct (ct_constant x ch) eqn:C].
    + destruct Ho as [K ->]. exists ODefault. split; [apply S2; unfold TransPlaySpec.shown; rewrite D; auto | apply SR; exact Logic.I].
    + subst o. eexists. split; [apply S2; unfold TransPlaySpec.shown; rewrite D, C; reflexivity | apply SR; exact Logic.I].
    + subst o. eexists. split; [apply S2; unfold TransPlaySpec.shown; rewrite D, C; reflexivity |]. apply SM; [intros _; split; apply same_numbers | intros N; destruct ch; [congruence | |]; split; reflexivity].
    + destruct Ho as [K ->]. exists ODefault. split; [apply S1; unfold TransPlaySpec.shown; rewrite D; auto | apply SR; exact Logic.I].
    + subst o. eexists. split; [apply S1; unfold TransPlaySpec.shown; rewrite D, C; split; [exact SK | reflexivity] | apply SR; exact Logic.I].
    + subst o. eexists. split; [apply S1; unfold TransPlaySpec.shown; rewrite D, C; split; [exact SK | reflexivity] |]. apply SM; [intros _; split; apply same_numbers | intros N; destruct ch; [congruence | |]; split; reflexivity].
Qed.
Print Assumptions C40_one_track_as_in_the_pose.

(** * What seeking again misses (C27, refuted) *)
Definition ex_junks : junks := {| j_words := [1; 2; 3; 4]; j_lanes := repeat [f_of_N 7; f_zero; f_zero; f_zero] 4; j_group := repeat 170 64 |}.
Definition ex_flags : tflags := {| f_list_name := true; f_names := true; f_parents := true; f_descriptions := true; f_error := true |}.
Definition ex_settings : dsettings := {| clamp_sample_time := true; is_wrapping_supported := true; is_per_track_rounding_supported := true; is_track_type_supported := fun _ => true |}.
Definition ex_twriter : twriter := {| tw_skip := fun _ _ => false; tw_skip_default := fun _ => false; tw_per_track_rounding := false; tw_rounding := fun r _ => r |}.
Definition no_frame : key_frame := {| kf_format := 0; kf_range := 0; kf_data := []; kf_offset := 0; kf_rotation_bits := 0; kf_translation_bits := 0 |}.
Definition ex_blank : pcontext := {| x_tracks := []; x_db := None; x_hash := 0; x_db_hash := 0; x_duration := f_zero; x_time := f_zero; x_alpha := f_zero; x_rotation := quatf_full; x_translation := false; x_scale := false;
  x_has_scale := false; x_has_segments := false; x_looping := lp_clamp; x_rounding := rp_none; x_single := false; x_kf0 := no_frame; x_kf1 := no_frame |}.
Definition ex_junks_ok : junks_ok ex_junks. Proof. split; [reflexivity |]. split; [reflexivity |]. split; [apply Forall_forall; intros x H; apply repeat_spec in H; subst x; reflexivity | reflexivity]. Qed.
Definition ex_error : list N := [1; 2; 3; 4].
Lemma ex_input stripped : clip_input [97] ex_ttracks ex_error (ex_tclip stripped) ex_out.
Proof. apply ex_clip_input; [repeat constructor | reflexivity]. Qed.
Definition ex_compressed (stripped : bool) : outcome (list N) := compress_transforms ex_junks ex_flags [97] ex_ttracks ex_error (ex_tclip stripped).
(** what is written, in bits: per sub-track, the samples that are mixed, and alpha *)
Definition output_bits (o : out) : list N * list N := match o with ODefault => ([], []) | OConst a => (map f_bits a, []) | OMix _ a b => (map f_bits a, map f_bits b) | OJunk => ([1], [1]) end.
Definition seen (c : pcontext) : outcome (N * list (channel * N * (list N * list N))) :=
  bindo (play_tracks ex_twriter c) (fun events => Ok (f_bits (x_alpha c), map (fun '(ch, i, o) => (ch, i, output_bits o)) events)).
Definition seen_after (m : list N) (l : list tcall) : outcome (N * list (channel * N * (list N * list N))) := bindo (used ex_settings ex_blank m l) seen.
Definition ex_last : f32 := fdiv (f_of_N 5) (f_of_N 30).

(** the looping policy changes between two identical seeks: the second one does nothing *)
Theorem C27_transform_looping_change_is_missed_refuted : exists m,
  ex_compressed false = Ok m /\
  exists before after, before <> after /\
    seen_after m [call_seek ex_last rp_ceil; call_looping (Some lp_wrap); call_seek ex_last rp_ceil] = Ok before /\
    seen_after m [call_seek ex_last rp_ceil] = Ok before /\
    seen_after m [call_looping (Some lp_wrap); call_seek ex_last rp_ceil] = Ok after.
Proof.
  destruct (compress_made ex_junks ex_flags [97] ex_ttracks ex_error (ex_tclip false) ex_out (ex_input false) ex_junks_ok) as (m & E & _). exists m. split; [exact E |].
  assert (Q : forall l, bindo (ex_compressed false) (fun m => seen_after m l) = seen_after m l) by (intros l; unfold ex_compressed; rewrite E; reflexivity).
  rewrite <- !Q. eexists _, _. split; [| split; [vm_compute; reflexivity |]; split; [vm_compute; reflexivity | vm_compute; reflexivity]]. intros X. discriminate.
Qed.
Print Assumptions C27_transform_looping_change_is_missed_refuted.

(** the same context, once its database has streamed chunks in or out *)
Definition with_db (c : pcontext) (d : option tdatabase) : pcontext :=
  {| x_tracks := x_tracks c; x_db := d; x_hash := x_hash c; x_db_hash := x_db_hash c; x_duration := x_duration c; x_time := x_time c; x_alpha := x_alpha c;
     x_rotation := x_rotation c; x_translation := x_translation c; x_scale := x_scale c; x_has_scale := x_has_scale c; x_has_segments := x_has_segments c;
     x_looping := x_looping c; x_rounding := x_rounding c; x_single := x_single c; x_kf0 := x_kf0 c; x_kf1 := x_kf1 c |}.
(** Streaming between two identical seeks is missed, for every clip and every database: the context keeps the key frames, and the data,
    that it found with the old contents of the database. *)
Theorem C27_streaming_is_missed : forall ds c t rp c' d, clamp_sample_time ds = true -> ffinite (x_duration c) = true -> fle f_zero (x_duration c) = true -> tseek ds c t rp = Ok c' -> tseek ds (with_db c' d) t rp = Ok (with_db c' d).
Proof.
  intros ds c t rp c' d Cl Fd D E. assert (E' := E). rewrite tseek_cases in *. destruct (LayoutBuild.bindo_ok _ _ _ E) as (n & En & E1). cbn beta in E1.
  assert (SC : same_clip c c' /\ (n =? 0 = true \/ feq (x_time c') (sought ds (x_duration c') t) && rp_eqb (x_rounding c') rp = true)).
  { destruct (n =? 0) eqn:Z; [injection E1 as <-; split; [apply same_refl | left; reflexivity] |].
    destruct (feq (x_time c) (sought ds (x_duration c) t) && rp_eqb (x_rounding c) rp) eqn:G; [injection E1 as <-; split; [apply same_refl | right; exact G] |].
    destruct (effective_ok _ _ _ _ _ E1) as (SC & T & R). split; [exact SC |]. right. assert (Dd : x_duration c' = x_duration c) by apply SC. rewrite T, R, Dd.
    apply andb_true_intro. split; [| destruct rp; reflexivity]. apply feq_refl_fin. unfold sought. rewrite Cl.
    apply fle_R in D; [| reflexivity | exact Fd]. rewrite f_zero_R in D. destruct (fclamp_any t (x_duration c) Fd D) as [F _]. exact F. }
  destruct SC as [SC [Z | G]].
  - assert (Et : x_tracks c' = x_tracks c) by apply SC. cbn [with_db x_tracks]. rewrite Et, En. cbn [bindo]. rewrite Z. reflexivity.
  - assert (Et : x_tracks c' = x_tracks c) by apply SC. cbn [with_db x_tracks x_time x_duration x_rounding]. rewrite Et, En. cbn [bindo]. destruct (n =? 0); [reflexivity |]. rewrite G. reflexivity.
Qed.
Print Assumptions C27_streaming_is_missed.
(** and it shows: the middle key frame of the first segment is streamed in (or out), and the second seek still mixes its neighbours
    (or still reads it) *)
Definition ex_db (streamed : bool) : tdatabase :=
  {| t_hash := 7; t_metadata := fun s => if streamed && (s =? 0) then (16 * 2 ^ 32 + 0x40000000, 0) else (0, 0); t_medium := repeat 0 100; t_low := [] |}.
Definition bind_to_db (m : list N) : outcome (list N) := bindo (read32 m 28) (fun misc => write32 m 28 (set_has_database misc 1)).
Definition one_30th : f32 := fdiv (f_of_N 1) (f_of_N 30).
Definition streamed_between (m : list N) (before after first : bool) : outcome (N * N * N) :=
  bindo (tinitialize ex_settings ex_blank m (Some (ex_db before))) (fun c =>
  bindo (if first then tseek ex_settings c one_30th rp_nearest else Ok c) (fun c =>
  bindo (tseek ex_settings (with_db c (Some (ex_db after))) one_30th rp_nearest) (fun c =>
  Ok (f_bits (x_alpha c), kf_offset (x_kf0 c), blen (kf_data (x_kf0 c)))))).
Theorem C27_streaming_is_missed_refuted : exists m, bindo (ex_compressed true) bind_to_db = Ok m /\
  streamed_between m false true true = Ok (0x3F000000, 0, 308) /\ streamed_between m false true false = Ok (0, 0, 84) /\
  streamed_between m true false true = Ok (0, 0, 84) /\ streamed_between m true false false = Ok (0x3F000000, 0, 308).
Proof.
  assert (X : exists m, bindo (ex_compressed true) bind_to_db = Ok m).
  { destruct (bindo (ex_compressed true) bind_to_db) as [m | |] eqn:E; [eauto | vm_compute in E; discriminate | vm_compute in E; discriminate]. }
  destruct X as (m & E). exists m. split; [exact E |].
  assert (Q : forall a b c, bindo (bindo (ex_compressed true) bind_to_db) (fun m => streamed_between m a b c) = streamed_between m a b c) by (intros; rewrite E; reflexivity).
  rewrite <- !Q. vm_compute. repeat split; reflexivity.
Qed.
Print Assumptions C27_streaming_is_missed_refuted.

(** * The theorems on a clip: three bones, two segments, bit rates 24 and 5, 7 and 0, 0 and 19, with or without a stripped key frame *)
Example C41_example stripped : exists m, compress_transforms ex_junks ex_flags [97] ex_ttracks ex_error (ex_tclip stripped) = Ok m /\
  forall policies t rp, exists c i0 f0 i1 f1, used ex_settings ex_blank m (map call_looping policies ++ [call_seek t rp]) = Ok c /\ plays (ex_tclip stripped) ex_out rp i0 f0 i1 f1 c.
Proof.
  destruct (C41_compress_and_play ex_junks ex_flags [97] ex_ttracks ex_error (ex_tclip stripped) ex_out (ex_input stripped) ex_junks_ok) as (m & E & H). exists m. split; [exact E |].
  intros policies t rp. destruct (H ex_settings ex_blank policies t rp (or_introl eq_refl)) as (c & k0 & k1 & al & i0 & f0 & i1 & f1 & U & _ & _ & PL). exists c, i0, f0, i1, f1. auto.
Qed.
(** the clip without a stripped key frame, half way between the second and the third key frame *)
Example C41_example_values : bindo (ex_compressed false) (fun m => seen_after m [call_seek (fdiv (f_of_N 1) (f_of_N 20)) rp_none]) = Ok (0x3F000000,
  [(Rotation, 0, ([], [])); (Rotation, 2, ([1065353217; 1073741824; 2147483648], [])); (Translation, 0, ([], []));
   (Translation, 1, ([1065353216; 1073741824; 2147483648], [])); (Scale, 1, ([], [])); (Scale, 2, ([], []));
   (Rotation, 1, ([1056964609; 0; 3196059664], [1056964610; 0; 3196059680]));
   (Translation, 2, ([1065353216; 1065353216; 1065353216], [1065353216; 1065353216; 1065353216]));
   (Scale, 0, ([1065353216; 1058816156; 1065353216], [1065353216; 1058816156; 1065353216]))]).
Proof. vm_compute. reflexivity. Qed.
(** the bones of C34 and C35: the constant rotation of output track 2, the animated rotation of output track 1 *)
Example C34_example stripped : exists g b, nth_error (p_segments (ex_tclip stripped)) 0 = Some g /\ output_bone (ex_tclip stripped) g 2 b /\ b_default b Rotation = false /\ b_constant b Rotation = true.
Proof. eexists _, _. split; [reflexivity |]. split; [exists 1; split; reflexivity |]. split; reflexivity. Qed.
Example C35_example stripped : exists g b, nth_error (p_segments (ex_tclip stripped)) 1 = Some g /\ output_bone (ex_tclip stripped) g 1 b /\ b_constant b Rotation = false.
Proof. eexists _, _. split; [reflexivity |]. split; [exists 0; split; reflexivity |]. reflexivity. Qed.
Example C36_example : exists g, nth_error (p_segments (ex_tclip false)) 0 = Some g /\ mapped (g_bones g) [2; 0; 1] (map (ex_bone 0) [2; 0; 1]) /\
  (forall ch, Forall (fun r => r <= 24) (rates ch (map (ex_bone 0) [2; 0; 1]))) /\
  rates Rotation (map (ex_bone 0) [2; 0; 1]) <> [] /\ write_format_per_track_data (g_bones g) true [2; 0; 1] = Ok [31; 0; 0; 0; 7; 0].
Proof.
  eexists. split; [reflexivity |]. split; [repeat constructor |]. split; [intros []; vm_compute; repeat constructor; discriminate |]. split; [discriminate | vm_compute; reflexivity].
Qed.
