(** C46: a clip that is bound to a database.  The builder rewrites the compressed clip: the key frames of the other tiers are taken out
    of it, and it refers to the database.  Whatever the database has streamed in, decompression shows key frames of the original clip,
    the closest ones that are there. *)
From Coq Require Import Lia Reals Lra Permutation.
From Verif Require Import Word WordFacts Float32 Float32Facts Interp InterpFacts Headers DbTiers DbBuild DbStream SeekSpec Strip Segment StreamSpec TierSpec BuildSpec ClipRewrite ClipOrderFacts RewriteFacts DbEndFacts ScalarSeekFacts ScalarPlay Prop_Stream Prop_Build.
From Verif Require Import ScalarDec ScalarSpec ScalarMeta TrackArray TransMeta TransMetaSpec TransMetaFacts TransDec TransSpec TransRing TransClipSpec TransSeek TransFile TransFileFacts TransPlaySpec TransTop
  TransView TransViewPlay TransBind BindSpec TransBindSrc TransBindFill TransBindView TransBindFacts TransBindClip TransBindTop.
Import ListNotations.
Local Open Scope N_scope.
Ltac Zify.zify_post_hook ::= idtac.

(** * Vocabulary *)
(** [src] is a compressed clip that goes in a database as clip number [c]: it was compressed with its contributing error and has all its key
    frames, and [files] and [sizes] have what the builder is given of it *)
Record clip_to_bind (sizes : list (list N)) (files : list clip_file) (c : nat) (f : tflags) (list_name : list N) (tracks : list ttrack) (error : list N) (p : tclip) (out : list content) (src : list N) : Prop := {
  cb_sizes : nth_error sizes c = Some (sizes_of p);
  cb_file : exists file, nth_error files c = Some file /\ clip_parts src file /\ binding_fits src file;
  cb_input : clip_input list_name tracks error p out;
  cb_compressed : exists j, junks_ok j /\ compress_transforms j f list_name tracks error p = Ok src;
  cb_whole : p_stripped p = false;
  cb_error : f_error f = true /\ error <> []
}.
(** a state a database gets in, whatever was streamed in and out, and the buffers of its tiers in that state *)
Definition database_state (max : N) (medium_bytes : list N) (medium_chunks : list chunk) (low_bytes : list N) (low_chunks : list chunk) (s : system) (medium_buffer low_buffer : list N) : Prop :=
  (exists sh n0 n1, streamer_size n0 /\ streamer_size n1 /\ reachable {| db_max_chunk_size := max; db_medium := medium_chunks; db_low := low_chunks |} sh n0 n1 s) /\
  memory_of s DbStream.Medium medium_bytes medium_buffer /\ memory_of s DbStream.Lowest low_bytes low_buffer.

(** everything that is known of a bound clip *)
Lemma bound sizes clips files max lp mp high medium low mb mc lb lc c f ln tracks error p out src :
  built_database sizes clips files max lp mp high medium low mb mc lb lc -> clip_to_bind sizes files c f ln tracks error p out src ->
  exists m outs hd ty co ra rels prefix mh e0 e1 e2 e3 e4, bind_clip high (N.of_nat c) (clip_header_of files c) src = Ok m /\
    view p out m hd ty co ra rels (map st_sample_indices outs) /\
    transform_clip ln tracks (p_mapping p) error prefix /\ add_metadata f ln tracks (p_mapping p) error prefix = Ok src /\ p_mapping p <> [] /\ metadata_ready src mh e0 e1 e2 e3 e4 /\
    metadata_kept src m e0 e1 e2 e3 e4 /\ blen m + 64 < 4294967296 /\
    (forall hash s bm bl, bound_database m hash s bm bl = Ok {| t_hash := hash; t_metadata := fun i => let o := clip_header_of files c + 8 + 16 * i in (tier_metadata (rt s DbStream.Medium) o, tier_metadata (rt s DbStream.Lowest) o); t_medium := bm; t_low := bl |}) /\
    (forall hash s bm bl d, database_state max mb mc lb lc s bm bl -> bound_database m hash s bm bl = Ok d -> tiers_ok p out (map st_sample_indices outs) d /\
       forall i g k, nth_error (p_segments p) i = Some g -> k < 32 -> avail_of (map st_sample_indices outs) d i k = available_now high medium low (N.of_nat c) (streamed_in files s DbStream.Medium c) (streamed_in files s DbStream.Lowest c) i k) /\
    (forall i g, nth_error (p_segments p) i = Some g -> g_num_samples g <= 32).
Proof.
  intros BD CB. destruct (cb_file _ _ _ _ _ _ _ _ _ _ CB) as (file & KF & CP & Fits). destruct (cb_compressed _ _ _ _ _ _ _ _ _ _ CB) as (j & J & CO). destruct (cb_error _ _ _ _ _ _ _ _ _ _ CB) as (FE & NE).
  pose proof (cb_input _ _ _ _ _ _ _ _ _ _ CB) as IN. pose proof (cb_whole _ _ _ _ _ _ _ _ _ _ CB) as St. pose proof (cb_sizes _ _ _ _ _ _ _ _ _ _ CB) as KZ.
  destruct (compress_made j f ln tracks error p out IN J) as (src' & CO' & MD). rewrite CO in CO'. injection CO' as <-.
  destruct (made_source p out src MD St) as (SA & raws & So).
  destruct (compress_prefix j f ln tracks error p out src IN J CO) as (prefix & TC & AM & NM).
  destruct (meta_ready f ln tracks (p_mapping p) error prefix src TC AM FE NE) as (mh & e0 & e1 & e2 & e3 & e4 & Me).
  destruct (clip_bound _ _ _ _ _ _ _ _ _ _ _ _ _ BD c file src p out SA raws mh e0 e1 e2 e3 e4 KF KZ So St CP Fits Me) as (m & outs & EB & Fi & Mk).
  pose proof (clip_bindable _ _ _ _ _ _ _ _ _ _ _ _ _ BD c file src p out SA raws mh e0 e1 e2 e3 e4 KF KZ So St CP Fits Me) as Bi.
  exists m, outs. do 4 eexists. exists (map (fun o => sh_data (st_header o)) outs), prefix, mh, e0, e1, e2, e3, e4. split; [exact EB |].
  split; [eapply filled_view; eassumption |]. split; [exact TC |]. split; [exact AM |]. split; [exact NM |]. split; [exact Me |]. split; [exact Mk |]. split; [exact (fi_small _ _ _ _ _ _ _ _ _ _ Fi) |].
  assert (DBF : forall hash s bm bl, bound_database m hash s bm bl = Ok {| t_hash := hash; t_metadata := fun i => let o := clip_header_of files c + 8 + 16 * i in (tier_metadata (rt s DbStream.Medium) o, tier_metadata (rt s DbStream.Lowest) o); t_medium := bm; t_low := bl |})
    by (intros; eapply filled_database; eassumption).
  split; [exact DBF |]. split.
  - intros hash s bm bl d ((sh & n0 & n1 & Z0 & Z1 & RE) & BM & BL) ED. rewrite DBF in ED. injection ED as <-. split.
    + exact (bound_tiers _ _ _ _ _ _ _ _ _ _ _ _ _ BD c file src p out SA raws mh e0 e1 e2 e3 e4 KF KZ So St CP Fits Me m outs Fi sh n0 n1 s hash bm bl Z0 Z1 RE BM BL).
    + intros i g k Eg Hk. exact (available_is _ _ _ _ _ _ _ _ _ _ _ _ _ BD c file src p out SA raws mh e0 e1 e2 e3 e4 KF KZ So St CP Fits Me m outs Fi sh n0 n1 s hash bm bl Z0 Z1 RE i g k Eg Hk).
  - intros i g Eg. destruct (the_segment _ _ _ _ _ _ _ _ _ _ _ _ _ BD c file src p out SA raws KF KZ So CP i g Eg) as (rel & _ & _ & _ & _ & N32 & _). exact N32.
Qed.

(** * Whatever is streamed in *)
(** The builder rewrites the clip without any fault.  In every state of the database, a context that is initialized with the clip and the
    database shows, after a seek, the closest key frames of the original clip that are available: those that stayed in the clip and
    those whose tier has streamed the segment in *)
Theorem C46_bound_clip_plays : forall sizes clips files max low_proportion medium_proportion high medium low medium_bytes medium_chunks low_bytes low_chunks c f list_name tracks error p out src,
  built_database sizes clips files max low_proportion medium_proportion high medium low medium_bytes medium_chunks low_bytes low_chunks ->
  clip_to_bind sizes files c f list_name tracks error p out src ->
  exists m, bind_clip high (N.of_nat c) (clip_header_of files c) src = Ok m /\
    forall s medium_buffer low_buffer hash, database_state max medium_bytes medium_chunks low_bytes low_chunks s medium_buffer low_buffer ->
    exists d, bound_database m hash s medium_buffer low_buffer = Ok d /\
      forall ds c0 policies t rp, legal ds p (call_seek t rp) -> let lp := in_effect ds p policies in
      exists x k0 k1 al i0 f0 i1 f1, bused ds c0 m d (map (fun q => (d, call_looping q)) policies ++ [(d, call_seek t rp)]) = Ok x /\
        find_linear_interpolation_samples_with_sample_rate (p_num_samples p) (p_sample_rate p) (sought ds (clip_finite_duration (p_num_samples p) (p_sample_rate p) lp) t) rp lp = Ok (k0, k1, al) /\
        chosen_among p (available_now high medium low (N.of_nat c) (streamed_in files s DbStream.Medium c) (streamed_in files s DbStream.Lowest c)) k0 k1 al i0 f0 i1 f1 (x_alpha x) /\
        plays p out rp i0 f0 i1 f1 x.
Proof.
  intros sizes clips files max lp mp high medium low mb mc lb lc c f ln tracks error p out src BD CB.
  destruct (bound _ _ _ _ _ _ _ _ _ _ _ _ _ _ _ _ _ _ _ _ _ BD CB) as (m & outs & hd & ty & co & ra & rels & prefix & mh & e0 & e1 & e2 & e3 & e4 & EB & V & _ & _ & _ & _ & _ & _ & DBF & TK & N32).
  exists m. split; [exact EB |]. intros s bm bl hash DS. eexists. split; [apply DBF |]. set (d := Build_tdatabase _ _ _ _). pose proof (DBF hash s bm bl : _ = Ok d) as ED. destruct (TK hash s bm bl d DS ED) as (TO & AV).
  intros ds c0 policies t rp L. destruct (view_plays p out m hd ty co ra rels _ V ds hash c0 d policies t rp) as (x & k0 & k1 & al & i0 & f0 & i1 & f1 & X1 & X2 & X3 & X4); [split; [reflexivity |]; split; [exact TO | exact L] |].
  exists x, k0, k1, al, i0, f0, i1, f1. split; [exact X1 |]. split; [exact X2 |]. split; [| exact X4].
  eapply chosen_same; [| exact X3]. intros i g k Eg Hk. apply (AV i g k Eg). pose proof (N32 i g Eg). lia.
Qed.
Print Assumptions C46_bound_clip_plays.

(** While the database streams in and out between the calls, seeks, changes of the looping policy and relocations succeed in any order, and a
    seek shows the closest key frames that are available at that time; unless the context is already at that time with that rounding policy:
    then nothing happens (C27_streaming_is_missed) *)
Theorem C46_while_the_database_streams : forall sizes clips files max low_proportion medium_proportion high medium low medium_bytes medium_chunks low_bytes low_chunks c f list_name tracks error p out src,
  built_database sizes clips files max low_proportion medium_proportion high medium low medium_bytes medium_chunks low_bytes low_chunks ->
  clip_to_bind sizes files c f list_name tracks error p out src ->
  exists m, bind_clip high (N.of_nat c) (clip_header_of files c) src = Ok m /\
    forall hash ds c0 d0 l s medium_buffer low_buffer d t rp,
    let in_state d s medium_buffer low_buffer := database_state max medium_bytes medium_chunks low_bytes low_chunks s medium_buffer low_buffer /\ bound_database m hash s medium_buffer low_buffer = Ok d in
    (exists s medium_buffer low_buffer, in_state d0 s medium_buffer low_buffer) ->
    Forall (fun x => (exists s medium_buffer low_buffer, in_state (fst x) s medium_buffer low_buffer) /\ legal ds p (snd x)) l ->
    in_state d s medium_buffer low_buffer -> legal ds p (call_seek t rp) ->
    exists before x, bused ds c0 m d0 l = Ok before /\ bused ds c0 m d0 (l ++ [(d, call_seek t rp)]) = Ok x /\ x_looping x = x_looping before /\
      let time := sought ds (clip_finite_duration (p_num_samples p) (p_sample_rate p) (x_looping x)) t in
      (feq (x_time before) time && rp_eqb (x_rounding before) rp = false ->
       exists k0 k1 al i0 f0 i1 f1, find_linear_interpolation_samples_with_sample_rate (p_num_samples p) (p_sample_rate p) time rp (x_looping x) = Ok (k0, k1, al) /\
         chosen_among p (available_now high medium low (N.of_nat c) (streamed_in files s DbStream.Medium c) (streamed_in files s DbStream.Lowest c)) k0 k1 al i0 f0 i1 f1 (x_alpha x) /\
         plays p out rp i0 f0 i1 f1 x).
Proof.
  intros sizes clips files max lp mp high medium low mb mc lb lc c f ln tracks error p out src BD CB.
  destruct (bound _ _ _ _ _ _ _ _ _ _ _ _ _ _ _ _ _ _ _ _ _ BD CB) as (m & outs & hd & ty & co & ra & rels & prefix & mh & e0 & e1 & e2 & e3 & e4 & EB & V & _ & _ & _ & _ & _ & _ & DBF & TK & N32).
  exists m. split; [exact EB |]. intros hash ds c0 d0 l s bm bl d t rp in_state (s0 & bm0 & bl0 & I0) FL I1 L.
  assert (HH : forall d s bm bl, in_state d s bm bl -> t_hash d = hash /\ tiers_ok p out (map st_sample_indices outs) d).
  { intros d' s' bm' bl' (D1 & D2). split; [rewrite DBF in D2; injection D2 as <-; reflexivity | exact (proj1 (TK hash s' bm' bl' d' D1 D2))]. }
  destruct (HH _ _ _ _ I0) as (T0 & _). destruct (HH _ _ _ _ I1) as (T1 & K1).
  assert (FB : Forall (bcall_ok p out (map st_sample_indices outs) ds hash) l).
  { eapply Forall_impl; [| exact FL]. cbn beta. intros x ((s' & bm' & bl' & Ix) & Lx). destruct (HH _ _ _ _ Ix) as (Tx & Kx). split; [exact Tx |]. split; [exact Kx | exact Lx]. }
  destruct (view_history p out m hd ty co ra rels _ V ds hash c0 d0 l d t rp T0 FB) as (cb & x & X1 & X2 & X3 & X4); [split; [exact T1 |]; split; [exact K1 | exact L] |].
  exists cb, x. split; [exact X1 |]. split; [exact X2 |]. split; [exact X3 |]. intros time NF. destruct (X4 NF) as (k0 & k1 & al & i0 & f0 & i1 & f1 & Y1 & Y2 & Y3).
  exists k0, k1, al, i0, f0, i1, f1. split; [exact Y1 |]. split; [| exact Y3].
  destruct I1 as (D1 & D2). destruct (TK hash s bm bl d D1 D2) as (_ & AV). eapply chosen_same; [| exact Y2]. intros i g k Eg Hk. apply (AV i g k Eg). pose proof (N32 i g Eg). lia.
Qed.
Print Assumptions C46_while_the_database_streams.

(** * The metadata *)
Lemma F2_length {A B} (R : A -> B -> Prop) l l' : Forall2 R l l' -> length l = length l'. Proof. induction 1; cbn; lia. Qed.
(** The names, the parents and the descriptions are those of the clip, as in C20; the contributing error is gone *)
Theorem C46_metadata_kept : forall sizes clips files max low_proportion medium_proportion high medium low medium_bytes medium_chunks low_bytes low_chunks c f list_name tracks error p out src,
  built_database sizes clips files max low_proportion medium_proportion high medium low medium_bytes medium_chunks low_bytes low_chunks ->
  clip_to_bind sizes files c f list_name tracks error p out src ->
  exists m, bind_clip high (N.of_nat c) (clip_header_of files c) src = Ok m /\
    (forall j i t, nth_error (p_mapping p) j = Some i -> nth_error tracks (N.to_nat i) = Some t ->
      bindo (get_track_name m (N.of_nat j)) (read_string m) = Ok (if f_names f then c_str (tt_name t) else []) /\
      exists parent, output_parent (p_mapping p) (tt_parent t) parent /\
        get_parent_track_index m (N.of_nat j) = Ok (if f_parents f || f_descriptions f then parent else k_invalid_track_index) /\
        get_transform_description m (N.of_nat j) = Ok (if f_descriptions f then Some (parent, tt_description t) else None)) /\
    bindo (get_name m) (read_string m) = (if f_names f then (if f_list_name f then Ok (c_str list_name) else UB) else Ok []).
Proof.
  intros sizes clips files max lp mp high medium low mb mc lb lc c f ln tracks error p out src BD CB.
  destruct (bound _ _ _ _ _ _ _ _ _ _ _ _ _ _ _ _ _ _ _ _ _ BD CB) as (m & outs & hd & ty & co & ra & rels & prefix & mh & e0 & e1 & e2 & e3 & e4 & EB & V & TC & AM & NM & Me & Mk & SM & _).
  exists m. split; [exact EB |]. destruct (cb_error _ _ _ _ _ _ _ _ _ _ CB) as (FE & NE).
  destruct (output_tracks_ok (p_mapping p) tracks (tc_mapping _ _ _ _ _ TC)) as (ts & OT).
  pose proof (sections_kept f ln tracks (p_mapping p) error prefix src TC AM FE NE NM m e0 e1 e2 e3 e4 mh Me Mk SM ts OT) as SK.
  destruct (got_means (without_error f) ln tracks (p_mapping p) error prefix TC m ts OT) as (G1 & G2 & _).
  - rewrite (vw_tracks _ _ _ _ _ _ _ _ _ V). f_equal. pose proof (cb_input _ _ _ _ _ _ _ _ _ _ CB) as IN. destruct (ci_first _ _ _ _ _ IN) as (g0 & b0 & E0 & Eb & PK & CE & FT).
    destruct (so_holds _ _ _ _ (segments_nth p out _ 0 0 g0 (ci_segments _ _ _ _ _ IN) E0)) as (l & (MP & _) & H). apply F2_length in MP. apply F2_length in H. unfold len. lia.
  - exact (vw_version _ _ _ _ _ _ _ _ _ V).
  - exact SK.
  - split; [exact G1 | exact (G2 NM)].
Qed.
Print Assumptions C46_metadata_kept.

(** * What is streamed in *)
Definition tier_of (medium low : list frame_mapping) (t : DbStream.quality_tier) : list frame_mapping := match t with DbStream.Medium => medium | _ => low end.
(** A segment that has key frames in a tier is in one chunk of it, and has them exactly when the chunk is resident *)
Theorem C46_streamed_in_when_resident : forall sizes clips files max low_proportion medium_proportion high medium low medium_bytes medium_chunks low_bytes low_chunks c i file t k,
  built_database sizes clips files max low_proportion medium_proportion high medium low medium_bytes medium_chunks low_bytes low_chunks ->
  nth_error files c = Some file -> (i < length (cf_headers file))%nat -> streamable t -> held (tier_of medium low t) (N.of_nat c) (N.of_nat i) k = true ->
  let db := {| db_max_chunk_size := max; db_medium := medium_chunks; db_low := low_chunks |} in
  exists n ch, chunk_at db t n ch /\ In (header_of files c i) (map cs_segment_header_offset (ck_segs ch)) /\
    forall sh n0 n1 s, streamer_size n0 -> streamer_size n1 -> reachable db sh n0 n1 s ->
      if streamed_in files s t c (N.of_nat i) then chunk_resident s t ch else chunk_absent s t ch.
Proof.
  intros sizes clips files max pl pm high medium low mb mc lb lc c i file t k BD KF LI ST HE db. pose proof (bd_input _ _ _ _ _ _ _ _ _ _ _ _ _ BD) as IO. pose proof (bd_tiers _ _ _ _ _ _ _ _ _ _ _ _ _ BD) as BT.
  destruct (tiers_facts _ _ _ _ _ _ _ _ _ IO BT) as (_ & TF). pose proof IO as (LEN & CL & LF & FO & RT & MX & _). destruct (nth_error (cf_headers file) i) as [h |] eqn:KH; [| apply nth_error_None in KH; lia].
  assert (TI : tier_of medium low t = high \/ tier_of medium low t = medium \/ tier_of medium low t = low) by (destruct t; auto). destruct (TF _ TI) as (S1 & M1 & K1).
  assert (TS : exists bytes, tier_stored max (tier_of medium low t) (jobs_of files (tier_of medium low t)) bytes (db_chunks db t)).
  { destruct t; [exfalso; apply ST; reflexivity | exists mb; exact (bd_medium _ _ _ _ _ _ _ _ _ _ _ _ _ BD) | exists lb; exact (bd_low _ _ _ _ _ _ _ _ _ _ _ _ _ BD)]. }
  destruct TS as (bytes & _ & [(TE & _) | (TN & BK)]); [rewrite TE in HE; discriminate HE |].
  destruct (word_place sizes clips files max LEN CL LF FO RT _ S1 M1 K1 bytes (db_chunks db t) c i file h TN BK KF KH) as (sg & _ & I1 & I2 & SF & (cc & ch & kk & C1 & C2 & C3 & _) & _).
  fold (header_of files c i) in C3. exists (N.of_nat cc), ch. assert (CA : chunk_at db t (N.of_nat cc) ch) by (unfold chunk_at; rewrite Nat2N.id; exact C1). split; [exact CA |].
  split; [rewrite <- C3; apply in_map; exact (nth_error_In _ _ C2) |]. intros sh n0 n1 s Z0 Z1 RE.
  assert (NZ : cs_sample_indices sg <> 0). { intros Z. rewrite Z, stored_frames_0 in SF. apply held_iff in HE. apply (proj2 (kept_in _ _ _ _)) in HE. rewrite <- SF in HE. destruct HE. }
  pose proof (C23_visible_iff_resident db sh n0 n1 s t (N.of_nat cc) ch sg (bd_streams _ _ _ _ _ _ _ _ _ _ _ _ _ BD) Z0 Z1 RE ST CA (nth_error_In _ _ C2) I2 I1) as Q. unfold visible_metadata in Q. rewrite C3 in Q.
  unfold streamed_in. rewrite Nat2N.id. destruct Q as [(Q1 & Q2 & _) | (Q1 & Q2)]; rewrite Q2.
  - rewrite (proj2 (N.eqb_neq _ _)) by lia. exact Q1.
  - exact Q1.
Qed.
Print Assumptions C46_streamed_in_when_resident.

(** * Everything is streamed in *)
Lemma segment_unique p k i g f i' g' f' : TransPlaySpec.in_segment p k i g f -> TransPlaySpec.in_segment p k i' g' f' -> i = i' /\ f = f'.
Proof.
  assert (H : forall i g f i' g' f', TransPlaySpec.in_segment p k i g f -> TransPlaySpec.in_segment p k i' g' f' -> (i < i')%nat -> False).
  { clear. intros i g f i' g' f' (E & Q & L) (E' & Q' & L') LT. assert (M : forall a b, (a <= b)%nat -> start_of (sizes_of p) a <= start_of (sizes_of p) b).
    { clear. intros a b. induction 1 as [| b _ IH]; [lia |]. rewrite start_of_S. lia. }
    specialize (M (S i) i' LT). rewrite start_of_S in M. assert (N : nth i (sizes_of p) 0 = g_num_samples g) by (apply nth_error_nth; unfold sizes_of; apply map_nth_error; exact E). lia. }
  intros A B. destruct (Nat.lt_trichotomy i i') as [L | [-> | L]]; [elim (H _ _ _ _ _ _ A B L) | | elim (H _ _ _ _ _ _ B A L)]. split; [reflexivity |]. destruct A as (_ & S & _), B as (_ & S' & _). lia.
Qed.
Lemma same_events (a b : list event) : NoDup (map fst a) -> NoDup (map fst b) -> (forall ch i o, In (ch, i, o) a <-> In (ch, i, o) b) -> Permutation a b.
Proof. intros A B H. apply NoDup_Permutation; [exact (NoDup_map_inv _ _ A) | exact (NoDup_map_inv _ _ B) |]. intros [[ch i] o]. apply H. Qed.
Lemma plays_same p out rp i0 f0 i1 f1 x y : plays p out rp i0 f0 i1 f1 x -> plays p out rp i0 f0 i1 f1 y -> forall w,
  (exists a b, play_tracks w x = Ok a /\ play_tracks w y = Ok b /\ Permutation a b) /\ forall i, exists a b, play_track w x i = Ok a /\ play_track w y i = Ok b /\ Permutation a b.
Proof.
  intros X Y w. destruct (X w) as ((a & A1 & A2 & A3) & XT & XO). destruct (Y w) as ((b & B1 & B2 & B3) & YT & YO). split.
  - exists a, b. split; [exact A1 |]. split; [exact B1 |]. apply same_events; [exact A2 | exact B2 |]. intros ch i o. rewrite A3, B3. reflexivity.
  - intros i. destruct (N.lt_ge_cases i (len out)) as [L | L]; [| exists [], []; auto].
    destruct (XT i L) as (u & U1 & U2 & U3). destruct (YT i L) as (v & V1 & V2 & V3). exists u, v. split; [exact U1 |]. split; [exact V1 |]. apply same_events; [exact U2 | exact V2 |]. intros ch j o. rewrite U3, V3. reflexivity.
Qed.

(** the alpha is the same number once it is recovered from the position: [k + al] is a binary32 number *)
Lemma alpha_exact al k0 k1 a : is_f32 (FR al + IZR (Z.of_N k0)) -> k1 = k0 + 1 \/ k1 < k0 -> alpha_consistent al k0 k0 k1 a -> FR a = FR al.
Proof.
  intros E H (_ & _ & _ & A1 & A2). assert (R1 : rnd (FR al + IZR (Z.of_N k0)) = (FR al + IZR (Z.of_N k0))%R) by (apply rnd_id; exact E).
  assert (R2 : rnd (FR al + IZR (Z.of_N k0) - IZR (Z.of_N k0)) = FR al). { replace (FR al + IZR (Z.of_N k0) - IZR (Z.of_N k0))%R with (FR al) by lra. apply rnd_id. apply (Flocq.IEEE754.Binary.generic_format_B2R 24 128). }
  destruct H as [-> | H].
  - rewrite A1 by lia. rewrite R1, R2. replace (k0 + 1 - k0) with 1 by lia. change (IZR (Z.of_N 1)) with 1%R. unfold Rdiv. rewrite Rinv_1, Rmult_1_r. apply rnd_id. apply (Flocq.IEEE754.Binary.generic_format_B2R 24 128).
  - rewrite A2 by exact H. rewrite R1, R2. reflexivity.
Qed.
Lemma small_int_f32 z : (0 <= z < 2 ^ 24)%Z -> is_f32 (IZR z).
Proof.
  intros H. apply Flocq.Core.FLT.generic_format_FLT. exists (Flocq.Core.Defs.Float Flocq.Core.Zaux.radix2 z 0); cbn; [unfold Flocq.Core.Defs.F2R; cbn; lra | | lia].
  rewrite Z.abs_eq by lia. apply H.
Qed.
Lemma found_alpha n rate t rp lp k0 k1 al : 1 <= n < 2 ^ 22 - 2 -> ffinite rate = true -> sane (FR rate) -> ffinite t = true -> (0 <= FR t <= FR (clip_finite_duration n rate lp))%R ->
  find_linear_interpolation_samples_with_sample_rate n rate t rp lp = Ok (k0, k1, al) -> k0 = k1 \/ ((k1 = k0 + 1 \/ k1 < k0) /\ is_f32 (FR al + IZR (Z.of_N k0))).
Proof.
  intros Hn Hf Hr Ht Hd E. destruct (find_samples_spec n rate t rp lp Hn Hf Hr Ht Hd) as (i0 & i1 & a & E' & A1 & A2 & B0 & B1 & BN & _). rewrite E in E'. injection E' as -> -> ->.
  destruct (rounding_spec a rp A1) as (A3 & A4 & A5); [lra |]. change (2 ^ 22 - 2) with 4194302 in Hn.
  assert (INT : (FR (apply_rounding_policy a rp) = 0 \/ FR (apply_rounding_policy a rp) = 1)%R -> is_f32 (FR (apply_rounding_policy a rp) + IZR (Z.of_N i0))).
  { intros [-> | ->]; [replace (0 + IZR (Z.of_N i0))%R with (IZR (Z.of_N i0)) by lra | replace (1 + IZR (Z.of_N i0))%R with (IZR (Z.of_N i0 + 1)) by (rewrite plus_IZR; lra)]; apply small_int_f32; change (2 ^ 24)%Z with 16777216%Z; lia. }
  assert (EX : (IZR (Z.of_N i0) + FR a)%R = rnd (FR t * FR rate) -> is_f32 (FR (apply_rounding_policy a rp) + IZR (Z.of_N i0))).
  { intros Q. destruct rp; try (rewrite A5, Rplus_comm, Q; apply rnd_f32); apply INT; [left; exact A5 | right; exact A5 | apply A5]. }
  destruct lp.
  - destruct BN as (-> & Q). destruct (N.eq_dec i0 (n - 1)) as [Z | Z]; [left; lia | right]. split; [left; lia | apply EX, Q].
  - destruct BN as [(-> & Q) | (-> & -> & _)]; [| left; reflexivity]. destruct (N.eq_dec (i0 + 1) n) as [Z | Z].
    + rewrite Z, N.mod_same by lia. destruct (N.eq_dec i0 0) as [Z' | Z']; [left; exact Z' | right; split; [right; lia | apply EX, Q]].
    + rewrite N.mod_small by lia. right. split; [left; reflexivity | apply EX, Q].
Qed.

(** Once both tiers are streamed in, the bound clip shows what the original clip shows: after the same seek under the same looping policy, both
    contexts have the same two key frames, decompress_tracks and decompress_track write the same sub-tracks with the same samples, and
    the interpolation alpha is the same number (when there are two different key frames to interpolate) *)
Theorem C46_fully_streamed_plays_the_original : forall sizes clips files max low_proportion medium_proportion high medium low medium_bytes medium_chunks low_bytes low_chunks c f list_name tracks error p out src,
  built_database sizes clips files max low_proportion medium_proportion high medium low medium_bytes medium_chunks low_bytes low_chunks ->
  clip_to_bind sizes files c f list_name tracks error p out src ->
  exists m, bind_clip high (N.of_nat c) (clip_header_of files c) src = Ok m /\
    forall s medium_buffer low_buffer hash, database_state max medium_bytes medium_chunks low_bytes low_chunks s medium_buffer low_buffer ->
    (forall t n ch, streamable t -> chunk_at {| db_max_chunk_size := max; db_medium := medium_chunks; db_low := low_chunks |} t n ch -> chunk_resident s t ch) ->
    exists d, bound_database m hash s medium_buffer low_buffer = Ok d /\
      forall ds c0 c0' policies t rp, legal ds p (call_seek t rp) ->
      exists x y, bused ds c0 m d (map (fun q => (d, call_looping q)) policies ++ [(d, call_seek t rp)]) = Ok x /\
        used ds c0' src (map call_looping policies ++ [call_seek t rp]) = Ok y /\
        (forall w, (exists a b, play_tracks w x = Ok a /\ play_tracks w y = Ok b /\ Permutation a b) /\ forall i, exists a b, play_track w x i = Ok a /\ play_track w y i = Ok b /\ Permutation a b) /\
        exists i0 f0 i1 f1, plays p out rp i0 f0 i1 f1 x /\ plays p out rp i0 f0 i1 f1 y /\ ((i0, f0) = (i1, f1) \/ FR (x_alpha x) = FR (x_alpha y)).
Proof.
  intros sizes clips files max pl pm high medium low mb mc lb lc c f ln tracks error p out src BD CB.
  destruct (C46_bound_clip_plays _ _ _ _ _ _ _ _ _ _ _ _ _ _ _ _ _ _ _ _ _ BD CB) as (m & EB & H). exists m. split; [exact EB |]. intros s bm bl hash DS FULL. destruct (H s bm bl hash DS) as (d & ED & HP). exists d. split; [exact ED |].
  intros ds c0 c0' policies t rp L. destruct (HP ds c0 policies t rp L) as (x & k0 & k1 & al & i0 & f0 & i1 & f1 & X1 & X2 & X3 & X4).
  destruct (cb_compressed _ _ _ _ _ _ _ _ _ _ CB) as (j & J & CO). pose proof (cb_input _ _ _ _ _ _ _ _ _ _ CB) as IN. destruct (compress_made j f ln tracks error p out IN J) as (src' & CO' & MD). rewrite CO in CO'. injection CO' as <-.
  destruct (made_plays p out src MD ds c0' policies t rp L) as (y & k0' & k1' & al' & j0 & h0 & j1 & h1 & Y1 & Y2 & Y3 & Y4). rewrite X2 in Y2. injection Y2 as <- <- <-.
  exists x, y. split; [exact X1 |]. split; [exact Y1 |].
  destruct Y3 as (q0 & r0 & q1 & r1 & S0' & S1' & _ & _ & Y3). rewrite (cb_whole _ _ _ _ _ _ _ _ _ _ CB) in Y3. destruct Y3 as (-> & -> & EA).
  destruct X3 as (g0 & u0 & g1 & u1 & S0 & S1 & C0 & C1 & LA & FA & AC).
  destruct (segment_unique _ _ _ _ _ _ _ _ S0 S0') as (<- & <-). destruct (segment_unique _ _ _ _ _ _ _ _ S1 S1') as (<- & <-).
  pose proof (bd_input _ _ _ _ _ _ _ _ _ _ _ _ _ BD) as IO. pose proof (bd_tiers _ _ _ _ _ _ _ _ _ _ _ _ _ BD) as BT. destruct (tiers_facts _ _ _ _ _ _ _ _ _ IO BT) as (PM & _). pose proof IO as (LEN & CL & LF & FO & RT & MX & _).
  destruct (cb_file _ _ _ _ _ _ _ _ _ _ CB) as (file & KF & _). pose proof (cb_sizes _ _ _ _ _ _ _ _ _ _ CB) as KZ. destruct DS as ((sh & n0 & n1 & Z0 & Z1 & RE) & _).
  destruct (file_sizes sizes clips files max LEN CL LF FO RT c file KF) as (z & cl & KZ' & KC & F & CKO & LZ). rewrite KZ in KZ'. injection KZ' as <-.
  assert (AV : forall i g k, nth_error (p_segments p) i = Some g -> k < g_num_samples g -> available_now high medium low (N.of_nat c) (streamed_in files s DbStream.Medium c) (streamed_in files s DbStream.Lowest c) i k = true).
  { intros i g k Eg Hk. assert (KN : nth_error (sizes_of p) i = Some (g_num_samples g)) by (unfold sizes_of; apply map_nth_error; exact Eg).
    assert (LI : (i < length (cf_headers file))%nat) by (rewrite <- LZ; apply nth_error_Some; congruence).
    pose proof (in_all_frames sizes clips files max LEN CL LF FO RT c i k _ _ KZ KN Hk) as I. apply (Permutation_in _ (Permutation_sym PM)) in I. rewrite !map_app, !in_app_iff, <- !held_iff in I.
    assert (ONE : forall tt, streamable tt -> held (tier_of medium low tt) (N.of_nat c) (N.of_nat i) k = true -> streamed_in files s tt c (N.of_nat i) = true).
    { intros tt ST HE. destruct (C46_streamed_in_when_resident _ _ _ _ _ _ _ _ _ _ _ _ _ c i file tt k BD KF LI ST HE) as (nn & ch & CA & _ & Q). specialize (Q sh n0 n1 s Z0 Z1 RE). destruct (streamed_in files s tt c (N.of_nat i)); [reflexivity | exfalso].
      pose proof (FULL tt nn ch ST CA) as R. pose proof (bd_streams _ _ _ _ _ _ _ _ _ _ _ _ _ BD) as (_ & WF). destruct (WF tt ST) as (WF1 & _). destruct (WF1 nn ch CA) as (_ & SZ & _).
      specialize (R (ck_offset ch) ltac:(lia)). specialize (Q (ck_offset ch) ltac:(lia)). congruence. }
    unfold available_now. destruct I as [I | [I | I]].
    - rewrite I. reflexivity.
    - rewrite I, (ONE DbStream.Medium ltac:(discriminate) I). rewrite orb_true_r. reflexivity.
    - rewrite I, (ONE DbStream.Lowest ltac:(discriminate) I). rewrite !orb_true_r. reflexivity. }
  assert (F0 : f0 = u0). { destruct LA as (L1 & _ & L3). destruct (N.eq_dec f0 u0) as [E | E]; [exact E |]. specialize (L3 u0 ltac:(lia)). destruct S0 as (E0 & _ & Q). rewrite (AV i0 g0 u0 E0 Q) in L3. discriminate. }
  assert (F1 : f1 = u1). { destruct FA as (L1 & _ & L3). destruct (N.eq_dec f1 u1) as [E | E]; [exact E |]. specialize (L3 u1 ltac:(lia)). destruct S1 as (E1 & _ & Q). rewrite (AV i1 g1 u1 E1 Q) in L3. discriminate. }
  subst u0 u1. split; [exact (plays_same _ _ _ _ _ _ _ _ _ X4 Y4) |]. exists i0, f0, i1, f1. split; [exact X4 |]. split; [exact Y4 |].
  pose proof S0 as (_ & P0 & _). pose proof S1 as (_ & P1 & _). rewrite P0, P1 in AC. pose proof (ci_timing _ _ _ _ _ IN) as TI.
  set (lp := in_effect ds p policies) in *.
  assert (TR : ffinite (sought ds (clip_finite_duration (p_num_samples p) (p_sample_rate p) lp) t) = true /\ (0 <= FR (sought ds (clip_finite_duration (p_num_samples p) (p_sample_rate p) lp) t) <= FR (clip_finite_duration (p_num_samples p) (p_sample_rate p) lp))%R).
  { destruct (finite_duration_R _ _ lp (ti_samples _ TI) (ti_rate _ TI) (ti_sane _ TI)) as (D1 & _ & _ & D2). unfold sought. destruct (clamp_sample_time ds) eqn:CT; [apply fclamp_any; [exact D1 | apply D2] |].
    destruct L as [L | [FF [L1 L2]]]; [congruence |]. split; [exact FF |]. split; [exact L1 |]. eapply Rle_trans; [exact L2 |].
    pose proof (ti_samples _ TI). rewrite !duration_eq by (try apply TI; assumption). apply fdiv_mono; try apply TI; destruct lp; lia. }
  destruct (found_alpha _ _ _ _ _ _ _ _ (ti_samples _ TI) (ti_rate _ TI) (ti_sane _ TI) (proj1 TR) (proj2 TR) X2) as [E | (NB & IF)].
  - left. rewrite <- E in S1. destruct (segment_unique _ _ _ _ _ _ _ _ S0 S1) as (-> & ->). reflexivity.
  - right. rewrite (alpha_exact al k0 k1 _ IF NB AC), EA. reflexivity.
Qed.
Print Assumptions C46_fully_streamed_plays_the_original.
