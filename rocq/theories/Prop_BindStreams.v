(** A concrete case that meets the hypotheses of C46: the clip of C41, built into a database by itself. *)
From Coq Require Import Reals Lra Lia List Permutation Sorting.Sorted.
From Verif Require Import Word MemoryUtils Float32 Float32Facts Hash Headers Interp ScalarDec ScalarMeta ScalarPlay Segment Strip StripOrder StripSpec ClipOrderFacts SeekSpec DbTiers TierSpec DbBuild DbStream ClipRewrite StreamSpec BuildSpec Prop_Strip Prop_Tiers Prop_Stream Prop_Build
  TransBind TransDec TransSpec TransClipSpec TransFile TransFileFacts TransSeek TransPlaySpec TransMeta TransTop Prop_Trans TransExample BindSpec Prop_Bind Prop_StreamFill.
Import ListNotations.
Local Open Scope N_scope.
Ltac Zify.zify_post_hook ::= idtac.

(** * Every database can be streamed in completely *)
Theorem C46_fully_streamed_is_reached : forall sizes clips files max low_proportion medium_proportion high medium low medium_bytes medium_chunks low_bytes low_chunks,
  built_database sizes clips files max low_proportion medium_proportion high medium low medium_bytes medium_chunks low_bytes low_chunks -> bytes_ok medium_bytes -> bytes_ok low_bytes ->
  exists s : system, database_state max medium_bytes medium_chunks low_bytes low_chunks s medium_bytes low_bytes /\
    forall t n ch, streamable t -> chunk_at {| db_max_chunk_size := max; db_medium := medium_chunks; db_low := low_chunks |} t n ch -> chunk_resident s t ch.
Proof.
  intros sizes clips files max lp mp high medium low mb mc lb lc BD BM BL. set (db := {| db_max_chunk_size := max; db_medium := mc; db_low := lc |}).
  assert (SZ : streamer_size 2) by (split; [discriminate | reflexivity]). assert (B1 : 1 <= 1 < 2 ^ 32) by (split; [discriminate | reflexivity]).
  assert (K : forall t, num_chunks db t <= N.of_nat (N.to_nat (num_chunks db t)) * 1) by (intros; lia).
  destruct (C24_whole_database_streams_in db false 2 2 1 _ 1 _ (bd_streams _ _ _ _ _ _ _ _ _ _ _ _ _ BD) SZ SZ B1 B1 (K _) (K _)) as (_ & s & _ & _ & R & _ & ALL).
  exists s. split; [| exact ALL]. split; [exists false, 2%nat, 2%nat; split; [exact SZ |]; split; [exact SZ | exact R] |].
  split; (split; [assumption |]; split; [reflexivity | reflexivity]).
Qed.
Print Assumptions C46_fully_streamed_is_reached.

(** * The clip *)
Definition bx_src : list N := Eval vm_compute in match ex_compressed false with Ok m => m | _ => [] end.
(** what the builder is given *)
Definition bx_order : list keyframe := match sort_contributing_error 6 [sat_seg 0 3 0 0; sat_seg 1 3 1 3] with Ok l => l | _ => [] end.
Definition bx_raws : list raw_segment := [{| w_pose := 117; w_rotation := 96; w_translation := 21; w_data := 204 |}; {| w_pose := 72; w_rotation := 15; w_translation := 0; w_data := 292 |}].
Definition bx_bytes : list N := Eval vm_compute in skipn 32 bx_src.
Definition bx_file : clip_file := {| cf_hash := 2951531789; cf_transforms := {| tr_variable_sub_tracks := 6; tr_num_segments := 2 |}; cf_bytes := bx_bytes; cf_headers := map header_of_raw bx_raws; cf_base := 300; cf_tail := 15 |}.
Definition bx_data : list (list N) := Eval vm_compute in map (fun h => skipn (N.to_nat (BuildSpec.animated_at (cf_transforms bx_file) h)) (cf_bytes bx_file)) (cf_headers bx_file).
Definition bx_clip : db_clip := {| dc_num_samples := 6; dc_starts := [0; 3]; dc_pose_bits := [117; 72];
  dc_data := bx_data; dc_order := Some bx_order |}.
Definition quarter : f32 := f_of_bits 0x3E800000.
Definition bx_tiers : list frame_mapping * list frame_mapping * list frame_mapping := match build_tiers quarter quarter [bx_clip] with Ok x => x | _ => ([], [], []) end.
Definition bx_high := fst (fst bx_tiers). Definition bx_medium := snd (fst bx_tiers). Definition bx_low := snd bx_tiers.
(** four key frames stay in the clip, one goes to the medium tier and one to the lowest tier *)
Example C46_tiers : (map key bx_high, map key bx_medium, map key bx_low) = ([(0, 0, 0); (0, 0, 2); (0, 1, 0); (0, 1, 2)], [(0, 1, 1)], [(0, 0, 1)]).
Proof. vm_compute. reflexivity. Qed.
Example C46_clip_order : clip_order [3; 3] bx_order.
Proof.
  assert (S3 := C37_segment_order (sat_err 0) 3 0 ltac:(lia)). assert (S4 := C37_segment_order (sat_err 1) 3 1 ltac:(lia)).
  destruct S3 as (l3 & E3 & H3). { intros a b AB B. assert (D : a = 0 /\ b = 2) by lia. destruct D as [-> ->]. vm_compute. reflexivity. }
  destruct S4 as (l4 & E4 & H4). { intros a b AB B. assert (D : a = 0 /\ b = 2) by lia. destruct D as [-> ->]. vm_compute. reflexivity. }
  destruct (C37_clip_order [3; 3] [sat_seg 0 3 0 0; sat_seg 1 3 1 3]) as (o & O1 & _ & O3); [reflexivity | vm_compute; reflexivity | |].
  - intros [|[|[|s]]] sg K; cbn [nth_error] in K; [| |discriminate K|discriminate K]; injection K as <-; (split; [reflexivity|]; split; [reflexivity|]).
    + unfold sat_seg. cbn [se_errors]. rewrite E3. apply H3, sort_strip_sorted.
    + unfold sat_seg. cbn [se_errors]. rewrite E4. apply H4, sort_strip_sorted.
  - unfold bx_order. change (sumN [3; 3]) with 6 in O1. rewrite O1. exact O3.
Qed.
Lemma bx_input : input_ok [[3; 3]] [bx_clip] [bx_file] 4096 quarter quarter.
Proof.
  split; [reflexivity|]. split.
  { intros [|[|i]] z c K1 K2; cbn [nth_error] in K1, K2; [|discriminate K1|discriminate K1]. injection K1 as <-. injection K2 as <-.
    split; [reflexivity|]. split; [vm_compute; reflexivity|]. split; [cbn; lia|]. split; [cbn; lia|]. split; [repeat constructor; lia|].
    split; [reflexivity|]. split; [reflexivity|]. split; [reflexivity|]. split; [|exists bx_order; split; [reflexivity | exact C46_clip_order]].
    intros [|[|s]] L; cbn in L; [reflexivity | reflexivity | lia]. }
  split; [reflexivity|]. split.
  { intros [|[|i]] z c f K1 K2 K3; cbn [nth_error] in K1, K2, K3; [|discriminate K1|discriminate K1]. injection K1 as <-. injection K2 as <-. injection K3 as <-.
    split; [vm_compute; reflexivity|]. split; [vm_compute; repeat constructor|]. split; [reflexivity|]. split; [vm_compute; reflexivity|].
    intros [|[|[|s]]] h n K1 K2; cbn [nth_error] in K1, K2; [| |discriminate K2|discriminate K2]; cbn [bx_file cf_headers map bx_raws nth_error] in K1; injection K1 as <-; injection K2 as <-.
    - split; [vm_compute; repeat split; congruence|]. split; [vm_compute; congruence|]. split; reflexivity.
    - split; [vm_compute; repeat split; congruence|]. split; [vm_compute; congruence|]. split; reflexivity. }
  split; [vm_compute; reflexivity|]. split; [vm_compute; congruence|].
  assert (R4 : ffinite quarter = true /\ (0 <= FR quarter <= 1)%R). { split; [vm_compute; reflexivity|]. unfold FR. vm_compute. lra. }
  split; [exact R4|]. split; [exact R4|]. vm_compute. congruence.
Qed.
Lemma bx_built : exists medium_bytes medium_chunks low_bytes low_chunks,
  built_database [[3; 3]] [bx_clip] [bx_file] 4096 quarter quarter bx_high bx_medium bx_low medium_bytes medium_chunks low_bytes low_chunks /\ bytes_ok medium_bytes /\ bytes_ok low_bytes.
Proof.
  assert (T : build_tiers quarter quarter [bx_clip] = Ok (bx_high, bx_medium, bx_low)).
  { assert (Q : match build_tiers quarter quarter [bx_clip] with Ok _ => true | _ => false end = true) by (vm_compute; reflexivity).
    unfold bx_high, bx_medium, bx_low, bx_tiers. destruct (build_tiers quarter quarter [bx_clip]) as [[[h m] l] | |]; [reflexivity | discriminate Q | discriminate Q]. }
  assert (F1 : bulk_fits 4096 [bx_file] bx_medium) by (vm_compute; reflexivity). assert (F2 : bulk_fits 4096 [bx_file] bx_low) by (vm_compute; reflexivity).
  destruct (C22_database _ _ _ _ _ _ _ _ _ bx_input T F1 F2) as (mb & mc & lb & lc & E1 & S1 & E2 & S2). exists mb, mc, lb, lc.
  assert (W : well_formed {| db_max_chunk_size := 4096; db_medium := mc; db_low := lc |}).
  { eapply (C22_streamable _ _ _ _ _ _ _ _ _ _ _ _ _ bx_input ltac:(vm_compute; congruence) T); [| exact F1 | exact F2 | exact S1 | exact S2].
    intros tier j Q I. assert (A : forallb (fun j => data_bytes (sj_frames j) + 47 <=? 4096) (jobs_of [bx_file] tier) = true) by (destruct Q as [-> | ->]; vm_compute; reflexivity).
    rewrite forallb_forall in A. apply N.leb_le. exact (A j I). }
  split; [constructor; [exact bx_input | exact T | exact S1 | exact S2 | exact W] |].
  split.
  - assert (B : bytes_ok (match build_bulk_data 4096 bx_medium (jobs_of [bx_file] bx_medium) true with Ok m => m | _ => [] end)) by (vm_compute; repeat constructor). rewrite E1 in B. exact B.
  - assert (B : bytes_ok (match build_bulk_data 4096 bx_low (jobs_of [bx_file] bx_low) false with Ok m => m | _ => [] end)) by (vm_compute; repeat constructor). rewrite E2 in B. exact B.
Qed.
Lemma bx_bind : clip_to_bind [[3; 3]] [bx_file] 0 ex_flags [97] ex_ttracks ex_error (ex_tclip false) ex_out bx_src.
Proof.
  constructor.
  - reflexivity.
  - exists bx_file. split; [reflexivity |]. split; [| vm_compute; reflexivity].
    exists 2, 6, 64, bx_raws. repeat (split; [vm_compute; reflexivity |]). vm_compute. reflexivity.
  - apply ex_input.
  - exists ex_junks. split; [exact ex_junks_ok |]. vm_compute. reflexivity.
  - reflexivity.
  - split; [reflexivity | discriminate].
Qed.
(** so the clip is rewritten, and once the database is streamed in completely - it can be - a seek plays what the clip plays without a database *)
Example C46_example : exists m, bind_clip bx_high 0 0 bx_src = Ok m /\
  exists s medium_buffer low_buffer d, bound_database m 1234 s medium_buffer low_buffer = Ok d /\
    forall policies t rp, exists x y, bused ex_settings ex_blank m d (map (fun q => (d, call_looping q)) policies ++ [(d, call_seek t rp)]) = Ok x /\
      used ex_settings ex_blank bx_src (map call_looping policies ++ [call_seek t rp]) = Ok y /\
      exists a b, play_tracks ex_twriter x = Ok a /\ play_tracks ex_twriter y = Ok b /\ Permutation a b.
Proof.
  destruct bx_built as (mb & mc & lb & lc & BD & BM & BL).
  destruct (C46_fully_streamed_plays_the_original _ _ _ _ _ _ _ _ _ _ _ _ _ _ _ _ _ _ _ _ _ BD bx_bind) as (m & E & H). exists m. split; [exact E |].
  destruct (C46_fully_streamed_is_reached _ _ _ _ _ _ _ _ _ _ _ _ _ BD BM BL) as (s & DS & FULL).
  destruct (H s mb lb 1234 DS FULL) as (d & ED & P). exists s, mb, lb, d. split; [exact ED |]. intros policies t rp.
  destruct (P ex_settings ex_blank ex_blank policies t rp (or_introl eq_refl)) as (x & y & X & Y & PL & _). exists x, y. split; [exact X |]. split; [exact Y |]. exact (proj1 (PL ex_twriter)).
Qed.
(** The rewritten clip before anything is streamed in: the key frame 1 is gone, and half way between its neighbours is shown for it; what is shown
    for the key frame 2 is not changed *)
Definition bx_play (m : list N) (d : option tdatabase) (t : f32) : outcome (N * N * N) :=
  bindo (tinitialize ex_settings ex_blank m d) (fun c => bindo (tseek ex_settings c t rp_none) (fun c => Ok (f_bits (x_alpha c), kf_offset (x_kf0 c), kf_offset (x_kf1 c)))).
Definition bx_nothing : tdatabase := {| t_hash := 1234; t_metadata := fun _ => (0, 0); t_medium := []; t_low := [] |}.
Example C46_example_values : bindo (ex_compressed false) (fun src => bindo (bind_clip bx_high 0 0 src) (fun m =>
  bindo (bx_play src None one_30th) (fun a => bindo (bx_play m (Some bx_nothing) one_30th) (fun b =>
  bindo (bx_play src None (fmul (f_of_N 2) one_30th)) (fun c => bindo (bx_play m (Some bx_nothing) (fmul (f_of_N 2) one_30th)) (fun d => Ok (blen src, blen m, [a; b; c; d]))))))) =
  Ok (604, 592, [(0, 117, 234); (1056964608, 0, 117); (0, 234, 0); (0, 117, 0)]).
Proof. vm_compute. reflexivity. Qed.
