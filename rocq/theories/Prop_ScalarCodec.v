(** C17, C29, C33: scalar tracks compress and play back.  Model: ScalarEnc.v, ScalarDec.v; vocabulary: ScalarSpec.v. *)
From Verif Require Import Word Float32 Float32Facts Interp InterpFacts TrackArray TrackSpec TrackArrayFacts Headers
  ScalarEnc ScalarDec ScalarSpec ScalarExamples ScalarLink ScalarCodec2 Prop_Float.
From Coq Require Import Lia ZifyBool ZifyN ZifyNat Reals Lra.
Ltac Zify.zify_post_hook ::= idtac.
Import ListNotations.
Local Open Scope N_scope.

(** * C17 *)
(** Compression succeeds, and playing the clip at the time of any key frame it keeps, whatever the context was used for before
    and whatever the writer skips, writes every track that is not stripped under its output index, every component within the
    track's precision of the input. *)
Theorem C17_round_trip : forall s list_name lp ts, scalar_list list_name ts ->
  exists m, compress_scalar s list_name lp ts = Ok (Some m) /\
  forall ds w c0 k, known_type ds (list_type ts) = true -> (is_per_track_rounding_supported ds = true -> keeps_nearest w) ->
    k < list_num_samples ts -> (looping s lp ts -> k + 1 < list_num_samples ts) ->
    exists res, play ds w c0 m (fdiv (f_of_N k) (list_sample_rate ts)) rp_nearest = Ok res /\
      map fst res = filter (fun i => negb (w_skip w i)) (map N.of_nat (seq 0 (length (outputs (map st_track ts))))) /\
      forall t, In t ts -> output_index (st_track t) <> k_invalid_track_index -> w_skip w (output_index (st_track t)) = false ->
        exists u, In (output_index (st_track t), u) res /\ within (precision (st_track t)) (nth (N.to_nat k) (st_samples t) []) u.
Proof.
  intros s list_name lp ts W. destruct (clip_facts s list_name lp ts W) as (m & E & _ & _ & _ & R). exists m. split; [exact E|].
  intros ds w c0 k KT KN K1 K2.
  assert (K : k < list_num_samples ts - (if loops s lp ts then 1 else 0)).
  { destruct (loops s lp ts) eqn:L; [|lia]. apply (loops_spec s list_name lp ts W) in L. specialize (K2 L). lia. }
  destruct (R ds w c0 k KT KN (or_introl K)) as (res & R1 & R2 & R3). rewrite (N.mod_small _ _ K) in R3. exists res. auto.
Qed.
Print Assumptions C17_round_trip.

(** A precision of zero gives back the same numbers. *)
Theorem C17_lossless : forall p x y, ffinite p = true -> FR p = 0%R -> within p x y -> Forall2 (fun a b => FR a = FR b) x y.
Proof. exact within_zero. Qed.
Print Assumptions C17_lossless.

(** * C33 *)
(** A clip that loops is stored without its last sample, with the wrapping policy and the duration of the input; played with
    wrapping, the time of the dropped sample gives the first one, which is within precision of the dropped one. *)
Theorem C33_looping : forall s list_name lp ts, scalar_list list_name ts -> outputs (map st_track ts) <> [] -> looping s lp ts ->
  exists m, compress_scalar s list_name lp ts = Ok (Some m) /\
    h_num_samples m = Ok (list_num_samples ts - 1) /\ clip_looping_policy m = Ok lp_wrap /\
    finite_duration m lp_wrap = Ok (calculate_finite_duration (list_num_samples ts) (list_sample_rate ts)) /\
    forall ds w c0, known_type ds (list_type ts) = true -> (is_per_track_rounding_supported ds = true -> keeps_nearest w) -> is_wrapping_supported ds = true ->
    exists res, play ds w c0 m (fdiv (f_of_N (list_num_samples ts - 1)) (list_sample_rate ts)) rp_nearest = Ok res /\
      forall t, In t ts -> output_index (st_track t) <> k_invalid_track_index -> w_skip w (output_index (st_track t)) = false ->
        exists u, In (output_index (st_track t), u) res /\ within (precision (st_track t)) (hd [] (st_samples t)) u /\
          within (precision (st_track t)) (hd [] (st_samples t)) (last (st_samples t) []).
Proof.
  intros s list_name lp ts W NE LO. destruct (clip_facts s list_name lp ts W) as (m & E & H & _ & P & R). pose proof LO as (O1 & O2 & O3 & O4).
  apply (loops_spec s list_name lp ts W) in LO. rewrite LO in *. destruct (H NE) as [H1 H2]. exists m. split; [exact E|]. split; [exact H1|]. split; [exact P|].
  assert (B : list_num_samples ts < 2 ^ 22 - 2).
  { destruct (shape ts) as [Z|(t & r & Z)]; [rewrite Z in NE; exfalso; apply NE; reflexivity|]. assert (I : In t ts) by (rewrite Z; left; reflexivity).
    destruct (track_facts s list_name lp ts W t I) as (_ & _ & _ & _ & _ & B & _). apply B. }
  split.
  { unfold finite_duration. rewrite H1, H2. cbn [bindo]. unfold clip_finite_duration. replace (list_num_samples ts - 1 =? 0) with false by lia.
    replace (wrapw 32 (list_num_samples ts - 1 + 1)) with (list_num_samples ts); [reflexivity|]. unfold wrapw. rewrite N.mod_small; [lia|]. change (2 ^ 32) with 4294967296. lia. }
  intros ds w c0 KT KN WS. destruct (R ds w c0 (list_num_samples ts - 1) KT KN) as (res & R1 & _ & R3); [right; rewrite WS; auto|].
  rewrite N.mod_same in R3 by lia. exists res. split; [exact R1|]. intros t I OI SK. destruct (R3 t I OI SK) as (u & U1 & U2). exists u. split; [exact U1|].
  split; [|exact (proj1 (Forall_forall _ _) O4 t I)]. change (N.to_nat 0) with 0%nat in U2. destruct (st_samples t); exact U2.
Qed.
Print Assumptions C33_looping.

(** A clip that does not loop keeps its samples, policy and duration. *)
Theorem C33_not_looping : forall s list_name lp ts, scalar_list list_name ts -> outputs (map st_track ts) <> [] -> ~ looping s lp ts ->
  exists m, compress_scalar s list_name lp ts = Ok (Some m) /\
    h_num_samples m = Ok (list_num_samples ts) /\ clip_looping_policy m = Ok lp /\
    finite_duration m lp_clamp = Ok (calculate_finite_duration (list_num_samples ts) (list_sample_rate ts)).
Proof.
  intros s list_name lp ts W NE LO. destruct (clip_facts s list_name lp ts W) as (m & E & H & _ & P & R).
  rewrite <- (loops_spec s list_name lp ts W) in LO. apply Bool.not_true_is_false in LO. rewrite LO in *. rewrite N.sub_0_r in *. destruct (H NE) as [H1 H2].
  exists m. repeat split; auto. unfold finite_duration. rewrite H1, H2. reflexivity.
Qed.
Print Assumptions C33_not_looping.

(** * C29 *)
(** Any history of calls that starts with initialize, on clips made by compression, is defined: every load of seek,
    decompress_tracks and decompress_track lies in the buffer, for every time, NaN included when the settings clamp. *)
Theorem C29_scalar_playback_stays_in_the_buffer : forall ds c0 m l, compressed m -> legal_calls ds m l ->
  exists d, do_calls ds c0 (c_initialize m :: l) = Ok d /\
    forall w, (exists res, decompress_tracks ds d w = Ok res) /\ (forall i, exists res, decompress_track ds d i w = Ok res).
Proof.
  intros ds c0 m l C L. destruct (compressed_initialize ds m c0 C) as (d & E & P). destruct (play_calls ds l m d P L) as (d' & cur & E' & P').
  exists d'. split; [cbn [do_calls do_call]; rewrite E; exact E'|]. exact (plays_defined ds cur d' P').
Qed.
Print Assumptions C29_scalar_playback_stays_in_the_buffer.

(** * The hypotheses are met: the three tracks of ScalarExamples, and a clip that loops *)
Lemma sane_30 : sane (FR (f_of_N 30)).
Proof. exact sane30. Qed.
Example ex_scalar_list : scalar_list [107] ex_tracks.
Proof.
  constructor.
  - vm_compute. reflexivity.
  - repeat apply Forall_cons; try apply Forall_nil; (split; [reflexivity|]; split; [reflexivity|]; split; [vm_compute; discriminate|]; split; [reflexivity|]; split; [split; [vm_compute; discriminate|vm_compute; reflexivity]|]; split; [exact sane_30|repeat constructor]).
  - repeat constructor.
  - repeat constructor.
  - vm_compute. reflexivity.
Qed.
Definition loop_tracks : list strack :=
  [ {| st_track := ex_desc 1 4 0 f_0_001; st_name := []; st_samples := [[f_of_N 1; f_zero]; [f_of_N 2; f_of_N 1]; [f_of_N 5; f_zero]; [f_of_bits 0x3F800001; f_zero]] |} ].
Example loop_scalar_list : scalar_list [] loop_tracks.
Proof.
  constructor.
  - vm_compute. reflexivity.
  - repeat apply Forall_cons; try apply Forall_nil; (split; [reflexivity|]; split; [reflexivity|]; split; [vm_compute; discriminate|]; split; [reflexivity|]; split; [split; [vm_compute; discriminate|vm_compute; reflexivity]|]; split; [exact sane_30|repeat constructor]).
  - repeat constructor.
  - constructor.
  - vm_compute. reflexivity.
Qed.
Example loop_looping : looping ex_settings lp_clamp loop_tracks.
Proof. split; [reflexivity|]. split; [reflexivity|]. split; [vm_compute; discriminate|]. repeat constructor. Qed.
Example ex_compressed : compressed ex_clip.
Proof. exists ex_settings, [107], lp_clamp, ex_tracks. split; [exact ex_scalar_list|]. vm_compute. reflexivity. Qed.

(** the looping clip, computed: three samples are left, the fourth key frame is the first *)
Example loop_computed :
  bindo (compress_scalar ex_settings [] lp_clamp loop_tracks) (fun o => match o with
    | Some m => bindo (h_num_samples m) (fun n => bindo (play ex_ds ex_writer fresh_context m (fdiv (f_of_N 3) (f_of_N 30)) rp_nearest) (fun r => Ok (n, show r)))
    | None => UB end)
  = Ok (3, [(0, [f_bits (f_of_N 1); 0])]).
Proof. vm_compute. reflexivity. Qed.

(** Outside [scalar_list]: tracks without samples are accepted by validation, and a precision above 2e10 makes such a track
    constant, whose first sample is then read although there is none. *)
Definition no_samples : list strack := [ {| st_track := ex_desc 0 0 0 (f_of_bits 0x51BA43B7); st_name := []; st_samples := [] |} ].
Theorem C29_no_samples_refuted : track_array_is_valid (map st_track no_samples) = true /\ compress_scalar ex_settings [] lp_clamp no_samples = UB.
Proof. split; vm_compute; reflexivity. Qed.
Print Assumptions C29_no_samples_refuted.
