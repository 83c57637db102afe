(** The round trip and safety theorems, from the section lemmas. *)
From Verif Require Import Word WordFacts Float32 Float32Facts FloatOrder Interp InterpFacts TrackArray TrackSpec TrackArrayFacts Pieces Headers
  ScalarEnc ScalarDec ScalarSpec ScalarBits ScalarWrite ScalarRead ScalarLanes ScalarTrackFacts ScalarDecFacts ScalarSeekFacts ScalarLink ScalarPlay ScalarCodec LayoutBuild.
From Coq Require Import Lia ZifyBool ZifyN ZifyNat Reals Lra Permutation.
From Flocq Require Import Core Plus_error.
Ltac Zify.zify_post_hook ::= idtac.
Import ListNotations.
Local Open Scope N_scope.
#[local] Opaque clip_bytes body m_all Hash.hash32.

Lemma forall2_nth p : forall x y, length x = length y -> (forall j, (j < length x)%nat -> near p (at_ j x) (at_ j y)) -> within p x y.
Proof.
  induction x as [|a x IH]; intros [|b y] L H; try discriminate L; constructor; [apply (H 0%nat); cbn [length]; lia|].
  apply IH; [cbn [length] in L; lia|]. intros j J. apply (H (Datatypes.S j)). cbn [length]. lia.
Qed.
Lemma nth_forall2 p : forall x y, within p x y -> length x = length y /\ (forall j, (j < length x)%nat -> near p (at_ j x) (at_ j y)).
Proof.
  induction x as [|a x IH]; intros y H; inversion H as [|? b ? y' H1 H2]; subst; [split; [reflexivity|intros j J; cbn in J; lia]|].
  destruct (IH _ H2) as [L F]. split; [cbn [length]; lia|]. intros [|j] J; [exact H1|]. apply F. cbn [length] in J. lia.
Qed.
(** precision zero is exact *)
Lemma within_zero p x y : ffinite p = true -> FR p = 0%R -> within p x y -> Forall2 (fun a b => FR a = FR b) x y.
Proof.
  intros P Z H. induction H as [|a b x y H _ IH]; constructor; [|exact IH]. destruct (near_elim _ _ _ P H) as (A & B & D). rewrite Z in D.
  assert (D0 : rnd (FR a - FR b) = 0%R). { pose proof (Rabs_pos (rnd (FR a - FR b))). assert (Rabs (rnd (FR a - FR b)) = 0%R) by lra. destruct (Req_dec (rnd (FR a - FR b)) 0); [assumption|]. apply Rabs_no_R0 in H2. contradiction. }
  destruct (Req_dec (FR a - FR b) 0) as [E|E]; [lra|]. exfalso. revert D0. unfold Rminus, rnd. 
  apply round_plus_neq_0; try typeclasses eauto; [apply FR_f32|apply generic_format_opp, FR_f32|exact E].
Qed.

Lemma loops_spec s list_name lp ts : scalar_list list_name ts -> loops s lp ts = true <-> looping s lp ts.
Proof.
  intros W. assert (C : forall t, In t ts -> closes t = true <-> within (precision (st_track t)) (hd [] (st_samples t)) (last (st_samples t) [])).
  { intros t I. destruct (track_facts s list_name lp ts W t I) as (_ & _ & _ & _ & L & N1 & (PF & P0) & _ & _ & V).
    unfold closes. destruct (exists_last (l := st_samples t)) as (a & x & EX); [intros E; rewrite E in L; cbn in L; lia|].
    assert (LX : last (map promote (st_samples t)) [] = promote (last (st_samples t) [])) by (rewrite EX, map_app; cbn [map]; rewrite !last_last; reflexivity).
    assert (HX : hd [] (map promote (st_samples t)) = promote (hd [] (st_samples t))) by (destruct (st_samples t); [cbn in L; lia|reflexivity]).
    rewrite LX, HX. set (y := last _ []). set (z := hd _ _).
    assert (Y : length y = num_sample_elements (list_type ts)) by (rewrite Forall_forall in V; apply (V y); unfold y; rewrite EX, last_last; apply in_or_app; right; left; reflexivity).
    assert (Z : length z = num_sample_elements (list_type ts)) by (rewrite Forall_forall in V; apply (V z); unfold z; destruct (st_samples t); [cbn in L; lia|left; reflexivity]).
    pose proof (nc_bounds s list_name lp ts W) as NB. set (k := num_sample_elements (list_type ts)) in *. clearbody k y z. clear - Y Z PF P0 NB.
    unfold all_near_equal, promote. rewrite Y, Z. 
    assert (R : forall q, forallb (fun d => fle (fabs d) (precision (st_track t))) (map2 fsub (repeat f_zero q) (repeat f_zero q)) = true).
    { induction q as [|q IH]; [reflexivity|]. cbn [repeat map2 forallb]. rewrite IH, andb_true_r. apply fle_R; [reflexivity|exact PF|]. exact P0. }
    clear NB. generalize (4 - k)%nat. intros q. revert y z Y Z. induction k as [|k IH]; intros y z Y Z.
    - destruct y; [|discriminate Y]. destruct z; [|discriminate Z]. cbn [app]. rewrite R. split; [constructor|reflexivity].
    - destruct y as [|y0 y]; [discriminate Y|]. destruct z as [|z0 z]; [discriminate Z|]. cbn [app map2 forallb]. rewrite andb_true_iff, IH by (cbn [length] in *; lia).
      split; [intros [A B]; constructor; assumption|intros A; inversion A; subst; auto]. }
  unfold loops, looping. rewrite !andb_true_iff, forallb_forall, Forall_forall. rewrite N.leb_le.
  split.
  - intros (((A & B) & D) & E). destruct lp; [|discriminate B]. repeat split; auto. intros t I. apply (C t I). auto.
  - intros (A & -> & D & E). repeat split; auto. intros t I. apply (C t I). auto.
Qed.

Section Facts.
Context (s : ssettings) (list_name : list N) (lp : looping_policy) (ts : list strack).
Hypothesis W : scalar_list list_name ts.
Let n := list_num_samples ts.
Let lop := loops s lp ts.
Let n' := n - (if lop then 1 else 0).

Lemma no_tracks_play c anim ds w c0 t p : sound list_name c -> blen anim = anim_size c -> bytes_ok anim ->
  fields_seq anim 0 (all_fields (num_sample_elements (sc_type c)) 0 (N.to_nat (sc_num_samples c)) (sc_tracks c)) -> sc_tracks c = [] ->
  play ds w c0 (clip_bytes s list_name c anim) t p = Ok [].
Proof.
  intros S LA BA FA E. destruct (playing_initialize s list_name c anim S ds c0) as (d & E1 & P & _). unfold play. rewrite E1. cbn [bindo].
  assert (E2 : seek ds d t p = Ok d).
  { unfold seek. rewrite (pl_tracks _ _ _ _ _ _ P). rewrite (p_samples s list_name c anim S). cbn [bindo]. unfold h_samples. rewrite E. reflexivity. }
  rewrite E2. cbn [bindo]. unfold decompress_tracks. rewrite (pl_tracks _ _ _ _ _ _ P).
  assert (E3 : h_num_tracks (clip_bytes s list_name c anim) = Ok (N.of_nat (length (sc_tracks c)))) by (eapply r_num_tracks; eassumption).
  rewrite E3, E. reflexivity.
Qed.

(** the clip and everything its header says of it *)
Lemma clip_facts : exists m, compress_scalar s list_name lp ts = Ok (Some m) /\
  (outputs (map st_track ts) <> [] -> h_num_samples m = Ok n' /\ h_sample_rate m = Ok (list_sample_rate ts)) /\
  h_num_tracks m = Ok (N.of_nat (length (outputs (map st_track ts)))) /\
  clip_looping_policy m = Ok (if lop then lp_wrap else lp) /\
  (forall ds w c0 k, known_type ds (list_type ts) = true -> (is_per_track_rounding_supported ds = true -> keeps_nearest w) ->
    k < n' \/ ((if is_wrapping_supported ds then (if lop then lp_wrap else lp) else lp_clamp) = lp_wrap /\ k = n') ->
    exists res, play ds w c0 m (fdiv (f_of_N k) (list_sample_rate ts)) rp_nearest = Ok res /\
    map fst res = filter (fun i => negb (w_skip w i)) (map N.of_nat (seq 0 (length (outputs (map st_track ts))))) /\
    forall t, In t ts -> output_index (st_track t) <> k_invalid_track_index -> w_skip w (output_index (st_track t)) = false ->
      exists u, In (output_index (st_track t), u) res /\ within (precision (st_track t)) (nth (N.to_nat (k mod n')) (st_samples t) []) u).
Proof.
  destruct (compress_ok s list_name lp ts W) as (out & anim & O & S & LA & BA & FA & E). set (c := context_of s lp ts out) in *.
  exists (clip_bytes s list_name c anim). split; [exact E|].
  assert (LO : length out = length (outputs (map st_track ts))) by apply O.
  split; [|split; [|split]].
  - intros NE. rewrite (p_samples s list_name c anim S), (p_rate s list_name c anim).
    assert (X : h_samples c = n' /\ h_rate c = list_sample_rate ts).
    { apply (u_samples s list_name lp ts W out anim O S LA FA). intros X. rewrite X in LO. destruct (outputs _); [congruence|discriminate LO]. }
    destruct X as [-> ->]. auto.
  - rewrite <- LO. eapply r_num_tracks; eassumption.
  - rewrite (p_looping s list_name c anim). reflexivity.
  - intros ds w c0 k KT KN HK. destruct (list_eq_nil out) as [EO|NE].
    + exists []. split; [apply no_tracks_play; auto|]. split.
      * rewrite <- LO, EO. reflexivity.
      * intros t I OI. exfalso. destruct O as (_ & O & _). pose proof (O t I OI) as X. rewrite EO in X. destruct (N.to_nat _) in X; discriminate X.
    + destruct (key_frame_play s list_name lp ts W out anim O S LA BA FA ds w c0 k NE KT KN HK) as (res & R1 & R2 & R3).
      exists res. split; [exact R1|]. split; [rewrite <- LO; exact R2|]. intros t I OI SK. destruct (R3 t I OI SK) as (u & U1 & U2 & U3). exists u. split; [exact U1|].
      destruct (ctrack_sound s list_name lp ts W t I) as (_ & _ & _ & _ & _ & KV).
      destruct (track_facts s list_name lp ts W t I) as (_ & _ & _ & _ & L & _ & (PF & P0) & _ & _ & V). fold n in L.
      assert (HN : 1 <= list_num_samples ts - (if loops s lp ts then 1 else 0) < 2 ^ 22 - 2) by (eapply samples_in; eassumption). fold n lop n' in HN. fold n lop n' in U2, U3, KV. fold n lop n'.
      assert (KM : k mod n' < n') by (apply N.mod_lt; lia). set (km := k mod n') in *. clearbody km.
      destruct (KV (N.to_nat km) ltac:(lia)) as (_ & KL & KF).
      set (q := nth (N.to_nat km) (st_samples t) []) in *.
      assert (QL : length q = num_sample_elements (list_type ts)).
      { rewrite Forall_forall in V. apply (V q). apply nth_In. assert (n' <= n) by (unfold n'; destruct lop; lia). lia. }
      apply forall2_nth; [congruence|]. intros j J. destruct (KF j ltac:(congruence)) as [F1 F2].
      destruct (U3 j ltac:(congruence)) as [F3 F4]. destruct (near_elim _ _ _ PF F2) as (X1 & X2 & X3).
      apply near_intro; auto. rewrite F4. exact X3.
Qed.
End Facts.

(** Histories *)
Definition plays_clip (ds : dsettings) (cur : list N) (d : dcontext) : Prop :=
  exists s list_name c anim, sound list_name c /\ blen anim = anim_size c /\ bytes_ok anim /\
    fields_seq anim 0 (all_fields (num_sample_elements (sc_type c)) 0 (N.to_nat (sc_num_samples c)) (sc_tracks c)) /\
    (sc_tracks c <> [] -> 1 <= sc_num_samples c < 2 ^ 22 - 2) /\
    (sc_tracks c <> [] -> ffinite (sc_sample_rate c) = true /\ sane (FR (sc_sample_rate c))) /\
    cur = clip_bytes s list_name c anim /\ playing s list_name c anim ds d.

Lemma compressed_initialize ds m c0 : compressed m -> exists d, initialize ds c0 m = Ok d /\ plays_clip ds m d.
Proof.
  intros (s & list_name & lp & ts & W & E). destruct (compress_ok s list_name lp ts W) as (out & anim & O & S & LA & BA & FA & E').
  rewrite E in E'. injection E' as ->. destruct (playing_initialize s list_name _ anim S ds c0) as (d & E1 & P & _).
  exists d. split; [exact E1|]. exists s, list_name, (context_of s lp ts out), anim. repeat (split; [first [assumption | eapply samples_in; eassumption | eapply rate_in; eassumption | reflexivity]|]). exact P.
Qed.
Lemma legal_legal ds cur d s list_name c anim t : cur = clip_bytes s list_name c anim -> sound list_name c -> playing s list_name c anim ds d ->
  (sc_tracks c <> [] -> 1 <= sc_num_samples c < 2 ^ 22 - 2) -> (sc_tracks c <> [] -> ffinite (sc_sample_rate c) = true /\ sane (FR (sc_sample_rate c))) ->
  legal ds cur t -> legal_time ds d t.
Proof.
  intros EC S P HN HR [L|(D & ED & F & L)]; [left; exact L|right]. split; [exact F|]. split; [apply L|]. eapply Rle_trans; [apply L|].
  rewrite EC, (p_duration s list_name c anim S) in ED. injection ED as <-. rewrite (pl_duration _ _ _ _ _ _ P).
  destruct (list_eq_nil (sc_tracks c)) as [E|E].
  - unfold h_samples. rewrite E. cbn [length]. destruct (d_looping d); apply Rle_refl.
  - destruct (HR E) as [R1 R2]. pose proof (HN E) as N1. unfold h_samples, h_rate. replace (N.of_nat (length (sc_tracks c)) =? 0) with false by (destruct (sc_tracks c); [congruence|cbn [length]; lia]).
    rewrite !duration_eq by auto. apply fdiv_mono; auto; destruct (d_looping d); lia.
Qed.
Lemma play_call ds cur d x : plays_clip ds cur d -> legal_calls ds cur [x] ->
  exists d', do_call ds d x = Ok d' /\ plays_clip ds (match x with c_initialize m => m | _ => cur end) d'.
Proof.
  intros P L. destruct x as [m|m|p|t p]; cbn [legal_calls] in L; [destruct L as [L _]; cbn [do_call]; apply compressed_initialize; exact L| | |];
  destruct P as (s & list_name & c & anim & S & LA & BA & FA & HN & HR & EC & P).
  - destruct L as [-> _]. destruct (playing_call s list_name c anim S LA FA HN HR ds d (c_relocated cur) P EC) as (d' & E & P').
    exists d'. split; [exact E|]. exists s, list_name, c, anim. auto 9.
  - destruct (playing_call s list_name c anim S LA FA HN HR ds d (c_looping p) P I) as (d' & E & P').
    exists d'. split; [exact E|]. exists s, list_name, c, anim. auto 9.
  - destruct L as [L _]. assert (LT : legal_time ds d t) by (eapply legal_legal; eassumption).
    destruct (playing_call s list_name c anim S LA FA HN HR ds d (c_seek t p) P LT) as (d' & E & P').
    exists d'. split; [exact E|]. exists s, list_name, c, anim. auto 9.
Qed.
Lemma play_calls ds : forall l cur d, plays_clip ds cur d -> legal_calls ds cur l -> exists d' cur', do_calls ds d l = Ok d' /\ plays_clip ds cur' d'.
Proof.
  induction l as [|x l IH]; intros cur d P L; [exists d, cur; auto|]. cbn [do_calls].
  destruct (play_call ds cur d x P) as (d' & E & P').
  { destruct x; cbn [legal_calls] in *; tauto. }
  rewrite E. cbn [bindo]. apply (IH (match x with c_initialize m => m | _ => cur end)); [exact P'|]. destruct x; cbn [legal_calls] in L; tauto.
Qed.
Lemma plays_defined ds cur d : plays_clip ds cur d -> forall w, (exists res, decompress_tracks ds d w = Ok res) /\ (forall i, exists res, decompress_track ds d i w = Ok res).
Proof.
  intros (s & list_name & c & anim & S & LA & BA & FA & HN & HR & EC & P) w. split; [|intros i].
  - eapply playing_decompress; eassumption.
  - eapply playing_track; eassumption.
Qed.
