(** Compress, then play: the value of every track at every key frame. *)
From Verif Require Import Word WordFacts Float32 Float32Facts FloatOrder Interp InterpFacts TrackArray TrackSpec TrackArrayFacts Pieces
  ScalarEnc ScalarDec ScalarSpec ScalarBits ScalarWrite ScalarRead ScalarLanes ScalarTrackFacts ScalarDecFacts ScalarSeekFacts ScalarLink ScalarPlay LayoutBuild.
From Coq Require Import Lia ZifyBool ZifyN ZifyNat Reals Lra Permutation.
Ltac Zify.zify_post_hook ::= idtac.
Import ListNotations.
Local Open Scope N_scope.
#[local] Opaque clip_bytes body m_all Hash.hash32.

Lemma numbered_fst : forall vals i, map fst (numbered i vals) = map N.of_nat (seq (N.to_nat i) (length vals)).
Proof.
  induction vals as [|v vals IH]; intros i; [reflexivity|]. cbn [numbered map length seq fst]. rewrite N2Nat.id. f_equal. rewrite IH. do 2 f_equal. lia.
Qed.
Lemma filter_fst {A} (f : N -> bool) : forall l : list (N * A), map fst (filter (fun p => f (fst p)) l) = filter f (map fst l).
Proof. induction l as [|[a b] l IH]; [reflexivity|]. cbn [filter map fst]. destruct (f a); cbn [map fst]; rewrite IH; reflexivity. Qed.
Lemma pose_length c ds d w k0 k1 : forall l i, length (pose c ds d w k0 k1 i l) = length l.
Proof. induction l as [|t l IH]; intros i; [reflexivity|]. cbn [pose length]. rewrite IH. reflexivity. Qed.
Lemma sane_flt x : ffinite x = true -> sane (FR x) -> flt f_zero x = true.
Proof. intros F S. apply flt_R; [reflexivity|exact F|]. rewrite f_zero_R. apply sane_pos. exact S. Qed.

Section Codec.
Context (s : ssettings) (list_name : list N) (lp : looping_policy) (ts : list strack).
Hypothesis W : scalar_list list_name ts.
Let n' := list_num_samples ts - (if loops s lp ts then 1 else 0).
Let nc := num_sample_elements (list_type ts).
Context (out : list ctrack) (anim : list N).
Let c := context_of s lp ts out.
Hypothesis O : out_spec s lp ts out.
Hypothesis S : sound list_name c.
Hypothesis LA : blen anim = anim_size c.
Hypothesis BA : bytes_ok anim.
Hypothesis FA : fields_seq anim 0 (all_fields nc 0 (N.to_nat n') out).
Let m := clip_bytes s list_name c anim.

Lemma some_input : out <> [] -> exists t, In t ts.
Proof.
  intros H. destruct (shape ts) as [E|(t & r & E)]; [|exists t; rewrite E; left; reflexivity]. exfalso. apply H.
  destruct O as [L _]. rewrite E in L. destruct out; [reflexivity|discriminate L].
Qed.
Lemma samples_in : out <> [] -> 1 <= n' < 2 ^ 22 - 2.
Proof.
  intros H. destruct (some_input H) as (t & I). pose proof (n'_bounds s list_name lp ts W t I) as B. destruct (track_facts s list_name lp ts W t I) as (_ & _ & _ & _ & _ & B2 & _).
  fold n' in B. lia.
Qed.
Lemma rate_eq t : In t ts -> list_sample_rate ts = sample_rate (st_track t).
Proof.
  intros I. destruct (track_facts s list_name lp ts W t I) as (_ & _ & E & _ & _ & _ & _ & (F & R) & _). symmetry. apply feq_pos; [|exact E]. apply sane_flt; assumption.
Qed.
Lemma rate_in : out <> [] -> ffinite (list_sample_rate ts) = true /\ sane (FR (list_sample_rate ts)).
Proof.
  intros H. destruct (some_input H) as (t & I). rewrite (rate_eq t I). destruct (track_facts s list_name lp ts W t I) as (_ & _ & _ & _ & _ & _ & _ & R & _). exact R.
Qed.

Notation Pl := (playing s list_name c anim).
Lemma HN0 : sc_tracks c <> [] -> 1 <= sc_num_samples c < 2 ^ 22 - 2. Proof. exact samples_in. Qed.
Lemma HR0 : sc_tracks c <> [] -> ffinite (sc_sample_rate c) = true /\ sane (FR (sc_sample_rate c)). Proof. exact rate_in. Qed.
Hint Resolve HN0 HR0 : core.
Ltac use L := intros; eapply L with (c := c); try eassumption; try exact HN0; try exact HR0.
Lemma u_samples : out <> [] -> h_samples c = n' /\ h_rate c = list_sample_rate ts.
Proof. intros. change n' with (sc_num_samples c). change (list_sample_rate ts) with (sc_sample_rate c). use samples_eq. Qed.
Lemma u_duration_fin ds d : Pl ds d -> out <> [] -> ffinite (d_duration d) = true /\ (0 <= FR (d_duration d))%R. Proof. use duration_fin. Qed.
Lemma u_seek ds d t p : Pl ds d -> out <> [] -> legal_time ds d t ->
  exists i0 i1 al, find_linear_interpolation_samples_with_sample_rate n' (list_sample_rate ts) (clamped_time ds d t) p (d_looping d) = Ok (i0, i1, al) /\
    i0 < n' /\ i1 < n' /\ ffinite al = true /\ (0 <= FR al <= 1)%R /\
    seek ds d t p = Ok (if feq (d_time d) (clamped_time ds d t) && rp_eqb (d_rounding d) p then d else
      {| d_tracks := m; d_hash := d_hash d; d_duration := d_duration d; d_alpha := al; d_time := clamped_time ds d t;
         d_offset0 := frame_bits nc out * i0; d_offset1 := frame_bits nc out * i1; d_looping := d_looping d; d_rounding := p |}).
Proof. use seek_computes. Qed.
Lemma u_read ds w d k0 k1 : d_tracks d = m -> (k0 < N.to_nat n')%nat -> (k1 < N.to_nat n')%nat ->
  d_offset0 d = frame_bits nc out * N.of_nat k0 -> d_offset1 d = frame_bits nc out * N.of_nat k1 -> flt (d_time d) f_zero = false -> known_type ds (list_type ts) = true ->
  decompress_tracks ds d w = Ok (not_skipped w (numbered 0 (pose c ds d w k0 k1 0 out))).
Proof. use q_read. Qed.
Lemma u_pose ds d w k0 k1 l i j t : nth_error l j = Some t ->
  nth_error (pose c ds d w k0 k1 i l) j = Some (track_value nc t k0 k1 (alpha_of ds d w (i + N.of_nat j))).
Proof. use pose_nth. Qed.
Lemma u_init ds c0 : exists d, initialize ds c0 m = Ok d /\ Pl ds d /\ d_time d = f_minus_one /\ d_looping d = if is_wrapping_supported ds then sc_looping c else lp_clamp.
Proof. use playing_initialize. Qed.

(** the policy the clip plays with *)
Definition policy ds : looping_policy := if is_wrapping_supported ds then (if loops s lp ts then lp_wrap else lp) else lp_clamp.

Lemma key_frame_play ds w c0 k : out <> [] -> known_type ds (list_type ts) = true -> (is_per_track_rounding_supported ds = true -> keeps_nearest w) ->
  k < n' \/ (policy ds = lp_wrap /\ k = n') ->
  exists res, play ds w c0 m (fdiv (f_of_N k) (list_sample_rate ts)) rp_nearest = Ok res /\
    map fst res = filter (fun i => negb (w_skip w i)) (map N.of_nat (seq 0 (length out))) /\
    forall t, In t ts -> output_index (st_track t) <> k_invalid_track_index -> w_skip w (output_index (st_track t)) = false ->
      exists u, In (output_index (st_track t), u) res /\ same_numbers u (key_value nc (precision (st_track t)) (st_name t) (st_samples t) (N.to_nat n') (N.to_nat (k mod n'))).
Proof.
  intros NE KT KN HK. pose proof (samples_in NE) as HN. pose proof (rate_in NE) as HR. destruct HR as [R1 R2].
  destruct (u_init ds c0) as (d & E1 & P & T1 & L1). unfold play. rewrite E1. cbn [bindo].
  set (tk := fdiv (f_of_N k) (list_sample_rate ts)).
  assert (LP : d_looping d = policy ds) by exact L1.
  assert (DD : d_duration d = clip_finite_duration n' (list_sample_rate ts) (policy ds)).
  { rewrite (pl_duration _ _ _ _ _ _ P), LP. destruct (u_samples NE) as [-> ->]. reflexivity. }
  destruct (fdiv_sane (Z.of_N k) (list_sample_rate ts) ltac:(lia) R1 R2) as (K1 & _ & _ & K4). fold (f_of_N k) in K1, K4. fold tk in K1, K4.
  assert (Hle : (FR tk <= FR (d_duration d))%R).
  { rewrite DD, duration_eq by auto. apply fdiv_mono; auto; destruct (policy ds); destruct HK as [HK|[HK HK']]; try lia; discriminate. }
  assert (CT : ffinite (clamped_time ds d tk) = true /\ FR (clamped_time ds d tk) = FR tk).
  { unfold clamped_time. destruct (clamp_sample_time ds); [|auto]. destruct (u_duration_fin ds d P NE) as [D1 D2].
    destruct (fclamp_spec tk (d_duration d)) as (C1 & C2 & C3); auto. { destruct tk; auto; discriminate. } split; [exact C1|]. apply C3; [exact K1|]. split; [apply K4|exact Hle]. }
  destruct CT as [CF CE].
  assert (LT : legal_time ds d tk) by (right; split; [exact K1|]; split; [apply K4|exact Hle]).
  destruct (u_seek ds d tk rp_nearest P NE LT) as (i0 & i1 & al & F & B0 & B1 & AF & AR & SE).
  assert (NEG : flt (clamped_time ds d tk) f_zero = false) by (apply not_negative; [exact CF|rewrite CE; apply K4]).
  rewrite SE, T1, (feq_m1 _ NEG). cbn [andb bindo].
  destruct (key_frame_time n' (list_sample_rate ts) (policy ds) k (clamped_time ds d tk) HN R1 R2 HK CF CE) as (j0 & j1 & al' & F' & SEL).
  rewrite LP, F' in F. injection F as -> -> ->.
  match goal with |- context [decompress_tracks ds ?x w] => set (d' := x) end.
  rewrite (u_read ds w d' (N.to_nat i0) (N.to_nat i1) eq_refl);
    [|lia|lia|rewrite N2Nat.id; reflexivity|rewrite N2Nat.id; reflexivity|exact NEG|exact KT].
  eexists. split; [reflexivity|]. change (sc_tracks c) with out. split.
  { unfold not_skipped. rewrite (filter_fst (fun i => negb (w_skip w i))), numbered_fst, pose_length. reflexivity. }
  intros t I OI SK. destruct O as (OL & OT & _). pose proof (OT t I OI) as NT.
  pose proof (u_pose ds d' w (N.to_nat i0) (N.to_nat i1) out 0 _ _ NT) as PN. cbn [N.add] in PN.
  eexists. split.
  { unfold not_skipped. apply filter_In. split; [|cbn [fst]; rewrite SK; reflexivity].
    rewrite <- (N2Nat.id (output_index (st_track t))). apply (numbered_in _ 0). exact PN. }
  rewrite N2Nat.id. change (num_sample_elements (sc_type c)) with nc.
  rewrite (ctrack_eq s list_name lp ts W t I).
  eapply selected_value with (c := c); try eassumption; try exact HN0; try exact HR0; try reflexivity.
  - rewrite !N2Nat.id. exact SEL.
  - intros k' K'. destruct (ctrack_sound s list_name lp ts W t I) as (_ & _ & _ & _ & _ & KV). destruct (KV k') as (_ & KL & KF); [fold n'; lia|].
    split; [exact KL|]. intros j J. apply (KF j J).
Qed.
End Codec.
