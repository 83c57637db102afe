(** C48: the measured compression error.  Model: TrackError.v; vocabulary: TrackErrorSpec.v. *)
From Coq Require Import Lia Reals Lra Permutation.
From Verif Require Import Word WordFacts Float32 Float32Facts Interp InterpFacts TrackArray TrackSpec Pieces Headers DbBuild ScalarEnc ScalarDec ScalarSpec ScalarWrite ScalarBits LayoutOps ScalarRead ScalarLanes ScalarTrackFacts ScalarSeekFacts ScalarPlay ScalarLink ScalarCodec2 RateOrder Prop_Scalar Prop_ScalarCodec ScalarExamples
  TrackError TrackErrorSpec TrackErrorFacts.
Import ListNotations.
Local Open Scope N_scope.
Ltac Zify.zify_post_hook ::= idtac.

(** * The loop *)
(** what was measured before track [i] of key frame [k] *)
Definition visited (n : N) (ts : list strack) (k : N) (i : nat) (k' : N) (i' : nat) : Prop := measured n ts k' i' /\ (k' < k \/ (k' = k /\ (i' < i)%nat)).
Definition best (n : N) (rate : f32) (ts : list strack) (err : N -> nat -> f32) (k : N) (i : nat) (r : track_error) : Prop :=
  ((forall k' i', ~ visited n ts k i k' i') /\ r = te_start) \/
  (exists k0 i0, visited n ts k i k0 i0 /\ te_index r = N.of_nat i0 /\ te_time r = fdiv (f_of_N k0) rate /\ te_error r = err k0 i0 /\
    (forall k' i', visited n ts k i k' i' -> fle (err k' i') (te_error r) = true) /\
    (forall k' i', visited n ts k i k' i' -> k' < k0 \/ (k' = k0 /\ (i' < i0)%nat) -> flt (err k' i') (te_error r) = true)).
Lemma best_same n rate ts err k i k1 i1 r : (forall k' i', visited n ts k i k' i' <-> visited n ts k1 i1 k' i') -> best n rate ts err k i r -> best n rate ts err k1 i1 r.
Proof.
  intros H [(A & B) | (k0 & i0 & V & E1 & E2 & E3 & A & B)]; [left | right].
  - split; [| exact B]. intros k' i' V. apply (A k' i'), H, V.
  - exists k0, i0. split; [apply H, V |]. split; [exact E1 |]. split; [exact E2 |]. split; [exact E3 |]. split; [intros k' i' V'; apply A, H, V' | intros k' i' V'; apply B, H, V'].
Qed.
Lemma best_skip n rate ts err k i r t : nth_error ts i = Some t -> output_index (st_track t) = k_invalid_track_index -> best n rate ts err k i r -> best n rate ts err k (S i) r.
Proof.
  intros E O. apply best_same. intros k' i'. unfold visited. split; intros (M & L); (split; [exact M |]).
  - lia.
  - destruct (Nat.eq_dec i' i) as [-> | NE]; [| lia]. destruct M as (_ & t' & E' & O'). rewrite E in E'. injection E' as <-. contradiction.
Qed.
Lemma best_next n rate ts err k r : best n rate ts err k (length ts) r -> best n rate ts err (k + 1) 0 r.
Proof.
  apply best_same. intros k' i'. unfold visited. split; intros (M & L); (split; [exact M |]).
  - lia.
  - destruct M as (_ & t & E & _). assert (i' < length ts)%nat by (apply nth_error_Some; congruence). lia.
Qed.
Lemma best_step n rate ts err k i r t : k < n -> nth_error ts i = Some t -> output_index (st_track t) <> k_invalid_track_index -> fle f_zero (err k i) = true ->
  best n rate ts err k i r ->
  best n rate ts err k (S i) (if fgt (err k i) (te_error r) then {| te_index := N.of_nat i; te_error := err k i; te_time := fdiv (f_of_N k) rate |} else r).
Proof.
  intros K E O P H. assert (M : measured n ts k i) by (split; [exact K | exists t; split; assumption]). destruct (fle_nan _ _ P) as [_ N1].
  assert (V : forall k' i', visited n ts k (S i) k' i' <-> visited n ts k i k' i' \/ (k' = k /\ i' = i)).
  { intros k' i'. unfold visited. split; [intros (M' & L) | intros [(M' & L) | (-> & ->)]]; [| split; [exact M' | lia] | split; [exact M | lia]].
    destruct (N.eq_dec k' k) as [-> | D1]; [destruct (Nat.eq_dec i' i) as [-> | D2]; [right; auto |] |]; left; (split; [exact M' | lia]). }
  unfold fgt. destruct H as [(A & ->) | (k0 & i0 & V0 & E1 & E2 & E3 & A & B)].
  - change (te_error te_start) with f_minus_one. rewrite (flt_le_trans f_minus_one f_zero (err k i) eq_refl P). right. exists k, i. cbn [te_index te_time te_error].
    split; [apply V; right; auto |]. split; [reflexivity |]. split; [reflexivity |]. split; [reflexivity |]. split.
    + intros k' i' V'. apply V in V'. destruct V' as [V' | (-> & ->)]; [destruct (A _ _ V') | apply fle_refl, N1].
    + intros k' i' V' L. apply V in V'. destruct V' as [V' | (-> & ->)]; [destruct (A _ _ V') | lia].
  - destruct (fle_nan _ _ (A _ _ V0)) as [_ N0]. destruct (flt (te_error r) (err k i)) eqn:C.
    + right. exists k, i. cbn [te_index te_time te_error]. split; [apply V; right; auto |]. split; [reflexivity |]. split; [reflexivity |]. split; [reflexivity |].
      assert (LT : forall k' i', visited n ts k i k' i' -> flt (err k' i') (err k i) = true).
      { intros k' i' V'. pose proof (A k' i' V') as Q. apply fle_key in Q. apply flt_key in C. apply flt_key. destruct Q as (Q1 & Q2 & Q3), C as (C1 & C2 & C3). split; [exact Q1 |]. split; [exact C2 | lra]. }
      split.
      * intros k' i' V'. apply V in V'. destruct V' as [V' | (-> & ->)]; [apply flt_fle, LT, V' | apply fle_refl, N1].
      * intros k' i' V' L. apply V in V'. destruct V' as [V' | (-> & ->)]; [apply LT, V' | lia].
    + right. exists k0, i0. split; [apply V; left; exact V0 |]. split; [exact E1 |]. split; [exact E2 |]. split; [exact E3 |]. split.
      * intros k' i' V'. apply V in V'. destruct V' as [V' | (-> & ->)]; [apply A, V' | apply not_lt_ge; assumption].
      * intros k' i' V' L. apply V in V'. destruct V' as [V' | (-> & ->)]; [apply B; assumption |]. destruct V0 as (_ & V0). lia.
Qed.
Lemma measure_tracks_best n rate ts err k nc mem : k < n -> forall suf pre raws r, ts = pre ++ suf -> length raws = length suf -> best n rate ts err k (length pre) r ->
  (forall i t raw, nth_error suf i = Some t -> nth_error raws i = Some raw -> output_index (st_track t) <> k_invalid_track_index ->
    exists lossy, mem (output_index (st_track t)) = Some lossy /\ scalar_track_error nc raw lossy = err k (length pre + i)%nat /\ fle f_zero (err k (length pre + i)%nat) = true) ->
  exists r', measure_tracks nc mem (fdiv (f_of_N k) rate) (N.of_nat (length pre)) suf raws r = Ok r' /\ best n rate ts err k (length ts) r'.
Proof.
  intros K. induction suf as [| t suf IH]; intros pre raws r -> L B H.
  - exists r. rewrite app_nil_r in *. split; [destruct raws; reflexivity | exact B].
  - destruct raws as [| raw raws]; [discriminate L |]. cbn [length] in L. cbn [measure_tracks].
    assert (E : nth_error (pre ++ t :: suf) (length pre) = Some t) by (rewrite nth_error_app2 by lia; rewrite Nat.sub_diag; reflexivity).
    assert (EQ : pre ++ t :: suf = (pre ++ [t]) ++ suf) by (rewrite <- app_assoc; reflexivity). assert (LP : length (pre ++ [t]) = S (length pre)) by (rewrite app_length; cbn; lia).
    assert (H' : forall i t0 raw0, nth_error suf i = Some t0 -> nth_error raws i = Some raw0 -> output_index (st_track t0) <> k_invalid_track_index ->
      exists lossy, mem (output_index (st_track t0)) = Some lossy /\ scalar_track_error nc raw0 lossy = err k (length (pre ++ [t]) + i)%nat /\ fle f_zero (err k (length (pre ++ [t]) + i)%nat) = true).
    { intros i t0 raw0 A1 A2 A3. rewrite LP. replace (S (length pre) + i)%nat with (length pre + S i)%nat by lia. exact (H (S i) t0 raw0 A1 A2 A3). }
    replace (N.of_nat (length pre) + 1) with (N.of_nat (length (pre ++ [t]))) by (rewrite LP; lia).
    destruct (N.eqb_spec (output_index (st_track t)) k_invalid_track_index) as [O | O].
    + apply (IH (pre ++ [t]) raws r EQ); [lia | rewrite LP; eapply best_skip; eassumption | exact H'].
    + destruct (H 0%nat t raw eq_refl eq_refl O) as (lossy & M & S & P). rewrite Nat.add_0_r in S, P. rewrite M, S.
      apply (IH (pre ++ [t]) raws _ EQ); [lia | rewrite LP; eapply best_step; eassumption | exact H'].
Qed.
Lemma measure_samples_best ds lp ts err (reached : dcontext -> Prop) (M : list N) : let n := list_num_samples ts in let rate := list_sample_rate ts in
  1 <= n < 2 ^ 22 - 2 -> ffinite rate = true -> sane (FR rate) ->
  (forall k c, k < n -> reached c -> exists raws c1 res, sample_tracks lp ts (fdiv (f_of_N k) rate) rp_nearest = Ok raws /\ length raws = length ts /\
    seek ds c (fdiv (f_of_N k) rate) rp_nearest = Ok c1 /\ reached c1 /\ decompress_tracks ds c1 debug_writer = Ok res /\
    forall mem i t raw, nth_error ts i = Some t -> nth_error raws i = Some raw -> output_index (st_track t) <> k_invalid_track_index ->
      exists lossy, write_tracks mem res (output_index (st_track t)) = Some lossy /\ scalar_track_error (num_sample_elements (list_type ts)) raw lossy = err k i /\ fle f_zero (err k i) = true) ->
  forall count k c mem r, k + N.of_nat count = n -> reached c -> best n rate ts err k 0 r ->
  exists r' c', measure_samples ds lp ts rp_nearest k count c mem r = Ok (r', c') /\ reached c' /\ best n rate ts err n 0 r'.
Proof.
  intros n rate Hn Hf Hr STEP. induction count as [| count IH]; intros k c mem r L RC B.
  - replace n with k by lia. exists r, c. split; [reflexivity |]. split; [exact RC |]. replace n with k in B by lia. exact B.
  - assert (K : k < n) by lia. destruct (STEP k c K RC) as (raws & c1 & res & E1 & E2 & E3 & R1 & E4 & H). cbn [measure_samples].
    fold n rate. rewrite (time_is n rate lp k Hn Hf Hr K). rewrite E1. cbn [bindo]. rewrite E3. cbn [bindo]. rewrite E4. cbn [bindo].
    destruct (measure_tracks_best n rate ts err k (num_sample_elements (list_type ts)) (write_tracks mem res) K ts [] raws r eq_refl E2 B) as (r1 & E5 & B1).
    { intros i t raw A1 A2 A3. cbn [length Nat.add]. exact (H mem i t raw A1 A2 A3). }
    cbn [length] in E5. change (N.of_nat 0) with 0 in E5. rewrite E5. cbn [bindo]. apply IH; [lia | exact R1 | apply best_next, B1].
Qed.
Lemma best_worst n rate ts err r : best n rate ts err n 0 r -> worst n rate ts err r.
Proof.
  assert (V : forall k i, measured n ts k i -> visited n ts n 0 k i). { intros k i M. split; [exact M |]. left. apply M. }
  intros [(A & B) | (k0 & i0 & V0 & E1 & E2 & E3 & A & B)]; [left | right].
  - split; [| exact B]. intros k i M. exact (A k i (V k i M)).
  - exists k0, i0. split; [apply V0 |]. split; [exact E1 |]. split; [exact E2 |]. split; [exact E3 |]. split; [intros k i M; exact (A k i (V k i M)) | intros k i M L; exact (B k i (V k i M) L)].
Qed.

(** * The context *)
Lemma seek_keeps ds c t p c' : seek ds c t p = Ok c' -> d_tracks c' = d_tracks c /\ d_duration c' = d_duration c.
Proof.
  unfold seek. destruct (h_num_samples (d_tracks c)) as [n | |]; cbn [bindo]; try discriminate. destruct (n =? 0); [intros E; injection E as <-; auto |].
  destruct (_ && _); [intros E; injection E as <-; auto |]. destruct (h_sample_rate (d_tracks c)); cbn [bindo]; try discriminate.
  destruct (find_linear_interpolation_samples_with_sample_rate _ _ _ _ _) as [[[k0 k1] al] | |]; cbn [bindo]; try discriminate.
  destruct (h_num_bits_per_frame (d_tracks c)); cbn [bindo]; try discriminate. intros E. injection E as <-. auto.
Qed.
Lemma seeks_keep ds l : Forall is_seek_call l -> forall c c', do_calls ds c l = Ok c' -> d_tracks c' = d_tracks c /\ d_duration c' = d_duration c.
Proof.
  induction 1 as [| x l X L IH]; intros c c' E; cbn [do_calls] in E; [injection E as <-; auto |].
  destruct x; try contradiction. cbn [do_call] in E. destruct (seek ds c t p) as [c1 | |] eqn:S; cbn [bindo] in E; try discriminate E.
  destruct (seek_keeps _ _ _ _ _ S) as [A1 A2]. destruct (IH _ _ E) as [B1 B2]. split; congruence.
Qed.
Lemma compressed_flags s list_name lp ts m : scalar_list list_name ts -> compress_scalar s list_name lp ts = Ok (Some m) ->
  exists misc, h_misc m = Ok misc /\ N.testbit misc 8 = false /\ N.testbit misc 10 = false.
Proof.
  intros W E. destruct (compress_ok s list_name lp ts W) as (out & anim & O & S & LA & BA & FA & E'). rewrite E in E'. injection E' as ->.
  set (c := context_of s lp ts out) in *. exists (misc_bits s list_name c). unfold h_misc. change (clip_bytes s list_name c anim) with (concat (m_all s list_name c anim)).
  assert (Q : misc_bits s list_name c < 2 ^ 32 /\ N.testbit (misc_bits s list_name c) 8 = false /\ N.testbit (misc_bits s list_name c) 10 = false).
  { unfold misc_bits, is_wrap. destruct (sc_looping c), (meta_size s list_name c =? 0); repeat split; reflexivity. }
  destruct Q as (Q1 & Q2 & Q3). rewrite (read32_piece (m_all s list_name c anim) 9 (misc_bits s list_name c) 28 eq_refl eq_refl Q1). auto.
Qed.
(** * One key frame *)
Lemma debug_keeps_nearest : keeps_nearest debug_writer.
Proof. intros i. left. reflexivity. Qed.
Lemma list_facts (s : ssettings) list_name (lp : looping_policy) ts : scalar_list list_name ts -> ts <> [] ->
  1 <= list_num_samples ts < 2 ^ 22 - 2 /\ ffinite (list_sample_rate ts) = true /\ sane (FR (list_sample_rate ts)).
Proof.
  intros W NE. destruct (shape ts) as [E | (t & r & E)]; [contradiction |]. assert (I : In t ts) by (rewrite E; left; reflexivity).
  destruct (track_facts s list_name lp ts W t I) as (_ & _ & _ & _ & _ & H1 & _ & (H2 & H3) & _).
  split; [exact H1 |]. unfold list_sample_rate. rewrite E. auto.
Qed.
Lemma raw_frame (s : ssettings) list_name lp ts k : scalar_list list_name ts -> ts <> [] -> k < list_num_samples ts ->
  exists raws, sample_tracks lp ts (fdiv (f_of_N k) (list_sample_rate ts)) rp_nearest = Ok raws /\
    Forall2 (fun raw t => same_values raw (nth (N.to_nat k) (st_samples t) [])) raws ts.
Proof.
  intros W NE K. destruct (list_facts s list_name lp ts W NE) as (Hn & Hf & Hr). pose proof (sane_pos _ Hr) as Hp.
  set (n := list_num_samples ts) in *. set (rate := list_sample_rate ts) in *. set (time := fdiv (f_of_N k) rate).
  destruct (fdiv_sane (Z.of_N k) rate ltac:(lia) Hf Hr) as (K1 & K2 & K3 & K4). fold (f_of_N k) in K1, K2, K3, K4. fold time in K1, K2, K3, K4.
  destruct (finite_duration_R n rate lp Hn Hf Hr) as (D1 & D2 & D3 & D4).
  assert (Hle : (0 <= FR time <= FR (clip_finite_duration n rate lp))%R).
  { split; [tauto |]. rewrite duration_eq by auto. unfold time, f_of_N. apply fdiv_mono; auto; destruct lp; lia. }
  assert (NN : fnan time = false) by (destruct time; try discriminate K1; reflexivity).
  destruct (fclamp_spec time (clip_finite_duration n rate lp) NN D1 ltac:(lra)) as (C1 & C2 & C3). specialize (C3 K1 Hle).
  unfold sample_tracks. fold n rate. fold time. set (tc := fclamp time f_zero (clip_finite_duration n rate lp)) in *.
  destruct (key_frame_time n rate lp k tc Hn Hf Hr (or_introl K) C1 C3) as (i0 & i1 & al & E & FA & SEL).
  destruct (find_samples_spec n rate tc rp_nearest lp Hn Hf Hr C1 C2) as (j0 & j1 & aj & E' & _ & _ & J0 & J1 & _).
  rewrite E in E'. injection E' as <- <- _. destruct (find_rounds _ _ _ _ _ _ _ E) as (a & Ea & Ra). rewrite Ea. cbn [bindo]. rewrite Ra.
  rewrite N.mod_small in SEL by exact K.
  assert (F : Forall (fun t => length (st_samples t) = N.to_nat n /\ Forall (fun v => length v = num_sample_elements (list_type ts) /\ Forall (fun x => ffinite x = true) v) (st_samples t)) ts).
  { apply Forall_forall. intros t I. destruct (track_facts s list_name lp ts W t I) as (_ & _ & _ & _ & L & _ & _ & _ & _ & V). fold n in L. split; [lia | exact V]. }
  destruct SEL as [(-> & R) | (-> & R)].
  - destruct (sample_values_ok (N.to_nat k) (N.to_nat i1) al ts (N.to_nat n) _ false ltac:(lia) ltac:(lia) FA R F) as (raws & S1 & S2). rewrite !Nnat.N2Nat.id in S1. exists raws. auto.
  - destruct (sample_values_ok (N.to_nat i0) (N.to_nat k) al ts (N.to_nat n) _ true ltac:(lia) ltac:(lia) FA R F) as (raws & S1 & S2). rewrite !Nnat.N2Nat.id in S1. exists raws. auto.
Qed.
Lemma f2_nth {A B} (R : A -> B -> Prop) l l' : Forall2 R l l' -> forall i b, nth_error l' i = Some b -> exists a, nth_error l i = Some a /\ R a b.
Proof. induction 1 as [| a b l l' H F IH]; intros [| i] y E; try discriminate E; cbn [nth_error] in E; [injection E as <-; exists a; auto | exact (IH i y E)]. Qed.
Lemma same_length x y : same_values x y -> length x = length y.
Proof. induction 1; cbn [length]; congruence. Qed.
Lemma same_finite x y : same_values x y -> Forall (fun v => ffinite v = true) x.
Proof. induction 1 as [| a b x y (H & _) F IH]; constructor; assumption. Qed.
Lemma within_facts p x y : ffinite p = true -> within p x y -> length x = length y /\ Forall (fun v => ffinite v = true) y.
Proof.
  intros P H. induction H as [| a b x y H F [L IH]]; [split; [reflexivity | constructor] |]. destruct (near_elim _ _ _ P H) as (A & B & _). split; [cbn [length]; congruence | constructor; assumption].
Qed.

Section Measure.
Context (s : ssettings) (list_name : list N) (lp : looping_policy) (ts : list strack) (ds : dsettings) (m : list N).
Hypothesis W : scalar_list list_name ts.
Hypothesis NE : ts <> [].
Hypothesis CM : compress_scalar s list_name lp ts = Ok (Some m).
Hypothesis CL : clamp_sample_time ds = true.
Hypothesis KT : known_type ds (list_type ts) = true.
Hypothesis WS : looping s lp ts -> is_wrapping_supported ds = true.
Let n := list_num_samples ts.
Let rate := list_sample_rate ts.
Let n' := n - (if loops s lp ts then 1 else 0).
Let time (k : N) : f32 := fdiv (f_of_N k) rate.
Let nc := num_sample_elements (list_type ts).

Lemma lossy_frame k : k < n ->
  exists res, play ds debug_writer fresh_context m (time k) rp_nearest = Ok res /\ NoDup (map fst res) /\
    forall t, In t ts -> output_index (st_track t) <> k_invalid_track_index ->
      exists u, In (output_index (st_track t), u) res /\ within (precision (st_track t)) (nth (N.to_nat (k mod n')) (st_samples t) []) u.
Proof.
  intros K. destruct (clip_facts s list_name lp ts W) as (m' & E & _ & _ & _ & R). rewrite CM in E. injection E as <-.
  destruct (list_facts s list_name lp ts W NE) as (Hn & _). fold n in Hn.
  destruct (R ds debug_writer fresh_context k KT (fun _ => debug_keeps_nearest)) as (res & R1 & R2 & R3).
  { fold n. destruct (loops s lp ts) eqn:L; [| left; lia]. pose proof (WS (proj1 (loops_spec s list_name lp ts W) L)) as Q. rewrite Q.
    destruct (N.eq_dec k (n - 1)) as [-> | D]; [right; auto | left; lia]. }
  exists res. split; [exact R1 |]. split; [rewrite R2 | intros t I OI; exact (R3 t I OI eq_refl)].
  apply NoDup_filter. apply FinFun.Injective_map_NoDup; [intros a b; apply Nnat.Nat2N.inj | apply seq_NoDup].
Qed.

(** the error of track [i] at key frame [k] *)
Definition err_of (k : N) (i : nat) : f32 :=
  match sample_tracks lp ts (time k) rp_nearest, play ds debug_writer fresh_context m (time k) rp_nearest with
  | Ok raws, Ok res =>
      match nth_error raws i, nth_error ts i with
      | Some raw, Some t => match write_tracks (fun _ => None) res (output_index (st_track t)) with Some u => scalar_track_error nc raw u | None => f_zero end
      | _, _ => f_zero
      end
  | _, _ => f_zero
  end.
Lemma frame k : k < n ->
  exists raws res, sample_tracks lp ts (time k) rp_nearest = Ok raws /\ length raws = length ts /\
    play ds debug_writer fresh_context m (time k) rp_nearest = Ok res /\ NoDup (map fst res) /\
    forall i t, kept_as ts i t -> exists raw u, nth_error raws i = Some raw /\ same_values raw (nth (N.to_nat k) (st_samples t) []) /\
      In (output_index (st_track t), u) res /\ within (precision (st_track t)) (nth (N.to_nat (k mod n')) (st_samples t) []) u /\
      err_of k i = scalar_track_error nc raw u /\ is_distance raw u (err_of k i) /\ fle f_zero (err_of k i) = true.
Proof.
  intros K. destruct (raw_frame s list_name lp ts k W NE K) as (raws & S1 & S2). destruct (lossy_frame k K) as (res & P1 & P2 & P3).
  exists raws, res. split; [exact S1 |]. split; [exact (f2_length _ _ _ S2) |]. split; [exact P1 |]. split; [exact P2 |].
  intros i t (E & O). pose proof (nth_error_In _ _ E) as I. destruct (f2_nth _ _ _ S2 i t E) as (raw & R1 & R2). destruct (P3 t I O) as (u & U1 & U2).
  exists raw, u. split; [exact R1 |]. split; [exact R2 |]. split; [exact U1 |]. split; [exact U2 |].
  assert (EE : err_of k i = scalar_track_error nc raw u).
  { unfold err_of. unfold time in S1, P1 |- *. unfold rate in S1, P1 |- *. rewrite S1, P1, R1, E. rewrite (written res (fun _ => None) _ u P2 U1). reflexivity. }
  split; [exact EE |].
  destruct (track_facts s list_name lp ts W t I) as (_ & _ & _ & _ & L & _ & (PF & _) & _ & _ & V). rewrite Forall_forall in V. fold n in L.
  destruct (within_facts _ _ _ PF U2) as [L2 FU].
  assert (NP : n' <> 0).
  { destruct (list_facts s list_name lp ts W NE) as (Hn & _). fold n in Hn. unfold n'. destruct (loops s lp ts) eqn:LO; [| lia].
    apply (loops_spec s list_name lp ts W) in LO. destruct LO as (_ & _ & LO & _). fold n in LO. lia. }
  assert (LT : k mod n' < n). { pose proof (N.mod_lt k n' NP). pose proof (N.mod_le k n' NP). lia. }
  destruct (V (nth (N.to_nat k) (st_samples t) []) ltac:(apply nth_In; lia)) as [A1 _].
  destruct (V (nth (N.to_nat (k mod n')) (st_samples t) []) ltac:(apply nth_In; lia)) as [B1 _].
  pose proof (same_finite _ _ R2) as FRaw. pose proof (same_length _ _ R2) as LR.
  assert (D : is_distance raw u (err_of k i)).
  { rewrite EE. apply scalar_error_distance; [exact (nc_bounds s list_name lp ts W) | unfold nc; congruence | unfold nc; congruence | exact FRaw | exact FU]. }
  split; [exact D |]. eapply distance_nonneg; eassumption.
Qed.

(** * The contexts of the measure *)
Context (before : list call).
Definition reached (c : dcontext) : Prop := exists seeks, Forall is_seek_call seeks /\ do_calls ds fresh_context (before ++ c_initialize m :: seeks) = Ok c.
Lemma legal_seeks seeks : Forall is_seek_call seeks -> legal_calls ds m seeks.
Proof. induction 1 as [| x l X L IH]; [exact I |]. destruct x; try contradiction. split; [left; exact CL | exact IH]. Qed.
Lemma from_initialize c : reached c -> d_tracks c = m /\ (exists lpx, finite_duration m lpx = Ok (d_duration c)) /\
  forall t p, exists c1, seek ds c t p = Ok c1 /\ reached c1 /\ (forall w, exists res, decompress_tracks ds c1 w = Ok res) /\
    (fle f_zero (d_duration c) = true -> forall w, decompress_tracks ds c1 w = play ds w fresh_context m t p).
Proof.
  intros (seeks & FS & E). assert (C : compressed m) by (exists s, list_name, lp, ts; auto).
  pose proof E as E0. rewrite do_calls_app in E0. destruct (do_calls ds fresh_context before) as [c0 | |] eqn:B; cbn [bindo] in E0; try discriminate E0.
  assert (KK : d_tracks c = m /\ exists lpx, finite_duration m lpx = Ok (d_duration c)).
  { pose proof E0 as E1. cbn [do_calls do_call] in E1. destruct (initialize ds c0 m) as [ci | |] eqn:EI; cbn [bindo] in E1; try discriminate E1.
    destruct (seeks_keep ds seeks FS _ _ E1) as [K1 K2]. unfold initialize in EI. destruct (h_hash m); cbn [bindo] in EI; try discriminate EI.
    destruct (if is_wrapping_supported ds then clip_looping_policy m else Ok lp_clamp) as [lpx | |]; cbn [bindo] in EI; try discriminate EI.
    destruct (finite_duration m lpx) as [dd | |] eqn:ED; cbn [bindo] in EI; try discriminate EI. injection EI as <-. cbn [d_tracks d_duration] in K1, K2.
    split; [exact K1 |]. exists lpx. rewrite K2. exact ED. }
  destruct KK as [KK1 KK2]. split; [exact KK1 |]. split; [exact KK2 |]. intros t p.
  assert (FS1 : Forall is_seek_call (seeks ++ [c_seek t p])) by (apply Forall_app; split; [exact FS | constructor; [exact I | constructor]]).
  destruct (C29_scalar_playback_stays_in_the_buffer ds c0 m (seeks ++ [c_seek t p]) C (legal_seeks _ FS1)) as (c1 & E1 & D1).
  assert (EF : do_calls ds fresh_context (before ++ c_initialize m :: seeks ++ [c_seek t p]) = Ok c1) by (rewrite do_calls_app, B; exact E1).
  change (c_initialize m :: seeks ++ [c_seek t p]) with ((c_initialize m :: seeks) ++ [c_seek t p]) in E1. rewrite do_calls_app, E0 in E1. cbn [bindo do_calls do_call] in E1.
  destruct (seek ds c t p) as [c2 | |] eqn:SK; cbn [bindo] in E1; try discriminate E1. injection E1 as ->.
  exists c1. split; [reflexivity |]. split; [exists (seeks ++ [c_seek t p]); auto |]. split; [intros w; apply (D1 w) |].
  intros FD w. destruct (seek_keeps _ _ _ _ _ SK) as [_ KD]. rewrite <- KD in FD.
  destruct (C27_seeks_do_not_matter ds before m [] seeks t p c1 CL (Forall_nil _) FS EF FD) as (c' & E' & SP).
  rewrite (proj1 (SP w)). cbn [app do_calls do_call] in E'. unfold play. destruct (initialize ds fresh_context m) as [ci | |]; cbn [bindo] in *; try discriminate E'.
  destruct (seek ds ci t p) as [cs | |]; cbn [bindo] in *; try discriminate E'. injection E' as ->. reflexivity.
Qed.
Lemma outputs_kept i t : kept_as ts i t -> outputs (map st_track ts) <> [].
Proof.
  intros (E & O) Z. assert (I : In (output_index (st_track t)) (outputs (map st_track ts))).
  { unfold outputs. apply filter_In. split; [rewrite map_map; apply in_map_iff; exists t; split; [reflexivity | eapply nth_error_In, E] | destruct (N.eqb_spec (output_index (st_track t)) k_invalid_track_index); [contradiction | reflexivity]]. }
  rewrite Z in I. destruct I.
Qed.
Lemma duration_kept i t c : kept_as ts i t -> reached c -> fle f_zero (d_duration c) = true.
Proof.
  intros K RC. pose proof (outputs_kept i t K) as ON. destruct (clip_facts s list_name lp ts W) as (m' & E & H & _). rewrite CM in E. injection E as <-.
  destruct (H ON) as [H1 H2]. destruct (from_initialize c RC) as (_ & (lpx & D) & _). unfold finite_duration in D. rewrite H1, H2 in D. cbn [bindo] in D. injection D as <-.
  destruct (list_facts s list_name lp ts W NE) as (Hn & Hf & Hr). fold n rate in Hn, Hf, Hr. fold n rate.
  assert (N1 : 1 <= n - (if loops s lp ts then 1 else 0) < 2 ^ 22 - 2).
  { destruct (loops s lp ts) eqn:LO; [| lia]. apply (loops_spec s list_name lp ts W) in LO. destruct LO as (_ & _ & LO & _). fold n in LO. lia. }
  destruct (finite_duration_R _ rate lpx N1 Hf Hr) as (A & _ & _ & B). apply fle_R; [reflexivity | exact A |]. rewrite f_zero_R. apply B.
Qed.
Lemma measure_step k c : k < n -> reached c -> exists raws c1 res, sample_tracks lp ts (time k) rp_nearest = Ok raws /\ length raws = length ts /\
  seek ds c (time k) rp_nearest = Ok c1 /\ reached c1 /\ decompress_tracks ds c1 debug_writer = Ok res /\
  forall mem i t raw, nth_error ts i = Some t -> nth_error raws i = Some raw -> output_index (st_track t) <> k_invalid_track_index ->
    exists lossy, write_tracks mem res (output_index (st_track t)) = Some lossy /\ scalar_track_error nc raw lossy = err_of k i /\ fle f_zero (err_of k i) = true.
Proof.
  intros K RC. destruct (frame k K) as (raws & res0 & F1 & F2 & F3 & F4 & F5). destruct (from_initialize c RC) as (_ & _ & ST). destruct (ST (time k) rp_nearest) as (c1 & S1 & S2 & S3 & S4).
  destruct (S3 debug_writer) as (res & S5). exists raws, c1, res. split; [exact F1 |]. split; [exact F2 |]. split; [exact S1 |]. split; [exact S2 |]. split; [exact S5 |].
  intros mem i t raw E R O. assert (KA : kept_as ts i t) by (split; assumption). rewrite (S4 (duration_kept i t c KA RC)) in S5. rewrite F3 in S5. injection S5 as <-.
  destruct (F5 i t KA) as (raw' & u & U1 & _ & U3 & _ & U5 & _ & U7). rewrite R in U1. injection U1 as <-. exists u. split; [apply written; assumption |]. split; [symmetry; exact U5 | exact U7].
Qed.
End Measure.

(** A list of scalar tracks is compressed, and a context that plays the clip, after any calls before [initialize] and any seeks since, is
    measured against the list: the measure is defined, and it is the worst of the errors [err k i], the largest distance of the
    components of sample [k] of track [i] to what playing the time of that sample gives (whatever the writer held before) -- with its
    first sample and its first track.  No error is above the precision of its track, except maybe the last of a clip that loops (which
    was dropped: playback gives the first one). *)
Theorem C48_the_worst_error_is_found : forall s list_name lp ts ds before seeks,
  scalar_list list_name ts -> ts <> [] -> clamp_sample_time ds = true -> known_type ds (list_type ts) = true ->
  (looping s lp ts -> is_wrapping_supported ds = true) -> Forall is_seek_call seeks ->
  exists m, compress_scalar s list_name lp ts = Ok (Some m) /\
  forall c, do_calls ds fresh_context (before ++ c_initialize m :: seeks) = Ok c ->
  exists e c' err, calculate_compression_error ds lp ts c = Ok (e, c') /\ worst (list_num_samples ts) (list_sample_rate ts) ts err e /\
    forall k i t, k < list_num_samples ts -> kept_as ts i t ->
      exists x res u, same_values x (nth (N.to_nat k) (st_samples t) []) /\
        play ds debug_writer fresh_context m (fdiv (f_of_N k) (list_sample_rate ts)) rp_nearest = Ok res /\
        In (output_index (st_track t), u) res /\ is_distance x u (err k i) /\
        ((looping s lp ts -> k + 1 < list_num_samples ts) -> fle (err k i) (precision (st_track t)) = true).
Proof.
  intros s list_name lp ts ds before seeks W NE CL KT WS FS. destruct (clip_facts s list_name lp ts W) as (m & CM & _). exists m. split; [exact CM |].
  intros c E. assert (RC : reached ds m before c) by (exists seeks; auto).
  destruct (list_facts s list_name lp ts W NE) as (Hn & Hf & Hr).
  destruct (from_initialize s list_name lp ts ds m W CM CL before c RC) as (TR & _).
  destruct (compressed_flags s list_name lp ts m W CM) as (misc & M1 & M2 & M3).
  assert (B0 : best (list_num_samples ts) (list_sample_rate ts) ts (err_of lp ts ds m) 0 0 te_start).
  { left. split; [| reflexivity]. intros k i (_ & [L | (_ & L)]); lia. }
  destruct (measure_samples_best ds lp ts (err_of lp ts ds m) (reached ds m before) [] Hn Hf Hr
    (measure_step s list_name lp ts ds m W NE CM CL KT WS before) (N.to_nat (list_num_samples ts)) 0 c (fun _ => None) te_start ltac:(lia) RC B0) as (e & c' & E1 & _ & B1).
  exists e, c', (err_of lp ts ds m). split; [| split].
  - unfold calculate_compression_error. rewrite TR, M1. cbn [bindo]. rewrite M2, M3. cbn [orb].
    destruct (N.eqb_spec (list_num_samples ts) 0) as [Z | _]; [lia |].
    destruct (N.eqb_spec (N.of_nat (length ts)) 0) as [Z | _]; [destruct ts; [contradiction | cbn [length] in Z; lia] | exact E1].
  - apply best_worst, B1.
  - intros k i t K KA. destruct (frame s list_name lp ts ds m W NE CM KT WS k K) as (raws & res & F1 & F2 & F3 & F4 & F5).
    destruct (F5 i t KA) as (raw & u & U1 & U2 & U3 & U4 & U5 & U6 & U7). exists raw, res, u. split; [exact U2 |]. split; [exact F3 |]. split; [exact U3 |]. split; [exact U6 |].
    intros LK. assert (KM : k mod (list_num_samples ts - (if loops s lp ts then 1 else 0)) = k).
    { apply N.mod_small. destruct (loops s lp ts) eqn:LO; [| lia]. specialize (LK (proj1 (loops_spec s list_name lp ts W) LO)). lia. }
    rewrite KM in U4. destruct KA as (KA & _). destruct (track_facts s list_name lp ts W t (nth_error_In _ _ KA)) as (_ & _ & _ & _ & _ & _ & (PF & _) & _).
    eapply distance_within; eassumption.
Qed.
Print Assumptions C48_the_worst_error_is_found.

(** * Examples *)
Definition measured_error (s : ssettings) (list_name : list N) (lp : looping_policy) (ts : list strack) (ds : dsettings) (calls : list call) : outcome (N * N * N) :=
  bindo (compress_scalar s list_name lp ts) (fun o => match o with
    | None => UB
    | Some m => bindo (do_calls ds fresh_context (calls ++ [c_initialize m; c_seek two_30th rp_ceil])) (fun c =>
        bindo (calculate_compression_error ds lp ts c) (fun '(e, _) => Ok (te_index e, f_bits (te_error e), f_bits (te_time e))))
    end).
(** the hypotheses are met by the three tracks of ScalarExamples, played before with another clip; the quantized track has the largest
    error, below 0.0001, at the first sample *)
Example C48_example : scalar_list [107] ex_tracks /\ ex_tracks <> [] /\ clamp_sample_time ex_ds = true /\ known_type ex_ds (list_type ex_tracks) = true /\
  is_wrapping_supported ex_ds = true /\
  measured_error ex_settings [107] lp_clamp ex_tracks ex_ds [c_initialize ex_clip; c_looping (Some lp_wrap); c_seek f_zero rp_floor] = Ok (2, 0x38CCC000, 0) /\
  fle (f 0x38CCC000) f_0_001 = true.
Proof. split; [exact ex_scalar_list |]. split; [discriminate |]. split; [reflexivity |]. split; [reflexivity |]. split; [reflexivity |]. vm_compute. split; reflexivity. Qed.

(** What the code does not do: the error of a clip that loops can be above the precision of the track.  The first sample, 21, is decompressed
    as 30; the last one, 12, is within the precision, 10, of the first: it is dropped, and measured against 30. *)
Definition far_tracks : list strack :=
  [ {| st_track := ex_desc 0 4 0 (f_of_N 10); st_name := []; st_samples := [[f_of_N 21]; [f_zero]; [f_of_N 90]; [f_of_N 12]] |} ].
Theorem C48_error_above_the_precision_refuted : scalar_list [] far_tracks /\ looping ex_settings lp_clamp far_tracks /\
  measured_error ex_settings [] lp_clamp far_tracks ex_ds [] = Ok (0, f_bits (f_of_N 18), f_bits (fdiv (f_of_N 3) (f_of_N 30))) /\ fgt (f_of_N 18) (f_of_N 10) = true.
Proof.
  split.
  { constructor.
    - vm_compute. reflexivity.
    - repeat apply Forall_cons; try apply Forall_nil; (split; [reflexivity|]; split; [reflexivity|]; split; [vm_compute; discriminate|]; split; [reflexivity|]; split; [split; [vm_compute; discriminate|vm_compute; reflexivity]|]; split; [exact sane_30|repeat constructor]).
    - repeat constructor.
    - constructor.
    - vm_compute. reflexivity. }
  split.
  { split; [reflexivity|]. split; [reflexivity|]. split; [vm_compute; discriminate|]. repeat constructor. }
  vm_compute. split; reflexivity.
Qed.
Print Assumptions C48_error_above_the_precision_refuted.

(** Without any output the error is -1, of the invalid track. *)
Definition stripped_tracks : list strack :=
  [ {| st_track := ex_desc 0 1 k_invalid_track_index f_0_001; st_name := []; st_samples := [[f_of_N 21]] |} ].
Theorem C48_no_error_refuted : track_array_is_valid (map st_track stripped_tracks) = true /\
  measured_error ex_settings [] lp_clamp stripped_tracks ex_ds [] = Ok (k_invalid_track_index, f_bits (f_of_Z (-1)), 0).
Proof. vm_compute. split; reflexivity. Qed.
Print Assumptions C48_no_error_refuted.

(** A NaN error is not seen: [error > result.error] is false.  Here the raw value is NaN. *)
Example C48_nan_is_ignored : let nan := f 0x7FC00000 in
  let ts := [ {| st_track := ex_desc 0 1 0 f_0_001; st_name := []; st_samples := [[nan]] |} ] in
  fnan (scalar_track_error 1 [nan] [f_zero]) = true /\
  bindo (measure_tracks 1 (fun _ => Some [f_zero]) f_zero 0 ts [[nan]] te_start) (fun e => Ok (te_index e, f_bits (te_error e))) = Ok (k_invalid_track_index, f_bits (f_of_Z (-1))).
Proof. vm_compute. split; reflexivity. Qed.
