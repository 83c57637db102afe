(** Compression of a well formed scalar track list: it succeeds, and its context is [sound]. *)
From Verif Require Import Word WordFacts Float32 Float32Facts Interp InterpFacts TrackArray TrackSpec TrackArrayFacts Pieces
  ScalarEnc ScalarDec ScalarSpec ScalarBits ScalarWrite ScalarRead ScalarLanes ScalarTrackFacts LayoutBuild.
From Coq Require Import Lia ZifyBool ZifyN ZifyNat Reals Permutation.
Ltac Zify.zify_post_hook ::= idtac.
Import ListNotations.
Local Open Scope N_scope.

Lemma sum_of_map {A} (f : A -> N) l : sum_of f l = sum_n (map f l).
Proof. induction l as [|x l IH]; [reflexivity|]. cbn [sum_of fold_right map sum_n]. rewrite <- IH. reflexivity. Qed.
Lemma sum_le {A} (f g : A -> N) l : (forall x, In x l -> f x <= g x) -> sum_n (map f l) <= sum_n (map g l).
Proof.
  induction l as [|x l IH]; intros H; cbn [map sum_n]; [lia|]. pose proof (H x (or_introl eq_refl)).
  assert (sum_n (map f l) <= sum_n (map g l)) by (apply IH; intros; apply H; right; assumption). lia.
Qed.
Lemma sum_const {A} (l : list A) k : sum_n (map (fun _ => k) l) = N.of_nat (length l) * k.
Proof. induction l as [|x l IH]; cbn [map sum_n length]; [reflexivity|]. rewrite IH. lia. Qed.
Lemma sum_incl {A} (g : A -> N) : forall l l', NoDup l -> incl l l' -> sum_n (map g l) <= sum_n (map g l').
Proof.
  induction l as [|x l IH]; intros l' ND I; cbn [map sum_n]; [lia|]. inversion ND as [|? ? X ND']; subst.
  destruct (in_split x l' (I x (or_introl eq_refl))) as (a & b & ->).
  assert (sum_n (map g l) <= sum_n (map g (a ++ b))).
  { apply IH; [exact ND'|]. intros y Y. assert (Z := I y (or_intror Y)). apply in_app_or in Z. apply in_or_app. destruct Z as [Z|[Z|Z]]; auto. subst. contradiction. }
  rewrite map_app, sum_n_app in *. cbn [map sum_n]. lia.
Qed.

(** the looping optimization *)
Definition lossy_of (n : N) (ts : list strack) : list (f32 * list (list f32)) :=
  map (fun t => (precision (st_track t), firstn (N.to_nat n) (map promote (st_samples t)))) ts.
Definition closes (t : strack) : bool :=
  all_near_equal (hd [] (map promote (st_samples t))) (last (map promote (st_samples t)) []) (precision (st_track t)).
Definition loops (s : ssettings) (lp : looping_policy) (ts : list strack) : bool :=
  optimize_loops s && (match lp with lp_clamp => true | lp_wrap => false end) && (2 <=? list_num_samples ts) && forallb closes ts.

Lemma wrapping_spec n : forall ts, Forall (fun t => N.of_nat (length (st_samples t)) = n) ts -> 2 <= n ->
  is_wrapping (N.to_nat (n - 1)) (promoted ts) = Ok (forallb closes ts).
Proof.
  induction ts as [|t ts IH]; intros F H; [reflexivity|]. inversion F as [|? ? L F']; subst. cbn [promoted map is_wrapping fst snd forallb].
  set (l := map promote (st_samples t)). assert (LL : length l = length (st_samples t)) by apply map_length.
  assert (A : nth_error l 0 = Some (hd [] l)) by (destruct l; [cbn in LL; lia|reflexivity]).
  assert (B : nth_error l (N.to_nat (N.of_nat (length (st_samples t)) - 1)) = Some (last l [])).
  { replace (N.to_nat (N.of_nat (length (st_samples t)) - 1)) with (length l - 1)%nat by lia.
    rewrite (nth_error_nth' l []) by lia. f_equal.
    clear -LL H. destruct (exists_last (l := l)) as (a & x & E); [intros ->; cbn in LL; lia|]. rewrite E, last_last, app_length, app_nth2 by (cbn [length]; lia).
    cbn [length]. replace (length a + 1 - 1 - length a)%nat with 0%nat by lia. reflexivity. }
  rewrite A, B. unfold closes at 1. fold l. destruct (all_near_equal _ _ _); cbn [negb andb]; [|reflexivity].
  change (map (fun t0 => (precision (st_track t0), map promote (st_samples t0))) ts) with (promoted ts). apply IH; assumption.
Qed.
Lemma looping_spec s lp ts : Forall (fun t => N.of_nat (length (st_samples t)) = list_num_samples ts) ts ->
  optimize_looping s lp (list_num_samples ts) (promoted ts)
  = Ok (if loops s lp ts then lp_wrap else lp, list_num_samples ts - (if loops s lp ts then 1 else 0), lossy_of (list_num_samples ts - (if loops s lp ts then 1 else 0)) ts).
Proof.
  intros F. set (n := list_num_samples ts) in *.
  assert (NO : Ok (lp, n, promoted ts) = Ok (lp, n - 0, lossy_of (n - 0) ts)).
  { rewrite N.sub_0_r. do 2 f_equal. unfold promoted, lossy_of. apply map_ext_in. intros t I. f_equal.
    rewrite firstn_all2; [reflexivity|]. rewrite map_length. pose proof (proj1 (Forall_forall _ _) F t I). cbn in H. lia. }
  unfold optimize_looping, loops. fold n. destruct (optimize_loops s); cbn [negb andb]; [|exact NO].
  destruct lp; cbn [andb]; [|exact NO].
  destruct (n <=? 1) eqn:E; [replace (2 <=? n) with false by lia; cbn [andb]; exact NO|]. replace (2 <=? n) with true by lia. cbn [andb].
  destruct ts as [|t ts'] eqn:ET; [exfalso; cbn in n; lia|]. rewrite <- ET in *. 
  replace (match promoted ts with [] => Ok (lp_clamp, n, promoted ts) | _ :: _ => bindo (is_wrapping (N.to_nat (n - 1)) (promoted ts)) (fun w => if w then Ok (lp_wrap, n - 1, map (fun t0 => (fst t0, firstn (N.to_nat (n - 1)) (snd t0))) (promoted ts)) else Ok (lp_clamp, n, promoted ts)) end)
    with (bindo (is_wrapping (N.to_nat (n - 1)) (promoted ts)) (fun w => if w : bool then Ok (lp_wrap, n - 1, map (fun t0 => (fst t0, firstn (N.to_nat (n - 1)) (snd t0))) (promoted ts)) else Ok (lp_clamp, n, promoted ts)))
    by (rewrite ET; reflexivity).
  rewrite (wrapping_spec n ts F ltac:(lia)). cbn [bindo]. destruct (forallb closes ts); [|exact NO].
  do 2 f_equal. unfold promoted, lossy_of. rewrite map_map. reflexivity.
Qed.

(** the quantized track of a track *)
Definition ctrack_of (n : N) (t : strack) : ctrack :=
  quantize_track (num_sample_elements (track_type (st_track t))) (st_name t) (st_samples t) (precision (st_track t), firstn (N.to_nat n) (map promote (st_samples t))).
Lemma quantize_tracks_map nc n : forall ts, Forall (fun t => num_sample_elements (track_type (st_track t)) = nc) ts ->
  quantize_tracks nc ts (lossy_of n ts) = map (ctrack_of n) ts.
Proof.
  induction ts as [|t ts IH]; intros F; [reflexivity|]. inversion F; subst. cbn [lossy_of map quantize_tracks]. f_equal. apply IH. assumption.
Qed.
Lemma in_output_order_spec ts : forall m, Forall (fun i => i < N.of_nat (length ts)) m ->
  exists out, in_output_order ts (map Some m) = Ok out /\ length out = length m /\
    forall o i, nth_error m o = Some i -> nth_error out o = nth_error ts (N.to_nat i).
Proof.
  induction m as [|i m IH]; intros F.
  - exists []. repeat split; intros [|o] i H; discriminate H.
  - inversion F as [|? ? Hi F']; subst. destruct (IH F') as (out & E & L & N). cbn [map in_output_order].
    destruct (nth_error ts (N.to_nat i)) as [t|] eqn:T; [|apply nth_error_None in T; lia]. rewrite E. cbn [bindo]. exists (t :: out).
    split; [reflexivity|]. split; [cbn [length]; lia|]. intros [|o] j H; cbn [nth_error] in *; [injection H as <-; symmetry; exact T|apply N; exact H].
Qed.

Lemma f2_length {A B} (R : A -> B -> Prop) a b : Forall2 R a b -> length a = length b.
Proof. induction 1; cbn [length]; auto. Qed.
Lemma shape {A} (l : list A) : l = [] \/ exists t r, l = t :: r.
Proof. destruct l; eauto. Qed.
Section Link.
Context (s : ssettings) (list_name : list N) (lp : looping_policy) (ts : list strack).
Hypothesis W : scalar_list list_name ts.

Let n := list_num_samples ts.
Let n' := n - (if loops s lp ts then 1 else 0).
Let ty := list_type ts.
Let nc := num_sample_elements ty.

Lemma many_tracks : N.of_nat (length (map st_track ts)) <= k_invalid_track_index.
Proof. rewrite map_length. pose proof (sl_size _ _ W) as Z. change (2 ^ 32) with 4294967296 in Z. unfold k_invalid_track_index. lia. Qed.
Lemma is_valid : Permutation (outputs (map st_track ts)) (map N.of_nat (seq 0 (length (outputs (map st_track ts))))) /\
  Forall (fun t => track_type (st_track t) = ty /\ num_samples (st_track t) = n /\ feq (sample_rate (st_track t)) (list_sample_rate ts) = true /\ track_ok (st_track t)) ts.
Proof.
  destruct (proj1 (track_array_is_valid_spec _ many_tracks) (sl_valid _ _ W)) as [A P]. split; [exact P|].
  clear P. destruct (shape ts) as [E|(t0 & r & E)]; [rewrite E; constructor|].
  specialize (A (st_track t0)). rewrite E in A. specialize (A eq_refl). rewrite <- E in A.
  apply Forall_map in A. eapply Forall_impl; [|exact A]. cbn beta. intros t (T1 & T2 & T3 & T4 & _).
  unfold ty, n, list_type, list_num_samples, list_sample_rate. rewrite E. auto.
Qed.
Lemma track_facts t : In t ts -> track_type (st_track t) = ty /\ num_samples (st_track t) = n /\ feq (sample_rate (st_track t)) (list_sample_rate ts) = true /\
  ty <= 4 /\ N.of_nat (length (st_samples t)) = n /\ 1 <= n < 2 ^ 22 - 2 /\ (ffinite (precision (st_track t)) = true /\ (0 <= FR (precision (st_track t)))%R) /\
  (ffinite (sample_rate (st_track t)) = true /\ sane (FR (sample_rate (st_track t)))) /\ bytes_ok (st_name t) /\
  Forall (fun v => length v = nc /\ Forall (fun x => ffinite x = true) v) (st_samples t).
Proof.
  intros I. destruct is_valid as [_ A]. destruct (proj1 (Forall_forall _ _) A t I) as (A1 & A2 & A3 & A4).
  destruct (proj1 (Forall_forall _ _) (sl_tracks _ _ W) t I) as (B1 & B2 & B3 & B4 & B5 & B6 & B7).
  pose proof (proj1 (Forall_forall _ _) (sl_values _ _ W) t I) as C. cbn beta in C. rewrite A1 in *. rewrite A2 in *.
  destruct A4 as [A4|(_ & A4 & A5 & _)]; [congruence|]. split; [reflexivity|]. split; [reflexivity|]. tauto.
Qed.
Lemma n'_bounds t : In t ts -> 1 <= n' <= n.
Proof.
  intros I. destruct (track_facts t I) as (_ & _ & _ & _ & _ & B & _). unfold n'. destruct (loops s lp ts) eqn:E; [|lia].
  unfold loops in E. fold n in E. lia.
Qed.
Lemma nc_bounds : (1 <= nc <= 4)%nat.
Proof.
  unfold nc, ty. destruct (shape ts) as [E|(t & r & E)]; [rewrite E; cbn; lia|]. assert (I : In t ts) by (rewrite E; left; reflexivity).
  destruct (track_facts t I) as (_ & _ & _ & H & _). unfold ty in H. set (y := list_type ts) in *. clearbody y.
  assert (y = 0 \/ y = 1 \/ y = 2 \/ y = 3 \/ y = 4) as [->|[->|[->|[->| ->]]]] by lia; cbn; lia.
Qed.

(** what is said of the compressed tracks: [out] is in output order *)
Definition context_of (out : list ctrack) : scontext :=
  {| sc_tracks := out; sc_looping := if loops s lp ts then lp_wrap else lp; sc_num_samples := n'; sc_sample_rate := list_sample_rate ts; sc_type := ty |}.
Definition out_spec (out : list ctrack) : Prop :=
  length out = length (outputs (map st_track ts)) /\
  (forall t, In t ts -> output_index (st_track t) <> k_invalid_track_index -> nth_error out (N.to_nat (output_index (st_track t))) = Some (ctrack_of n' t)) /\
  (exists src, NoDup src /\ incl src (seq 0 (length ts)) /\ Forall2 (fun i ct => exists t, nth_error ts i = Some t /\ ct = ctrack_of n' t) src out).

Lemma prepare_ok : exists out, prepare s lp ts = Ok (context_of out) /\ out_spec out.
Proof.
  destruct is_valid as [P A].
  destruct (create_mapping_spec _ many_tracks P) as (m & E & L & M).
  assert (ML : forall o, (o < length m)%nat -> exists i t, nth_error m o = Some (N.of_nat i) /\ nth_error ts i = Some t /\ output_index (st_track t) = N.of_nat o).
  { intros o Ho. assert (I : In (N.of_nat o) (outputs (map st_track ts))).
    { eapply Permutation_in; [apply Permutation_sym; exact P|]. apply in_map. apply in_seq. lia. }
    unfold outputs in I. apply filter_In in I. destruct I as [I J]. apply in_map_iff in I. destruct I as (t' & I1 & I2). apply In_nth_error in I2. destruct I2 as (i & I2).
    assert (NV : output_index t' <> k_invalid_track_index) by (rewrite I1; lia).
    pose proof (M i t' I2 NV) as M'. rewrite I1, Nnat.Nat2N.id in M'.
    rewrite nth_error_map in I2. destruct (nth_error ts i) as [t|] eqn:T; [|discriminate I2]. cbn in I2. injection I2 as I2. exists i, t. subst t'. auto. }
  assert (NCs : Forall (fun t => num_sample_elements (track_type (st_track t)) = nc) ts).
  { eapply Forall_impl; [|exact A]. cbn beta. intros t (H & _). rewrite H. reflexivity. }
  destruct (in_output_order_spec (map (ctrack_of n') ts) m) as (out & EO & LO & NO).
  { apply Forall_forall. intros i I. apply In_nth_error in I. destruct I as (o & I).
    assert (Ho : (o < length m)%nat) by (apply nth_error_Some; rewrite I; discriminate).
    destruct (ML o Ho) as (i' & t & I1 & I2 & _). rewrite I in I1. injection I1 as ->. rewrite map_length.
    assert (i' < length ts)%nat by (apply nth_error_Some; rewrite I2; discriminate). lia. }
  exists out. split.
  - unfold prepare. rewrite E. cbn [bindo]. rewrite looping_spec; [|apply Forall_forall; intros t I; apply (track_facts t I)].
    cbn [bindo]. fold n n' ty nc. rewrite (quantize_tracks_map nc n' ts NCs), EO. reflexivity.
  - split; [lia|]. split.
    + intros t I NV. apply In_nth_error in I. destruct I as (i & I).
      assert (I' : nth_error (map st_track ts) i = Some (st_track t)) by (rewrite nth_error_map, I; reflexivity).
      rewrite (NO _ _ (M i _ I' NV)). rewrite Nnat.Nat2N.id, nth_error_map, I. reflexivity.
    + exists (map N.to_nat m). split; [|split].
      * apply NoDup_nth_error. intros a b Ha EQ. rewrite map_length in Ha. rewrite !nth_error_map in EQ.
        destruct (ML a Ha) as (i & t & I1 & I2 & I3). rewrite I1 in EQ. cbn in EQ.
        destruct (nth_error m b) as [x|] eqn:Hb; [|discriminate EQ]. cbn in EQ. injection EQ as EQ. rewrite Nnat.Nat2N.id in EQ.
        assert (Hb' : (b < length m)%nat) by (apply nth_error_Some; rewrite Hb; discriminate).
        destruct (ML b Hb') as (i' & t' & J1 & J2 & J3). rewrite Hb in J1. injection J1 as J1. assert (i = i') by lia. subst i'. rewrite I2 in J2. injection J2 as <-. lia.
      * intros x X. apply in_map_iff in X. destruct X as (y & <- & Y). apply In_nth_error in Y. destruct Y as (o & Y).
        assert (Ho : (o < length m)%nat) by (apply nth_error_Some; rewrite Y; discriminate).
        destruct (ML o Ho) as (i & t & I1 & I2 & _). rewrite Y in I1. injection I1 as ->. rewrite Nnat.Nat2N.id. apply in_seq.
        assert (i < length ts)%nat by (apply nth_error_Some; rewrite I2; discriminate). lia.
      * clear - NO ML LO. assert (G : forall k a b, length b = length a -> (forall o i, nth_error a o = Some i -> nth_error b o = nth_error (map (ctrack_of n') ts) (N.to_nat i)) ->
          (forall o, (o < length a)%nat -> exists i t, nth_error a o = Some (N.of_nat i) /\ nth_error ts i = Some t /\ output_index (st_track t) = N.of_nat (k + o)) ->
          Forall2 (fun i ct => exists t, nth_error ts i = Some t /\ ct = ctrack_of n' t) (map N.to_nat a) b).
        { intros k a. revert k. induction a as [|x a IH]; intros k [|y b] LB NB MB; try discriminate LB; [constructor|]. constructor.
          - destruct (MB 0%nat ltac:(cbn; lia)) as (i & t & I1 & I2 & _). cbn in I1. injection I1 as ->. specialize (NB 0%nat _ eq_refl). cbn [nth_error] in NB.
            rewrite Nnat.Nat2N.id, nth_error_map, I2 in NB. injection NB as NB. exists t. rewrite Nnat.Nat2N.id. auto.
          - apply (IH (S k)); [cbn in LB; lia|intros o i H; apply (NB (S o) i H)|]. intros o Ho. destruct (MB (S o)) as (i & t & I1 & I2 & I3); [cbn; lia|].
            exists i, t. repeat split; auto. rewrite I3. f_equal. lia. }
        apply (G 0%nat m out LO NO). intros o Ho. apply ML. exact Ho.
Qed.

Lemma Forall2_right {A B} (R : A -> B -> Prop) (P : B -> Prop) a b : Forall2 R a b -> (forall x y, R x y -> P y) -> Forall P b.
Proof. induction 1; intros H'; constructor; eauto. Qed.
Lemma out_forall out (P : ctrack -> Prop) : out_spec out -> (forall t, In t ts -> P (ctrack_of n' t)) -> Forall P out.
Proof.
  intros (_ & _ & src & _ & _ & F) H. eapply Forall2_right; [exact F|]. cbn beta. intros i ct (t & T & ->). apply H. eapply nth_error_In; exact T.
Qed.
Lemma ctrack_sound t : In t ts -> track_sound nc (precision (st_track t)) (st_name t) (st_samples t) (N.to_nat n').
Proof.
  intros I. destruct (track_facts t I) as (_ & _ & _ & _ & L & _ & P & _ & _ & V). pose proof (n'_bounds t I).
  apply quantize_track_sound; [apply nc_bounds|exact P|exact V|lia].
Qed.
Lemma ctrack_eq t : In t ts -> ctrack_of n' t = quantize_track nc (st_name t) (st_samples t) (precision (st_track t), firstn (N.to_nat n') (map promote (st_samples t))).
Proof. intros I. unfold ctrack_of, nc. destruct (track_facts t I) as (-> & _). reflexivity. Qed.

Lemma context_sound out : out_spec out -> sound list_name (context_of out).
Proof.
  intros O. assert (TS : forall (P : ctrack -> Prop), (forall t, In t ts -> P (quantize_track nc (st_name t) (st_samples t) (precision (st_track t), firstn (N.to_nat n') (map promote (st_samples t))))) -> Forall P out).
  { intros P H. apply out_forall; [exact O|]. intros t I. rewrite ctrack_eq by exact I. apply H. exact I. }
  assert (RT : Forall (fun t => ct_constant t = false -> (1 <= ct_bit_rate t <= 24)%nat) out) by (apply TS; intros t I; apply (ctrack_sound t I)).
  constructor; cbn [context_of sc_type sc_tracks sc_num_samples]; fold nc.
  - apply nc_bounds.
  - apply TS. intros t I. apply (ctrack_sound t I).
  - apply TS. intros t I. apply (ctrack_sound t I).
  - intros j Hj. apply TS. intros t I. apply (ctrack_sound t I). lia.
  - destruct O as (LO & _ & src & ND & IN & F).
    assert (LE : (length out <= length ts)%nat).
    { rewrite <- (f2_length _ _ _ F). rewrite <- (seq_length (length ts) 0). apply NoDup_incl_length; assumption. }
    assert (NM : name_bytes (context_of out) <= sum_of (fun t => N.of_nat (length (st_name t))) ts).
    { unfold name_bytes. cbn [context_of sc_tracks]. rewrite sum_of_map.
      set (g := fun i => match nth_error ts i with Some t => N.of_nat (length (st_name t)) | None => 0 end).
      replace (sum_n (map (fun t => blen (ct_name t)) out)) with (sum_n (map g src)).
      - eapply N.le_trans; [apply (sum_incl g src (seq 0 (length ts)) ND IN)|]. apply N.eq_le_incl. f_equal.
        unfold g. clear. assert (G : forall (l1 l2 : list strack), map (fun i => match nth_error (l1 ++ l2) i with Some t => N.of_nat (length (st_name t)) | None => 0 end) (seq (length l1) (length l2)) = map (fun t => N.of_nat (length (st_name t))) l2).
        { intros l1 l2. revert l1. induction l2 as [|x l2 IH]; intros l1; [reflexivity|]. cbn [length seq map]. f_equal.
          - rewrite nth_error_app2 by lia. rewrite Nat.sub_diag. reflexivity.
          - specialize (IH (l1 ++ [x])). rewrite app_length, <- app_assoc in IH. cbn [app length] in IH. rewrite Nat.add_1_r in IH. exact IH. }
        apply (G [] ts).
      - f_equal. assert (SN : forall t, In t ts -> ct_name (ctrack_of n' t) = st_name t) by (intros t I; rewrite ctrack_eq by exact I; apply (ctrack_sound t I)).
        clear - F SN. induction F as [|i ct src out (t & T & ->) F IH]; [reflexivity|]. cbn [map]. f_equal; [|exact IH].
        unfold g. rewrite T. rewrite SN by (eapply nth_error_In; exact T). reflexivity. }
    assert (FB : frame_bits nc out <= N.of_nat (length out) * 128).
    { unfold frame_bits. rewrite <- sum_const. apply sum_le. intros ct I. unfold track_bits. destruct (ct_constant ct) eqn:C; [lia|].
      pose proof (proj1 (Forall_forall _ _) RT ct I C) as B.
      assert (B' : num_bits_at (ct_bit_rate ct) <= 32).
      { destruct (Nat.eq_dec (ct_bit_rate ct) 24) as [->|]; [cbn; lia|]. rewrite num_bits_small by lia. lia. }
      pose proof nc_bounds. nia. }
    assert (TB : total_bits (context_of out) <= N.of_nat (length ts) * (128 * n)).
    { unfold total_bits. cbn [context_of sc_tracks sc_num_samples sc_type]. fold nc. assert (n' <= n) by (unfold n'; lia).
      transitivity (N.of_nat (length out) * 128 * n'); [apply N.mul_le_mono_r; exact FB|]. rewrite <- N.mul_assoc. apply N.mul_le_mono; [lia|]. apply N.mul_le_mono_l. assumption. }
    pose proof (sl_size _ _ W) as Z. fold n in Z. change (2 ^ 32) with 4294967296 in *. unfold blen in *.
    assert (N.of_nat (length out) <= N.of_nat (length ts)) by lia.
    set (A := name_bytes (context_of out)) in *. set (B := total_bits (context_of out)) in *. set (T := N.of_nat (length ts)) in *. set (T' := N.of_nat (length out)) in *. clearbody A B T T'.
    rewrite N.mul_add_distr_l in Z. lia.
  - destruct (shape ts) as [E|(t & r & E)]; [unfold ty; rewrite E; reflexivity|]. destruct (track_facts t) as (H & _ & _ & H' & _); [rewrite E; left; reflexivity|]. lia.
  - exact RT.
  - destruct (shape ts) as [E|(t & r & E)]; [unfold n', n; rewrite E; change (2 ^ 32) with 4294967296; cbn; lia|].
    destruct (track_facts t) as (_ & H & _ & _ & _ & H' & _); [rewrite E; left; reflexivity|]. unfold n'. change (2 ^ 22) with 4194304 in H'. change (2 ^ 32) with 4294967296. lia.
  - split; [apply (sl_name _ _ W)|]. apply TS. intros t I. destruct (ctrack_sound t I) as (_ & _ & _ & -> & _). apply (track_facts t I).
Qed.

Theorem compress_ok : exists out anim, out_spec out /\ sound list_name (context_of out) /\
  blen anim = anim_size (context_of out) /\ bytes_ok anim /\ fields_seq anim 0 (all_fields nc 0 (N.to_nat n') out) /\
  compress_scalar s list_name lp ts = Ok (Some (clip_bytes s list_name (context_of out) anim)).
Proof.
  destruct prepare_ok as (out & PE & O). pose proof (context_sound out O) as S.
  pose proof S as S'. destruct S' as [S1 S2 S3 S4 S5 S6 S7 S8 S9].
  destruct (write_buffer_ok s list_name (context_of out) S1 S2 S3 S4 S5 S6) as (anim & A1 & A2 & A3 & A4).
  { eapply Forall_impl; [|exact S7]. cbn beta. intros t H C. apply H. exact C. }
  exists out, anim. split; [exact O|]. split; [exact S|]. split; [exact A1|]. split; [exact A2|]. split; [exact A3|].
  unfold compress_scalar. rewrite (sl_valid _ _ W). cbn [negb].
  assert (AV : are_samples_valid ts = true).
  { unfold are_samples_valid. apply forallb_forall. intros t I. apply forallb_forall. intros v V. apply forallb_forall. intros x X.
    pose proof (proj1 (Forall_forall _ _) (sl_values _ _ W) t I) as F. cbn beta in F. pose proof (proj1 (Forall_forall _ _) F v V) as [_ F']. exact (proj1 (Forall_forall _ _) F' x X). }
  rewrite AV. cbn [negb]. rewrite PE. cbn [bindo]. rewrite (layout_ok s list_name (context_of out) S1 S2 S3 S4 S5). cbn [bindo]. rewrite A4. reflexivity.
Qed.
End Link.
