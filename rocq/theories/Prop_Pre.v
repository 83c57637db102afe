(** C51: pre-processing scalar track arrays.  Model: PreProcess.v; vocabulary: ScalarSpec.v ([within]: the float distance of every component is
    at most the precision). *)
From Coq Require Import Lia Reals Lra.
From Flocq Require Import Core BinarySingleNaN Bits.
From Verif Require Import Word WordFacts Float32 Float32Facts Interp InterpFacts TrackArray ScalarEnc ScalarDec ScalarSpec ScalarLanes ScalarTrackFacts PreProcess.
Import ListNotations.
Local Open Scope N_scope.
Ltac Zify.zify_post_hook ::= idtac.

(** Scalar tracks of [nc] components: [n] samples each, finite, with a precision track_array::is_valid accepts *)
Definition scalar_track (nc : nat) (n : N) (t : strack) : Prop :=
  N.of_nat (length (st_samples t)) = n /\ num_samples (st_track t) = n /\ ffinite (precision (st_track t)) = true /\ (0 <= FR (precision (st_track t)))%R /\
  Forall (fun v => length v = nc /\ Forall (fun x => ffinite x = true) v) (st_samples t).
Definition scalar_array (nc : nat) (n : N) (ts : list strack) : Prop := ts <> [] /\ (1 <= nc <= 4)%nat /\ 1 <= n /\ Forall (scalar_track nc n) ts.
Definition first_sample (t : strack) : list f32 := hd [] (st_samples t).
Definition last_sample (t : strack) : list f32 := last (st_samples t) [].
(** the first and last samples match *)
Definition loops (t : strack) : Prop := within (precision (st_track t)) (first_sample t) (last_sample t).
(** any two samples match *)
Definition constant (t : strack) : Prop := forall a b, In a (st_samples t) -> In b (st_samples t) -> within (precision (st_track t)) a b.
(** no component of the first sample is above those of all the other samples *)
Definition first_not_above (t : strack) : Prop :=
  (length (st_samples t) <= 1)%nat \/ forall j, exists s, In s (tl (st_samples t)) /\ (FR (nth j (first_sample t) f_zero) <= FR (nth j s f_zero))%R.
(** the last sample replaced with the first; every sample replaced with the first *)
Definition looped (t : strack) : strack := with_samples t (removelast (st_samples t) ++ [first_sample t]).
Definition flattened (t : strack) : strack := with_samples t (map (fun _ => first_sample t) (st_samples t)).

(** * Lanes *)
Lemma fin_nth nc v j : length v = nc -> Forall (fun x => ffinite x = true) v -> ffinite (nth j v f_zero) = true.
Proof. intros _ F. apply Forall_nth_fin, F. Qed.
Lemma within_nth p a b : length a = length b -> within p a b <-> forall j, (j < length a)%nat -> fle (fabs (fsub (nth j a f_zero) (nth j b f_zero))) p = true.
Proof.
  unfold within. revert b. induction a as [| x a IH]; intros [| y b] L; try discriminate L.
  - split; [intros _ j H; cbn in H; lia | constructor].
  - injection L as L. split.
    + intros H. inversion H as [| ? ? ? ? A B]; subst. intros [| j] Hj; [exact A |]. cbn [nth length] in *. apply IH; [exact L | exact B | lia].
    + intros H. constructor; [exact (H 0%nat ltac:(cbn; lia)) |]. apply IH; [exact L |]. intros j Hj. exact (H (S j) ltac:(cbn; lia)).
Qed.
Lemma zero_near p : ffinite p = true -> (0 <= FR p)%R -> fle (fabs (fsub f_zero f_zero)) p = true.
Proof. intros F P. change (fabs (fsub f_zero f_zero)) with f_zero. apply fle_R; [reflexivity | exact F | rewrite f_zero_R; exact P]. Qed.
Lemma near_self x p : ffinite x = true -> ffinite p = true -> (0 <= FR p)%R -> fle (fabs (fsub x x)) p = true.
Proof.
  intros X F P. apply near_intro; auto. rewrite Rminus_diag_eq by reflexivity. unfold rnd. rewrite round_0; [| typeclasses eauto]. rewrite Rabs_R0. exact P.
Qed.
Lemma within_self p v : ffinite p = true -> (0 <= FR p)%R -> Forall (fun x => ffinite x = true) v -> within p v v.
Proof. intros F P V. unfold within. induction V; constructor; auto. apply near_self; auto. Qed.
Lemma near_equal_within p nc a b : ffinite p = true -> (0 <= FR p)%R -> (nc <= 4)%nat -> length a = nc -> length b = nc -> all_near_equal (promote a) (promote b) p = true <-> within p a b.
Proof.
  intros F P N4 LA LB. unfold all_near_equal. rewrite within_nth by congruence. rewrite forallb_forall.
  assert (PL : forall v : list f32, length v = nc -> length (promote v) = 4%nat) by (intros v L; unfold promote; rewrite app_length, repeat_length; lia).
  assert (ML : length (map2 fsub (promote a) (promote b)) = 4%nat) by (rewrite map2_length, !PL by assumption; reflexivity).
  assert (MN : forall j, (j < 4)%nat -> nth j (map2 fsub (promote a) (promote b)) f_zero = fsub (nth j a f_zero) (nth j b f_zero)).
  { intros j Hj. rewrite (map2_nth fsub f_zero f_zero f_zero) by (rewrite PL by assumption; exact Hj). rewrite !promote_nth. reflexivity. }
  split.
  - intros H j Hj. rewrite <- MN by lia. apply H. apply nth_In. lia.
  - intros H x I. apply (In_nth _ _ f_zero) in I. destruct I as (j & Hj & <-). rewrite MN by lia.
    destruct (Nat.lt_ge_cases j nc) as [C | C]; [apply H; lia |]. rewrite !nth_overflow by lia. apply zero_near; assumption.
Qed.
(** a difference that is not below zero: at most [p] without its sign *)
Lemma fsub_pos x y p : ffinite x = true -> ffinite y = true -> ffinite p = true -> (FR y <= FR x)%R -> fle (fsub x y) p = true -> (Rabs (rnd (FR x - FR y)) <= FR p)%R.
Proof.
  intros X Y P L H. generalize (Binary.Bminus_correct 24 128 (eq_refl _) (eq_refl _) binop_nan_pl32 mode_NE x y X Y).
  change (Binary.Bminus 24 128 eq_refl eq_refl binop_nan_pl32 mode_NE x y) with (fsub x y).
  destruct (Rlt_bool _ _) eqn:B.
  - intros (A & FN & _). apply fle_R in H; [| exact FN | exact P]. unfold FR at 1 in H. rewrite A in H.
    rewrite Rabs_pos_eq; [exact H |]. unfold rnd. rewrite <- (round_0 radix2 (FLT_exp (-149) 24) ZnearestE). apply rnd_le. lra.
  - intros (A & S). exfalso. unfold Binary.binary_overflow in A. cbn [overflow_to_inf] in A.
    assert (SX : Binary.Bsign 24 128 x = true).
    { destruct (Binary.Bsign 24 128 x) eqn:SX; [reflexivity | exfalso]. destruct (fsub x y) as [s | s | s pl e | s m e He]; try discriminate A.
      cbn in A. injection A as ->. destruct p; discriminate. }
    rewrite SX in S. assert (X0 : (FR x <= 0)%R).
    { destruct x as [sx | sx | sx plx ex | sx mx ex Hx]; try discriminate X; [apply Rle_refl |]. cbn in SX. subst sx. unfold FR. cbn. apply F2R_le_0. discriminate. }
    assert (Y0 : (0 <= FR y)%R).
    { destruct y as [sy | sy | sy ply ey | sy my ey Hy]; try discriminate Y; [apply Rle_refl |]. cbn in S. destruct sy; [discriminate S |]. unfold FR. cbn. apply F2R_ge_0. discriminate. }
    assert (Z : (Binary.B2R 24 128 x - Binary.B2R 24 128 y = 0)%R) by (unfold FR in *; lra).
    rewrite Z, round_0, Rabs_R0 in B; [| typeclasses eauto]. rewrite Rlt_bool_true in B by (apply bpow_gt_0). discriminate B.
Qed.

Lemma fold_pick (f : f32 -> f32 -> f32) (Hf : forall x y, f x y = x \/ f x y = y) : forall l m, length m = 4%nat -> Forall (fun s => length s = 4%nat) l ->
  forall j, (j < 4)%nat -> exists s, In s (m :: l) /\ nth j (fold_left (fun m s => map2 f m s) l m) f_zero = nth j s f_zero.
Proof.
  induction l as [| s l IH]; intros m M L j Hj; [exists m; split; [left; reflexivity | reflexivity] |]. cbn [fold_left]. inversion L as [| ? ? LS L']; subst.
  destruct (IH (map2 f m s)) with (j := j) as (r & R & E); [rewrite map2_length, M, LS; reflexivity | exact L' | exact Hj |].
  destruct R as [<- | R]; [| exists r; split; [right; right; exact R | exact E]]. rewrite E, (map2_nth f f_zero f_zero f_zero) by lia.
  destruct (Hf (nth j m f_zero) (nth j s f_zero)) as [-> | ->]; [exists m; split; [left; reflexivity | reflexivity] | exists s; split; [right; left; reflexivity | reflexivity]].
Qed.
Lemma fmin_pick x y : fmin x y = x \/ fmin x y = y.
Proof. unfold fmin. destruct (flt x y); auto. Qed.
Lemma fmax_pick x y : fmax x y = x \/ fmax x y = y.
Proof. unfold fmax. destruct (fgt x y); auto. Qed.

Section Track.
Variables (nc : nat) (n : N) (t : strack).
Hypothesis NC : (1 <= nc <= 4)%nat.
Hypothesis Hn : 1 <= n.
Hypothesis T : scalar_track nc n t.
Let p := precision (st_track t).
Lemma some_samples : exists f r, st_samples t = f :: r.
Proof. clear NC. destruct T as (L & _). destruct (st_samples t) as [| f r]; [cbn in L; lia | eauto]. Qed.
Lemma sample_ok_ v : In v (st_samples t) -> length v = nc /\ Forall (fun x => ffinite x = true) v.
Proof. destruct T as (_ & _ & _ & _ & F). rewrite Forall_forall in F. apply F. Qed.
Lemma sanitize_ok : first_not_above t -> (constant t /\ sanitize_constant_track t = Ok (flattened t)) \/ (~ constant t /\ sanitize_constant_track t = Ok t).
Proof.
  intros NA. pose proof T as (L & _ & PF & PP & _). fold p in PF, PP. destruct some_samples as (f & r & E). unfold sanitize_constant_track, flattened. rewrite E. cbn [map].
  set (lst := last (f :: r) []). assert (IL : In lst (f :: r)).
  { unfold lst. clear. revert f. induction r as [| x r IH]; intros f; [left; reflexivity |]. right. exact (IH x). }
  assert (V : forall s, In s (f :: r) -> vec4 (promote s)) by (intros s I; rewrite <- E in I; destruct (sample_ok_ s I) as [A B]; apply (promote_vec4 nc); [exact A | lia | exact B]).
  assert (VR : Forall vec4 (map promote r)) by (apply Forall_forall; intros x I; apply in_map_iff in I; destruct I as (s & <- & I); apply V; right; exact I).
  assert (LR : Forall (fun s => length s = 4%nat) (map promote r)) by (eapply Forall_impl; [| exact VR]; intros x H; exact (proj1 H)).
  destruct (fold_min (map promote r) (promote f) (V f (or_introl eq_refl)) VR) as (MN & MN1 & MN2).
  destruct (fold_max (map promote r) (promote lst) (V lst IL) VR) as (MX & MX1 & MX2).
  pose proof (fold_pick fmin fmin_pick (map promote r) (promote f) (proj1 (V f (or_introl eq_refl))) LR) as PN.
  pose proof (fold_pick fmax fmax_pick (map promote r) (promote lst) (proj1 (V lst IL)) LR) as PX.
  set (mn := fold_left (fun m s => map2 fmin m s) (map promote r) (promote f)) in *. set (mx := fold_left (fun m s => map2 fmax m s) (map promote r) (promote lst)) in *.
  assert (LO : forall s j, In s (f :: r) -> (j < 4)%nat -> (FR (nth j mn f_zero) <= FR (nth j s f_zero))%R).
  { intros s j [<- | I] Hj; [rewrite <- (promote_nth f); apply MN1, Hj |]. rewrite <- (promote_nth s). apply MN2; [apply in_map, I | exact Hj]. }
  assert (HI' : forall s j, In s r -> (j < 4)%nat -> (FR (nth j s f_zero) <= FR (nth j mx f_zero))%R).
  { intros s j I Hj. rewrite <- (promote_nth s). apply MX2; [apply in_map, I | exact Hj]. }
  assert (HI : forall s j, In s (f :: r) -> (j < 4)%nat -> (FR (nth j s f_zero) <= FR (nth j mx f_zero))%R).
  { intros s j [<- | I] Hj; [| apply HI'; assumption]. unfold first_not_above, first_sample in NA. rewrite E in NA. cbn [tl hd length] in NA. destruct NA as [NA | NA].
    - assert (r = []) as R by (destruct r; [reflexivity | cbn in NA; lia]). unfold mx, lst. rewrite R. cbn [map fold_left last]. rewrite promote_nth. apply Rle_refl.
    - destruct (NA j) as (s & I & B). eapply Rle_trans; [exact B | apply HI'; assumption]. }
  assert (MNP : forall j, (j < 4)%nat -> exists s, In s (f :: r) /\ nth j mn f_zero = nth j s f_zero).
  { intros j Hj. destruct (PN j Hj) as (s & [<- | I] & Q); [exists f; split; [left; reflexivity | rewrite Q; apply promote_nth] |].
    apply in_map_iff in I. destruct I as (s' & <- & I). exists s'. split; [right; exact I | rewrite Q; apply promote_nth]. }
  assert (MXP : forall j, (j < 4)%nat -> exists s, In s (f :: r) /\ nth j mx f_zero = nth j s f_zero).
  { intros j Hj. destruct (PX j Hj) as (s & [<- | I] & Q); [exists lst; split; [exact IL | rewrite Q; apply promote_nth] |].
    apply in_map_iff in I. destruct I as (s' & <- & I). exists s'. split; [right; exact I | rewrite Q; apply promote_nth]. }
  clearbody mn mx. clear PN PX MN1 MN2 MX1 MX2 HI'.
  assert (ML : length (map2 fsub mx mn) = 4%nat) by (rewrite map2_length, (proj1 MX), (proj1 MN); reflexivity).
  assert (MJ : forall j, (j < 4)%nat -> nth j (map2 fsub mx mn) f_zero = fsub (nth j mx f_zero) (nth j mn f_zero)).
  { intros j Hj. apply (map2_nth fsub); [rewrite (proj1 MX); exact Hj | rewrite (proj1 MN); exact Hj]. }
  fold p. destruct (forallb (fun e => fle e p) (map2 fsub mx mn)) eqn:B.
  - left. split; [| unfold first_sample; rewrite E; reflexivity]. rewrite forallb_forall in B. unfold constant. rewrite E. fold p. intros a b IA IB.
    pose proof IA as IA'. pose proof IB as IB'. rewrite <- E in IA', IB'. destruct (sample_ok_ a IA') as [LA FA]. destruct (sample_ok_ b IB') as [LB FB].
    apply within_nth; [congruence |]. intros j Hj. apply near_intro; [apply Forall_nth_fin, FA | apply Forall_nth_fin, FB | exact PF |].
    assert (J : (j < 4)%nat) by lia. pose proof (B _ (nth_In _ f_zero (eq_ind_r (fun k => (j < k)%nat) J ML))) as C. rewrite MJ in C by exact J.
    pose proof (LO a j IA J) as A1. pose proof (HI a j IA J) as A2. pose proof (LO b j IB J) as B1. pose proof (HI b j IB J) as B2.
    apply fsub_pos in C; [| apply Forall_nth_fin, MX | apply Forall_nth_fin, MN | exact PF | lra].
    eapply Rle_trans; [apply (rnd_abs _ (FR (nth j mx f_zero) - FR (nth j mn f_zero))); apply Rabs_le; lra |]. eapply Rle_trans; [apply Rle_abs | exact C].
  - right. split; [| reflexivity]. intros C. unfold constant in C. rewrite E in C. fold p in C. rewrite <- not_true_iff_false in B. apply B. apply forallb_forall. intros x I.
    apply (In_nth _ _ f_zero) in I. destruct I as (j & Hj & <-). rewrite ML in Hj. rewrite MJ by exact Hj.
    destruct (MXP j Hj) as (a & IA & ->). destruct (MNP j Hj) as (b & IB & ->).
    pose proof IA as IA'. pose proof IB as IB'. rewrite <- E in IA', IB'. destruct (sample_ok_ a IA') as [LA FA]. destruct (sample_ok_ b IB') as [LB FB].
    assert (W : fle (fabs (fsub (nth j a f_zero) (nth j b f_zero))) p = true).
    { destruct (Nat.lt_ge_cases j nc) as [J | J]; [| rewrite !nth_overflow by lia; apply zero_near; assumption].
      apply within_nth; [congruence | exact (C a b IA IB) | lia]. }
    destruct (fle_abs_back _ _ PF W) as [D1 D2]. apply fle_R; [exact D1 | exact PF |]. eapply Rle_trans; [apply Rle_abs | exact D2].
Qed.
Lemma first_in : In (first_sample t) (st_samples t).
Proof. destruct some_samples as (f & r & E). unfold first_sample. rewrite E. left. reflexivity. Qed.
Lemma last_in : In (last_sample t) (st_samples t).
Proof.
  destruct some_samples as (f & r & E). unfold last_sample. rewrite E. clear. revert f. induction r as [| x r IH]; intros f; [left; reflexivity |]. right. exact (IH x).
Qed.
Lemma write_last v : forall l : list (list f32), l <> [] -> write_sample (length l - 1) v l = Ok (removelast l ++ [v]).
Proof.
  induction l as [| x l IH]; intros H; [contradiction |]. destruct l as [| y l]; [reflexivity |]. cbn [length Nat.sub] in *. cbn [write_sample].
  rewrite Nat.sub_0_r in IH. rewrite IH by discriminate. reflexivity.
Qed.
Lemma first_nth : nth_error (st_samples t) 0 = Some (first_sample t).
Proof. destruct some_samples as (f & r & E). unfold first_sample. rewrite E. reflexivity. Qed.
Lemma last_nth : nth_error (st_samples t) (N.to_nat (n - 1)) = Some (last_sample t).
Proof.
  clear NC. destruct T as (L & _). replace (N.to_nat (n - 1)) with (length (st_samples t) - 1)%nat by lia. destruct some_samples as (f & r & E). unfold last_sample. rewrite E. clear.
  cbn [length]. rewrite Nat.sub_succ, Nat.sub_0_r. revert f. induction r as [| x r IH]; intros f; [reflexivity |]. cbn [length nth_error]. exact (IH x).
Qed.
Lemma removelast_length {A} (d : A) : forall l : list A, l <> [] -> length (removelast l) = (length l - 1)%nat.
Proof. intros l H. rewrite (app_removelast_last d H) at 2. rewrite app_length. cbn. lia. Qed.
Lemma looped_shape : 2 <= n -> exists f r l, st_samples t = f :: r ++ [l] /\ st_samples (looped t) = f :: r ++ [f].
Proof.
  clear NC. intros N2. destruct T as (L & _). destruct some_samples as (f & r & E). rewrite E in L. cbn [length] in L.
  assert (NR : r <> []) by (intros ->; cbn in L; lia). exists f, (removelast r), (last r []). split; [rewrite E; f_equal; apply app_removelast_last, NR |].
  unfold looped, first_sample, with_samples. rewrite E. cbn [st_samples hd]. destruct r; [contradiction |]. reflexivity.
Qed.
End Track.

(** * The steps *)
Lemma ends_spec nc n : (1 <= nc <= 4)%nat -> 1 <= n -> forall ts, Forall (scalar_track nc n) ts ->
  exists b, ends_match (N.to_nat (n - 1)) ts = Ok b /\ (b = true <-> Forall loops ts) /\ match_ends (N.to_nat (n - 1)) ts = Ok (map looped ts).
Proof.
  intros NC Hn. induction ts as [| t ts IH]; intros F; [exists true; split; [reflexivity |]; split; [split; [intros; constructor | reflexivity] | reflexivity] |].
  inversion F as [| ? ? T F']; subst. destruct (IH F') as (b & E1 & E2 & E3). cbn [ends_match match_ends map].
  rewrite (first_nth nc n t Hn T), (last_nth nc n t Hn T). pose proof T as (L & _ & PF & PP & _).
  destruct (sample_ok_ nc n t T _ (first_in nc n t Hn T)) as [LF FF]. destruct (sample_ok_ nc n t T _ (last_in nc n t Hn T)) as [LL FL].
  pose proof (near_equal_within _ nc _ _ PF PP (proj2 NC) LF LL) as Q.
  assert (M : match_ends (N.to_nat (n - 1)) (t :: ts) = Ok (map looped (t :: ts))).
  { cbn [match_ends map]. rewrite (first_nth nc n t Hn T). replace (N.to_nat (n - 1)) with (length (st_samples t) - 1)%nat by lia.
    rewrite write_last by (destruct (st_samples t); [cbn in L; lia | discriminate]). cbn [bindo]. replace (length (st_samples t) - 1)%nat with (N.to_nat (n - 1)) by lia. rewrite E3. reflexivity. }
  cbn [match_ends map] in M. rewrite (first_nth nc n t Hn T) in M.
  destruct (all_near_equal _ _ _); cbn [negb].
  - exists b. split; [exact E1 |]. split; [| exact M]. rewrite E2. split; [intros H; constructor; [apply Q; reflexivity | exact H] | intros H; inversion H; assumption].
  - exists false. split; [reflexivity |]. split; [| exact M]. split; [discriminate |]. intros H. inversion H as [| ? ? A B]; subst. apply Q in A. discriminate A.
Qed.

(** What the two actions do *)
Definition loop_step (s : pp_settings) (lp : looping_policy) (n : N) (ts ts' : list strack) : Prop :=
  let on := pp_optimize_looping s = true /\ pp_lossy s = true /\ lp = lp_clamp /\ 2 <= n /\ Forall loops ts in
  (on /\ ts' = map looped ts) \/ (~ on /\ ts' = ts).
Definition constant_step (s : pp_settings) (ts ts' : list strack) : Prop :=
  Forall2 (fun t t' => let on := pp_sanitize_constant s = true /\ pp_lossy s = true /\ constant t in (on /\ t' = flattened t) \/ (~ on /\ t' = t)) ts ts'.

Lemma looped_ok nc n t : 2 <= n -> scalar_track nc n t -> scalar_track nc n (looped t) /\ first_not_above (looped t) /\ first_sample (looped t) = first_sample t /\ last_sample (looped t) = first_sample t.
Proof.
  intros N2 T. destruct (looped_shape nc n t ltac:(lia) T N2) as (f & r & l & E1 & E2). pose proof T as (L & NS & PF & PP & V).
  assert (F : first_sample t = f) by (unfold first_sample; rewrite E1; reflexivity).
  split; [| split; [| split]].
  - split; [rewrite E2; rewrite E1 in L; cbn [length] in *; rewrite app_length in *; cbn [length] in *; lia |]. split; [exact NS |]. split; [exact PF |]. split; [exact PP |].
    rewrite E2. rewrite E1 in V. inversion V as [| ? ? V1 V2]; subst. apply Forall_app in V2. destruct V2 as [V2 _]. constructor; [exact V1 |]. apply Forall_app. split; [exact V2 | constructor; [exact V1 | constructor]].
  - right. intros j. exists f. unfold first_sample. rewrite E2. cbn [tl hd]. split; [apply in_or_app; right; left; reflexivity | apply Rle_refl].
  - unfold first_sample at 1. rewrite E2, F. reflexivity.
  - unfold last_sample. rewrite E2, F. change (f :: r ++ [f]) with ((f :: r) ++ [f]). apply last_last.
Qed.
Lemma looped_same nc n t : 2 <= n -> scalar_track nc n t -> last_sample t = first_sample t -> looped t = t.
Proof.
  intros N2 T H. pose proof T as (L & _). unfold looped, with_samples. rewrite <- H. unfold last_sample. rewrite <- app_removelast_last by (destruct (st_samples t); [cbn in L; lia | discriminate]).
  destruct t; reflexivity.
Qed.
Lemma flattened_ok nc n t : 1 <= n -> scalar_track nc n t ->
  scalar_track nc n (flattened t) /\ first_not_above (flattened t) /\ first_sample (flattened t) = first_sample t /\ last_sample (flattened t) = first_sample t.
Proof.
  intros N1 T. pose proof T as (L & NS & PF & PP & V). destruct (some_samples nc n t N1 T) as (f & r & E).
  assert (F : first_sample t = f) by (unfold first_sample; rewrite E; reflexivity).
  split; [| split; [| split]].
  - split; [unfold flattened; cbn [with_samples st_samples]; rewrite map_length; exact L |]. split; [exact NS |]. split; [exact PF |]. split; [exact PP |].
    unfold flattened. cbn [with_samples st_samples]. apply Forall_map. apply Forall_forall. intros x _. apply (sample_ok_ nc n t T), (first_in nc n t N1 T).
  - unfold first_not_above, flattened, first_sample. cbn [with_samples st_samples]. rewrite E. cbn [map hd tl length]. rewrite map_length. destruct r as [| x r]; [left; cbn; lia |].
    right. intros j. exists f. split; [left; reflexivity | apply Rle_refl].
  - change (hd [] (map (fun _ => first_sample t) (st_samples t)) = first_sample t). rewrite E. reflexivity.
  - unfold last_sample, flattened. cbn [with_samples st_samples]. rewrite E, F. clear -r. induction r as [| x r IH]; [reflexivity |]. cbn [map last] in *. destruct r; [reflexivity | exact IH].
Qed.
Lemma flattened_twice t : flattened (flattened t) = flattened t.
Proof.
  unfold flattened at 1. unfold with_samples. cbn [st_track st_name st_samples flattened with_samples]. unfold flattened, with_samples. f_equal. rewrite map_map.
  unfold first_sample. cbn [st_samples]. destruct (st_samples t) as [| f r]; reflexivity.
Qed.
Lemma loop_ok s lp nc n ts : scalar_array nc n ts -> (pp_sanitize_constant s = true -> Forall first_not_above ts) ->
  exists ts', (if pp_optimize_looping s then pre_process_optimize_looping s lp ts else Ok ts) = Ok ts' /\ loop_step s lp n ts ts' /\
    scalar_array nc n ts' /\ (pp_sanitize_constant s = true -> Forall first_not_above ts').
Proof.
  intros A NA. pose proof A as (NE & NC & Hn & F). unfold loop_step. cbv zeta.
  assert (LN : list_num_samples ts = n) by (destruct ts as [| t ts]; [contradiction |]; inversion F as [| ? ? T ?]; subst; destruct T as (_ & NS & _); exact NS).
  destruct (pp_optimize_looping s); [| exists ts; split; [reflexivity |]; split; [right; split; [intros (H & _); discriminate H | reflexivity] | auto]].
  unfold pre_process_optimize_looping. destruct (pp_lossy s); cbn [negb]; [| exists ts; split; [reflexivity |]; split; [right; split; [intros (_ & H & _); discriminate H | reflexivity] | auto]].
  destruct lp; [| exists ts; split; [reflexivity |]; split; [right; split; [intros (_ & _ & H & _); discriminate H | reflexivity] | auto]].
  rewrite LN. destruct (N.leb_spec n 1) as [C | C]; [exists ts; split; [reflexivity |]; split; [right; split; [intros (_ & _ & _ & H & _); lia | reflexivity] | auto] |].
  destruct (ends_spec nc n NC Hn ts F) as (b & E1 & E2 & E3). rewrite E1. cbn [bindo]. destruct b.
  - exists (map looped ts). split; [exact E3 |]. split; [left; split; [| reflexivity]; split; [reflexivity |]; split; [reflexivity |]; split; [reflexivity |]; split; [lia | apply E2; reflexivity] |].
    split; [split; [destruct ts; [contradiction | discriminate] |]; split; [exact NC |]; split; [exact Hn |]; apply Forall_map | intros _; apply Forall_map];
      (eapply Forall_impl; [| exact F]; intros t T; destruct (looped_ok nc n t ltac:(lia) T) as (H1 & H2 & _); assumption).
  - exists ts. split; [reflexivity |]. split; [right; split; [intros (_ & _ & _ & _ & H); apply E2 in H; discriminate H | reflexivity] | auto].
Qed.
Lemma constant_ok s nc n : (1 <= nc <= 4)%nat -> 1 <= n -> forall ts, Forall (scalar_track nc n) ts -> (pp_sanitize_constant s = true -> Forall first_not_above ts) ->
  exists ts', (if pp_sanitize_constant s then pre_process_sanitize_constant s ts else Ok ts) = Ok ts' /\ constant_step s ts ts'.
Proof.
  intros NC Hn ts F NA. unfold constant_step. cbv zeta.
  assert (ID : ~ (pp_sanitize_constant s = true /\ pp_lossy s = true) -> Forall2 (fun t t' => (pp_sanitize_constant s = true /\ pp_lossy s = true /\ constant t) /\ t' = flattened t \/
    ~ (pp_sanitize_constant s = true /\ pp_lossy s = true /\ constant t) /\ t' = t) ts ts).
  { intros O. clear F NA. induction ts; constructor; [right; split; [tauto | reflexivity] | assumption]. }
  destruct (pp_sanitize_constant s) eqn:SC; [| exists ts; split; [reflexivity | apply ID; intros (H & _); discriminate H]].
  unfold pre_process_sanitize_constant. destruct (pp_lossy s) eqn:LO; cbn [negb]; [| exists ts; split; [reflexivity | apply ID; intros (_ & H); discriminate H]].
  clear ID. specialize (NA eq_refl). induction ts as [| t ts IH]; [exists []; split; [reflexivity | constructor] |].
  inversion F as [| ? ? T F']; subst. inversion NA as [| ? ? A NA']; subst. destruct (IH F' NA') as (ts' & E & S). cbn [sanitize_constant_tracks].
  destruct (sanitize_ok nc n t NC Hn T A) as [(C & ->) | (C & ->)]; cbn [bindo]; rewrite E; cbn [bindo]; eexists; (split; [reflexivity |]); constructor; auto.
  right. split; [tauto | reflexivity].
Qed.

(** * C51 *)
(** Pre-processing a scalar track array: first every last sample becomes the first one when the ends of every track match, then every track
    whose samples all match becomes its first sample; nothing else changes.  The first sample of a track to sanitize must not be above all
    the others: C51_constant_tracks_refuted. *)
Theorem C51_pre_process : forall s lp nc n ts, scalar_array nc n ts -> pp_additive s = false -> (pp_sanitize_constant s = true -> Forall first_not_above ts) ->
  exists ts1 ts2, pre_process_track_list s lp ts = Ok (true, ts2) /\ loop_step s lp n ts ts1 /\ constant_step s ts1 ts2.
Proof.
  intros s lp nc n ts A AD NA. pose proof A as (NE & NC & Hn & F). destruct (loop_ok s lp nc n ts A NA) as (ts1 & E1 & L & A1 & NA1).
  pose proof A1 as (_ & _ & _ & F1). destruct (constant_ok s nc n NC Hn ts1 F1 NA1) as (ts2 & E2 & C). exists ts1, ts2. split; [| split; assumption].
  assert (LN : list_num_samples ts = n) by (destruct ts as [| t ts]; [contradiction |]; inversion F as [| ? ? T ?]; subst; destruct T as (_ & NS & _); exact NS).
  unfold pre_process_track_list. destruct ts as [| t ts]; [contradiction |]. rewrite LN. destruct (N.eqb_spec n 0) as [Z | _]; [lia |]. rewrite AD, E1. cbn [bindo]. rewrite E2. reflexivity.
Qed.
Print Assumptions C51_pre_process.

(** Every sample stays, or becomes the first one of its track, within the precision of what it was; first samples, names and descriptions stay. *)
Theorem C51_within_the_precision : forall s lp nc n ts, scalar_array nc n ts -> pp_additive s = false -> (pp_sanitize_constant s = true -> Forall first_not_above ts) ->
  exists ts', pre_process_track_list s lp ts = Ok (true, ts') /\
    Forall2 (fun t t' => st_track t' = st_track t /\ st_name t' = st_name t /\ first_sample t' = first_sample t /\
      Forall2 (fun v v' => (v' = v \/ v' = first_sample t) /\ within (precision (st_track t)) v v') (st_samples t) (st_samples t')) ts ts'.
Proof.
  intros s lp nc n ts A AD NA. destruct (C51_pre_process s lp nc n ts A AD NA) as (ts1 & ts2 & E & L & C). exists ts2. split; [exact E |]. clear E NA.
  pose proof A as (_ & NC & Hn & F).
  assert (SELF : forall t, scalar_track nc n t -> forall v, In v (st_samples t) -> within (precision (st_track t)) v v).
  { intros t T v I. pose proof T as (_ & _ & PF & PP & _). apply within_self; auto. exact (proj2 (sample_ok_ nc n t T v I)). }
  assert (SAME : forall t, scalar_track nc n t -> Forall2 (fun v v' => (v' = v \/ v' = first_sample t) /\ within (precision (st_track t)) v v') (st_samples t) (st_samples t)).
  { intros t T. pose proof (SELF t T) as S. revert S. generalize (first_sample t). induction (st_samples t) as [| v l IH]; intros f S; constructor; [split; [auto | apply S; left; reflexivity] | apply IH; intros; apply S; right; assumption]. }
  assert (FLAT : forall t, scalar_track nc n t -> constant t -> Forall2 (fun v v' => (v' = v \/ v' = first_sample t) /\ within (precision (st_track t)) v v') (st_samples t) (st_samples (flattened t))).
  { intros t T K. assert (S : forall v, In v (st_samples t) -> within (precision (st_track t)) v (first_sample t)) by (intros v I; apply K; [exact I | exact (first_in nc n t Hn T)]).
    unfold flattened. cbn [with_samples st_samples]. revert S. generalize (first_sample t). induction (st_samples t) as [| v l IH]; intros f S; constructor; [split; [auto | apply S; left; reflexivity] | apply IH; intros; apply S; right; assumption]. }
  unfold constant_step in C. destruct L as [((_ & _ & _ & N2 & LO) & ->) | (_ & ->)].
  - clear A. revert ts2 C. induction ts as [| t ts IH]; intros ts2 C; inversion C as [| ? t2 ? ? C1 C2]; subst; constructor.
    + inversion F as [| ? ? T F']; subst. inversion LO as [| ? ? LT LO']; subst. destruct (looped_shape nc n t Hn T N2) as (f & r & l & E1 & E2).
      destruct (looped_ok nc n t N2 T) as (T1 & _ & FS & _).
      assert (FE : first_sample t = f) by (unfold first_sample; rewrite E1; reflexivity). assert (LE : last_sample t = l) by (unfold last_sample; rewrite E1; change (f :: r ++ [l]) with ((f :: r) ++ [l]); apply last_last).
      pose proof (SELF t T) as S. unfold loops in LT. rewrite FE, LE in LT.
      assert (SYM : within (precision (st_track t)) l f).
      { pose proof T as (_ & _ & PF & _ & _). assert (I : length f = nc /\ length l = nc).
        { split; apply (sample_ok_ nc n t T); rewrite E1; [left; reflexivity | right; apply in_or_app; right; left; reflexivity]. }
        apply within_nth; [lia |]. rewrite within_nth in LT by lia. intros j Hj. specialize (LT j ltac:(lia)). destruct (near_elim _ _ _ PF LT) as (X & Y & B). apply near_intro; auto.
        replace (FR (nth j l f_zero) - FR (nth j f f_zero))%R with (- (FR (nth j f f_zero) - FR (nth j l f_zero)))%R by lra. rewrite rnd_opp, Rabs_Ropp. exact B. }
      destruct C1 as [((_ & _ & K) & ->) | (_ & ->)].
      * split; [reflexivity |]. split; [reflexivity |]. split; [rewrite <- FS; apply (flattened_ok nc n _ Hn T1) |].
        unfold flattened. cbn [with_samples st_samples]. rewrite FS, FE, E1. rewrite E2. cbn [map]. constructor; [split; [auto | apply S; rewrite E1; left; reflexivity] |].
        rewrite map_app. apply Forall2_app; [| constructor; [split; [auto | exact SYM] | constructor]].
        assert (K' : forall v, In v r -> within (precision (st_track t)) v f).
        { intros v I. apply K; rewrite E2; [right; apply in_or_app; left; exact I | left; reflexivity]. }
        clear - K'. induction r as [| x r IH]; constructor; [split; [auto | apply K'; left; reflexivity] | apply IH; intros; apply K'; right; assumption].
      * split; [reflexivity |]. split; [reflexivity |]. split; [exact FS |]. rewrite FE, E1, E2. constructor; [split; [auto | apply S; rewrite E1; left; reflexivity] |].
        apply Forall2_app; [| constructor; [split; [auto | exact SYM] | constructor]].
        assert (K' : forall v, In v r -> within (precision (st_track t)) v v) by (intros v I; apply S; rewrite E1; right; apply in_or_app; left; exact I).
        clear - K'. induction r as [| x r IH]; constructor; [split; [auto | apply K'; left; reflexivity] | apply IH; intros; apply K'; right; assumption].
    + inversion F; inversion LO; subst. apply IH; assumption.
  - clear A. revert ts2 C. induction ts as [| t ts IH]; intros ts2 C; inversion C as [| ? t2 ? ? C1 C2]; subst; inversion F as [| ? ? T F']; subst; constructor.
    + destruct C1 as [((_ & _ & K) & ->) | (_ & ->)]; (split; [reflexivity |]); (split; [reflexivity |]).
      * split; [apply (flattened_ok nc n t Hn T) | apply FLAT; assumption].
      * split; [reflexivity | apply SAME; assumption].
    + apply IH; assumption.
Qed.
Print Assumptions C51_within_the_precision.

(** Pre-processing again changes nothing. *)
Lemma constant_loops nc n t : (1 <= nc <= 4)%nat -> 1 <= n -> scalar_track nc n t -> constant t -> loops t.
Proof. intros NC Hn T C. apply C; [apply (first_in nc n t Hn T) | apply (last_in nc n t Hn T)]. Qed.
Lemma constant_step_ok s nc n : 1 <= n -> forall ts ts', constant_step s ts ts' -> Forall (scalar_track nc n) ts -> (pp_sanitize_constant s = true -> Forall first_not_above ts) ->
  Forall (scalar_track nc n) ts' /\ (pp_sanitize_constant s = true -> Forall first_not_above ts').
Proof.
  intros Hn. induction 1 as [| t t' ts ts' S _ IH]; intros F NA; [split; [constructor | intros; constructor] |]. inversion F as [| ? ? T F']; subst.
  destruct IH as (I1 & I2); [exact F' | intros H; specialize (NA H); inversion NA; assumption |].
  destruct S as [(_ & ->) | (_ & ->)]; (split; [constructor; [| exact I1] | intros H; constructor; [| exact (I2 H)]]).
  - apply (flattened_ok nc n t Hn T).
  - apply (flattened_ok nc n t Hn T).
  - exact T.
  - specialize (NA H). inversion NA; assumption.
Qed.
Lemma constant_step_last s nc n ts ts' : 1 <= n -> Forall (scalar_track nc n) ts -> Forall (fun t => last_sample t = first_sample t) ts -> constant_step s ts ts' ->
  Forall (fun t => last_sample t = first_sample t) ts'.
Proof.
  intros Hn F L C. induction C as [| t t' ts ts' S _ IH]; [constructor |]. inversion F as [| ? ? T F']; subst. inversion L as [| ? ? LT L']; subst. constructor; [| apply IH; assumption].
  destruct S as [(_ & ->) | (_ & ->)]; [| exact LT]. destruct (flattened_ok nc n t Hn T) as (_ & _ & A & B). rewrite A, B. reflexivity.
Qed.
Lemma constant_step_loops s nc n ts ts' : (1 <= nc <= 4)%nat -> 1 <= n -> Forall (scalar_track nc n) ts -> constant_step s ts ts' -> Forall loops ts' -> Forall loops ts.
Proof.
  intros NC Hn F C L. induction C as [| t t' ts ts' S _ IH]; [constructor |]. inversion F as [| ? ? T F']; subst. inversion L as [| ? ? LT L']; subst. constructor; [| apply IH; assumption].
  destruct S as [((_ & _ & K) & _) | (_ & ->)]; [| exact LT]. exact (constant_loops nc n t NC Hn T K).
Qed.
Lemma constant_step_again s ts ts' ts'' : constant_step s ts ts' -> constant_step s ts' ts'' -> ts'' = ts'.
Proof.
  intros C. revert ts''. induction C as [| t t' ts ts' S _ IH]; intros ts'' D; inversion D as [| ? t'' ? ? D1 D2]; subst; [reflexivity |]. f_equal; [| apply IH; exact D2].
  destruct S as [(_ & ->) | (N1 & ->)], D1 as [(A & ->) | (_ & ->)]; try reflexivity; [apply flattened_twice | contradiction].
Qed.
Theorem C51_idempotent : forall s lp nc n ts ts', scalar_array nc n ts -> (pp_sanitize_constant s = true -> Forall first_not_above ts) ->
  pre_process_track_list s lp ts = Ok (true, ts') -> pre_process_track_list s lp ts' = Ok (true, ts').
Proof.
  intros s lp nc n ts ts' A NA E. pose proof A as (NE & NC & Hn & F).
  assert (AD : pp_additive s = false).
  { destruct (pp_additive s) eqn:AD; [exfalso | reflexivity]. unfold pre_process_track_list in E. destruct ts as [| t ts]; [contradiction |]. rewrite AD in E.
    assert (LN : list_num_samples (t :: ts) <> 0) by (inversion F as [| ? ? T ?]; subst; destruct T as (L & NS & _); cbn [list_num_samples]; lia).
    destruct (N.eqb_spec (list_num_samples (t :: ts)) 0) as [Z | _]; [exact (LN Z) | discriminate E]. }
  destruct (C51_pre_process s lp nc n ts A AD NA) as (ts1 & ts2 & E' & L & C). rewrite E in E'. injection E' as <-.
  assert (A1 : Forall (scalar_track nc n) ts1 /\ (pp_sanitize_constant s = true -> Forall first_not_above ts1)).
  { destruct L as [((_ & _ & _ & N2 & _) & ->) | (_ & ->)]; [| auto].
    split; [| intros _]; apply Forall_map; (eapply Forall_impl; [| exact F]); intros t T; destruct (looped_ok nc n t N2 T) as (H1 & H2 & _); assumption. }
  destruct A1 as [F1 NA1]. destruct (constant_step_ok s nc n Hn ts1 ts' C F1 NA1) as (F2 & NA2).
  assert (A2 : scalar_array nc n ts').
  { split; [| split; [exact NC | split; [exact Hn | exact F2]]]. intros ->. inversion C; subst. destruct L as [(_ & L) | (_ & L)]; [destruct ts; [contradiction | discriminate] | subst; contradiction]. }
  destruct (C51_pre_process s lp nc n ts' A2 AD NA2) as (ts3 & ts4 & E' & L' & C'). rewrite E'. f_equal. f_equal.
  assert (ts3 = ts') as ->; [| exact (constant_step_again s ts1 ts' ts4 C C')].
  destruct L' as [((O1 & O2 & O3 & N2 & LO') & ->) | (_ & ->)]; [| reflexivity].
  assert (LA : Forall (fun t => last_sample t = first_sample t) ts').
  { destruct L as [((_ & _ & _ & _ & LO) & ->) | (NO & ->)].
    - apply (constant_step_last s nc n _ _ Hn F1) in C; [exact C |]. apply Forall_map. eapply Forall_impl; [| exact F]. intros t T. destruct (looped_ok nc n t N2 T) as (_ & _ & X & Y). rewrite X, Y. reflexivity.
    - exfalso. apply NO. repeat split; auto. exact (constant_step_loops s nc n ts ts' NC Hn F1 C LO'). }
  clear - F2 LA N2. induction ts' as [| t ts IH]; [reflexivity |]. inversion F2; inversion LA; subst. cbn [map]. f_equal; [apply (looped_same nc n t); assumption | apply IH; assumption].
Qed.
Print Assumptions C51_idempotent.

(** Lossless pre-processing leaves scalar tracks as they are; an additive format is an error, and so does that. *)
Theorem C51_lossless : forall s lp ts, ts <> [] -> list_num_samples ts <> 0 -> pp_lossy s = false -> pre_process_track_list s lp ts = Ok (negb (pp_additive s), ts).
Proof.
  intros s lp ts NE NZ L. unfold pre_process_track_list. destruct ts as [| t ts]; [contradiction |]. destruct (N.eqb_spec (list_num_samples (t :: ts)) 0); [contradiction |].
  destruct (pp_additive s); [reflexivity |]. unfold pre_process_optimize_looping, pre_process_sanitize_constant. rewrite L. cbn [negb bindo].
  destruct (pp_optimize_looping s); cbn [bindo]; destruct (pp_sanitize_constant s); reflexivity.
Qed.
Print Assumptions C51_lossless.
Theorem C51_additive_format : forall s lp ts, pp_additive s = true -> exists ok, pre_process_track_list s lp ts = Ok (ok, ts).
Proof.
  intros s lp ts A. unfold pre_process_track_list. rewrite A. destruct ts as [| t ts]; [eauto |]. destruct (list_num_samples (t :: ts) =? 0); eauto.
Qed.
Print Assumptions C51_additive_format.

(** * Examples *)
Definition ex_desc (n : N) : track := {| has_data := true; track_type := 0; num_samples := n; sample_rate := f_of_N 30; transform := false; precision := f_half; shell_distance := f_zero;
  default_finite := true; default_normalized := true; output_index := 0; parent_index := 0 |}.
Definition ex_track (l : list f32) : strack := {| st_track := ex_desc (N.of_nat (length l)); st_name := []; st_samples := map (fun x => [x]) l |}.
Definition ex_all : pp_settings := {| pp_optimize_looping := true; pp_sanitize_constant := true; pp_lossy := true; pp_additive := false |}.
Lemma ex_scalar l : Forall (fun x => ffinite x = true) l -> scalar_track 1 (N.of_nat (length l)) (ex_track l).
Proof.
  intros F. split; [cbn [ex_track st_samples]; rewrite map_length; reflexivity |]. split; [reflexivity |]. split; [exact f_half_fin |].
  split; [cbn [ex_track st_track precision ex_desc]; rewrite f_half_R; lra |]. cbn [ex_track st_samples]. apply Forall_map. eapply Forall_impl; [| exact F]. intros x H. split; [reflexivity | constructor; [exact H | constructor]].
Qed.
(** a track that loops and moves, a track that does not move: the hypotheses are met, both actions happen *)
Example C51_example : let a := ex_track [f_zero; f_one; f_half] in let b := ex_track [f_half; f_one; f_half] in
  scalar_array 1 3 [a; b] /\ Forall first_not_above [a; b] /\ Forall loops [a; b] /\ ~ constant a /\ constant b /\
  looped a = ex_track [f_zero; f_one; f_zero] /\ flattened b = ex_track [f_half; f_half; f_half].
Proof.
  intros a b. assert (FA : Forall (fun x => ffinite x = true) [f_zero; f_one; f_half]) by (repeat (constructor; [vm_compute; reflexivity |]); constructor).
  assert (FB : Forall (fun x => ffinite x = true) [f_half; f_one; f_half]) by (repeat (constructor; [vm_compute; reflexivity |]); constructor).
  split; [| split; [| split; [| split; [| split]]]].
  - split; [discriminate |]. split; [lia |]. split; [lia |]. constructor; [exact (ex_scalar _ FA) |]. constructor; [exact (ex_scalar _ FB) | constructor].
  - constructor; [| constructor; [| constructor]]; right; intros j.
    + exists [f_one]. split; [left; reflexivity |]. unfold a, first_sample. cbn [ex_track st_samples map hd]. destruct j as [| j]; [| rewrite !nth_overflow by (cbn; lia); apply Rle_refl].
      cbn [nth]. apply fle_R; vm_compute; reflexivity.
    + exists [f_half]. split; [right; left; reflexivity | apply Rle_refl].
  - constructor; [| constructor; [| constructor]]; (constructor; [vm_compute; reflexivity | constructor]).
  - intros C. assert (W : within f_half [f_zero] [f_one]) by (apply C; [left; reflexivity | right; left; reflexivity]). inversion W as [| ? ? ? ? H _]; subst. revert H. vm_compute. discriminate.
  - intros x y [<- | [<- | [<- | []]]] [<- | [<- | [<- | []]]]; (constructor; [vm_compute; reflexivity | constructor]).
  - split; reflexivity.
Qed.

(** The maximum of the samples leaves the first one out: a track that starts with a spike is taken for constant and becomes the spike.  One
    sample at 1, two at 0, with a precision of a half: pre-processing makes all of them 1. *)
Theorem C51_constant_tracks_refuted : let t := ex_track [f_one; f_zero; f_zero] in
  scalar_array 1 3 [t] /\ ~ constant t /\ ~ loops t /\ pre_process_track_list ex_all lp_clamp [t] = Ok (true, [ex_track [f_one; f_one; f_one]]) /\
  ~ within (precision (st_track t)) [f_zero] [f_one].
Proof.
  intros t. assert (FT : Forall (fun x => ffinite x = true) [f_one; f_zero; f_zero]) by (repeat (constructor; [vm_compute; reflexivity |]); constructor).
  assert (NW : forall x y, fle (fabs (fsub x y)) f_half = false -> ~ within f_half [x] [y]) by (intros x y H W; inversion W as [| ? ? ? ? K _]; subst; congruence).
  split; [| split; [| split; [| split]]].
  - split; [discriminate |]. split; [lia |]. split; [lia |]. constructor; [exact (ex_scalar _ FT) | constructor].
  - intros C. apply (NW f_one f_zero); [vm_compute; reflexivity |]. apply C; [left; reflexivity | right; left; reflexivity].
  - apply NW. vm_compute. reflexivity.
  - unfold pre_process_track_list. cbn [list_num_samples t ex_track st_track num_samples ex_desc length]. change (N.of_nat 3 =? 0) with false. cbn iota.
    assert (L : pre_process_optimize_looping ex_all lp_clamp [t] = Ok [t]).
    { unfold pre_process_optimize_looping. cbn [ex_all pp_lossy negb list_num_samples t ex_track st_track num_samples ex_desc length]. change (N.of_nat 3 <=? 1) with false. cbn iota.
      change (N.to_nat (N.of_nat 3 - 1)) with 2%nat. unfold t, ex_track. cbn [ends_match st_samples map nth_error st_track].
      match goal with |- context [all_near_equal ?a ?b ?c] => assert (AN : all_near_equal a b c = false) by (vm_compute; reflexivity); rewrite AN end. reflexivity. }
    cbn [ex_all pp_additive pp_optimize_looping pp_sanitize_constant]. fold ex_all. change ({| st_track := ex_desc 3; st_name := []; st_samples := map (fun x => [x]) [f_one; f_zero; f_zero] |}) with t. rewrite L. cbn [bindo].
    unfold pre_process_sanitize_constant. cbn [ex_all pp_lossy negb sanitize_constant_tracks].
    assert (S : sanitize_constant_track t = Ok (ex_track [f_one; f_one; f_one])).
    { unfold sanitize_constant_track. unfold t, ex_track. cbn [st_samples map st_track]. match goal with |- context [forallb ?a ?b] => assert (AN : forallb a b = true) by (vm_compute; reflexivity); rewrite AN end. reflexivity. }
    rewrite S. reflexivity.
  - apply NW. vm_compute. reflexivity.
Qed.
Print Assumptions C51_constant_tracks_refuted.
