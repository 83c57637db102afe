(** Playing a compressed scalar clip: the state of a context, whatever the calls, and the values it decompresses. *)
From Verif Require Import Word WordFacts Float32 Float32Facts FloatOrder Interp InterpFacts Hash Headers Pieces LayoutSpec LayoutFacts LayoutOps LayoutBuild DbBuild
  ScalarEnc ScalarDec ScalarSpec ScalarBits ScalarWrite ScalarRead ScalarLanes ScalarTrackFacts ScalarDecFacts ScalarSeekFacts HashFacts.
From Coq Require Import Lia ZifyBool ZifyN ZifyNat Reals Lra.
Ltac Zify.zify_post_hook ::= idtac.
Import ListNotations.
Local Open Scope N_scope.

(** any time clamps to the clip *)
Lemma fclamp_any t D : ffinite D = true -> (0 <= FR D)%R -> ffinite (fclamp t f_zero D) = true /\ (0 <= FR (fclamp t f_zero D) <= FR D)%R.
Proof.
  intros DF D0. destruct (fnan t) eqn:E.
  - assert (M : fmax t f_zero = f_zero). { unfold fmax, fgt. destruct t; try discriminate E. reflexivity. }
    unfold fclamp. rewrite M. destruct (fmin_R f_zero D eq_refl DF) as [F R]. split; [exact F|]. rewrite R, f_zero_R, Rmin_left by exact D0. lra.
  - destruct (fclamp_spec t D E DF D0) as (A & B & _). auto.
Qed.

Lemma list_eq_nil {A} (l : list A) : l = [] \/ l <> [].
Proof. destruct l; [left; reflexivity|right; discriminate]. Qed.
Lemma numbered_in : forall vals i j v, nth_error vals j = Some v -> In (i + N.of_nat j, v) (numbered i vals).
Proof.
  induction vals as [|v0 vals IH]; intros i [|j] v H; try discriminate H; cbn [numbered nth_error] in *.
  - injection H as ->. rewrite N.add_0_r. left. reflexivity.
  - right. replace (i + N.of_nat (Datatypes.S j)) with (i + 1 + N.of_nat j) by lia. apply IH. exact H.
Qed.
Lemma numbered_nth : forall vals i j v, In (i + N.of_nat j, v) (numbered i vals) -> nth_error vals j = Some v.
Proof.
  induction vals as [|v0 vals IH]; intros i j v H; [destruct H|]. cbn [numbered] in H. destruct H as [H|H].
  - injection H as H ->. assert (j = 0%nat) by lia. subst j. reflexivity.
  - destruct j as [|j]; [|cbn [nth_error]; apply (IH (i + 1)); replace (i + 1 + N.of_nat j) with (i + N.of_nat (Datatypes.S j)) by lia; exact H].
    exfalso. rewrite N.add_0_r in H. clear - H. assert (G : forall l a, In (i, v) (numbered a l) -> a <= i).
    { induction l as [|x l IH]; intros a H'; [destruct H'|]. cbn [numbered] in H'. destruct H' as [H'|H']; [injection H' as ->; lia|]. apply IH in H'. lia. }
    apply G in H. lia.
Qed.
#[local] Opaque clip_bytes body m_all hash32.
Section Play.
Context (s : ssettings) (list_name : list N) (c : scontext) (anim : list N).
Hypothesis S : sound list_name c.
Let ts := sc_tracks c.
Let nc := num_sample_elements (sc_type c).
Let n := sc_num_samples c.
Let rate := sc_sample_rate c.
Hypothesis LA : blen anim = anim_size c.
Hypothesis BA : bytes_ok anim.
Hypothesis FA : fields_seq anim 0 (all_fields nc 0 (N.to_nat n) ts).
Let m := clip_bytes s list_name c anim.
Let fb := frame_bits nc ts.
Hypothesis HN : ts <> [] -> 1 <= n < 2 ^ 22 - 2.
Hypothesis HR : ts <> [] -> ffinite rate = true /\ sane (FR rate).

Lemma q_bits : N.of_nat (length ts) <> 0 -> n <> 0 -> h_num_bits_per_frame m = Ok fb. Proof. intros. eapply r_bits; eassumption. Qed.
Lemma q_type : h_track_type m = Ok (sc_type c). Proof. eapply r_type; eassumption. Qed.
Lemma q_version : h_version m = Ok 10. Proof. eapply r_version; eassumption. Qed.
Lemma q_format i t : nth_error ts i = Some t -> load8 m (52 + N.of_nat i) = Ok (format_of t). Proof. intros. eapply format_load; eassumption. Qed.
Lemma q_num_bits t : In t ts -> num_bits_of 10 (format_of t) = Ok (format_bits t).
Proof. intros I. eapply format_num_bits; try eassumption. exact (proj1 (Forall_forall _ _) (so_rates _ _ S) t I). Qed.
Lemma q_num_tracks : h_num_tracks m = Ok (N.of_nat (length ts)). Proof. eapply r_num_tracks; eassumption. Qed.
Lemma q_ptrs : h_pointer m 36 = Ok 52 /\ h_pointer m 40 = Ok (at_const c) /\ h_pointer m 44 = Ok (at_range c) /\ h_pointer m 48 = Ok (at_anim c). Proof. eapply r_ptrs; eassumption. Qed.
Lemma q_read ds w d k0 k1 : d_tracks d = m -> (k0 < N.to_nat n)%nat -> (k1 < N.to_nat n)%nat ->
  d_offset0 d = fb * N.of_nat k0 -> d_offset1 d = fb * N.of_nat k1 -> flt (d_time d) f_zero = false -> known_type ds (sc_type c) = true ->
  decompress_tracks ds d w = Ok (not_skipped w (numbered 0 (pose c ds d w k0 k1 0 ts))).
Proof. intros. eapply decompress_read; eassumption. Qed.
Lemma p_hash : h_hash m = Ok (hash32 (concat (body s list_name c anim))).
Proof.
  unfold h_hash. change m with (concat (m_all s list_name c anim)). apply (read32_piece _ 1%nat); [reflexivity|reflexivity|]. apply hash32_lt.
Qed.
Lemma p_looping : clip_looping_policy m = Ok (sc_looping c).
Proof.
  unfold clip_looping_policy. rewrite q_version. cbn [bindo]. change (10 <=? 7) with false. cbn iota. unfold h_misc.
  change m with (concat (m_all s list_name c anim)).
  assert (E : misc_bits s list_name c < 2 ^ 32 /\ (if get_is_wrap_optimized (misc_bits s list_name c) =? 0 then lp_clamp else lp_wrap) = sc_looping c).
  { unfold misc_bits, is_wrap. destruct (sc_looping c), (meta_size s list_name c =? 0); split; reflexivity. }
  destruct E as [E1 E2]. rewrite (read32_piece (m_all s list_name c anim) 9 (misc_bits s list_name c) 28 eq_refl eq_refl E1). cbn [bindo]. rewrite E2. reflexivity.
Qed.
Lemma p_samples : h_num_samples m = Ok (h_samples c). Proof. apply (r_num_samples s list_name c anim S). Qed.
Lemma p_rate : h_sample_rate m = Ok (h_rate c). Proof. apply (r_rate s list_name c anim). Qed.
Lemma p_duration lp : finite_duration m lp = Ok (clip_finite_duration (h_samples c) (h_rate c) lp).
Proof. unfold finite_duration. rewrite p_samples, p_rate. reflexivity. Qed.
Lemma samples_eq : ts <> [] -> h_samples c = n /\ h_rate c = rate.
Proof.
  intros H. unfold h_samples, h_rate. fold ts. destruct (N.eqb_spec (N.of_nat (length ts)) 0) as [E|E]; [|auto]. exfalso. apply H. destruct ts; [reflexivity|cbn in E; lia].
Qed.

Variable ds : dsettings.
(** the state of a context playing this clip *)
Definition sought_state (d : dcontext) : Prop :=
  flt (d_time d) f_zero = false /\ exists k0 k1, (k0 < N.to_nat n)%nat /\ (k1 < N.to_nat n)%nat /\ d_offset0 d = fb * N.of_nat k0 /\ d_offset1 d = fb * N.of_nat k1 /\
    ffinite (d_alpha d) = true /\ (0 <= FR (d_alpha d) <= 1)%R.
Record playing (d : dcontext) : Prop := {
  pl_tracks : d_tracks d = m;
  pl_hash : d_hash d = hash32 (concat (body s list_name c anim));
  pl_loop : is_wrapping_supported ds = false -> d_looping d = lp_clamp;
  pl_duration : d_duration d = clip_finite_duration (h_samples c) (h_rate c) (d_looping d);
  pl_state : d_time d = f_minus_one \/ (ts <> [] /\ sought_state d)
}.
Lemma playing_initialize c0 : exists d, initialize ds c0 m = Ok d /\ playing d /\ d_time d = f_minus_one /\ d_looping d = if is_wrapping_supported ds then sc_looping c else lp_clamp.
Proof.
  unfold initialize. rewrite p_hash. cbn [bindo]. destruct (is_wrapping_supported ds) eqn:W; [rewrite p_looping|]; cbn [bindo]; rewrite p_duration; cbn [bindo];
    (eexists; split; [reflexivity|]; split; [constructor; cbn [d_tracks d_hash d_duration d_alpha d_time d_offset0 d_offset1 d_looping d_rounding]; auto; rewrite W; discriminate|split; reflexivity]).
Qed.
Lemma playing_relocated d : playing d -> exists d', relocated d m = Ok (true, d') /\ playing d'.
Proof.
  intros P. unfold relocated. rewrite p_hash. cbn [bindo]. rewrite (pl_hash _ P), N.eqb_refl. cbn [negb]. eexists. split; [reflexivity|].
  destruct P as [A B C D E]. constructor; cbn [d_tracks d_hash d_duration d_alpha d_time d_offset0 d_offset1 d_looping d_rounding]; auto.
Qed.
Lemma playing_looping d p : playing d -> exists d', set_looping_policy ds d p = Ok d' /\ playing d'.
Proof.
  intros P. unfold set_looping_policy. destruct (is_wrapping_supported ds) eqn:W; cbn [negb]; [|exists d; auto].
  rewrite (pl_tracks _ P). assert (Q : exists q, match p with Some q => Ok q | None => clip_looping_policy m end = Ok q) by (destruct p; [eauto|rewrite p_looping; eauto]).
  destruct Q as (q & ->). cbn [bindo]. destruct (lp_eqb (d_looping d) q); [exists d; auto|]. rewrite p_duration. cbn [bindo]. eexists. split; [reflexivity|].
  destruct P as [A B C D E]. constructor; cbn [d_tracks d_hash d_duration d_alpha d_time d_offset0 d_offset1 d_looping d_rounding]; auto. rewrite W. discriminate.
Qed.

Definition clamped_time (d : dcontext) (t : f32) : f32 := if clamp_sample_time ds then fclamp t f_zero (d_duration d) else t.
Definition legal_time (d : dcontext) (t : f32) : Prop := clamp_sample_time ds = true \/ (ffinite t = true /\ (0 <= FR t <= FR (d_duration d))%R).
Lemma duration_fin d : playing d -> ts <> [] -> ffinite (d_duration d) = true /\ (0 <= FR (d_duration d))%R.
Proof.
  intros P T. rewrite (pl_duration _ P). destruct (samples_eq T) as [-> ->]. destruct (HR T) as [R1 R2].
  destruct (finite_duration_R n rate (d_looping d) (HN T) R1 R2) as (A & _ & _ & B). split; [exact A|]. apply B.
Qed.
Lemma legal_clamped d t : playing d -> ts <> [] -> legal_time d t -> ffinite (clamped_time d t) = true /\ (0 <= FR (clamped_time d t) <= FR (d_duration d))%R.
Proof.
  intros P T L. destruct (duration_fin d P T) as [D1 D2]. unfold clamped_time. destruct L as [L|L]; [rewrite L; apply fclamp_any; assumption|].
  destruct (clamp_sample_time ds); [apply fclamp_any; assumption|exact L].
Qed.
Lemma not_negative x : ffinite x = true -> (0 <= FR x)%R -> flt x f_zero = false.
Proof. intros F H. apply flt_Rf; [exact F|reflexivity|]. rewrite f_zero_R. exact H. Qed.
Lemma bits_fit k : (k < N.to_nat n)%nat -> mulw 32 (N.of_nat k) fb = fb * N.of_nat k.
Proof.
  intros K. rewrite N.mul_comm. apply mulw_fits; [auto|]. pose proof (so_fits _ _ S) as F. unfold total_bits in F. fold nc ts n fb in F.
  change (2 ^ 32) with 4294967296 in *. assert (fb * N.of_nat k <= fb * n) by (apply N.mul_le_mono_l; lia). lia.
Qed.
Lemma some_tracks : ts <> [] -> N.of_nat (length ts) <> 0.
Proof. destruct ts; [congruence|cbn [length]; lia]. Qed.

(** the context a seek that is not short cut leaves *)
Lemma seek_computes d t p : playing d -> ts <> [] -> legal_time d t ->
  exists i0 i1 al, find_linear_interpolation_samples_with_sample_rate n rate (clamped_time d t) p (d_looping d) = Ok (i0, i1, al) /\
    i0 < n /\ i1 < n /\ ffinite al = true /\ (0 <= FR al <= 1)%R /\
    seek ds d t p = Ok (if feq (d_time d) (clamped_time d t) && rp_eqb (d_rounding d) p then d else
      {| d_tracks := m; d_hash := d_hash d; d_duration := d_duration d; d_alpha := al; d_time := clamped_time d t;
         d_offset0 := fb * i0; d_offset1 := fb * i1; d_looping := d_looping d; d_rounding := p |}).
Proof.
  intros P T L. destruct (legal_clamped d t P T L) as [C1 C2]. destruct (samples_eq T) as [SE RE]. destruct (HR T) as [R1 R2].
  rewrite (pl_duration _ P), SE, RE in C2.
  destruct (find_samples_spec n rate (clamped_time d t) p (d_looping d) (HN T) R1 R2 C1 C2) as (i0 & i1 & al & F & A1 & A2 & B0 & B1 & _).
  destruct (rounding_spec al p A1) as (A3 & A4 & _); [lra|].
  exists i0, i1, (apply_rounding_policy al p). split; [exact F|]. split; [exact B0|]. split; [exact B1|]. split; [exact A3|]. split; [exact A4|].
  unfold seek. rewrite (pl_tracks _ P), p_samples, SE. cbn [bindo]. pose proof (HN T). replace (n =? 0) with false by lia. fold (clamped_time d t).
  destruct (feq _ _ && rp_eqb _ _); [reflexivity|]. rewrite p_rate, RE. cbn [bindo].
  assert (LP : (if is_wrapping_supported ds then d_looping d else lp_clamp) = d_looping d).
  { destruct (is_wrapping_supported ds) eqn:W; [reflexivity|]. symmetry. apply (pl_loop _ P W). }
  rewrite LP, F. cbn [bindo]. rewrite q_bits by (exact (some_tracks T) || lia). cbn [bindo].
  rewrite <- (N2Nat.id i0), <- (N2Nat.id i1), !bits_fit by lia. reflexivity.
Qed.
Lemma playing_seek d t p : playing d -> legal_time d t -> exists d', seek ds d t p = Ok d' /\ playing d'.
Proof.
  intros P L. destruct (list_eq_nil ts) as [T|T].
  - exists d. split; [|exact P]. unfold seek. rewrite (pl_tracks _ P), p_samples. cbn [bindo]. unfold h_samples. fold ts. rewrite T. reflexivity.
  - destruct (seek_computes d t p P T L) as (i0 & i1 & al & _ & B0 & B1 & A1 & A2 & E). destruct (legal_clamped d t P T L) as [C1 C2].
    eexists. split; [exact E|]. destruct (feq _ _ && rp_eqb _ _); [exact P|]. destruct P as [PA PB PC PD PE]. constructor; cbn [d_tracks d_hash d_duration d_alpha d_time d_offset0 d_offset1 d_looping d_rounding]; auto.
    right. split; [exact T|]. split; [apply not_negative; [exact C1|apply C2]|]. exists (N.to_nat i0), (N.to_nat i1). cbn [d_tracks d_hash d_duration d_alpha d_time d_offset0 d_offset1 d_looping d_rounding]. rewrite !N2Nat.id. repeat split; auto; try lia; apply A2.
Qed.

(** whatever the calls, decompression is defined *)
Lemma loop_unknown_ok d w ty : d_tracks d = m -> known_type ds ty = false ->
  forall post pre cptr rptr off0 off1 an, ts = pre ++ post ->
  decompress_loop ds w d 10 ty (num_sample_elements ty) an 52 (length post) (N.of_nat (length pre)) cptr rptr off0 off1 = Ok [].
Proof.
  intros DT K. induction post as [|t post IH]; intros pre cptr rptr off0 off1 an E; [reflexivity|]. cbn [length decompress_loop]. rewrite DT.
  assert (NT : nth_error ts (length pre) = Some t) by (rewrite E, nth_error_app2, Nat.sub_diag by lia; reflexivity).
  rewrite (q_format _ t NT). cbn [bindo].
  assert (IT : In t ts) by (eapply nth_error_In; exact NT).
  rewrite (q_num_bits t IT). cbn [bindo]. rewrite K. cbn [negb].
  replace (N.of_nat (length pre) + 1) with (N.of_nat (length (pre ++ [t]))) by (rewrite app_length; cbn [length]; lia). apply IH. rewrite <- app_assoc. exact E.
Qed.
Lemma playing_decompress d w : playing d -> exists out, decompress_tracks ds d w = Ok out.
Proof.
  intros P. destruct (known_type ds (sc_type c)) eqn:K.
  - destruct (pl_state _ P) as [T|[T (T1 & k0 & k1 & K0 & K1 & O0 & O1 & _)]].
    + unfold decompress_tracks. rewrite (pl_tracks _ P), T. rewrite q_num_tracks. cbn [bindo].
      destruct (_ =? 0); [eauto|]. change (flt f_minus_one f_zero) with true. cbn iota. eauto.
    + eexists. exact (q_read ds w d k0 k1 (pl_tracks _ P) K0 K1 O0 O1 T1 K).
  - unfold decompress_tracks. rewrite (pl_tracks _ P). rewrite q_num_tracks. cbn [bindo].
    destruct (_ =? 0); [eauto|]. destruct (flt (d_time d) f_zero); [eauto|].
    destruct q_ptrs as (P1 & P2 & P3 & P4). rewrite P1, P2, P3, P4. cbn [bindo].
    rewrite q_type, q_version. cbn [bindo]. rewrite Nat2N.id.
    rewrite (loop_unknown_ok d w (sc_type c) (pl_tracks _ P) K ts []) by reflexivity. eauto.
Qed.
Lemma playing_offsets d : playing d -> d_time d = f_minus_one \/ offsets_ok d.
Proof.
  intros P. destruct (pl_state _ P) as [T|[T (T1 & k0 & k1 & K0 & K1 & O0 & O1 & _)]]; [left; exact T|right].
  unfold offsets_ok. rewrite O0, O1, <- !bits_fit by assumption. unfold mulw, wrapw. split; apply N.mod_lt; discriminate.
Qed.
Lemma playing_track d w i : playing d -> exists out, decompress_track ds d i w = Ok out.
Proof.
  intros P. destruct (playing_offsets d P) as [T|O].
  - unfold decompress_track. rewrite (pl_tracks _ P), T. rewrite q_num_tracks. cbn [bindo].
    destruct (_ =? 0); [eauto|]. change (flt f_minus_one f_zero) with true. cbn iota. eauto.
  - destruct (playing_decompress d w P) as (out & E). destruct (random_access ds d w out O E) as (vals & V).
    destruct (V w (fun _ _ => eq_refl)) as [_ V']. rewrite V'. eauto.
Qed.

(** a call on this clip *)
Definition plays (d : dcontext) (x : call) : Prop :=
  match x with c_initialize m' => m' = m | c_relocated m' => m' = m | c_looping _ => True | c_seek t _ => legal_time d t end.
Lemma playing_call d x : playing d -> plays d x -> exists d', do_call ds d x = Ok d' /\ playing d'.
Proof.
  intros P L. destruct x as [m'|m'|p|t p]; cbn [do_call plays] in *.
  - subst m'. destruct (playing_initialize d) as (d' & E & P' & _). rewrite E. cbn [bindo]. exists d'. split; [reflexivity|exact P'].
  - subst m'. destruct (playing_relocated d P) as (d' & E & P'). rewrite E. cbn [bindo]. exists d'. split; [reflexivity|exact P'].
  - apply playing_looping; exact P.
  - apply playing_seek; assumption.
Qed.

(** the value of key frame k *)
Lemma pose_nth d w k0 k1 : forall l i j t, nth_error l j = Some t ->
  nth_error (pose c ds d w k0 k1 i l) j = Some (track_value nc t k0 k1 (alpha_of ds d w (i + N.of_nat j))).
Proof.
  induction l as [|t0 l IH]; intros i [|j] t H; try discriminate H; cbn [pose nth_error] in *.
  - injection H as ->. rewrite N.add_0_r. reflexivity.
  - rewrite (IH (i + 1) j t H). do 3 f_equal. lia.
Qed.
Definition selects_frame (d : dcontext) (k : nat) : Prop := exists k0 k1, (k0 < N.to_nat n)%nat /\ (k1 < N.to_nat n)%nat /\
  d_offset0 d = fb * N.of_nat k0 /\ d_offset1 d = fb * N.of_nat k1 /\ selects (N.of_nat k0) (N.of_nat k1) (d_alpha d) (N.of_nat k).
Definition key_value_of (t : ctrack) (k : nat) : list f32 := if ct_constant t then const_value t else dec nc t k.
Definition same_numbers (a b : list f32) : Prop := length a = length b /\ forall j, (j < length a)%nat -> ffinite (at_ j a) = true /\ FR (at_ j a) = FR (at_ j b).

Lemma selected_value d w t k0 k1 k i : (is_per_track_rounding_supported ds = true -> keeps_nearest w) -> d_rounding d = rp_nearest ->
  selects (N.of_nat k0) (N.of_nat k1) (d_alpha d) (N.of_nat k) ->
  (forall k, k = k0 \/ k = k1 -> length (key_value_of t k) = nc /\ forall j, (j < nc)%nat -> ffinite (at_ j (key_value_of t k)) = true) ->
  same_numbers (track_value nc t k0 k1 (alpha_of ds d w i)) (key_value_of t k).
Proof.
  intros KN RN [AF SEL] FIN. unfold track_value, key_value_of in *. destruct (ct_constant t).
  { split; [reflexivity|]. destruct (FIN k0 (or_introl eq_refl)) as [L F]. intros j Hj. split; [apply F; lia|reflexivity]. }
  destruct (FIN k0 (or_introl eq_refl)) as [L0 F0]. destruct (FIN k1 (or_intror eq_refl)) as [L1 F1].
  assert (AL : ffinite (alpha_of ds d w i) = true /\ ((FR (d_alpha d) = 0 -> FR (alpha_of ds d w i) = 0) /\ (FR (d_alpha d) = 1 -> FR (alpha_of ds d w i) = 1))%R).
  { unfold alpha_of. rewrite RN. destruct (is_per_track_rounding_supported ds); [|auto].
    assert (R01 : (0 <= FR (d_alpha d) <= 1)%R) by (destruct SEL as [[_ ->]|[_ ->]]; lra).
    destruct (KN eq_refl i) as [E|[E|E]]; rewrite E; cbn [apply_rounding_policy]; auto.
    destruct (rounding_spec (d_alpha d) rp_nearest AF R01) as (Q1 & _ & Q2 & Q3 & _). cbn [apply_rounding_policy] in *.
    split; [exact Q1|]. split; intros Z; [apply Q3; [lra|]|apply Q2; lra].
    intros EB. apply (f_equal FR) in EB. rewrite Z in EB. revert EB. apply Rlt_not_eq. rewrite <- f_zero_R. apply flt_R; reflexivity. }
  destruct AL as (ALF & AL0 & AL1). unfold interpolate.
  assert (LI : forall b, length b = nc -> length (map2 (fun x y => flerp x y (alpha_of ds d w i)) (dec nc t k0) b) = nc) by (intros b Hb; rewrite map2_length, L0, Hb; apply Nat.min_id).
  split.
  - rewrite LI by exact L1. destruct SEL as [[E _]|[E _]]; [assert (k = k0) by lia|assert (k = k1) by lia]; subst k; congruence.
  - intros j Hj. rewrite LI in Hj by exact L1. rewrite (map2_nth _ f_zero f_zero f_zero) by lia.
    destruct SEL as [[E Z]|[E Z]]; [assert (k = k0) by lia|assert (k = k1) by lia]; subst k.
    + apply flerp_0; auto.
    + apply flerp_1; auto.
Qed.
End Play.
