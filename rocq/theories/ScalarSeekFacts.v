(** Facts about histories of seeks of a scalar context. *)
From Verif Require Import Word WordFacts Float32 Float32Facts FloatOrder Interp DbBuild ScalarEnc ScalarDec ScalarSpec ScalarDecFacts LayoutBuild.
From Coq Require Import Lia ZifyBool ZifyN ZifyNat Reals.
From Flocq Require Import IEEE754.Binary IEEE754.Bits.
Local Open Scope N_scope.

Lemma do_calls_app ds a : forall c b, do_calls ds c (a ++ b) = bindo (do_calls ds c a) (fun c => do_calls ds c b).
Proof.
  induction a as [|x a IH]; intros c b; [reflexivity|]. cbn [app do_calls]. destruct (do_call ds c x); cbn [bindo]; [apply IH|reflexivity|reflexivity].
Qed.

(** everything but what a seek sets *)
Definition same_clip (c c' : dcontext) : Prop :=
  d_tracks c = d_tracks c' /\ d_hash c = d_hash c' /\ d_duration c = d_duration c' /\ d_looping c = d_looping c'.
Definition clamped (ds : dsettings) (c : dcontext) (t : f32) : f32 := fclamp t f_zero (d_duration c).

Lemma clamp_nonneg x d : fle f_zero d = true -> flt (fclamp x f_zero d) f_zero = false.
Proof.
  intros D. unfold fclamp. destruct (fle_num _ _ D) as [_ Nd].
  assert (M : fle f_zero (fmax x f_zero) = true).
  { unfold fmax, fgt. destruct (flt f_zero x) eqn:E; [apply flt_fle; exact E | reflexivity]. }
  unfold fmin. destruct (flt (fmax x f_zero) d) eqn:E; apply fle_not_flt; assumption.
Qed.
Lemma feq_fle x y : feq x y = true -> fle x y = true /\ fle y x = true.
Proof.
  unfold feq, fle, b32_compare. rewrite (Binary.Bcompare_swap 24 128 y x).
  destruct (Binary.Bcompare 24 128 y x) as [[]|]; cbn; intros H; try discriminate H. auto.
Qed.
Lemma feq_sym x y : feq x y = true -> feq y x = true.
Proof.
  unfold feq, b32_compare. rewrite (Binary.Bcompare_swap 24 128 y x).
  destruct (Binary.Bcompare 24 128 y x) as [[]|]; cbn; intros H; try discriminate H. reflexivity.
Qed.
Lemma feq_m1 x : flt x f_zero = false -> feq f_minus_one x = false.
Proof.
  intros H. destruct (feq f_minus_one x) eqn:E; [|reflexivity]. exfalso. apply feq_fle in E. destruct E as [_ E].
  pose proof (fle_lt_trans _ _ _ E (eq_refl : flt f_minus_one f_zero = true)). congruence.
Qed.
Lemma feq_pos x y : flt f_zero x = true -> feq x y = true -> x = y.
Proof.
  intros X Y. destruct x as [s|s| |s mm e B].
  - destruct s; discriminate X.
  - destruct s; [discriminate X|]. destruct y as [s'|s'| |s' mm' e' B']; try discriminate Y. destruct s'; [discriminate Y | reflexivity].
  - discriminate X.
  - set (x := Binary.B754_finite 24 128 s mm e B) in *.
    assert (Fx : ffinite x = true) by reflexivity.
    apply (flt_R f_zero x eq_refl Fx) in X. change (FR f_zero) with 0%R in X.
    assert (Fy : ffinite y = true).
    { destruct y as [s'|s'| |s' mm' e' B']; try reflexivity; subst x; destruct s; try destruct s'; discriminate Y. }
    apply (feq_R x y Fx Fy) in Y.
    apply (Binary.B2R_inj 24 128); [reflexivity | | exact Y].
    destruct y as [s'|s'| |s' mm' e' B']; try discriminate Fy; [|reflexivity]. exfalso. change (FR (Binary.B754_zero 24 128 s')) with 0%R in Y. rewrite Y in X. revert X. apply Rlt_irrefl.
Qed.

Section Seek.
Context (ds : dsettings).
Hypothesis Clamp : clamp_sample_time ds = true.

(** what a seek that is not short cut leaves *)
Definition sought (c : dcontext) (t : f32) (p : rounding_policy) : outcome dcontext :=
  let m := d_tracks c in
  bindo (h_num_samples m) (fun n =>
  bindo (h_sample_rate m) (fun rate =>
  bindo (find_linear_interpolation_samples_with_sample_rate n rate (clamped ds c t) p (if is_wrapping_supported ds then d_looping c else lp_clamp)) (fun '(k0, k1, alpha) =>
  bindo (h_num_bits_per_frame m) (fun bits =>
  Ok {| d_tracks := m; d_hash := d_hash c; d_duration := d_duration c; d_alpha := alpha; d_time := clamped ds c t;
        d_offset0 := mulw 32 k0 bits; d_offset1 := mulw 32 k1 bits; d_looping := d_looping c; d_rounding := p |})))).

Lemma sought_same c c' t p : same_clip c c' -> sought c t p = sought c' t p.
Proof. intros (A & B & C & D). unfold sought, clamped. rewrite A, B, C, D. reflexivity. Qed.
Lemma sought_clip c t p c' : sought c t p = Ok c' -> same_clip c c'.
Proof.
  unfold sought. intros E. destruct (bindo_ok _ _ _ E) as (n & _ & E1). cbn beta in E1.
  destruct (bindo_ok _ _ _ E1) as (r & _ & E2). cbn beta in E2. destruct (bindo_ok _ _ _ E2) as ([[k0 k1] al] & _ & E3). cbn beta in E3.
  destruct (bindo_ok _ _ _ E3) as (bits & _ & E4). injection E4 as <-. repeat split.
Qed.
Lemma seek_cases c t p : seek ds c t p =
  bindo (h_num_samples (d_tracks c)) (fun n => if n =? 0 then Ok c
    else if feq (d_time c) (clamped ds c t) && rp_eqb (d_rounding c) p then Ok c else sought c t p).
Proof.
  unfold seek, sought. rewrite Clamp. destruct (h_num_samples (d_tracks c)) as [n| |]; reflexivity.
Qed.

(** the state of a context, once sought, with respect to the clip: as if freshly sought *)
Definition settled (c : dcontext) : Prop := d_time c = f_minus_one \/ exists t, sought c t (d_rounding c) = Ok c.

Lemma seek_settled c t p c' : seek ds c t p = Ok c' -> settled c -> settled c' /\ same_clip c c'.
Proof.
  rewrite seek_cases. intros E S. destruct (bindo_ok _ _ _ E) as (n & _ & E1). cbn beta in E1.
  destruct (n =? 0); [injection E1 as <-; split; [exact S | repeat split]|].
  destruct (feq _ _ && rp_eqb _ _); [injection E1 as <-; split; [exact S | repeat split]|].
  pose proof (sought_clip _ _ _ _ E1) as SC. split; [|exact SC]. right. exists t.
  rewrite <- (sought_same _ _ t (d_rounding c') SC).
  replace (d_rounding c') with p; [exact E1|].
  unfold sought in E1. destruct (bindo_ok _ _ _ E1) as (n1 & _ & E2). cbn beta in E2.
  destruct (bindo_ok _ _ _ E2) as (r & _ & E3). cbn beta in E3. destruct (bindo_ok _ _ _ E3) as ([[k0 k1] al] & _ & E4). cbn beta in E4.
  destruct (bindo_ok _ _ _ E4) as (bits & _ & E5). injection E5 as <-. reflexivity.
Qed.

Lemma clamped_eq c t t' : feq (clamped ds c t) (clamped ds c t') = true -> clamped ds c t = clamped ds c t'.
Proof.
  unfold clamped, fclamp. set (d := d_duration c). set (a := fmax t f_zero). set (b := fmax t' f_zero).
  assert (P : forall x, fmax x f_zero = f_zero \/ flt f_zero (fmax x f_zero) = true).
  { intros x. unfold fmax, fgt. destruct (flt f_zero x) eqn:E; [right; exact E | left; reflexivity]. }
  unfold fmin. destruct (flt a d) eqn:Ea, (flt b d) eqn:Eb; intros F; [|exfalso|exfalso|reflexivity].
  - destruct (P t) as [Z|Z], (P t') as [Z'|Z']; fold a in Z; fold b in Z'.
    + congruence.
    + symmetry. apply feq_pos; [exact Z'|]. apply feq_sym. exact F.
    + apply feq_pos; assumption.
    + apply feq_pos; assumption.
  - apply feq_fle in F. destruct F as [_ F]. apply fle_not_flt in F. congruence.
  - apply feq_fle in F. destruct F as [F _]. apply fle_not_flt in F. congruence.
Qed.

(** with a duration that is not negative, the last seek decides *)
Lemma seek_fresh c c' t p : fle f_zero (d_duration c) = true -> same_clip c c' -> d_time c' = f_minus_one -> settled c ->
  forall c1, seek ds c t p = Ok c1 -> exists c1', seek ds c' t p = Ok c1' /\ (c1 = c1' \/ (h_num_samples (d_tracks c) = Ok 0 /\ c1 = c /\ c1' = c')).
Proof.
  intros D SC T S c1 E. rewrite seek_cases in *. destruct SC as (A1 & A2 & A3 & A4). rewrite <- A1.
  assert (SC : same_clip c c') by (repeat split; assumption).
  assert (CT : clamped ds c' t = clamped ds c t) by (unfold clamped; rewrite A3; reflexivity).
  rewrite CT, T. rewrite (feq_m1 (clamped ds c t)) by (apply clamp_nonneg; exact D). cbn [andb].
  destruct (bindo_ok _ _ _ E) as (n & N & E1). cbn beta in E1. rewrite N. cbn [bindo].
  destruct (N.eqb_spec n 0) as [Z|Z]; [injection E1 as <-; exists c'; split; [reflexivity|]; right; subst n; auto|].
  rewrite <- (sought_same c c' t p SC).
  destruct (feq (d_time c) (clamped ds c t) && rp_eqb (d_rounding c) p) eqn:G.
  - injection E1 as <-. apply andb_prop in G. destruct G as [G1 G2].
    assert (d_rounding c = p) as <- by (destruct (d_rounding c), p; try reflexivity; discriminate G2).
    destruct S as [S|[t0 S]].
    + rewrite S, (feq_m1 (clamped ds c t)) in G1 by (apply clamp_nonneg; exact D). discriminate G1.
    + exists c. split; [|left; reflexivity]. rewrite <- S.
      assert (d_time c = clamped ds c t0) as TT.
      { unfold sought in S. destruct (bindo_ok _ _ _ S) as (n1 & _ & E2). cbn beta in E2.
        destruct (bindo_ok _ _ _ E2) as (r & _ & E3). cbn beta in E3. destruct (bindo_ok _ _ _ E3) as ([[k0 k1] al] & _ & E4). cbn beta in E4.
        destruct (bindo_ok _ _ _ E4) as (bits & _ & E5). injection E5 as E5. rewrite <- E5 at 1. reflexivity. }
      rewrite TT in G1. apply clamped_eq in G1. unfold sought. rewrite G1. reflexivity.
  - exists c1. split; [exact E1 | left; reflexivity].
Qed.

Lemma seeks_settled l : Forall is_seek_call l -> forall c c', do_calls ds c l = Ok c' -> settled c -> settled c' /\ same_clip c c'.
Proof.
  induction 1 as [|x l X F IH]; intros c c' E S; [injection E as <-; split; [exact S | repeat split]|].
  destruct x as [| | |t p]; try contradiction. cbn [do_calls do_call] in E. destruct (bindo_ok _ _ _ E) as (c1 & E1 & E2). cbn beta in E2.
  destruct (seek_settled _ _ _ _ E1 S) as [S1 C1]. destruct (IH _ _ E2 S1) as [S2 C2]. split; [exact S2|].
  destruct C1 as (A & B & C & D), C2 as (A' & B' & C' & D'). repeat split; congruence.
Qed.

(** looping calls only depend on the clip *)
Lemma looping_same l : Forall is_looping_call l -> forall c1 c2 c, same_clip c1 c2 -> d_time c1 = d_time c2 -> do_calls ds c1 l = Ok c ->
  exists c', do_calls ds c2 l = Ok c' /\ same_clip c c' /\ d_time c' = d_time c /\ d_time c = d_time c1.
Proof.
  induction 1 as [|x l X F IH]; intros c1 c2 c SC T E; [injection E as <-; exists c2; repeat split; auto; apply SC|].
  destruct x as [| |p|]; try contradiction. cbn [do_calls do_call] in *. destruct (bindo_ok _ _ _ E) as (c3 & E1 & E2). cbn beta in E2.
  destruct SC as (A & B & C & D). unfold set_looping_policy in *. destruct (negb (is_wrapping_supported ds)).
  { injection E1 as <-. cbn [bindo]. apply IH with (c1 := c1); auto. repeat split; assumption. }
  destruct (bindo_ok _ _ _ E1) as (q & Q & E3). cbn beta in E3. clear E1. rewrite <- A, Q. cbn [bindo]. rewrite <- D.
  destruct (lp_eqb (d_looping c1) q).
  { injection E3 as <-. cbn [bindo]. apply IH with (c1 := c1); auto. repeat split; assumption. }
  destruct (bindo_ok _ _ _ E3) as (d & DD & E4). cbn beta in E4. rewrite DD. cbn [bindo]. injection E4 as <-.
  set (c2' := {| d_tracks := d_tracks c1; d_hash := d_hash c2; d_duration := d; d_alpha := d_alpha c2; d_time := d_time c2;
       d_offset0 := d_offset0 c2; d_offset1 := d_offset1 c2; d_looping := q; d_rounding := d_rounding c2 |}).
  apply (IH _ c2' c) in E2; [exact E2 | repeat split; cbn; congruence | exact T].
Qed.

Lemma same_pose_refl c : same_pose ds c c. Proof. intros w. split; reflexivity. Qed.
Lemma same_pose_unsought c c' : d_tracks c = d_tracks c' -> d_time c = f_minus_one -> d_time c' = f_minus_one -> same_pose ds c c'.
Proof. intros A T T' w. unfold decompress_tracks, decompress_track. rewrite A, T, T'. cbn [flt]. split; reflexivity. Qed.

Lemma init_same c1 c2 m c : initialize ds c1 m = Ok c -> exists c', initialize ds c2 m = Ok c' /\ same_clip c c' /\ d_time c' = d_time c /\ d_time c = f_minus_one.
Proof.
  unfold initialize. intros E. destruct (bindo_ok _ _ _ E) as (a & A & E1). cbn beta in E1. destruct (bindo_ok _ _ _ E1) as (b & B & E2). cbn beta in E2.
  destruct (bindo_ok _ _ _ E2) as (d & D & E3). cbn beta in E3. injection E3 as <-.
  rewrite A. cbn [bindo]. rewrite B. cbn [bindo]. rewrite D. cbn [bindo]. eexists. split; [reflexivity|]. repeat split.
Qed.

Lemma seek_n0 c t p : h_num_samples (d_tracks c) = Ok 0 -> seek ds c t p = Ok c.
Proof. intros H. rewrite seek_cases, H. reflexivity. Qed.
Lemma seeks_n0 l : Forall is_seek_call l -> forall c, h_num_samples (d_tracks c) = Ok 0 -> do_calls ds c l = Ok c.
Proof.
  induction 1 as [|x l X F IH]; intros c H; [reflexivity|]. destruct x as [| | |t p]; try contradiction.
  cbn [do_calls do_call]. rewrite (seek_n0 c t p H). cbn [bindo]. apply IH. exact H.
Qed.

Lemma history_irrelevant pre m loops seeks t p c : Forall is_looping_call loops -> Forall is_seek_call seeks ->
  do_calls ds fresh_context (pre ++ c_initialize m :: loops ++ seeks ++ [c_seek t p]) = Ok c -> fle f_zero (d_duration c) = true ->
  exists c', do_calls ds fresh_context (c_initialize m :: loops ++ [c_seek t p]) = Ok c' /\ same_pose ds c c'.
Proof.
  intros FL FS E D. rewrite do_calls_app in E. destruct (bindo_ok _ _ _ E) as (c0 & _ & E1). cbn beta in E1. clear E.
  cbn [do_calls do_call] in *. destruct (bindo_ok _ _ _ E1) as (c1 & I & E2). cbn beta in E2. clear E1.
  destruct (init_same c0 fresh_context m c1 I) as (c1' & I' & SC & T & T1). rewrite I'. cbn [bindo].
  rewrite do_calls_app in E2. destruct (bindo_ok _ _ _ E2) as (c2 & L & E3). cbn beta in E3. clear E2.
  destruct (looping_same loops FL c1 c1' c2 SC (eq_sym T) L) as (c2' & L' & SC2 & T2 & T2').
  rewrite do_calls_app, L'. cbn [bindo do_calls do_call].
  rewrite do_calls_app in E3. destruct (bindo_ok _ _ _ E3) as (c3 & S & E4). cbn beta in E4. clear E3. cbn [do_calls do_call] in E4.
  destruct (bindo_ok _ _ _ E4) as (c4 & K & E5). injection E5 as ->.
  destruct (seeks_settled seeks FS c2 c3 S (or_introl (eq_trans T2' T1))) as [S3 SC3].
  assert (SC3' : same_clip c3 c2') by (destruct SC2 as (? & ? & ? & ?), SC3 as (? & ? & ? & ?); repeat split; congruence).
  assert (DD : d_duration c3 = d_duration c). { destruct (seek_settled _ _ _ _ K S3) as [_ (_ & _ & X & _)]. exact X. }
  destruct (seek_fresh c3 c2' t p ltac:(congruence) SC3' ltac:(congruence) S3 c K) as (c4' & K' & [->|(Z & -> & ->)]).
  - rewrite K'. cbn [bindo]. exists c4'. split; [reflexivity | apply same_pose_refl].
  - rewrite K'. cbn [bindo]. exists c2'. split; [reflexivity|].
    assert (Z2 : h_num_samples (d_tracks c2) = Ok 0) by (destruct SC3 as (-> & _); exact Z).
    rewrite (seeks_n0 seeks FS c2 Z2) in S. injection S as <-. apply same_pose_unsought; [apply SC2 | congruence | congruence].
Qed.
End Seek.
