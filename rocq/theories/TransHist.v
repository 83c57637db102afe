(** The state of a transform context after a seek is a function of the clip, the looping policy, the database, the time and the
    rounding policy: earlier seeks do not matter. *)
From Coq Require Import Lia.
From Verif Require Import Word Float32 Float32Facts Interp DbBuild ScalarDec ScalarSeekFacts TransDec TransFile TransSeek TransPlaySpec.
Import ListNotations.
Local Open Scope N_scope.

(** the two contexts play the same clip in the same way *)
Definition same_clip (b s : pcontext) : Prop :=
  x_tracks s = x_tracks b /\ x_db s = x_db b /\ x_hash s = x_hash b /\ x_db_hash s = x_db_hash b /\ x_duration s = x_duration b /\
  x_rotation s = x_rotation b /\ x_translation s = x_translation b /\ x_scale s = x_scale b /\ x_has_scale s = x_has_scale b /\
  x_has_segments s = x_has_segments b /\ x_looping s = x_looping b.
Lemma same_refl b : same_clip b b. Proof. repeat split. Qed.
Lemma same_sym b s : same_clip b s -> same_clip s b. Proof. intros (A1 & A2 & A3 & A4 & A5 & A6 & A7 & A8 & A9 & A10 & A11). repeat split; congruence. Qed.
Lemma same_trans a b s : same_clip a b -> same_clip b s -> same_clip a s.
Proof. intros (A1 & A2 & A3 & A4 & A5 & A6 & A7 & A8 & A9 & A10 & A11) (B1 & B2 & B3 & B4 & B5 & B6 & B7 & B8 & B9 & B10 & B11). repeat split; congruence. Qed.

(** seek once it has not returned early *)
Definition effective (ds : dsettings) (c : pcontext) (t : f32) (rp : rounding_policy) : outcome pcontext :=
  let m := x_tracks c in
  let lp := if is_wrapping_supported ds then x_looping c else lp_clamp in
  bindo (h_num_samples m) (fun n =>
  bindo (h_sample_rate m) (fun rate =>
  bindo (find_linear_interpolation_samples_with_sample_rate n rate t rp lp) (fun '(k0, k1, alpha) =>
  bindo (h_misc m) (fun misc =>
  bindo (read32 m transform_header) (fun num_segments =>
  bindo (read32 m (transform_header + 36)) (fun headers =>
  let headers := transform_header + headers in
  let has_database := is_set (Headers.get_has_database misc) in
  let stripped := has_database || is_set (Headers.get_has_stripped_keyframes misc) in
  bindo (find_key_frames ds m (x_db c) stripped num_segments n headers k0 k1 alpha) (fun '(alpha, l0, l1) =>
  bindo (key_frame_at m (x_db c) has_database stripped headers l0) (fun kf0 =>
  bindo (key_frame_at m (x_db c) has_database stripped headers l1) (fun kf1 =>
  Ok {| x_tracks := m; x_db := x_db c; x_hash := x_hash c; x_db_hash := x_db_hash c; x_duration := x_duration c; x_time := t; x_alpha := alpha;
        x_rotation := x_rotation c; x_translation := x_translation c; x_scale := x_scale c; x_has_scale := x_has_scale c; x_has_segments := x_has_segments c;
        x_looping := x_looping c; x_rounding := rp;
        x_single := fst (fst l0) =? fst (fst l1); x_kf0 := kf0; x_kf1 := kf1 |}))))))))).
Lemma tseek_cases ds c t rp : tseek ds c t rp =
  bindo (h_num_tracks (x_tracks c)) (fun n => if n =? 0 then Ok c
    else if feq (x_time c) (TransPlaySpec.sought ds (x_duration c) t) && rp_eqb (x_rounding c) rp then Ok c
    else effective ds c (TransPlaySpec.sought ds (x_duration c) t) rp).
Proof. reflexivity. Qed.
Lemma effective_same ds b s t rp : same_clip b s -> effective ds s t rp = effective ds b t rp.
Proof.
  intros (A1 & A2 & A3 & A4 & A5 & A6 & A7 & A8 & A9 & A10 & A11). destruct b, s. cbn in *. subst. reflexivity.
Qed.
Ltac open E := let x := fresh "x" in let E1 := fresh "Z" in let E2 := fresh "Y" in destruct (LayoutBuild.bindo_ok _ _ _ E) as (x & E1 & E2); clear E1 E; cbn beta in E2; rename E2 into E.
Lemma effective_ok ds c t rp c' : effective ds c t rp = Ok c' -> same_clip c c' /\ x_time c' = t /\ x_rounding c' = rp.
Proof.
  unfold effective. cbv zeta. intros E. do 3 open E. destruct x1 as [[k0 k1] al]. do 4 open E. destruct x4 as [[a l0] l1]. do 2 open E. injection E as <-. repeat split.
Qed.

(** a context whose last seek, if any, is the one that gives its key frames *)
Definition settled (ds : dsettings) (c : pcontext) : Prop := x_time c = f_minus_one \/ exists t, x_time c = TransPlaySpec.sought ds (x_duration c) t /\ effective ds c (x_time c) (x_rounding c) = Ok c.
Lemma tseek_settled ds c t rp c' : tseek ds c t rp = Ok c' -> settled ds c -> settled ds c' /\ same_clip c c'.
Proof.
  rewrite tseek_cases. intros E S. open E. destruct (x =? 0); [injection E as <-; split; [exact S | apply same_refl] |].
  destruct (feq _ _ && rp_eqb _ _); [injection E as <-; split; [exact S | apply same_refl] |].
  destruct (effective_ok _ _ _ _ _ E) as (SC & T & R). split; [| exact SC]. right. exists t. assert (D : x_duration c' = x_duration c) by apply SC. rewrite D. split; [exact T |].
  rewrite (effective_same ds c c' _ _ SC), T, R. exact E.
Qed.

Section Clamped.
  Context (ds : dsettings).
  Hypothesis Clamp : clamp_sample_time ds = true.
  Lemma clamp_eq d t t' : feq (fclamp t f_zero d) (fclamp t' f_zero d) = true -> fclamp t f_zero d = fclamp t' f_zero d.
  Proof.
    exact (clamped_eq ds {| d_tracks := []; d_hash := 0; d_duration := d; d_alpha := d; d_time := d; d_offset0 := 0; d_offset1 := 0; d_looping := lp_clamp; d_rounding := rp_none |} t t').
  Qed.
  Lemma clamp_not_m1 d t : fle f_zero d = true -> feq f_minus_one (fclamp t f_zero d) = false.
  Proof. intros D. apply feq_m1, clamp_nonneg, D. Qed.

  (** whatever seek a context did before, it seeks like one that did none *)
  Lemma seek_fresh b c t rp n c1 : same_clip b c -> settled ds c -> x_time b = f_minus_one -> fle f_zero (x_duration b) = true -> h_num_tracks (x_tracks b) = Ok n -> n <> 0 ->
    tseek ds c t rp = Ok c1 -> tseek ds b t rp = Ok c1.
  Proof.
    intros SC S T D N NZ. rewrite !tseek_cases. assert (TR : x_tracks c = x_tracks b) by apply SC. assert (DU : x_duration c = x_duration b) by apply SC. rewrite TR, N. cbn [bindo].
    rewrite (proj2 (N.eqb_neq _ _) NZ). rewrite T, DU. unfold TransPlaySpec.sought. rewrite Clamp, (clamp_not_m1 _ t D). cbn [andb].
    destruct (feq (x_time c) (fclamp t f_zero (x_duration b)) && rp_eqb (x_rounding c) rp) eqn:G; [| rewrite (effective_same ds b c _ _ SC); auto].
    intros E. injection E as <-. apply andb_prop in G as [G1 G2]. assert (x_rounding c = rp) as <- by (destruct (x_rounding c), rp; try reflexivity; discriminate G2).
    destruct S as [S | (t0 & S1 & S2)]; [rewrite S, (clamp_not_m1 _ t D) in G1; discriminate |].
    unfold TransPlaySpec.sought in S1. rewrite Clamp, DU in S1. rewrite S1 in G1. apply clamp_eq in G1. rewrite <- G1, <- S1. rewrite <- (effective_same ds b c _ _ SC). exact S2.
  Qed.

  (** seeks and relocations in place leave the clip alone *)
  Definition no_looping (x : tcall) : Prop := match x with call_looping _ => False | _ => True end.
  Lemma relocated_same c m c' : trelocated c m None = Ok (true, c') -> x_tracks c = m -> x_db c = None -> same_clip c c' /\ x_time c' = f_minus_one.
  Proof.
    unfold trelocated. intros E T D. open E. destruct (negb _); [discriminate |]. destruct (negb _); [discriminate |]. injection E as <-. repeat split; cbn; congruence.
  Qed.
  Lemma calls_settled m l : forall b c c', Forall no_looping l -> x_tracks b = m -> x_db b = None -> same_clip b c -> settled ds c -> tdo_all ds m c l = Ok c' -> same_clip b c' /\ settled ds c'.
  Proof.
    induction l as [| x l IH]; intros b c c' F T D SC S E; [injection E as <-; auto |]. inversion F as [| ? ? F1 F2]; subst. cbn [tdo_all] in E.
    destruct (LayoutBuild.bindo_ok _ _ _ E) as (c2 & E2 & E3). cbn beta in E3. assert (H : same_clip b c2 /\ settled ds c2); [| apply (IH b c2 c' F2 eq_refl D (proj1 H) (proj2 H) E3)].
    destruct x as [t rp | |]; cbn [tdo] in E2; [| destruct F1 |].
    - destruct (tseek_settled _ _ _ _ _ E2 S) as [S' SC']. split; [exact (same_trans _ _ _ SC SC') | exact S'].
    - destruct (LayoutBuild.bindo_ok _ _ _ E2) as ([ok c3] & E4 & E5). cbn beta in E5. injection E5 as ->. destruct ok.
      + destruct (relocated_same _ _ _ E4) as [SC' T']; [apply SC | rewrite (proj1 (proj2 SC)); exact D |]. split; [exact (same_trans _ _ _ SC SC') | left; exact T'].
      + unfold trelocated in E4. open E4. destruct (negb _); [injection E4 as <-; auto |]. destruct (negb _); [injection E4 as <-; auto | discriminate].
  Qed.
End Clamped.
