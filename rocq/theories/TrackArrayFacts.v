(** Proofs about TrackArray.v *)
From Coq Require Import Reals Lra Lia Permutation.
From Verif Require Import Word Float32 Float32Facts TrackArray TrackSpec.
Local Open Scope N_scope.

Lemma fle_zero_pos x : ffinite x = true -> fle x f_zero = false <-> (0 < FR x)%R.
Proof.
  intros H. pose proof (fle_R x f_zero H eq_refl) as E. rewrite f_zero_R in E.
  destruct (fle x f_zero); split; intros; try discriminate; try reflexivity.
  - assert (FR x <= 0)%R by (apply E; reflexivity). lra.
  - destruct (Rle_lt_dec (FR x) 0) as [L | L]; auto. apply E in L. discriminate.
Qed.
Lemma flt_zero_neg x : ffinite x = true -> flt x f_zero = false <-> (0 <= FR x)%R.
Proof.
  intros H. pose proof (flt_R x f_zero H eq_refl) as E. rewrite f_zero_R in E.
  destruct (flt x f_zero); split; intros; try discriminate; try reflexivity.
  - assert (FR x < 0)%R by (apply E; reflexivity). lra.
  - destruct (Rle_lt_dec 0 (FR x)) as [L | L]; auto. apply E in L. discriminate.
Qed.
Lemma nonneg_check x : negb (flt x f_zero || negb (ffinite x)) = true <-> ffinite x = true /\ (0 <= FR x)%R.
Proof.
  destruct (ffinite x) eqn:F.
  - rewrite Bool.orb_false_r, Bool.negb_true_iff, flt_zero_neg by auto. tauto.
  - rewrite Bool.orb_true_r. simpl. split; [discriminate | intros [? _]; discriminate].
Qed.

Lemma track_is_valid_spec t : track_is_valid t = true <-> track_ok t.
Proof.
  unfold track_is_valid, track_ok. destruct (has_data t) eqn:D; simpl; [| tauto].
  destruct (N.eqb_spec (num_samples t) 0xFFFFFFFF) as [E | E].
  { split; [discriminate |]. intros [? | (H & _)]; [discriminate | contradiction]. }
  destruct (ffinite (sample_rate t)) eqn:F; simpl.
  2:{ rewrite Bool.orb_true_r. split; [discriminate |]. intros [? | (_ & [? _] & _)]; discriminate. }
  rewrite Bool.orb_false_r. destruct (fle (sample_rate t) f_zero) eqn:L.
  { split; [discriminate |]. intros [? | (_ & [_ ?] & _)]; [discriminate |]. apply fle_zero_pos in H; auto. congruence. }
  apply fle_zero_pos in L; auto. unfold desc_is_valid. destruct (transform t) eqn:T.
  - rewrite !Bool.andb_true_iff, !nonneg_check. split.
    + intros [[[P S] A] B]. right. tauto.
    + intros [? | (_ & _ & P & Q)]; [discriminate |]. specialize (Q eq_refl). tauto.
  - rewrite nonneg_check. split; [intros P; right; repeat split; auto; try tauto; discriminate |].
    intros [? | (_ & _ & P & _)]; [discriminate | auto].
Qed.

Lemma check_tracks_spec n ty ns r ts : check_tracks n ty ns r ts = true <->
  Forall (fun t => track_type t = ty /\ num_samples t = ns /\ feq (sample_rate t) r = true /\ track_ok t /\
                   (transform t = true -> parent_index t = k_invalid_track_index \/ parent_index t < n)) ts.
Proof.
  induction ts as [| t ts IH]; simpl; [split; auto |].
  rewrite Forall_cons_iff, <- IH, <- track_is_valid_spec. clear IH.
  destruct (N.eqb_spec (track_type t) ty) as [E | E]; simpl; [| split; [discriminate | tauto]].
  destruct (N.eqb_spec (num_samples t) ns) as [E2 | E2]; simpl; [| split; [discriminate | tauto]].
  destruct (feq (sample_rate t) r); simpl; [| split; [discriminate | intuition discriminate]].
  destruct (track_is_valid t); simpl; [| split; [discriminate | intuition discriminate]].
  destruct (transform t); simpl; [| intuition discriminate].
  destruct (N.eqb_spec (parent_index t) k_invalid_track_index) as [P | P]; simpl; [tauto |].
  destruct (N.leb_spec n (parent_index t)) as [L | L].
  - split; [discriminate |]. intros [(_ & _ & _ & _ & H) _]. destruct (H eq_refl); [contradiction | lia].
  - tauto.
Qed.

Lemma outputs_cons t ts : outputs (t :: ts) =
  if output_index t =? k_invalid_track_index then outputs ts else output_index t :: outputs ts.
Proof. unfold outputs. simpl. destruct (output_index t =? k_invalid_track_index); reflexivity. Qed.

Lemma in_outputs o ts : o <> k_invalid_track_index -> In o (outputs ts) <-> exists t, In t ts /\ output_index t = o.
Proof.
  intros H. unfold outputs. rewrite filter_In, in_map_iff. destruct (N.eqb_spec o k_invalid_track_index); [contradiction |].
  simpl. split; [intros [(t & A & B) _]; eauto | intros (t & A & B); eauto].
Qed.

Lemma check_outputs_spec n ts : forall acc k, check_outputs n ts acc = Some k <->
  (Forall (fun o => o < n) (outputs ts) /\ NoDup (outputs ts) /\ k = acc + N.of_nat (length (outputs ts))).
Proof.
  induction ts as [| t ts IH]; intros acc k.
  { simpl. split; [intros [= <-] | intros (_ & _ & ->)].
    - repeat split; auto; try constructor. lia.
    - f_equal. lia. }
  rewrite outputs_cons. simpl. destruct (N.eqb_spec (output_index t) k_invalid_track_index) as [E | E]; simpl; [apply IH |].
  rewrite Forall_cons_iff, NoDup_cons_iff.
  destruct (N.leb_spec n (output_index t)) as [L | L].
  { split; [discriminate |]. intros ((H & _) & _). lia. }
  destruct (existsb (fun t2 => output_index t =? output_index t2) ts) eqn:X.
  { split; [discriminate |]. intros (_ & (H & _) & _). exfalso. apply H. apply in_outputs; auto.
    apply existsb_exists in X. destruct X as (t2 & A & B). apply N.eqb_eq in B. eauto. }
  rewrite IH. cbn [length]. assert (Hn : ~ In (output_index t) (outputs ts)).
  { rewrite in_outputs by auto. intros (t2 & A & B). 
    assert (existsb (fun t2 => output_index t =? output_index t2) ts = true); [| congruence].
    apply existsb_exists. exists t2. split; auto. apply N.eqb_eq. auto. }
  split; intros H.
  - destruct H as (A & B & C). repeat split; auto. lia.
  - destruct H as ((A & B) & (C & D) & F). repeat split; auto. lia.
Qed.

Lemma check_contiguous_spec k : forall o ts, check_contiguous k o ts = true <->
  (forall i, (i < k)%nat -> In (o + N.of_nat i) (map output_index ts)).
Proof.
  induction k as [| k IH]; intros o ts; simpl; [split; auto; intros; lia |].
  rewrite Bool.andb_true_iff, IH, existsb_exists. split.
  - intros [(t & A & B) H] i Hi. apply N.eqb_eq in B. destruct i as [| i].
    + rewrite N.add_0_r. rewrite B. now apply in_map.
    + replace (o + N.of_nat (S i)) with (o + 1 + N.of_nat i) by lia. apply H. lia.
  - intros H. split.
    + specialize (H 0%nat ltac:(lia)). rewrite N.add_0_r in H. apply in_map_iff in H. destruct H as (t & A & B).
      exists t. split; auto. apply N.eqb_eq. auto.
    + intros i Hi. replace (o + 1 + N.of_nat i) with (o + N.of_nat (S i)) by lia. apply H. lia.
Qed.

Lemma outputs_length ts : (length (outputs ts) <= length ts)%nat.
Proof. unfold outputs. rewrite <- (map_length output_index ts). induction (map output_index ts); simpl; auto. destruct (negb _); simpl; lia. Qed.

Lemma outputs_valid ts : N.of_nat (length ts) <= k_invalid_track_index ->
  (exists k, check_outputs (N.of_nat (length ts)) ts 0 = Some k /\ check_contiguous (N.to_nat k) 0 ts = true) <->
  Permutation (outputs ts) (map N.of_nat (seq 0 (length (outputs ts)))).
Proof.
  intros Hn. pose proof (outputs_length ts) as Hl. split.
  - intros (k & A & B). apply check_outputs_spec in A. destruct A as (A1 & A2 & ->). rewrite check_contiguous_spec in B.
    symmetry. apply NoDup_Permutation_bis.
    + apply FinFun.Injective_map_NoDup; [intros x y; lia | apply seq_NoDup].
    + rewrite map_length, seq_length. lia.
    + intros o Ho. apply in_map_iff in Ho. destruct Ho as (i & <- & Hi). apply in_seq in Hi.
      specialize (B i ltac:(lia)). apply in_map_iff in B. destruct B as (t & B1 & B2). apply in_outputs; [lia |].
      exists t. split; auto; lia.
  - intros P. exists (N.of_nat (length (outputs ts))). split.
    + apply check_outputs_spec. split; [| split; [| lia]].
      * rewrite Forall_forall. intros o Ho. apply (Permutation_in _ P) in Ho. apply in_map_iff in Ho.
        destruct Ho as (i & <- & Hi). apply in_seq in Hi. lia.
      * apply (Permutation_NoDup (Permutation_sym P)). apply FinFun.Injective_map_NoDup; [intros x y; lia | apply seq_NoDup].
    + rewrite Nnat.Nat2N.id. apply check_contiguous_spec. intros i Hi.
      assert (Hin : In (N.of_nat i) (outputs ts)).
      { apply (Permutation_in _ (Permutation_sym P)). apply in_map. apply in_seq. lia. }
      apply in_outputs in Hin; [| lia]. destruct Hin as (t & A & B). apply in_map_iff. exists t. split; auto; lia.
Qed.

Lemma track_array_is_valid_spec ts : N.of_nat (length ts) <= k_invalid_track_index ->
  track_array_is_valid ts = true <->
  (forall t0, hd_error ts = Some t0 ->
    Forall (fun t => track_type t = track_type t0 /\ num_samples t = num_samples t0 /\ feq (sample_rate t) (sample_rate t0) = true /\
                     track_ok t /\
                     (transform t = true -> parent_index t = k_invalid_track_index \/ parent_index t < N.of_nat (length ts))) ts) /\
  Permutation (outputs ts) (map N.of_nat (seq 0 (length (outputs ts)))).
Proof.
  intros Hn. unfold track_array_is_valid. rewrite Bool.andb_true_iff, <- outputs_valid by auto.
  assert (A : (match check_outputs (N.of_nat (length ts)) ts 0 with Some k => check_contiguous (N.to_nat k) 0 ts | None => false end = true)
              <-> exists k, check_outputs (N.of_nat (length ts)) ts 0 = Some k /\ check_contiguous (N.to_nat k) 0 ts = true).
  { destruct (check_outputs (N.of_nat (length ts)) ts 0) as [k |]; split; eauto.
    - intros (k' & [= <-] & H). auto.
    - discriminate.
    - intros (k' & H & _). discriminate. }
  rewrite A. destruct ts as [| t0 ts]; [simpl; split; [intros [_ H]; split; auto; discriminate | intros [_ H]; auto] |].
  rewrite check_tracks_spec. split; intros [H1 H2]; split; auto.
  intros t [= <-]. auto.
Qed.

(** the mapping *)
Lemma num_output_tracks_spec ts : N.of_nat (length ts) < 2 ^ 32 -> num_output_tracks ts = N.of_nat (length (outputs ts)).
Proof.
  unfold num_output_tracks. intros H.
  assert (G : forall l acc, N.of_nat (length l) <= acc -> acc < 2 ^ 32 ->
    fold_left (fun acc t => if output_index t =? k_invalid_track_index then subw 32 acc 1 else acc) l acc
    = acc - (N.of_nat (length l) - N.of_nat (length (outputs l)))).
  { induction l as [| t l IH]; intros acc Ha Hb; cbn [fold_left].
    - simpl. lia.
    - rewrite outputs_cons. cbn [length] in *. pose proof (outputs_length l).
      destruct (output_index t =? k_invalid_track_index).
      + assert (E : subw 32 acc 1 = acc - 1).
        { unfold subw. change (2 ^ 32) with 4294967296 in *. replace (acc + (4294967296 - 1)) with (acc - 1 + 1 * 4294967296) by lia.
          rewrite N.mod_add by lia. apply N.mod_small. lia. }
        rewrite E, IH by lia. lia.
      + rewrite IH by lia. cbn [length]. lia. }
  rewrite G by lia. pose proof (outputs_length ts). lia.
Qed.

Lemma upd_length {A} (l : list A) n x : length (upd l n x) = length l.
Proof. revert n. induction l; destruct n; simpl; auto. Qed.
Lemma nth_error_upd {A} (l : list A) n x m : nth_error (upd l n x) m = if Nat.eqb m n then (if (n <? length l)%nat then Some x else None) else nth_error l m.
Proof.
  revert n m. induction l as [| a l IH]; intros [| n] [| m]; simpl; auto.
  - destruct (m =? n)%nat; reflexivity.
  - rewrite IH. reflexivity.
Qed.

Lemma fill_mapping_spec : forall ts i0 m, (forall o, In o (outputs ts) -> o < N.of_nat (length m)) -> NoDup (outputs ts) ->
  exists m', fill_mapping ts i0 m = Ok m' /\ length m' = length m /\
    forall o, nth_error m' o =
      if existsb (N.eqb (N.of_nat o)) (outputs ts)
      then match find (fun i => match nth_error ts i with Some t => output_index t =? N.of_nat o | None => false end) (seq 0 (length ts)) with
           | Some i => Some (Some (i0 + N.of_nat i)) | None => None end
      else nth_error m o.
Proof.
  induction ts as [| t ts IH]; intros i0 m Hb Hd; cbn [fill_mapping].
  { exists m. repeat split; auto. }
  rewrite outputs_cons in *. destruct (N.eqb_spec (output_index t) k_invalid_track_index) as [E | E]; cbn [negb].
  - destruct (IH (i0 + 1) m Hb Hd) as (m' & A & B & C). exists m'. repeat split; auto. intros o. rewrite C.
    destruct (existsb (N.eqb (N.of_nat o)) (outputs ts)) eqn:X; auto.
    assert (Ho : N.of_nat o <> k_invalid_track_index).
    { intros Q. apply existsb_exists in X. destruct X as (y & X1 & X2). apply N.eqb_eq in X2. subst y.
      unfold outputs in X1. apply filter_In in X1. destruct X1 as [_ X1]. rewrite Q in X1. discriminate. }
    cbn [length seq find nth_error]. destruct (N.eqb_spec (output_index t) (N.of_nat o)); [congruence |].
    rewrite <- seq_shift. clear - C.
    assert (F : forall l, find (fun i => match nth_error (t :: ts) i with Some t => output_index t =? N.of_nat o | None => false end) (map S l)
                = option_map S (find (fun i => match nth_error ts i with Some t => output_index t =? N.of_nat o | None => false end) l)).
    { induction l as [| a l IHl]; simpl; auto. destruct (match nth_error ts a with Some t => output_index t =? N.of_nat o | None => false end); auto. }
    rewrite F. destruct (find _ (seq 0 (length ts))); simpl; auto. do 2 f_equal. lia.
  - apply NoDup_cons_iff in Hd. destruct Hd as [Hd1 Hd2].
    assert (Hlt : output_index t < N.of_nat (length m)) by (apply Hb; left; auto).
    destruct (N.ltb_spec (output_index t) (N.of_nat (length m))); [| lia].
    destruct (IH (i0 + 1) (upd m (N.to_nat (output_index t)) (Some i0))) as (m' & A & B & C); auto.
    { intros o Ho. rewrite upd_length. apply Hb. right; auto. }
    exists m'. rewrite upd_length in B. repeat split; auto. intros o. rewrite C. cbn [existsb].
    destruct (N.eqb_spec (N.of_nat o) (output_index t)) as [Q | Q]; cbn [orb].
    + assert (X : existsb (N.eqb (N.of_nat o)) (outputs ts) = false).
      { destruct (existsb _ (outputs ts)) eqn:X; auto. apply existsb_exists in X. destruct X as (y & X1 & X2). apply N.eqb_eq in X2. subst y. congruence. }
      rewrite X. cbn [length seq find nth_error]. rewrite <- Q, N.eqb_refl. rewrite nth_error_upd. rewrite Nnat.Nat2N.id, Nat.eqb_refl.
      destruct (Nat.ltb_spec o (length m)); [| lia]. do 2 f_equal. lia.
    + destruct (existsb (N.eqb (N.of_nat o)) (outputs ts)) eqn:X.
      * cbn [length seq find nth_error]. destruct (N.eqb_spec (output_index t) (N.of_nat o)); [congruence |].
        rewrite <- seq_shift.
        assert (F : forall l, find (fun i => match nth_error (t :: ts) i with Some t => output_index t =? N.of_nat o | None => false end) (map S l)
                = option_map S (find (fun i => match nth_error ts i with Some t => output_index t =? N.of_nat o | None => false end) l)).
        { induction l as [| a l IHl]; simpl; auto. destruct (match nth_error ts a with Some t => output_index t =? N.of_nat o | None => false end); auto. }
        rewrite F. destruct (find _ (seq 0 (length ts))); simpl; auto. do 2 f_equal. lia.
      * rewrite nth_error_upd. destruct (Nat.eqb_spec o (N.to_nat (output_index t))); [lia | reflexivity].
Qed.

Lemma create_mapping_spec ts : N.of_nat (length ts) <= k_invalid_track_index ->
  Permutation (outputs ts) (map N.of_nat (seq 0 (length (outputs ts)))) ->
  exists m, create_output_track_mapping ts = Ok (map Some m) /\ length m = length (outputs ts) /\
    forall i t, nth_error ts i = Some t -> output_index t <> k_invalid_track_index ->
      nth_error m (N.to_nat (output_index t)) = Some (N.of_nat i) .
Proof.
  intros Hn P. assert (Hn' : N.of_nat (length ts) < 2 ^ 32) by (unfold k_invalid_track_index in Hn; change (2 ^ 32) with 4294967296; lia).
  unfold create_output_track_mapping. rewrite num_output_tracks_spec by auto. rewrite Nnat.Nat2N.id.
  set (k := length (outputs ts)) in *.
  destruct (fill_mapping_spec ts 0 (repeat None k)) as (m & A & B & C).
  { intros o Ho. rewrite repeat_length. apply (Permutation_in _ P) in Ho. apply in_map_iff in Ho.
    destruct Ho as (i & <- & Hi). apply in_seq in Hi. lia. }
  { apply (Permutation_NoDup (Permutation_sym P)). apply FinFun.Injective_map_NoDup; [intros x y; lia | apply seq_NoDup]. }
  rewrite repeat_length in B.
  assert (Hfind : forall o, (o < k)%nat -> exists i t, nth_error m o = Some (Some (N.of_nat i)) /\ nth_error ts i = Some t /\ output_index t = N.of_nat o).
  { intros o Ho. rewrite C.
    assert (Hin : In (N.of_nat o) (outputs ts)).
    { apply (Permutation_in _ (Permutation_sym P)). apply in_map. apply in_seq. lia. }
    assert (X : existsb (N.eqb (N.of_nat o)) (outputs ts) = true) by (apply existsb_exists; exists (N.of_nat o); split; auto; apply N.eqb_refl).
    rewrite X. destruct (find _ (seq 0 (length ts))) as [i |] eqn:F.
    - apply find_some in F. destruct F as [_ F]. destruct (nth_error ts i) as [t |] eqn:T; [| discriminate].
      apply N.eqb_eq in F. exists i, t. repeat split; auto.
    - exfalso. pose proof (outputs_length ts). apply in_outputs in Hin; [| lia]. destruct Hin as (t & T1 & T2). apply In_nth_error in T1. destruct T1 as (i & T1).
      assert (Hi : (i < length ts)%nat) by (apply nth_error_Some; congruence).
      pose proof (find_none _ _ F i ltac:(apply in_seq; lia)) as Z. cbv beta in Z. rewrite T1, T2, N.eqb_refl in Z. discriminate. }
  exists (map (fun o => match o with Some i => i | None => 0 end) m). split; [| split].
  - rewrite A. f_equal. rewrite map_map. rewrite <- (map_id m) at 1. apply map_ext_in. intros a Ha.
    apply In_nth_error in Ha. destruct Ha as (o & Ho). assert (o < length m)%nat by (apply nth_error_Some; congruence).
    destruct (Hfind o) as (i & t & F & _); [lia |]. rewrite F in Ho. injection Ho as <-. reflexivity.
  - now rewrite map_length.
  - intros i t T O. set (o := N.to_nat (output_index t)).
    assert (Ho : (o < k)%nat).
    { assert (Hin : In (output_index t) (outputs ts)) by (apply in_outputs; auto; exists t; split; auto; eapply nth_error_In; eauto).
      apply (Permutation_in _ P) in Hin. apply in_map_iff in Hin. destruct Hin as (j & Hj & Hi). apply in_seq in Hi. unfold o. lia. }
    destruct (Hfind o Ho) as (j & t' & F & T' & O'). erewrite map_nth_error by exact F. apply (f_equal (fun x => Some (N.of_nat x))).
    (* the output index identifies the track *)
    assert (ND : NoDup (outputs ts)).
    { apply (Permutation_NoDup (Permutation_sym P)). apply FinFun.Injective_map_NoDup; [intros x y; lia | apply seq_NoDup]. }
    assert (U : forall l i j t t', NoDup (outputs l) -> nth_error l i = Some t -> nth_error l j = Some t' ->
       output_index t = output_index t' -> output_index t <> k_invalid_track_index -> i = j).
    { clear. induction l as [| a l IH]; intros i j t t' ND Hi Hj E O; [destruct i; discriminate |].
      rewrite outputs_cons in ND. destruct i as [| i], j as [| j]; auto; simpl in Hi, Hj.
      - injection Hi as ->. destruct (N.eqb_spec (output_index t) k_invalid_track_index); [contradiction |].
        apply NoDup_cons_iff in ND. destruct ND as [ND _]. exfalso. apply ND. apply in_outputs; auto. exists t'. split; auto. eapply nth_error_In; eauto.
      - injection Hj as ->. destruct (N.eqb_spec (output_index t') k_invalid_track_index); [congruence |].
        apply NoDup_cons_iff in ND. destruct ND as [ND _]. exfalso. apply ND. apply in_outputs; auto. exists t. split; auto. eapply nth_error_In; eauto.
      - f_equal. apply (IH i j t t'); auto. destruct (_ =? _); auto. apply NoDup_cons_iff in ND. tauto. }
    symmetry. apply (U ts i j t t'); auto. unfold o in O'. lia.
Qed.
