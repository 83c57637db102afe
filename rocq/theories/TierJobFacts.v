(** From sorted tiers to the segments of the bulk data. *)
From Coq Require Import Lia Permutation Sorted.
From Verif Require Import Word WordFacts SeekSpec StripOrderFacts DbTiers TierSpec DbTiersFacts DbStream DbBuild BuildSpec.
Local Open Scope N_scope.
Ltac Zify.zify_post_hook ::= idtac.

Lemma in_segment_iff t s f : in_segment t s f = true <-> fm_tracks f = t /\ fm_segment f = s.
Proof. unfold in_segment. rewrite andb_true_iff, !N.eqb_eq. tauto. Qed.

Lemma take_segment_ok t s : forall l, StronglySorted key_lt (map key l) -> Forall (fun f => ~ key_lt (key f) (t, s, 0)) l -> take_segment t s l = filter (in_segment t s) l.
Proof.
  induction l as [|f l IH]; intros SS F; [reflexivity|]. cbn [take_segment filter]. cbn [map] in SS. inversion SS as [|? ? SS' FF]; subst. inversion F as [|? ? F1 F2]; subst.
  destruct (in_segment t s f) eqn:E; [rewrite IH; auto|].
  (* past the segment: nothing more *)
  symmetry. clear IH. rewrite Forall_forall in FF.
  assert (Q : forall x, In x l -> in_segment t s x = false).
  { intros x I. specialize (FF _ (in_map key _ _ I)). destruct (in_segment t s x) eqn:EX; auto. exfalso. apply in_segment_iff in EX. destruct EX as (X1 & X2).
    assert (NE : ~ (fm_tracks f = t /\ fm_segment f = s)) by (rewrite <- in_segment_iff; congruence).
    unfold key_lt, key in *. cbn [fst snd] in *. lia. }
  clear - Q. induction l as [|x l IH]; [reflexivity|]. cbn [filter]. rewrite (Q x (or_introl eq_refl)). apply IH. intros y Y. apply Q. right. exact Y.
Qed.
Lemma find_segment_ok t s : forall l, StronglySorted key_lt (map key l) -> find_segment_frames t s l = filter (in_segment t s) l.
Proof.
  induction l as [|f l IH]; intros SS; [reflexivity|]. cbn [find_segment_frames filter]. cbn [map] in SS. inversion SS as [|? ? SS' FF]; subst.
  destruct (in_segment t s f) eqn:E; [|auto]. change (take_segment t s (f :: l)) with (if in_segment t s f then f :: take_segment t s l else []). rewrite E. f_equal.
  apply take_segment_ok; auto. apply in_segment_iff in E. destruct E as (E1 & E2). rewrite Forall_forall in FF. apply Forall_forall. intros x I. specialize (FF _ (in_map key _ _ I)).
  unfold key_lt, key in *. cbn [fst snd] in *. lia.
Qed.
Lemma segment_frames_increasing t s : forall l, StronglySorted key_lt (map key l) -> StronglySorted N.lt (map fm_segment_frame (filter (in_segment t s) l)).
Proof.
  induction l as [|f l IH]; intros SS; [constructor|]. cbn [map] in SS. inversion SS as [|? ? SS' FF]; subst. cbn [filter]. destruct (in_segment t s f) eqn:E; auto.
  cbn [map]. constructor; auto. apply Forall_forall. intros x I. apply in_map_iff in I. destruct I as (g & <- & I). apply filter_In in I. destruct I as (I & E').
  rewrite Forall_forall in FF. specialize (FF _ (in_map key _ _ I)). apply in_segment_iff in E, E'. unfold key_lt, key in FF. cbn [fst snd] in FF. lia.
Qed.

Lemma seq_sorted a n : StronglySorted N.lt (map N.of_nat (seq a n)).
Proof.
  revert a. induction n as [|n IH]; intros a; cbn [seq map]; constructor; auto. apply Forall_forall. intros x I. apply in_map_iff in I. destruct I as (y & <- & I). apply in_seq in I. lia.
Qed.
Lemma filter_sorted {A} (R : A -> A -> Prop) f l : StronglySorted R l -> StronglySorted R (filter f l).
Proof.
  induction 1 as [|x l S IH F]; cbn [filter]; [constructor|]. destruct (f x); auto. constructor; auto. apply Forall_forall. intros y I. apply filter_In in I. rewrite Forall_forall in F. apply F, I.
Qed.
Lemma sorted_same (a b : list N) : StronglySorted N.lt a -> StronglySorted N.lt b -> (forall x, In x a <-> In x b) -> a = b.
Proof.
  revert b. induction a as [|x a IH]; intros b SA SB H.
  - destruct b as [|y b]; auto. exfalso. apply (H y). left. auto.
  - destruct b as [|y b]; [exfalso; apply (H x); left; auto|]. inversion SA as [|? ? SA' FA]; subst. inversion SB as [|? ? SB' FB]; subst. rewrite Forall_forall in FA, FB.
    assert (E : x = y).
    { destruct (proj1 (H x) (or_introl eq_refl)) as [E|I]; auto. destruct (proj2 (H y) (or_introl eq_refl)) as [E|J]; auto. specialize (FA y J). specialize (FB x I). lia. }
    subst y. f_equal. apply IH; auto. intros z. split; intros I.
    + destruct (proj1 (H z) (or_intror I)) as [E|J]; auto. subst z. specialize (FA x I). lia.
    + destruct (proj2 (H z) (or_intror I)) as [E|J]; auto. subst z. specialize (FB x I). lia.
Qed.
(** the stored key frames of a bit set are the ones it was built from, in order *)
Lemma stored_frames_are w (l : list N) : StronglySorted N.lt l -> Forall (fun f => f < 32) l -> (forall f, f < 32 -> (present w f = true <-> In f l)) -> stored_frames w = l.
Proof.
  intros SL FL H. apply sorted_same; auto.
  - unfold stored_frames. apply filter_sorted, seq_sorted.
  - intros x. unfold stored_frames. rewrite filter_In. rewrite Forall_forall in FL. split.
    + intros (I & P). apply in_map_iff in I. destruct I as (y & <- & I). apply in_seq in I. apply H; auto. lia.
    + intros I. split; [|apply H; auto]. apply in_map_iff. exists (N.to_nat x). split; [lia|]. apply in_seq. specialize (FL x I). lia.
Qed.

(* ---------- the jobs ---------- *)
Lemma addw_id x y : x + y < 2 ^ 32 -> addw 32 x y = x + y.
Proof. apply addw_small. Qed.
Lemma segment_jobs_nth tier hash t cho n : forall s sho i, sho + 16 * N.of_nat n < 2 ^ 32 -> (i < n)%nat ->
  nth_error (segment_jobs tier hash t cho n s sho) i =
  Some {| sj_hash := hash; sj_clip_header := cho; sj_segment_header := sho + 16 * N.of_nat i; sj_frames := find_segment_frames t (s + N.of_nat i) tier |}.
Proof.
  induction n as [|n IH]; intros s sho i B L; [lia|]. cbn [segment_jobs]. change (2 ^ 32) with 4294967296 in *. destruct i as [|i].
  - cbn [nth_error]. do 2 f_equal; [lia|]. f_equal. lia.
  - cbn [nth_error]. unfold sizeof_runtime_segment_header. rewrite addw_id by (change (2 ^ 32) with 4294967296; lia). rewrite IH; [|change (2 ^ 32) with 4294967296; lia|lia]. do 2 f_equal; [lia|]. f_equal. lia.
Qed.
Lemma segment_jobs_length tier hash t cho n : forall s sho, length (segment_jobs tier hash t cho n s sho) = n.
Proof. induction n as [|n IH]; intros; cbn [segment_jobs length]; auto. Qed.

Definition job_index (ns : list nat) (c s : nat) : nat := (list_sum (firstn c ns) + s)%nat.

Lemma clip_jobs_nth tier : forall clips t cho c s hash n, cho + runtime_size (map snd clips) < 2 ^ 32 ->
  nth_error clips c = Some (hash, n) -> (s < n)%nat ->
  exists j, nth_error (clip_jobs tier clips t cho) (job_index (map snd clips) c s) = Some j /\ sj_hash j = hash /\
    sj_clip_header j < 2 ^ 32 /\
    sj_segment_header j = cho + runtime_offset (map snd clips) c s /\ sj_frames j = find_segment_frames (t + N.of_nat c) (N.of_nat s) tier.
Proof.
  induction clips as [|(h0, n0) rest IH]; intros t cho c s hash n B K L; [destruct c; discriminate K|].
  cbn [clip_jobs map snd] in *. unfold runtime_size in B. cbn [map sumN] in B. fold (runtime_size (map snd rest)) in B. change (2 ^ 32) with 4294967296 in *.
  unfold sizeof_runtime_clip_header, sizeof_runtime_segment_header. rewrite (addw_id cho 8) by (change (2 ^ 32) with 4294967296; lia).
  rewrite mulw_small by (change (2 ^ 32) with 4294967296; lia). rewrite (addw_id (cho + 8)) by (change (2 ^ 32) with 4294967296; lia).
  destruct c as [|c].
  - cbn in K. injection K as -> ->. unfold job_index. cbn [firstn list_sum fold_right]. rewrite Nat.add_0_l. rewrite nth_error_app1 by (rewrite segment_jobs_length; auto).
    rewrite segment_jobs_nth by (auto; change (2 ^ 32) with 4294967296; lia). eexists. split; [reflexivity|]. cbn [sj_hash sj_clip_header sj_segment_header sj_frames]. split; auto.
    split; [lia|]. split; [cbn [runtime_offset]; lia|]. f_equal; lia.
  - cbn in K. destruct (IH (t + 1) (cho + 8 + N.of_nat n0 * 16) c s hash n) as (j & J1 & J2 & J3 & J4 & J5); auto.
    + lia.
    + exists j. split.
      * rewrite nth_error_app2; rewrite segment_jobs_length; unfold job_index in *; cbn [firstn list_sum fold_right] in *; [|lia]. rewrite <- J1. f_equal. fold (list_sum (firstn c (map snd rest))). lia.
      * split; auto. split; auto. split; [rewrite J4; cbn [runtime_offset]; lia|]. rewrite J5. f_equal. lia.
Qed.
Lemma clip_jobs_length tier : forall clips t cho, length (clip_jobs tier clips t cho) = list_sum (map snd clips).
Proof. induction clips as [|(h, n) r IH]; intros t cho; cbn [clip_jobs map snd list_sum fold_right]; [reflexivity|]. rewrite app_length, segment_jobs_length, IH. reflexivity. Qed.
(** every job is the one of some segment *)
Lemma index_split (ns : list nat) : forall i, (i < list_sum ns)%nat -> exists c s n, nth_error ns c = Some n /\ (s < n)%nat /\ i = job_index ns c s.
Proof.
  induction ns as [|n ns IH]; intros i L; cbn [list_sum fold_right] in L; [lia|]. fold (list_sum ns) in L. destruct (Nat.lt_ge_cases i n) as [Q|Q].
  - exists 0%nat, i, n. split; auto.
  - destruct (IH (i - n)%nat) as (c & s & m & K & S1 & E); [lia|]. exists (S c), s, m. split; auto. split; auto. unfold job_index in *. cbn [firstn list_sum fold_right]. fold (list_sum (firstn c ns)). lia.
Qed.
(** segments have different headers *)
Lemma runtime_offset_inj (ns : list nat) : forall c s c' s' n n', nth_error ns c = Some n -> nth_error ns c' = Some n' -> (s < n)%nat -> (s' < n')%nat ->
  runtime_offset ns c s = runtime_offset ns c' s' -> c = c' /\ s = s'.
Proof.
  induction ns as [|m ns IH]; intros [|c] s [|c'] s' n n' K K' L L' E; try discriminate K; try discriminate K'; cbn [nth_error runtime_offset] in *.
  - split; auto. lia.
  - exfalso. injection K as ->. assert (8 <= runtime_offset ns c' s') by (destruct c', ns; cbn [runtime_offset]; lia). lia.
  - exfalso. injection K' as ->. assert (8 <= runtime_offset ns c s) by (destruct c, ns; cbn [runtime_offset]; lia). lia.
  - destruct (IH c s c' s' n n' K K' L L') as (A & B); [lia|]. split; congruence.
Qed.
Lemma runtime_offset_lt (ns : list nat) : forall c s n, nth_error ns c = Some n -> (s < n)%nat -> runtime_offset ns c s + 16 <= runtime_size ns.
Proof.
  unfold runtime_size. induction ns as [|m ns IH]; intros [|c] s n K L; try discriminate K; cbn [nth_error runtime_offset map sumN] in *.
  - injection K as ->. lia.
  - specialize (IH c s n K L). lia.
Qed.
