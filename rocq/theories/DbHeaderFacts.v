(** Proofs about the first pass of write_database_bulk_data: the chunk headers. *)
From Coq Require Import Lia.
From Verif Require Import Word WordFacts MemoryUtils SeekSpec DbTiers DbStream DbBuild BuildSpec ByteFacts DbBuildFacts.
Local Open Scope N_scope.
Ltac Zify.zify_post_hook ::= idtac.

Definition seg_words (m : list N) (off : N) (i : nat) (j : seg_job) (r : N) : Prop :=
  exists w, build_sample_indices (sj_frames j) = Ok w /\
    word_at m (off + 12 + 20 * N.of_nat i) (sj_hash j) /\ word_at m (off + 12 + 20 * N.of_nat i + 4) w /\
    word_at m (off + 12 + 20 * N.of_nat i + 8) r /\ word_at m (off + 12 + 20 * N.of_nat i + 12) (sj_clip_header j) /\
    word_at m (off + 12 + 20 * N.of_nat i + 16) (sj_segment_header j).
Definition group_in (m : list N) (off : N) (k : nat) (g : list seg_job) (r : nat -> N) : Prop :=
  word_at m off (N.of_nat k) /\ word_at m (off + 8) (N.of_nat (length g)) /\
  forall i j, nth_error g i = Some j -> seg_words m off i j (r i).

Lemma word_same m m' off v lo hi : bytes_ok m -> same_but lo hi m m' -> (8 * (off + 4) <= lo \/ hi <= 8 * off) -> word_at m off v -> word_at m' off v.
Proof. intros B S D W. unfold word_at in *. rewrite <- W. apply (load_le_same m m' off 4 lo hi); auto. Qed.
Lemma seg_words_same m m' off i j r lo hi : bytes_ok m -> same_but lo hi m m' ->
  (8 * (off + 12 + 20 * N.of_nat i + 20) <= lo \/ hi <= 8 * (off + 12 + 20 * N.of_nat i)) -> seg_words m off i j r -> seg_words m' off i j r.
Proof.
  intros B S D (w & E & W1 & W2 & W3 & W4 & W5). exists w. split; auto.
  split; [apply (word_same m m' _ _ lo hi B S); auto; lia|]. split; [apply (word_same m m' _ _ lo hi B S); auto; lia|].
  split; [apply (word_same m m' _ _ lo hi B S); auto; lia|]. split; [apply (word_same m m' _ _ lo hi B S); auto; lia|].
  apply (word_same m m' _ _ lo hi B S); auto; lia.
Qed.
Lemma group_same m m' off k g r lo hi : bytes_ok m -> same_but lo hi m m' ->
  (8 * (off + 12 + 20 * N.of_nat (length g)) <= lo \/ hi <= 8 * off) -> group_in m off k g r -> group_in m' off k g r.
Proof.
  intros B S D (W1 & W2 & W3). split; [apply (word_same m m' _ _ lo hi B S); auto; lia|].
  split; [apply (word_same m m' _ _ lo hi B S); auto; lia|]. intros i j K. assert (L : (i < length g)%nat) by (apply nth_error_Some; congruence).
  apply (seg_words_same m m' _ _ _ _ lo hi B S); auto. lia.
Qed.
Lemma group_ext m off k g r r' : (forall i, (i < length g)%nat -> r i = r' i) -> group_in m off k g r -> group_in m off k g r'.
Proof.
  intros E (W1 & W2 & W3). split; auto. split; auto. intros i j K. assert (L : (i < length g)%nat) by (apply nth_error_Some; congruence).
  rewrite <- E by auto. auto.
Qed.

Lemma start_chunk_ok m off k : bytes_ok m -> off + 12 <= blen m -> N.of_nat k < 2 ^ 32 ->
  exists m', start_chunk m off (N.of_nat k) = Ok m' /\ same_but (8 * off) (8 * (off + 12)) m m' /\ forall r, group_in m' off k [] r.
Proof.
  intros B L K. unfold start_chunk.
  destruct (write32_ok m off (N.of_nat k) B) as (m1 & E1 & S1 & R1); [lia | auto |]. rewrite E1. cbn [bindo].
  pose proof (same_but_blen _ _ _ _ S1) as L1. pose proof (same_but_ok _ _ _ _ S1) as B1.
  destruct (write32_ok m1 (off + 4) 0 B1) as (m2 & E2 & S2 & R2); [lia | reflexivity |]. rewrite E2. cbn [bindo].
  pose proof (same_but_blen _ _ _ _ S2) as L2. pose proof (same_but_ok _ _ _ _ S2) as B2.
  destruct (write32_ok m2 (off + 8) 0 B2) as (m3 & E3 & S3 & R3); [lia | reflexivity |].
  exists m3. split; auto. split.
  - eapply same_but_trans; [eapply same_but_weaken; [exact S1 | lia | lia]|].
    eapply same_but_trans; [eapply same_but_weaken; [exact S2 | lia | lia]|]. eapply same_but_weaken; [exact S3 | lia | lia].
  - intros r. split; [|split; [exact R3 | intros [|i] j H; discriminate H]].
    apply (word_same m2 m3 _ _ _ _ B2 S3); [lia|]. apply (word_same m1 m2 _ _ _ _ B1 S2); [lia|]. exact R1.
Qed.

Lemma add_segment_ok m off k g r j : bytes_ok m -> group_in m off k g r -> frames_ok (sj_frames j) ->
  sj_hash j < 2 ^ 32 -> sj_clip_header j < 2 ^ 32 -> sj_segment_header j < 2 ^ 32 -> r (length g) < 2 ^ 32 ->
  off + 12 + 20 * N.of_nat (length g) + 20 <= blen m -> N.of_nat (length g) + 1 < 2 ^ 32 ->
  exists m', add_segment m off j (r (length g)) = Ok m' /\ same_but (8 * off) (8 * (off + 12 + 20 * N.of_nat (length g) + 20)) m m' /\
    group_in m' off k (g ++ [j]) r.
Proof.
  intros B (W1 & W2 & W3) (FL & bits & FB & F) H1 H2 H3 HR L N32. unfold add_segment.
  destruct (sample_indices_ok (sj_frames j)) as (w & E & WL & _). { eapply Forall_impl; [|exact F]. intros f (_ & X & _). exact X. }
  rewrite E. cbn [bindo]. replace (read32 m (off + 8)) with (Ok (N.of_nat (length g)) : outcome N) by (symmetry; exact W2). cbn [bindo]. unfold sizeof_chunk_header, sizeof_chunk_segment_header.
  set (n := N.of_nat (length g)) in *. replace (off + 12 + n * 20) with (off + 12 + 20 * n) by lia. set (h := off + 12 + 20 * n) in *.
  destruct (write32_ok m h (sj_hash j) B) as (m1 & E1 & S1 & R1); [lia | auto |]. rewrite E1. cbn [bindo].
  pose proof (same_but_blen _ _ _ _ S1) as L1. pose proof (same_but_ok _ _ _ _ S1) as B1.
  destruct (write32_ok m1 (h + 4) w B1) as (m2 & E2 & S2 & R2); [lia | auto |]. rewrite E2. cbn [bindo].
  pose proof (same_but_blen _ _ _ _ S2) as L2. pose proof (same_but_ok _ _ _ _ S2) as B2.
  destruct (write32_ok m2 (h + 8) (r (length g)) B2) as (m3 & E3 & S3 & R3); [lia | auto |]. rewrite E3. cbn [bindo].
  pose proof (same_but_blen _ _ _ _ S3) as L3. pose proof (same_but_ok _ _ _ _ S3) as B3.
  destruct (write32_ok m3 (h + 12) (sj_clip_header j) B3) as (m4 & E4 & S4 & R4); [lia | auto |]. rewrite E4. cbn [bindo].
  pose proof (same_but_blen _ _ _ _ S4) as L4. pose proof (same_but_ok _ _ _ _ S4) as B4.
  destruct (write32_ok m4 (h + 16) (sj_segment_header j) B4) as (m5 & E5 & S5 & R5); [lia | auto |]. rewrite E5. cbn [bindo].
  pose proof (same_but_blen _ _ _ _ S5) as L5. pose proof (same_but_ok _ _ _ _ S5) as B5.
  rewrite addw_small by exact N32.
  destruct (write32_ok m5 (off + 8) (n + 1) B5) as (m6 & E6 & S6 & R6); [unfold h in *; lia | auto |]. rewrite E6.
  assert (SA : same_but (8 * h) (8 * (h + 20)) m m5).
  { eapply same_but_trans; [eapply same_but_weaken; [exact S1 | lia | lia]|]. eapply same_but_trans; [eapply same_but_weaken; [exact S2 | lia | lia]|].
    eapply same_but_trans; [eapply same_but_weaken; [exact S3 | lia | lia]|]. eapply same_but_trans; [eapply same_but_weaken; [exact S4 | lia | lia]|].
    eapply same_but_weaken; [exact S5 | lia | lia]. }
  exists m6. split; auto. split.
  - eapply same_but_trans; [eapply same_but_weaken; [exact SA | unfold h; lia | lia] | eapply same_but_weaken; [exact S6 | lia | unfold h; lia]].
  - split; [|split].
    + apply (word_same m5 m6 _ _ _ _ B5 S6); [lia|]. apply (word_same m m5 _ _ _ _ B SA); [unfold h; lia | exact W1].
    + rewrite app_length. cbn [length]. replace (N.of_nat (length g + 1)) with (n + 1) by (unfold n; lia). exact R6.
    + intros i j' K. destruct (Nat.lt_ge_cases i (length g)) as [LI|LI].
      * rewrite nth_error_app1 in K by auto. apply (seg_words_same m5 m6 _ _ _ _ _ _ B5 S6); [lia|].
        apply (seg_words_same m m5 _ _ _ _ _ _ B SA); [unfold h, n; lia|]. auto.
      * rewrite nth_error_app2 in K by auto. destruct (i - length g)%nat as [|x] eqn:X; [|destruct x; discriminate K]. cbn in K. injection K as <-.
        replace i with (length g) by lia. apply (seg_words_same m5 m6 _ _ _ _ _ _ B5 S6); [lia|]. exists w. split; auto. fold n. fold h.
        split. { apply (word_same m4 m5 _ _ _ _ B4 S5); [lia|]. apply (word_same m3 m4 _ _ _ _ B3 S4); [lia|]. apply (word_same m2 m3 _ _ _ _ B2 S3); [lia|].
                 apply (word_same m1 m2 _ _ _ _ B1 S2); [lia|]. exact R1. }
        split. { apply (word_same m4 m5 _ _ _ _ B4 S5); [lia|]. apply (word_same m3 m4 _ _ _ _ B3 S4); [lia|]. apply (word_same m2 m3 _ _ _ _ B2 S3); [lia|]. exact R2. }
        split. { apply (word_same m4 m5 _ _ _ _ B4 S5); [lia|]. apply (word_same m3 m4 _ _ _ _ B3 S4); [lia|]. exact R3. }
        split. { apply (word_same m4 m5 _ _ _ _ B4 S5); [lia|]. exact R4. }
        exact R5.
Qed.

Lemma addw32 x y : x + y < 4294967296 -> addw 32 x y = x + y.
Proof. intros H. apply addw_small. change (2 ^ 32) with 4294967296. exact H. Qed.

(** the headers after the first pass: relative sample offsets *)
Record hinv (max : N) (m : list N) (done : list (list seg_job)) (cur : list seg_job) : Prop := {
  h_done : forall k g, nth_error done k = Some g -> group_in m (N.of_nat k * max) k g (rel g) /\ word_at m (N.of_nat k * max + 4) max;
  h_cur : group_in m (N.of_nat (length done) * max) (length done) cur (rel cur);
  h_ok : bytes_ok m }.

Lemma mul_lt_le k n (max : N) : (k < n)%nat -> N.of_nat k * max + max <= N.of_nat n * max.
Proof. intros L. replace (N.of_nat k * max + max) with ((N.of_nat k + 1) * max) by lia. apply N.mul_le_mono_r. lia. Qed.

Lemma dj_bound max j : job_ok max j -> dj j + 35 <= max /\ segment_data_size (sj_frames j) = dj j.
Proof. intros (_ & _ & _ & F & B). split; auto. apply segment_data_size_ok. exact F. Qed.

Lemma header_pass_ok max : max <= 2 ^ 31 -> forall jobs done cur m,
  Forall (job_ok max) jobs -> Forall (fun g => body g + 3 <= max) done -> body cur + 3 <= max ->
  hinv max m done cur -> cur ++ jobs <> [] ->
  fend max jobs (N.of_nat (length done) * max) (body cur) <= blen m -> fend max jobs (N.of_nat (length done) * max) (body cur) < 2 ^ 32 ->
  let G := done ++ pack max jobs cur in
  exists m', header_pass max jobs (Some m) (N.of_nat (length done) * max) (N.of_nat (length done) * max) (sumN (map dj cur)) (body cur) (N.of_nat (length done)) =
      Ok (Some m', fend max jobs (N.of_nat (length done) * max) (body cur)) /\
    bytes_ok m' /\ length m' = length m /\
    forall k g, nth_error G k = Some g -> group_in m' (N.of_nat k * max) k g (rel g) /\ word_at m' (N.of_nat k * max + 4) (chunk_size_of max G k).
Proof.
  intros MX. change (2 ^ 31) with 2147483648 in MX. induction jobs as [|j r IH]; intros done cur m FJ FD BC HI NE FE F32 G.
  - cbn [header_pass fend pack] in *. rewrite app_nil_r in NE. unfold sizeof_chunk_header, simd_padding.
    assert (B12 : 20 <= body cur) by (destruct cur; [congruence|]; unfold body; cbn [map sumN]; lia).
    change (2 ^ 32) with 4294967296 in F32. destruct (N.eqb_spec (body cur) 12) as [X|_]; [lia|].
    rewrite addw_small by (change (2 ^ 32) with 4294967296; lia). rewrite addw_small by (change (2 ^ 32) with 4294967296; lia).
    destruct HI as [H1 H2 H3]. set (off := N.of_nat (length done) * max) in *.
    destruct (write32_ok m (off + 4) (body cur + 15) H3) as (m' & E & SM & R); [lia | change (2 ^ 32) with 4294967296; lia |].
    rewrite E. cbn [bindo]. exists m'. replace (off + (body cur + 15)) with (off + body cur + 15) by lia. split; auto. split; [apply (same_but_ok _ _ _ _ SM)|].
    split; [apply SM|]. intros k g K. unfold G in *. assert (KL : (k < length (done ++ [cur]))%nat) by (apply nth_error_Some; congruence).
    rewrite app_length in KL. cbn [length] in KL. unfold chunk_size_of. rewrite app_length. cbn [length].
    destruct (Nat.lt_ge_cases k (length done)) as [L|L].
    + rewrite nth_error_app1 in K by auto. destruct (H1 k g K) as (Q1 & Q2). assert (M := mul_lt_le k (length done) max L). fold off in M.
      rewrite Forall_forall in FD. pose proof (FD g (nth_error_In _ _ K)) as BG. rewrite body_split in BG.
      destruct (Nat.eqb_spec (S k) (length done + 1)); [lia|].
      split; [apply (group_same m m' _ _ _ _ _ _ H3 SM); auto; lia | apply (word_same m m' _ _ _ _ H3 SM); auto; lia].
    + replace k with (length done) in * by lia. rewrite nth_error_app2 in K by auto. rewrite Nat.sub_diag in K. cbn in K. injection K as <-.
      destruct (Nat.eqb_spec (S (length done)) (length done + 1)) as [_|X]; [|lia]. rewrite app_nth2 by auto. rewrite Nat.sub_diag. cbn [nth].
      fold off. split; [|exact R]. destruct H2 as (W1 & W2 & W3). split; [apply (word_same m m' _ _ _ _ H3 SM); auto; lia|].
      split; [apply (word_same m m' _ _ _ _ H3 SM); auto; lia|]. intros i j' K'. apply (seg_words_same m m' _ _ _ _ _ _ H3 SM); [lia | auto].
  - inversion FJ as [|? ? JO FJ']; subst. destruct (dj_bound max j JO) as (DB & DS). pose proof JO as (J1 & J2 & J3 & J4 & _).
    cbn [header_pass fend pack] in *. rewrite DS. unfold sizeof_chunk_header, simd_padding, sizeof_chunk_segment_header.
    change (2 ^ 32) with 4294967296 in *.
    assert (FJD : Forall (fun j => dj j + 35 <= max) r) by (eapply Forall_impl; [|exact FJ']; intros x X; apply (dj_bound max x X)).
    assert (NS : addw 32 (addw 32 (addw 32 (body cur) (dj j)) 15) 20 = body cur + dj j + 15 + 20) by (rewrite (addw32 (body cur) (dj j)) by lia; rewrite (addw32 _ 15) by lia; rewrite addw32 by lia; lia).
    rewrite NS. clear NS.
    replace (body cur + dj j + 15 + 20) with (body cur + dj j + 35) by lia. set (off := N.of_nat (length done) * max) in *.
    assert (OFFS : off + max = N.of_nat (length (done ++ [cur])) * max) by (rewrite app_length; cbn [length]; subst off; rewrite Nat2N.inj_add; lia).
    destruct HI as [H1 H2 H3]. rewrite Forall_forall in FD.
    destruct (N.leb_spec max (body cur + dj j + 35)) as [L|L].
    + pose proof (fend_ge max r (off + max) (32 + dj j) FJD ltac:(lia)) as FG.
      pose proof (body_split cur) as BS.
      assert (A1 : addw 32 12 (addw 32 (dj j) 20) = 32 + dj j) by (rewrite (addw32 (dj j) 20) by lia; rewrite addw32 by lia; lia).
      assert (A2 : addw 32 off max = off + max) by (rewrite addw_small; change (2 ^ 32) with 4294967296; lia). rewrite A1, A2. clear A1 A2.
      destruct (write32_ok m (off + 4) max H3) as (m1 & E1 & S1 & R1); [lia | change (2 ^ 32) with 4294967296; lia |]. rewrite E1. cbn [bindo].
      pose proof (same_but_blen _ _ _ _ S1) as L1. pose proof (same_but_ok _ _ _ _ S1) as B1.
      assert (KB : N.of_nat (length (done ++ [cur])) < 4294967296).
      { destruct (N.eq_dec max 0) as [Z|Z]; [lia|]. assert (N.of_nat (length (done ++ [cur])) * 1 <= N.of_nat (length (done ++ [cur])) * max) by (apply N.mul_le_mono_l; lia). lia. }
      assert (A3 : addw 32 (N.of_nat (length done)) 1 = N.of_nat (length (done ++ [cur]))).
      { rewrite app_length in *. cbn [length] in *. rewrite addw_small; change (2 ^ 32) with 4294967296; lia. }
      rewrite A3. clear A3.
      destruct (start_chunk_ok m1 (off + max) (length (done ++ [cur])) B1) as (m2 & E2 & S2 & R2); [lia | change (2 ^ 32) with 4294967296; lia |]. rewrite E2. cbn [bindo].
      pose proof (same_but_blen _ _ _ _ S2) as L2. pose proof (same_but_ok _ _ _ _ S2) as B2.
      destruct (add_segment_ok m2 (off + max) (length (done ++ [cur])) [] (fun _ => 0) j B2 (R2 _) J4 J1 J2 J3) as (m3 & E3 & S3 & R3);
        [reflexivity | cbn [length]; lia | reflexivity |]. rewrite E3. cbn [bindo]. cbn [length app] in R3, S3. change (20 * N.of_nat 0) with 0 in S3.
      pose proof (same_but_blen _ _ _ _ S3) as L3. pose proof (same_but_ok _ _ _ _ S3) as B3.
      specialize (IH (done ++ [cur]) [j] m3 FJ').
      rewrite <- OFFS in IH. rewrite body_one in IH.
      destruct IH as (m' & E' & B' & LE' & GI'); auto.
      * apply Forall_app. split; [apply Forall_forall; auto | constructor; auto].
      * lia.
      * constructor; auto.
        { intros k g K. assert (KL : (k < length (done ++ [cur]))%nat) by (apply nth_error_Some; congruence).
          rewrite app_length in KL. cbn [length] in KL. assert (W : group_in m1 (N.of_nat k * max) k g (rel g) /\ word_at m1 (N.of_nat k * max + 4) max /\ N.of_nat k * max + 12 + 20 * N.of_nat (length g) <= off + max).
          { destruct (Nat.lt_ge_cases k (length done)) as [LK|LK].
            - rewrite nth_error_app1 in K by auto. destruct (H1 k g K) as (Q1 & Q2). assert (M := mul_lt_le k (length done) max LK). fold off in M.
              pose proof (FD g (nth_error_In _ _ K)) as BG. rewrite body_split in BG.
              split; [apply (group_same m m1 _ _ _ _ _ _ H3 S1); auto; lia|]. split; [apply (word_same m m1 _ _ _ _ H3 S1); auto; lia | lia].
            - replace k with (length done) in * by lia. rewrite nth_error_app2 in K by auto. rewrite Nat.sub_diag in K. cbn in K. injection K as <-. fold off.
              split; [|split; [exact R1 | lia]]. destruct H2 as (W1 & W2 & W3). split; [apply (word_same m m1 _ _ _ _ H3 S1); auto; lia|].
              split; [apply (word_same m m1 _ _ _ _ H3 S1); auto; lia|]. intros i j' K'. apply (seg_words_same m m1 _ _ _ _ _ _ H3 S1); [lia | auto]. }
          destruct W as (Q1 & Q2 & Q3). pose proof (body_split cur) as BC'.
          assert (Q4 : N.of_nat k * max + 8 <= off + max) by lia.
          split.
          - apply (group_same m2 m3 _ _ _ _ _ _ B2 S3); [lia|]. apply (group_same m1 m2 _ _ _ _ _ _ B1 S2); [lia | exact Q1].
          - apply (word_same m2 m3 _ _ _ _ B2 S3); [lia|]. apply (word_same m1 m2 _ _ _ _ B1 S2); [lia | exact Q2]. }
        { rewrite <- OFFS. eapply group_ext; [|exact R3]. intros [|i] I; [reflexivity | cbn in I; lia]. }
      * discriminate.
      * rewrite L3, L2, L1. exact FE.
      * replace (sumN (map dj [j])) with (dj j) in E' by (cbn [map sumN]; lia).
        exists m'. split; [exact E'|]. split; auto.
        split; [rewrite LE'; destruct S1 as (X1 & _), S2 as (X2 & _), S3 as (X3 & _); congruence|].
        unfold G. replace (done ++ cur :: pack max r [j]) with ((done ++ [cur]) ++ pack max r [j]) by (rewrite <- app_assoc; reflexivity). exact GI'.
    + pose proof (fend_ge max r off (body cur + 20 + dj j) FJD ltac:(lia)) as FG.
      pose proof (body_split cur) as BS. pose proof (rel_full cur) as RF.
      destruct (add_segment_ok m off (length done) cur (rel cur) j H3 H2 J4 J1 J2 J3) as (m3 & E3 & S3 & R3);
        [rewrite RF; change (2 ^ 32) with 4294967296; lia | lia | change (2 ^ 32) with 4294967296; lia |].
      rewrite RF in E3. rewrite E3. cbn [bindo]. pose proof (same_but_blen _ _ _ _ S3) as L3. pose proof (same_but_ok _ _ _ _ S3) as B3.
      assert (A1 : addw 32 (body cur) (addw 32 (dj j) 20) = body cur + 20 + dj j) by (rewrite (addw32 (dj j) 20) by lia; rewrite addw32 by lia; lia).
      assert (A2 : addw 32 (sumN (map dj cur)) (dj j) = sumN (map dj cur) + dj j) by (rewrite addw_small; change (2 ^ 32) with 4294967296; lia).
      rewrite A1, A2. clear A1 A2.
      specialize (IH done (cur ++ [j]) m3 FJ'). rewrite body_app in IH. fold off in IH.
      destruct IH as (m' & E' & B' & LE' & GI'); auto.
      * apply Forall_forall. auto.
      * lia.
      * constructor; auto.
        { intros k g K. assert (LK : (k < length done)%nat) by (apply nth_error_Some; congruence). destruct (H1 k g K) as (Q1 & Q2).
          assert (M := mul_lt_le k (length done) max LK). fold off in M. pose proof (FD g (nth_error_In _ _ K)) as BG. rewrite body_split in BG.
          split; [apply (group_same m m3 _ _ _ _ _ _ H3 S3); auto; lia | apply (word_same m m3 _ _ _ _ H3 S3); auto; lia]. }
        { fold off. eapply group_ext; [|exact R3]. intros i I. rewrite app_length in I. cbn [length] in I. symmetry. apply rel_app. lia. }
      * intros H. apply app_eq_nil in H. destruct H as (H & _). apply app_eq_nil in H. destruct H; discriminate.
      * rewrite L3. exact FE.
      * rewrite map_app, ClipOrderFacts.sumN_app in E'. cbn [map sumN] in E'. replace (sumN (map dj cur) + (dj j + 0)) with (sumN (map dj cur) + dj j) in E' by lia.
        exists m'. split; [exact E'|]. split; auto.
        split; [rewrite LE'; apply S3|]. exact GI'.
Qed.
