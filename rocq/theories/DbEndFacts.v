(** Proofs: from the tiers to what decompression finds. *)
From Coq Require Import Lia Permutation Sorted.
From Verif Require Import Word WordFacts MemoryUtils SeekSpec StripFacts StripOrderFacts StripKeyFacts Strip DbTiers TierSpec DbTiersFacts DbStream DbStreamFacts StreamSpec DbBuild ClipRewrite BuildSpec ByteFacts DbBuildFacts DbHeaderFacts DbBuildTop TierJobFacts RewriteFacts.
Local Open Scope N_scope.
Ltac Zify.zify_post_hook ::= idtac.

Lemma increasing_length l n : StronglySorted N.lt l -> Forall (fun f => f < n) l -> N.of_nat (length l) <= n.
Proof.
  intros S F. assert (ND : NoDup l). { clear F. induction S as [|x l S IH F]; constructor; auto. intros I. rewrite Forall_forall in F. specialize (F x I). lia. }
  assert (L : (length l <= length (map N.of_nat (seq 0 (N.to_nat n))))%nat).
  { apply NoDup_incl_length; auto. intros x I. rewrite Forall_forall in F. apply in_map_iff. exists (N.to_nat x). split; [lia|]. apply in_seq. specialize (F x I). lia. }
  rewrite map_length, seq_length in L. lia.
Qed.

Lemma seg_metadata_parts sg : cs_sample_indices sg < 2 ^ 32 -> cs_samples_offset sg < 2 ^ 32 ->
  seg_metadata sg < 2 ^ 64 /\ seg_metadata sg mod 2 ^ 32 = cs_sample_indices sg /\ seg_metadata sg / 2 ^ 32 = cs_samples_offset sg.
Proof.
  intros A B. unfold seg_metadata. set (i := cs_sample_indices sg) in *. set (o := cs_samples_offset sg) in *. clearbody i o.
  assert (E : N.lor (shlw 64 o 32) i = o * 2 ^ 32 + i).
  { unfold shlw, wrapw. rewrite N.shiftl_mul_pow2. rewrite N.mod_small.
    - rewrite <- N.lxor_lor, N.add_nocarry_lxor; auto.
      all: apply N.bits_inj; intros k; rewrite N.land_spec, N.bits_0, <- N.shiftl_mul_pow2; destruct (N.lt_ge_cases k 32) as [L|L]; [rewrite N.shiftl_spec_low by auto; reflexivity | rewrite (testbit_high _ 32 A k L); apply andb_false_r].
    - change (2 ^ 64) with (4294967296 * 4294967296). change (2 ^ 32) with 4294967296 in *. apply N.mul_lt_mono_pos_r; lia. }
  rewrite E. change (2 ^ 64) with (4294967296 * 4294967296). change (2 ^ 32) with 4294967296 in *. split; [|split].
  - assert (o * 4294967296 <= 4294967295 * 4294967296) by (apply N.mul_le_mono_r; lia). lia.
  - symmetry. apply (N.mod_unique _ 4294967296 o i); lia.
  - symmetry. apply (N.div_unique _ 4294967296 o i); lia.
Qed.

Lemma mbit_skipn (m : list N) a i : mbit (skipn (N.to_nat a) m) i = mbit m (8 * a + i).
Proof.
  unfold mbit. assert (D : (8 * a + i) / 8 = a + i / 8) by (rewrite N.mul_comm, N.div_add_l by lia; reflexivity).
  assert (R : (8 * a + i) mod 8 = i mod 8) by (rewrite N.add_comm, N.mul_comm, N.mod_add by lia; reflexivity).
  rewrite D, R, nth_skipn. do 2 f_equal. lia.
Qed.

Lemma Forall2_nth {A B} (R : A -> B -> Prop) l l' i y : Forall2 R l l' -> nth_error l' i = Some y -> exists x, nth_error l i = Some x /\ R x y.
Proof. intros F. revert i. induction F as [|a b l l' H F IH]; intros [|i] K; try discriminate K; cbn in *; [injection K as ->; eauto | auto]. Qed.
Lemma Forall2_len {A B} (R : A -> B -> Prop) l l' : Forall2 R l l' -> length l = length l'.
Proof. induction 1; cbn; congruence. Qed.
Lemma flat_nth (chunks : list chunk) i sg : nth_error (flat_map ck_segs chunks) i = Some sg ->
  exists c ch k, nth_error chunks c = Some ch /\ nth_error (ck_segs ch) k = Some sg /\ i = (length (flat_map ck_segs (firstn c chunks)) + k)%nat.
Proof.
  revert i. induction chunks as [|ch chunks IH]; intros i K; [destruct i; discriminate K|]. cbn [flat_map] in K.
  destruct (Nat.lt_ge_cases i (length (ck_segs ch))) as [L|L].
  - rewrite nth_error_app1 in K by auto. exists 0%nat, ch, i. split; auto.
  - rewrite nth_error_app2 in K by auto. destruct (IH _ K) as (c & ch' & k & K1 & K2 & K3). exists (S c), ch', k. split; auto. split; auto. cbn [firstn flat_map]. rewrite app_length. lia.
Qed.

Section WithTiers.
Variables (sizes : list (list N)) (clips : list db_clip) (files : list clip_file) (max : N).
Hypothesis LEN : length clips = length sizes.
Hypothesis CL : forall i z c, nth_error sizes i = Some z -> nth_error clips i = Some c -> clip_ok z c.
Hypothesis LF : length files = length sizes.
Hypothesis FO : forall i z c f, nth_error sizes i = Some z -> nth_error clips i = Some c -> nth_error files i = Some f -> file_ok max z c f.
Let ns : list nat := map (fun f => length (cf_headers f)) files.
Hypothesis RT : runtime_size ns < 2 ^ 32.

Definition pairs : list (N * nat) := map (fun f => (cf_hash f, length (cf_headers f))) files.
Lemma pairs_ns : map snd pairs = ns.
Proof. unfold pairs. rewrite map_map. reflexivity. Qed.
Lemma file_sizes i f : nth_error files i = Some f -> exists z c, nth_error sizes i = Some z /\ nth_error clips i = Some c /\ file_ok max z c f /\ clip_ok z c /\ length z = length (cf_headers f).
Proof.
  intros K. assert (L : (i < length files)%nat) by (apply nth_error_Some; congruence).
  destruct (nth_error sizes i) as [z|] eqn:Z; [|apply nth_error_None in Z; lia]. destruct (nth_error clips i) as [c|] eqn:C; [|apply nth_error_None in C; lia].
  exists z, c. split; auto. split; auto. pose proof (FO _ _ _ _ Z C K) as F. split; auto. split; [eapply CL; eauto|]. destruct F as (_ & _ & F & _). auto.
Qed.

(** a frame of the tiers: from the key to the sizes *)
Lemma all_frames_in c s f : In (c, s, f) (all_frames sizes) -> exists z n, nth_error sizes (N.to_nat c) = Some z /\ nth_error z (N.to_nat s) = Some n /\ f < n.
Proof.
  intros I. unfold all_frames in I. apply in_flat_map in I. destruct I as (c' & I1 & I). apply in_seq in I1. unfold frames_of in I. apply in_flat_map in I. destruct I as (s' & I2 & I).
  apply in_seq in I2. apply in_map_iff in I. destruct I as (f' & E & I). apply upto_in in I. inversion E as [[E1 E2 E3]]. clear E. subst. rewrite !Nat2N.id.
  assert (L : (c' < length sizes)%nat) by lia. destruct (nth_error sizes c') as [z|] eqn:Z; [|apply nth_error_None in Z; lia]. rewrite (nth_error_nth _ _ [] Z) in *.
  assert (L2 : (s' < length z)%nat) by lia. destruct (nth_error z s') as [n|] eqn:NN; [|apply nth_error_None in NN; lia]. rewrite (nth_error_nth _ _ 0 NN) in *.
  exists z, n. auto.
Qed.
Lemma in_all_frames c s f z n : nth_error sizes c = Some z -> nth_error z s = Some n -> f < n -> In (N.of_nat c, N.of_nat s, f) (all_frames sizes).
Proof.
  intros Z NS FL. assert (CLL : (c < length sizes)%nat) by (apply nth_error_Some; congruence). assert (SL : (s < length z)%nat) by (apply nth_error_Some; congruence).
  unfold all_frames. apply in_flat_map. exists c. split; [apply in_seq; lia|]. rewrite (nth_error_nth _ _ [] Z). unfold frames_of.
  apply in_flat_map. exists s. split; [apply in_seq; lia|]. rewrite (nth_error_nth _ _ 0 NS). apply in_map. apply upto_in. exact FL.
Qed.

(** one tier *)
Variable tier : list frame_mapping.
Hypothesis TS : StronglySorted key_lt (map key tier).
Hypothesis TM : Forall (mapping_ok sizes clips) tier.
Hypothesis TK : forall x, In x tier -> In (key x) (all_frames sizes).

Lemma kept_increasing t s : StronglySorted N.lt (kept tier t s).
Proof. apply segment_frames_increasing. exact TS. Qed.
Lemma kept_in c s f : In f (kept tier c s) <-> In (c, s, f) (map key tier).
Proof.
  unfold kept. rewrite !in_map_iff. split.
  - intros (x & E & I). apply filter_In in I. destruct I as (I & S). apply in_segment_iff in S. destruct S as (S1 & S2). exists x. split; auto. unfold key. congruence.
  - intros (x & E & I). unfold key in E. inversion E as [[E1 E2 E3]]. clear E. exists x. split; auto. apply filter_In. split; auto. apply in_segment_iff. auto.
Qed.
(** the frames of a segment *)
Lemma segment_frames c s file h z n : nth_error files c = Some file -> nth_error (cf_headers file) s = Some h -> nth_error sizes c = Some z -> nth_error z s = Some n ->
  n <= 32 /\ segment_inside (cf_transforms file) (cf_bytes file) h n /\ (n * sh_pose_bits h + 7) / 8 + 35 <= max /\
  Forall (fun f => fm_bits f = sh_pose_bits h /\ fm_segment_frame f < n /\ fm_data f = Some (skipn (N.to_nat (animated_at (cf_transforms file) h)) (cf_bytes file)))
    (filter (in_segment (N.of_nat c) (N.of_nat s)) tier) /\
  N.of_nat (length (filter (in_segment (N.of_nat c) (N.of_nat s)) tier)) <= n.
Proof.
  intros KF KH KZ KN. assert (L : (c < length files)%nat) by (apply nth_error_Some; congruence).
  destruct (nth_error clips c) as [cl|] eqn:C; [|apply nth_error_None in C; lia].
  pose proof (FO _ _ _ _ KZ C KF) as (_ & _ & _ & _ & F5). destruct (F5 s h n KH KN) as (G1 & G2 & G3 & G4).
  pose proof (CL _ _ _ KZ C) as (_ & _ & _ & _ & Z5 & _). rewrite Forall_forall in Z5. pose proof (Z5 n (nth_error_In _ _ KN)) as N32.
  assert (FF : Forall (fun f => fm_bits f = sh_pose_bits h /\ fm_segment_frame f < n /\ fm_data f = Some (skipn (N.to_nat (animated_at (cf_transforms file) h)) (cf_bytes file)))
    (filter (in_segment (N.of_nat c) (N.of_nat s)) tier)).
  { apply Forall_forall. intros x I. apply filter_In in I. destruct I as (I & S). apply in_segment_iff in S. destruct S as (S1 & S2).
    rewrite Forall_forall in TM. destruct (TM x I) as (c0 & z0 & M1 & M2 & (d & M3 & M4) & M5 & _). rewrite S1, S2, !Nat2N.id in *.
    assert (c0 = cl) by congruence. subst c0. split; [congruence|]. split; [|congruence].
    pose proof (TK x I) as KI. unfold key in KI. rewrite S1, S2 in KI. destruct (all_frames_in _ _ _ KI) as (z' & n' & Q1 & Q2 & Q3). rewrite !Nat2N.id in *.
    assert (z' = z) by congruence. subst z'. assert (n' = n) by congruence. subst n'. exact Q3. }
  split; [lia|]. split; auto. split; auto. split; auto.
  rewrite <- (map_length fm_segment_frame). apply increasing_length; [apply segment_frames_increasing; exact TS|].
  apply Forall_forall. intros f I. apply in_map_iff in I. destruct I as (x & <- & I). rewrite Forall_forall in FF. apply (FF x I).
Qed.
Lemma inside_animated tr src h n : segment_inside tr src h n -> 8 * animated_at tr h + n * sh_pose_bits h <= 8 * blen src /\ animated_at tr h <= blen src /\ 32 * sh_pose_bits h + 7 < 2 ^ 32.
Proof. unfold segment_inside, animated_at. destruct (get_segment_data tr (sh_data h)) as ((a, b), d). cbn [snd]. tauto. Qed.

Lemma job_at c s file h : nth_error files c = Some file -> nth_error (cf_headers file) s = Some h ->
  exists j, nth_error (jobs_of files tier) (job_index ns c s) = Some j /\ sj_segment_header j = runtime_offset ns c s /\
    sj_frames j = filter (in_segment (N.of_nat c) (N.of_nat s)) tier /\ job_ok max j.
Proof.
  intros KF KH. destruct (file_sizes c file KF) as (z & cl & KZ & KC & F & CO & LZ).
  assert (SL : (s < length (cf_headers file))%nat) by (apply nth_error_Some; congruence).
  destruct (nth_error z s) as [n|] eqn:KN; [|apply nth_error_None in KN; lia].
  destruct (clip_jobs_nth tier pairs 0 0 c s (cf_hash file) (length (cf_headers file))) as (j & J1 & J2 & J3 & J4 & J5).
  { rewrite pairs_ns. rewrite N.add_0_l. exact RT. }
  { unfold pairs. rewrite (map_nth_error _ _ _ KF). reflexivity. }
  { exact SL. }
  rewrite pairs_ns in J1, J4. rewrite N.add_0_l in J4, J5. rewrite find_segment_ok in J5 by exact TS.
  exists j. split; [exact J1|]. split; auto. split; auto.
  destruct (segment_frames c s file h z n KF KH KZ KN) as (N32 & SI & MX & FF & LN). destruct (inside_animated _ _ _ _ SI) as (A1 & A2 & A3).
  assert (KN2 : nth_error ns c = Some (length (cf_headers file))) by (unfold ns; rewrite (map_nth_error _ _ _ KF); reflexivity).
  pose proof (runtime_offset_lt ns c s _ KN2 SL) as RL. change (2 ^ 32) with 4294967296 in *.
  assert (LB : N.of_nat (length (sj_frames j)) * sh_pose_bits h <= n * sh_pose_bits h) by (rewrite J5; apply N.mul_le_mono_r; exact LN).
  unfold job_ok. change (2 ^ 32) with 4294967296. split; [rewrite J2; destruct F as (F & _); exact F|]. split; auto. split; [rewrite J4; lia|]. split.
  - split; [rewrite J5; lia|]. exists (sh_pose_bits h). change (2 ^ 32) with 4294967296. split; auto. rewrite J5. eapply Forall_impl; [|exact FF]. cbv beta. intros f (X1 & X2 & X3).
    split; auto. split; [lia|]. eexists. split; [exact X3|]. split; [apply bytes_ok_skipn; apply F|].
    unfold blen. rewrite skipn_length. assert ((fm_segment_frame f + 1) * sh_pose_bits h <= n * sh_pose_bits h) by (apply N.mul_le_mono_r; lia). unfold blen in A1, A2.
    assert (SB : N.of_nat (length (cf_bytes file) - N.to_nat (animated_at (cf_transforms file) h)) = N.of_nat (length (cf_bytes file)) - animated_at (cf_transforms file) h) by (rewrite Nat2N.inj_sub, N2Nat.id; reflexivity).
    rewrite SB. lia.
  - unfold data_bytes. rewrite (sum_bits (sh_pose_bits h)); [|rewrite J5; eapply Forall_impl; [|exact FF]; cbn; tauto].
    assert (D : (sh_pose_bits h * N.of_nat (length (sj_frames j)) + 7) / 8 <= (n * sh_pose_bits h + 7) / 8) by (apply N.div_le_mono; lia). lia.
Qed.
Lemma jobs_ok : Forall (job_ok max) (jobs_of files tier).
Proof.
  apply Forall_forall. intros j I. apply In_nth_error in I. destruct I as (i & I).
  assert (L : (i < list_sum ns)%nat). { rewrite <- pairs_ns, <- (clip_jobs_length tier pairs 0 0). apply nth_error_Some. unfold jobs_of, pairs in *. congruence. }
  destruct (index_split ns i L) as (c & s & n & K1 & K2 & ->). unfold ns in K1. apply nth_error_In in K1 as K1'. clear K1'.
  destruct (nth_error files c) as [file|] eqn:KF.
  2:{ apply nth_error_None in KF. assert (nth_error (map (fun f => length (cf_headers f)) files) c = None) by (apply nth_error_None; rewrite map_length; auto). congruence. }
  rewrite (map_nth_error _ _ _ KF) in K1. injection K1 as <-. destruct (nth_error (cf_headers file) s) as [h|] eqn:KH; [|apply nth_error_None in KH; lia].
  destruct (job_at c s file h KF KH) as (j' & J1 & _ & _ & JO). congruence.
Qed.

(** the word of a segment: which key frames, where *)
Lemma word_place m chunks c s file h : tier <> [] -> bulk_data_of max (jobs_of files tier) m chunks -> nth_error files c = Some file -> nth_error (cf_headers file) s = Some h ->
  exists sg, streamed_word chunks (runtime_offset ns c s) = seg_metadata sg /\ cs_sample_indices sg < 2 ^ 32 /\ cs_samples_offset sg < 2 ^ 32 /\
    stored_frames (cs_sample_indices sg) = kept tier (N.of_nat c) (N.of_nat s) /\
    (exists cc ch k, nth_error chunks cc = Some ch /\ nth_error (ck_segs ch) k = Some sg /\ cs_segment_header_offset sg = runtime_offset ns c s /\ ck_offset ch <= cs_samples_offset sg /\
       cs_samples_offset sg + data_bytes (filter (in_segment (N.of_nat c) (N.of_nat s)) tier) <= ck_offset ch + ck_size ch /\ cs_samples_offset sg + data_bytes (filter (in_segment (N.of_nat c) (N.of_nat s)) tier) + 15 <= blen m) /\
    forall r f b, nth_error (kept tier (N.of_nat c) (N.of_nat s)) r = Some f -> b < sh_pose_bits h ->
      mbit m (8 * cs_samples_offset sg + N.of_nat r * sh_pose_bits h + b) = mbit (cf_bytes file) (8 * animated_at (cf_transforms file) h + f * sh_pose_bits h + b).
Proof.
  intros TN (B1 & _ & B3) KF KH. destruct (job_at c s file h KF KH) as (j & J1 & J2 & J3 & JO).
  destruct (file_sizes c file KF) as (z & cl & KZ & KC & F & CO & LZ).
  assert (SL : (s < length (cf_headers file))%nat) by (apply nth_error_Some; congruence).
  destruct (nth_error z s) as [n|] eqn:KN; [|apply nth_error_None in KN; lia].
  destruct (segment_frames c s file h z n KF KH KZ KN) as (N32 & SI & MX & FF & LN).
  destruct (Forall2_nth _ _ _ _ _ B1 J1) as (sg & G1 & (D1 & D2 & D3 & D4 & D5)). exists sg.
  assert (NSc : nth_error ns c = Some (length (cf_headers file))) by (unfold ns; rewrite (map_nth_error _ _ _ KF); reflexivity).
  split.
  { unfold streamed_word.
    assert (Q : forall sg', In sg' (flat_map ck_segs chunks) -> cs_segment_header_offset sg' = runtime_offset ns c s -> sg' = sg).
    { intros sg' I E. apply In_nth_error in I. destruct I as (i & I).
      assert (L : (i < length (jobs_of files tier))%nat) by (rewrite <- (Forall2_len _ _ _ B1); apply nth_error_Some; congruence).
      assert (LS : (i < list_sum ns)%nat) by (rewrite <- pairs_ns, <- (clip_jobs_length tier pairs 0 0); exact L).
      destruct (index_split ns i LS) as (c' & s' & n' & K1 & K2 & ->). unfold ns in K1.
      destruct (nth_error files c') as [file'|] eqn:KF'.
      2:{ apply nth_error_None in KF'. assert (nth_error (map (fun f => length (cf_headers f)) files) c' = None) by (apply nth_error_None; rewrite map_length; auto). congruence. }
      rewrite (map_nth_error _ _ _ KF') in K1. injection K1 as <-. destruct (nth_error (cf_headers file') s') as [h'|] eqn:KH'; [|apply nth_error_None in KH'; lia].
      destruct (job_at c' s' file' h' KF' KH') as (j' & J1' & J2' & _ & _). destruct (Forall2_nth _ _ _ _ _ B1 J1') as (sg2 & G2 & (_ & D2' & _)).
      assert (sg2 = sg') by congruence. subst sg2. rewrite E in D2'. rewrite J2' in D2'.
      assert (NSc' : nth_error ns c' = Some (length (cf_headers file'))) by (unfold ns; rewrite (map_nth_error _ _ _ KF'); reflexivity).
      destruct (runtime_offset_inj ns c s c' s' _ _ NSc NSc' SL K2 D2') as (-> & ->). congruence. }
    destruct (find _ _) as [sg'|] eqn:FD.
    - apply find_some in FD. destruct FD as (I & E). apply N.eqb_eq in E. rewrite (Q sg' I E). reflexivity.
    - exfalso. pose proof (find_none _ _ FD sg (nth_error_In _ _ G1)) as X. cbn in X. apply N.eqb_neq in X. apply X. congruence. }
  split; auto. split; auto.
  assert (SF : stored_frames (cs_sample_indices sg) = kept tier (N.of_nat c) (N.of_nat s)).
  { apply stored_frames_are; [apply kept_increasing | | intros f L; rewrite D5 by auto; rewrite J3; reflexivity].
    unfold kept. apply Forall_forall. intros f I. apply in_map_iff in I. destruct I as (x & <- & I). rewrite Forall_forall in FF. destruct (FF x I) as (_ & X & _). lia. }
  split; auto. destruct (flat_nth chunks _ sg G1) as (cc & ch & k & K1 & K2 & K3). rewrite K3 in J1. destruct (B3 cc ch k sg j K1 K2 J1) as (FA & FB & FC & _ & FS).
  split; [exists cc, ch, k; rewrite J3 in FB, FC; repeat split; auto; [congruence | lia] |].
  intros r f b KR LB. rewrite J3 in FS. unfold kept in KR. rewrite nth_error_map in KR.
  destruct (nth_error (filter (in_segment (N.of_nat c) (N.of_nat s)) tier) r) as [x|] eqn:KX; [|discriminate KR]. cbn in KR. injection KR as <-.
  rewrite Forall_forall in FF. destruct (FF x (nth_error_In _ _ KX)) as (X1 & X2 & X3). rewrite <- X1 in *. rewrite (FS r x _ b KX X3 LB). rewrite mbit_skipn. f_equal. lia.
Qed.

Lemma word_facts m chunks c s file h : tier <> [] -> bulk_data_of max (jobs_of files tier) m chunks -> nth_error files c = Some file -> nth_error (cf_headers file) s = Some h ->
  exists sg, streamed_word chunks (runtime_offset ns c s) = seg_metadata sg /\ cs_sample_indices sg < 2 ^ 32 /\ cs_samples_offset sg < 2 ^ 32 /\
    stored_frames (cs_sample_indices sg) = kept tier (N.of_nat c) (N.of_nat s) /\
    forall r f b, nth_error (kept tier (N.of_nat c) (N.of_nat s)) r = Some f -> b < sh_pose_bits h ->
      mbit m (8 * cs_samples_offset sg + N.of_nat r * sh_pose_bits h + b) = mbit (cf_bytes file) (8 * animated_at (cf_transforms file) h + f * sh_pose_bits h + b).
Proof. intros TN BD KF KH. destruct (word_place m chunks c s file h TN BD KF KH) as (sg & A1 & A2 & A3 & A4 & _ & A5). exists sg. auto. Qed.

Lemma clip_rewritten c file : nth_error files c = Some file -> (c < length files)%nat ->
  exists m outs, rewrite_clip tier (N.of_nat c) (cf_transforms file) (cf_bytes file) (cf_headers file) (cf_base file) (cf_tail file) = Ok (m, outs) /\
    length outs = length (cf_headers file) /\
    forall i h o, nth_error (cf_headers file) i = Some h -> nth_error outs i = Some o ->
      segment_kept (cf_transforms file) (cf_bytes file) h m o (kept tier (N.of_nat c) (N.of_nat i)).
Proof.
  intros KF L. destruct (file_sizes c file KF) as (z & cl & KZ & KC & F & CO & LZ). pose proof F as (F1 & F2 & F3 & F4 & F5).
  destruct (rewrite_clip_ok tier (N.of_nat c) (cf_transforms file) (cf_bytes file) (cf_headers file) z (cf_base file) (cf_tail file)) as (m & outs & E & _ & LO & K).
  - intros s. apply kept_increasing.
  - exact F2.
  - intros i h KH. assert (SL : (i < length (cf_headers file))%nat) by (apply nth_error_Some; congruence).
    destruct (nth_error z i) as [n|] eqn:KN; [|apply nth_error_None in KN; lia]. exists n. split; auto. rewrite N.add_0_l.
    destruct (segment_frames c i file h z n KF KH KZ KN) as (N32 & SI & MX & FF & LN). split; auto. split; auto. eapply Forall_impl; [|exact FF]. cbn. tauto.
  - exact F4.
  - exists m, outs. auto.
Qed.

(** the same for a tier that may be empty, or not streamed in *)
Lemma stored_frames_0 : stored_frames 0 = [].
Proof. vm_compute. reflexivity. Qed.
Lemma tier_word_facts m chunks c s file h w : tier_stored max tier (jobs_of files tier) m chunks -> nth_error files c = Some file -> nth_error (cf_headers file) s = Some h ->
  tier_word chunks (runtime_offset ns c s) w ->
  w < 2 ^ 64 /\ (w = 0 -> stored_frames (w mod 2 ^ 32) = []) /\
  (w = streamed_word chunks (runtime_offset ns c s) -> stored_frames (w mod 2 ^ 32) = kept tier (N.of_nat c) (N.of_nat s)) /\
  forall r f b, nth_error (stored_frames (w mod 2 ^ 32)) r = Some f -> b < sh_pose_bits h ->
      mbit m (8 * (w / 2 ^ 32) + N.of_nat r * sh_pose_bits h + b) = mbit (cf_bytes file) (8 * animated_at (cf_transforms file) h + f * sh_pose_bits h + b).
Proof.
  intros (_ & TSt) KF KH TW.
  assert (Z : w = 0 -> stored_frames (w mod 2 ^ 32) = []) by (intros ->; exact stored_frames_0).
  destruct TSt as [(-> & -> & ->)|(TN & BD)].
  - assert (w = 0) by (destruct TW as [-> | ->]; reflexivity). subst w. split; [reflexivity|]. split; auto. split; [intros _; rewrite Z by reflexivity; reflexivity|].
    intros r f b K. rewrite Z in K by reflexivity. destruct r; discriminate K.
  - destruct (word_facts m chunks c s file h TN BD KF KH) as (sg & E & I1 & I2 & SF & FB). destruct (seg_metadata_parts sg I1 I2) as (P1 & P2 & P3).
    destruct TW as [-> | ->].
    + split; [reflexivity|]. split; auto. split.
      * intros Q. rewrite E in Q. assert (cs_sample_indices sg = 0) by (rewrite <- P2, <- Q; reflexivity). rewrite <- SF, H. reflexivity.
      * intros r f b K. rewrite Z in K by reflexivity. destruct r; discriminate K.
    + rewrite E. rewrite P2, P3. split; auto. split; [|split; [intros _; exact SF|]].
      * intros Q. assert (X : cs_sample_indices sg = 0) by (rewrite <- P2, Q; reflexivity). rewrite X. exact stored_frames_0.
      * intros r f b K LB. rewrite SF in K. apply (FB r f b K LB).
Qed.
End WithTiers.
