(** What the database builder reads in the buffer of a transform clip. *)
From Coq Require Import Lia.
From Verif Require Import Word WordFacts Pieces MemoryUtils MemoryFacts Float32 Quant Interp Headers HeadersFacts Packing PackSpec DbBuild ScalarDec ScalarWrite ScalarMeta
  TransDec TransSpec TransRing TransMem TransConst TransAnim TransPose TransPoseFacts TransEnc TransEncSpec TransEncFacts TransEncAnim TransEncAnim2
  TransClipSpec TransClip TransClip2 TransFile TransFileSizes TransFileBytes TransFileFacts TransFileSegs TransFilePack TransFileMeta TransFilePlay TransFilePlay2 Strip Segment SegmentFacts SeekSpec TransSeek TransPlaySpec TransTop ClipRewrite TransBind TransBindMem.
Import ListNotations.
Local Open Scope N_scope.
Ltac Zify.zify_post_hook ::= idtac.

Lemma read_segments_ok m (r : nat -> raw_segment) n : forall off a,
  (forall i, (i < n)%nat -> placed m (off + 16 * N.of_nat i) (words [w_pose (r (a + i)%nat); w_rotation (r (a + i)%nat); w_translation (r (a + i)%nat); w_data (r (a + i)%nat)]) /\
     w_pose (r (a + i)%nat) < 2 ^ 32 /\ w_rotation (r (a + i)%nat) < 2 ^ 32 /\ w_translation (r (a + i)%nat) < 2 ^ 32 /\ w_data (r (a + i)%nat) < 2 ^ 32) ->
  read_segments m off n = Ok (map r (seq a n)).
Proof.
  induction n as [| n IH]; intros off a H; [reflexivity |]. cbn [read_segments seq map].
  destruct (H 0%nat ltac:(lia)) as (P & L0 & L1 & L2 & L3). rewrite Nat.add_0_r in *. change (N.of_nat 0) with 0 in P. rewrite N.mul_0_r, N.add_0_r in P.
  pose proof (read_word m off _ 0 _ P eq_refl L0) as R0. rewrite N.mul_0_r, N.add_0_r in R0. rewrite R0. cbn [bindo].
  pose proof (read_word m off _ 1 _ P eq_refl L1) as R1. change (4 * 1) with 4 in R1. rewrite R1. cbn [bindo].
  pose proof (read_word m off _ 2 _ P eq_refl L2) as R2. change (4 * 2) with 8 in R2. rewrite R2. cbn [bindo].
  pose proof (read_word m off _ 3 _ P eq_refl L3) as R3. change (4 * 3) with 12 in R3. rewrite R3. cbn [bindo].
  rewrite (IH (off + 16) (S a)).
  - cbn [bindo]. destruct (r a); reflexivity.
  - intros i Hi. specialize (H (S i) ltac:(lia)). replace (a + S i)%nat with (S a + i)%nat in H by lia. replace (off + 16 * N.of_nat (S i)) with (off + 16 + 16 * N.of_nat i) in H by lia. exact H.
Qed.

(** a finished buffer, without stripped key frames: [SA] is where the data of the first segment starts *)
Record source (p : tclip) (out : list content) (src : list N) (SA : N) (raws : list raw_segment) : Prop := {
  sr_bytes : bytes_ok src;
  sr_timing : clip_timing p;
  sr_some : out <> [];
  sr_small : 18 * len out + 64 < 2 ^ 32;
  sr_tracks : h_num_tracks src = Ok (len out);
  sr_samples : h_num_samples src = Ok (p_num_samples p);
  sr_rate : h_sample_rate src = Ok (p_sample_rate p);
  sr_version : h_version src = Ok 10;
  sr_misc : bits_ok p /\ exists b, h_misc src = Ok (set_has_metadata (header_bits p) (b2n b));
  sr_members : forall k w, k < 13 -> k <> 7 -> nth_error [num_segments p; formats_size (formats_of p) out; len (ct_animated Rotation out); len (ct_animated Translation out); len (ct_animated Scale out);
     len (ct_constants Rotation out); len (ct_constants Translation out); 0; 0xFFFFFFFF; headers_at p - 32; types_at p - 32; constants_at p out - 32; clip_ranges_at p out - 32] (N.to_nat k) = Some w ->
    read32 src (32 + 4 * k) = Ok w;
  sr_num : num_segments p < 2 ^ 32;
  sr_F : 6 * formats_size (formats_of p) out + 6 < 2 ^ 32;
  sr_ats : clip_ranges_at p out <= SA /\ SA + 15 <= blen src /\ SA + 64 < 2 ^ 32 /\ SA mod 4 = 0;
  sr_starts : 1 < num_segments p -> placed src 84 (start_indices (p_segments p));
  sr_types : placed src (types_at p) (clip_types (formats_of p) out) /\ blen (clip_types (formats_of p) out) = types_size p out;
  sr_constants : placed src (constants_at p out) (clip_constants (formats_of p) out) /\ blen (clip_constants (formats_of p) out) = constants_size (formats_of p) out;
  sr_ranges : placed src (clip_ranges_at p out) (clip_ranges (formats_of p) out) /\ clip_ranges_at p out + blen (clip_ranges (formats_of p) out) <= SA;
  sr_raws : read_segments src (headers_at p) (N.to_nat (num_segments p)) = Ok raws;
  sr_length : length raws = length (p_segments p);
  sr_first : exists r rest, raws = r :: rest /\ w_data r = SA - 32;
  sr_segments : forall i g, nth_error (p_segments p) i = Some g -> exists rel, segment_in p out src i g rel /\
    nth_error raws i = Some {| w_pose := pose_size p out (N.of_nat i); w_rotation := stored_sizes (samples out (N.of_nat i) 0 Rotation); w_translation := stored_sizes (samples out (N.of_nat i) 0 Translation); w_data := rel |}
}.

Lemma made_source p out src : made p out src -> p_stripped p = false -> exists SA raws, source p out src SA raws.
Proof.
  intros (g0 & rest & b0 & prefix & K & B & NE & T & P & Se) St.
  assert (N32 : p_num_samples p < 2 ^ 32) by (pose proof (ti_samples _ T) as TS; change (2 ^ 22 - 2) with 4194302 in TS; change (2 ^ 32) with 4294967296; lia).
  pose proof (size_bounds p out g0 rest b0 K N32 prefix src P Se) as SB. destruct (ats_mod p out) as (_ & _ & _ & _ & AM).
  pose proof (small_out p out g0 rest b0 K) as SO. pose proof (small_F p out g0 rest b0 K) as SF. pose proof (num_segments_lt p out g0 rest b0 K N32 prefix src P Se) as NL.
  pose proof (first_ok p out g0 rest b0 K) as FO. destruct (so_holds _ _ _ _ FO) as (l & O & H).
  assert (HS : header_stride p = 16) by (unfold header_stride; rewrite St; reflexivity).
  assert (X : forall i, exists rel, forall g, nth_error (p_segments p) i = Some g -> segment_in p out src i g rel).
  { intros i. destruct (nth_error (p_segments p) i) as [g |] eqn:E; [| exists 0; discriminate]. destruct (segment_found p out g0 rest b0 K N32 prefix src P Se i g E) as (rel & SI). exists rel. intros g' Eg. injection Eg as <-. exact SI. }
  assert (Q : exists rels, length rels = length (p_segments p) /\ forall i g, nth_error (p_segments p) i = Some g -> exists rel, nth_error rels i = Some rel /\ segment_in p out src i g rel).
  { clear - X. assert (G : forall k, (k <= length (p_segments p))%nat -> exists rels, length rels = k /\ forall i g, (i < k)%nat -> nth_error (p_segments p) i = Some g -> exists rel, nth_error rels i = Some rel /\ segment_in p out src i g rel).
    { induction k as [| k IH]; intros Hk; [exists []; split; [reflexivity | intros; lia] |]. destruct (IH ltac:(lia)) as (rels & L & R). destruct (X k) as (rel & Hr). exists (rels ++ [rel]). split; [rewrite app_length; cbn; lia |].
      intros i g Hi Eg. destruct (Nat.eq_dec i k) as [-> | Hn].
      - exists rel. split; [rewrite nth_error_app2 by lia; rewrite L, Nat.sub_diag; reflexivity | apply Hr, Eg].
      - destruct (R i g ltac:(lia) Eg) as (rel' & E1 & E2). exists rel'. split; [rewrite nth_error_app1 by lia; exact E1 | exact E2]. }
    destruct (G (length (p_segments p)) (le_n _)) as (rels & L & R). exists rels. split; [exact L |]. intros i g Eg. apply R; [apply nth_error_Some; congruence | exact Eg]. }
  destruct Q as (rels & LR & RS).
  set (r := fun i : nat => {| w_pose := pose_size p out (N.of_nat i); w_rotation := stored_sizes (samples out (N.of_nat i) 0 Rotation); w_translation := stored_sizes (samples out (N.of_nat i) 0 Translation); w_data := nth i rels 0 |}).
  assert (RW : forall i g, nth_error (p_segments p) i = Some g -> segment_in p out src i g (nth i rels 0)).
  { intros i g Eg. destruct (RS i g Eg) as (rel & E1 & E2). rewrite (nth_error_nth _ _ 0 E1). exact E2. }
  assert (NN : N.to_nat (num_segments p) = length (p_segments p)) by (unfold num_segments; lia).
  assert (LT : blen (clip_types (formats_of p) out) = types_size p out) by (apply clip_types_blen; exact SO).
  assert (LC : blen (clip_constants (formats_of p) out) = constants_size (formats_of p) out) by (apply (clip_constants_blen (formats_of p) (g_num_samples g0) l); assumption).
  assert (RAWS : read_segments src (headers_at p) (N.to_nat (num_segments p)) = Ok (map r (seq 0 (length (p_segments p))))).
  { rewrite NN. apply (read_segments_ok src r _ (headers_at p) 0). intros i Hi. rewrite Nat.add_0_l. destruct (nth_error (p_segments p) i) as [g |] eqn:Eg; [| apply nth_error_None in Eg; lia].
    pose proof (RW i g Eg) as SI. pose proof (si_header _ _ _ _ _ _ SI) as Hd. unfold header_words in Hd. rewrite St, HS, app_nil_r in Hd. pose proof (so_pose _ _ _ _ (si_ok _ _ _ _ _ _ SI)) as SP. pose proof (si_rel _ _ _ _ _ _ SI) as SR.
    assert (SZ : stored_sizes (samples out (N.of_nat i) 0 Rotation) <= pose_size p out (N.of_nat i) /\ stored_sizes (samples out (N.of_nat i) 0 Translation) <= pose_size p out (N.of_nat i)).
    { unfold pose_size, key_frame_samples. rewrite !stored_sizes_app. lia. }
    unfold r. cbn [w_pose w_rotation w_translation w_data]. split; [exact Hd |]. lia. }
  exists (segments_at p out (g_bones g0)), (map r (seq 0 (length (p_segments p)))). constructor.
  - exact (se_bytes _ _ Se).
  - exact T.
  - exact NE.
  - exact (co_tracks _ _ _ _ _ K).
  - exact (read_num_tracks p out g0 rest b0 K NE N32 prefix src P Se).
  - exact (read_num_samples p out g0 rest b0 K NE N32 prefix src P Se).
  - exact (read_rate p out g0 rest b0 K NE N32 prefix src P Se).
  - exact (read_version p out g0 rest b0 K N32 prefix src P Se).
  - split; [exact B |]. exact (read_misc p out g0 rest b0 K B NE prefix src P Se).
  - exact (read_member p out g0 rest b0 K N32 prefix src P Se).
  - exact NL.
  - exact SF.
  - repeat split; try lia; apply AM.
  - intros H1. apply (sealed_placed prefix src Se); [exact (pk_starts _ _ _ _ P H1) | left; lia].
  - split; [| exact LT]. apply (sealed_placed prefix src Se); [exact (pk_types _ _ _ _ P) | left; lia].
  - split; [| exact LC]. apply (sealed_placed prefix src Se); [exact (pk_constants _ _ _ _ P) | left; lia].
  - split; [apply (sealed_placed prefix src Se); [exact (pk_ranges _ _ _ _ P) | left; lia] |]. pose proof (clip_ranges_blen (formats_of p) _ l out (g_bones g0) _ H O) as CR.
    unfold segments_at, clip_ranges_size. destruct (is_range_reduced p) eqn:E; [lia |]. rewrite (no_clip_ranges p out E). change (blen []) with 0. lia.
  - exact RAWS.
  - rewrite map_length, seq_length. reflexivity.
  - destruct (p_segments p) as [| g gs] eqn:ES; [rewrite (co_segments _ _ _ _ _ K) in ES; discriminate |]. cbn [length seq map]. do 2 eexists. split; [reflexivity |]. unfold r. cbn [w_data].
    pose proof (RW 0%nat g eq_refl) as SI. pose proof (si_header _ _ _ _ _ _ SI) as Hd. pose proof (pk_headers _ _ _ _ P) as PH. rewrite ES in PH. destruct PH as [PH _].
    apply (sealed_placed prefix src Se) in PH; [| left; lia]. change (N.of_nat 0) with 0 in Hd. rewrite N.mul_0_r, N.add_0_r in Hd. pose proof (si_rel _ _ _ _ _ _ SI) as SR.
    unfold header_words in Hd, PH. rewrite St, app_nil_r in Hd, PH.
    pose proof (read_word src _ _ 3 _ Hd eq_refl ltac:(lia)) as R1. pose proof (read_word src _ _ 3 _ PH eq_refl ltac:(lia)) as R2. rewrite R1 in R2. injection R2 as ->. reflexivity.
  - intros i g Eg. exists (nth i rels 0). split; [apply RW, Eg |]. assert (L : (i < length (p_segments p))%nat) by (apply nth_error_Some; congruence).
    rewrite (map_nth_error r i (seq 0 (length (p_segments p))) (d := i)); [reflexivity |]. rewrite nth_error_nth' with (d := 0%nat) by (rewrite seq_length; exact L). rewrite seq_nth by exact L. reflexivity.
Qed.
