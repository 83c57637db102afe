(** Seeking in the finished buffer of a transform clip. *)
From Coq Require Import Lia Reals Lra.
From Verif Require Import Word WordFacts Pieces MemoryUtils MemoryFacts Float32 Float32Facts Quant Interp InterpFacts Headers HeadersFacts Packing PackSpec DbBuild ScalarDec
  TransDec TransSpec TransRing TransMem TransConst TransAnim TransAnim2 TransPose TransPoseFacts TransEnc TransEncSpec TransEncFacts TransEncAnim TransEncAnim2
  TransClipSpec TransClip TransClip2 TransFile TransFileSizes TransFileFacts TransFileSegs TransFilePack TransFileMeta TransFilePlay Strip Segment SegmentFacts SeekSpec SeekFacts TransSeek TransPlaySpec.
Import ListNotations.
Local Open Scope N_scope.
Ltac Zify.zify_post_hook ::= idtac.

(** * Small facts *)
Lemma rank_seq (P : N -> bool) n : forall a r c, nth_error (filter P (map N.of_nat (seq a n))) r = Some c ->
  P c = true /\ (a <= N.to_nat c < a + n)%nat /\ length (filter P (map N.of_nat (seq a (N.to_nat c - a)))) = r.
Proof.
  induction n as [| n IH]; intros a r c E; [destruct r; discriminate |]. cbn [seq map filter] in E.
  assert (Q : forall r', nth_error (filter P (map N.of_nat (seq (S a) n))) r' = Some c ->
    P c = true /\ (a <= N.to_nat c < a + S n)%nat /\ length (filter P (map N.of_nat (seq a (N.to_nat c - a)))) = ((if P (N.of_nat a) then 1 else 0) + r')%nat).
  { intros r' E'. destruct (IH (S a) r' c E') as (A & B & C). split; [exact A |]. split; [lia |]. replace (N.to_nat c - a)%nat with (S (N.to_nat c - S a)) by lia. cbn [seq map filter].
    destruct (P (N.of_nat a)); cbn [length]; rewrite C; reflexivity. }
  destruct (P (N.of_nat a)) eqn:Pa.
  - destruct r as [| r]; [| apply Q, E]. cbn in E. injection E as <-. rewrite Nat2N.id, Nat.sub_diag. split; [exact Pa |]. split; [lia | reflexivity].
  - apply Q, E.
Qed.
Lemma nat_lt_32 c : (0 <= N.to_nat c < 0 + 32)%nat -> c < 32.
Proof. intros H. lia. Qed.
Lemma stored_frames_eq hard : stored_frames hard = filter (present hard) (map N.of_nat (seq 0 32)). Proof. reflexivity. Qed.
Lemma kept_hard_eq hard c : kept_before (is_kept true hard) c = N.of_nat (length (filter (present hard) (map N.of_nat (seq 0 (N.to_nat c))))). Proof. reflexivity. Qed.
Lemma rank_n (P : N -> bool) n r c : nth_error (filter P (map N.of_nat (seq 0 n))) (N.to_nat r) = Some c -> c < N.of_nat n /\ r = N.of_nat (length (filter P (map N.of_nat (seq 0 (N.to_nat c))))).
Proof.
  intros E. destruct (rank_seq P n 0 (N.to_nat r) c E) as (_ & B & C). rewrite Nat.sub_0_r in C. split; [lia |]. rewrite C. lia.
Qed.
Lemma stored_rank_before hard r c : nth_error (stored_frames hard) (N.to_nat r) = Some c -> c < 32 /\ r = kept_before (is_kept true hard) c.
Proof. intros E. rewrite stored_frames_eq in E. rewrite kept_hard_eq. exact (rank_n (present hard) 32 r c E). Qed.
Definition hard_only (x : N) : segment_samples := {| clip_indices := x; medium_metadata := 0; low_metadata := 0 |}.
Lemma available_hard x : available_indices (hard_only x) = x.
Proof. unfold available_indices, hard_only. cbn [clip_indices medium_metadata low_metadata]. rewrite !N.lor_0_r. reflexivity. Qed.
Lemma found_hard x c src r : found_in (hard_only x) c src r -> src = from_clip /\ c < 32 /\ r = kept_before (is_kept true x) c.
Proof.
  intros [O E]. destruct src; cbn [source_indices hard_only clip_indices medium_metadata low_metadata] in E.
  - split; [reflexivity |]. apply stored_rank_before, E.
  - change (stored_frames (0 mod 2 ^ 32)) with (@nil N) in E. destruct (N.to_nat r); discriminate.
  - change (stored_frames (0 mod 2 ^ 32)) with (@nil N) in E. destruct (N.to_nat r); discriminate.
Qed.
Lemma segments_hard l : segments_samples None l = map hard_only l.
Proof.
  unfold segments_samples. change (fun '(i, x) => tier_samples None i x) with (fun q : nat * N => let '(i, x) := q in tier_samples None i x).
  generalize 0%nat as a. induction l as [| x l IH]; intros a; [reflexivity |]. cbn [length seq combine map]. rewrite IH. reflexivity.
Qed.
Lemma hard_only_ok x : x < 2 ^ 32 -> samples_ok (hard_only x).
Proof. intros H. unfold samples_ok, hard_only. cbn [clip_indices medium_metadata low_metadata]. split; [exact H |]. split; reflexivity. Qed.

Lemma read_words_all m stride ws : forall off, (forall j w, nth_error ws j = Some w -> read32 m (off + stride * N.of_nat j) = Ok w) -> read_words m off stride (length ws) = Ok ws.
Proof.
  induction ws as [| w ws IH]; intros off H; [reflexivity |]. cbn [length read_words]. pose proof (H 0%nat w eq_refl) as H0. change (N.of_nat 0) with 0 in H0. rewrite N.mul_0_r, N.add_0_r in H0. rewrite H0. cbn [bindo].
  rewrite IH; [reflexivity |]. intros j v E. specialize (H (S j) v E). rewrite <- H. f_equal. lia.
Qed.
Lemma offsets_lt sizes : forall s, s < 2 ^ 32 -> Forall (fun x => x < 2 ^ 32) (segment_offsets s sizes).
Proof. induction sizes as [| x t IH]; intros s H; [constructor |]. cbn [segment_offsets]. constructor; [exact H |]. apply IH, addw_lt. Qed.
Lemma offsets_length sizes : forall s, length (segment_offsets s sizes) = length sizes.
Proof. induction sizes as [| x t IH]; intros s; [reflexivity |]. cbn. rewrite IH. reflexivity. Qed.

Section Play.
  Context (p : tclip) (out : list content) (g0 : tsegment) (rest : list tsegment) (b0 : tbone).
  Hypothesis K : clip_ok p out g0 rest b0.
  Hypothesis Bits : bits_ok p.
  Hypothesis Some_tracks : out <> [].
  Hypothesis Time : clip_timing p.
  Notation f := (formats_of p).
  Notation F := (formats_size (formats_of p) out).
  Notation R := (if 1 <? num_segments p then 6 * formats_size (formats_of p) out else 0).
  Notation hs := (header_stride p).
  Notation n := (p_num_samples p).
  Context (prefix m : list N).
  Hypothesis P : packed p out g0 prefix.
  Hypothesis Se : sealed prefix m.

  Lemma samples_32 : n < 2 ^ 32. Proof. pose proof (ti_samples _ Time) as H. change (2 ^ 22 - 2) with 4194302 in H. change (2 ^ 32) with 4294967296. lia. Qed.
  Notation member := (read_member p out g0 rest b0 K samples_32 prefix m P Se).
  Notation found := (segment_found p out g0 rest b0 K samples_32 prefix m P Se).

  (** the key frame that is stored at a position of its segment *)
  Lemma key_frame_read i g rel k : segment_in p out m i g rel -> k < g_num_samples g -> kept_of p g k = true ->
    exists kf, key_frame_at m None false (p_stripped p) (headers_at p) (N.of_nat i, from_clip, kept_before (kept_of p g) k) = Ok kf /\ kf_range kf = ranges_at F (32 + rel) /\
      forall c, c_mem c = m -> key_frame_placed f out c kf (N.of_nat i) k.
  Proof.
    intros SI Hk Kp. pose proof (si_header _ _ _ _ _ _ SI) as H. unfold key_frame_at. change (if p_stripped p then 20 else 16) with hs. rewrite (N.mul_comm (N.of_nat i) hs).
    pose proof (si_ok _ _ _ _ _ _ SI) as OK. pose proof (so_pose _ _ _ _ OK) as PB.
    rewrite (pointers_ok p out (small_out p out g0 rest b0 K) (small_F p out g0 rest b0 K) m _ _ _ _ H (member 1 F eq_refl ltac:(discriminate) eq_refl) (member 0 _ eq_refl ltac:(discriminate) eq_refl) (si_rel _ _ _ _ _ _ SI)). cbn [bindo].
    assert (SZ : stored_sizes (samples out (N.of_nat i) 0 Rotation) <= pose_size p out (N.of_nat i) /\ stored_sizes (samples out (N.of_nat i) 0 Translation) <= pose_size p out (N.of_nat i)).
    { unfold pose_size, key_frame_samples. rewrite !stored_sizes_app. lia. }
    pose proof (read_word m _ _ 0 _ H eq_refl PB) as R0. rewrite N.mul_0_r, N.add_0_r in R0. rewrite R0. cbn [bindo].
    pose proof (read_word m _ _ 1 _ H eq_refl ltac:(lia)) as R1. change (4 * 1) with 4 in R1. rewrite R1. cbn [bindo].
    pose proof (read_word m _ _ 2 _ H eq_refl ltac:(lia)) as R2. change (4 * 2) with 8 in R2. rewrite R2. cbn [bindo].
    eexists. split; [reflexivity |]. split; [reflexivity |]. intros c Em.
    destruct (so_holds _ _ _ _ OK) as (l & O & HO). pose proof (so_samples _ _ _ _ OK) as NS.
    constructor; cbn [kf_format kf_range kf_data kf_offset kf_rotation_bits kf_translation_bits]; rewrite ?Em.
    - exact (si_formats _ _ _ _ _ _ SI k Hk).
    - intros HS. apply (si_ranges _ _ _ _ _ _ SI); [| exact Hk]. apply N.ltb_lt. exact HS.
    - rewrite mulw_small; [exact (si_data _ _ _ _ _ _ SI k Hk Kp) |]. pose proof (si_pose _ _ _ _ _ _ SI) as SP. pose proof (kept_before_le (kept_of p g) k _ Hk Kp) as KL. fold (num_stored p g) in KL.
      set (x := pose_size p out (N.of_nat i)) in *. set (a := kept_before (kept_of p g) k) in *. set (y := num_stored p g) in *. clearbody x a y. clear - SP KL. nia.
    - symmetry. apply (same_size f (N.of_nat i) _ l out HO Rotation k 0 Hk). lia.
    - symmetry. apply (same_size f (N.of_nat i) _ l out HO Translation k 0 Hk). lia.
  Qed.

  (** ** The key frames that are found *)
  Lemma num_of : num_segments p = N.of_nat (length (sizes_of p)). Proof. unfold sizes_of. rewrite map_length. reflexivity. Qed.
  Lemma size_nth i g : nth_error (p_segments p) i = Some g -> nth i (sizes_of p) 0 = g_num_samples g.
  Proof. intros E. apply nth_error_nth. unfold sizes_of. apply map_nth_error, E. Qed.
  Lemma segment_lt i : (i < length (sizes_of p))%nat -> exists g, nth_error (p_segments p) i = Some g /\ nth i (sizes_of p) 0 = g_num_samples g.
  Proof.
    intros H. unfold sizes_of in H. rewrite map_length in H. destruct (nth_error (p_segments p) i) as [g |] eqn:E; [| apply nth_error_None in E; lia]. exists g. split; [reflexivity |]. apply size_nth, E.
  Qed.
  Lemma hard_lt i g : nth_error (p_segments p) i = Some g -> p_stripped p = true -> g_hard g < 2 ^ 32 /\ g_num_samples g <= 32.
  Proof. intros E St. destruct (found i g E) as (rel & SI). destruct (so_hard _ _ _ _ (si_ok _ _ _ _ _ _ SI) St) as (A & B & _). split; assumption. Qed.
  Lemma ends_present i g : nth_error (p_segments p) i = Some g -> p_stripped p = true -> present (g_hard g) 0 = true /\ present (g_hard g) (g_num_samples g - 1) = true.
  Proof. intros E St. exact (proj1 (Forall_forall _ _) (ti_ends _ Time St) g (nth_error_In _ _ E)). Qed.
  Lemma read_starts : 1 < num_segments p -> map g_start (p_segments p) = segment_offsets 0 (sizes_of p) ->
    read_words m (transform_header + align_to 32 transform_header_size 4) 4 (N.to_nat (num_segments p + 1)) = Ok (segment_start_indices (sizes_of p)).
  Proof.
    intros H1 E. change (transform_header + align_to 32 transform_header_size 4) with 84.
    assert (L : N.to_nat (num_segments p + 1) = length (segment_start_indices (sizes_of p))). { unfold segment_start_indices. rewrite app_length, offsets_length, num_of. cbn [length]. lia. }
    rewrite L. apply read_words_all. intros j w Ej.
    pose proof (size_bounds p out g0 rest b0 K samples_32 prefix m P Se) as SB. pose proof (pk_starts _ _ _ _ P H1) as PS. unfold start_indices in PS. rewrite E in PS. fold (segment_start_indices (sizes_of p)) in PS.
    assert (Hj : (j < length (segment_start_indices (sizes_of p)))%nat) by (apply nth_error_Some; congruence). rewrite <- L in Hj.
    assert (HB : 84 + 4 * (num_segments p + 1) <= blen prefix). { unfold headers_at, starts_size in SB. rewrite (proj2 (N.ltb_lt _ _) H1) in SB. lia. }
    rewrite (sealed_read prefix m Se) by lia. apply (read_word _ 84 _ (N.of_nat j) w PS); [rewrite Nat2N.id; exact Ej |].
    apply nth_error_In in Ej. unfold segment_start_indices in Ej. apply in_app_or in Ej as [Ej | [<- | []]]; [| reflexivity].
    exact (proj1 (Forall_forall _ _) (offsets_lt (sizes_of p) 0 eq_refl) w Ej).
  Qed.
  Lemma read_hard i g : nth_error (p_segments p) i = Some g -> p_stripped p = true -> read32 m (headers_at p + 16 + 20 * N.of_nat i) = Ok (g_hard g).
  Proof.
    intros E St. destruct (found i g E) as (rel & SI). pose proof (si_header _ _ _ _ _ _ SI) as H. destruct (hard_lt i g E St) as [HL _]. unfold header_stride, header_words in H. rewrite St in H.
    pose proof (read_word m _ _ 4 _ H eq_refl HL) as Q. rewrite <- Q. f_equal. lia.
  Qed.
  Lemma read_indices : p_stripped p = true -> read_words m (headers_at p + 16) 20 (N.to_nat (num_segments p)) = Ok (map g_hard (p_segments p)).
  Proof.
    intros St. assert (L : N.to_nat (num_segments p) = length (map g_hard (p_segments p))) by (rewrite map_length; unfold num_segments; lia). rewrite L. apply read_words_all.
    intros j w Ej. rewrite nth_error_map in Ej. destruct (nth_error (p_segments p) j) as [g |] eqn:E; [| discriminate]. injection Ej as <-. apply read_hard; assumption.
  Qed.

  Lemma keyframes_found ds k0 k1 al : neighbours n k0 k1 -> (k1 = 0 -> n = 1 \/ is_wrapping_supported ds = true) -> ffinite al = true -> (0 <= FR al <= 1)%R ->
    exists i0 i1 c0 c1 a h0 h1, nth_error (p_segments p) i0 = Some h0 /\ nth_error (p_segments p) i1 = Some h1 /\
      find_key_frames ds m None (p_stripped p) (num_segments p) n (headers_at p) k0 k1 al
        = Ok (a, (N.of_nat i0, from_clip, kept_before (kept_of p h0) c0), (N.of_nat i1, from_clip, kept_before (kept_of p h1) c1)) /\
      c0 < g_num_samples h0 /\ kept_of p h0 c0 = true /\ c1 < g_num_samples h1 /\ kept_of p h1 c1 = true /\
      chosen p k0 k1 al i0 c0 i1 c1 a.
  Proof.
    intros NB Wr Fa Ra. pose proof NB as (B0 & B1 & BP). pose proof (ti_samples _ Time) as TS. change (2 ^ 22 - 2) with 4194302 in TS. unfold find_key_frames.
    destruct (ti_segments _ Time) as [E1 | (ideal & max & T1 & T2 & T3 & T4 & T5 & T6 & T7)].
    - assert (NS : num_segments p = 1) by (rewrite num_of, E1; reflexivity). rewrite NS, N.eqb_refl.
      destruct (segment_lt 0) as (g & Eg & Sg); [rewrite E1; cbn; lia |]. rewrite E1 in Sg. cbn [nth] in Sg.
      assert (In0 : forall k, k < n -> in_segment p k 0 g k) by (intros k Hk; split; [exact Eg |]; split; [reflexivity | rewrite <- Sg; exact Hk]).
      destruct (p_stripped p) eqn:St.
      + pose proof (read_hard 0 g Eg St) as RH. change (20 * N.of_nat 0) with 0 in RH. rewrite N.add_0_r in RH. rewrite RH. cbn [bindo]. change (tier_samples None 0 (g_hard g)) with (hard_only (g_hard g)).
        destruct (hard_lt 0 g Eg St) as [HL H32]. destruct (ends_present 0 g Eg St) as [Pf Pl]. rewrite <- Sg in *.
        destruct (seek_single_spec (hard_only (g_hard g)) n k0 k1 al (hard_only_ok _ HL)) as (c0 & c1 & a & src0 & r0 & src1 & r1 & SE & C0 & C1 & LA & FA & AC & F0 & F1);
          [lia | rewrite available_hard; exact Pf | rewrite available_hard; exact Pl | exact NB | exact Fa | exact Ra |].
        rewrite available_hard in LA, FA. apply found_hard in F0 as (-> & _ & ->). apply found_hard in F1 as (-> & _ & ->). rewrite SE. cbn [bindo].
        exists 0%nat, 0%nat, c0, c1, a, g, g. unfold kept_of. rewrite St. change (N.of_nat 0) with 0. rewrite <- Sg.
        split; [exact Eg |]. split; [exact Eg |]. split; [reflexivity |]. split; [exact C0 |]. split; [exact (proj1 (proj2 LA)) |]. split; [exact C1 |]. split; [exact (proj1 (proj2 FA)) |].
        exists g, k0, g, k1. split; [apply In0, B0 |]. split; [apply In0, B1 |]. rewrite <- Sg. split; [exact C0 |]. split; [exact C1 |]. rewrite St. split; [exact LA |]. split; [exact FA |]. exact AC.
      + exists 0%nat, 0%nat, k0, k1, al, g, g. unfold kept_of. rewrite St. change (is_kept false (g_hard g)) with (fun _ : N => true). rewrite !(kept_all p out (small_out p out g0 rest b0 K) (small_F p out g0 rest b0 K)). rewrite <- Sg.
        split; [exact Eg |]. split; [exact Eg |]. split; [reflexivity |]. split; [exact B0 |]. split; [reflexivity |]. split; [exact B1 |]. split; [reflexivity |].
        exists g, k0, g, k1. split; [apply In0, B0 |]. split; [apply In0, B1 |]. rewrite <- Sg, St. split; [exact B0 |]. split; [exact B1 |]. split; [reflexivity |]. split; reflexivity.
    - assert (Hov : n / ideal * (max - ideal) < 2 ^ 32).
      { apply N.le_lt_trans with (n * 32); [| change (2 ^ 32) with 4294967296; lia]. apply N.mul_le_mono; [| lia]. apply N.div_le_upper_bound; [lia |]. apply N.le_trans with (1 * n); [lia |]. apply N.mul_le_mono_r. lia. }
      destruct (split_partition n ideal max) as (sizes' & P1 & _ & P3); [lia | change (2 ^ 32) with 4294967296; lia | change (2 ^ 32) with 4294967296; lia |].
      rewrite T6 in P1. injection P1 as <-. destruct (P3 T5) as (Psum & Pfa & Plen). clear P3.
      assert (NS : 1 < num_segments p) by (rewrite num_of; lia). rewrite (proj2 (N.eqb_neq (num_segments p) 1)) by lia. rewrite (read_starts NS T7). cbn [bindo].
      assert (W1 : k1 = 0 -> is_wrapping_supported ds = true) by (intros Z; destruct (Wr Z) as [Q | Q]; [lia | exact Q]).
      destruct (p_stripped p) eqn:St.
      + rewrite (read_indices St). cbn [bindo]. rewrite segments_hard.
        destruct (seek_multi_spec (is_wrapping_supported ds) n ideal max (sizes_of p) (map hard_only (map g_hard (p_segments p))) k0 k1 al) as (s0 & s1 & x0 & x1 & f0 & f1 & c0 & c1 & a & src0 & r0 & src1 & r1 & SE & X0 & X1 & Q0 & L0 & Q1 & L1 & C0 & C1 & LA & FA & AC & F0 & F1).
        { lia. } { lia. } { exact T4. } { change (2 ^ 22) with 4194304. lia. } { exact T6. } { unfold sizes_of. rewrite !map_length. reflexivity. }
        { intros i x E. rewrite !nth_error_map in E. destruct (nth_error (p_segments p) i) as [g |] eqn:Eg; [| discriminate]. injection E as <-. rewrite available_hard, (size_nth i g Eg). destruct (hard_lt i g Eg St). split; [apply hard_only_ok; assumption | apply (ends_present i g Eg St)]. }
        { exact NB. } { intros Z _. exact (W1 Z). } { intros Z _. exact (W1 Z). } { exact Fa. } { exact Ra. }
        rewrite !nth_error_map in X0, X1. destruct (nth_error (p_segments p) s0) as [h0 |] eqn:E0; [| discriminate]. destruct (nth_error (p_segments p) s1) as [h1 |] eqn:E1; [| discriminate].
        injection X0 as <-. injection X1 as <-. rewrite available_hard in LA, FA. apply found_hard in F0 as (-> & _ & ->). apply found_hard in F1 as (-> & _ & ->).
        rewrite (size_nth s0 h0 E0) in L0, C0. rewrite (size_nth s1 h1 E1) in L1, C1. rewrite SE. cbn [bindo].
        exists s0, s1, c0, c1, a, h0, h1. unfold kept_of. rewrite St. split; [exact E0 |]. split; [exact E1 |]. split; [reflexivity |]. split; [exact C0 |]. split; [exact (proj1 (proj2 LA)) |]. split; [exact C1 |]. split; [exact (proj1 (proj2 FA)) |].
        exists h0, f0, h1, f1. split; [split; [exact E0 | split; assumption] |]. split; [split; [exact E1 | split; assumption] |]. split; [exact C0 |]. split; [exact C1 |]. rewrite St. split; [exact LA |]. split; [exact FA |]. exact AC.
      + destruct (seek_finds_segments (is_wrapping_supported ds) n ideal max (sizes_of p) k0 k1) as (s0 & s1 & f0 & f1 & SE & L0 & L1 & H0 & Q0 & H1 & Q1).
        { exact T1. } { exact T2. } { exact T3. } { exact T5. } { change (2 ^ 30) with 1073741824. lia. } { exact Hov. } { exact T6. } { exact B0. } { exact B1. }
        { destruct BP as [Q | [[Q1 Q2] | [[Q1 Q2] | [Q1 Q2]]]]; [right; left; exact Q | left; congruence | right; right; split; [exact (W1 Q2) | exact Q2] | right; right; split; [exact (W1 Q2) | exact Q2]]. }
        destruct (segment_lt s0 L0) as (h0 & E0 & Z0). destruct (segment_lt s1 L1) as (h1 & E1 & Z1). rewrite Z0 in H0. rewrite Z1 in H1. rewrite <- num_of in SE. rewrite SE. cbn [bindo].
        exists s0, s1, f0, f1, al, h0, h1. unfold kept_of. rewrite St. split; [exact E0 |]. split; [exact E1 |].
        split. { change (is_kept false (g_hard h0)) with (fun _ : N => true). change (is_kept false (g_hard h1)) with (fun _ : N => true). rewrite !(kept_all p out (small_out p out g0 rest b0 K) (small_F p out g0 rest b0 K)). reflexivity. }
        split; [exact H0 |]. split; [reflexivity |]. split; [exact H1 |]. split; [reflexivity |].
        exists h0, f0, h1, f1. split; [split; [exact E0 | split; assumption] |]. split; [split; [exact E1 | split; assumption] |]. rewrite St. split; [exact H0 |]. split; [exact H1 |]. split; [reflexivity |]. split; reflexivity.
  Qed.
End Play.
