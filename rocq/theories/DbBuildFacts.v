(** Proofs about the bulk data of a database tier. *)
From Coq Require Import Lia.
From Verif Require Import Word WordFacts MemoryUtils Bitset BitsetFacts SeekSpec StripKeyFacts DbTiers DbStream DbBuild BuildSpec ByteFacts.
Local Open Scope N_scope.
Ltac Zify.zify_post_hook ::= idtac.

Definition dj (j : seg_job) : N := data_bytes (sj_frames j).

(* ---------- sizes, sample indices and key frames of one segment ---------- *)
Lemma sum_bits bits frames : Forall (fun f => fm_bits f = bits) frames -> sumN (map fm_bits frames) = bits * N.of_nat (length frames).
Proof. induction 1 as [|f l E F IH]; cbn [map sumN length]; [lia|]. rewrite E, IH. lia. Qed.
Lemma frames_same_bits frames bits (P : frame_mapping -> Prop) : Forall (fun f => fm_bits f = bits /\ P f) frames -> Forall (fun f => fm_bits f = bits) frames.
Proof. apply Forall_impl. intros f (A & _). exact A. Qed.
Lemma segment_data_size_ok frames : frames_ok frames -> segment_data_size frames = data_bytes frames.
Proof.
  intros (L & bits & B & F). pose proof (sum_bits bits frames (frames_same_bits _ _ _ F)) as S. unfold segment_data_size, data_bytes. rewrite S.
  change (2 ^ 32) with 4294967296 in B. assert (LE : bits * N.of_nat (length frames) <= bits * 32) by (apply N.mul_le_mono_l; lia).
  destruct frames as [|f r].
  - cbn [segment_bit_size length]. rewrite N.mul_0_r. reflexivity.
  - inversion F as [|? ? (E & _) F']; subst. cbn [segment_bit_size]. rewrite mulw_small by (change (2 ^ 32) with 4294967296; lia).
    rewrite addw_small by (change (2 ^ 32) with 4294967296; lia). reflexivity.
Qed.

Lemma sample_indices_ok frames : Forall (fun f => fm_segment_frame f < 32) frames ->
  exists w, build_sample_indices frames = Ok w /\ w < 2 ^ 32 /\ forall f, f < 32 -> (present w f = true <-> In f (map fm_segment_frame frames)).
Proof.
  intros F. unfold build_sample_indices.
  assert (G : forall l w0, Forall (fun f => fm_segment_frame f < 32) l -> w0 < 2 ^ 32 -> exists w, sample_indices_loop l [w0] = Ok [w] /\ w < 2 ^ 32 /\
    forall f, f < 32 -> (present w f = true <-> present w0 f = true \/ In f (map fm_segment_frame l))).
  { induction l as [|x l IH]; intros w0 FL W; cbn [sample_indices_loop map].
    - exists w0. split; auto. split; auto. intros f _. cbn. tauto.
    - inversion FL as [|? ? X FL']; subst.
      assert (WO : words_ok [w0]) by (constructor; auto).
      destruct (bitset_set_spec [w0] (fm_segment_frame x) true WO) as (b & E & WB & LB & MB); [exact X|]. rewrite E. cbn [bindo].
      destruct b as [|w1 [|? ?]]; try discriminate LB. inversion WB as [|? ? W1 _]; subst.
      destruct (IH w1 FL' W1) as (w & E2 & W2 & M2). exists w. split; auto. split; auto. intros f FL2. rewrite M2 by auto.
      rewrite <- !bmem_present by auto. rewrite MB. destruct (N.eqb_spec f (fm_segment_frame x)) as [-> |NE]; cbn [In]; [tauto|].
      split; [intros [A|A]; auto | intros [A|[A|A]]; auto; congruence]. }
  destruct (G frames 0 F) as (w & E & W & M); [reflexivity|]. exists w. rewrite E. cbn [bindo]. split; auto. split; auto.
  intros f FL. rewrite M by auto. split; auto. intros [A|A]; auto. unfold present in A. rewrite N.bits_0 in A. discriminate A.
Qed.

Lemma write_frames_ok bits : forall frames m off nb,
  Forall (fun f => fm_bits f = bits /\ fm_segment_frame f < 32 /\ exists d, fm_data f = Some d /\ bytes_ok d /\ (fm_segment_frame f + 1) * bits <= 8 * blen d) frames ->
  32 * bits < 2 ^ 32 -> bytes_ok m -> 8 * off + nb + bits * N.of_nat (length frames) <= 8 * blen m ->
  exists m', write_frames frames m off nb = Ok m' /\ same_but (8 * off + nb) (8 * off + nb + bits * N.of_nat (length frames)) m m' /\
    forall i f d b, nth_error frames i = Some f -> fm_data f = Some d -> b < bits ->
      mbit m' (8 * off + nb + N.of_nat i * bits + b) = mbit d (fm_segment_frame f * bits + b).
Proof.
  induction frames as [|f r IH]; intros m off nb F B BM L; cbn [write_frames length].
  - exists m. split; auto. split; [apply same_but_refl; auto|]. intros [|i] f d b K; discriminate K.
  - cbn [length] in L. inversion F as [|? ? (E & SF & d & D & BD & LD) F']; subst. rewrite D.
    assert (SB : fm_segment_frame f * fm_bits f <= 31 * fm_bits f) by (apply N.mul_le_mono_r; lia).
    rewrite mulw_small by (eapply N.le_lt_trans; [exact SB | lia]).
    destruct (memcpy_bits_ok m (8 * off + nb) d (fm_segment_frame f * fm_bits f) (fm_bits f)) as (m1 & M1 & S1 & C1); auto; [lia | lia |].
    rewrite M1. cbn [bindo]. pose proof (same_but_blen _ _ _ _ S1) as BL1.
    destruct (IH m1 off (nb + fm_bits f) F' B (same_but_ok _ _ _ _ S1)) as (m2 & M2 & S2 & C2); [rewrite BL1; lia|].
    exists m2. split; auto. split.
    + eapply same_but_trans; [eapply same_but_weaken; [exact S1 | lia | lia] | eapply same_but_weaken; [exact S2 | lia | lia]].
    + intros [|i] f' d' b K D' Lb.
      * injection K as <-. rewrite D in D'. injection D' as <-. destruct S2 as (_ & _ & S2). rewrite S2 by lia. rewrite <- C1 by auto. f_equal. lia.
      * cbn in K. rewrite <- (C2 i f' d' b K D' Lb). f_equal. lia.
Qed.

(* ---------- grouping the segments into chunks ---------- *)
Definition body (g : list seg_job) : N := 12 + sumN (map (fun j => 20 + dj j) g).
Definition rel (g : list seg_job) (i : nat) : N := sumN (map dj (firstn i g)).
Fixpoint pack (max : N) (jobs cur : list seg_job) : list (list seg_job) :=
  match jobs with
  | [] => [cur]
  | j :: r => if max <=? body cur + dj j + 35 then cur :: pack max r [j] else pack max r (cur ++ [j])
  end.
Fixpoint fend (max : N) (jobs : list seg_job) (bdo cs : N) : N :=
  match jobs with
  | [] => bdo + cs + 15
  | j :: r => if max <=? cs + dj j + 35 then fend max r (bdo + max) (32 + dj j) else fend max r bdo (cs + 20 + dj j)
  end.

Lemma body_app g j : body (g ++ [j]) = body g + 20 + dj j.
Proof. unfold body. rewrite map_app, ClipOrderFacts.sumN_app. cbn [map sumN]. lia. Qed.
Lemma body_one j : body [j] = 32 + dj j.
Proof. unfold body. cbn [map sumN]. lia. Qed.
Lemma body_split g : body g = 12 + 20 * N.of_nat (length g) + sumN (map dj g).
Proof. unfold body. induction g as [|j g IH]; cbn [map sumN length]; lia. Qed.
Lemma rel_S g i j : nth_error g i = Some j -> rel g (S i) = rel g i + dj j.
Proof.
  intros K. unfold rel. revert i K. induction g as [|x g IH]; intros [|i] K; try discriminate K; cbn in K.
  - injection K as ->. cbn [firstn map sumN]. lia.
  - cbn [firstn map sumN]. specialize (IH i K). cbn [firstn] in IH. lia.
Qed.
Lemma rel_le g i : rel g i <= sumN (map dj g).
Proof.
  unfold rel. rewrite <- (firstn_skipn i g) at 2. rewrite map_app, ClipOrderFacts.sumN_app. lia.
Qed.
Lemma rel_full g : rel g (length g) = sumN (map dj g).
Proof. unfold rel. rewrite firstn_all. reflexivity. Qed.
Lemma rel_app g j i : (i <= length g)%nat -> rel (g ++ [j]) i = rel g i.
Proof. intros L. unfold rel. rewrite firstn_app. replace (i - length g)%nat with 0%nat by lia. cbn [firstn]. rewrite app_nil_r. reflexivity. Qed.

Lemma pack_concat max : forall jobs cur, concat (pack max jobs cur) = cur ++ jobs.
Proof.
  induction jobs as [|j r IH]; intros cur; cbn [pack].
  - cbn. reflexivity.
  - destruct (max <=? _); cbn [concat]; rewrite IH; [reflexivity|]. rewrite <- app_assoc. reflexivity.
Qed.
Lemma pack_body max : forall jobs cur, Forall (fun j => dj j + 35 <= max) jobs -> body cur + 3 <= max -> Forall (fun g => body g + 3 <= max) (pack max jobs cur).
Proof.
  induction jobs as [|j r IH]; intros cur F B; cbn [pack]; [auto|]. inversion F as [|? ? J F']; subst.
  destruct (N.leb_spec max (body cur + dj j + 35)) as [L|L].
  - constructor; auto. apply IH; auto. rewrite body_one. lia.
  - apply IH; auto. rewrite body_app. lia.
Qed.
Lemma pack_nonempty max : forall jobs cur, cur ++ jobs <> [] ->
  exists g0 gs, pack max jobs cur = g0 :: gs /\ Forall (fun g => g <> []) gs /\ (gs = [] -> g0 <> []) /\ (cur <> [] -> g0 <> []).
Proof.
  induction jobs as [|j r IH]; intros cur NE; cbn [pack].
  - exists cur, []. rewrite app_nil_r in NE. auto.
  - destruct (max <=? body cur + dj j + 35).
    + destruct (IH [j]) as (g0 & gs & E & F & A & B); [cbn; discriminate|]. exists cur, (pack max r [j]). split; auto. rewrite E.
      split; [constructor; auto; apply B; discriminate|]. split; auto. discriminate.
    + destruct (IH (cur ++ [j])) as (g0 & gs & E & F & A & B); [intros H; apply app_eq_nil in H; destruct H as (H & _); apply app_eq_nil in H; destruct H; discriminate|].
      exists g0, gs. split; auto. split; auto. split; auto. intros _. apply B. intros H. apply app_eq_nil in H. destruct H; discriminate.
Qed.
Lemma fend_ge max : forall jobs bdo cs, Forall (fun j => dj j + 35 <= max) jobs -> cs + 3 <= max -> bdo + cs + 15 <= fend max jobs bdo cs.
Proof.
  induction jobs as [|j r IH]; intros bdo cs F C; cbn [fend]; [lia|]. inversion F as [|? ? J F']; subst.
  destruct (N.leb_spec max (cs + dj j + 35)) as [L|L].
  - specialize (IH (bdo + max) (32 + dj j) F' ltac:(lia)). lia.
  - specialize (IH bdo (cs + 20 + dj j) F' ltac:(lia)). lia.
Qed.
(** the size of chunk [k] of the groups [G] *)
Definition chunk_size_of (max : N) (G : list (list seg_job)) (k : nat) : N := if (S k =? length G)%nat then body (nth k G []) + 15 else max.
Lemma fend_pack max : forall jobs bdo cur, fend max jobs bdo (body cur) =
  bdo + N.of_nat (length (pack max jobs cur) - 1) * max + body (last (pack max jobs cur) []) + 15.
Proof.
  induction jobs as [|j r IH]; intros bdo cur; cbn [fend pack].
  - cbn. lia.
  - destruct (max <=? body cur + dj j + 35).
    + specialize (IH (bdo + max) [j]). rewrite body_one in IH. rewrite IH. cbn [length].
      assert (NE : pack max r [j] <> []) by (destruct (pack_nonempty max r [j]) as (x & y & E & _); [discriminate | rewrite E; discriminate]).
      destruct (pack max r [j]) as [|g gs]; [congruence|]. cbn [length last]. rewrite !Nat.sub_succ, !Nat.sub_0_r. rewrite Nat2N.inj_succ. lia.
    + rewrite <- body_app. apply IH.
Qed.
