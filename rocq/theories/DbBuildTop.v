(** Proofs about the whole bulk data of a tier. *)
From Coq Require Import Lia.
From Verif Require Import Word WordFacts MemoryUtils MemoryFacts SeekSpec DbTiers DbStream DbBuild BuildSpec ByteFacts DbBuildFacts DbHeaderFacts DbSampleFacts.
Local Open Scope N_scope.
Ltac Zify.zify_post_hook ::= idtac.

Lemma fend_bulk_size max : forall jobs off cs, bulk_size max jobs off cs = fend max jobs off cs.
Proof. induction jobs as [|j r IH]; intros off cs; cbn [bulk_size fend]; [reflexivity|]. cbv zeta. fold (dj j). rewrite !IH. reflexivity. Qed.

Lemma new_size cs d max : max <= 2147483648 -> cs + 3 <= max -> d + 35 <= max -> addw 32 (addw 32 (addw 32 cs d) 15) 20 = cs + d + 35.
Proof. intros A B C. rewrite (addw32 cs d) by lia. rewrite (addw32 _ 15) by lia. rewrite addw32 by lia. lia. Qed.

(** the call that computes the size *)
Lemma size_pass_ok max : max <= 2 ^ 31 -> forall jobs bdo rel cs ci hdr,
  Forall (job_ok max) jobs -> cs + 3 <= max -> 12 < cs \/ jobs <> [] -> 12 <= cs -> fend max jobs bdo cs < 2 ^ 32 ->
  header_pass max jobs None hdr bdo rel cs ci = Ok (None, fend max jobs bdo cs).
Proof.
  intros MX. change (2 ^ 31) with 2147483648 in MX. induction jobs as [|j r IH]; intros bdo rel cs ci hdr FJ CS NE C12 F32.
  - destruct NE as [NE|NE]; [|congruence]. cbn [header_pass fend] in *. unfold sizeof_chunk_header, simd_padding. destruct (N.eqb_spec cs 12); [lia|].
    change (2 ^ 32) with 4294967296 in F32. rewrite (addw32 cs) by lia. rewrite addw32 by lia. do 2 f_equal. lia.
  - inversion FJ as [|? ? JO FJ']; subst. destruct (dj_bound max j JO) as (DB & DS). cbn [header_pass fend] in *. rewrite DS. unfold sizeof_chunk_header, simd_padding, sizeof_chunk_segment_header.
    rewrite (new_size cs (dj j) max MX CS DB).
    assert (FJD : Forall (fun j => dj j + 35 <= max) r) by (eapply Forall_impl; [|exact FJ']; intros x X; apply (dj_bound max x X)).
    destruct (N.leb_spec max (cs + dj j + 35)) as [L|L].
    + pose proof (fend_ge max r (bdo + max) (32 + dj j) FJD ltac:(lia)) as FG. change (2 ^ 32) with 4294967296 in F32, IH.
      rewrite (addw32 (dj j) 20) by lia. rewrite (addw32 12) by lia. rewrite (addw32 bdo) by lia. replace (12 + (dj j + 20)) with (32 + dj j) by lia. apply IH; auto; lia.
    + pose proof (fend_ge max r bdo (cs + 20 + dj j) FJD ltac:(lia)) as FG. change (2 ^ 32) with 4294967296 in F32, IH.
      rewrite (addw32 (dj j) 20) by lia. rewrite (addw32 cs) by lia. replace (cs + (dj j + 20)) with (cs + 20 + dj j) by lia. apply IH; auto; lia.
Qed.

(** the chunk descriptions *)
Fixpoint descr (max : N) (G : list (list seg_job)) (bdo : N) : list (N * N) :=
  match G with
  | [] => []
  | [g] => [(body g + 15, bdo)]
  | g :: r => (max, bdo) :: descr max r (bdo + max)
  end.
Lemma descr_cons max g g' r bdo : descr max (g :: g' :: r) bdo = (max, bdo) :: descr max (g' :: r) (bdo + max).
Proof. reflexivity. Qed.
Lemma pack_cons max jobs cur : exists g r, pack max jobs cur = g :: r.
Proof.
  revert cur. induction jobs as [|j r IH]; intros cur; cbn [pack]; eauto. destruct (max <=? _); eauto.
Qed.
Lemma descriptions_ok max : max <= 2 ^ 31 -> forall jobs bdo cur,
  Forall (job_ok max) jobs -> body cur + 3 <= max -> cur ++ jobs <> [] -> fend max jobs bdo (body cur) < 2 ^ 32 ->
  chunk_descriptions max jobs bdo (body cur) = descr max (pack max jobs cur) bdo.
Proof.
  intros MX. change (2 ^ 31) with 2147483648 in MX. induction jobs as [|j r IH]; intros bdo cur FJ CS NE F32.
  - rewrite app_nil_r in NE. cbn [chunk_descriptions fend pack descr] in *. unfold sizeof_chunk_header, simd_padding.
    assert (B12 : 20 <= body cur) by (destruct cur; [congruence|]; unfold body; cbn [map sumN]; lia).
    destruct (N.eqb_spec (body cur) 12); [lia|]. rewrite addw32 by (change (2 ^ 32) with 4294967296 in F32; lia). reflexivity.
  - inversion FJ as [|? ? JO FJ']; subst. destruct (dj_bound max j JO) as (DB & DS). cbn [chunk_descriptions fend pack] in *. rewrite DS. unfold sizeof_chunk_header, simd_padding, sizeof_chunk_segment_header.
    rewrite (new_size _ (dj j) max MX CS DB).
    assert (FJD : Forall (fun j => dj j + 35 <= max) r) by (eapply Forall_impl; [|exact FJ']; intros x X; apply (dj_bound max x X)).
    destruct (N.leb_spec max (body cur + dj j + 35)) as [L|L].
    + pose proof (fend_ge max r (bdo + max) (32 + dj j) FJD ltac:(lia)) as FG. change (2 ^ 32) with 4294967296 in F32, IH.
      specialize (IH (bdo + max) [j] FJ'). rewrite body_one in IH.
      rewrite (addw32 (dj j) 20) by lia. rewrite (addw32 12) by lia. rewrite (addw32 bdo) by lia. replace (12 + (dj j + 20)) with (32 + dj j) by lia. rewrite IH; [|lia|discriminate|lia].
      destruct (pack_cons max r [j]) as (g & G & E). rewrite E, descr_cons. reflexivity.
    + pose proof (fend_ge max r bdo (body cur + 20 + dj j) FJD ltac:(lia)) as FG. change (2 ^ 32) with 4294967296 in F32, IH.
      specialize (IH bdo (cur ++ [j]) FJ'). rewrite body_app in IH.
      rewrite (addw32 (dj j) 20) by lia. rewrite (addw32 (body cur)) by lia. replace (body cur + (dj j + 20)) with (body cur + 20 + dj j) by lia. apply IH; [lia| |lia].
      intros H. apply app_eq_nil in H. destruct H as (H & _). apply app_eq_nil in H. destruct H; discriminate.
Qed.

(* ---------- the chunks that are described ---------- *)
Definition indices_of (j : seg_job) : N := match build_sample_indices (sj_frames j) with Ok w => w | _ => 0 end.
Definition seg_of (max : N) (k : nat) (g : list seg_job) (ij : nat * seg_job) : cseg :=
  {| cs_clip_hash := sj_hash (snd ij); cs_sample_indices := indices_of (snd ij); cs_samples_offset := place max k g (fst ij); cs_segment_header_offset := sj_segment_header (snd ij) |}.
Definition enum {A} (l : list A) : list (nat * A) := combine (seq 0 (length l)) l.
Lemma enum_nth {A} (l : list A) i x : nth_error l i = Some x -> nth_error (enum l) i = Some (i, x).
Proof.
  unfold enum. intros K. assert (G : forall b (l : list A) i, nth_error l i = Some x -> nth_error (combine (seq b (length l)) l) i = Some ((b + i)%nat, x)).
  { clear. intros b l. revert b. induction l as [|a l IH]; intros b [|i] K; try discriminate K; cbn [length seq combine nth_error] in *.
    - injection K as ->. rewrite Nat.add_0_r. reflexivity.
    - rewrite (IH (S b) i K). do 2 f_equal. lia. }
  apply (G 0%nat l i K).
Qed.
Lemma enum_length {A} (l : list A) : length (enum l) = length l.
Proof. unfold enum. rewrite combine_length, seq_length. lia. Qed.
Lemma enum_snd {A} (l : list A) : map snd (enum l) = l.
Proof.
  unfold enum. generalize 0%nat. induction l as [|a l IH]; intros b; cbn [length seq combine map snd]; [reflexivity|]. rewrite IH. reflexivity.
Qed.
Lemma enum_app {A} (l : list A) x : enum (l ++ [x]) = enum l ++ [(length l, x)].
Proof.
  unfold enum. rewrite app_length. cbn [length]. rewrite Nat.add_1_r, seq_S. cbn [Nat.add].
  assert (G : forall (a : list nat) (b : list A) y z, length a = length b -> combine (a ++ [y]) (b ++ [z]) = combine a b ++ [(y, z)]).
  { induction a as [|p a IH]; intros [|q b] y z L; try discriminate L; [reflexivity|]. cbn [app combine]. rewrite IH; auto. }
  apply G. apply seq_length.
Qed.
Definition chunk_of (max : N) (G : list (list seg_job)) (kg : nat * list seg_job) : chunk :=
  {| ck_offset := N.of_nat (fst kg) * max; ck_size := chunk_size_of max G (fst kg); ck_segs := map (seg_of max (fst kg) (snd kg)) (enum (snd kg)) |}.
Definition chunks_of (max : N) (G : list (list seg_job)) : list chunk := map (chunk_of max G) (enum G).

Lemma chunks_nth max G k g : nth_error G k = Some g -> nth_error (chunks_of max G) k = Some (chunk_of max G (k, g)).
Proof. intros K. unfold chunks_of. apply map_nth_error, enum_nth. exact K. Qed.
Lemma chunks_length max G : length (chunks_of max G) = length G.
Proof. unfold chunks_of. rewrite map_length, enum_length. reflexivity. Qed.
Lemma chunks_nth_inv max G k ch : nth_error (chunks_of max G) k = Some ch -> exists g, nth_error G k = Some g /\ ch = chunk_of max G (k, g).
Proof.
  intros K. assert (L : (k < length G)%nat) by (rewrite <- (chunks_length max); apply nth_error_Some; congruence).
  destruct (nth_error G k) as [g|] eqn:E; [|apply nth_error_None in E; lia]. exists g. split; auto. rewrite (chunks_nth max G k g E) in K. injection K as <-. reflexivity.
Qed.
Lemma segs_nth_inv max k g i sg : nth_error (map (seg_of max k g) (enum g)) i = Some sg -> exists j, nth_error g i = Some j /\ sg = seg_of max k g (i, j).
Proof.
  intros K. assert (L : (i < length g)%nat) by (rewrite <- enum_length, <- (map_length (seg_of max k g)); apply nth_error_Some; congruence).
  destruct (nth_error g i) as [j|] eqn:E; [|apply nth_error_None in E; lia]. exists j. split; auto. rewrite (map_nth_error _ _ _ (enum_nth g i j E)) in K. injection K as <-. reflexivity.
Qed.
Lemma count_segs max G k : length (flat_map ck_segs (firstn k (chunks_of max G))) = length (concat (firstn k G)).
Proof.
  unfold chunks_of. rewrite firstn_map.
  assert (E : forall (l : list (nat * list seg_job)), length (flat_map ck_segs (map (chunk_of max G) l)) = length (concat (map snd l))).
  { induction l as [|x l IH]; [reflexivity|]. cbn [map flat_map concat]. rewrite !app_length, IH. f_equal. unfold chunk_of. cbn [ck_segs]. rewrite map_length, enum_length. reflexivity. }
  rewrite E, <- firstn_map, enum_snd. reflexivity.
Qed.
Lemma concat_nth {A} (G : list (list A)) k g i x : nth_error G k = Some g -> nth_error g i = Some x -> nth_error (concat G) (length (concat (firstn k G)) + i) = Some x.
Proof.
  revert k. induction G as [|g0 G IH]; intros [|k] K I; try discriminate K; cbn in K.
  - injection K as ->. cbn [firstn concat length]. rewrite Nat.add_0_l. rewrite nth_error_app1; [exact I | apply nth_error_Some; congruence].
  - cbn [firstn concat]. rewrite app_length. rewrite nth_error_app2 by lia. rewrite <- (IH k K I). f_equal. lia.
Qed.
Lemma concat_describes max G : Forall (Forall (job_ok max)) G -> (forall k g i j, nth_error G k = Some g -> nth_error g i = Some j -> place max k g i < 2 ^ 32) ->
  Forall2 describes (flat_map ck_segs (chunks_of max G)) (concat G).
Proof.
  intros F P.
  assert (D1 : forall k g, Forall (job_ok max) g -> (forall i j, nth_error g i = Some j -> place max k g i < 2 ^ 32) -> Forall2 describes (map (seg_of max k g) (enum g)) g).
  { clear. intros k g F P. rewrite <- (enum_snd g) at 3.
    assert (Q : forall l : list (nat * seg_job), (forall x, In x l -> nth_error g (fst x) = Some (snd x)) -> Forall2 describes (map (seg_of max k g) l) (map snd l)).
    { induction l as [|(i, j) l IH]; intros H; cbn [map]; constructor.
      - pose proof (H (i, j) (or_introl eq_refl)) as E. cbn in E. rewrite Forall_forall in F. destruct (F j (nth_error_In _ _ E)) as (_ & _ & _ & (_ & bits & _ & FO) & _).
        destruct (sample_indices_ok (sj_frames j)) as (w & W1 & W2 & W3). { eapply Forall_impl; [|exact FO]. intros a A. apply A. }
        unfold describes, seg_of, indices_of. cbn. rewrite W1. split; auto. split; auto. split; auto. split; [eapply P; eauto|]. exact W3.
      - apply IH. intros x X. apply H. right. exact X. }
    apply Q. intros (i, j) I. apply In_nth_error in I. destruct I as (n & I). assert (L : (n < length g)%nat) by (rewrite <- enum_length; apply nth_error_Some; congruence).
    destruct (nth_error g n) as [j'|] eqn:E; [|apply nth_error_None in E; lia]. rewrite (enum_nth g n j' E) in I. injection I as <- <-. cbn. exact E. }
  unfold chunks_of. rewrite <- (enum_snd G) at 3.
  assert (Q : forall l : list (nat * list seg_job), (forall x, In x l -> nth_error G (fst x) = Some (snd x)) -> Forall2 describes (flat_map ck_segs (map (chunk_of max G) l)) (concat (map snd l))).
  { induction l as [|(k, g) l IH]; intros H; cbn [map flat_map concat]; [constructor|]. apply Forall2_app.
    - pose proof (H (k, g) (or_introl eq_refl)) as E. cbn in E. cbn. apply D1; [rewrite Forall_forall in F; apply F; eapply nth_error_In; eauto | intros; eapply P; eauto].
    - apply IH. intros x X. apply H. right. exact X. }
  apply Q. intros (i, j) I. apply In_nth_error in I. destruct I as (n & I). assert (L : (n < length G)%nat) by (rewrite <- enum_length; apply nth_error_Some; congruence).
  destruct (nth_error G n) as [j'|] eqn:E; [|apply nth_error_None in E; lia]. rewrite (enum_nth G n j' E) in I. injection I as <- <-. cbn. exact E.
Qed.
Lemma descr_chunks max G : descr max G 0 = map (fun ch => (ck_size ch, ck_offset ch)) (chunks_of max G).
Proof.
  unfold chunks_of. rewrite map_map. unfold chunk_of. cbn [ck_size ck_offset].
  assert (Q : forall pre suf, descr max suf (N.of_nat (length pre) * max) =
    map (fun x : nat * list seg_job => (chunk_size_of max (pre ++ suf) (fst x), N.of_nat (fst x) * max)) (combine (seq (length pre) (length suf)) suf)).
  { intros pre suf. revert pre. induction suf as [|g r IH]; intros pre; [reflexivity|]. specialize (IH (pre ++ [g])). rewrite app_length in IH. cbn [length] in IH.
    rewrite <- app_assoc in IH. cbn [app] in IH. rewrite Nat.add_1_r in IH. cbn [length seq combine map fst]. rewrite <- IH. clear IH.
    unfold chunk_size_of. rewrite app_length. cbn [length]. destruct r as [|g' r].
    - cbn [descr length]. destruct (Nat.eqb_spec (S (length pre)) (length pre + 1)); [|lia]. rewrite app_nth2 by auto. rewrite Nat.sub_diag. reflexivity.
    - rewrite descr_cons. cbn [length]. destruct (Nat.eqb_spec (S (length pre)) (length pre + S (S (length r)))); [lia|]. f_equal. f_equal. lia. }
  apply (Q [] G).
Qed.

Lemma align4 x : x + 3 < 2 ^ 32 -> x <= align_to 32 x 4 /\ align_to 32 x 4 < x + 4.
Proof.
  intros H. change 4 with (2 ^ 2) at 1 2. destruct (align_to_spec 32 x 2) as (A & _ & B & _); [lia | lia | lia | exact H |]. split; [exact A | exact B].
Qed.

Lemma pack_all max jobs : Forall (job_ok max) jobs -> jobs <> [] -> groups_ok max (pack max jobs []) (fend max jobs 0 12) \/ 2 ^ 32 <= fend max jobs 0 12.
Proof.
  intros FJ NE. destruct (N.lt_ge_cases (fend max jobs 0 12) (2 ^ 32)) as [L|L]; [left|right; exact L].
  assert (FJD : Forall (fun j => dj j + 35 <= max) jobs) by (eapply Forall_impl; [|exact FJ]; intros x X; apply (dj_bound max x X)).
  pose proof (fend_pack max jobs 0 []) as FP. change (body []) with 12 in FP. rewrite N.add_0_l in FP. split; [|rewrite <- FP; split; [lia | exact L]].
  assert (B0 : body [] + 3 <= max). { destruct jobs as [|j r]; [congruence|]. inversion FJD; subst. change (body []) with 12. lia. }
  pose proof (pack_body max jobs [] FJD B0) as PB. rewrite Forall_forall in PB. apply Forall_forall. intros g I. split; auto.
  apply Forall_forall. intros j J. rewrite Forall_forall in FJ. apply FJ. rewrite <- (app_nil_l jobs), <- (pack_concat max jobs []). apply in_concat. eauto.
Qed.

Lemma Forall_inv_ne {A} {P : A -> Prop} {l} : Forall P l -> l <> [] -> exists x, P x.
Proof. intros F N. destruct F; [congruence | eauto]. Qed.
Lemma pack_body47 max : forall jobs cur, Forall (fun j => data_bytes (sj_frames j) + 47 <= max) jobs -> body cur + 15 <= max -> Forall (fun g => body g + 15 <= max) (pack max jobs cur).
Proof.
  induction jobs as [|j r IH]; intros cur F B; cbn [pack]; [auto|]. inversion F as [|? ? J F']; subst. fold (dj j) in J.
  destruct (N.leb_spec max (body cur + dj j + 35)) as [L|L]; [constructor; auto; apply IH; auto; rewrite body_one; lia | apply IH; auto; rewrite body_app; lia].
Qed.
Lemma build_bulk_data_ok max tier jobs padded : tier <> [] -> jobs <> [] -> Forall (job_ok max) jobs -> max <= 2 ^ 31 -> bulk_size max jobs 0 12 + 3 < 2 ^ 32 ->
  exists m chunks, build_bulk_data max tier jobs padded = Ok m /\ bytes_ok m /\
    bulk_size max jobs 0 12 <= blen m /\
    write_database_chunk_descriptions max tier jobs = map (fun ch => (ck_size ch, ck_offset ch)) chunks /\ bulk_data_of max jobs m chunks.
Proof.
  intros TN JN FJ MX BS. rewrite fend_bulk_size in *. set (G := pack max jobs []). set (n := fend max jobs 0 12) in *.
  assert (N32 : n < 2 ^ 32) by (change (2 ^ 32) with 4294967296 in *; lia).
  assert (FJD : Forall (fun j => dj j + 35 <= max) jobs) by (eapply Forall_impl; [|exact FJ]; intros x X; apply (dj_bound max x X)).
  assert (B0 : body [] + 3 <= max). { destruct jobs as [|j r]; [congruence|]. inversion FJD; subst. change (body []) with 12. lia. }
  destruct (pack_all max jobs FJ JN) as [GO|GO]; [|exfalso; fold n in GO; lia]. fold G n in GO.
  pose proof (fend_pack max jobs 0 []) as FP. change (body []) with 12 in FP. rewrite N.add_0_l in FP. fold n G in FP.
  unfold build_bulk_data, write_database_bulk_data. destruct tier as [|t0 tier']; [congruence|].
  rewrite (size_pass_ok max MX jobs 0 0 sizeof_chunk_header 0 0 FJ); [|exact B0|right; exact JN|reflexivity|exact N32]. cbn [bindo]. change sizeof_chunk_header with 12. fold n.
  set (size := if padded then align_to 32 n 4 else n).
  assert (SZ : n <= size). { unfold size. destruct padded; [|lia]. apply align4. exact BS. }
  clearbody size. set (m0 := repeat 0 (N.to_nat size)). assert (B00 : bytes_ok m0) by (apply Forall_forall; intros x X; apply repeat_spec in X; subst x; reflexivity).
  assert (L0 : blen m0 = size) by (unfold blen, m0; rewrite repeat_length; lia).
  pose proof (fend_ge max jobs 0 12 FJD B0) as FG. fold n in FG.
  destruct (start_chunk_ok m0 0 0 B00) as (m1 & M1 & S1 & R1); [lia | reflexivity |]. change (N.of_nat 0) with 0 in M1. rewrite M1. cbn [bindo].
  pose proof (same_but_ok _ _ _ _ S1) as B1. pose proof (same_but_blen _ _ _ _ S1) as L1.
  destruct (header_pass_ok max MX jobs [] [] m1 FJ) as (m2 & M2 & B2 & L2 & H2); [constructor | exact B0 | | exact JN | rewrite L1, L0; exact SZ | exact N32 |].
  { constructor; auto. intros [|k] g K; discriminate K. }
  change (N.of_nat (length (@nil (list seg_job))) * max) with 0 in M2. change (body []) with 12 in M2. change (sumN (map dj [])) with 0 in M2. change (N.of_nat (length (@nil (list seg_job)))) with 0 in M2.
  rewrite M2. cbn [bindo]. cbn [app] in H2. fold G in H2.
  destruct (pack_nonempty max jobs []) as (g0 & gs & PE & PN & _); [exact JN|]. fold G in PE.
  assert (K0 : nth_error G 0 = Some g0) by (rewrite PE; reflexivity).
  assert (SI : sinv max G m2 0 0).
  { constructor; [|  |exact B2].
    { intros k' g' K'. destruct (H2 k' g' K') as (Q1 & Q2). split; auto. eapply group_ext; [|exact Q1]. intros i _. unfold offsets, visited.
      destruct (Nat.ltb_spec k' 0), (Nat.ltb_spec i 0); try lia. rewrite andb_false_r. reflexivity. }
    intros k' g' i' j _ _ V. unfold visited in V. rewrite andb_false_r in V. discriminate V. }
  assert (GO2 : groups_ok max G (blen m2)). { destruct GO as (X & Y & Z). split; auto. split; auto. unfold blen. rewrite L2. fold (blen m1). rewrite L1, L0. lia. }
  destruct (sample_pass_ok max G MX jobs m2 0 g0 0 GO2 SI K0) as (m3 & M3 & L3 & S3).
  { lia. }
  { intros [|k'] g' K' P; [lia|]. rewrite PE in K'. cbn in K'. rewrite Forall_forall in PN. apply PN. eapply nth_error_In; eauto. }
  { pose proof (pack_concat max jobs []) as PC. fold G in PC. cbn [app] in PC. rewrite <- PC. rewrite PE. reflexivity. }
  change (N.of_nat 0 * max) with 0 in M3. change (N.of_nat 0) with 0 in M3. rewrite M3. cbn [bindo].
  assert (BL : blen m3 = size) by (unfold blen; rewrite L3, L2; fold (blen m1); rewrite L1; exact L0).
  exists m3, (chunks_of max G). split; [reflexivity|]. split; [apply (s_ok _ _ _ _ _ S3)|]. split; [rewrite BL; exact SZ|].
  split. { cbn [write_database_chunk_descriptions]. rewrite <- descr_chunks. change sizeof_chunk_header with (body []). apply descriptions_ok; auto. }
  (* what is in memory *)
  assert (VIS : forall k g i, nth_error G k = Some g -> visited (length G) 0 k i = true).
  { intros k g i K. unfold visited. assert ((k < length G)%nat) by (apply nth_error_Some; congruence). destruct (Nat.ltb_spec k (length G)); [reflexivity | lia]. }
  assert (ALL := GO). destruct ALL as (GF & GL & G32). rewrite Forall_forall in GF.
  assert (PLB : forall k g i j, nth_error G k = Some g -> nth_error g i = Some j -> place max k g i + dj j + 15 <= n).
  { intros k g i j K J. destruct (place_bounds max k g i j J) as (P1 & P2). destruct (group_end max G n k g GO K) as (E1 & E2 & _). lia. }
  split.
  { pose proof (pack_concat max jobs []) as PC. fold G in PC. cbn [app] in PC. rewrite <- PC. apply concat_describes.
    - apply Forall_forall. intros g I. apply GF. exact I.
    - intros k g i j K J. specialize (PLB k g i j K J). change (2 ^ 32) with 4294967296 in *. lia. }
  assert (SZC : forall k g, nth_error G k = Some g -> N.of_nat k * max + chunk_size_of max G k <= n /\ (S k = length G -> chunk_size_of max G k = body g + 15) /\ ((S k < length G)%nat -> chunk_size_of max G k = max) /\ body g <= chunk_size_of max G k).
  { intros k g K. destruct (group_end max G n k g GO K) as (E1 & E2 & E3). assert (KL : (k < length G)%nat) by (apply nth_error_Some; congruence). unfold chunk_size_of.
    destruct (Nat.eqb_spec (S k) (length G)) as [Q|Q].
    - rewrite (nth_error_nth _ _ [] K). split; [|split; [auto | split; [intros; lia | lia]]]. lia.
    - split; [|split; [intros; lia | split; [auto | lia]]]. specialize (E3 ltac:(lia)). lia. }
  split.
  - intros c ch K. destruct (chunks_nth_inv max G c ch K) as (g & KG & ->). rewrite chunks_length. destruct (SZC c g KG) as (Z1 & Z2 & Z3 & Z4).
    destruct (s_head _ _ _ _ _ S3 c g KG) as ((H1 & H1' & H1'') & HS).
    unfold chunk_of. cbn [ck_offset ck_size ck_segs fst snd]. split; [|split; [reflexivity|]; split; [rewrite BL; lia|]; split; [rewrite fend_bulk_size; fold n; exact Z1|]; split; [unfold body in Z4; lia|]; split; [exact Z3|]; split].
    + unfold chunk_in. cbn [ck_offset ck_size ck_segs]. split; [exact H1|]. split; [exact HS|]. rewrite map_length, enum_length. split; [exact H1'|].
      intros i sg KS. destruct (segs_nth_inv max c g i sg KS) as (j & KJ & ->). destruct (H1'' i j KJ) as (w & W0 & W1 & W2 & W3 & W4 & W5).
      unfold seg_of. cbn [cs_clip_hash cs_sample_indices cs_samples_offset cs_segment_header_offset fst snd]. unfold indices_of. rewrite W0.
      split; auto. split; auto. split; auto. unfold offsets in W3. rewrite (VIS c g i KG) in W3. exact W3.
    + intros Q. rewrite (Z2 Q). destruct (GF g (nth_error_In _ _ KG)) as (_ & B). lia.
    + intros F47. destruct (Nat.eq_dec (S c) (length G)) as [Q|Q].
      * rewrite (Z2 Q). destruct (Nat.eq_dec (length g) 0) as [LZ|LZ].
        { destruct g; [|discriminate LZ]. change (body []) with 12. pose proof (Forall_inv_ne F47 JN) as (x & X). cbn in X. lia. }
        pose proof (pack_body47 max) as PB2.
        assert (B15 : body [] + 15 <= max). { pose proof (Forall_inv_ne F47 JN) as (x & X). cbn in X. change (body []) with 12. lia. }
        specialize (PB2 jobs [] F47 B15). rewrite Forall_forall in PB2. apply PB2. eapply nth_error_In; eauto.
      * rewrite Z3; [lia|]. assert ((c < length G)%nat) by (apply nth_error_Some; congruence). lia.
  - intros c ch i sg j K KS KJ. destruct (chunks_nth_inv max G c ch K) as (g & KG & ->). unfold chunk_of in KS. cbn [ck_segs fst snd] in KS.
    destruct (segs_nth_inv max c g i sg KS) as (j' & KJ' & ->).
    assert (j' = j). { rewrite count_segs in KJ. pose proof (pack_concat max jobs []) as PC. fold G in PC. cbn [app] in PC. rewrite <- PC in KJ. rewrite (concat_nth G c g i j' KG KJ') in KJ. congruence. }
    subst j'. destruct (place_bounds max c g i j KJ') as (P1 & P2). destruct (SZC c g KG) as (Z1 & _ & _ & Z4).
    unfold chunk_of, seg_of. cbn [ck_offset ck_size ck_segs cs_samples_offset fst snd]. rewrite map_length, enum_length. fold (dj j).
    split; [exact P1|]. split; [lia|]. split; [rewrite BL; pose proof (PLB c g i j KG KJ'); lia|]. split.
    + intros sg' KS'. destruct (segs_nth_inv max c g (S i) sg' KS') as (j2 & KJ2 & ->). unfold seg_of. cbn [cs_samples_offset fst snd]. unfold place. rewrite (rel_S g i j KJ'). lia.
    + apply (s_data _ _ _ _ _ S3 c g i j KG KJ'). apply (VIS c g i KG).
Qed.
