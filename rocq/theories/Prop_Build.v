(** C22: the bulk data of a database tier holds exactly the key frames of the tier.  C25: a clip bound to a database finds
    every key frame.  The vocabulary is in BuildSpec.v, TierSpec.v, StreamSpec.v and SeekSpec.v. *)
From Coq Require Import ZArith NArith Reals List Bool Permutation Sorted Lia Lra.
From Flocq Require Import Core.
From Verif Require Import Word WordFacts MemoryUtils Float32 Float32Facts FloatOrder StripOrder SeekSpec StripSpec StripFacts StripOrderFacts ClipOrderFacts StripKeyFacts Strip
  DbStream Bitset DbStreamFacts StreamSpec Prop_Stream DbTiers TierSpec DbTiersFacts Prop_Strip Prop_Tiers DbBuild ClipRewrite BuildSpec ByteFacts DbBuildFacts DbHeaderFacts DbBuildTop TierJobFacts RewriteFacts DbEndFacts.
Import ListNotations.
Local Open Scope N_scope.
Ltac Zify.zify_post_hook ::= idtac.

(** For any segments that fit a chunk: the bulk data is built without touching a byte outside its buffer, its chunk
    descriptions are those of the chunks it is made of, every segment has its header in exactly one chunk and its key frames
    behind it, bit for bit, 15 bytes from the end or more. *)
Theorem C22_bulk_data : forall max tier jobs padded,
  tier <> [] -> jobs <> [] -> Forall (job_ok max) jobs -> max <= 2 ^ 31 -> bulk_size max jobs 0 12 + 3 < 2 ^ 32 ->
  exists m chunks, build_bulk_data max tier jobs padded = Ok m /\ bytes_ok m /\ bulk_size max jobs 0 12 <= blen m /\
    write_database_chunk_descriptions max tier jobs = map (fun ch => (ck_size ch, ck_offset ch)) chunks /\
    bulk_data_of max jobs m chunks.
Proof. intros. apply build_bulk_data_ok; auto. Qed.
Print Assumptions C22_bulk_data.

(** A tier with no key frame has no bulk data and no chunk. *)
Theorem C22_empty_tier : forall max jobs padded,
  build_bulk_data max [] jobs padded = Ok [] /\ write_database_chunk_descriptions max [] jobs = [].
Proof. intros. split; [destruct padded; reflexivity | reflexivity]. Qed.
Print Assumptions C22_empty_tier.

Lemma tiers_facts sizes clips files max pl pm high medium low :
  input_ok sizes clips files max pl pm -> build_tiers pl pm clips = Ok (high, medium, low) ->
  Permutation (map key (high ++ medium ++ low)) (all_frames sizes) /\
  (forall tier, tier = high \/ tier = medium \/ tier = low ->
    StronglySorted key_lt (map key tier) /\ Forall (mapping_ok sizes clips) tier /\ (forall x, In x tier -> In (key x) (all_frames sizes))).
Proof.
  intros (LEN & CL & LF & FO & RT & MX & (F1 & R1) & (F2 & R2) & TT) B.
  destruct (C21_tiers_partition sizes clips pl pm LEN CL F1 R1 F2 R2 TT) as (h' & m' & l' & B' & P & MO & MI & _ & _ & S1 & S2 & S3).
  rewrite B in B'. assert (E : (h', m', l') = (high, medium, low)) by congruence. injection E as -> -> ->. clear B'. split; auto.
  assert (IN : forall tier, tier = high \/ tier = medium \/ tier = low -> incl tier (high ++ medium ++ low)).
  { intros tier [-> |[-> | ->]] x I; rewrite !in_app_iff; auto. }
  intros tier T. split; [destruct T as [-> |[-> | ->]]; auto|]. split.
  - apply Forall_forall. intros x I. rewrite Forall_forall in MO. apply MO. apply (IN tier T). exact I.
  - intros x I. eapply Permutation_in; [exact P|]. apply in_map. apply (IN tier T). exact I.
Qed.

(** the bulk data of a tier of the database *)
Lemma tier_built sizes clips files max pl pm tier padded :
  input_ok sizes clips files max pl pm -> StronglySorted key_lt (map key tier) -> Forall (mapping_ok sizes clips) tier ->
  (forall x, In x tier -> In (key x) (all_frames sizes)) -> bulk_fits max files tier ->
  exists m chunks, build_bulk_data max tier (jobs_of files tier) padded = Ok m /\ tier_stored max tier (jobs_of files tier) m chunks.
Proof.
  intros (LEN & CL & LF & FO & RT & MX & _) TS TM TK BF. destruct tier as [|x0 tier'] eqn:ET.
  - destruct (C22_empty_tier max (jobs_of files []) padded) as (E1 & E2). exists [], []. split; auto. split; auto.
  - rewrite <- ET in *. assert (TN : tier <> []) by (rewrite ET; discriminate). clear ET x0 tier'.
    assert (JN : jobs_of files tier <> []).
    { intros JE. destruct tier as [|x t]; [congruence|]. pose proof (TK x (or_introl eq_refl)) as I. unfold key in I.
      destruct (all_frames_in sizes clips files max LEN CL LF FO RT _ _ _ I) as (z & n & Z & NS & _).
      assert (LL : (N.to_nat (fm_tracks x) < length files)%nat) by (rewrite LF; apply nth_error_Some; congruence).
      destruct (nth_error files (N.to_nat (fm_tracks x))) as [f|] eqn:KF; [|apply nth_error_None in KF; lia].
      destruct (file_sizes sizes clips files max LEN CL LF FO RT _ _ KF) as (z' & cl & KZ & KC & F & CO & LZ). assert (z' = z) by congruence. subst z'.
      assert (SL : (N.to_nat (fm_segment x) < length z)%nat) by (apply nth_error_Some; congruence). rewrite LZ in SL.
      destruct (nth_error (cf_headers f) (N.to_nat (fm_segment x))) as [h|] eqn:KH; [|apply nth_error_None in KH; lia].
      destruct (job_at sizes clips files max LEN CL LF FO RT _ TS TM TK _ _ _ _ KF KH) as (j & J & _). rewrite JE in J. destruct (job_index _ _ _); discriminate J. }
    destruct (C22_bulk_data max tier (jobs_of files tier) padded TN JN) as (m & chunks & E & _ & _ & D & BD); auto.
    { apply (jobs_ok sizes clips); auto. }
    exists m, chunks. split; auto. split; auto.
Qed.

(** The bulk data of both tiers of any database: built, with every segment of every clip in order and exactly the key
    frames of its tier. *)
Theorem C22_database : forall sizes clips files max low_proportion medium_proportion high medium low,
  input_ok sizes clips files max low_proportion medium_proportion ->
  build_tiers low_proportion medium_proportion clips = Ok (high, medium, low) ->
  bulk_fits max files medium -> bulk_fits max files low ->
  exists medium_bytes medium_chunks low_bytes low_chunks,
    build_bulk_data max medium (jobs_of files medium) true = Ok medium_bytes /\ tier_stored max medium (jobs_of files medium) medium_bytes medium_chunks /\
    build_bulk_data max low (jobs_of files low) false = Ok low_bytes /\ tier_stored max low (jobs_of files low) low_bytes low_chunks.
Proof.
  intros sizes clips files max pl pm high medium low IO B B1 B2. destruct (tiers_facts _ _ _ _ _ _ _ _ _ IO B) as (_ & T).
  destruct (T medium ltac:(auto)) as (S1 & M1 & K1). destruct (T low ltac:(auto)) as (S2 & M2 & K2).
  destruct (tier_built _ _ _ _ _ _ _ true IO S1 M1 K1 B1) as (mm & cm & E1 & TS1).
  destruct (tier_built _ _ _ _ _ _ _ false IO S2 M2 K2 B2) as (ml & cl & E2 & TS2).
  exists mm, cm, ml, cl. auto.
Qed.
Print Assumptions C22_database.

(** every segment of the bulk data has its own runtime header *)
Lemma headers_nodup sizes clips files max pl pm tier chunks :
  input_ok sizes clips files max pl pm -> StronglySorted key_lt (map key tier) -> Forall (mapping_ok sizes clips) tier ->
  (forall x, In x tier -> In (key x) (all_frames sizes)) -> Forall2 describes (flat_map ck_segs chunks) (jobs_of files tier) ->
  NoDup (map cs_segment_header_offset (flat_map ck_segs chunks)).
Proof.
  intros (LEN & CL & LF & FO & RT & MX & _) TS TM TK D.
  assert (E : map cs_segment_header_offset (flat_map ck_segs chunks) = map sj_segment_header (jobs_of files tier)).
  { clear - D. induction D as [|a b l l' (_ & H & _) D IH]; [reflexivity|]. cbn [map]. rewrite H, IH. reflexivity. }
  rewrite E. clear D E. set (jobs := jobs_of files tier). set (ns := map (fun f => length (cf_headers f)) files).
  apply NoDup_nth_error. rewrite map_length. intros i i' IL EQ.
  assert (G : forall i, (i < length jobs)%nat -> exists c s n, nth_error ns c = Some n /\ (s < n)%nat /\ i = job_index ns c s /\ nth_error (map sj_segment_header jobs) i = Some (runtime_offset ns c s)).
  { clear - LEN CL LF FO RT TS TM TK. intros i L.
    assert (LS : (i < list_sum ns)%nat). { unfold ns. rewrite <- (pairs_ns files), <- (clip_jobs_length tier (pairs files) 0 0). exact L. }
    destruct (index_split ns i LS) as (c & s & n & K1 & K2 & ->). exists c, s, n. split; auto. split; auto. split; auto. unfold ns in K1.
    destruct (nth_error files c) as [file|] eqn:KF.
    2:{ apply nth_error_None in KF. assert (nth_error (map (fun f => length (cf_headers f)) files) c = None) by (apply nth_error_None; rewrite map_length; auto). congruence. }
    rewrite (map_nth_error _ _ _ KF) in K1. injection K1 as <-. destruct (nth_error (cf_headers file) s) as [h|] eqn:KH; [|apply nth_error_None in KH; lia].
    destruct (job_at sizes clips files max LEN CL LF FO RT tier TS TM TK c s file h KF KH) as (j & J1 & J2 & _). fold ns in J1, J2. rewrite (map_nth_error _ _ _ J1). congruence. }
  destruct (G i IL) as (c & s & n & K1 & K2 & -> & K3).
  assert (IL' : (i' < length jobs)%nat). { rewrite K3 in EQ. rewrite <- (map_length sj_segment_header). apply nth_error_Some. rewrite <- EQ. discriminate. }
  destruct (G i' IL') as (c' & s' & n' & K1' & K2' & -> & K3'). rewrite K3, K3' in EQ. injection EQ as EQ.
  destruct (runtime_offset_inj ns c s c' s' _ _ K1 K1' K2 K2' EQ) as (-> & ->). reflexivity.
Qed.

(** A database built like this is one streaming works on (C23, C24), provided every segment leaves 47 bytes of a chunk free:
    the two headers and the padding. *)
Theorem C22_streamable : forall sizes clips files max low_proportion medium_proportion high medium low medium_bytes medium_chunks low_bytes low_chunks,
  input_ok sizes clips files max low_proportion medium_proportion -> 2 <= max ->
  build_tiers low_proportion medium_proportion clips = Ok (high, medium, low) ->
  (forall tier j, tier = medium \/ tier = low -> In j (jobs_of files tier) -> data_bytes (sj_frames j) + 47 <= max) ->
  bulk_fits max files medium -> bulk_fits max files low ->
  tier_stored max medium (jobs_of files medium) medium_bytes medium_chunks ->
  tier_stored max low (jobs_of files low) low_bytes low_chunks ->
  well_formed {| db_max_chunk_size := max; db_medium := medium_chunks; db_low := low_chunks |}.
Proof.
  intros sizes clips files max pl pm high medium low mm cm ml cl IO M2 B F47 B1 B2 T1 T2.
  destruct (tiers_facts _ _ _ _ _ _ _ _ _ IO B) as (_ & T). assert (MX : max <= 2 ^ 31) by apply IO.
  split; [cbn; change (2 ^ 31) with 2147483648 in MX; change (2 ^ 32) with 4294967296; lia|].
  assert (G : forall tier m chunks, tier = medium \/ tier = low -> tier_stored max tier (jobs_of files tier) m chunks -> bulk_fits max files tier ->
    (forall c ch, nth_error chunks (N.to_nat c) = Some ch -> ck_offset ch = c * max /\ 1 <= ck_size ch <= max /\ (c + 1 < N.of_nat (length chunks) -> ck_size ch = max) /\ ck_offset ch + ck_size ch < 2 ^ 32) /\
    NoDup (map cs_segment_header_offset (flat_map ck_segs chunks))).
  { intros tier m chunks Q (_ & TS) BF. destruct TS as [(-> & -> & ->)|(TN & D & C & _)].
    - split; [intros c ch K; destruct (N.to_nat c); discriminate K | constructor].
    - destruct (T tier ltac:(tauto)) as (S1 & M1 & K1). split; [|eapply headers_nodup; eauto].
      intros c ch K. destruct (C _ _ K) as (_ & C1 & C2 & C3 & C4 & C5 & C6 & C7). rewrite N2Nat.id in C1. unfold bulk_fits in BF. split; auto.
      split; [split; [lia|]; apply C7; apply Forall_forall; intros j I; apply (F47 tier j Q I)|]. split; [|lia]. intros L. apply C5. lia. }
  intros t ST. destruct t; [exfalso; apply ST; reflexivity | |].
  - apply (G medium mm cm); auto.
  - apply (G low ml cl); auto.
Qed.
Print Assumptions C22_streamable.

(** a tier with no chunk never gets any metadata *)
Lemma rt_set_rt s t t' x : streamable t -> streamable t' -> rt (set_rt s t' x) t = if tier_eqb t' t then x else rt s t.
Proof. intros A B. destruct t, t'; try (exfalso; apply A; reflexivity); try (exfalso; apply B; reflexivity); reflexivity. Qed.
Lemma empty_tier_meta db s e r s' t o : streamable t -> db_chunks db t = [] -> step db s e = Ok (r, s') -> tier_metadata (rt s' t) o = tier_metadata (rt s t) o.
Proof.
  intros ST EM E.
  assert (HC : forall s t' c, rt (handle_call s t' c) t = rt s t) by (intros; destruct t, t'; reflexivity).
  assert (SS : forall s w x, rt (set_streamer s w x) t = rt s t) by (intros s0 [] x; destruct t; reflexivity).
  assert (FI : forall b s w id, rt (finish_io b s w id) t = rt s t).
  { intros b s0 w id. unfold finish_io. destruct (find _ _) as [x|]; [|reflexivity]. destruct (b && io_in x), (io_tier x), t; reflexivity. }
  assert (FR : forall b s w id s', finish_request db b s w id = Ok s' -> tier_metadata (rt s' t) o = tier_metadata (rt s t) o).
  { clear E s s' r e. intros b s w id s'. unfold finish_request. destruct (_ <=? _); [congruence|]. destruct (nth_error _ _) as [q|]; [|discriminate].
    destruct (rq_is_valid q) eqn:V; cbn [negb]; [|congruence]. destruct (rq_gen q =? get_generation_id id); cbn [negb]; [|congruence].
    destruct (execute_request db b s q) as [s2| |] eqn:X; cbn [bindo]; try discriminate. cbv zeta. intros E. injection E as <-. rewrite SS.
    assert (SQ : streamable (rq_tier q)). { intros Q. unfold rq_is_valid in V. rewrite Q in V. discriminate V. }
    unfold execute_request in X. destruct (rq_action q).
    - assert (G : forall n i m p v f f', for_chunks n [] i m p v f = Ok f' -> f' = f).
      { intros [|n] i m p v f f' H; cbn [for_chunks] in H; [congruence|]. destruct (N.to_nat i); discriminate H. }
      destruct b.
      + destruct (for_chunks _ _ _ _ _ _ _) as [f'| |] eqn:F in X; cbn [bindo] in X; try discriminate X.
        destruct (bitset_set_range (loaded _) _ _ _) as [l'| |] in X; cbn [bindo] in X; try discriminate X.
        destruct (bitset_set_range _ _ _ _) as [l2| |] in X; cbn [bindo] in X; try discriminate X. injection X as <-.
        rewrite rt_set_rt by auto. destruct (tier_eqb (rq_tier q) t) eqn:TE; [|reflexivity].
        assert (rq_tier q = t) by (destruct (rq_tier q), t; try discriminate TE; reflexivity). rewrite H in *. rewrite EM in F. apply G in F. subst f'. reflexivity.
      + cbn [bindo] in X. destruct (bitset_set_range _ _ _ _) as [l2| |] in X; cbn [bindo] in X; try discriminate X. injection X as <-.
        rewrite rt_set_rt by auto. destruct (tier_eqb (rq_tier q) t) eqn:TE; [|reflexivity].
        assert (rq_tier q = t) by (destruct (rq_tier q), t; try discriminate TE; reflexivity). rewrite H. reflexivity.
    - destruct (bitset_set_range (loaded _) _ _ _) as [l'| |] in X; cbn [bindo] in X; try discriminate X.
      destruct (bitset_set_range _ _ _ _) as [l2| |] in X; cbn [bindo] in X; try discriminate X. injection X as <-.
      rewrite rt_set_rt by auto. destruct (tier_eqb (rq_tier q) t) eqn:TE; [|reflexivity].
      assert (rq_tier q = t) by (destruct (rq_tier q), t; try discriminate TE; reflexivity). rewrite H. reflexivity. }
  assert (NE : forall i : N, nth_error (@nil chunk) (N.to_nat i) = None) by (intros i; destruct (N.to_nat i); reflexivity).
  destruct e as [t' n|t' n|w id|w id]; cbn [step] in E.
  - destruct (stream_in db s t' n) as [(r0, s0)| |] eqn:X; cbn [bindo] in E; try discriminate E. injection E as <- <-. cbn [fst snd].
    assert (K : rt (match r0 with Dispatched c => handle_call s0 t' c | _ => s0 end) t = rt s0 t) by (destruct r0; auto). rewrite K. clear K.
    unfold stream_in in X. destruct t' eqn:T'; [injection X as <- <-; reflexivity | |]; rewrite <- T' in X; assert (ST' : streamable t') by (rewrite T'; discriminate).
    all: destruct (is_streaming s t'); [injection X as <- <-; reflexivity|]; destruct (scan_pending _ _) as [first|]; [|injection X as <- <-; reflexivity].
    all: cbv zeta in X; destruct (clamp_num _ _ =? 0); [injection X as <- <-; reflexivity|].
    all: destruct (build_request _ _ _ _ _) as [[(id, st')|]| |]; cbn [bindo] in X; try discriminate X; [|injection X as <- <-; reflexivity].
    all: destruct (nth_error (db_chunks db t') (N.to_nat first)) as [cf|] eqn:K; [|discriminate X]; destruct (nth_error _ _) as [cl|] in X; [|discriminate X].
    all: destruct (bitset_set_range _ _ _ _) as [l'| |] in X; cbn [bindo] in X; try discriminate X; injection X as <- <-.
    all: rewrite rt_set_rt by auto; destruct (tier_eqb t' t) eqn:TE; [|rewrite SS; reflexivity].
    all: assert (t' = t) by (destruct t', t; try discriminate TE; reflexivity); congruence.
  - destruct (stream_out db s t' n) as [(r0, s0)| |] eqn:X; cbn [bindo] in E; try discriminate E. injection E as <- <-. cbn [fst snd].
    assert (K : rt (match r0 with Dispatched c => handle_call s0 t' c | _ => s0 end) t = rt s0 t) by (destruct r0; auto). rewrite K. clear K.
    unfold stream_out in X. destruct t' eqn:T'; [injection X as <- <-; reflexivity | |]; rewrite <- T' in X; assert (ST' : streamable t') by (rewrite T'; discriminate).
    all: destruct (is_streaming s t'); [injection X as <- <-; reflexivity|]; destruct (scan_loaded _ _) as [first|]; [|injection X as <- <-; reflexivity].
    all: cbv zeta in X; destruct (clamp_num _ _ =? 0); [injection X as <- <-; reflexivity|].
    all: destruct (build_request _ _ _ _ _) as [[(id, st')|]| |]; cbn [bindo] in X; try discriminate X; [|injection X as <- <-; reflexivity].
    all: destruct (nth_error (db_chunks db t') (N.to_nat first)) as [cf|] eqn:K; [|discriminate X]; destruct (nth_error _ _) as [cl|] in X; [|discriminate X].
    all: destruct (bitset_set_range _ _ _ _) as [l'| |] in X; cbn [bindo] in X; try discriminate X.
    all: destruct (for_chunks _ _ _ _ _ _ _) as [f'| |] in X; cbn [bindo] in X; try discriminate X; injection X as <- <-.
    all: rewrite rt_set_rt by auto; destruct (tier_eqb t' t) eqn:TE; [|rewrite SS; reflexivity].
    all: assert (t' = t) by (destruct t', t; try discriminate TE; reflexivity); congruence.
  - destruct (finish_request _ _ _ _ _) as [s1| |] eqn:X; cbn [bindo] in E; try discriminate E. injection E as <- <-. rewrite (FR _ _ _ _ _ X), FI. reflexivity.
  - destruct (finish_request _ _ _ _ _) as [s1| |] eqn:X; cbn [bindo] in E; try discriminate E. injection E as <- <-. rewrite (FR _ _ _ _ _ X), FI. reflexivity.
Qed.

(** The words of the runtime headers in every state streaming can reach: those of C25. *)
Theorem C25_streamed_words : forall sizes clips files max low_proportion medium_proportion high medium low medium_bytes medium_chunks low_bytes low_chunks sh n0 n1 s c i file t,
  input_ok sizes clips files max low_proportion medium_proportion ->
  build_tiers low_proportion medium_proportion clips = Ok (high, medium, low) ->
  tier_stored max medium (jobs_of files medium) medium_bytes medium_chunks ->
  tier_stored max low (jobs_of files low) low_bytes low_chunks ->
  let db := {| db_max_chunk_size := max; db_medium := medium_chunks; db_low := low_chunks |} in
  well_formed db -> streamer_size n0 -> streamer_size n1 -> reachable db sh n0 n1 s -> streamable t ->
  nth_error files c = Some file -> (i < length (cf_headers file))%nat ->
  let w := tier_metadata (rt s t) (header_of files c i) in
  tier_word (db_chunks db t) (header_of files c i) w /\
  ((forall k ch, chunk_at db t k ch -> chunk_resident s t ch) -> w = streamed_word (db_chunks db t) (header_of files c i)).
Proof.
  intros sizes clips files max pl pm high medium low mm cm ml cl sh n0 n1 s c i file t IO B T1 T2 db W SZ0 SZ1 RE ST KF SL w.
  destruct (tiers_facts _ _ _ _ _ _ _ _ _ IO B) as (_ & T). pose proof IO as (LEN & CL & LF & FO & RT & MX & _).
  assert (TT : exists tier m, (tier = medium \/ tier = low) /\ tier_stored max tier (jobs_of files tier) m (db_chunks db t)).
  { destruct t; [exfalso; apply ST; reflexivity | exists medium, mm; auto | exists low, ml; auto]. }
  destruct TT as (tier & m & Q & _ & TSt). destruct (T tier ltac:(tauto)) as (S1 & M1 & K1).
  destruct TSt as [(-> & -> & EC)|(TN & BD)].
  - assert (Z : forall o, tier_metadata (rt s t) o = 0).
    { intros o. clear - RE ST EC. induction RE as [|s e r s' RE IH A E]; [destruct t; reflexivity|]. rewrite (empty_tier_meta db s e r s' t o ST EC E). exact IH. }
    unfold w. rewrite Z. split; [left; reflexivity|]. intros _. rewrite EC. reflexivity.
  - destruct (nth_error (cf_headers file) i) as [h|] eqn:KH; [|apply nth_error_None in KH; lia].
    destruct (job_at sizes clips files max LEN CL LF FO RT tier S1 M1 K1 c i file h KF KH) as (j & J1 & J2 & _).
    destruct (word_facts sizes clips files max LEN CL LF FO RT tier S1 M1 K1 m (db_chunks db t) c i file h TN BD KF KH) as (sg & E & I1 & I2 & SF & FB). fold (header_of files c i) in E.
    pose proof BD as (B1 & _). destruct (Forall2_nth _ _ _ _ _ B1 J1) as (sg2 & G1 & (D1 & D2 & D3 & D4 & D5)).
    destruct (flat_nth (db_chunks db t) _ sg2 G1) as (cc & ch & k & C1 & C2 & C3).
    assert (HO : cs_segment_header_offset sg2 = header_of files c i) by (rewrite D2; exact J2).
    pose proof (headers_nodup _ _ _ _ _ _ _ _ IO S1 M1 K1 B1) as ND.
    assert (SW : streamed_word (db_chunks db t) (header_of files c i) = seg_metadata sg2).
    { unfold streamed_word. destruct (find _ _) as [sg'|] eqn:FD.
      - apply find_some in FD. destruct FD as (I & EQ). apply N.eqb_eq in EQ. f_equal.
        apply In_nth_error in I. destruct I as (n' & I). pose proof (proj1 (NoDup_nth_error _) ND) as NN.
        assert (n' = job_index (map (fun f => length (cf_headers f)) files) c i).
        { apply NN; [rewrite map_length; apply nth_error_Some; congruence|]. rewrite (map_nth_error _ _ _ I), (map_nth_error _ _ _ G1). congruence. }
        subst n'. congruence.
      - exfalso. pose proof (find_none _ _ FD sg2 (nth_error_In _ _ G1)) as X. cbn in X. apply N.eqb_neq in X. apply X. exact HO. }
    assert (CA : chunk_at db t (N.of_nat cc) ch) by (unfold chunk_at; rewrite Nat2N.id; exact C1).
    pose proof (C23_visible_iff_resident db sh n0 n1 s t _ ch sg2 W SZ0 SZ1 RE ST CA (nth_error_In _ _ C2) D4 D3) as V. unfold visible_metadata in V. rewrite HO in V.
    rewrite <- (seg_metadata_eq sg2 D4 D3) in V. fold w in V. rewrite SW. destruct V as [(V1 & V2 & _)|(V1 & V2)].
    + split; [right; rewrite SW; exact V2 | intros _; exact V2].
    + split; [left; exact V2|]. intros AR. exfalso. specialize (AR _ _ CA (ck_offset ch)). specialize (V1 (ck_offset ch)).
      destruct W as (_ & W). destruct (W t ST) as (W1 & _). destruct (W1 _ _ CA) as (_ & SZ & _). rewrite V1 in AR by lia. discriminate AR. lia.
Qed.
Print Assumptions C25_streamed_words.

(** C25.  Whatever is streamed in of the two tiers (nothing of a segment or its whole chunk), the key frames decompression
    takes for available are those kept in the clip and those of the tiers streamed in, and the data it is pointed to is the
    data of that key frame in the original clip, bit for bit. *)
Theorem C25_every_key_frame_found : forall sizes clips files max low_proportion medium_proportion high medium low medium_bytes medium_chunks low_bytes low_chunks c file,
  input_ok sizes clips files max low_proportion medium_proportion ->
  build_tiers low_proportion medium_proportion clips = Ok (high, medium, low) ->
  tier_stored max medium (jobs_of files medium) medium_bytes medium_chunks ->
  tier_stored max low (jobs_of files low) low_bytes low_chunks ->
  nth_error files c = Some file ->
  exists out_bytes out_headers,
    rewrite_clip high (N.of_nat c) (cf_transforms file) (cf_bytes file) (cf_headers file) (cf_base file) (cf_tail file) = Ok (out_bytes, out_headers) /\
    length out_headers = length (cf_headers file) /\
    forall s h o medium_word low_word,
      nth_error (cf_headers file) s = Some h -> nth_error out_headers s = Some o ->
      tier_word medium_chunks (header_of files c s) medium_word -> tier_word low_chunks (header_of files c s) low_word ->
      let samples := {| clip_indices := st_sample_indices o; medium_metadata := medium_word; low_metadata := low_word |} in
      samples_ok samples /\
      (forall f, f < 32 -> (present (available_indices samples) f = true <->
         In (N.of_nat c, N.of_nat s, f) (map key high) \/
         (medium_word <> 0 /\ In (N.of_nat c, N.of_nat s, f) (map key medium)) \/
         (low_word <> 0 /\ In (N.of_nat c, N.of_nat s, f) (map key low)))) /\
      (forall f, f < 32 -> present (available_indices samples) f = true ->
         exists src r, locate samples f = Ok (src, r) /\
           forall b, b < sh_pose_bits h ->
             sampled_bit out_bytes (animated_at (cf_transforms file) (st_header o)) medium_bytes low_bytes src (sh_pose_bits (st_header o)) r b =
             mbit (cf_bytes file) (8 * animated_at (cf_transforms file) h + f * sh_pose_bits h + b)).
Proof.
  intros sizes clips files max pl pm high medium low mm cm ml cl c file IO B T1 T2 KF.
  destruct (tiers_facts _ _ _ _ _ _ _ _ _ IO B) as (PM & T). pose proof IO as (LEN & CL & LF & FO & RT & MX & _).
  destruct (T high ltac:(auto)) as (S0 & M0 & K0). destruct (T medium ltac:(auto)) as (S1 & M1 & K1). destruct (T low ltac:(auto)) as (S2 & M2 & K2).
  assert (LC : (c < length files)%nat) by (apply nth_error_Some; congruence).
  destruct (clip_rewritten sizes clips files max LEN CL LF FO RT high S0 M0 K0 c file KF LC) as (out & outs & E & LO & SK).
  exists out, outs. split; auto. split; auto. intros s h o mw lw KH KO W1 W2 samples.
  pose proof (SK s h o KH KO) as KP. unfold segment_kept in KP.
  destruct (get_segment_data (cf_transforms file) (sh_data h)) as ((fi, ri), ai) eqn:GI. destruct (get_segment_data (cf_transforms file) (sh_data (st_header o))) as ((fo, ro), ao) eqn:GO.
  destruct KP as (P1 & P2 & P3 & _ & _ & P6).
  assert (AI : animated_at (cf_transforms file) h = ai) by (unfold animated_at; rewrite GI; reflexivity).
  assert (AO : animated_at (cf_transforms file) (st_header o) = ao) by (unfold animated_at; rewrite GO; reflexivity).
  destruct (tier_word_facts sizes clips files max LEN CL LF FO RT medium S1 M1 K1 mm cm c s file h mw T1 KF KH W1) as (A1 & A2 & A3 & A4).
  destruct (tier_word_facts sizes clips files max LEN CL LF FO RT low S2 M2 K2 ml cl c s file h lw T2 KF KH W2) as (B1 & B2 & B3 & B4).
  assert (SO : samples_ok samples) by (split; [exact P2 | split; [exact A1 | exact B1]]).
  assert (PS : forall m f, f < 32 -> (present m f = true <-> In f (stored_frames m))).
  { intros m f L. unfold stored_frames. rewrite filter_In. split; [|tauto]. intros Q. split; auto. apply in_map_iff. exists (N.to_nat f). split; [lia|]. apply in_seq. lia. }
  assert (TB : forall w f, f < 32 -> N.testbit w (31 - f) = present (w mod 2 ^ 32) f).
  { intros w f L. unfold present. rewrite N.mod_pow2_bits_low by lia. reflexivity. }
  split; [exact SO|]. split.
  - intros f L. rewrite available_present by lia. rewrite !orb_true_iff. unfold samples. cbn [clip_indices medium_metadata low_metadata]. rewrite !TB by auto. rewrite !PS by auto.
    rewrite P3, kept_in.
    assert (QM : In f (stored_frames (mw mod 2 ^ 32)) <-> mw <> 0 /\ In (N.of_nat c, N.of_nat s, f) (map key medium)).
    { split.
      - intros I. assert (NZ : mw <> 0) by (intros Z; rewrite (A2 Z) in I; exact I). split; auto. destruct W1 as [W1|W1]; [congruence|]. rewrite (A3 W1) in I. apply kept_in. exact I.
      - intros (NZ & I). destruct W1 as [W1|W1]; [congruence|]. rewrite (A3 W1). apply kept_in. exact I. }
    assert (QL : In f (stored_frames (lw mod 2 ^ 32)) <-> lw <> 0 /\ In (N.of_nat c, N.of_nat s, f) (map key low)).
    { split.
      - intros I. assert (NZ : lw <> 0) by (intros Z; rewrite (B2 Z) in I; exact I). split; auto. destruct W2 as [W2|W2]; [congruence|]. rewrite (B3 W2) in I. apply kept_in. exact I.
      - intros (NZ & I). destruct W2 as [W2|W2]; [congruence|]. rewrite (B3 W2). apply kept_in. exact I. }
    tauto.
  - intros f L AV. destruct (locate_spec samples f SO ltac:(lia) AV) as (src & r & LQ & SRC & NT). exists src, r. split; auto.
    intros b LB. rewrite P1, AI, AO. destruct src as [|off|off]; cbn [source_offset_ok source_indices sampled_bit] in *; unfold samples in SRC, NT; cbn [clip_indices medium_metadata low_metadata] in SRC, NT.
    + rewrite P3 in NT. pose proof (P6 _ f b NT LB) as Q. rewrite N2Nat.id in Q. exact Q.
    + pose proof (A4 _ f b NT LB) as Q. rewrite N2Nat.id, <- SRC, AI in Q. exact Q.
    + pose proof (B4 _ f b NT LB) as Q. rewrite N2Nat.id, <- SRC, AI in Q. exact Q.
Qed.
Print Assumptions C25_every_key_frame_found.

(** Once both tiers are streamed in, every key frame of every segment is found. *)
Theorem C25_fully_streamed : forall sizes clips files max low_proportion medium_proportion high medium low medium_bytes medium_chunks low_bytes low_chunks c file,
  input_ok sizes clips files max low_proportion medium_proportion ->
  build_tiers low_proportion medium_proportion clips = Ok (high, medium, low) ->
  tier_stored max medium (jobs_of files medium) medium_bytes medium_chunks ->
  tier_stored max low (jobs_of files low) low_bytes low_chunks ->
  nth_error files c = Some file ->
  exists out_bytes out_headers,
    rewrite_clip high (N.of_nat c) (cf_transforms file) (cf_bytes file) (cf_headers file) (cf_base file) (cf_tail file) = Ok (out_bytes, out_headers) /\
    forall s h o z n f, nth_error (cf_headers file) s = Some h -> nth_error out_headers s = Some o ->
      nth_error sizes c = Some z -> nth_error z s = Some n -> f < n ->
      let samples := {| clip_indices := st_sample_indices o; medium_metadata := streamed_word medium_chunks (header_of files c s);
                        low_metadata := streamed_word low_chunks (header_of files c s) |} in
      exists src r, locate samples f = Ok (src, r) /\
        forall b, b < sh_pose_bits h ->
          sampled_bit out_bytes (animated_at (cf_transforms file) (st_header o)) medium_bytes low_bytes src (sh_pose_bits (st_header o)) r b =
          mbit (cf_bytes file) (8 * animated_at (cf_transforms file) h + f * sh_pose_bits h + b).
Proof.
  intros sizes clips files max pl pm high medium low mm cm ml cl c file IO B T1 T2 KF.
  destruct (C25_every_key_frame_found _ _ _ _ _ _ _ _ _ _ _ _ _ _ _ IO B T1 T2 KF) as (out & outs & E & _ & H). exists out, outs. split; auto.
  intros s h o z n f KH KO KZ KN L samples. destruct (tiers_facts _ _ _ _ _ _ _ _ _ IO B) as (PM & T). pose proof IO as (LEN & CL & LF & FO & RT & MX & _).
  destruct (T medium ltac:(auto)) as (S1 & M1 & K1). destruct (T low ltac:(auto)) as (S2 & M2 & K2).
  destruct (H s h o (streamed_word cm (header_of files c s)) (streamed_word cl (header_of files c s)) KH KO ltac:(right; reflexivity) ltac:(right; reflexivity)) as (_ & AV & G).
  assert (LC : (c < length clips)%nat) by (rewrite LEN; apply nth_error_Some; congruence).
  destruct (nth_error clips c) as [cl0|] eqn:KC; [|apply nth_error_None in KC; lia]. pose proof (CL _ _ _ KZ KC) as (_ & _ & _ & _ & Z5 & _).
  rewrite Forall_forall in Z5. pose proof (Z5 n (nth_error_In _ _ KN)) as N32. apply G; [lia|]. apply AV; [lia|].
  pose proof (in_all_frames sizes clips files max LEN CL LF FO RT c s f z n KZ KN L) as I. apply (Permutation_in _ (Permutation_sym PM)) in I.
  rewrite !map_app, !in_app_iff in I. destruct I as [I|[I|I]]; auto.
  - right. left. split; auto. intros Z. destruct (tier_word_facts sizes clips files max LEN CL LF FO RT medium S1 M1 K1 mm cm c s file h _ T1 KF KH (or_intror eq_refl)) as (_ & A2 & A3 & _).
    apply (proj2 (kept_in medium (N.of_nat c) (N.of_nat s) f)) in I. rewrite <- (A3 eq_refl), (A2 Z) in I. exact I.
  - right. right. split; auto. intros Z. destruct (tier_word_facts sizes clips files max LEN CL LF FO RT low S2 M2 K2 ml cl c s file h _ T2 KF KH (or_intror eq_refl)) as (_ & A2 & A3 & _).
    apply (proj2 (kept_in low (N.of_nat c) (N.of_nat s) f)) in I. rewrite <- (A3 eq_refl), (A2 Z) in I. exact I.
Qed.
Print Assumptions C25_fully_streamed.

(** A rewritten clip keeps the format and the ranges of its sub-tracks, and the key frames of the highest tier, in order. *)
Theorem C25_clip_segments_kept : forall sizes clips files max low_proportion medium_proportion high medium low c file,
  input_ok sizes clips files max low_proportion medium_proportion ->
  build_tiers low_proportion medium_proportion clips = Ok (high, medium, low) -> nth_error files c = Some file ->
  exists out_bytes out_headers,
    rewrite_clip high (N.of_nat c) (cf_transforms file) (cf_bytes file) (cf_headers file) (cf_base file) (cf_tail file) = Ok (out_bytes, out_headers) /\
    length out_headers = length (cf_headers file) /\
    forall s h o, nth_error (cf_headers file) s = Some h -> nth_error out_headers s = Some o ->
      exists frames, segment_kept (cf_transforms file) (cf_bytes file) h out_bytes o frames /\ StronglySorted N.lt frames /\
        forall f, In f frames <-> In (N.of_nat c, N.of_nat s, f) (map key high).
Proof.
  intros sizes clips files max pl pm high medium low c file IO B KF.
  destruct (tiers_facts _ _ _ _ _ _ _ _ _ IO B) as (_ & T). pose proof IO as (LEN & CL & LF & FO & RT & MX & _).
  destruct (T high ltac:(auto)) as (S0 & M0 & K0). assert (LC : (c < length files)%nat) by (apply nth_error_Some; congruence).
  destruct (clip_rewritten sizes clips files max LEN CL LF FO RT high S0 M0 K0 c file KF LC) as (out & outs & E & LO & SK).
  exists out, outs. split; auto. split; auto. intros s h o KH KO. exists (kept high (N.of_nat c) (N.of_nat s)). split; auto.
  split; [apply kept_increasing; exact S0 | intros f; apply kept_in].
Qed.
Print Assumptions C25_clip_segments_kept.

(** FINDING: that a segment fits a chunk is only asserted.  With chunks of 4096 bytes, the smallest allowed, a segment of 4200
    bytes followed by one of 1 byte makes the builder write past the end of the database. *)
Definition big_frame (t bits : N) (d : list N) : frame_mapping :=
  {| fm_tracks := t; fm_segment := 0; fm_clip_frame := 1; fm_segment_frame := 0; fm_bits := bits; fm_error := f_zero; fm_data := Some d |}.
Definition big_tier : list frame_mapping := [big_frame 0 33600 (repeat 255 4200); big_frame 1 8 [1]].
Definition big_jobs : list seg_job := clip_jobs big_tier [(7, 1%nat); (8, 1%nat)] 0 0.
Theorem C22_oversized_segment_refuted :
  map (fun j => (sj_hash j, sj_clip_header j, sj_segment_header j, data_bytes (sj_frames j))) big_jobs = [(7, 0, 8, 4200); (8, 24, 32, 1)] /\
  bulk_size 4096 big_jobs 0 12 + 3 < 2 ^ 32 /\ build_bulk_data 4096 big_tier big_jobs true = UB.
Proof. split; [|split]; vm_compute; reflexivity. Qed.
Print Assumptions C22_oversized_segment_refuted.

