(** C31: building, splitting and stripping a database.  C26: which buffers are accepted.  The vocabulary is in LayoutSpec.v
    (what a buffer contains) and BuildSpec.v (the bulk data). *)
From Coq Require Import Lia.
From Verif Require Import Word WordFacts MemoryUtils Hash HashFacts DbTiers DbStream DbBuild BuildSpec DbEndFacts TierJobFacts Prop_Build Pieces DbLayout LayoutSpec LayoutFacts LayoutOps LayoutBuild ValidFacts.
Local Open Scope N_scope.
Ltac Zify.zify_post_hook ::= idtac.

Lemma runtime_bytes_eq clips : runtime_bytes clips = runtime_size (map snd clips).
Proof. unfold runtime_bytes, runtime_size. rewrite map_map. induction clips as [|c l IH]; [reflexivity|]. cbn [map sum_n SeekSpec.sumN]. rewrite IH. reflexivity. Qed.

(** A database is built in one buffer: the header, the chunk descriptions of both tiers, the clips and their runtime offsets,
    and the bulk data of both tiers (which holds the key frames of C22), every member and both hashes set, and no byte
    outside of the buffer touched. *)
Theorem C31_build : forall sizes clips files max low_proportion medium_proportion high medium low,
  input_ok sizes clips files max low_proportion medium_proportion ->
  build_tiers low_proportion medium_proportion clips = Ok (high, medium, low) ->
  bulk_fits max files medium -> bulk_fits max files low ->
  exists medium_bytes medium_chunks low_bytes low_chunks,
    tier_stored max medium (jobs_of files medium) medium_bytes medium_chunks /\ tier_stored max low (jobs_of files low) low_bytes low_chunks /\
    let heads := map (fun f => (cf_hash f, length (cf_headers f))) files in
    let db := {| d_version := 10; d_max_chunk_size := max; d_num_segments := sum_n (map (fun f => N.of_nat (length (cf_headers f))) files);
                 d_clips := clip_entries heads 0;
                 d_medium := {| tc_chunks := map (fun ch => (ck_size ch, ck_offset ch)) medium_chunks; tc_bulk := medium_bytes |};
                 d_low := {| tc_chunks := map (fun ch => (ck_size ch, ck_offset ch)) low_chunks; tc_bulk := low_bytes |} |} in
    (total_size true db < 2 ^ 32 -> database_ok db /\ build_compressed_database max heads medium low = Ok (serialize true db)).
Proof.
  intros sizes clips files max pl pm high medium low IO B B1 B2.
  destruct (C22_database _ _ _ _ _ _ _ _ _ IO B B1 B2) as (mm & cm & ml & cl & E1 & T1 & E2 & T2). exists mm, cm, ml, cl. split; auto. split; auto. cbv zeta. intros T.
  destruct IO as (_ & _ & _ & _ & RT & MX & _). set (heads := map (fun f => (cf_hash f, length (cf_headers f))) files) in *.
  assert (RB : runtime_bytes heads < 2 ^ 32). { rewrite runtime_bytes_eq. unfold heads. rewrite map_map. cbn [snd]. exact RT. }
  assert (EQ : built max heads medium low mm ml =
    {| d_version := 10; d_max_chunk_size := max; d_num_segments := sum_n (map (fun f => N.of_nat (length (cf_headers f))) files); d_clips := clip_entries heads 0;
       d_medium := {| tc_chunks := map (fun ch => (ck_size ch, ck_offset ch)) cm; tc_bulk := mm |}; d_low := {| tc_chunks := map (fun ch => (ck_size ch, ck_offset ch)) cl; tc_bulk := ml |} |}).
  { unfold built. destruct T1 as (D1 & _). destruct T2 as (D2 & _). unfold jobs_of in D1, D2. fold heads in D1, D2. rewrite D1, D2. f_equal. unfold heads. rewrite map_map. reflexivity. }
  rewrite <- EQ in *. destruct (bulk_parts _ _ _ _ _ E1) as (_ & _ & _ & _ & _ & BM). destruct (bulk_parts _ _ _ _ _ E2) as (_ & _ & _ & _ & _ & BL). split.
  - split; [cbn; lia|]. split; [cbn; change (2 ^ 31) with 2147483648 in MX; change (2 ^ 32) with 4294967296; lia|]. split; [|split; [exact T|split; auto]].
    cbn [d_num_segments built]. pose proof (segments_le heads). change (2 ^ 32) with 4294967296 in *. lia.
  - apply build_ok; auto.
Qed.
Print Assumptions C31_build.

(** The buffers of a database, inline or split, are accepted and report the same sizes. *)
Theorem C31_valid_and_sizes : forall d addr inline check,
  database_ok d -> addr mod 16 = 0 -> addr < 2 ^ 64 ->
  db_is_valid addr (serialize inline d) check = Ok None /\
  get_is_bulk_data_inline (serialize inline d) = Ok inline /\
  get_total_size (serialize inline d) = Ok (blen (serialize false d) + blen (tc_bulk (d_medium d)) + blen (tc_bulk (d_low d))) /\
  (inline = true -> get_total_size (serialize inline d) = Ok (blen (serialize inline d))).
Proof.
  intros d addr inline check OK A A64. split; [apply valid; auto|]. split; [apply inline_of|]. rewrite total_of by auto. split.
  - rewrite serialize_len. unfold total_size, count, blen. f_equal. lia.
  - intros ->. rewrite serialize_len. reflexivity.
Qed.
Print Assumptions C31_valid_and_sizes.

(** split_database_bulk_data: the same database without its bulk data, and the bulk data of both tiers, byte for byte.  The
    hashes in the header are those of the two buffers. *)
Theorem C31_split : forall d addr,
  database_ok d -> addr mod 16 = 0 -> addr < 2 ^ 64 ->
  split_database_bulk_data addr (serialize true d) = Ok (inr (serialize false d, tc_bulk (d_medium d), tc_bulk (d_low d))) /\
  read32 (serialize false d) (off_bulk_hash 0) = Ok (hash32 (tc_bulk (d_medium d))) /\ read32 (serialize false d) (off_bulk_hash 1) = Ok (hash32 (tc_bulk (d_low d))) /\
  get_bulk_data (serialize false d) 0 = Ok None /\ get_bulk_data (serialize false d) 1 = Ok None /\
  split_database_bulk_data addr (serialize false d) = Ok (inl not_inline).
Proof.
  intros d addr OK A A64. split; [apply split_ok; auto|]. rewrite serialize_pieces.
  split; [apply (read32_piece _ 15); [reflexivity|reflexivity|apply hash32_lt]|]. split; [apply (read32_piece _ 16); [reflexivity|reflexivity|apply hash32_lt]|].
  rewrite <- serialize_pieces. destruct (no_bulk_ptr d) as (-> & ->). split; auto. split; auto.
  unfold split_database_bulk_data. rewrite (valid d OK addr false true A A64). cbn [bindo]. rewrite inline_of. reflexivity.
Qed.
Print Assumptions C31_split.

(** Stripping a tier of an inline database gives the same database with nothing in this tier; an empty tier is refused. *)
Theorem C31_strip : forall d addr tier,
  database_ok d -> addr mod 16 = 0 -> addr < 2 ^ 64 -> tier <> highest_importance ->
  (tc_bulk (tier_of d tier) <> [] -> strip_database_quality_tier addr (serialize true d) tier = Ok (inr (serialize true (without d tier))) /\ database_ok (without d tier)) /\
  (tc_bulk (tier_of d tier) = [] -> strip_database_quality_tier addr (serialize true d) tier = Ok (inl empty_tier)).
Proof.
  intros d addr tier OK A A64 T. split; intros E; [|apply strip_empty_ok; auto].
  split. { destruct tier; [congruence|apply strip_medium_ok; auto|apply strip_lowest_ok; auto]. }
  destruct OK as (V & M & S & TS & B1 & B2). pose proof (Forall_nil (fun b => b < 256)) as FN.
  assert (TL : total_size true (without d tier) <= total_size true d) by (destruct tier; unfold total_size; cbn [without d_medium d_low d_clips no_tier tc_chunks tc_bulk]; change (count (@nil N)) with 0; change (count (@nil (N * N))) with 0; lia).
  destruct tier; cbn [without] in *; repeat split; cbn [d_version d_max_chunk_size d_num_segments d_medium d_low tc_bulk no_tier]; auto; try lia; eapply N.le_lt_trans; eauto.
Qed.
Print Assumptions C31_strip.

(** a small database with two clips and both tiers *)
Definition small : database :=
  {| d_version := 10; d_max_chunk_size := 4096; d_num_segments := 3; d_clips := [(1001, 0); (1002, 40)];
     d_medium := {| tc_chunks := [(5, 0)]; tc_bulk := [1; 2; 3; 4; 5; 0; 0; 0] |};
     d_low := {| tc_chunks := [(3, 0); (2, 3)]; tc_bulk := [9; 8; 7; 6; 5] |} |}.
Example C31_sat_small : database_ok small.
Proof. unfold database_ok. repeat split; try (vm_compute; congruence); repeat constructor. Qed.
Example C31_sat_run : split_database_bulk_data 4096 (serialize true small) = Ok (inr (serialize false small, [1; 2; 3; 4; 5; 0; 0; 0], [9; 8; 7; 6; 5])).
Proof. vm_compute. reflexivity. Qed.
Example C31_sat_strip : strip_database_quality_tier 4096 (serialize true small) medium_importance = Ok (inr (serialize true (without small medium_importance))).
Proof. vm_compute. reflexivity. Qed.

(** Stripping a tier of a database whose bulk data was split out does not give the database without the tier: the result has
    room for bulk data it does not hold, says it is not inline, hands out a pointer to zeros as its bulk data and counts the
    bulk data twice in its total size. *)
Theorem C31_strip_after_split_refuted : exists d m,
  database_ok d /\ strip_database_quality_tier 0 (serialize false d) medium_importance = Ok (inr m) /\
  m <> serialize false (without d medium_importance) /\
  get_is_bulk_data_inline m = Ok false /\
  (exists p, get_bulk_data m 1 = Ok (Some p) /\ load_bytes m p (length (tc_bulk (d_low d))) = Ok (repeat 0 (length (tc_bulk (d_low d))))) /\
  get_total_size m = Ok (total_size true (without d medium_importance) + blen (tc_bulk (d_low d))).
Proof.
  eexists small, _. split; [apply C31_sat_small|]. split; [vm_compute; reflexivity|]. split.
  - intros E. apply (f_equal (@length N)) in E. vm_compute in E. discriminate E.
  - split; [reflexivity|]. split; [|reflexivity]. eexists. split; reflexivity.
Qed.
Print Assumptions C31_strip_after_split_refuted.

(** is_valid on any buffer with a header whose size is inside of the buffer: it reads nothing outside, and accepts exactly
    the aligned, well formed ones. *)
Theorem C26_database : forall addr m check size,
  addr < 2 ^ 64 -> bytes_ok m -> 16 <= blen m -> claims_size m size -> 8 <= size <= blen m ->
  exists r, db_is_valid addr m check = Ok r /\ (r = None <-> addr mod 16 = 0 /\ well_formed_buffer database_tag [] check m).
Proof. exact db_valid_iff. Qed.
Print Assumptions C26_database.
Theorem C26_tracks : forall addr m check size,
  addr < 2 ^ 64 -> bytes_ok m -> 16 <= blen m -> claims_size m size -> 8 <= size <= blen m ->
  exists r, tracks_is_valid addr m check = Ok r /\ (r = None <-> addr mod 16 = 0 /\ well_formed_buffer tracks_tag [0] check m).
Proof. exact tracks_valid_iff. Qed.
Print Assumptions C26_tracks.

(** One byte of an accepted buffer changed, anywhere from the hash to the end: the buffer is refused. *)
Theorem C26_corruption : forall addr m size i x,
  addr < 2 ^ 64 -> bytes_ok m -> 16 <= blen m -> claims_size m size -> 8 <= size <= blen m ->
  (4 <= i < N.to_nat size)%nat -> x < 256 -> x <> nth i m 0 ->
  (db_is_valid addr m true = Ok None -> exists e, db_is_valid addr (upd m i x) true = Ok (Some e)) /\
  (tracks_is_valid addr m true = Ok None -> exists e, tracks_is_valid addr (upd m i x) true = Ok (Some e)).
Proof.
  intros addr m size i x A B L C S (I4 & IS) X NE.
  assert (B' : bytes_ok (upd m i x)) by (apply Forall_upd; auto). assert (L' : 16 <= blen (upd m i x)) by (rewrite blen_upd; auto).
  assert (C' : claims_size (upd m i x) size). { destruct C as (r & -> & S32). exists (upd r (i - 4) x). split; auto. rewrite upd_app_r by (rewrite word_len; lia). reflexivity. }
  assert (S' : 8 <= size <= blen (upd m i x)) by (rewrite blen_upd; auto).
  assert (W : exists s, claims_size m s /\ (i < N.to_nat s)%nat /\ s <= blen m) by (exists size; split; [|split]; [auto|auto|lia]).
  split; intros V.
  - destruct (db_valid_iff addr m true size A B L C S) as (r & E & I). rewrite E in V. injection V as ->. destruct (proj1 I eq_refl) as (A16 & WF).
    destruct (db_valid_iff addr (upd m i x) true size A B' L' C' S') as ([e|] & E' & I'); [eauto|].
    exfalso. destruct (proj1 I' eq_refl) as (_ & WF'). revert WF'. apply corrupt_rejected; auto.
  - destruct (tracks_valid_iff addr m true size A B L C S) as (r & E & I). rewrite E in V. injection V as ->. destruct (proj1 I eq_refl) as (A16 & WF).
    destruct (tracks_valid_iff addr (upd m i x) true size A B' L' C' S') as ([e|] & E' & I'); [eauto|].
    exfalso. destruct (proj1 I' eq_refl) as (_ & WF'). revert WF'. apply corrupt_rejected; auto.
Qed.
Print Assumptions C26_corruption.
Example C26_sat : db_is_valid 4096 (serialize true small) true = Ok None /\ db_is_valid 4096 (upd (serialize true small) 30 7) true = Ok (Some invalid_hash) /\
  db_is_valid 4096 (upd (serialize true small) 12 11) true = Ok (Some invalid_version) /\ db_is_valid 4100 (serialize true small) false = Ok (Some invalid_alignment).
Proof. vm_compute. auto. Qed.
(** a tracks buffer with nothing but its header *)
Definition small_tracks : list N :=
  let content := word tracks_tag ++ half 10 ++ [0; 12] ++ word 0 ++ word 0 ++ word 0 ++ word 0 in
  word 32 ++ word (hash32 content) ++ content.
Example C26_sat_tracks : length small_tracks = 32%nat /\ tracks_is_valid 0 small_tracks true = Ok None /\ tracks_is_valid 0 (upd small_tracks 14 1) true = Ok (Some invalid_algorithm).
Proof. vm_compute. auto. Qed.

(** The size itself is not protected: with a wrong size, checking the hash reads outside of the buffer. *)
Theorem C26_wrong_size_refuted : exists m i x, db_is_valid 0 m true = Ok None /\ db_is_valid 0 (upd m i x) true = UB.
Proof. exists (serialize true small), 0%nat, 255. split; vm_compute; reflexivity. Qed.
Print Assumptions C26_wrong_size_refuted.

(** make_compressed_tracks / make_compressed_database return the buffer when they are not asked for an error, whatever it
    holds; otherwise exactly when is_valid(false) accepts it. *)
Theorem C26_make : forall is_valid addr m,
  make_compressed is_valid (Some (addr, m)) false = Ok (true, None) /\
  (forall r, is_valid addr m false = Ok r -> make_compressed is_valid (Some (addr, m)) true = Ok (match r with None => true | Some _ => false end, r)) /\
  (forall w, make_compressed is_valid None w = Ok (false, if w then Some invalid_buffer else None)).
Proof. intros v addr m. split; [reflexivity|]. split; [|reflexivity]. intros r E. cbn [make_compressed]. rewrite E. destruct r; reflexivity. Qed.
Print Assumptions C26_make.

(** a database built from the clips of BuildExamples: 222 bytes of bulk data behind 64 + 8 * 4 bytes *)
From Verif Require Import BuildExamples.
Example C31_sat_build :
  match build_tiers third eighth sat_db_clips with
  | Ok (_, medium, low) =>
      match build_compressed_database 4096 (map (fun f => (cf_hash f, length (cf_headers f))) sat_files) medium low with
      | Ok m => (blen m, db_is_valid 0 m true, bindo (split_database_bulk_data 0 m) (fun r => Ok (match r with inr (d, b0, b1) => (blen d, blen b0, blen b1) | inl _ => (0, 0, 0) end)))
      | _ => (0, UB, UB)
      end
  | _ => (0, UB, UB)
  end = (318, Ok None, Ok (96, 100, 122)).
Proof. vm_compute. reflexivity. Qed.
