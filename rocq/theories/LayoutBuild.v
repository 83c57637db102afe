(** Proof: build_compressed_database writes the layout of LayoutSpec.v. *)
From Coq Require Import Lia.
From Verif Require Import Word WordFacts MemoryUtils MemoryFacts Hash HashFacts DbTiers DbBuild DbHeaderFacts RewriteFacts Pieces DbLayout LayoutSpec LayoutFacts LayoutOps.
Local Open Scope N_scope.
Ltac Zify.zify_post_hook ::= idtac.

(** every write keeps the length of the buffer and leaves bytes in it *)
Definition keeps (m m' : list N) : Prop := length m' = length m /\ (bytes_ok m -> bytes_ok m').
Lemma keeps_refl m : keeps m m.
Proof. split; auto. Qed.
Lemma keeps_trans a b c : keeps a b -> keeps b c -> keeps a c.
Proof. intros (A & B) (C & D). split; [congruence|auto]. Qed.
Lemma bindo_ok {A B} (x : outcome A) (f : A -> outcome B) r : bindo x f = Ok r -> exists y, x = Ok y /\ f y = Ok r.
Proof. destruct x; cbn [bindo]; [eauto|discriminate..]. Qed.
Lemma store_keeps m off l m' : bytes_ok l -> store_bytes m off l = Ok m' -> keeps m m'.
Proof.
  intros B E. unfold store_bytes in E. destruct (N.leb_spec (off + blen l) (blen m)) as [L|]; [|discriminate E]. injection E as <-. unfold blen in L. split.
  - rewrite !app_length, firstn_length, skipn_length. lia.
  - intros M. apply bytes_ok_app; [|apply bytes_ok_app; auto]; apply Forall_forall; intros x X; unfold bytes_ok in M; rewrite Forall_forall in M; apply M.
    + rewrite <- (firstn_skipn (N.to_nat off) m). apply in_or_app. auto.
    + rewrite <- (firstn_skipn (N.to_nat off + length l) m). apply in_or_app. auto.
Qed.
Lemma write32_keeps m off v m' : write32 m off v = Ok m' -> keeps m m'.
Proof. apply store_keeps. apply le_bytes_ok. Qed.
Lemma memcpy_loop_keeps fuel : forall m o src s n m', memcpy_bits_loop fuel m o src s n = Ok m' -> keeps m m'.
Proof.
  induction fuel as [|fuel IH]; intros m o src s n m' E; cbn [memcpy_bits_loop] in E; [discriminate E|].
  apply bindo_ok in E. destruct E as (db & _ & E). apply bindo_ok in E. destruct E as (sb & _ & E). apply bindo_ok in E. destruct E as (m1 & S & E).
  assert (K : keeps m m1).
  { unfold store8 in S. destruct (N.ltb_spec (o / 8) (blen m)); [|discriminate S]. injection S as <-. split; [apply upd_length|].
    intros M. apply Forall_upd; auto. unfold wrapw. apply N.mod_lt. discriminate. }
  destruct (n <=? _) in E; [injection E as <-; exact K|]. eapply keeps_trans; [exact K|]. eapply IH; exact E.
Qed.
Lemma memcpy_keeps m o src s n m' : memcpy_bits m o src s n = Ok m' -> keeps m m'.
Proof. unfold memcpy_bits. destruct (n =? 0); [intros E; injection E as <-; apply keeps_refl|apply memcpy_loop_keeps]. Qed.

Ltac bind_in E := apply bindo_ok in E; let y := fresh "y" in let H := fresh "H" in destruct E as (y & H & E).
Ltac chain := repeat match goal with H : write32 ?m _ _ = Ok ?m' |- _ => apply write32_keeps in H end.
Lemma start_keeps m off i m' : start_chunk m off i = Ok m' -> keeps m m'.
Proof. unfold start_chunk. intros E. bind_in E. bind_in E. chain. eauto using keeps_trans. Qed.
Lemma add_keeps m hdr j rel m' : add_segment m hdr j rel = Ok m' -> keeps m m'.
Proof. unfold add_segment. intros E. do 7 bind_in E. chain. eauto 10 using keeps_trans. Qed.
Lemma header_keeps max : forall jobs m hdr off rel cs ci m' s, header_pass max jobs (Some m) hdr off rel cs ci = Ok (m', s) -> exists w, m' = Some w /\ keeps m w.
Proof.
  induction jobs as [|j jobs IH]; intros m hdr off rel cs ci m' s E; cbn [header_pass] in E.
  - destruct (cs =? sizeof_chunk_header); [injection E as <- _; eauto using keeps_refl|]. bind_in E. injection E as <- _. chain. eauto.
  - cbv zeta in E. destruct (max <=? _) in E.
    + do 3 bind_in E. apply IH in E. destruct E as (w & -> & K). chain. apply start_keeps in H0. apply add_keeps in H1. eauto 10 using keeps_trans.
    + bind_in E. apply IH in E. destruct E as (w & -> & K). apply add_keeps in H. eauto using keeps_trans.
Qed.
Lemma frames_keeps : forall frames m off n m', write_frames frames m off n = Ok m' -> keeps m m'.
Proof.
  induction frames as [|f frames IH]; intros m off n m' E; cbn [write_frames] in E; [injection E as <-; apply keeps_refl|].
  destruct (fm_data f); [|discriminate E]. bind_in E. apply memcpy_keeps in H. eauto using keeps_trans.
Qed.
Lemma sample_keeps : forall jobs m hdr i m', sample_pass jobs m hdr i = Ok m' -> keeps m m'.
Proof.
  induction jobs as [|j jobs IH]; intros m hdr i m' E; cbn [sample_pass] in E; [injection E as <-; apply keeps_refl|].
  bind_in E. bind_in E. destruct y0 as (h & idx). do 4 bind_in E. chain. apply frames_keeps in H4. eauto using keeps_trans.
Qed.
Lemma bulk_keeps max tier jobs m m' s : write_database_bulk_data max tier jobs (Some m) = Ok (m', s) -> exists w, m' = Some w /\ keeps m w.
Proof.
  unfold write_database_bulk_data. destruct tier; intros E; [injection E as <- _; eauto using keeps_refl|].
  bind_in E. bind_in E. destruct y0 as (o & sz). destruct (header_keeps _ _ _ _ _ _ _ _ _ _ H0) as (w & -> & K). bind_in E. injection E as <- _.
  apply start_keeps in H. apply sample_keeps in H1. eauto 10 using keeps_trans.
Qed.

Lemma firstn_upd_ge (ps : list (list N)) : forall i k q, (k <= i)%nat -> firstn k (upd ps i q) = firstn k ps.
Proof. induction ps as [|p ps IH]; intros [|i] [|k] q L; cbn [upd firstn]; try reflexivity; try lia. rewrite IH by lia. reflexivity. Qed.
(** the bulk data of a tier written in place *)
Lemma write_bulk_piece max tier jobs ps i j bulk t off :
  (exists r, write_database_bulk_data max tier jobs None = Ok r) ->
  (exists s, write_database_bulk_data max tier jobs (Some (zeros (count bulk))) = Ok (Some bulk, s)) ->
  nth_error ps i = Some (zeros (count bulk)) -> nth_error ps j = Some (zeros 4) -> (j < i)%nat ->
  off_bulk_hash t = sum_n (lens (firstn j ps)) ->
  sizeof_raw + off = sum_n (lens (firstn i ps)) ->
  get_bulk_data (concat ps) t = Ok (if count bulk =? 0 then None else Some (sizeof_raw + off)) ->
  write_bulk max tier jobs (concat ps) t (count bulk) = Ok (concat (upd (upd ps i bulk) j (word (hash32 bulk)))).
Proof.
  intros (r & W0) (s & W1) PI PJ JI OJ OI G. unfold write_bulk. rewrite G. cbn [bindo]. destruct bulk as [|x bulk].
  - change (count [] =? 0) with true. cbv iota.
    rewrite W0. cbn [bindo].
    change (read_ptr (concat ps) None (count [])) with (Ok (@nil N)). cbn [bindo]. rewrite (upd_nil ps i PI). apply (write32_piece ps j (zeros 4)); auto.
  - assert (Z : count (x :: bulk) =? 0 = false) by (apply N.eqb_neq; unfold count; cbn [length]; lia). rewrite Z. set (b := x :: bulk) in *.
    rewrite (load_piece ps i (zeros (count b))) by (auto; unfold zeros; rewrite repeat_length; reflexivity). cbn [bindo]. rewrite W1. cbn [bindo].
    assert (LB : length b = length (zeros (count b))) by (unfold zeros; rewrite repeat_length; unfold count; lia).
    rewrite (store_piece ps i (zeros (count b)) _ b) by auto. cbn [bindo].
    assert (NI : nth_error (upd ps i b) i = Some b) by (rewrite nth_error_upd by (apply nth_error_Some; congruence); rewrite Nat.eqb_refl; reflexivity).
    assert (FI : lens (firstn i (upd ps i b)) = lens (firstn i ps)) by (rewrite firstn_upd_ge by lia; reflexivity).
    rewrite (load_piece (upd ps i b) i b); [|auto|rewrite FI; auto|unfold count; lia]. cbn [bindo].
    apply (write32_piece (upd ps i b) j (zeros 4)); auto.
    + rewrite nth_error_upd by (apply nth_error_Some; congruence). destruct (Nat.eqb_spec j i); [lia|auto].
    + rewrite firstn_upd_ge by lia. auto.
Qed.

Definition runtime_bytes (clips : list (N * nat)) : N := sum_n (map (fun c => 8 + 16 * N.of_nat (snd c)) clips).
Lemma clip_metadata_eq clips : forall off, off + runtime_bytes clips < 2 ^ 32 -> clip_metadata clips off = clip_entries clips off.
Proof.
  unfold runtime_bytes. induction clips as [|(h, n) clips IH]; intros off B; cbn [clip_metadata clip_entries map sum_n snd] in *; [reflexivity|]. f_equal.
  unfold sizeof_runtime_clip_header, sizeof_runtime_segment_header. change (2 ^ 32) with 4294967296 in *.
  rewrite (mulw_fits 32) by (auto; change (2 ^ 32) with 4294967296; lia). rewrite (addw_fits 32 8) by (auto; change (2 ^ 32) with 4294967296; lia).
  rewrite addw_fits by (auto; change (2 ^ 32) with 4294967296; lia). apply IH. lia.
Qed.
Lemma clip_entries_len clips : forall o, length (clip_entries clips o) = length clips.
Proof. induction clips as [|(h, n) clips IH]; intros o; cbn [clip_entries length]; [reflexivity|]. rewrite IH. reflexivity. Qed.
Lemma segments_le clips : sum_n (map (fun c : N * nat => N.of_nat (snd c)) clips) <= runtime_bytes clips.
Proof. unfold runtime_bytes. induction clips as [|c clips IH]; cbn [map sum_n]; lia. Qed.

Definition built (max : N) (clips : list (N * nat)) (medium low : list frame_mapping) (bm bl : list N) : database :=
  {| d_version := 10; d_max_chunk_size := max; d_num_segments := sum_n (map (fun c => N.of_nat (snd c)) clips); d_clips := clip_entries clips 0;
     d_medium := {| tc_chunks := write_database_chunk_descriptions max medium (clip_jobs medium clips 0 0); tc_bulk := bm |};
     d_low := {| tc_chunks := write_database_chunk_descriptions max low (clip_jobs low clips 0 0); tc_bulk := bl |} |}.

Lemma bulk_parts max tier jobs padded bulk : build_bulk_data max tier jobs padded = Ok bulk ->
  exists o size, write_database_bulk_data max tier jobs None = Ok (o, size) /\ count bulk = (if padded then align_to 32 size 4 else size) /\
    (exists s, write_database_bulk_data max tier jobs (Some (zeros (count bulk))) = Ok (Some bulk, s)) /\ bytes_ok bulk.
Proof.
  unfold build_bulk_data. intros E. bind_in E. destruct y as (o & size). bind_in E. destruct y as (m' & s). destruct (bulk_keeps _ _ _ _ _ _ H0) as (w & -> & K1 & K2). injection E as ->.
  exists o, size. split; auto. assert (C : count bulk = (if padded then align_to 32 size 4 else size)).
  { unfold count. rewrite K1, repeat_length, N2Nat.id. reflexivity. }
  split; auto. split; [exists s; rewrite C; exact H0|]. apply K2. apply Forall_forall. intros x X. apply repeat_spec in X. subst. reflexivity.
Qed.

Lemma build_ok max clips medium low bm bl :
  build_bulk_data max medium (clip_jobs medium clips 0 0) true = Ok bm -> build_bulk_data max low (clip_jobs low clips 0 0) false = Ok bl ->
  runtime_bytes clips < 2 ^ 32 -> total_size true (built max clips medium low bm bl) < 2 ^ 32 ->
  build_compressed_database max clips medium low = Ok (serialize true (built max clips medium low bm bl)).
Proof.
  intros E1 E2 RB T. destruct (bulk_parts _ _ _ _ _ E1) as (o1 & s1 & W1 & C1 & X1 & _). destruct (bulk_parts _ _ _ _ _ E2) as (o2 & s2 & W2 & C2 & X2 & _).
  unfold build_compressed_database. rewrite W1. cbn [bindo]. rewrite W2. cbn [bindo]. cbv zeta. unfold bulk_alignment. rewrite <- C1, <- C2.
  set (d := built max clips medium low bm bl) in *.
  set (jm := clip_jobs medium clips 0 0) in *. set (jl := clip_jobs low clips 0 0) in *.
  set (cm := write_database_chunk_descriptions max medium jm) in *. set (cl := write_database_chunk_descriptions max low jl) in *.
  change (N.of_nat (length cm)) with (count cm). change (N.of_nat (length cl)) with (count cl). change (N.of_nat (length clips)) with (count clips).
  assert (CC : count (clip_entries clips 0) = count clips) by (unfold count; rewrite clip_entries_len; reflexivity).
  assert (T' : total_size true d = 64 + 8 * (count cm + count cl + count clips) + (count bm + count bl)) by (unfold d, total_size, built; cbn [d_medium d_low d_clips tc_chunks tc_bulk]; fold jm jl cm cl; rewrite CC; reflexivity).
  pose proof T as F. rewrite T' in F. change (2 ^ 32) with 4294967296 in F.
  rewrite buffer_size_eq, layout_eq by exact F. fold (zeros (64 + 8 * (count cm + count cl + count clips) + (count bm + count bl))).
  assert (ZP : zeros (64 + 8 * (count cm + count cl + count clips) + (count bm + count bl)) =
    concat [zeros 4; zeros 4; zeros 4; zeros 2; zeros 2; zeros 4; zeros 4; zeros 4; zeros 4; zeros 4; zeros 4; zeros 4; zeros 4; zeros 4; zeros 4; zeros 4; zeros 4;
      zeros (8 * count cm); zeros (8 * count cl); zeros (8 * count clips); zeros (count bm); zeros (count bl)]).
  { unfold zeros at 1. replace (64 + 8 * (count cm + count cl + count clips) + (count bm + count bl)) with
      (sum_n [4; 4; 4; 2; 2; 4; 4; 4; 4; 4; 4; 4; 4; 4; 4; 4; 4; 8 * count cm; 8 * count cl; 8 * count clips; count bm; count bl]) by (cbn [sum_n]; lia).
    rewrite repeat_pieces. reflexivity. }
  rewrite ZP. clear ZP.
  wr32 2%nat. match goal with |- context [write16 (concat ?ps) ?o ?v] => rewrite (write16_piece ps 3 _ o v eq_refl eq_refl eq_refl) end. cbn [bindo upd].
  wr32 5%nat. wr32 6%nat. wr32 7%nat. wr32 8%nat. wr32 9%nat. wr32 11%nat. wr32 12%nat.
  match goal with |- context [set_is_bulk_data_inline (concat ?ps) true] => rewrite (set_inline_piece ps 0 true eq_refl eq_refl) by lia end. cbn [bindo upd].
  wr32 10%nat. wr32 13%nat. wr32 14%nat.
  match goal with |- context [write_pairs (concat ?ps) ?o ?l] => rewrite (write_pairs_piece ps 17 _ o l eq_refl eq_refl) by apply blen_zeros end. cbn [bindo upd].
  unfold chunk_descriptions_low.
  match goal with |- context [read32 (concat ?ps) (off_num_chunks 0)] => rewrite (read32_piece ps 5 (count cm) (off_num_chunks 0) eq_refl eq_refl) by (change (2 ^ 32) with 4294967296; lia) end. cbn [bindo].
  rewrite low_at_eq by (change (2 ^ 32) with 4294967296; lia).
  match goal with |- context [write_pairs (concat ?ps) ?o ?l] => rewrite (write_pairs_piece ps 18 _ o l eq_refl); [| |apply blen_zeros] end.
  2:{ unfold lens. cbn [firstn map sum_n]. rewrite !pairs_len, !blen_zeros, ?blen_word, ?blen_half. lia. }
  cbn [bindo upd]. unfold clip_metadatas.
  match goal with |- context [read32 (concat ?ps) off_clip_metadata] => rewrite (read32_piece ps 10 (56 + 8 * (count cm + count cl)) off_clip_metadata eq_refl eq_refl) by (change (2 ^ 32) with 4294967296; lia) end. cbn [bindo].
  rewrite clip_metadata_eq by exact RB.
  match goal with |- context [write_pairs (concat ?ps) ?o ?l] => rewrite (write_pairs_piece ps 19 _ o l eq_refl); [| |rewrite CC; apply blen_zeros] end.
  2:{ unfold lens. cbn [firstn map sum_n]. rewrite !pairs_len, !blen_zeros, ?blen_word, ?blen_half. unfold sizeof_raw. lia. }
  cbn [bindo upd].
  match goal with |- context [write_bulk max medium jm (concat ?ps) 0 _] => rewrite (write_bulk_piece max medium jm ps 20 15 bm 0 (56 + 8 * (count cm + count cl + count clips))) end; eauto; try lia.
  2:{ unfold lens. cbn [firstn map sum_n]. rewrite !pairs_len, !blen_zeros, ?blen_word, ?blen_half, CC. unfold sizeof_raw. lia. }
  2:{ unfold get_bulk_data.
      match goal with |- context [read32 (concat ?ps) (off_bulk_offset 0)] => rewrite (read32_piece ps 13 (if count bm =? 0 then invalid_offset else 56 + 8 * (count cm + count cl + count clips)) (off_bulk_offset 0) eq_refl eq_refl) end.
      2:{ destruct (count bm =? 0); unfold invalid_offset; change (2 ^ 32) with 4294967296; lia. }
      cbn [bindo]. rewrite ptr_of by (unfold invalid_offset; lia). reflexivity. }
  cbn [bindo upd].
  match goal with |- context [write_bulk max low jl (concat ?ps) 1 _] => rewrite (write_bulk_piece max low jl ps 21 16 bl 1 (56 + 8 * (count cm + count cl + count clips) + count bm)) end; eauto; try lia.
  2:{ unfold lens. cbn [firstn map sum_n]. rewrite !pairs_len, !blen_zeros, ?blen_word, ?blen_half, CC. change (blen bm) with (count bm). unfold sizeof_raw. lia. }
  2:{ unfold get_bulk_data.
      match goal with |- context [read32 (concat ?ps) (off_bulk_offset 1)] => rewrite (read32_piece ps 14 (if count bl =? 0 then invalid_offset else 56 + 8 * (count cm + count cl + count clips) + count bm) (off_bulk_offset 1) eq_refl eq_refl) end.
      2:{ destruct (count bl =? 0); unfold invalid_offset; change (2 ^ 32) with 4294967296; lia. }
      cbn [bindo]. rewrite ptr_of by (unfold invalid_offset; lia). reflexivity. }
  cbn [bindo upd]. rewrite <- T'.
  match goal with |- context [write32 (concat (?a :: ?b :: ?ps)) off_size _] => destruct (finish a b ps d eq_refl eq_refl) as (f & -> & F1 & F2); [|exact T|] end.
  { unfold content, content_pieces. rewrite !offset_of_eq. unfold low_at, medium_at, clips_at. unfold d, built. cbn [d_low d_medium d_clips d_version d_max_chunk_size d_num_segments tc_bulk tc_chunks].
    fold jm jl cm cl. rewrite CC. unfold calculate_num_segments. rewrite num_segments_eq by (pose proof (segments_le clips); change (2 ^ 32) with 4294967296 in *; lia).
    replace (56 + 8 * (count cm + count cl) + 8 * count clips) with (56 + 8 * (count cm + count cl + count clips)) by lia. reflexivity. }
  cbn [bindo]. rewrite F1. cbn [bindo]. exact F2.
Qed.
