(** Proofs: building, splitting and stripping a database produce the layout of LayoutSpec.v. *)
From Coq Require Import Lia.
From Verif Require Import Word WordFacts MemoryUtils MemoryFacts Hash HashFacts DbTiers DbBuild DbHeaderFacts RewriteFacts Pieces DbLayout LayoutSpec LayoutFacts.
Local Open Scope N_scope.
Ltac Zify.zify_post_hook ::= idtac.

Lemma read32_piece ps i v off : nth_error ps i = Some (word v) -> off = sum_n (lens (firstn i ps)) -> v < 2 ^ 32 -> read32 (concat ps) off = Ok v.
Proof. intros E O V. apply (load_le_piece ps i v 4); auto. Qed.
Lemma read16_piece ps i v off : nth_error ps i = Some (half v) -> off = sum_n (lens (firstn i ps)) -> v < 2 ^ 16 -> read16 (concat ps) off = Ok v.
Proof. intros E O V. apply (load_le_piece ps i v 2); auto. Qed.
Lemma write16_piece ps i p off v : nth_error ps i = Some p -> off = sum_n (lens (firstn i ps)) -> length p = 2%nat ->
  write16 (concat ps) off v = Ok (concat (upd ps i (half v))).
Proof. intros E O L. unfold write16. apply (store_piece ps i p); auto. Qed.

Ltac wr32 i := match goal with |- context [write32 (concat ?ps) ?o ?v] => rewrite (write32_piece ps i _ o v eq_refl eq_refl eq_refl) end; cbn [bindo upd].

Lemma set_inline_piece ps w b : nth_error ps 4 = Some (half w) -> sum_n (lens (firstn 4 ps)) = 14 -> w <= 1 ->
  set_is_bulk_data_inline (concat ps) b = Ok (concat (upd ps 4 (half (if b then 1 else 0)))).
Proof.
  intros E O W. unfold set_is_bulk_data_inline. rewrite (read16_piece ps 4 w off_misc E (eq_sym O)) by (change (2 ^ 16) with 65536; lia). cbn [bindo].
  rewrite (write16_piece ps 4 (half w) off_misc _ E (eq_sym O) eq_refl). do 4 f_equal. assert (C : w = 0 \/ w = 1) by lia. destruct C; subst w; destruct b; reflexivity.
Qed.
Lemma get_inline_piece ps b : nth_error ps 4 = Some (half (if b : bool then 1 else 0)) -> sum_n (lens (firstn 4 ps)) = 14 ->
  get_is_bulk_data_inline (concat ps) = Ok b.
Proof.
  intros E O. unfold get_is_bulk_data_inline. rewrite (read16_piece ps 4 _ off_misc E (eq_sym O)) by (destruct b; reflexivity). destruct b; reflexivity.
Qed.

  Lemma low_at_eq n : 64 + 8 * n < 2 ^ 32 -> sizeof_raw + align_to 64 (addw 64 (align_to 64 sizeof_db_header 4) (mulw 64 n sizeof_description)) 4 = 64 + 8 * n.
  Proof.
    intros F. unfold sizeof_raw, sizeof_db_header, sizeof_description. change (align_to 64 56 4) with 56. change (2 ^ 32) with 4294967296 in F.
    rewrite mulw_fits by (auto; change (2 ^ 32) with 4294967296; lia). rewrite addw_fits by (auto; change (2 ^ 32) with 4294967296; lia).
    replace (56 + n * 8) with (4 * (14 + 2 * n)) by lia. rewrite al4_mul by (auto; change (2 ^ 32) with 4294967296; lia). lia.
  Qed.

Section Database.
  Variable d : database.
  Hypothesis OK : database_ok d.
  Let nm := count (tc_chunks (d_medium d)).
  Let nl := count (tc_chunks (d_low d)).
  Let nc := count (d_clips d).
  Let sm := count (tc_bulk (d_medium d)).
  Let sl := count (tc_bulk (d_low d)).
  Lemma fits : 64 + 8 * (nm + nl + nc) + (sm + sl) < 2 ^ 32.
  Proof. destruct OK as (_ & _ & _ & T & _). exact T. Qed.

  Lemma valid addr inline check : addr mod 16 = 0 -> addr < 2 ^ 64 -> db_is_valid addr (serialize inline d) check = Ok None.
  Proof.
    intros A A64. unfold db_is_valid.
    assert (AL : is_aligned_to addr class_alignment = true).
    { unfold is_aligned_to, class_alignment. change (subw 64 16 1) with (N.ones 4). rewrite N.land_ones. change (2 ^ 4) with 16. rewrite A. reflexivity. }
    rewrite AL. cbn [negb]. rewrite serialize_pieces.
    rewrite (read32_piece (pieces inline d) 2 tag_compressed_database off_tag eq_refl eq_refl eq_refl). cbn [bindo]. rewrite N.eqb_refl. cbn [negb].
    rewrite (read16_piece (pieces inline d) 3 (d_version d) off_version eq_refl eq_refl) by (destruct OK as (V & _); change (2 ^ 16) with 65536; lia). cbn [bindo].
    destruct OK as (V & _). unfold version_first, version_latest. destruct (N.ltb_spec (d_version d) 7); [lia|]. destruct (N.ltb_spec 10 (d_version d)); [lia|]. cbn [orb].
    destruct check; [|reflexivity]. unfold check_content_hash.
    rewrite (read32_piece (pieces inline d) 0 (total_size inline d) off_size eq_refl eq_refl) by (apply total_fits; exact OK). cbn [bindo].
    unfold pieces at 1. rewrite content_hash_pieces; [|reflexivity|reflexivity| |apply total_fits; exact OK].
    2:{ fold (content inline d). rewrite <- (content_len inline d). lia. }
    cbn [bindo]. rewrite (read32_piece (pieces inline d) 1 (hash32 (content inline d)) off_hash eq_refl eq_refl) by apply hash32_lt. cbn [bindo].
    fold (content inline d). rewrite N.eqb_refl. reflexivity.
  Qed.

  Lemma inline_of inline : get_is_bulk_data_inline (serialize inline d) = Ok inline.
  Proof. rewrite serialize_pieces. apply get_inline_piece; reflexivity. Qed.
  Lemma bulk_sizes inline : read32 (serialize inline d) (off_bulk_size 0) = Ok sm /\ read32 (serialize inline d) (off_bulk_size 1) = Ok sl.
  Proof.
    rewrite serialize_pieces. pose proof fits as F. change (2 ^ 32) with 4294967296 in F.
    split; [apply (read32_piece _ 11)|apply (read32_piece _ 12)]; try reflexivity; fold sm sl; change (2 ^ 32) with 4294967296; lia.
  Qed.
  Lemma total_of inline : get_total_size (serialize inline d) = Ok (total_size true d).
  Proof.
    unfold get_total_size. assert (R : read32 (serialize inline d) off_size = Ok (total_size inline d)).
    { rewrite serialize_pieces. apply (read32_piece _ 0); try reflexivity. apply total_fits; exact OK. }
    rewrite R, inline_of. cbn [bindo]. destruct inline; [reflexivity|]. destruct (bulk_sizes false) as (-> & ->). cbn [bindo].
    pose proof fits as F. change (2 ^ 32) with 4294967296 in F. unfold total_size. fold nm nl nc sm sl.
    rewrite (addw_fits 32 _ sm) by (auto; change (2 ^ 32) with 4294967296; lia). rewrite addw_fits by (auto; change (2 ^ 32) with 4294967296; lia). f_equal. lia.
  Qed.

  (** the bulk data *)
  Lemma bulk_ptr_medium : bindo (get_bulk_data (serialize true d) 0) (fun p => read_ptr (serialize true d) p sm) = Ok (tc_bulk (d_medium d)).
  Proof.
    pose proof fits as F. change (2 ^ 32) with 4294967296 in F. unfold get_bulk_data. rewrite serialize_pieces.
    rewrite (read32_piece (pieces true d) 13 (offset_of true (tc_bulk (d_medium d)) (medium_at d)) (off_bulk_offset 0) eq_refl eq_refl).
    2:{ unfold offset_of, no_offset, medium_at, clips_at. fold nm nl nc. change (2 ^ 32) with 4294967296. destruct (tc_bulk (d_medium d)); lia. }
    cbn [bindo]. unfold offset_of. destruct (tc_bulk (d_medium d)) as [|x l] eqn:E.
    - cbn [read_ptr]. subst sm. reflexivity.
    - assert (NE : medium_at d =? invalid_offset = false) by (apply N.eqb_neq; unfold medium_at, clips_at, invalid_offset; fold nm nl nc; subst sm; unfold count in *; cbn [length] in F; lia).
      rewrite NE. cbn [read_ptr]. apply (load_piece _ 20).
      + unfold pieces, content_pieces. cbn [nth_error]. rewrite E. reflexivity.
      + unfold pieces, content_pieces, lens. cbn [firstn map sum_n]. rewrite !blen_word, !blen_half, !pairs_len. unfold sizeof_raw, medium_at, clips_at. fold nm nl nc. lia.
      + subst sm. unfold count. lia.
  Qed.
  Lemma bulk_ptr_low : bindo (get_bulk_data (serialize true d) 1) (fun p => read_ptr (serialize true d) p sl) = Ok (tc_bulk (d_low d)).
  Proof.
    pose proof fits as F. change (2 ^ 32) with 4294967296 in F. unfold get_bulk_data. rewrite serialize_pieces.
    rewrite (read32_piece (pieces true d) 14 (offset_of true (tc_bulk (d_low d)) (low_at d)) (off_bulk_offset 1) eq_refl eq_refl).
    2:{ unfold offset_of, no_offset, low_at, medium_at, clips_at. fold nm nl nc sm. change (2 ^ 32) with 4294967296. destruct (tc_bulk (d_low d)); lia. }
    cbn [bindo]. unfold offset_of. destruct (tc_bulk (d_low d)) as [|x l] eqn:E.
    - cbn [read_ptr]. subst sl. reflexivity.
    - assert (NE : low_at d =? invalid_offset = false) by (apply N.eqb_neq; unfold low_at, medium_at, clips_at, invalid_offset; fold nm nl nc sm; subst sl; unfold count in *; cbn [length] in F; lia).
      rewrite NE. cbn [read_ptr]. apply (load_piece _ 21).
      + unfold pieces, content_pieces. cbn [nth_error]. rewrite E. reflexivity.
      + unfold pieces, content_pieces, lens. cbn [firstn map sum_n]. rewrite !blen_word, !blen_half, !pairs_len. unfold sizeof_raw, low_at, medium_at, clips_at. fold nm nl nc. change (count (tc_bulk (d_medium d))) with (blen (tc_bulk (d_medium d))). lia.
      + subst sl. unfold count. lia.
  Qed.
  Lemma no_bulk_ptr : get_bulk_data (serialize false d) 0 = Ok None /\ get_bulk_data (serialize false d) 1 = Ok None.
  Proof.
    unfold get_bulk_data. rewrite serialize_pieces. split.
    - rewrite (read32_piece (pieces false d) 13 no_offset (off_bulk_offset 0) eq_refl eq_refl) by reflexivity. reflexivity.
    - rewrite (read32_piece (pieces false d) 14 no_offset (off_bulk_offset 1) eq_refl eq_refl) by reflexivity. reflexivity.
  Qed.

  (** the database without its bulk data *)
  Lemma prefix : load_bytes (serialize true d) 0 (N.to_nat (total_size false d)) = Ok (concat (firstn 20 (pieces true d) ++ [[]; []])).
  Proof.
    rewrite serialize_pieces. pose proof (load_mid [] (concat (firstn 20 (pieces true d))) (concat (skipn 20 (pieces true d)))) as E.
    change (blen []) with 0 in E. cbn [app] in E. rewrite <- concat_app, firstn_skipn in E. rewrite concat_app. change (concat [[]; []]) with (@nil N). rewrite app_nil_r.
    replace (N.to_nat (total_size false d)) with (length (concat (firstn 20 (pieces true d)))); [exact E|].
    rewrite <- blen_nat. f_equal. rewrite blen_concat. unfold pieces, content_pieces, lens, total_size. cbn [firstn map sum_n]. rewrite !blen_word, !blen_half, !pairs_len. lia.
  Qed.

  Lemma split_ok addr : addr mod 16 = 0 -> addr < 2 ^ 64 ->
    split_database_bulk_data addr (serialize true d) = Ok (inr (serialize false d, tc_bulk (d_medium d), tc_bulk (d_low d))).
  Proof.
    intros A A64. unfold split_database_bulk_data. rewrite (valid addr true true A A64). cbn [bindo]. rewrite inline_of. cbn [bindo negb].
    rewrite total_of. cbn [bindo]. destruct (bulk_sizes true) as (-> & ->). cbn [bindo]. cbv zeta.
    pose proof fits as F. change (2 ^ 32) with 4294967296 in F.
    assert (SZ : subw 32 (subw 32 (total_size true d) sm) sl = total_size false d).
    { unfold total_size. fold nm nl nc sm sl. rewrite (subw_ge 32 _ sm) by (try lia; change (2 ^ 32) with 4294967296; lia). rewrite subw_ge by (try lia; change (2 ^ 32) with 4294967296; lia). lia. }
    rewrite SZ, prefix. cbn [bindo].
    unfold pieces at 1, content_pieces at 1. cbn [firstn app]. fold (content true d).
    wr32 13%nat. wr32 14%nat. match goal with |- context [set_is_bulk_data_inline (concat ?ps) false] => rewrite (set_inline_piece ps 1 false eq_refl eq_refl) by lia end. cbn [bindo upd]. wr32 0%nat.
    rewrite content_hash_pieces; [|reflexivity|reflexivity| |apply total_fits; exact OK].
    2:{ rewrite <- (content_len false d). unfold content, content_pieces. rewrite N.add_comm. reflexivity. }
    cbn [bindo]. wr32 1%nat.
    pose proof bulk_ptr_medium as BM. pose proof bulk_ptr_low as BL. destruct (get_bulk_data (serialize true d) 0) as [p0| |]; [|discriminate BM..]. cbn [bindo] in *. rewrite BM. cbn [bindo].
    destruct (get_bulk_data (serialize true d) 1) as [p1| |]; [|discriminate BL..]. cbn [bindo] in *. rewrite BL. cbn [bindo]. reflexivity.
  Qed.

  (** reading the arrays *)
  Lemma header_bytes inline : load_bytes (serialize inline d) sizeof_raw (N.to_nat sizeof_db_header) = Ok (concat (firstn 15 (content_pieces inline d))).
  Proof.
    rewrite serialize_pieces.
    pose proof (load_mid (word (total_size inline d) ++ word (hash32 (content inline d))) (concat (firstn 15 (content_pieces inline d))) (concat (skipn 15 (content_pieces inline d)))) as E.
    rewrite <- concat_app, firstn_skipn in E. rewrite <- app_assoc in E. exact E.
  Qed.
  Lemma descriptions_medium_bytes inline : load_bytes (serialize inline d) chunk_descriptions_medium (N.to_nat (nm * sizeof_description)) = Ok (pairs_bytes (tc_chunks (d_medium d))).
  Proof.
    rewrite serialize_pieces. apply (load_piece (pieces inline d) 17); [reflexivity|reflexivity|]. rewrite pairs_nat. fold nm. unfold sizeof_description. f_equal. lia.
  Qed.
  Lemma num_chunks_0 inline : read32 (serialize inline d) (off_num_chunks 0) = Ok nm.
  Proof. rewrite serialize_pieces. pose proof fits as F. change (2 ^ 32) with 4294967296 in F. apply (read32_piece (pieces inline d) 5); try reflexivity. fold nm. change (2 ^ 32) with 4294967296. lia. Qed.
  Lemma num_chunks_1 inline : read32 (serialize inline d) (off_num_chunks 1) = Ok nl.
  Proof. rewrite serialize_pieces. pose proof fits as F. change (2 ^ 32) with 4294967296 in F. apply (read32_piece (pieces inline d) 6); try reflexivity. fold nl. change (2 ^ 32) with 4294967296. lia. Qed.
  Lemma num_clips inline : read32 (serialize inline d) off_num_clips = Ok nc.
  Proof. rewrite serialize_pieces. pose proof fits as F. change (2 ^ 32) with 4294967296 in F. apply (read32_piece (pieces inline d) 8); try reflexivity. fold nc. change (2 ^ 32) with 4294967296. lia. Qed.
  Lemma descriptions_low_bytes inline : bindo (chunk_descriptions_low (serialize inline d)) (fun p => load_bytes (serialize inline d) p (N.to_nat (nl * sizeof_description))) = Ok (pairs_bytes (tc_chunks (d_low d))).
  Proof.
    pose proof fits as F. change (2 ^ 32) with 4294967296 in F. unfold chunk_descriptions_low. rewrite num_chunks_0. cbn [bindo]. rewrite low_at_eq by (change (2 ^ 32) with 4294967296; lia).
    rewrite serialize_pieces. apply (load_piece (pieces inline d) 18); [reflexivity| |].
    - unfold pieces, content_pieces, lens. cbn [firstn map sum_n]. rewrite !blen_word, !blen_half, !pairs_len. fold nm. lia.
    - rewrite pairs_nat. fold nl. unfold sizeof_description. f_equal. lia.
  Qed.
  Lemma clips_bytes inline : bindo (clip_metadatas (serialize inline d)) (fun p => load_bytes (serialize inline d) p (N.to_nat (nc * sizeof_clip_metadata))) = Ok (pairs_bytes (d_clips d)).
  Proof.
    pose proof fits as F. change (2 ^ 32) with 4294967296 in F. unfold clip_metadatas. rewrite serialize_pieces.
    rewrite (read32_piece (pieces inline d) 10 (clips_at d) off_clip_metadata eq_refl eq_refl) by (unfold clips_at; fold nm nl; change (2 ^ 32) with 4294967296; lia). cbn [bindo].
    apply (load_piece (pieces inline d) 19); [reflexivity| |].
    - unfold pieces, content_pieces, lens. cbn [firstn map sum_n]. rewrite !blen_word, !blen_half, !pairs_len. unfold sizeof_raw, clips_at. fold nm nl. lia.
    - rewrite pairs_nat. fold nc. unfold sizeof_clip_metadata. f_equal. lia.
  Qed.
End Database.

Definition zeros (n : N) : list N := repeat 0 (N.to_nat n).
Lemma blen_zeros n : blen (zeros n) = n.
Proof. unfold blen, zeros. rewrite repeat_length. lia. Qed.
Lemma upd_nil (ps : list (list N)) : forall i, nth_error ps i = Some [] -> upd ps i [] = ps.
Proof. induction ps as [|p ps IH]; intros [|i] E; cbn [nth_error] in E; try discriminate E; [injection E as ->; reflexivity|]. cbn [upd]. rewrite (IH i E). reflexivity. Qed.
Lemma write_ptr_piece ps i p off l : nth_error ps i = Some p -> length l = length p -> off = sum_n (lens (firstn i ps)) ->
  write_ptr (concat ps) (if count l =? 0 then None else Some off) l = Ok (concat (upd ps i l)).
Proof.
  intros E L O. destruct l as [|x l].
  - destruct p; [|discriminate L]. cbn [write_ptr]. change (count [] =? 0) with true. cbn [write_ptr]. rewrite (upd_nil ps i E). reflexivity.
  - assert (Z : count (x :: l) =? 0 = false) by (apply N.eqb_neq; unfold count; cbn [length]; lia). rewrite Z. cbn [write_ptr]. apply (store_piece ps i p); auto.
Qed.
Lemma ptr_of (l : list N) v : v <> invalid_offset -> (if (if count l =? 0 then invalid_offset else v) =? invalid_offset then None else Some (sizeof_raw + (if count l =? 0 then invalid_offset else v))) =
  (if count l =? 0 then None else Some (sizeof_raw + v)).
Proof. intros NE. destruct (count l =? 0); [reflexivity|]. apply N.eqb_neq in NE. rewrite NE. reflexivity. Qed.
Lemma offset_of_eq l v : offset_of true l v = if count l =? 0 then invalid_offset else v.
Proof. unfold offset_of. destruct l; [reflexivity|]. assert (Z : count (n :: l) =? 0 = false) by (apply N.eqb_neq; unfold count; cbn [length]; lia). rewrite Z. reflexivity. Qed.

(** a fresh buffer with a copied header *)
Lemma fresh_copy d inline nm nl nc sm sl :
  store_bytes (zeros (64 + 8 * (nm + nl + nc) + (sm + sl))) sizeof_raw (concat (firstn 15 (content_pieces inline d))) =
  Ok (concat ([zeros 4; zeros 4] ++ firstn 15 (content_pieces inline d) ++ [zeros (8 * nm); zeros (8 * nl); zeros (8 * nc); zeros sm; zeros sl])).
Proof.
  unfold zeros at 1. replace (64 + 8 * (nm + nl + nc) + (sm + sl)) with (sum_n [4; 4; 56; 8 * nm; 8 * nl; 8 * nc; sm; sl]) by (cbn [sum_n]; lia).
  rewrite repeat_pieces. cbn [map].
  match goal with |- store_bytes (concat ?ps) _ ?q = _ => rewrite (store_piece ps 2 _ sizeof_raw q eq_refl eq_refl eq_refl) end. f_equal.
Qed.

Ltac st_piece i L := match goal with |- context [store_bytes (concat ?ps) ?o ?q] => rewrite (store_piece ps i _ o q eq_refl); [| |L] end.

(** the size and the hash are written last *)
Lemma finish p0 p1 ps d : length p0 = 4%nat -> length p1 = 4%nat -> concat ps = content true d -> total_size true d < 2 ^ 32 ->
  exists m, write32 (concat (p0 :: p1 :: ps)) off_size (total_size true d) = Ok m /\ content_hash m (total_size true d) = Ok (hash32 (content true d)) /\
    write32 m off_hash (hash32 (content true d)) = Ok (serialize true d).
Proof.
  intros L0 L1 C T. exists (concat (word (total_size true d) :: p1 :: ps)). split; [|split].
  - apply (write32_piece (p0 :: p1 :: ps) 0 p0); auto.
  - rewrite content_hash_pieces; auto. 2:{ rewrite C, <- (content_len true d). lia. } rewrite C. reflexivity.
  - rewrite (write32_piece (word (total_size true d) :: p1 :: ps) 1 p1); auto. cbn [upd concat]. rewrite C. reflexivity.
Qed.

Lemma strip_medium_ok d addr : database_ok d -> addr mod 16 = 0 -> addr < 2 ^ 64 -> tc_bulk (d_medium d) <> [] ->
  strip_database_quality_tier addr (serialize true d) medium_importance = Ok (inr (serialize true (without d medium_importance))).
Proof.
  intros OK A A64 NE. unfold strip_database_quality_tier. rewrite (valid d OK addr true true A A64). cbn [bindo is_highest tier_index is_medium is_lowest negb].
  destruct (bulk_sizes d OK true) as (-> & S1). cbn [bindo]. assert (Z : count (tc_bulk (d_medium d)) =? 0 = false) by (apply N.eqb_neq; unfold count; destruct (tc_bulk (d_medium d)); [congruence|cbn [length]; lia]).
  rewrite Z. rewrite inline_of. cbn [bindo]. rewrite (num_chunks_1 d OK). cbn [bindo]. rewrite (num_clips d OK). cbn [bindo]. rewrite S1. cbn [bindo].
  pose proof (fits d OK) as F. set (nl := count (tc_chunks (d_low d))) in *. set (nc := count (d_clips d)) in *. set (sl := count (tc_bulk (d_low d))) in *. change (2 ^ 32) with 4294967296 in F.
  rewrite buffer_size_eq, layout_eq by (change (2 ^ 32) with 4294967296; lia). rewrite header_bytes. cbn [bindo]. cbv zeta. fold (zeros (64 + 8 * (0 + nl + nc) + (0 + sl))).
  rewrite fresh_copy. cbn [bindo]. unfold content_pieces at 1. cbn [firstn app].
  wr32 10%nat. wr32 13%nat. wr32 14%nat. wr32 5%nat. wr32 11%nat. wr32 13%nat. wr32 15%nat.
  pose proof (descriptions_low_bytes d OK true) as DL. fold nl in DL.
  destruct (chunk_descriptions_low (serialize true d)) as [p| |]; [|discriminate DL..]. cbn [bindo] in *. rewrite DL. cbn [bindo].
  unfold chunk_descriptions_low.
  match goal with |- context [read32 (concat ?ps) (off_num_chunks 0)] => rewrite (read32_piece ps 5 0 (off_num_chunks 0) eq_refl eq_refl eq_refl) end. cbn [bindo].
  rewrite (low_at_eq 0) by reflexivity.
  st_piece 18%nat ltac:(rewrite pairs_nat; unfold zeros; rewrite repeat_length; reflexivity); [|reflexivity]. cbn [bindo upd].
  pose proof (clips_bytes d OK true) as CB. fold nc in CB. destruct (clip_metadatas (serialize true d)) as [p1| |]; [|discriminate CB..]. cbn [bindo] in *. rewrite CB. cbn [bindo].
  unfold clip_metadatas.
  match goal with |- context [read32 (concat ?ps) off_clip_metadata] => rewrite (read32_piece ps 10 (56 + 8 * (0 + nl)) off_clip_metadata eq_refl eq_refl) by (change (2 ^ 32) with 4294967296; lia) end. cbn [bindo].
  st_piece 19%nat ltac:(rewrite pairs_nat; unfold zeros; rewrite repeat_length; reflexivity).
  2:{ unfold lens. cbn [firstn map sum_n]. rewrite !blen_word, !blen_half, !pairs_len, !blen_zeros. unfold sizeof_raw. fold nl. lia. }
  cbn [bindo upd]. pose proof (bulk_ptr_low d OK) as BL. fold sl in BL. destruct (get_bulk_data (serialize true d) 1) as [p2| |]; [|discriminate BL..]. cbn [bindo] in *. rewrite BL. cbn [bindo].
  unfold get_bulk_data.
  match goal with |- context [read32 (concat ?ps) (off_bulk_offset 1)] => rewrite (read32_piece ps 14 (if sl =? 0 then invalid_offset else 56 + 8 * (0 + nl + nc) + 0) (off_bulk_offset 1) eq_refl eq_refl) end.
  2:{ destruct (sl =? 0); unfold invalid_offset; change (2 ^ 32) with 4294967296; lia. }
  cbn [bindo]. subst sl. rewrite ptr_of by (unfold invalid_offset; lia).
  match goal with |- context [write_ptr (concat ?ps) _ ?q] => rewrite (write_ptr_piece ps 21 _ (sizeof_raw + (56 + 8 * (0 + nl + nc) + 0)) q eq_refl) end.
  2:{ unfold zeros, count. rewrite repeat_length. lia. }
  2:{ unfold lens. cbn [firstn map sum_n]. rewrite !blen_word, !blen_half, !pairs_len, !blen_zeros. unfold sizeof_raw. fold nl nc. lia. }
  set (sl := count (tc_bulk (d_low d))) in *. cbn [bindo upd].
  set (d' := without d medium_importance).
  assert (T : 64 + 8 * (0 + nl + nc) + (0 + sl) = total_size true d') by (unfold total_size; reflexivity).
  assert (T32 : total_size true d' < 2 ^ 32) by (rewrite <- T; change (2 ^ 32) with 4294967296; lia).
  rewrite T.
  match goal with |- context [write32 (concat (?a :: ?b :: ?ps)) off_size _] => destruct (finish a b ps d' eq_refl eq_refl) as (f & -> & F1 & F2); [|exact T32|] end.
  { unfold content, content_pieces. rewrite !offset_of_eq. unfold low_at, medium_at, clips_at. unfold d', without. cbn [d_low d_medium d_clips d_version d_max_chunk_size d_num_segments tc_bulk tc_chunks no_tier].
    change (count (@nil N)) with 0. change (count (@nil (N * N))) with 0. fold nl nc sl. change (0 =? 0) with true. cbv iota.
    change (zeros (8 * 0)) with (@nil N). change (zeros 0) with (@nil N). replace (56 + 8 * (0 + nl) + 8 * nc + 0) with (56 + 8 * (0 + nl + nc) + 0) by lia. reflexivity. }
  cbn [bindo]. rewrite F1. cbn [bindo]. rewrite F2. reflexivity.
Qed.

Lemma strip_lowest_ok d addr : database_ok d -> addr mod 16 = 0 -> addr < 2 ^ 64 -> tc_bulk (d_low d) <> [] ->
  strip_database_quality_tier addr (serialize true d) lowest_importance = Ok (inr (serialize true (without d lowest_importance))).
Proof.
  intros OK A A64 NE. unfold strip_database_quality_tier. rewrite (valid d OK addr true true A A64). cbn [bindo is_highest tier_index is_medium is_lowest negb].
  destruct (bulk_sizes d OK true) as (S0 & ->). cbn [bindo]. assert (Z : count (tc_bulk (d_low d)) =? 0 = false) by (apply N.eqb_neq; unfold count; destruct (tc_bulk (d_low d)); [congruence|cbn [length]; lia]).
  rewrite Z. rewrite inline_of. cbn [bindo]. rewrite (num_chunks_0 d OK). cbn [bindo]. rewrite (num_clips d OK). cbn [bindo]. rewrite S0. cbn [bindo].
  pose proof (fits d OK) as F. set (nm := count (tc_chunks (d_medium d))) in *. set (nc := count (d_clips d)) in *. set (sm := count (tc_bulk (d_medium d))) in *. change (2 ^ 32) with 4294967296 in F.
  rewrite buffer_size_eq, layout_eq by (change (2 ^ 32) with 4294967296; lia). rewrite header_bytes. cbn [bindo]. cbv zeta. fold (zeros (64 + 8 * (nm + 0 + nc) + (sm + 0))).
  rewrite fresh_copy. cbn [bindo]. unfold content_pieces at 1. cbn [firstn app].
  wr32 10%nat. wr32 13%nat. wr32 14%nat. wr32 6%nat. wr32 12%nat. wr32 14%nat. wr32 16%nat.
  pose proof (descriptions_medium_bytes d true) as DL. fold nm in DL. rewrite DL. cbn [bindo].
  st_piece 17%nat ltac:(rewrite pairs_nat; unfold zeros; rewrite repeat_length; reflexivity); [|reflexivity]. cbn [bindo upd].
  pose proof (clips_bytes d OK true) as CB. fold nc in CB. destruct (clip_metadatas (serialize true d)) as [p1| |]; [|discriminate CB..]. cbn [bindo] in *. rewrite CB. cbn [bindo].
  unfold clip_metadatas.
  match goal with |- context [read32 (concat ?ps) off_clip_metadata] => rewrite (read32_piece ps 10 (56 + 8 * (nm + 0)) off_clip_metadata eq_refl eq_refl) by (change (2 ^ 32) with 4294967296; lia) end. cbn [bindo].
  st_piece 19%nat ltac:(rewrite pairs_nat; unfold zeros; rewrite repeat_length; reflexivity).
  2:{ unfold lens. cbn [firstn map sum_n]. rewrite !blen_word, !blen_half, !pairs_len, !blen_zeros. unfold sizeof_raw. fold nm. lia. }
  cbn [bindo upd]. pose proof (bulk_ptr_medium d OK) as BL. fold sm in BL. destruct (get_bulk_data (serialize true d) 0) as [p2| |]; [|discriminate BL..]. cbn [bindo] in *. rewrite BL. cbn [bindo].
  unfold get_bulk_data.
  match goal with |- context [read32 (concat ?ps) (off_bulk_offset 0)] => rewrite (read32_piece ps 13 (if sm =? 0 then invalid_offset else 56 + 8 * (nm + 0 + nc)) (off_bulk_offset 0) eq_refl eq_refl) end.
  2:{ destruct (sm =? 0); unfold invalid_offset; change (2 ^ 32) with 4294967296; lia. }
  cbn [bindo]. subst sm. rewrite ptr_of by (unfold invalid_offset; lia).
  match goal with |- context [write_ptr (concat ?ps) _ ?q] => rewrite (write_ptr_piece ps 20 _ (sizeof_raw + (56 + 8 * (nm + 0 + nc))) q eq_refl) end.
  2:{ unfold zeros, count. rewrite repeat_length. lia. }
  2:{ unfold lens. cbn [firstn map sum_n]. rewrite !blen_word, !blen_half, !pairs_len, !blen_zeros. unfold sizeof_raw. fold nm nc. lia. }
  set (sm := count (tc_bulk (d_medium d))) in *. cbn [bindo upd].
  set (d' := without d lowest_importance).
  assert (T : 64 + 8 * (nm + 0 + nc) + (sm + 0) = total_size true d') by (unfold total_size; reflexivity).
  assert (T32 : total_size true d' < 2 ^ 32) by (rewrite <- T; change (2 ^ 32) with 4294967296; lia).
  rewrite T.
  match goal with |- context [write32 (concat (?a :: ?b :: ?ps)) off_size _] => destruct (finish a b ps d' eq_refl eq_refl) as (f & -> & F1 & F2); [|exact T32|] end.
  { unfold content, content_pieces. rewrite !offset_of_eq. unfold low_at, medium_at, clips_at. unfold d', without. cbn [d_low d_medium d_clips d_version d_max_chunk_size d_num_segments tc_bulk tc_chunks no_tier].
    change (count (@nil N)) with 0. change (count (@nil (N * N))) with 0. fold nm nc sm. change (0 =? 0) with true. cbv iota.
    change (zeros (8 * 0)) with (@nil N). change (zeros 0) with (@nil N). replace (56 + 8 * (nm + 0) + 8 * nc) with (56 + 8 * (nm + 0 + nc)) by lia. reflexivity. }
  cbn [bindo]. rewrite F1. cbn [bindo]. rewrite F2. reflexivity.
Qed.

Lemma strip_empty_ok d addr tier inline : database_ok d -> addr mod 16 = 0 -> addr < 2 ^ 64 -> tier <> highest_importance -> tc_bulk (tier_of d tier) = [] ->
  strip_database_quality_tier addr (serialize inline d) tier = Ok (inl empty_tier).
Proof.
  intros OK A A64 T E. unfold strip_database_quality_tier. rewrite (valid d OK addr inline true A A64). cbn [bindo].
  destruct (bulk_sizes d OK inline) as (S0 & S1). destruct tier; [congruence| |]; cbn [is_highest tier_index tier_of] in *; rewrite ?S0, ?S1; cbn [bindo]; rewrite E; reflexivity.
Qed.

(** calculate_num_segments *)
Lemma num_segments_eq clips acc : acc + sum_n (map (fun c => N.of_nat (snd c)) clips) < 2 ^ 32 ->
  fold_left (fun a (c : N * nat) => addw 32 a (N.of_nat (snd c))) clips acc = acc + sum_n (map (fun c => N.of_nat (snd c)) clips).
Proof.
  revert acc. induction clips as [|c clips IH]; intros acc H; cbn [fold_left map sum_n] in *; [lia|]. change (2 ^ 32) with 4294967296 in *.
  rewrite addw_fits by (auto; change (2 ^ 32) with 4294967296; lia). rewrite IH by lia. lia.
Qed.
Lemma clip_metadata_len clips : forall o, length (clip_metadata clips o) = length clips.
Proof. induction clips as [|(h, n) clips IH]; intros o; cbn [clip_metadata length]; [reflexivity|]. rewrite IH. reflexivity. Qed.
