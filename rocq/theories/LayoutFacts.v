(** Proofs about the layout of a compressed database. *)
From Coq Require Import Lia.
From Verif Require Import Word WordFacts MemoryUtils MemoryFacts Hash HashFacts DbTiers DbBuild DbHeaderFacts RewriteFacts Pieces DbLayout LayoutSpec.
Local Open Scope N_scope.
Ltac Zify.zify_post_hook ::= idtac.

Lemma count_blen (l : list N) : count l = blen l.
Proof. reflexivity. Qed.
Lemma word_len v : length (word v) = 4%nat.
Proof. reflexivity. Qed.
Lemma blen_word v : blen (word v) = 4.
Proof. reflexivity. Qed.
Lemma blen_half v : blen (half v) = 2.
Proof. reflexivity. Qed.
Lemma word_bytes v : bytes_ok (word v).
Proof. apply le_bytes_ok. Qed.
Lemma pairs_len l : blen (pairs_bytes l) = 8 * count l.
Proof.
  unfold count. induction l as [|p l IH]; [reflexivity|]. unfold pairs_bytes in *. cbn [flat_map length]. rewrite !blen_app, IH.
  change (blen (word (fst p))) with 4. change (blen (word (snd p))) with 4. lia.
Qed.
Lemma pairs_nat l : length (pairs_bytes l) = N.to_nat (8 * count l).
Proof. rewrite <- pairs_len. symmetry. apply blen_nat. Qed.
Lemma al4_id w x : w = 32 \/ w = 64 -> x mod 4 = 0 -> x + 3 < 2 ^ 32 -> align_to w x 4 = x.
Proof.
  intros W M H. pose proof (al4 w x W H) as (A & B & C & D). cbv zeta in *. specialize (D x (N.le_refl x) M). lia.
Qed.
Lemma mod4 x : (4 * x) mod 4 = 0.
Proof. rewrite N.mul_comm. apply N.mod_mul. discriminate. Qed.
Lemma al4_mul w x : w = 32 \/ w = 64 -> 4 * x + 3 < 2 ^ 32 -> align_to w (4 * x) 4 = 4 * x.
Proof. intros W H. apply al4_id; auto. apply mod4. Qed.

Lemma addw_fits w a b : w = 32 \/ w = 64 -> a + b < 2 ^ 32 -> addw w a b = a + b.
Proof. intros W H. apply addw_small. destruct W; subst w; [auto|]. change (2 ^ 32) with 4294967296 in H. change (2 ^ 64) with 18446744073709551616. lia. Qed.
Lemma mulw_fits w a b : w = 32 \/ w = 64 -> a * b < 2 ^ 32 -> mulw w a b = a * b.
Proof. intros W H. apply mulw_small. destruct W; subst w; [auto|]. change (2 ^ 32) with 4294967296 in H. change (2 ^ 64) with 18446744073709551616. lia. Qed.

Lemma buffer_size_eq nm nl nc sm sl : 64 + 8 * (nm + nl + nc) + (sm + sl) < 2 ^ 32 -> database_buffer_size nm nl nc sm sl = 64 + 8 * (nm + nl + nc) + (sm + sl).
Proof.
  intros H. unfold database_buffer_size, sizeof_raw, sizeof_db_header, sizeof_description, sizeof_clip_metadata, bulk_alignment. cbv zeta.
  change (align_to 32 (addw 32 (addw 32 0 8) 56) 4) with 64. change (2 ^ 32) with 4294967296 in *.
  rewrite (mulw_fits 32 nm), (mulw_fits 32 nl), (mulw_fits 32 nc) by (auto; change (2 ^ 32) with 4294967296; lia).
  assert (F : forall a b, a + b < 4294967296 -> addw 32 a b = a + b) by (intros; apply addw_fits; auto).
  rewrite (F 64) by lia. replace (64 + nm * 8) with (4 * (16 + 2 * nm)) by lia. rewrite al4_mul by (auto; change (2 ^ 32) with 4294967296; lia).
  rewrite (F (4 * (16 + 2 * nm))) by lia. replace (4 * (16 + 2 * nm) + nl * 8) with (4 * (16 + 2 * (nm + nl))) by lia. rewrite al4_mul by (auto; change (2 ^ 32) with 4294967296; lia).
  rewrite (F (4 * (16 + 2 * (nm + nl)))) by lia. replace (4 * (16 + 2 * (nm + nl)) + nc * 8) with (4 * (16 + 2 * (nm + nl + nc))) by lia. rewrite al4_mul by (auto; change (2 ^ 32) with 4294967296; lia).
  rewrite (F (4 * (16 + 2 * (nm + nl + nc)))) by lia. rewrite F by lia. lia.
Qed.

Lemma layout_eq nm nl nc sm sl : 64 + 8 * (nm + nl + nc) + (sm + sl) < 2 ^ 32 ->
  layout_offsets nm nl nc sm sl =
  (56 + 8 * (nm + nl), if sm =? 0 then invalid_offset else 56 + 8 * (nm + nl + nc), if sl =? 0 then invalid_offset else 56 + 8 * (nm + nl + nc) + sm).
Proof.
  intros H. unfold layout_offsets, sizeof_raw, sizeof_db_header, sizeof_description, sizeof_clip_metadata, bulk_alignment. cbv zeta.
  change (align_to 64 (8 + 56) 4) with 64. change (2 ^ 32) with 4294967296 in *.
  rewrite (mulw_fits 64 nm), (mulw_fits 64 nl), (mulw_fits 64 nc) by (auto; change (2 ^ 32) with 4294967296; lia).
  assert (F : forall a b, a + b < 4294967296 -> addw 64 a b = a + b) by (intros; apply addw_fits; auto).
  rewrite (F 64) by lia. replace (64 + nm * 8) with (4 * (16 + 2 * nm)) by lia. rewrite al4_mul by (auto; change (2 ^ 32) with 4294967296; lia).
  rewrite (F (4 * (16 + 2 * nm))) by lia. replace (4 * (16 + 2 * nm) + nl * 8) with (4 * (16 + 2 * (nm + nl))) by lia. rewrite al4_mul by (auto; change (2 ^ 32) with 4294967296; lia).
  rewrite (F (4 * (16 + 2 * (nm + nl)))) by lia. replace (4 * (16 + 2 * (nm + nl)) + nc * 8) with (4 * (16 + 2 * (nm + nl + nc))) by lia. rewrite al4_mul by (auto; change (2 ^ 32) with 4294967296; lia).
  rewrite (F (4 * (16 + 2 * (nm + nl + nc)))) by lia.
  assert (S : forall a, 8 <= a -> a < 4294967296 -> wrapw 32 (subw 64 a 8) = a - 8).
  { intros a A B. rewrite subw_ge by (try lia; change (2 ^ 64) with 18446744073709551616; lia). unfold wrapw. apply N.mod_small. change (2 ^ 32) with 4294967296. lia. }
  rewrite !S by lia. f_equal; [f_equal|].
  - lia.
  - destruct (sm =? 0); cbn [negb]; [reflexivity|lia].
  - destruct (sl =? 0); cbn [negb]; [reflexivity|lia].
Qed.

(** the pieces of a buffer *)
Definition pieces (inline : bool) (d : database) : list (list N) :=
  word (total_size inline d) :: word (hash32 (content inline d)) :: content_pieces inline d.
Lemma serialize_pieces inline d : serialize inline d = concat (pieces inline d).
Proof. reflexivity. Qed.
Lemma content_len inline d : blen (content inline d) + 8 = total_size inline d.
Proof.
  unfold content. rewrite blen_concat. unfold content_pieces, lens, total_size. cbn [map sum_n]. rewrite !pairs_len.
  rewrite !blen_word, !blen_half.
  destruct inline; unfold count, blen; cbn [length]; lia.
Qed.
Lemma serialize_len inline d : blen (serialize inline d) = total_size inline d.
Proof. unfold serialize. rewrite !blen_app, !blen_word, <- (content_len inline d). lia. Qed.
Lemma total_false d : total_size false d <= total_size true d.
Proof. unfold total_size. lia. Qed.
Lemma total_fits inline d : database_ok d -> total_size inline d < 2 ^ 32.
Proof. intros (_ & _ & _ & T & _). pose proof (total_false d). destruct inline; [auto|lia]. Qed.
Lemma bytes_ok_flat l : bytes_ok (pairs_bytes l).
Proof. induction l as [|p l IH]; [constructor|]. unfold pairs_bytes. cbn [flat_map]. apply bytes_ok_app; [apply bytes_ok_app; apply word_bytes|exact IH]. Qed.
Lemma content_bytes inline d : database_ok d -> bytes_ok (content inline d).
Proof.
  intros (_ & _ & _ & _ & B1 & B2). unfold content, content_pieces. cbn [concat].
  repeat (apply bytes_ok_app; [first [apply le_bytes_ok | apply bytes_ok_flat | destruct inline; [assumption|constructor]]|]). constructor.
Qed.

(** the hash of a buffer *)
Lemma content_hash_pieces p0 p1 ps size : length p0 = 4%nat -> length p1 = 4%nat -> size = 8 + blen (concat ps) -> size < 2 ^ 32 ->
  content_hash (concat (p0 :: p1 :: ps)) size = Ok (hash32 (concat ps)).
Proof.
  intros L0 L1 -> S. unfold content_hash, sizeof_raw. change (2 ^ 32) with 4294967296 in S.
  rewrite subw_ge by (try lia; change (2 ^ 64) with 18446744073709551616; lia). cbn [concat].
  pose proof (load_mid (p0 ++ p1) (concat ps) []) as E. rewrite app_nil_r, <- app_assoc in E.
  replace (blen (p0 ++ p1)) with 8 in E by (unfold blen; rewrite app_length, L0, L1; reflexivity).
  replace (N.to_nat (8 + blen (concat ps) - 8)) with (length (concat ps)) by (rewrite <- blen_nat; f_equal; lia). rewrite E. reflexivity.
Qed.

Lemma write_pairs_mid : forall l a b c, blen b = 8 * count l -> write_pairs (a ++ b ++ c) (blen a) l = Ok (a ++ pairs_bytes l ++ c).
Proof.
  induction l as [|(x, y) l IH]; intros a b c B.
  - change (8 * count (@nil (N * N))) with 0 in B. destruct b; [reflexivity|discriminate B].
  - assert (BL : length b = (8 + N.to_nat (8 * count l))%nat).
    { rewrite <- blen_nat, B. unfold count. cbn [length]. lia. }
    destruct b as [|b0 [|b1 [|b2 [|b3 [|b4 [|b5 [|b6 [|b7 b]]]]]]]]; try discriminate BL.
    cbn [write_pairs]. unfold write32.
    change (a ++ (b0 :: b1 :: b2 :: b3 :: b4 :: b5 :: b6 :: b7 :: b) ++ c) with (a ++ [b0; b1; b2; b3] ++ ((b4 :: b5 :: b6 :: b7 :: b) ++ c)).
    rewrite store_mid by reflexivity. cbn [bindo]. rewrite (app_assoc a). replace (blen a + 4) with (blen (a ++ le_bytes 4 x)) by (rewrite blen_app; reflexivity).
    change ((b4 :: b5 :: b6 :: b7 :: b) ++ c) with ([b4; b5; b6; b7] ++ (b ++ c)). rewrite store_mid by reflexivity. cbn [bindo].
    rewrite app_assoc. replace (blen a + 8) with (blen ((a ++ le_bytes 4 x) ++ le_bytes 4 y)) by (rewrite !blen_app; change (blen (le_bytes 4 x)) with 4; change (blen (le_bytes 4 y)) with 4; lia).
    rewrite IH. 2:{ unfold blen. cbn [length] in BL. lia. }
    unfold pairs_bytes. cbn [flat_map fst snd]. unfold word. rewrite <- !app_assoc. reflexivity.
Qed.
Lemma write_pairs_piece ps i p off l : nth_error ps i = Some p -> off = sum_n (lens (firstn i ps)) -> blen p = 8 * count l ->
  write_pairs (concat ps) off l = Ok (concat (upd ps i (pairs_bytes l))).
Proof.
  intros E -> L. rewrite (split_at ps i p E), <- blen_concat, (write_pairs_mid l _ p _ L). f_equal. symmetry. apply upd_split. apply nth_error_Some. congruence.
Qed.
