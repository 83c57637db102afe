(** Adding the metadata, the padding, the size and the hash leaves the rest of the clip alone. *)
From Coq Require Import Lia.
From Verif Require Import Word WordFacts Pieces MemoryUtils MemoryFacts Float32 Float32Facts Headers HeadersFacts PackSpec PackingFacts DbBuild TrackArray ScalarEnc ScalarDec ScalarMeta ScalarWrite LayoutOps LayoutSpec LayoutFacts TransMeta TransMetaSpec TransMetaFacts
  TransSpec TransMem TransRing TransAnim TransEncAnim2.
Import ListNotations.
Local Open Scope N_scope.
Ltac Zify.zify_post_hook ::= idtac.

(** [m] is [prefix] but for its size, its hash and its metadata flag, and has fifteen more bytes at least *)
Record sealed (prefix m : list N) : Prop := {
  se_bytes : bytes_ok m;
  se_size : blen prefix + 15 <= blen m;
  se_kept : forall k, (8 <= k < 28 \/ 32 <= k)%nat -> (k < length prefix)%nat -> nth_error m k = nth_error prefix k;
  se_hash : exists h, h_hash m = Ok h;
  se_misc : forall misc, h_misc prefix = Ok misc -> exists b : bool, h_misc m = Ok (set_has_metadata misc (b2n b))
}.

Lemma bytes_app' a b : bytes_ok a -> bytes_ok b -> bytes_ok (a ++ b). Proof. intros A B. apply Forall_app. split; assumption. Qed.
Lemma bytes_concat' l : Forall bytes_ok l -> bytes_ok (concat l).
Proof. induction 1 as [| x l Hx _ IH]; [constructor |]. cbn [concat]. apply bytes_app'; assumption. Qed.
Lemma zeros_bytes n : bytes_ok (zeros n). Proof. unfold zeros. induction (N.to_nat n); constructor; [reflexivity | assumption]. Qed.
Lemma word_ok w : bytes_ok (word w). Proof. apply le_bytes_ok. Qed.
Lemma body_ok on l : Forall bytes_ok l -> bytes_ok (body_of on l).
Proof. intros F. unfold body_of. destruct on; [apply bytes_concat', F | constructor]. Qed.
Lemma map_words_ok ws : Forall bytes_ok (map word ws). Proof. apply Forall_map, Forall_forall. intros w _. apply word_ok. Qed.
Lemma float_bytes_ok l : bytes_ok (float_bytes l). Proof. rewrite float_words. apply bytes_concat', map_words_ok. Qed.
Lemma tail_ok a1 a2 a3 a4 a5 c1 c2 c3 c4 c5 s : Forall bytes_ok c1 -> Forall bytes_ok c2 -> Forall bytes_ok c3 -> Forall bytes_ok c4 -> Forall bytes_ok c5 ->
  bytes_ok (meta_tail a1 a2 a3 a4 a5 c1 c2 c3 c4 c5 s).
Proof.
  intros. unfold meta_tail. repeat apply bytes_app'; first [apply zeros_bytes | apply word_ok | apply body_ok; assumption].
Qed.
Lemma names_ok names : Forall bytes_ok names -> Forall bytes_ok (names_chunks names).
Proof.
  intros F. unfold names_chunks. apply Forall_app. split; [apply map_words_ok |]. apply Forall_map. eapply Forall_impl; [| exact F]. intros n Hn. unfold name_chunk. apply bytes_app'; [exact Hn | repeat constructor].
Qed.

Lemma metadata_sealed f list_name tracks mapping error prefix : transform_clip list_name tracks mapping error prefix ->
  bytes_ok list_name -> Forall (fun t => bytes_ok (tt_name t)) tracks -> bytes_ok error ->
  exists m, add_metadata f list_name tracks mapping error prefix = Ok m /\ sealed prefix m.
Proof.
  intros W BL BN BE.
  destruct (output_tracks_ok mapping tracks (tc_mapping _ _ _ _ _ W)) as (ts & OT). pose proof (output_tracks_forall _ _ _ _ (tc_descriptions _ _ _ _ _ W) OT) as D.
  destruct (output_tracks_nth _ _ _ OT) as [LT _]. pose proof (output_tracks_names _ _ _ OT) as NS. pose proof (desc_len ts D) as [DL _].
  pose proof (output_tracks_forall _ _ _ _ BN OT) as BNs.
  pose proof (tc_fits _ _ _ _ _ W) as FT. change (2 ^ 32 - 512) with 4294966784 in FT.
  assert (FIT : blen prefix + blen (concat [name_chunk list_name]) + blen (concat (names_chunks (map tt_name ts))) + blen (concat (map word (parent_words mapping ts))) + blen (concat (desc_bytes ts)) + blen (concat [error]) < 2 ^ 32 - 256).
  { rewrite names_len, parent_words_len, DL, NS, map_length, LT. cbn [concat]. rewrite !app_nil_r. unfold name_chunk. rewrite blen_app. change (blen [0]) with 1. change (2 ^ 32 - 256) with 4294967040. lia. }
  destruct (clip_made f list_name tracks mapping error prefix ts OT D FIT (tc_header _ _ _ _ _ W) (tc_bytes _ _ _ _ _ W)) as (m & A & EM & LA & MA & HS & HM & HN & HV & hash & p0 & p1 & x & pm & rest & EP & L0 & L1 & L2 & L3 & EA).
  pose proof (tsz_bound f list_name mapping error prefix ts FIT (tc_header _ _ _ _ _ W)) as [TB1 TB2].
  set (mt := meta_total _ _ _ _ _ _ _ _ _ _) in *. set (tsz := total_size _ _ _ _ _ _ _ _ _ _ _) in *. set (tl := meta_tail _ _ _ _ _ _ _ _ _ _ _) in *.
  assert (BT : bytes_ok (if mt =? 0 then zeros 15 else tl)).
  { destruct (mt =? 0); [apply zeros_bytes |]. apply tail_ok.
    - constructor; [| constructor]. unfold name_chunk. apply bytes_app'; [exact BL | repeat constructor].
    - apply names_ok, Forall_map, BNs.
    - apply map_words_ok.
    - unfold desc_bytes. apply Forall_map, Forall_forall. intros t _. apply float_bytes_ok.
    - constructor; [exact BE | constructor]. }
  pose proof (tc_bytes _ _ _ _ _ W) as BP. rewrite EP in BP. apply Forall_app in BP as [B0 BP]. apply Forall_app in BP as [B1 BP]. apply Forall_app in BP as [B2 BP]. apply Forall_app in BP as [B3 B4].
  assert (MM : of_le_bytes pm < 2 ^ 32). { pose proof (of_le_bytes_lt pm B3) as Q. rewrite L3 in Q. exact Q. }
  destruct (has_set (of_le_bytes pm) (negb (mt =? 0)) MM) as [H1 _].
  assert (TL : blen m = tsz).
  { rewrite MA. rewrite blen_app, LA. subst tl. destruct (N.eqb_spec mt 0) as [Z | Z].
    - unfold tsz, total_size. fold mt. rewrite Z. reflexivity.
    - eapply (tail_len _ _ _ _ _ _ _ _ _ _ _ (write_track_list_name list_name) (write_track_names (map tt_name ts)) (write_parents mapping ts) (write_descriptions ts) (write_error error));
        first [exact Z | exact TB2 | apply write_name_emit | apply write_names_emit | apply write_parents_emit | apply write_descriptions_emit; exact D | apply write_error_emit]. }
  exists m. split; [exact EM |].
  assert (EP2 : prefix = (p0 ++ p1) ++ x ++ pm ++ rest) by (rewrite EP, <- !app_assoc; reflexivity).
  set (misc := set_has_metadata (of_le_bytes pm) (b2n (negb (mt =? 0)))) in *.
  assert (EM2 : m = (word tsz ++ word hash) ++ x ++ word misc ++ rest ++ (if mt =? 0 then zeros 15 else tl)) by (rewrite MA, EA, <- !app_assoc; reflexivity).
  assert (LW : forall w, length (word w) = 4%nat) by (intros w; apply le_bytes_length).
  constructor.
  - rewrite EM2. repeat apply bytes_app'; try apply word_ok; assumption.
  - lia.
  - intros k Hk Hl. unfold blen in *. rewrite EM2, EP2. rewrite EP2 in Hl. rewrite !app_length in Hl.
    assert (LP : length (p0 ++ p1) = 8%nat) by (rewrite app_length; lia). assert (LP2 : length (word tsz ++ word hash) = 8%nat) by (rewrite app_length, !LW; reflexivity).
    rewrite !nth_error_app2 with (l := word tsz ++ word hash) by lia. rewrite !nth_error_app2 with (l := p0 ++ p1) by lia. rewrite LP, LP2.
    destruct Hk as [Hk | Hk].
    + rewrite !nth_error_app1 by lia. reflexivity.
    + rewrite !nth_error_app2 with (l := x) by lia. rewrite nth_error_app2 with (l := word misc) by (rewrite LW; lia). rewrite nth_error_app2 with (l := pm) by lia. rewrite LW.
      replace (length pm) with 4%nat by lia. rewrite nth_error_app1 by lia. reflexivity.
  - exists (of_le_bytes (word hash)). unfold h_hash, read32. rewrite EM2.
    replace ((word tsz ++ word hash) ++ x ++ word misc ++ rest ++ (if mt =? 0 then zeros 15 else tl)) with (concat [word tsz; word hash; x ++ word misc ++ rest ++ (if mt =? 0 then zeros 15 else tl)]) by (cbn [concat]; rewrite app_nil_r, <- !app_assoc; reflexivity).
    rewrite (load_le_at _ 1 (word hash) 4 4); [reflexivity | reflexivity | cbn [firstn lens map sum_n]; rewrite !blen_word; lia | rewrite blen_word; reflexivity].
  - intros mi Hm. exists (negb (mt =? 0)).
    assert (E : mi = of_le_bytes pm). { unfold h_misc, read32 in Hm. rewrite EP in Hm.
      replace (p0 ++ p1 ++ x ++ pm ++ rest) with (concat [p0; p1; x; pm; rest]) in Hm by (cbn [concat]; rewrite app_nil_r; reflexivity).
      rewrite (load_le_at _ 3 pm 28 4) in Hm; [injection Hm as <-; reflexivity | reflexivity | cbn [firstn lens map sum_n]; lia | exact L3]. }
    rewrite E. fold misc. unfold h_misc, read32. rewrite EM2.
    replace ((word tsz ++ word hash) ++ x ++ word misc ++ rest ++ (if mt =? 0 then zeros 15 else tl)) with (concat [word tsz; word hash; x; word misc; rest ++ (if mt =? 0 then zeros 15 else tl)]) by (cbn [concat]; rewrite app_nil_r, <- !app_assoc; reflexivity).
    rewrite (load_le_at _ 3 (word misc) 28 4); [| reflexivity | cbn [firstn lens map sum_n]; rewrite !blen_word; lia | rewrite blen_word; reflexivity].
    f_equal. apply (of_le_bytes_le_bytes 4). exact H1.
Qed.
