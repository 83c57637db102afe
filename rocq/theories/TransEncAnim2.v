(** The bit stream that is written contains the samples of the streams: groups, key frames and segments. *)
From Coq Require Import Lia.
From Verif Require Import Word WordFacts Pieces MemoryUtils MemoryFacts Float32 Quant Headers HeadersFacts Packing PackSpec PackingFacts SubTracks DbBuild
  TransDec TransSpec TransRing TransMem TransConst TransAnim TransEnc TransEncSpec TransEncFacts TransEncAnim.
Local Open Scope N_scope.
Ltac Zify.zify_post_hook ::= idtac.

Lemma stored_at_shift m m' l : forall p p', (forall j, j < stored_sizes l -> mbit m (p + j) = mbit m' (p' + j)) -> stored_at m p l -> stored_at m' p' l.
Proof.
  induction l as [| x l IH]; intros p p' H S; [exact I |]. destruct S as [S1 S2]. rewrite stored_sizes_cons in H. split.
  - apply (fields_at_shift m m' p p'); [| exact S1]. intros j Hj. apply H. unfold stored_size, blen in *. lia.
  - apply (IH (p + stored_size x)); [| exact S2]. intros j Hj. rewrite <- !N.add_assoc. apply H. lia.
Qed.
Lemma stored_at_ext m m' l p : (forall i, p <= i < p + stored_sizes l -> mbit m i = mbit m' i) -> stored_at m p l -> stored_at m' p l.
Proof. intros H. apply stored_at_shift. intros j Hj. apply H. lia. Qed.
Lemma stored_at_app m a : forall p b, stored_at m p (a ++ b) <-> stored_at m p a /\ stored_at m (p + stored_sizes a) b.
Proof.
  induction a as [| x a IH]; intros p b; cbn [app stored_at].
  - unfold stored_sizes. cbn [fold_right]. rewrite N.add_0_r. tauto.
  - rewrite IH, stored_sizes_cons. rewrite N.add_assoc. tauto.
Qed.
Lemma only_changed_refl m p n : bytes_ok m -> only_changed m m p n.
Proof. intros H. repeat split; auto. Qed.
Lemma only_changed_trans m m1 m2 p a b : only_changed m m1 p a -> only_changed m1 m2 (p + a) b -> only_changed m m2 p (a + b).
Proof.
  intros (A1 & A2 & A3) (B1 & B2 & B3). repeat split; [congruence | exact B2 |]. intros i Hi. rewrite B3 by lia. apply A3. lia.
Qed.

(** the sample of a bone *)
Definition bone_sample (ch : channel) (k : N) (b : tbone) (x : stored) : Prop := stream_ok (b_stream b ch) /\ stream_sample (b_stream b ch) k x.
Lemma sample_size_le t k x : stream_sample t k x -> stored_size x <= 128.
Proof.
  unfold stream_sample, stored_size. intros H.
  destruct (ts_rate t =? 255); [| destruct (ts_rate t =? 0); [| destruct (ts_rate t =? 24)]].
  - destruct H as (-> & [-> _] & _). destruct (ts_packed_size t =? 16); lia.
  - destruct H as (-> & _). lia.
  - destruct H as (-> & [-> _] & _). lia.
  - destruct H as (H & _ & [-> _] & _). lia.
Qed.

Definition ent (k : N) (ch : channel) (gs : N) (b : tbone) (s : awriter) : outcome awriter :=
  if is_constant_bit_rate (ts_rate (b_stream b ch)) then Ok s else
  bindo (write_animated_sample (b_stream b ch) k (aw_group s) (aw_group_bit s)) (fun r =>
  Ok {| aw_dest := aw_dest s; aw_bit := aw_bit s; aw_group := fst r; aw_group_bit := snd r |}).
Lemma animated_entry_ent bones k ch gs i b s : nth_error bones (N.to_nat i) = Some b -> animated_entry bones k ch gs i s = ent k ch gs b s.
Proof. intros H. unfold animated_entry, bone_at. rewrite H. reflexivity. Qed.

Lemma entries_ok k ch bs xs : Forall2 (bone_sample ch k) bs xs -> forall gs s, bytes_ok (aw_group s) ->
  aw_group_bit s + stored_sizes xs <= 8 * blen (aw_group s) -> 8 * blen (aw_group s) < 2 ^ 64 ->
  exists s', entries (ent k ch) gs bs s = Ok s' /\ aw_dest s' = aw_dest s /\ aw_bit s' = aw_bit s /\ aw_group_bit s' = aw_group_bit s + stored_sizes xs /\
    only_changed (aw_group s) (aw_group s') (aw_group_bit s) (stored_sizes xs) /\ stored_at (aw_group s') (aw_group_bit s) xs.
Proof.
  induction 1 as [| b x bs xs [Hb Hx] F IH]; intros gs s Hg L W.
  - exists s. unfold stored_sizes. cbn. rewrite N.add_0_r. repeat split; auto.
  - cbn [entries]. rewrite stored_sizes_cons in *. unfold ent at 1, is_constant_bit_rate.
    destruct (N.eqb_spec (ts_rate (b_stream b ch)) 0) as [E | E].
    + cbn [bindo]. assert (Z : s_bits x = 0).
      { unfold stream_sample in Hx. rewrite E in Hx. apply Hx. }
      assert (Z' : stored_size x = 0) by (unfold stored_size; rewrite Z; reflexivity). rewrite Z', N.add_0_l in *.
      destruct (IH (gs + 1) s Hg L W) as (s' & A & B & C & D & G & K). exists s'. repeat (split; [assumption |]).
      cbn [stored_at]. rewrite Z', N.add_0_r. split; [| exact K]. rewrite Z. clear. generalize (s_vals x) as vs. intros vs. generalize (aw_group_bit s) as p.
      induction vs as [| v vs IHv]; intros p; [exact I |]. split; [intros j Hj; lia | apply IHv].
    + destruct (write_animated_sample_ok (b_stream b ch) k x (aw_group s) (aw_group_bit s) Hb Hx E Hg ltac:(lia) W) as (d' & E1 & E2 & E3).
      rewrite E1. cbn [bindo fst snd]. destruct E2 as (O1 & O2 & O3).
      assert (Hl : blen d' = blen (aw_group s)) by (unfold blen; rewrite O1; reflexivity).
      destruct (IH (gs + 1) {| aw_dest := aw_dest s; aw_bit := aw_bit s; aw_group := d'; aw_group_bit := aw_group_bit s + stored_size x |}) as (s' & A & B & C & D & G & K);
        cbn [aw_group aw_group_bit aw_dest aw_bit] in *; try assumption; rewrite ?Hl; try assumption; try lia.
      exists s'. split; [exact A |]. split; [exact B |]. split; [exact C |]. split; [lia |]. split.
      * apply (only_changed_trans _ d'); [repeat split; assumption | exact G].
      * split; [| exact K]. apply (fields_at_ext d'); [| exact E3]. intros i Hi. destruct G as (_ & _ & G). symmetry. apply G. unfold stored_size, blen in *. lia.
Qed.

Definition buffer_ok (g : list N) : Prop := bytes_ok g /\ blen g = 64.
Lemma flush_ok ch gs s xs : bytes_ok (aw_dest s) -> bytes_ok (aw_group s) -> aw_group_bit s = stored_sizes xs -> stored_at (aw_group s) 0 xs ->
  stored_sizes xs <= 8 * blen (aw_group s) -> aw_bit s + stored_sizes xs <= 8 * blen (aw_dest s) -> 8 * blen (aw_dest s) < 2 ^ 64 ->
  exists d', animated_flush ch gs s = Ok {| aw_dest := d'; aw_bit := aw_bit s + stored_sizes xs; aw_group := aw_group s; aw_group_bit := 0 |} /\
    only_changed (aw_dest s) d' (aw_bit s) (stored_sizes xs) /\ stored_at d' (aw_bit s) xs.
Proof.
  intros Hd Hg E S L1 L2 W. unfold animated_flush. rewrite E.
  destruct (memcpy_bits_spec (aw_dest s) (aw_bit s) (aw_group s) 0 (stored_sizes xs) Hd Hg L2 ltac:(lia)) as (d' & M & P1 & P2 & P3).
  rewrite M. cbn [bindo]. exists d'. rewrite (addw64_ok _ _ _ L2 W). split; [reflexivity |]. split.
  - split; [exact P1 |]. split; [exact P2 |]. intros i Hi. rewrite P3.
    destruct (N.leb_spec (aw_bit s) i), (N.ltb_spec i (aw_bit s + stored_sizes xs)); cbn [andb]; try lia; reflexivity.
  - apply (stored_at_shift (aw_group s) d' xs 0); [| exact S]. intros j Hj. rewrite P3.
    replace (aw_bit s <=? aw_bit s + j) with true by (symmetry; apply N.leb_le; lia).
    replace (aw_bit s + j <? aw_bit s + stored_sizes xs) with true by (symmetry; apply N.ltb_lt; lia). cbn [andb]. f_equal; lia.
Qed.

Lemma Forall2_firstn {A B} (P : A -> B -> Prop) n a b : Forall2 P a b -> Forall2 P (firstn n a) (firstn n b).
Proof. intros F. revert n. induction F; intros [| n]; cbn [firstn]; constructor; auto. Qed.
Lemma Forall2_skipn {A B} (P : A -> B -> Prop) n a b : Forall2 P a b -> Forall2 P (skipn n a) (skipn n b).
Proof. intros F. revert n. induction F; intros [| n]; cbn [skipn]; auto. Qed.
Lemma four_fit ch k bs xs : Forall2 (bone_sample ch k) bs xs -> (length xs <= 4)%nat -> stored_sizes xs <= 512.
Proof.
  intros F H. assert (G : stored_sizes xs <= 128 * len xs).
  { clear H. induction F as [| b x bs xs [_ Hx] F IH]; [cbn; lia |]. rewrite stored_sizes_cons, len_cons. pose proof (sample_size_le _ _ _ Hx). lia. }
  unfold len in G. lia.
Qed.

Lemma groups_ok k ch xs : forall bs s, Forall2 (bone_sample ch k) bs xs -> bytes_ok (aw_dest s) -> buffer_ok (aw_group s) -> aw_group_bit s = 0 ->
  aw_bit s + stored_sizes xs <= 8 * blen (aw_dest s) -> 8 * blen (aw_dest s) < 2 ^ 64 ->
  exists s', groups (animated_flush ch) (ent k ch) (chunk4 bs) s = Ok s' /\ buffer_ok (aw_group s') /\ aw_group_bit s' = 0 /\
    aw_bit s' = aw_bit s + stored_sizes xs /\ only_changed (aw_dest s) (aw_dest s') (aw_bit s) (stored_sizes xs) /\ stored_at (aw_dest s') (aw_bit s) xs.
Proof.
  induction xs as [| l Hl IH] using chunk_ind; intros bs s F Hd [Hg Hg64] Hb L W.
  - inversion F; subst. exists s. unfold stored_sizes. cbn. rewrite N.add_0_r. repeat split; auto.
  - assert (Hbs : bs <> []) by (intros ->; inversion F; subst; contradiction).
    rewrite (chunk4_step bs Hbs). cbn [groups].
    assert (Sz : stored_sizes l = stored_sizes (firstn 4 l) + stored_sizes (skipn 4 l)).
    { rewrite <- (firstn_skipn 4 l) at 1. apply stored_sizes_app. }
    pose proof (Forall2_firstn _ 4 _ _ F) as F1. pose proof (Forall2_skipn _ 4 _ _ F) as F2.
    pose proof (four_fit _ _ _ _ F1 ltac:(rewrite firstn_length; lia)) as Fit.
    destruct (entries_ok k ch _ _ F1 0 s) as (s1 & A & B & C & D & G & K); try assumption; try (rewrite Hb, Hg64; lia); try (rewrite Hg64; reflexivity).
    rewrite A. cbn [bindo]. rewrite Hb, N.add_0_l in *.
    destruct G as (G1 & G2 & G3).
    assert (Hg1 : blen (aw_group s1) = 64) by (unfold blen in *; congruence).
    destruct (flush_ok ch (len (firstn 4 bs)) s1 (firstn 4 l)) as (d' & M & O & T); try assumption; rewrite ?B, ?C in *; try assumption; try lia.
    rewrite M. cbn [bindo]. destruct O as (O1 & O2 & O3).
    assert (Hd' : blen d' = blen (aw_dest s)) by (unfold blen; congruence).
    destruct (IH (skipn 4 bs) {| aw_dest := d'; aw_bit := aw_bit s + stored_sizes (firstn 4 l); aw_group := aw_group s1; aw_group_bit := 0 |}) as (s2 & A2 & B2 & C2 & D2 & G4 & K2);
      cbn [aw_dest aw_bit aw_group aw_group_bit] in *; try assumption; try (split; assumption); try reflexivity; rewrite ?Hd'; try assumption; try lia.
    exists s2. split; [exact A2 |]. split; [exact B2 |]. split; [exact C2 |]. split; [lia |]. split.
    + rewrite Sz. apply (only_changed_trans _ d'); [repeat split; assumption | exact G4].
    + rewrite <- (firstn_skipn 4 l). apply stored_at_app. split; [| exact K2].
      apply (stored_at_ext d'); [| exact T]. intros i Hi. destruct G4 as (_ & _ & G4). symmetry. apply G4. lia.
Qed.

(** ** A key frame *)
Lemma animated_writer_spec {S} bones has_scale mapping out (keepf : channel -> tbone -> bool) filt (entry : channel -> N -> N -> S -> outcome S)
    (ent' : channel -> N -> tbone -> S -> outcome S) flush s : mapped bones mapping out ->
  (forall ch i b, nth_error bones (N.to_nat i) = Some b -> filt ch i = Ok (keepf ch b)) ->
  (forall ch gs i b s, nth_error bones (N.to_nat i) = Some b -> entry ch gs i s = ent' ch gs b s) ->
  animated_group_writer bones has_scale mapping filt entry flush s =
  bindo (groups (flush Rotation) (ent' Rotation) (chunk4 (filter (keepf Rotation) (animated_bones Rotation out))) s) (fun s =>
  bindo (groups (flush Translation) (ent' Translation) (chunk4 (filter (keepf Translation) (animated_bones Translation out))) s) (fun s =>
  if has_scale then groups (flush Scale) (ent' Scale) (chunk4 (filter (keepf Scale) (animated_bones Scale out))) s else Ok s)).
Proof.
  intros M Hf He. unfold animated_group_writer, group_writer.
  assert (G : forall ch s, group_loop (fun i => bindo (bone_at bones i) (fun b => if b_constant b ch then Ok false else filt ch i)) (entry ch) (flush ch) mapping 0 s =
    groups (flush ch) (ent' ch) (chunk4 (filter (keepf ch) (animated_bones ch out))) s).
  { intros ch s0. rewrite (group_loop_spec bones _ _ _ (fun b => negb (b_constant b ch) && keepf ch b) (ent' ch)) with (out := out); [| | | exact M].
    - f_equal. f_equal. clear. unfold animated_bones. induction out as [| b l IH]; [reflexivity |]. cbn [filter]. destruct (b_constant b ch); cbn [negb andb]; [exact IH |].
      cbn [filter]. destruct (keepf ch b); [f_equal |]; exact IH.
    - intros i b Hb. unfold bone_at. rewrite Hb. cbn [bindo]. destruct (b_constant b ch); [reflexivity |]. apply Hf, Hb.
    - intros gs i b s' Hb. apply He, Hb. }
  rewrite G. destruct (groups (flush Rotation) _ _ s) as [s1 | |]; cbn [bindo]; try reflexivity.
  rewrite G. destruct (groups (flush Translation) _ _ s1) as [s2 | |]; cbn [bindo]; try reflexivity. rewrite G. reflexivity.
Qed.
Lemma filter_true {A} (l : list A) : filter (fun _ => true) l = l.
Proof. induction l as [| a l IH]; [reflexivity |]. cbn. f_equal. exact IH. Qed.

(** what one key frame contains: the samples of the animated sub-tracks, rotations first *)
Definition frame_of (out : list tbone) (has_scale : bool) (k : N) (xs : list stored) : Prop :=
  exists r t s, xs = r ++ t ++ s /\ Forall2 (bone_sample Rotation k) (animated_bones Rotation out) r /\
    Forall2 (bone_sample Translation k) (animated_bones Translation out) t /\
    (if has_scale then Forall2 (bone_sample Scale k) (animated_bones Scale out) s else s = []).

Lemma frame_ok bones has_scale mapping out k xs s : mapped bones mapping out -> frame_of out has_scale k xs -> bytes_ok (aw_dest s) -> buffer_ok (aw_group s) ->
  aw_group_bit s = 0 -> aw_bit s + stored_sizes xs <= 8 * blen (aw_dest s) -> 8 * blen (aw_dest s) < 2 ^ 64 ->
  exists s', animated_group_writer bones has_scale mapping (fun _ _ => Ok true) (animated_entry bones k) animated_flush s = Ok s' /\ buffer_ok (aw_group s') /\ aw_group_bit s' = 0 /\
    aw_bit s' = aw_bit s + stored_sizes xs /\ only_changed (aw_dest s) (aw_dest s') (aw_bit s) (stored_sizes xs) /\ stored_at (aw_dest s') (aw_bit s) xs.
Proof.
  intros M (r & t & sc & -> & Fr & Ft & Fs) Hd Hg Hb L W. rewrite !stored_sizes_app in *.
  rewrite (animated_writer_spec bones has_scale mapping out (fun _ _ => true) _ _ (ent k) animated_flush s M); [| reflexivity | intros; apply animated_entry_ent; assumption].
  rewrite !filter_true.
  destruct (groups_ok k Rotation r _ s Fr Hd Hg Hb ltac:(lia) W) as (s1 & A1 & B1 & C1 & D1 & (O1 & O2 & O3) & K1). rewrite A1. cbn [bindo].
  assert (L1 : blen (aw_dest s1) = blen (aw_dest s)) by (unfold blen; congruence).
  destruct (groups_ok k Translation t _ s1 Ft O2 B1 C1 ltac:(rewrite L1; lia) ltac:(rewrite L1; exact W)) as (s2 & A2 & B2 & C2 & D2 & (P1 & P2 & P3) & K2). rewrite A2. cbn [bindo].
  assert (L2 : blen (aw_dest s2) = blen (aw_dest s)) by (unfold blen in *; congruence).
  assert (H3 : exists s3, (if has_scale then groups (animated_flush Scale) (ent k Scale) (chunk4 (animated_bones Scale out)) s2 else Ok s2) = Ok s3 /\ buffer_ok (aw_group s3) /\
     aw_group_bit s3 = 0 /\ aw_bit s3 = aw_bit s2 + stored_sizes sc /\ only_changed (aw_dest s2) (aw_dest s3) (aw_bit s2) (stored_sizes sc) /\ stored_at (aw_dest s3) (aw_bit s2) sc).
  { destruct has_scale; [apply (groups_ok k Scale sc _ s2 Fs P2 B2 C2); [rewrite L2; lia | rewrite L2; exact W] |].
    subst sc. exists s2. unfold stored_sizes. cbn [fold_right]. rewrite N.add_0_r. split; [reflexivity |]. split; [exact B2 |]. split; [exact C2 |]. split; [reflexivity |].
    split; [apply only_changed_refl, P2 | exact I]. }
  destruct H3 as (s3 & A3 & B3 & C3 & D3 & O4 & K3). rewrite A3.
  exists s3. split; [reflexivity |]. split; [exact B3 |]. split; [exact C3 |]. split; [lia |].
  rewrite D1 in *. rewrite D2 in *. split.
  - rewrite <- (N.add_assoc (aw_bit s)) in O4. apply (only_changed_trans _ (aw_dest s1)); [repeat split; assumption |].
    apply (only_changed_trans _ (aw_dest s2)); [repeat split; assumption |]. rewrite <- N.add_assoc. exact O4.
  - destruct O4 as (_ & _ & Q3). apply stored_at_app. split.
    + apply (stored_at_ext (aw_dest s1)); [| exact K1]. intros i Hi. rewrite Q3 by lia. rewrite P3 by lia. reflexivity.
    + apply stored_at_app. split; [| exact K3]. apply (stored_at_ext (aw_dest s2)); [| exact K2]. intros i Hi. rewrite Q3 by lia. reflexivity.
Qed.

Lemma write_samples_ok bones has_scale mapping out kept (frame : N -> list stored) ks : mapped bones mapping out ->
  Forall (fun k => kept k = true -> frame_of out has_scale k (frame k)) ks ->
  forall s, bytes_ok (aw_dest s) -> buffer_ok (aw_group s) -> aw_group_bit s = 0 ->
  aw_bit s + stored_sizes (concat (map frame (filter kept ks))) <= 8 * blen (aw_dest s) -> 8 * blen (aw_dest s) < 2 ^ 64 ->
  exists s', write_samples bones has_scale mapping kept ks s = Ok s' /\
    aw_bit s' = aw_bit s + stored_sizes (concat (map frame (filter kept ks))) /\
    only_changed (aw_dest s) (aw_dest s') (aw_bit s) (stored_sizes (concat (map frame (filter kept ks)))) /\
    stored_at (aw_dest s') (aw_bit s) (concat (map frame (filter kept ks))).
Proof.
  intros M F. induction F as [| k ks Hk F IH]; intros s Hd Hg Hb L W; cbn [write_samples filter].
  - exists s. unfold stored_sizes. cbn. rewrite N.add_0_r. repeat split; auto.
  - cbn [filter] in L. destruct (kept k) eqn:Ek.
    + cbn [map concat] in *. rewrite stored_sizes_app in *.
      destruct (frame_ok bones has_scale mapping out k (frame k) s M (Hk eq_refl) Hd Hg Hb ltac:(lia) W) as (s1 & A & B & C & D & (O1 & O2 & O3) & K).
      rewrite A. cbn [bindo]. assert (L1 : blen (aw_dest s1) = blen (aw_dest s)) by (unfold blen; congruence).
      destruct (IH s1 O2 B C ltac:(rewrite L1; lia) ltac:(rewrite L1; exact W)) as (s2 & A2 & D2 & O4 & K2).
      exists s2. split; [exact A2 |]. split; [lia |]. rewrite D in *. split.
      * apply (only_changed_trans _ (aw_dest s1)); [repeat split; assumption | exact O4].
      * apply stored_at_app. split; [| exact K2]. apply (stored_at_ext (aw_dest s1)); [| exact K]. intros i Hi. destruct O4 as (_ & _ & O4). symmetry. apply O4. lia.
    + cbn [bindo]. apply IH; assumption.
Qed.

(** ** A segment: the kept key frames one after the other, and nothing else of the buffer changes *)
Lemma write_animated_ok junk bones has_scale mapping out kept num (frame : N -> list stored) dest : mapped bones mapping out -> buffer_ok junk ->
  (forall k, k < num -> kept k = true -> frame_of out has_scale k (frame k)) -> bytes_ok dest -> 8 * blen dest < 2 ^ 64 ->
  let xs := concat (map frame (filter kept (sample_indices num))) in
  stored_sizes xs <= 8 * blen dest ->
  stored_sizes xs + 7 < 2 ^ 64 ->
  exists d', write_animated_track_data junk bones has_scale mapping kept num dest = Ok (d', (stored_sizes xs + 7) / 8) /\
    only_changed dest d' 0 (stored_sizes xs) /\ stored_at d' 0 xs.
Proof.
  intros M J F Hd W xs L W7. unfold write_animated_track_data.
  destruct (write_samples_ok bones has_scale mapping out kept frame (sample_indices num)) with (s := {| aw_dest := dest; aw_bit := 0; aw_group := junk; aw_group_bit := 0 |}) as (s' & A & B & C & D);
    cbn [aw_dest aw_bit aw_group aw_group_bit]; try assumption; try reflexivity; try lia.
  - apply Forall_forall. intros k Hk. apply F. unfold sample_indices in Hk. apply in_map_iff in Hk as (j & <- & Hj). apply in_seq in Hj. lia.
  - fold xs in A, B, C, D. rewrite A. cbn [bindo]. rewrite B. cbn [aw_bit aw_dest] in *. exists (aw_dest s').
    split; [| split; assumption]. rewrite N.add_0_l. f_equal. f_equal.
    destruct (N.eqb_spec (stored_sizes xs) 0) as [-> | _]; [reflexivity |]. rewrite addw_small by exact W7. reflexivity.
Qed.
