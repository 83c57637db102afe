(** Clip ranges are written as specified; the computed sizes are the sizes of what is written. *)
From Coq Require Import Lia.
From Verif Require Import Word WordFacts Pieces MemoryUtils MemoryFacts Float32 Quant Headers HeadersFacts Packing PackSpec PackingFacts SubTracks DbBuild
  TransDec TransSpec TransRing TransMem TransConst TransAnim TransAnim2 TransPose TransEnc TransEncSpec TransEncFacts TransEncAnim TransEncAnim2 TransEncBytes TransEncBytes2.
Local Open Scope N_scope.
Ltac Zify.zify_post_hook ::= idtac.

(** six words: min x y z, extent x y z *)
Definition clip_words (ch : channel) (b : tbone) : list N := map f_bits (firstn 3 (b_clip_min b ch)) ++ map f_bits (firstn 3 (b_clip_extent b ch)).
Definition has_clip (ch : channel) (b : tbone) : Prop := length (b_clip_min b ch) = 4%nat /\ length (b_clip_extent b ch) = 4%nat.
Lemma clip_words_ok ch b : has_clip ch b -> in_words 32 6 (clip_words ch b).
Proof.
  intros [H1 H2]. unfold clip_words. split.
  - rewrite app_length, !map_length, !firstn_length, H1, H2. reflexivity.
  - apply Forall_app. split; apply Forall_map, Forall_forall; intros x _; apply f_bits_lt.
Qed.
Lemma clip_words_nth ch b c : has_clip ch b -> (c < 3)%nat ->
  nth c (clip_words ch b) 0 = f_bits (nth c (b_clip_min b ch) f_zero) /\ nth (3 + c) (clip_words ch b) 0 = f_bits (nth c (b_clip_extent b ch) f_zero).
Proof.
  intros [H1 H2] Hc. unfold clip_words. destruct (b_clip_min b ch) as [| x0 [| y0 [| z0 [| w0 [| ? ?]]]]]; cbn [length] in H1; try lia.
  destruct (b_clip_extent b ch) as [| x1 [| y1 [| z1 [| w1 [| ? ?]]]]]; cbn [length] in H2; try lia.
  destruct c as [| [| [| c]]]; try lia; split; reflexivity.
Qed.

Definition cent (ch : channel) (group_size : N) (b : tbone) (s : rwriter) : outcome rwriter :=
  Ok {| rw_out := rw_out s; rw_min := upd (rw_min s) (N.to_nat group_size) (b_clip_min b ch);
        rw_extent := upd (rw_extent s) (N.to_nat group_size) (b_clip_extent b ch) |}.
Definition four (s : rwriter) : Prop := length (rw_min s) = 4%nat /\ length (rw_extent s) = 4%nat.

Lemma clip_entries ch bs : forall gs s, four s -> (gs + length bs <= 4)%nat ->
  exists s', entries (cent ch) (N.of_nat gs) bs s = Ok s' /\ rw_out s' = rw_out s /\ four s' /\
    firstn (gs + length bs) (rw_min s') = firstn gs (rw_min s) ++ map (fun b => b_clip_min b ch) bs /\
    firstn (gs + length bs) (rw_extent s') = firstn gs (rw_extent s) ++ map (fun b => b_clip_extent b ch) bs.
Proof.
  induction bs as [| b bs IH]; intros gs s [F1 F2] H; cbn [length] in *.
  - exists s. cbn [entries map]. rewrite Nat.add_0_r, !app_nil_r. repeat split; auto.
  - cbn [entries]. unfold cent at 1. cbn [bindo]. rewrite Nnat.Nat2N.id.
    replace (N.of_nat gs + 1) with (N.of_nat (gs + 1)) by lia.
    destruct (IH (gs + 1)%nat {| rw_out := rw_out s; rw_min := upd (rw_min s) gs (b_clip_min b ch); rw_extent := upd (rw_extent s) gs (b_clip_extent b ch) |}) as (s' & A & B & C & D & E);
      [split; cbn [rw_min rw_extent]; rewrite upd_length; assumption | lia |].
    exists s'. split; [exact A |]. split; [exact B |]. split; [exact C |]. cbn [rw_min rw_extent] in *.
    replace (gs + S (length bs))%nat with (gs + 1 + length bs)%nat by lia.
    rewrite D, E, !firstn_upd by lia. rewrite <- !app_assoc. split; reflexivity.
Qed.
Lemma soa_row_column ch bs (g : list (list f32)) (f : tbone -> list f32) c col : firstn (length bs) g = map f bs ->
  Forall (fun b => nth col (clip_words ch b) 0 = f_bits (nth c (f b) f_zero)) bs ->
  soa_row c g (len bs) = word_bytes (column 0 col (map (clip_words ch) bs)).
Proof.
  intros H F. unfold soa_row, len. rewrite Nnat.Nat2N.id, firstn_map, H. unfold column. rewrite !map_map.
  change (words ?x) with (word_bytes x). f_equal. clear H. induction F as [| b bs Hb F IH]; [reflexivity |]. cbn [map]. rewrite Hb, IH. reflexivity.
Qed.
Lemma float3_rows (a e : list (list f32)) n m (f g : tbone -> list f32) bs : firstn (length bs) a = map f bs -> firstn (length bs) e = map g bs -> n = length bs -> m = n ->
  concat (map (fun i => float3_bytes (nth i a []) ++ float3_bytes (nth i e [])) (seq 0 m)) =
  concat (map (fun b => word_bytes (map f_bits (firstn 3 (f b)) ++ map f_bits (firstn 3 (g b)))) bs).
Proof.
  intros Ha He -> ->. f_equal. apply list_ext. intros k. rewrite !nth_error_map. destruct (Nat.lt_ge_cases k (length bs)) as [Hk | Hk].
  - rewrite (nth_error_nth' (seq 0 (length bs)) 0%nat) by (rewrite seq_length; exact Hk). rewrite seq_nth by exact Hk. cbn [option_map Nat.add].
    destruct (nth_error bs k) as [b |] eqn:Eb; [| apply nth_error_None in Eb; lia]. cbn [option_map]. f_equal.
    assert (Na : nth k a [] = f b).
    { apply nth_error_nth. rewrite <- (nth_error_firstn a (length bs) k Hk), Ha, nth_error_map, Eb. reflexivity. }
    assert (Ne : nth k e [] = g b).
    { apply nth_error_nth. rewrite <- (nth_error_firstn e (length bs) k Hk), He, nth_error_map, Eb. reflexivity. }
    rewrite Na, Ne. unfold float3_bytes, word_bytes, words. rewrite map_app, concat_app. reflexivity.
  - rewrite (proj2 (nth_error_None (seq 0 (length bs)) k)), (proj2 (nth_error_None bs k)) by (rewrite ?seq_length; lia). reflexivity.
Qed.
Lemma transpose_len (g : list (list f32)) : length (map (fun c => map (fun v => nth c v f_zero) g) [0; 1; 2; 3]%nat) = 4%nat.
Proof. reflexivity. Qed.

Definition clip_bytes (ch : channel) (bs : list tbone) : list N :=
  match ch with Rotation => rotation_clip_ranges (map (clip_words Rotation) bs) | _ => vector_clip_ranges (map (clip_words ch) bs) end.
Lemma clip_flush_ok ch bs s : Forall (has_clip ch) bs -> four s -> (length bs <= 4)%nat ->
  firstn (length bs) (rw_min s) = map (fun b => b_clip_min b ch) bs -> firstn (length bs) (rw_extent s) = map (fun b => b_clip_extent b ch) bs ->
  exists s', clip_range_flush false ch (len bs) s = Ok s' /\ four s' /\
    rw_out s' = rw_out s ++ match ch with Rotation => soa_words 6 (map (clip_words Rotation) bs) | _ => vector_words (map (clip_words ch) bs) end.
Proof.
  intros F [F1 F2] H4 Hm He. unfold clip_range_flush.
  assert (N3 : forall c, (c < 3)%nat -> Forall (fun b => nth c (clip_words ch b) 0 = f_bits (nth c (b_clip_min b ch) f_zero)) bs /\
                                        Forall (fun b => nth (3 + c) (clip_words ch b) 0 = f_bits (nth c (b_clip_extent b ch) f_zero)) bs).
  { intros c Hc. split; eapply Forall_impl; try exact F; intros b Hb; apply clip_words_nth; assumption. }
  destruct ch.
  - eexists. split; [reflexivity |]. split; [split; apply transpose_len |]. cbn [rw_out map concat].
    rewrite (soa_row_column Rotation bs (rw_min s) _ 0 0 Hm (proj1 (N3 0%nat ltac:(lia)))).
    rewrite (soa_row_column Rotation bs (rw_min s) _ 1 1 Hm (proj1 (N3 1%nat ltac:(lia)))).
    rewrite (soa_row_column Rotation bs (rw_min s) _ 2 2 Hm (proj1 (N3 2%nat ltac:(lia)))).
    rewrite (soa_row_column Rotation bs (rw_extent s) _ 0 3 He (proj2 (N3 0%nat ltac:(lia)))).
    rewrite (soa_row_column Rotation bs (rw_extent s) _ 1 4 He (proj2 (N3 1%nat ltac:(lia)))).
    rewrite (soa_row_column Rotation bs (rw_extent s) _ 2 5 He (proj2 (N3 2%nat ltac:(lia)))).
    f_equal. unfold soa_words. cbn [seq map concat]. rewrite !app_nil_r, <- !app_assoc. reflexivity.
  - eexists. split; [reflexivity |]. split; [split; assumption |]. cbn [rw_out]. f_equal. unfold vector_words. rewrite map_map.
    apply (float3_rows _ _ (length bs) _ (fun b => b_clip_min b Translation) (fun b => b_clip_extent b Translation) bs Hm He); [reflexivity | unfold len; lia].
  - eexists. split; [reflexivity |]. split; [split; assumption |]. cbn [rw_out]. f_equal. unfold vector_words. rewrite map_map.
    apply (float3_rows _ _ (length bs) _ (fun b => b_clip_min b Scale) (fun b => b_clip_extent b Scale) bs Hm He); [reflexivity | unfold len; lia].
Qed.
Lemma clip_groups ch bs : forall s, Forall (has_clip ch) bs -> four s ->
  exists s', groups (clip_range_flush false ch) (cent ch) (chunk4 bs) s = Ok s' /\ four s' /\ rw_out s' = rw_out s ++ clip_bytes ch bs.
Proof.
  induction bs as [| l Hl IH] using chunk_ind; intros s F Fs.
  - exists s. destruct ch; cbn; rewrite app_nil_r; auto.
  - rewrite (chunk4_step l Hl). cbn [groups].
    assert (L4 : (length (firstn 4 l) <= 4)%nat) by (rewrite firstn_length; lia).
    destruct (clip_entries ch (firstn 4 l) 0 s Fs L4) as (s1 & A & B & C & D & E). change (N.of_nat 0) with 0 in A. cbn [Nat.add] in D, E. rewrite A. cbn [bindo].
    destruct (clip_flush_ok ch (firstn 4 l) s1 (Forall_first _ 4 _ F) C L4 D E) as (s2 & A2 & C2 & B2). rewrite A2. cbn [bindo].
    destruct (IH s2 (Forall_rest _ 4 _ F) C2) as (s3 & A3 & C3 & B3). exists s3. split; [exact A3 |]. split; [exact C3 |].
    rewrite B3, B2, B, <- app_assoc. f_equal. destruct ch; cbn [clip_bytes].
    + unfold rotation_clip_ranges. rewrite !chunk4_map, (chunk4_step l Hl). cbn [map concat]. reflexivity.
    + unfold vector_clip_ranges. rewrite <- vector_words_app, <- map_app, firstn_skipn. reflexivity.
    + unfold vector_clip_ranges. rewrite <- vector_words_app, <- map_app, firstn_skipn. reflexivity.
Qed.
Lemma write_clip_ok junk bones has_scale mapping out (variable : channel -> bool) b0 : mapped bones mapping out -> length junk = 4%nat ->
  nth_error bones 0 = Some b0 -> (variable Rotation = true -> ts_packed_size (b_stream b0 Rotation) <> 16) ->
  (forall ch, Forall (has_clip ch) (animated_bones ch out)) ->
  write_clip_range_data junk bones has_scale variable mapping =
    Ok (when (variable Rotation) (rotation_clip_ranges (map (clip_words Rotation) (animated_bones Rotation out))) ++
        when (variable Translation) (vector_clip_ranges (map (clip_words Translation) (animated_bones Translation out))) ++
        when (has_scale && variable Scale) (vector_clip_ranges (map (clip_words Scale) (animated_bones Scale out)))).
Proof.
  intros M Hj H0 Hfull Hc. unfold write_clip_range_data, bone_at. change (N.to_nat 0) with 0%nat. rewrite H0. cbn [bindo].
  rewrite (animated_writer_spec bones has_scale mapping out (fun ch b => variable ch) _ _ cent (clip_range_flush (ts_packed_size (b_stream b0 Rotation) =? 16)) _ M).
  2:{ reflexivity. }
  2:{ intros ch gs i b s0 Hb. unfold clip_range_entry, bone_at. rewrite Hb. reflexivity. }
  rewrite !filter_flag.
  assert (V : forall ch full s, ch <> Rotation -> forall l, groups (clip_range_flush full ch) (cent ch) l s = groups (clip_range_flush false ch) (cent ch) l s).
  { intros ch full s Hr l. revert s. induction l as [| c l IH]; intros s; [reflexivity |]. cbn [groups]. destruct (entries (cent ch) 0 c s) as [s1 | |]; cbn [bindo]; try reflexivity.
    replace (clip_range_flush full ch (len c) s1) with (clip_range_flush false ch (len c) s1) by (destruct ch; [contradiction | reflexivity | reflexivity]).
    destruct (clip_range_flush false ch (len c) s1); cbn [bindo]; auto. }
  set (s0 := {| rw_out := []; rw_min := junk; rw_extent := junk |}).
  assert (F0 : four s0) by (split; exact Hj).
  assert (R : exists s1, groups (clip_range_flush (ts_packed_size (b_stream b0 Rotation) =? 16) Rotation) (cent Rotation) (chunk4 (when (variable Rotation) (animated_bones Rotation out))) s0 = Ok s1 /\
    four s1 /\ rw_out s1 = when (variable Rotation) (rotation_clip_ranges (map (clip_words Rotation) (animated_bones Rotation out)))).
  { destruct (variable Rotation); cbn [when]; [| exists s0; auto]. rewrite (proj2 (N.eqb_neq _ 16) (Hfull eq_refl)). apply (clip_groups Rotation (animated_bones Rotation out) s0 (Hc Rotation) F0). }
  assert (T : forall ch s, ch <> Rotation -> four s -> exists s1, groups (clip_range_flush (ts_packed_size (b_stream b0 Rotation) =? 16) ch) (cent ch) (chunk4 (when (variable ch) (animated_bones ch out))) s = Ok s1 /\
    four s1 /\ rw_out s1 = rw_out s ++ when (variable ch) (vector_clip_ranges (map (clip_words ch) (animated_bones ch out)))).
  { intros ch s Hr Fs. rewrite V by exact Hr. destruct (variable ch); cbn [when]; [| exists s; rewrite app_nil_r; auto].
    destruct (clip_groups ch (animated_bones ch out) s (Hc ch) Fs) as (s1 & A & B & C). exists s1. split; [exact A |]. split; [exact B |]. rewrite C. destruct ch; [contradiction | reflexivity | reflexivity]. }
  destruct R as (s1 & A1 & B1 & C1). rewrite A1. cbn [bindo].
  destruct (T Translation s1 ltac:(discriminate) B1) as (s2 & A2 & B2 & C2). rewrite A2. cbn [bindo].
  destruct has_scale; cbn [andb].
  - destruct (T Scale s2 ltac:(discriminate) B2) as (s3 & A3 & B3 & C3). rewrite A3. cbn [bindo]. rewrite C3, C2, C1, <- app_assoc. reflexivity.
  - cbn [bindo when]. rewrite C2, C1, app_nil_r. reflexivity.
Qed.
