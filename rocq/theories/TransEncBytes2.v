(** Format bytes, clip ranges and segment ranges are written as specified. *)
From Coq Require Import Lia.
From Verif Require Import Word WordFacts Pieces MemoryUtils MemoryFacts Float32 Quant Headers HeadersFacts Packing PackSpec PackingFacts SubTracks DbBuild
  TransDec TransSpec TransRing TransMem TransConst TransAnim TransAnim2 TransPose TransEnc TransEncSpec TransEncFacts TransEncAnim TransEncAnim2 TransEncBytes.
Local Open Scope N_scope.
Ltac Zify.zify_post_hook ::= idtac.

Lemma len0 {A} (l : list A) : len l = 0 -> l = [].
Proof. destruct l; [reflexivity |]. unfold len. cbn [length]. lia. Qed.

Lemma F2_len {A B} (P : A -> B -> Prop) a b : Forall2 P a b -> len a = len b.
Proof. induction 1; [reflexivity |]. rewrite !len_cons. congruence. Qed.

(** ** A writer with a group buffer that is copied out and cleared *)
Section Grouped.
  Context {A : Type} (ent' : N -> tbone -> fwriter -> outcome fwriter) (flush : N -> fwriter -> outcome fwriter) (P : tbone -> A -> Prop).
  (** the buffer that holds some entries *)
  Context (group : list A -> list N) (bytes : list A -> list N).
  Hypothesis ent_ok : forall l b a o, (length l < 4)%nat -> P b a -> ent' (len l) b {| fw_out := o; fw_group := group l |} = Ok {| fw_out := o; fw_group := group (l ++ [a]) |}.
  Hypothesis flush_group : forall l o, (0 < length l <= 4)%nat -> flush (len l) {| fw_out := o; fw_group := group l |} = Ok {| fw_out := o ++ bytes l; fw_group := group [] |}.

  Lemma grouped_entries bs xs : Forall2 P bs xs -> forall l o, (length l + length xs <= 4)%nat ->
    entries ent' (len l) bs {| fw_out := o; fw_group := group l |} = Ok {| fw_out := o; fw_group := group (l ++ xs) |}.
  Proof.
    induction 1 as [| b x bs xs Hb F IH]; intros l o H; cbn [entries].
    - rewrite app_nil_r. reflexivity.
    - cbn [length] in H. rewrite (ent_ok l b x o) by (try assumption; lia). cbn [bindo].
      replace (len l + 1) with (len (l ++ [x])) by (rewrite len_app; reflexivity). rewrite IH by (rewrite app_length; cbn [length]; lia).
      rewrite <- app_assoc. reflexivity.
  Qed.
  Lemma grouped_ok xs : forall bs o, Forall2 P bs xs ->
    groups flush ent' (chunk4 bs) {| fw_out := o; fw_group := group [] |} = Ok {| fw_out := o ++ concat (map bytes (chunk4 xs)); fw_group := group [] |}.
  Proof.
    induction xs as [| l Hl IH] using chunk_ind; intros bs o F.
    - inversion F; subst. cbn. rewrite app_nil_r. reflexivity.
    - assert (Hbs : bs <> []) by (intros ->; inversion F; subst; contradiction).
      rewrite (chunk4_step bs Hbs), (chunk4_step l Hl). cbn [groups map concat].
      pose proof (Forall2_firstn _ 4 _ _ F) as F1. pose proof (Forall2_skipn _ 4 _ _ F) as F2.
      pose proof (grouped_entries _ _ F1 [] o) as G. change (len (@nil A)) with 0 in G. rewrite (G ltac:(cbn [length]; rewrite firstn_length; lia)). cbn [bindo app].
      rewrite (F2_len _ _ _ F1).
      rewrite flush_group; [| rewrite firstn_length; destruct l; [contradiction | cbn [length]; lia]]. cbn [bindo].
      rewrite (IH _ _ F2). rewrite app_assoc. reflexivity.
  Qed.
End Grouped.

(** ** Format bytes *)
Definition fent (ch : channel) (gs : N) (b : tbone) (s : fwriter) : outcome fwriter :=
  let bit_rate := ts_rate (b_stream b ch) in
  bindo (get_num_bits_at_bit_rate bit_rate) (fun num_bits =>
  bindo (store8 (fw_group s) gs (if bit_rate =? k_highest_bit_rate then 31 else num_bits)) (fun g =>
  Ok {| fw_out := fw_out s; fw_group := g |})).
(** a sub-track of a variable format *)
Definition variable_sample (ch : channel) (k : N) (b : tbone) (x : stored) : Prop := is_bit_rate_variable (b_stream b ch) = true /\ bone_sample ch k b x.

Lemma bit_rate_code t k x : is_bit_rate_variable t = true -> stream_sample t k x -> exists n, get_num_bits_at_bit_rate (ts_rate t) = Ok n /\
  forall v, 9 <= v -> (if ts_rate t =? k_highest_bit_rate then 31 else n) = format_code v x.
Proof.
  unfold is_bit_rate_variable, k_invalid_bit_rate, stream_sample, format_code, k_highest_bit_rate. intros V H.
  destruct (ts_rate t =? 255); [discriminate |]. destruct (N.eqb_spec (ts_rate t) 0) as [E | E]; [| destruct (N.eqb_spec (ts_rate t) 24) as [E24 | E24]].
  - rewrite E. exists 0. split; [reflexivity |]. intros v _. destruct H as (-> & _). reflexivity.
  - rewrite E24. exists 32. split; [reflexivity |]. intros v Hv. destruct H as (-> & _). change (32 =? 32) with true. cbv iota.
    replace (9 <=? v) with true by (symmetry; apply N.leb_le, Hv). reflexivity.
  - destruct H as (Hb & Hn & _). exists (s_bits x). unfold get_num_bits_at_bit_rate. rewrite Hn. split; [reflexivity |]. intros v _.
    destruct (N.eqb_spec (s_bits x) 32); [lia | reflexivity].
Qed.
Lemma formats_rotation k v bs xs o : 9 <= v -> Forall2 (variable_sample Rotation k) bs xs ->
  groups (format_flush Rotation) (fent Rotation) (chunk4 bs) {| fw_out := o; fw_group := [0; 0; 0; 0] |} = Ok {| fw_out := o ++ rotation_formats v xs; fw_group := [0; 0; 0; 0] |}.
Proof.
  intros Hv F. pose proof (grouped_ok (fent Rotation) (format_flush Rotation) (variable_sample Rotation k) (fun l => pad4 (map (format_code v) l)) (fun l => pad4 (map (format_code v) l))) as G.
  unfold rotation_formats. rewrite chunk4_map, map_map. apply G; [| | exact F].
  - intros l b a o' Hl [V [_ S]]. destruct (bit_rate_code _ _ _ V S) as (n & E & C). unfold fent. rewrite E. cbn [bindo fw_group fw_out]. rewrite (C v Hv).
    destruct l as [| a0 [| a1 [| a2 [| a3 l]]]]; cbn [length] in Hl; try lia; reflexivity.
  - intros l o' Hl. unfold format_flush. cbn [fw_group fw_out].
    destruct l as [| a0 [| a1 [| a2 [| a3 [| a4 l]]]]]; cbn [length] in Hl; try lia; reflexivity.
Qed.
Lemma concat_chunk4 {B C} (f : B -> C) l : concat (map (map f) (chunk4 l)) = map f l.
Proof.
  induction l as [| l Hl IH] using chunk_ind; [reflexivity |]. rewrite (chunk4_step l Hl). cbn [map concat]. rewrite IH, <- map_app, firstn_skipn. reflexivity.
Qed.
Lemma formats_vector ch k v bs xs o : ch <> Rotation -> 9 <= v -> Forall2 (variable_sample ch k) bs xs ->
  groups (format_flush ch) (fent ch) (chunk4 bs) {| fw_out := o; fw_group := [0; 0; 0; 0] |} = Ok {| fw_out := o ++ vector_formats v xs; fw_group := [0; 0; 0; 0] |}.
Proof.
  intros Hc Hv F. pose proof (grouped_ok (fent ch) (format_flush ch) (variable_sample ch k) (fun l => pad4 (map (format_code v) l)) (map (format_code v))) as G.
  unfold vector_formats. rewrite <- concat_chunk4. apply G; [| | exact F].
  - intros l b a o' Hl [V [_ S]]. destruct (bit_rate_code _ _ _ V S) as (n & E & C). unfold fent. rewrite E. cbn [bindo fw_group fw_out]. rewrite (C v Hv).
    destruct l as [| a0 [| a1 [| a2 [| a3 l]]]]; cbn [length] in Hl; try lia; reflexivity.
  - intros l o' Hl. unfold format_flush. cbn [fw_group fw_out].
    destruct ch; [contradiction | |]; destruct l as [| a0 [| a1 [| a2 [| a3 [| a4 l]]]]]; cbn [length] in Hl; try lia; reflexivity.
Qed.

(** all animated sub-tracks of a kind are variable, or none is *)
Definition same_format (ch : channel) (variable : bool) (out : list tbone) : Prop :=
  Forall (fun b => is_bit_rate_variable (b_stream b ch) = variable) (animated_bones ch out).
Lemma same_format_filter ch variable out : same_format ch variable out ->
  filter (fun b => is_bit_rate_variable (b_stream b ch)) (animated_bones ch out) = when variable (animated_bones ch out).
Proof.
  unfold same_format. induction (animated_bones ch out) as [| b l IH]; intros H; [destruct variable; reflexivity |]. inversion H as [| ? ? Hb Hl]; subst.
  cbn [filter]. destruct (is_bit_rate_variable (b_stream b ch)); cbn [when] in *; [f_equal; apply IH, Hl | rewrite (IH Hl); reflexivity].
Qed.
Lemma variable_samples ch k out xs : same_format ch true out -> Forall2 (bone_sample ch k) (animated_bones ch out) xs -> Forall2 (variable_sample ch k) (animated_bones ch out) xs.
Proof.
  unfold same_format. intros V F. revert V. induction F as [| b x bs xs Hb F IH]; intros V; [constructor |]. inversion V; subst. constructor; [split; assumption | apply IH; assumption].
Qed.
Lemma write_formats_ok bones has_scale mapping out (variable : channel -> bool) k v r t s : mapped bones mapping out -> 9 <= v ->
  (forall ch, same_format ch (variable ch) out) ->
  Forall2 (bone_sample Rotation k) (animated_bones Rotation out) r -> Forall2 (bone_sample Translation k) (animated_bones Translation out) t ->
  (if has_scale : bool then Forall2 (bone_sample Scale k) (animated_bones Scale out) s else s = []) ->
  write_format_per_track_data bones has_scale mapping =
    Ok (when (variable Rotation) (rotation_formats v r) ++ when (variable Translation) (vector_formats v t) ++ when (variable Scale) (vector_formats v s)).
Proof.
  intros M Hv V Fr Ft Fs. unfold write_format_per_track_data.
  rewrite (animated_writer_spec bones has_scale mapping out (fun ch b => is_bit_rate_variable (b_stream b ch)) _ _ fent format_flush _ M).
  2:{ intros ch i b Hb. unfold format_filter, bone_at. rewrite Hb. reflexivity. }
  2:{ intros ch gs i b s0 Hb. unfold format_entry, bone_at. rewrite Hb. reflexivity. }
  rewrite !(same_format_filter _ (variable _) out (V _)).
  assert (R : forall o, groups (format_flush Rotation) (fent Rotation) (chunk4 (when (variable Rotation) (animated_bones Rotation out))) {| fw_out := o; fw_group := [0; 0; 0; 0] |} =
    Ok {| fw_out := o ++ when (variable Rotation) (rotation_formats v r); fw_group := [0; 0; 0; 0] |}).
  { intros o. pose proof (V Rotation) as VR. destruct (variable Rotation); cbn [when]; [apply (formats_rotation k); [exact Hv | apply variable_samples; assumption] | rewrite app_nil_r; reflexivity]. }
  assert (T : forall ch o xs, ch <> Rotation -> Forall2 (bone_sample ch k) (animated_bones ch out) xs ->
    groups (format_flush ch) (fent ch) (chunk4 (when (variable ch) (animated_bones ch out))) {| fw_out := o; fw_group := [0; 0; 0; 0] |} =
    Ok {| fw_out := o ++ when (variable ch) (vector_formats v xs); fw_group := [0; 0; 0; 0] |}).
  { intros ch o xs Hc F. pose proof (V ch) as VC. destruct (variable ch); cbn [when]; [apply (formats_vector ch k); [exact Hc | exact Hv | apply variable_samples; assumption] | rewrite app_nil_r; reflexivity]. }
  rewrite R. cbn [bindo]. rewrite (T Translation _ t ltac:(discriminate) Ft). cbn [bindo app].
  destruct has_scale.
  - rewrite (T Scale _ s ltac:(discriminate) Fs). cbn [bindo fw_out]. rewrite <- !app_assoc. reflexivity.
  - subst s. cbn [bindo fw_out]. replace (when (variable Scale) (vector_formats v [])) with (@nil N) by (destruct (variable Scale); reflexivity). rewrite app_nil_r. reflexivity.
Qed.

(** ** Segment ranges *)
(** the bytes of the segment range of a sub-track that has one *)
Definition bone_range (ch : channel) (b : tbone) (x : stored) : Prop :=
  in_words 8 6 (s_range x) /\
  (ts_rate (b_stream b ch) <> 0 ->
   pack_vector3_u24 (b_segment_min b ch) = Ok (firstn 3 (s_range x)) /\ pack_vector3_u24 (b_segment_extent b ch) = Ok (skipn 3 (s_range x))).
Definition ranged (ch : channel) (k : N) (b : tbone) (x : stored) : Prop := is_bit_rate_variable (b_stream b ch) = true /\ bone_sample ch k b x /\ bone_range ch b x.
Definition rent (ch : channel) (group_size : N) (b : tbone) (s : fwriter) : outcome fwriter :=
  bindo
    (if is_constant_bit_rate (ts_rate (b_stream b ch)) then
       bindo (get_raw_sample_ptr (b_stream b ch) 0) (fun p =>
       bindo (load_bytes p 0 6) (fun q =>
       match ch with
       | Rotation => store_each (fw_group s)
           [(group_size + 0, nth 1 q 0); (group_size + 4, nth 0 q 0); (group_size + 8, nth 3 q 0);
            (group_size + 12, nth 2 q 0); (group_size + 16, nth 5 q 0); (group_size + 20, nth 4 q 0)]
       | _ => store_bytes (fw_group s) (group_size * 6) q
       end))
     else
       bindo (pack_vector3_u24 (b_segment_min b ch)) (fun mn =>
       bindo (pack_vector3_u24 (b_segment_extent b ch)) (fun ext =>
       match ch with
       | Rotation => store_each (fw_group s)
           [(group_size + 0, nth 0 mn 0); (group_size + 4, nth 1 mn 0); (group_size + 8, nth 2 mn 0);
            (group_size + 12, nth 0 ext 0); (group_size + 16, nth 1 ext 0); (group_size + 20, nth 2 ext 0)]
       | _ => bindo (store_bytes (fw_group s) (group_size * 6) mn) (fun g => store_bytes g (group_size * 6 + 3) ext)
       end)))
    (fun g => Ok {| fw_out := fw_out s; fw_group := g |}).

Lemma le_bytes2 v : v < 2 ^ 16 -> le_bytes 2 v = [v mod 256; v / 256].
Proof.
  intros H. cbn [le_bytes]. f_equal. f_equal. apply N.mod_small. change (2 ^ 16) with 65536 in H. apply N.div_lt_upper_bound; lia.
Qed.
(** the sample of bit rate zero *)
Lemma constant_sample ch k b x : bone_sample ch k b x -> ts_rate (b_stream b ch) = 0 -> exists p,
  get_raw_sample_ptr (b_stream b ch) 0 = Ok p /\ load_bytes p 0 6 = Ok (vector_range x) /\ s_bits x = 0 /\ length (s_vals x) = 3%nat.
Proof.
  intros [K S] E. unfold stream_sample in S. rewrite E in S. change (0 =? 255) with false in S. change (0 =? 0) with true in S. cbv iota in S.
  destruct S as (Hb & [Hl Hw] & Hn & Hs & At). destruct (get_sample_ok _ 0 K Hn) as (G1 & G2 & _). apply placed_skip in At.
  exists (skipn (N.to_nat (0 * ts_sample_size (b_stream b ch))) (ts_data (b_stream b ch))). split; [exact G1 |]. set (p := skipn _ _) in *. clearbody p.
  assert (V : concat (map (le_bytes 2) (s_vals x)) = vector_range x).
  { unfold vector_range. rewrite Hb. change (0 =? 0) with true. cbv iota. f_equal. apply map_ext_in. intros v Hv. apply le_bytes2. rewrite Forall_forall in Hw. apply Hw, Hv. }
  rewrite V in At. assert (Len : length (vector_range x) = 6%nat).
  { rewrite <- V. destruct (s_vals x) as [| a [| b' [| c [| d l]]]]; cbn [length] in Hl; try lia. reflexivity. }
  destruct (load_bytes_placed p 0 (vector_range x) 6 At ltac:(lia) ltac:(lia)) as (r & A & B). destruct r; [| cbn [length] in B; lia]. rewrite app_nil_r in A.
  split; [exact A |]. split; [exact Hb | lia].
Qed.
Definition rows6 (l : list (list N)) : list N := concat (map (fun c => pad4 (column 0 c l)) (seq 0 6)).
Lemma store_rows (l : list (list N)) v0 v1 v2 v3 v4 v5 : (length l < 4)%nat ->
  store_each (rows6 l) [(len l + 0, v0); (len l + 4, v1); (len l + 8, v2); (len l + 12, v3); (len l + 16, v4); (len l + 20, v5)] = Ok (rows6 (l ++ [[v0; v1; v2; v3; v4; v5]])).
Proof. intros H. destruct l as [| a [| b [| c [| d l]]]]; cbn [length] in H; try lia; reflexivity. Qed.
Lemma list6 {A} (d : A) l : length l = 6%nat -> l = [nth 0 l d; nth 1 l d; nth 2 l d; nth 3 l d; nth 4 l d; nth 5 l d].
Proof. intros H. destruct l as [| a0 [| a1 [| a2 [| a3 [| a4 [| a5 [| a6 l]]]]]]]; cbn [length] in H; try lia. reflexivity. Qed.

Lemma rate_bits k t x : stream_sample t k x -> is_bit_rate_variable t = true -> (ts_rate t = 0 /\ s_bits x = 0) \/ (ts_rate t <> 0 /\ s_bits x <> 0).
Proof.
  unfold stream_sample, is_bit_rate_variable, k_invalid_bit_rate. intros H V. destruct (ts_rate t =? 255); [discriminate |].
  destruct (N.eqb_spec (ts_rate t) 0) as [E | E]; [left; split; [exact E | apply H] |]. right. split; [exact E |].
  destruct (ts_rate t =? 24); destruct H as (H & _); lia.
Qed.
Lemma range_entry_rotation k l b x o : (length l < 4)%nat -> ranged Rotation k b x ->
  rent Rotation (len l) b {| fw_out := o; fw_group := rows6 (map rotation_range l) |} = Ok {| fw_out := o; fw_group := rows6 (map rotation_range (l ++ [x])) |}.
Proof.
  intros Hl (V & S & [Hr Hp]). unfold rent, is_constant_bit_rate. cbn [fw_group fw_out]. rewrite map_app. cbn [map].
  replace (len l) with (len (map rotation_range l)) by (unfold len; rewrite map_length; reflexivity).
  destruct (rate_bits k _ x (proj2 S) V) as [[E Z] | [E Z]].
  - rewrite E. change (0 =? 0) with true. cbv iota. destruct (constant_sample Rotation k b x S E) as (p & A & B & _ & L3). rewrite A. cbn [bindo]. rewrite B. cbn [bindo].
    rewrite store_rows by (rewrite map_length; exact Hl). cbn [bindo]. repeat f_equal.
    unfold vector_range, rotation_range. rewrite Z. change (0 =? 0) with true. cbv iota.
    destruct (s_vals x) as [| a [| b' [| c [| d vs]]]]; cbn [length] in L3; try lia. reflexivity.
  - rewrite (proj2 (N.eqb_neq _ 0) E). destruct (Hp E) as [P1 P2]. rewrite P1. cbn [bindo]. rewrite P2. cbn [bindo].
    rewrite store_rows by (rewrite map_length; exact Hl). cbn [bindo]. repeat f_equal.
    unfold rotation_range. rewrite (proj2 (N.eqb_neq _ 0) Z). symmetry. apply in_words_len in Hr.
    destruct (s_range x) as [| a0 [| a1 [| a2 [| a3 [| a4 [| a5 [| a6 rs]]]]]]]; cbn [length] in Hr; try lia. reflexivity.
Qed.
Lemma ranges_rotation k bs xs o : Forall2 (ranged Rotation k) bs xs ->
  groups (segment_range_flush Rotation) (rent Rotation) (chunk4 bs) {| fw_out := o; fw_group := repeat 0 24 |} = Ok {| fw_out := o ++ rotation_ranges xs; fw_group := repeat 0 24 |}.
Proof.
  intros F. pose proof (grouped_ok (rent Rotation) (segment_range_flush Rotation) (ranged Rotation k) (fun l => rows6 (map rotation_range l)) (fun l => rows6 (map rotation_range l))) as G.
  unfold rotation_ranges. rewrite chunk4_map, map_map. apply G; [| | exact F].
  - intros. apply (range_entry_rotation k); assumption.
  - intros l o' Hl. unfold segment_range_flush. cbn [fw_group fw_out].
    destruct l as [| a0 [| a1 [| a2 [| a3 [| a4 l]]]]]; cbn [length] in Hl; try lia; reflexivity.
Qed.

(** vectors: six bytes each, then zeroes *)
Definition bytes6 (l : list (list N)) : list N := concat l ++ repeat 0 (24 - 6 * length l).
Lemma concat_len6 (l : list (list N)) : Forall (fun r => length r = 6%nat) l -> length (concat l) = (6 * length l)%nat.
Proof. induction 1 as [| r l Hr F IH]; [reflexivity |]. cbn [concat length]. rewrite app_length, Hr, IH. lia. Qed.
Lemma store_bytes6 (l : list (list N)) q : Forall (fun r => length r = 6%nat) l -> length q = 6%nat -> (length l < 4)%nat ->
  store_bytes (bytes6 l) (len l * 6) q = Ok (bytes6 (l ++ [q])).
Proof.
  intros F Hq Hl. unfold bytes6. rewrite concat_app, app_length. cbn [concat length]. rewrite app_nil_r, <- app_assoc.
  replace (24 - 6 * length l)%nat with (6 + (24 - 6 * (length l + 1)))%nat by lia. rewrite repeat_app.
  replace (len l * 6) with (blen (concat l)) by (unfold blen, len; rewrite concat_len6 by exact F; lia).
  apply store_mid. rewrite Hq. reflexivity.
Qed.
Lemma store_two (l : list (list N)) a b : Forall (fun r => length r = 6%nat) l -> length a = 3%nat -> length b = 3%nat -> (length l < 4)%nat ->
  bindo (store_bytes (bytes6 l) (len l * 6) a) (fun g => store_bytes g (len l * 6 + 3) b) = Ok (bytes6 (l ++ [a ++ b])).
Proof.
  intros F Ha Hb Hl. unfold bytes6. rewrite concat_app, (app_length l). cbn [concat length]. rewrite app_nil_r, <- !app_assoc.
  replace (24 - 6 * length l)%nat with (3 + (3 + (24 - 6 * (length l + 1))))%nat by lia. rewrite !repeat_app.
  replace (len l * 6) with (blen (concat l)) by (unfold blen, len; rewrite concat_len6 by exact F; lia).
  rewrite (store_mid (concat l) (repeat 0 3) a) by (rewrite Ha; reflexivity). cbn [bindo].
  rewrite (app_assoc (concat l) a). replace (blen (concat l) + 3) with (blen (concat l ++ a)) by (unfold blen; rewrite app_length, Ha; lia).
  rewrite (store_mid (concat l ++ a) (repeat 0 3) b) by (rewrite Hb; reflexivity). rewrite <- app_assoc. reflexivity.
Qed.
Lemma vector_range_len ch k b x : ranged ch k b x -> length (vector_range x) = 6%nat.
Proof.
  intros (V & S & [Hr _]). unfold vector_range. destruct (rate_bits k _ x (proj2 S) V) as [[E Z] | [E Z]].
  - destruct (constant_sample ch k b x S E) as (p & _ & _ & _ & L3). rewrite Z. change (0 =? 0) with true. cbv iota.
    destruct (s_vals x) as [| a [| b' [| c [| d vs]]]]; cbn [length] in L3; try lia. reflexivity.
  - rewrite (proj2 (N.eqb_neq _ 0) Z). apply in_words_len in Hr. exact Hr.
Qed.
(** the entries written so far are ranges of six bytes: kept with the entry *)
Lemma range_entry_vector ch k l b x o : ch <> Rotation -> (length l < 4)%nat -> Forall (fun y => length (vector_range y) = 6%nat) l -> ranged ch k b x ->
  rent ch (len l) b {| fw_out := o; fw_group := bytes6 (map vector_range l) |} = Ok {| fw_out := o; fw_group := bytes6 (map vector_range (l ++ [x])) |}.
Proof.
  intros Hc Hl Fl R. pose proof (vector_range_len ch k b x R) as Lx. destruct R as (V & S & [Hr Hp]). unfold rent, is_constant_bit_rate. cbn [fw_group fw_out]. rewrite map_app. cbn [map].
  replace (len l) with (len (map vector_range l)) by (unfold len; rewrite map_length; reflexivity).
  assert (F : Forall (fun r => length r = 6%nat) (map vector_range l)) by (apply Forall_map; exact Fl).
  destruct (rate_bits k _ x (proj2 S) V) as [[E Z] | [E Z]].
  - rewrite E. change (0 =? 0) with true. cbv iota. destruct (constant_sample ch k b x S E) as (p & A & B & _ & L3). rewrite A. cbn [bindo]. rewrite B. cbn [bindo].
    destruct ch; [contradiction | |]; rewrite store_bytes6 by (try assumption; rewrite map_length; exact Hl); reflexivity.
  - rewrite (proj2 (N.eqb_neq _ 0) E). destruct (Hp E) as [P1 P2]. rewrite P1. cbn [bindo]. rewrite P2. cbn [bindo]. apply in_words_len in Hr.
    assert (W : firstn 3 (s_range x) ++ skipn 3 (s_range x) = vector_range x).
    { rewrite firstn_skipn. unfold vector_range. rewrite (proj2 (N.eqb_neq _ 0) Z). reflexivity. }
    destruct ch; [contradiction | |]; rewrite store_two by (try assumption; rewrite ?firstn_length, ?skipn_length, ?map_length, ?Hr; try exact Hl; reflexivity); cbn [bindo]; rewrite W; reflexivity.
Qed.
Lemma ranges_vector ch k bs xs o : ch <> Rotation -> Forall2 (ranged ch k) bs xs ->
  groups (segment_range_flush ch) (rent ch) (chunk4 bs) {| fw_out := o; fw_group := repeat 0 24 |} = Ok {| fw_out := o ++ vector_ranges xs; fw_group := repeat 0 24 |}.
Proof.
  intros Hc F.
  assert (Sg : exists ys : list {x | length (vector_range x) = 6%nat}, map (@proj1_sig _ _) ys = xs /\ Forall2 (fun b y => ranged ch k b (proj1_sig y)) bs ys).
  { induction F as [| b x bs xs Hb F IH]; [exists []; split; [reflexivity | constructor] |]. destruct IH as (ys & E & G).
    exists (exist _ x (vector_range_len ch k b x Hb) :: ys). split; [cbn [map proj1_sig]; congruence | constructor; assumption]. }
  destruct Sg as (ys & <- & G).
  pose proof (grouped_ok (rent ch) (segment_range_flush ch) (fun b y => ranged ch k b (proj1_sig y))
    (fun l => bytes6 (map vector_range (map (@proj1_sig _ (fun x => length (vector_range x) = 6%nat)) l)))
    (fun l => concat (map vector_range (map (@proj1_sig _ (fun x => length (vector_range x) = 6%nat)) l)))) as Gr.
  assert (E : concat (map (fun l => concat (map vector_range (map (@proj1_sig _ (fun x => length (vector_range x) = 6%nat)) l))) (chunk4 ys)) = vector_ranges (map (@proj1_sig _ _) ys)).
  { unfold vector_ranges. clear. induction ys as [| l Hl IH] using chunk_ind; [reflexivity |]. rewrite (chunk4_step l Hl). cbn [map concat]. rewrite IH.
    rewrite <- concat_app, <- map_app, <- map_app, firstn_skipn. reflexivity. }
  rewrite <- E. apply Gr; [| | exact G].
  - intros l b a o' Hl R. rewrite map_app. cbn [map].
    replace (len l) with (len (map (@proj1_sig _ (fun x => length (vector_range x) = 6%nat)) l)) by (unfold len; rewrite map_length; reflexivity).
    apply (range_entry_vector ch k); try assumption; [rewrite map_length; exact Hl |]. apply Forall_map, Forall_forall. intros [y Hy] _. exact Hy.
  - intros l o' Hl. unfold segment_range_flush. cbn [fw_group fw_out].
    set (rs := map vector_range (map (@proj1_sig _ (fun x => length (vector_range x) = 6%nat)) l)).
    assert (Fr : Forall (fun r => length r = 6%nat) rs) by (apply Forall_map, Forall_map, Forall_forall; intros [y Hy] _; exact Hy).
    assert (Lr : length rs = length l) by (unfold rs; rewrite !map_length; reflexivity).
    assert (Ld : load_bytes (bytes6 rs) 0 (N.to_nat (len l * 6)) = Ok (concat rs)).
    { replace (N.to_nat (len l * 6)) with (length (concat rs)) by (rewrite concat_len6, Lr by exact Fr; unfold len; lia).
      rewrite load_bytes_ok by (unfold blen, bytes6; rewrite app_length; lia). f_equal. change (skipn (N.to_nat 0) (bytes6 rs)) with (bytes6 rs). unfold bytes6. rewrite firstn_app, Nat.sub_diag, firstn_all. cbn [firstn]. apply app_nil_r. }
    destruct ch; [contradiction | |]; rewrite Ld; cbn [bindo]; reflexivity.
Qed.

Lemma ranged_samples ch k out xs : same_format ch true out -> Forall2 (bone_sample ch k) (animated_bones ch out) xs ->
  Forall2 (bone_range ch) (animated_bones ch out) xs -> Forall2 (ranged ch k) (animated_bones ch out) xs.
Proof.
  unfold same_format. intros V F. revert V. induction F as [| b x bs xs Hb F IH]; intros V R; [constructor |]. inversion V; inversion R; subst. constructor.
  - split; [assumption |]. split; [exact Hb | assumption].
  - apply IH; assumption.
Qed.
Lemma filter_flag (flag : bool) {A} (l : list A) : filter (fun _ => flag) l = when flag l.
Proof. destruct flag; cbn [when]; [apply filter_true |]. induction l; auto. Qed.
Lemma write_ranges_ok bones has_scale mapping out (variable : channel -> bool) k r t s : mapped bones mapping out ->
  (forall ch, same_format ch (variable ch) out) ->
  Forall2 (bone_sample Rotation k) (animated_bones Rotation out) r -> Forall2 (bone_sample Translation k) (animated_bones Translation out) t ->
  (if has_scale : bool then Forall2 (bone_sample Scale k) (animated_bones Scale out) s else s = []) ->
  (variable Rotation = true -> Forall2 (bone_range Rotation) (animated_bones Rotation out) r) ->
  (variable Translation = true -> Forall2 (bone_range Translation) (animated_bones Translation out) t) ->
  (variable Scale = true -> has_scale = true -> Forall2 (bone_range Scale) (animated_bones Scale out) s) ->
  write_segment_range_data bones has_scale variable mapping =
    Ok (when (variable Rotation) (rotation_ranges r) ++ when (variable Translation) (vector_ranges t) ++ when (variable Scale) (vector_ranges s)).
Proof.
  intros M V Fr Ft Fs Rr Rt Rs. unfold write_segment_range_data.
  rewrite (animated_writer_spec bones has_scale mapping out (fun ch b => variable ch) _ _ rent segment_range_flush _ M).
  2:{ reflexivity. }
  2:{ intros ch gs i b s0 Hb. unfold segment_range_entry, bone_at. rewrite Hb. reflexivity. }
  rewrite !filter_flag.
  assert (R : forall o, groups (segment_range_flush Rotation) (rent Rotation) (chunk4 (when (variable Rotation) (animated_bones Rotation out))) {| fw_out := o; fw_group := repeat 0 24 |} =
    Ok {| fw_out := o ++ when (variable Rotation) (rotation_ranges r); fw_group := repeat 0 24 |}).
  { intros o. pose proof (V Rotation) as VR. destruct (variable Rotation); cbn [when]; [apply (ranges_rotation k), ranged_samples; auto | rewrite app_nil_r; reflexivity]. }
  assert (T : forall ch o xs, ch <> Rotation -> Forall2 (bone_sample ch k) (animated_bones ch out) xs -> (variable ch = true -> Forall2 (bone_range ch) (animated_bones ch out) xs) ->
    groups (segment_range_flush ch) (rent ch) (chunk4 (when (variable ch) (animated_bones ch out))) {| fw_out := o; fw_group := repeat 0 24 |} =
    Ok {| fw_out := o ++ when (variable ch) (vector_ranges xs); fw_group := repeat 0 24 |}).
  { intros ch o xs Hc F Rc. pose proof (V ch) as VC. destruct (variable ch); cbn [when]; [apply (ranges_vector ch k); [exact Hc | apply ranged_samples; auto] | rewrite app_nil_r; reflexivity]. }
  rewrite R. cbn [bindo]. rewrite (T Translation _ t ltac:(discriminate) Ft Rt). cbn [bindo app].
  destruct has_scale.
  - rewrite (T Scale _ s ltac:(discriminate) Fs) by auto. cbn [bindo fw_out]. rewrite <- !app_assoc. reflexivity.
  - subst s. cbn [bindo fw_out]. replace (when (variable Scale) (vector_ranges [])) with (@nil N) by (destruct (variable Scale); reflexivity). rewrite app_nil_r. reflexivity.
Qed.
