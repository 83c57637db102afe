(** The compressed scalar clip as a sequence of pieces. *)
From Verif Require Import Word WordFacts MemoryUtils MemoryFacts Hash HashFacts Packing PackSpec PackingFacts Pieces ByteFacts RewriteFacts Float32 Interp Headers TrackArray DbBuild
  LayoutSpec LayoutFacts LayoutOps LayoutBuild ScalarEnc ScalarBits.
From Coq Require Import Lia ZifyBool ZifyN ZifyNat.
Ltac Zify.zify_post_hook ::= idtac.
Local Open Scope N_scope.

(** * Bytes written one after the other *)
Fixpoint emit (chunks : list (list N)) (buf : option (list N)) (off : N) : outcome (option (list N) * N) :=
  match chunks with [] => Ok (buf, off) | l :: r => bindo (put buf off l) (fun buf => emit r buf (off + blen l)) end.
Lemma emit_none chunks : forall off, emit chunks None off = Ok (None, off + blen (concat chunks)).
Proof.
  induction chunks as [|l r IH]; intros off; cbn [emit put bindo concat]; [change (blen []) with 0; rewrite N.add_0_r; reflexivity|].
  rewrite IH, blen_app. do 2 f_equal. lia.
Qed.
Lemma emit_mid chunks : forall a z c, length z = length (concat chunks) ->
  emit chunks (Some (a ++ z ++ c)) (blen a) = Ok (Some (a ++ concat chunks ++ c), blen a + blen (concat chunks)).
Proof.
  induction chunks as [|l r IH]; intros a z c L; cbn [emit concat] in *.
  - destruct z; [|discriminate L]. cbn [app]. change (blen []) with 0. rewrite N.add_0_r. reflexivity.
  - rewrite app_length in L. rewrite <- (firstn_skipn (length l) z). set (z1 := firstn (length l) z). set (z2 := skipn (length l) z).
    assert (L1 : length l = length z1) by (subst z1; rewrite firstn_length; lia).
    assert (L2 : length z2 = length (concat r)) by (subst z2; rewrite skipn_length; lia).
    unfold put. rewrite <- (app_assoc z1), (store_mid a z1 l _ L1). cbn [bindo].
    rewrite <- blen_app. rewrite !app_assoc, <- (app_assoc (a ++ l)). rewrite (IH (a ++ l) z2 c L2). rewrite !blen_app, <- !app_assoc. do 2 f_equal. lia.
Qed.
Lemma emit_piece chunks ps i p off : nth_error ps i = Some p -> off = sum_n (lens (firstn i ps)) -> length p = length (concat chunks) ->
  emit chunks (Some (concat ps)) off = Ok (Some (concat (upd ps i (concat chunks))), off + blen (concat chunks)).
Proof.
  intros E O L. rewrite (split_at ps i p E), O, <- blen_concat. rewrite (emit_mid chunks _ p _ L). do 3 f_equal. symmetry. apply upd_split.
  apply nth_error_Some. congruence.
Qed.

Definition format_of (t : ctrack) : N := if ct_constant t then 0 else N.of_nat (ct_bit_rate t).
Definition meta_chunks (ts : list ctrack) : list (list N) := map (fun t => [format_of t]) ts.
Definition const_value (t : ctrack) : list f32 := hd [] (ct_ref t).
Definition const_chunks (ts : list ctrack) : list (list N) := map (fun t => if ct_constant t then float_bytes (const_value t) else []) ts.
Definition is_ranged (t : ctrack) : bool := negb (ct_constant t) && negb (is_raw_bit_rate (ct_bit_rate t)).
Definition range_chunks (nc : nat) (ts : list ctrack) : list (list N) :=
  map (fun t => if is_ranged t then float_bytes (firstn nc (fst (ct_range t))) ++ float_bytes (firstn nc (snd (ct_range t))) else []) ts.

Lemma bindo_assoc {A B C} (o : outcome A) (f : A -> outcome B) (g : B -> outcome C) : bindo (bindo o f) g = bindo o (fun x => bindo (f x) g).
Proof. destruct o; reflexivity. Qed.

Lemma skipn_twice {A} (l : list A) : forall a b, skipn a (skipn b l) = skipn (b + a) l.
Proof. induction l as [|x l IH]; intros a b; [rewrite !skipn_nil; reflexivity|]. destruct b; [reflexivity|]. cbn [skipn Nat.add]. apply IH. Qed.
Lemma put_app buf off a b : put buf off (a ++ b) = bindo (put buf off a) (fun buf => put buf (off + blen a) b).
Proof.
  destruct buf as [m|]; [|reflexivity]. unfold put, store_bytes. rewrite blen_app.
  destruct (N.leb_spec (off + blen a) (blen m)) as [A|A]; cbn [bindo].
  - assert (Lm : blen (firstn (N.to_nat off) m ++ a ++ skipn (N.to_nat off + length a) m) = blen m).
    { unfold blen in *. rewrite !app_length, firstn_length, skipn_length. lia. }
    rewrite Lm. rewrite N.add_assoc. destruct (N.leb_spec (off + blen a + blen b) (blen m)) as [B|B]; cbn [bindo]; [|reflexivity]. do 2 f_equal.
    assert (Lf : length (firstn (N.to_nat off) m) = N.to_nat off) by (unfold blen in *; rewrite firstn_length; lia).
    assert (E1 : N.to_nat (off + blen a) = length (firstn (N.to_nat off) m ++ a)) by (rewrite app_length, Lf; unfold blen; lia).
    rewrite (app_assoc (firstn _ m) a (skipn _ m)), E1, firstn_app, firstn_all, Nat.sub_diag. cbn [firstn]. rewrite app_nil_r, <- !app_assoc. f_equal. f_equal. f_equal.
    rewrite (app_assoc (firstn _ m) a (skipn _ m)), skipn_app. rewrite (skipn_all2 (firstn (N.to_nat off) m ++ a)) by lia. cbn [app].
    replace (length (firstn (N.to_nat off) m ++ a) + length b - length (firstn (N.to_nat off) m ++ a))%nat with (length b) by lia.
    rewrite skipn_twice. f_equal. rewrite app_length. lia.
  - destruct (N.leb_spec (off + (blen a + blen b)) (blen m)) as [B|B]; [lia|reflexivity].
Qed.
Lemma put_nil buf off : (match buf with None => True | Some m => off <= blen m end) -> put buf off [] = Ok buf.
Proof.
  destruct buf as [m|]; [|reflexivity]. intros H. unfold put, store_bytes. change (blen []) with 0. rewrite N.add_0_r.
  destruct (N.leb_spec off (blen m)); [|lia]. cbn [bindo]. cbn [app length]. rewrite Nat.add_0_r, firstn_skipn. reflexivity.
Qed.

Lemma write_metadata_emit ts : forall buf off, write_track_metadata ts buf off = emit (meta_chunks ts) buf off.
Proof.
  induction ts as [|t ts IH]; intros buf off; cbn [write_track_metadata meta_chunks map emit]; [reflexivity|]. fold (format_of t).
  destruct (put buf off [format_of t]); cbn [bindo]; [|reflexivity|reflexivity]. change (blen [format_of t]) with 1. apply IH.
Qed.
(** empty chunks do not matter *)
Fixpoint nonempty (l : list (list N)) : list (list N) := match l with [] => [] | x :: r => match x with [] => nonempty r | _ => x :: nonempty r end end.
Lemma concat_nonempty l : concat (nonempty l) = concat l.
Proof. induction l as [|[|x y] l IH]; cbn [nonempty concat app]; congruence. Qed.

Definition const_ok (nc : nat) (t : ctrack) : Prop := ct_constant t = true -> exists s r, ct_ref t = s :: r /\ length s = nc.
Definition range_ok (nc : nat) (t : ctrack) : Prop := is_ranged t = true -> (nc <= length (fst (ct_range t)))%nat /\ (nc <= length (snd (ct_range t)))%nat.

Lemma float_bytes_len v : blen (float_bytes v) = 4 * N.of_nat (length v).
Proof.
  unfold float_bytes. induction v as [|x v IH]; [reflexivity|]. cbn [map concat length]. rewrite blen_app, IH. unfold blen. rewrite le_bytes_length. lia.
Qed.
Lemma float_bytes_nil v : float_bytes v = [] -> v = [].
Proof. destruct v as [|x v]; [reflexivity|]. intros H. apply (f_equal blen) in H. rewrite float_bytes_len in H. cbn [length] in H. change (blen []) with 0 in H. lia. Qed.

Lemma write_constants_emit nc ts : (1 <= nc)%nat -> Forall (const_ok nc) ts -> forall buf off, write_track_constant_values ts buf off = emit (nonempty (const_chunks ts)) buf off.
Proof.
  intros NC. induction 1 as [|t ts T F IH]; intros buf off; cbn [write_track_constant_values const_chunks map nonempty]; [reflexivity|].
  destruct (ct_constant t) eqn:C; cbn [negb]; [|apply IH]. destruct (T C) as (s & r & E & L). unfold const_value. rewrite E. cbn [nth_error hd].
  destruct (float_bytes s) as [|x l] eqn:FB; [apply float_bytes_nil in FB; subst s; cbn in L; lia|]. cbn [emit].
  destruct (put buf off (x :: l)); cbn [bindo]; [apply IH|reflexivity|reflexivity].
Qed.
Lemma write_ranges_emit nc ts : (1 <= nc)%nat -> Forall (range_ok nc) ts -> forall buf off, write_track_range_values nc ts buf off = emit (nonempty (range_chunks nc ts)) buf off.
Proof.
  intros NC. induction 1 as [|t ts T F IH]; intros buf off; cbn [write_track_range_values range_chunks map nonempty]; [reflexivity|].
  unfold range_ok, is_ranged in *. destruct (ct_constant t) eqn:C; cbn [negb andb] in *; [apply IH|].
  destruct (is_raw_bit_rate (ct_bit_rate t)) eqn:R; cbn [negb] in *; [apply IH|]. destruct (T eq_refl) as [L1 L2].
  set (a := float_bytes (firstn nc (fst (ct_range t)))). set (b := float_bytes (firstn nc (snd (ct_range t)))).
  assert (La : blen a = 4 * N.of_nat nc) by (subst a; rewrite float_bytes_len, firstn_length; lia).
  assert (Lb : blen b = 4 * N.of_nat nc) by (subst b; rewrite float_bytes_len, firstn_length; lia).
  destruct (a ++ b) as [|x l] eqn:AB. { apply (f_equal blen) in AB. rewrite blen_app in AB. change (blen []) with 0 in AB. lia. }
  cbn [emit]. rewrite <- AB, put_app, La, blen_app, La, Lb, bindo_assoc.
  destruct (put buf off a) as [buf1| |]; cbn [bindo]; [|reflexivity|reflexivity].
  destruct (put buf1 _ b) as [buf2| |]; cbn [bindo]; [|reflexivity|reflexivity]. rewrite IH, <- N.add_assoc. reflexivity.
Qed.

(** * Optional metadata *)
Definition name_chunk (name : list N) : list N := name ++ [0].
Lemma name_chunk_len n : blen (name_chunk n) = blen n + 1.
Proof. unfold name_chunk. rewrite blen_app. reflexivity. Qed.
Fixpoint name_offsets (names : list (list N)) (offset : N) : list N :=
  match names with [] => [] | n :: r => offset :: name_offsets r (addw 32 offset (blen n + 1)) end.
Definition names_chunks (names : list (list N)) : list (list N) :=
  map word (name_offsets names (mulw 32 4 (N.of_nat (length names)))) ++ map name_chunk names.
Definition desc_chunks (ps : list f32) : list (list N) := map (fun p => float_bytes [p]) ps.

Lemma emit_app a : forall b buf off, emit (a ++ b) buf off = bindo (emit a buf off) (fun '(buf, off) => emit b buf off).
Proof.
  induction a as [|l a IH]; intros b buf off; cbn [app emit]; [reflexivity|]. destruct (put buf off l); cbn [bindo]; [apply IH|reflexivity|reflexivity].
Qed.
Lemma write_name_emit name buf off : write_track_list_name name buf off = emit [name_chunk name] buf off.
Proof.
  unfold write_track_list_name. cbn [emit]. unfold name_chunk. destruct (put buf off (name ++ [0])); cbn [bindo]; [|reflexivity|reflexivity].
  rewrite blen_app. reflexivity.
Qed.
Lemma put_offsets_emit names : forall o buf off, put_name_offsets names o buf off = emit (map word (name_offsets names o)) buf off.
Proof.
  induction names as [|n r IH]; intros o buf off; cbn [put_name_offsets name_offsets map emit]; [reflexivity|]. fold (word o).
  destruct (put buf off (word o)); cbn [bindo]; [|reflexivity|reflexivity]. rewrite blen_word. apply IH.
Qed.
Lemma put_names_emit names : forall buf off, put_names names buf off = emit (map name_chunk names) buf off.
Proof.
  induction names as [|n r IH]; intros buf off; cbn [put_names map emit]; [reflexivity|]. fold (name_chunk n).
  destruct (put buf off (name_chunk n)); cbn [bindo]; [|reflexivity|reflexivity]. rewrite (name_chunk_len n). apply IH.
Qed.
Lemma write_names_emit names buf off : write_track_names names buf off = emit (names_chunks names) buf off.
Proof.
  unfold write_track_names, names_chunks. rewrite emit_app, put_offsets_emit. destruct (emit _ buf off) as [[b o]| |]; cbn [bindo]; [|reflexivity|reflexivity]. apply put_names_emit.
Qed.
Lemma write_desc_emit ps : forall buf off, write_track_descriptions ps buf off = emit (desc_chunks ps) buf off.
Proof.
  induction ps as [|p r IH]; intros buf off; cbn [write_track_descriptions desc_chunks map emit]; [reflexivity|].
  destruct (put buf off (float_bytes [p])); cbn [bindo]; [|reflexivity|reflexivity]. rewrite float_bytes_len. apply IH.
Qed.

(** * Alignment *)
Definition up4 (x : N) : N := 4 * ((x + 3) / 4).
Lemma up4_bounds x : x <= up4 x <= x + 3.
Proof. unfold up4. pose proof (N.div_mod (x + 3) 4 ltac:(discriminate)). pose proof (N.mod_lt (x + 3) 4 ltac:(discriminate)). lia. Qed.
Lemma up4_mul a x : up4 (4 * a + x) = 4 * a + up4 x.
Proof. unfold up4. replace (4 * a + x + 3) with (a * 4 + (x + 3)) by lia. rewrite N.div_add_l by discriminate. lia. Qed.
Lemma up4_add x y : up4 (up4 x + y) = up4 x + up4 y.
Proof. unfold up4 at 2 3. rewrite up4_mul. reflexivity. Qed.
Lemma up4_id a : up4 (4 * a) = 4 * a.
Proof. replace (4 * a) with (4 * a + 0) at 1 by lia. rewrite up4_mul. change (up4 0) with 0. lia. Qed.
Lemma align_up4 x : x + 3 < 2 ^ 32 -> align_to 32 x 4 = up4 x.
Proof.
  intros H. pose proof (al4 32 x (or_introl eq_refl) H) as (A & B & C & D). cbv zeta in *. pose proof (up4_bounds x).
  assert (M : up4 x mod 4 = 0) by (unfold up4; apply mod4). specialize (D (up4 x) ltac:(lia) M).
  set (r := align_to 32 x 4) in *. clearbody r.
  pose proof (N.div_mod r 4 ltac:(discriminate)). unfold up4 in *. lia.
Qed.

(** * The pieces of a clip *)
Section Clip.
Context (s : ssettings) (list_name : list N) (c : scontext).
Let ts := sc_tracks c.
Let nc := num_sample_elements (sc_type c).
Let n := sc_num_samples c.
Let T := N.of_nat (length ts).
Definition total_bits : N := frame_bits nc ts * n.
Definition b_meta : list N := concat (meta_chunks ts).
Definition b_const : list N := concat (const_chunks ts).
Definition b_range : list N := concat (range_chunks nc ts).
Definition at_const : N := up4 (52 + T).
Definition at_range : N := at_const + blen b_const.
Definition at_anim : N := at_range + blen b_range.
Definition anim_size : N := (total_bits + 7) / 8.
Definition at_end : N := at_anim + anim_size.
Definition b_name : list N := if include_track_list_name s then name_chunk list_name else [].
Definition b_names : list N := if include_track_names s then concat (names_chunks (map ct_name ts)) else [].
Definition b_desc : list N := if include_track_descriptions s then concat (desc_chunks (map ct_precision ts)) else [].
Definition meta_size : N := up4 (up4 (blen b_name) + blen b_names) + blen b_desc.
Definition clip_size : N := if meta_size =? 0 then at_end + 15 else up4 (up4 at_end + meta_size) + 20.
Definition the_layout : slayout :=
  {| l_num_bits_per_frame := frame_bits nc ts * (if n =? 0 then 0 else 1); l_constants := at_const; l_ranges := at_range; l_animated := at_anim;
     l_metadata := up4 at_end; l_metadata_size := meta_size; l_size := clip_size |}.

Definition name_bytes : N := sum_n (map (fun t => blen (ct_name t)) ts).
Hypothesis Hnc : (1 <= nc <= 4)%nat.
Hypothesis Hconst : Forall (const_ok nc) ts.
Hypothesis Hrange : Forall (range_ok nc) ts.
Hypothesis Hframes : frames_ok nc 0 (N.to_nat n) ts.
Hypothesis Hfits : total_bits + 8 * (42 * T + name_bytes + blen list_name + 200) < 2 ^ 32.

Lemma meta_len : blen b_meta = T.
Proof. unfold b_meta, T, meta_chunks. clear. induction ts as [|t l IH]; [reflexivity|]. cbn [map concat length]. rewrite blen_app, IH. change (blen [format_of t]) with 1. lia. Qed.
Lemma const_range_len : blen b_const + blen b_range <= 32 * T.
Proof.
  unfold b_const, b_range, T, const_chunks, range_chunks. revert Hconst Hrange Hnc. clear. generalize nc as k, ts as l. intros k l HC.
  induction HC as [|t l C F IH]; intros R K; [vm_compute; discriminate|]. inversion R as [|? ? R1 R2]; subst. specialize (IH R2 K). cbn [map concat length]. rewrite !blen_app.
  unfold const_ok, range_ok in *. unfold const_value in *. unfold is_ranged in *. destruct (ct_constant t); cbn [negb andb] in *.
  - destruct (C eq_refl) as (v & r & E & L). rewrite E. cbn [hd]. rewrite float_bytes_len. change (blen []) with 0. lia.
  - destruct (is_raw_bit_rate (ct_bit_rate t)); cbn [negb] in *; change (blen []) with 0 in *; [lia|]. destruct (R1 eq_refl).
    rewrite blen_app, !float_bytes_len, !firstn_length. lia.
Qed.
Lemma names_len : blen (concat (names_chunks (map ct_name ts))) = 5 * T + name_bytes.
Proof.
  unfold names_chunks, T, name_bytes. rewrite concat_app, blen_app.
  assert (A : forall l o, blen (concat (map word (name_offsets l o))) = 4 * N.of_nat (length l)).
  { clear. induction l as [|x l IH]; intros o; [reflexivity|]. cbn [name_offsets map concat length]. rewrite blen_app, IH, blen_word. lia. }
  rewrite A, map_length. clear. induction ts as [|t l IH]; [reflexivity|]. cbn [map concat length sum_n]. rewrite blen_app, name_chunk_len. lia.
Qed.
Lemma desc_len : blen (concat (desc_chunks (map ct_precision ts))) = 4 * T.
Proof. unfold desc_chunks, T. rewrite map_map. clear. induction ts as [|t l IH]; [reflexivity|]. cbn [map concat length]. rewrite blen_app, IH, float_bytes_len. cbn [length]. lia. Qed.

Lemma bounds : at_const <= 55 + T /\ 52 + T <= at_const /\ at_anim <= 55 + 33 * T /\ 8 * anim_size <= total_bits + 7 /\ total_bits <= 8 * anim_size /\
  blen b_name <= blen list_name + 1 /\ blen b_names <= 5 * T + name_bytes /\ blen b_desc <= 4 * T /\
  meta_size <= blen list_name + name_bytes + 9 * T + 7.
Proof.
  pose proof const_range_len. pose proof (up4_bounds (52 + T)). unfold at_anim, at_range, at_const.
  assert (8 * anim_size <= total_bits + 7 /\ total_bits <= 8 * anim_size).
  { unfold anim_size. pose proof (N.div_mod (total_bits + 7) 8 ltac:(discriminate)). pose proof (N.mod_lt (total_bits + 7) 8 ltac:(discriminate)). lia. }
  assert (A : blen b_name <= blen list_name + 1) by (unfold b_name, name_chunk; destruct (include_track_list_name s); [rewrite blen_app; change (blen [0]) with 1; lia | change (blen []) with 0; lia]).
  assert (B : blen b_names <= 5 * T + name_bytes) by (unfold b_names; destruct (include_track_names s); [rewrite names_len; lia | change (blen []) with 0; lia]).
  assert (C : blen b_desc <= 4 * T) by (unfold b_desc; destruct (include_track_descriptions s); [rewrite desc_len; lia | change (blen []) with 0; lia]).
  pose proof (up4_bounds (blen b_name)). pose proof (up4_bounds (up4 (blen b_name) + blen b_names)). unfold meta_size.
  repeat split; try lia.
Qed.

Lemma size_bound : clip_size < 2 ^ 32 - 64.
Proof.
  pose proof bounds as B. pose proof Hfits as F. change (2 ^ 32) with 4294967296 in *. unfold clip_size, at_end.
  pose proof (up4_bounds (at_anim + anim_size)). pose proof (up4_bounds (up4 (at_anim + anim_size) + meta_size)).
  destruct (meta_size =? 0); lia.
Qed.

Lemma layout_ok : layout s list_name c = Ok the_layout.
Proof.
  pose proof bounds as B. pose proof Hfits as F. change (2 ^ 32) with 4294967296 in *.
  unfold layout. fold ts nc n. unfold size_of.
  rewrite write_metadata_emit, emit_none. cbn [bindo]. fold b_meta. rewrite N.add_0_l, N.sub_0_r, meta_len.
  rewrite (write_constants_emit nc ts) by (assumption || lia). rewrite emit_none, concat_nonempty. cbn [bindo]. fold b_const. rewrite N.add_0_l, N.sub_0_r.
  rewrite (write_ranges_emit nc ts) by (assumption || lia). rewrite emit_none, concat_nonempty. cbn [bindo]. fold b_range. rewrite N.add_0_l, N.sub_0_r.
  unfold write_track_animated_values. rewrite put_frames_spec by exact Hframes. cbn [bindo]. rewrite N2Nat.id, N.add_0_l, N.sub_0_r. fold total_bits.
  pose proof const_range_len as CR.
  assert (W : forall x, x < 4294967296 -> wrapw 32 x = x) by (intros; unfold wrapw; apply N.mod_small; assumption).
  assert (A : forall a b, a + b < 4294967296 -> addw 32 a b = a + b) by (intros; apply addw_fits; auto).
  rewrite !W by lia. rewrite (A total_bits 7) by lia. fold anim_size. unfold sizeof_headers. rewrite (A 52 T) by lia.
  rewrite (align_up4 (52 + T)) by (change (2 ^ 32) with 4294967296; lia). fold at_const.
  assert (RA : at_range <= at_anim) by (unfold at_anim; lia). assert (CA : at_const <= at_range) by (unfold at_range; lia).
  rewrite (A at_const) by (fold at_range; lia). fold at_range. rewrite (A at_range) by (fold at_anim; lia). fold at_anim.
  rewrite (A at_anim) by lia. fold at_end. pose proof (up4_bounds at_end) as U. assert (EE : at_end = at_anim + anim_size) by reflexivity.
  rewrite (align_up4 at_end) by (change (2 ^ 32) with 4294967296; lia).
  assert (WN : when (include_track_list_name s) (bindo (write_track_list_name list_name None 0) (fun '(_, e) => Ok (wrapw 32 (e - 0)))) = Ok (blen b_name)).
  { unfold b_name. destruct (include_track_list_name s); [|reflexivity]. cbn [when]. rewrite write_name_emit, emit_none. cbn [bindo concat]. rewrite app_nil_r, N.add_0_l, N.sub_0_r.
    f_equal. apply W. unfold name_chunk. rewrite blen_app. change (blen [0]) with 1. lia. }
  rewrite WN. cbn [bindo].
  assert (WM : when (include_track_names s) (bindo (write_track_names (map ct_name ts) None 0) (fun '(_, e) => Ok (wrapw 32 (e - 0)))) = Ok (blen b_names)).
  { unfold b_names. destruct (include_track_names s); [|reflexivity]. cbn [when]. rewrite write_names_emit, emit_none. cbn [bindo]. rewrite N.add_0_l, N.sub_0_r.
    f_equal. apply W. rewrite names_len. lia. }
  rewrite WM. cbn [bindo].
  assert (WD : when (include_track_descriptions s) (bindo (write_track_descriptions (map ct_precision ts) None 0) (fun '(_, e) => Ok (wrapw 32 (e - 0)))) = Ok (blen b_desc)).
  { unfold b_desc. destruct (include_track_descriptions s); [|reflexivity]. cbn [when]. rewrite write_desc_emit, emit_none. cbn [bindo]. rewrite N.add_0_l, N.sub_0_r.
    f_equal. apply W. rewrite desc_len. lia. }
  rewrite WD. cbn [bindo].
  pose proof (up4_bounds (blen b_name)) as U1. pose proof (up4_bounds (up4 (blen b_name) + blen b_names)) as U2.
  rewrite (align_up4 (blen b_name)) by (change (2 ^ 32) with 4294967296; lia). rewrite (A (up4 (blen b_name))) by lia.
  rewrite (align_up4 (up4 (blen b_name) + blen b_names)) by (change (2 ^ 32) with 4294967296; lia).
  rewrite (A (up4 (up4 (blen b_name) + blen b_names))) by (fold meta_size; lia). fold meta_size.
  pose proof (up4_bounds (up4 at_end + meta_size)) as U3.
  rewrite (A (up4 at_end)) by lia. rewrite (align_up4 (up4 at_end + meta_size)) by (change (2 ^ 32) with 4294967296; lia).
  unfold sizeof_metadata_header. rewrite (A (up4 (up4 at_end + meta_size))) by lia. rewrite (A at_end 15) by lia.
  unfold the_layout. f_equal. unfold clip_size. f_equal.
  - destruct (N.eqb_spec n 0) as [E|E]; [lia|]. unfold total_bits. rewrite N.div_mul by exact E. lia.
  - destruct (meta_size =? 0); reflexivity.
Qed.

(** * The bytes *)
Definition is_wrap : N := match sc_looping c with lp_wrap => 1 | lp_clamp => 0 end.
Definition misc_bits : N := set_has_metadata (set_is_wrap_optimized 0 is_wrap) (b2n (negb (meta_size =? 0))).
Definition h_samples : N := if T =? 0 then 0 else n.
Definition h_rate : f32 := if T =? 0 then f_zero else sc_sample_rate c.
Definition head_pieces (anim : list N) : list (list N) :=
  [word tag_compressed_tracks; half version_latest; [0]; [sc_type c]; word T; word h_samples; word (f_bits h_rate); word misc_bits;
   word (l_num_bits_per_frame the_layout); word 20; word (at_const - 32); word (at_range - 32); word (at_anim - 32);
   b_meta; zeros (at_const - (52 + T)); b_const; b_range; anim].
Definition o_name : N := up4 at_end.
Definition o_names : N := o_name + up4 (blen b_name).
Definition o_desc : N := o_name + up4 (up4 (blen b_name) + blen b_names).
Definition o_header : N := clip_size - 20.
Definition opt (b : bool) (o : N) : N := if b then o else invalid_ptr.
Definition tail_pieces : list (list N) :=
  if meta_size =? 0 then [zeros 15]
  else [zeros (o_name - at_end); b_name; zeros (o_names - (o_name + blen b_name)); b_names; zeros (o_desc - (o_names + blen b_names)); b_desc;
        zeros (o_header - (o_desc + blen b_desc));
        word (opt (include_track_list_name s) o_name); word (opt (include_track_names s) o_names); word invalid_ptr;
        word (opt (include_track_descriptions s) o_desc); zeros 4].
Definition body (anim : list N) : list (list N) := head_pieces anim ++ tail_pieces.
Definition clip_bytes (anim : list N) : list N := concat (word clip_size :: word (hash32 (concat (body anim))) :: body anim).

Lemma offsets : at_end <= o_name <= at_end + 3 /\ o_name + blen b_name <= o_names /\ o_names + blen b_names <= o_desc /\
  o_desc + blen b_desc = o_name + meta_size /\ (meta_size <> 0 -> o_desc + blen b_desc <= o_header <= o_desc + blen b_desc + 3 /\ clip_size = o_header + 20).
Proof.
  unfold o_header, o_desc, o_names, o_name, clip_size. pose proof (up4_bounds at_end). pose proof (up4_bounds (blen b_name)). pose proof (up4_bounds (up4 (blen b_name) + blen b_names)).
  pose proof (up4_bounds (up4 at_end + meta_size)). assert (M : meta_size = up4 (up4 (blen b_name) + blen b_names) + blen b_desc) by reflexivity.
  destruct (N.eqb_spec meta_size 0); repeat split; lia.
Qed.

Definition tail_sizes : list N :=
  if meta_size =? 0 then [15]
  else [o_name - at_end; blen b_name; o_names - (o_name + blen b_name); blen b_names; o_desc - (o_names + blen b_names); blen b_desc;
        o_header - (o_desc + blen b_desc); 4; 4; 4; 4; 4].
Lemma tail_total : at_end + sum_n tail_sizes = clip_size.
Proof.
  pose proof offsets as (A & B & C & D & E). unfold tail_sizes, clip_size in *. destruct (N.eqb_spec meta_size 0) as [Z|Z]; cbn [sum_n]; [lia|].
  destruct (E Z). lia.
Qed.
Definition zero_tail : list (list N) := map zeros tail_sizes.

Lemma bytes_zeros k : bytes_ok (zeros k).
Proof. unfold bytes_ok, zeros. apply Forall_forall. intros x X. apply repeat_spec in X. subst x. reflexivity. Qed.
Lemma blen_le k v : blen (le_bytes k v) = N.of_nat k.
Proof. unfold blen. rewrite le_bytes_length. reflexivity. Qed.
Lemma bytes_word v : bytes_ok (word v).
Proof. apply le_bytes_ok. Qed.
Lemma bytes_floats v : bytes_ok (float_bytes v).
Proof. unfold float_bytes. induction v as [|x v IH]; [constructor|]. cbn [map concat]. apply bytes_ok_app; [apply le_bytes_ok | exact IH]. Qed.
Lemma bytes_concat l : Forall bytes_ok l -> bytes_ok (concat l).
Proof. induction 1; [constructor|]. cbn [concat]. apply bytes_ok_app; assumption. Qed.
Lemma bytes_const : bytes_ok b_const.
Proof. unfold b_const, const_chunks. apply bytes_concat, Forall_map, Forall_forall. intros t _. destruct (ct_constant t); [apply bytes_floats | constructor]. Qed.
Lemma bytes_range : bytes_ok b_range.
Proof. unfold b_range, range_chunks. apply bytes_concat, Forall_map, Forall_forall. intros t _. destruct (is_ranged t); [apply bytes_ok_app; apply bytes_floats | constructor]. Qed.

Hypothesis Htype : sc_type c < 256.
Hypothesis Hrates : Forall (fun t => ct_constant t = false -> (ct_bit_rate t <= 24)%nat) ts.
Lemma bytes_meta : bytes_ok b_meta.
Proof.
  unfold b_meta, meta_chunks. apply bytes_concat, Forall_map. eapply Forall_impl; [|exact Hrates]. intros t R. cbn beta in *. constructor; [|constructor].
  unfold format_of. destruct (ct_constant t); [reflexivity|]. specialize (R eq_refl). lia.
Qed.

Lemma emit_written chunks ps i p off : nth_error ps i = Some p -> off = sum_n (lens (firstn i ps)) -> length p = length (concat chunks) ->
  written (emit chunks (Some (concat ps)) off) = Ok (concat (upd ps i (concat chunks))).
Proof. intros A B C. unfold written. rewrite (emit_piece chunks ps i p off A B C). reflexivity. Qed.
Lemma zeros_length k l : k = blen l -> length (zeros k) = length l.
Proof. intros ->. unfold zeros. rewrite repeat_length. unfold blen. lia. Qed.

Lemma header_phase zs size : size = at_end + sum_n zs -> size < 2 ^ 32 ->
  exists anim, blen anim = anim_size /\ bytes_ok anim /\ fields_seq anim 0 (all_fields nc 0 (N.to_nat n) ts) /\
  forall (K : list N -> outcome (list N)),
  bindo (write32 (repeat 0 (N.to_nat size)) 8 tag_compressed_tracks) (fun m =>
  bindo (store_bytes m 12 (le_bytes 2 version_latest)) (fun m =>
  bindo (store_bytes m 14 [0]) (fun m =>
  bindo (store_bytes m 15 [sc_type c]) (fun m =>
  bindo (write32 m 16 T) (fun m =>
  bindo (write32 m 20 h_samples) (fun m =>
  bindo (write32 m 24 (f_bits h_rate)) (fun m =>
  bindo (read32 m 28) (fun misc =>
  bindo (write32 m 28 (set_has_metadata (set_is_wrap_optimized misc is_wrap) (b2n (negb (meta_size =? 0))))) (fun m =>
  bindo (write32 m 32 (l_num_bits_per_frame the_layout)) (fun m =>
  bindo (write32 m 36 (sizeof_headers - scalar_header)) (fun m =>
  bindo (write32 m 40 (at_const - scalar_header)) (fun m =>
  bindo (write32 m 44 (at_range - scalar_header)) (fun m =>
  bindo (write32 m 48 (at_anim - scalar_header)) (fun m =>
  bindo (written (write_track_metadata ts (Some m) sizeof_headers)) (fun m =>
  bindo (written (write_track_constant_values ts (Some m) at_const)) (fun m =>
  bindo (written (write_track_range_values nc ts (Some m) at_range)) (fun m =>
  bindo (written (write_track_animated_values nc n ts (Some m) at_anim)) K)))))))))))))))))
  = K (concat (zeros 4 :: zeros 4 :: head_pieces anim ++ map zeros zs)).
Proof.
  intros S SB. pose proof bounds as B. change (2 ^ 32) with 4294967296 in *.
  assert (E0 : repeat 0 (N.to_nat size) = concat (map zeros ([4; 4; 4; 2; 1; 1; 4; 4; 4; 4; 4; 4; 4; 4; 4; T; at_const - (52 + T); blen b_const; blen b_range; anim_size] ++ zs))).
  { rewrite S. unfold zeros. rewrite <- (repeat_pieces ([4; 4; 4; 2; 1; 1; 4; 4; 4; 4; 4; 4; 4; 4; 4; T; at_const - (52 + T); blen b_const; blen b_range; anim_size] ++ zs)).
    rewrite sum_n_app. cbn [sum_n]. do 2 f_equal. unfold at_end, at_anim, at_range in *. lia. }
  rewrite E0. rewrite map_app. set (tl := map zeros zs). cbn [map app].
  set (pre := [zeros 4; zeros 4; word tag_compressed_tracks; half version_latest; [0]; [sc_type c]; word T; word h_samples; word (f_bits h_rate); word misc_bits;
   word (l_num_bits_per_frame the_layout); word 20; word (at_const - 32); word (at_range - 32); word (at_anim - 32);
   b_meta; zeros (at_const - (52 + T)); b_const; b_range]).
  assert (BP : bytes_ok (concat pre ++ zeros anim_size ++ concat tl)).
  { apply bytes_ok_app; [|apply bytes_ok_app].
    - apply bytes_concat. subst pre. repeat match goal with |- Forall bytes_ok (_ :: _) => apply Forall_cons end; try apply bytes_zeros; try apply bytes_word; try (apply le_bytes_ok); try exact (Forall_nil _).
      + constructor; [reflexivity|constructor].
      + constructor; [exact Htype|constructor].
      + apply bytes_meta.
      + apply bytes_const.
      + apply bytes_range.
    - apply bytes_zeros.
    - apply bytes_concat. subst tl. apply Forall_map, Forall_forall. intros x _. apply bytes_zeros. }
  destruct (all_fields_bits nc ts (N.to_nat n) 0 Hframes) as [TB FO]. rewrite N2Nat.id in TB. fold total_bits in TB.
  destruct (emit_fields_spec (concat pre) (concat tl) (all_fields nc 0 (N.to_nat n) ts) (zeros anim_size) 0 BP FO) as (anim & EA & (LA & BA & _) & FA).
  { rewrite TB, blen_zeros. lia. }
  assert (LB : blen anim = anim_size) by (unfold blen; rewrite LA; apply blen_zeros).
  exists anim. split; [exact LB|]. split; [exact (BA)|]. split; [exact FA|].
  assert (PL : blen (concat pre) = at_anim).
  { rewrite blen_concat. subst pre. cbn [lens map sum_n]. rewrite !blen_zeros, !blen_word, meta_len, blen_half. change (blen [0]) with 1. change (blen [sc_type c]) with 1.
    unfold at_anim, at_range in *. lia. }
  intros K.
  wr32 2%nat.
  match goal with |- context [store_bytes (concat ?ps) ?o ?v] => rewrite (store_piece ps 3 _ o v eq_refl eq_refl eq_refl) end; cbn [bindo upd].
  match goal with |- context [store_bytes (concat ?ps) ?o ?v] => rewrite (store_piece ps 4 _ o v eq_refl eq_refl eq_refl) end; cbn [bindo upd].
  match goal with |- context [store_bytes (concat ?ps) ?o ?v] => rewrite (store_piece ps 5 _ o v eq_refl eq_refl eq_refl) end; cbn [bindo upd].
  wr32 6%nat. wr32 7%nat. wr32 8%nat.
  match goal with |- context [read32 (concat ?ps) 28] => rewrite (read32_piece ps 9 0 28 eq_refl eq_refl eq_refl) end; cbn [bindo]. fold misc_bits.
  wr32 9%nat. wr32 10%nat. wr32 11%nat. wr32 12%nat. wr32 13%nat. wr32 14%nat.
  rewrite write_metadata_emit.
  match goal with |- context [written (emit ?l (Some (concat ?ps)) ?o)] => rewrite (emit_written l ps 15 _ o eq_refl eq_refl) end;
    [|fold b_meta; apply zeros_length; rewrite meta_len; reflexivity].
  cbn [bindo upd]. fold b_meta.
  rewrite (write_constants_emit nc ts) by (assumption || lia).
  match goal with |- context [written (emit ?l (Some (concat ?ps)) ?o)] => rewrite (emit_written l ps 17 _ o eq_refl) end;
    [| |rewrite concat_nonempty; fold b_const; apply zeros_length; reflexivity].
  2:{ cbn [firstn lens map sum_n]. rewrite !blen_zeros, !blen_le, meta_len. change (blen [0]) with 1. change (blen [sc_type c]) with 1. lia. }
  cbn [bindo upd]. rewrite concat_nonempty. fold b_const.
  rewrite (write_ranges_emit nc ts) by (assumption || lia).
  match goal with |- context [written (emit ?l (Some (concat ?ps)) ?o)] => rewrite (emit_written l ps 18 _ o eq_refl) end;
    [| |rewrite concat_nonempty; fold b_range; apply zeros_length; reflexivity].
  2:{ cbn [firstn lens map sum_n]. rewrite !blen_zeros, !blen_le, meta_len. change (blen [0]) with 1. change (blen [sc_type c]) with 1. unfold at_range. lia. }
  cbn [bindo upd]. rewrite concat_nonempty. fold b_range.
  match goal with |- context [write_track_animated_values nc n ts (Some ?m) at_anim] => replace m with (concat pre ++ zeros anim_size ++ concat tl) end.
  2:{ change (concat pre ++ zeros anim_size ++ concat tl) with (concat pre ++ concat (zeros anim_size :: tl)). rewrite <- concat_app. reflexivity. }
  unfold write_track_animated_values. rewrite put_frames_spec by exact Hframes. rewrite N.add_0_r, <- PL. rewrite N.add_0_r in EA. rewrite EA. cbn [bindo written].
  f_equal. change (concat pre ++ anim ++ concat tl) with (concat pre ++ concat (anim :: tl)). rewrite <- concat_app. reflexivity.
Qed.

Lemma tail_phase front : blen front = at_end ->
  write_optional_metadata s list_name ts the_layout (concat (front :: map zeros tail_sizes)) = Ok (concat (front :: tail_pieces)).
Proof.
  intros LF. unfold write_optional_metadata, tail_sizes, tail_pieces. cbn [the_layout l_metadata_size l_size l_metadata].
  destruct (N.eqb_spec meta_size 0) as [Z|Z]; [reflexivity|]. pose proof offsets as (A & B & C & D & E). specialize (E Z). destruct E as [E SZ].
  pose proof size_bound as SB. change (2 ^ 32 - 64) with 4294967232 in SB.
  rewrite subw_ge by (unfold sizeof_metadata_header; change (2 ^ 64) with 18446744073709551616; lia). unfold sizeof_metadata_header. fold o_header. fold o_name.
  set (d0 := o_name - at_end) in *. set (d1 := o_names - (o_name + blen b_name)) in *. set (d2 := o_desc - (o_names + blen b_names)) in *. set (d3 := o_header - (o_desc + blen b_desc)) in *.
  assert (E0 : o_name = at_end + d0) by lia. assert (E1 : o_names = at_end + d0 + blen b_name + d1) by lia.
  assert (E2 : o_desc = at_end + d0 + blen b_name + d1 + blen b_names + d2) by lia.
  assert (E3 : o_header = at_end + d0 + blen b_name + d1 + blen b_names + d2 + blen b_desc + d3) by lia.
  clearbody d0 d1 d2 d3. cbn [map].
  Ltac off LF := cbn [firstn lens map sum_n]; rewrite !blen_zeros, ?blen_le, ?blen_word, LF; lia.
  Ltac wr LF i := match goal with |- context [write32 (concat ?ps) ?o ?v] => rewrite (write32_piece ps i _ o v eq_refl); [|off LF|reflexivity] end; cbn [bindo upd].
  match goal with |- bindo ?X ?K = _ =>
    assert (S1 : X = Ok (concat [front; zeros d0; b_name; zeros d1; zeros (blen b_names); zeros d2; zeros (blen b_desc); zeros d3;
       word (opt (include_track_list_name s) o_name); zeros 4; zeros 4; zeros 4; zeros 4], o_name + blen b_name)) end.
  { unfold opt. destruct (include_track_list_name s) eqn:IN.
    - wr LF 8%nat. rewrite write_name_emit. assert (LL : name_chunk list_name = b_name) by (unfold b_name; rewrite IN; reflexivity). rewrite LL.
      match goal with |- context [emit ?l (Some (concat ?ps)) ?o] => rewrite (emit_piece l ps 2 _ o eq_refl) end; [| |cbn [concat]; rewrite app_nil_r; apply zeros_length; reflexivity].
      2:{ off LF. }
      cbn [bindo upd]. replace (concat [b_name]) with b_name by (cbn [concat]; rewrite app_nil_r; reflexivity). do 2 f_equal. unfold wrapw. rewrite N.add_sub_swap, N.sub_diag by reflexivity. cbn [N.add].
      rewrite N.mod_small by (change (2 ^ 32) with 4294967296; lia).
      rewrite addw_fits; [reflexivity| auto | change (2 ^ 32) with 4294967296; lia].
    - wr LF 8%nat. assert (LL : b_name = []) by (unfold b_name; rewrite IN; reflexivity). rewrite LL. change (blen []) with 0. rewrite N.add_0_r. reflexivity. }
  rewrite S1. clear S1. cbn [bindo].
  assert (ON : align_to 32 (o_name + blen b_name) 4 = o_names).
  { rewrite align_up4 by (change (2 ^ 32) with 4294967296; lia). unfold o_names, o_name. apply up4_add. }
  match goal with |- bindo ?X ?K = _ =>
    assert (S1 : exists o, (include_track_descriptions s = true -> align_to 32 o 4 = o_desc) /\ X = Ok (concat [front; zeros d0; b_name; zeros d1; b_names; zeros d2; zeros (blen b_desc); zeros d3;
       word (opt (include_track_list_name s) o_name); word (opt (include_track_names s) o_names); zeros 4; zeros 4; zeros 4], o)) end.
  { destruct (include_track_names s) eqn:IN; cbn [opt].
    - rewrite ON. exists (o_names + blen b_names). split.
      { intros _. rewrite align_up4 by (change (2 ^ 32) with 4294967296; lia). unfold o_names, o_desc, o_name. rewrite <- N.add_assoc. apply up4_add. }
      wr LF 9%nat. rewrite write_names_emit.
      assert (LL : concat (names_chunks (map ct_name ts)) = b_names) by (unfold b_names; rewrite IN; reflexivity).
      match goal with |- context [emit ?l (Some (concat ?ps)) ?o] => rewrite (emit_piece l ps 4 _ o eq_refl) end; [| |rewrite LL; apply zeros_length; reflexivity].
      2:{ off LF. }
      cbn [bindo upd]. rewrite LL. do 2 f_equal. unfold wrapw. rewrite N.add_sub_swap, N.sub_diag by reflexivity. cbn [N.add].
      rewrite N.mod_small by (change (2 ^ 32) with 4294967296; lia). apply addw_fits; [auto | change (2 ^ 32) with 4294967296; lia].
    - exists (o_name + blen b_name). assert (LL : b_names = []) by (unfold b_names; rewrite IN; reflexivity). split.
      { intros _. rewrite ON. unfold o_desc, o_names. rewrite LL. change (blen []) with 0. rewrite N.add_0_r. f_equal. unfold up4 at 1 3. symmetry. apply up4_id. }
      wr LF 9%nat. rewrite LL. reflexivity. }
  destruct S1 as (o & AO & S1). rewrite S1. clear S1. cbn [bindo].
  wr LF 10%nat. unfold opt. destruct (include_track_descriptions s) eqn:IN.
  - rewrite (AO eq_refl). wr LF 11%nat. rewrite write_desc_emit.
    assert (LL : concat (desc_chunks (map ct_precision ts)) = b_desc) by (unfold b_desc; rewrite IN; reflexivity).
    match goal with |- context [emit ?l (Some (concat ?ps)) ?o] => rewrite (emit_written l ps 6 _ o eq_refl) end; [| |rewrite LL; apply zeros_length; reflexivity].
    2:{ off LF. }
    rewrite LL. reflexivity.
  - match goal with |- context [write32 (concat ?ps) ?o ?v] => rewrite (write32_piece ps 11 _ o v eq_refl); [|off LF|reflexivity] end. cbn [upd].
    assert (LL : b_desc = []) by (unfold b_desc; rewrite IN; reflexivity). rewrite LL. reflexivity.
Qed.

Lemma head_len anim : blen anim = anim_size -> sum_n (lens (head_pieces anim)) = at_end - 8.
Proof.
  intros LA. pose proof bounds as B. unfold head_pieces. cbn [lens map sum_n]. rewrite !blen_zeros, !blen_word, meta_len, blen_half, LA. change (blen [0]) with 1. change (blen [sc_type c]) with 1.
  unfold at_end, at_anim, at_range in *. lia.
Qed.

Theorem write_buffer_ok : exists anim, blen anim = anim_size /\ bytes_ok anim /\ fields_seq anim 0 (all_fields nc 0 (N.to_nat n) ts) /\
  write_buffer s list_name c the_layout = Ok (clip_bytes anim).
Proof.
  pose proof size_bound as SB. pose proof bounds as BB. destruct (header_phase tail_sizes clip_size) as (anim & LA & BA & FA & H).
  { symmetry. apply tail_total. }
  { change (2 ^ 32 - 64) with 4294967232 in SB. change (2 ^ 32) with 4294967296. lia. }
  exists anim. split; [exact LA|]. split; [exact BA|]. split; [exact FA|].
  unfold write_buffer. cbv zeta. cbn [the_layout l_size l_num_bits_per_frame l_constants l_ranges l_animated l_metadata_size]. fold ts nc n T. fold h_samples h_rate is_wrap.
  specialize (H (fun m => bindo (write_optional_metadata s list_name ts the_layout m) (fun m =>
    bindo (write32 m 0 clip_size) (fun m => bindo (load_bytes m 8 (N.to_nat (subw 64 clip_size 8))) (fun content => write32 m 4 (hash32 content)))))).
  etransitivity; [exact H|]. clear H. cbn beta.
  assert (HL := head_len anim LA).
  replace (concat (zeros 4 :: zeros 4 :: head_pieces anim ++ map zeros tail_sizes)) with (concat (concat (zeros 4 :: zeros 4 :: head_pieces anim) :: map zeros tail_sizes)).
  2:{ cbn [concat]. rewrite concat_app, <- !app_assoc. reflexivity. }
  rewrite tail_phase. 2:{ rewrite blen_concat. cbn [lens map sum_n]. rewrite !blen_zeros. fold (lens (head_pieces anim)). rewrite HL. unfold at_end, at_anim, at_range in *. lia. }
  cbn [bindo].
  replace (concat (concat (zeros 4 :: zeros 4 :: head_pieces anim) :: tail_pieces)) with (concat [zeros 4; zeros 4; concat (body anim)]).
  2:{ unfold body. cbn [concat]. rewrite concat_app, app_nil_r, <- !app_assoc. reflexivity. }
  wr32 0%nat.
  match goal with |- context [load_bytes (concat ?ps) ?o ?k] => rewrite (load_piece ps 2 (concat (body anim)) o k eq_refl eq_refl) end.
  2:{ rewrite subw_ge by (change (2 ^ 32 - 64) with 4294967232 in SB; change (2 ^ 64) with 18446744073709551616; pose proof tail_total; unfold at_end, at_anim, at_range in *; lia).
      assert (X : blen (concat (body anim)) = clip_size - 8); [|unfold blen in X; lia].
      rewrite blen_concat. unfold body. unfold lens. rewrite map_app, sum_n_app. fold (lens (head_pieces anim)). rewrite HL.
      assert (TL : sum_n (map blen tail_pieces) = sum_n tail_sizes).
      { unfold tail_pieces, tail_sizes. destruct (meta_size =? 0); cbn [map sum_n]; rewrite ?blen_zeros, ?blen_word; reflexivity. }
      rewrite TL, <- tail_total. unfold at_end, at_anim, at_range in *. lia. }
  cbn [bindo].
  wr32 1%nat. unfold clip_bytes. cbn [concat]. rewrite app_nil_r. reflexivity.
Qed.
End Clip.
