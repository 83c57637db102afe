(** What the metadata getters read in a clip made by compression. *)
From Verif Require Import Word WordFacts Float32 Float32Facts Interp TrackArray TrackSpec TrackArrayFacts Headers Hash Pieces LayoutSpec LayoutFacts LayoutOps LayoutBuild DbBuild
  ScalarEnc ScalarDec ScalarSpec ScalarBits ScalarWrite ScalarRead ScalarLanes ScalarTrackFacts ScalarLink ScalarMeta.
From Coq Require Import Lia ZifyBool ZifyN ZifyNat.
Ltac Zify.zify_post_hook ::= idtac.
Import ListNotations.
Local Open Scope N_scope.

Lemma read_chars_c_str name : forall rest, read_chars (name ++ 0 :: rest) = Ok (c_str name).
Proof.
  induction name as [|x r IH]; intros rest; cbn [app read_chars c_str]; [reflexivity|]. destruct (x =? 0); [reflexivity|]. rewrite IH. reflexivity.
Qed.
Lemma read_at a name rest o : blen a = o -> read_string (a ++ name_chunk name ++ rest) (p_buffer o) = Ok (c_str name).
Proof.
  intros <-. unfold read_string. rewrite blen_nat, skipn_app, skipn_all, Nat.sub_diag. cbn [skipn app]. unfold name_chunk. rewrite <- app_assoc. apply read_chars_c_str.
Qed.
Fixpoint before (names : list (list N)) (j : nat) : N := match names, j with n :: r, S j => blen n + 1 + before r j | _, _ => 0 end.
Lemma before_le : forall names j, before names j <= sum_n (map (fun n => blen n + 1) names).
Proof. induction names as [|n r IH]; intros [|j]; cbn [before map sum_n]; try lia. specialize (IH j). lia. Qed.
Lemma name_offsets_nth : forall names o j n, nth_error names j = Some n -> o + sum_n (map (fun n => blen n + 1) names) < 2 ^ 32 ->
  nth_error (name_offsets names o) j = Some (o + before names j).
Proof.
  induction names as [|x r IH]; intros o [|j] n H F; try discriminate H; cbn [name_offsets nth_error before map sum_n] in *; [f_equal; lia|].
  rewrite (addw_fits 32 o) by (auto; lia). rewrite (IH _ _ _ H) by lia. f_equal. lia.
Qed.
Lemma name_chunks_before : forall names j, (j <= length names)%nat -> blen (concat (firstn j (map name_chunk names))) = before names j.
Proof.
  induction names as [|x r IH]; intros [|j] H; cbn [firstn map concat before] in *; try reflexivity; try (cbn in H; lia).
  rewrite blen_app, name_chunk_len, IH by (cbn [length] in H; lia). lia.
Qed.
Lemma words_before : forall l j, (j <= length l)%nat -> blen (concat (firstn j (map word l))) = 4 * N.of_nat j.
Proof.
  induction l as [|x r IH]; intros [|j] H; cbn [firstn map concat] in *; try reflexivity; try (cbn in H; lia).
  rewrite blen_app, blen_word, IH by (cbn [length] in H; lia). lia.
Qed.
Lemma name_offsets_length : forall names o, length (name_offsets names o) = length names.
Proof. induction names as [|n r IH]; intros o; cbn [name_offsets length]; [reflexivity|]. rewrite IH. reflexivity. Qed.

(** the names, wherever their section lies *)
Lemma names_read a names rest j name : nth_error names j = Some name -> blen a + 4 * N.of_nat (length names) + sum_n (map (fun n => blen n + 1) names) < 2 ^ 32 ->
  exists o, read32 (a ++ concat (names_chunks names) ++ rest) (blen a + 4 * N.of_nat j) = Ok o /\
    read_string (a ++ concat (names_chunks names) ++ rest) (p_buffer (blen a + o)) = Ok (c_str name).
Proof.
  intros H F. assert (J : (j < length names)%nat) by (apply nth_error_Some; congruence). set (T := N.of_nat (length names)) in *.
  assert (M4 : mulw 32 4 T = 4 * T) by (apply mulw_fits; auto; lia).
  assert (NO : nth_error (name_offsets names (mulw 32 4 T)) j = Some (4 * T + before names j)) by (rewrite M4; apply (name_offsets_nth _ _ _ _ H); lia).
  pose proof (before_le names j) as BL.
  exists (4 * T + before names j). split.
  - assert (E : a ++ concat (names_chunks names) ++ rest = concat (a :: names_chunks names ++ [rest])) by (cbn [concat]; rewrite concat_app; cbn [concat]; rewrite app_nil_r; reflexivity).
    rewrite E. apply (read32_piece _ (Datatypes.S j)); [| |lia].
    + cbn [nth_error]. rewrite nth_error_app1 by (unfold names_chunks; rewrite app_length, !map_length, name_offsets_length; lia).
      unfold names_chunks. rewrite nth_error_app1 by (rewrite map_length, name_offsets_length; lia). apply map_nth_error. exact NO.
    + cbn [firstn]. rewrite <- blen_concat. cbn [concat]. rewrite blen_app. f_equal. rewrite firstn_app.
      assert (L : length (names_chunks names) = (length names + length names)%nat) by (unfold names_chunks; rewrite app_length, !map_length, name_offsets_length; reflexivity).
      rewrite L. replace (j - (length names + length names))%nat with 0%nat by lia. cbn [firstn]. rewrite app_nil_r. unfold names_chunks. rewrite firstn_app, map_length, name_offsets_length.
      replace (j - length names)%nat with 0%nat by lia. cbn [firstn]. rewrite app_nil_r. symmetry. apply words_before. rewrite name_offsets_length. lia.
  - unfold names_chunks. rewrite concat_app. rewrite (split_at (map name_chunk names) j (name_chunk name)) by (apply map_nth_error; exact H).
    rewrite <- !app_assoc. rewrite !app_assoc. rewrite <- (app_assoc _ (name_chunk name)). rewrite <- (app_assoc _ (name_chunk name ++ _)). rewrite <- (app_assoc (name_chunk name)).
    apply read_at. rewrite !blen_app, name_chunks_before by lia.
    pose proof (words_before (name_offsets names (mulw 32 4 T)) (length names) ltac:(rewrite name_offsets_length; lia)) as WB.
    rewrite firstn_all2 in WB by (rewrite map_length, name_offsets_length; lia). fold T in WB. fold T. lia.
Qed.
(** 32 bit words, wherever their section lies *)
Lemma words_read a l rest j v : nth_error l j = Some v -> v < 2 ^ 32 -> read32 (a ++ concat (map word l) ++ rest) (blen a + 4 * N.of_nat j) = Ok v.
Proof.
  intros H F. assert (J : (j < length l)%nat) by (apply nth_error_Some; congruence).
  assert (E : a ++ concat (map word l) ++ rest = concat (a :: map word l ++ [rest])) by (cbn [concat]; rewrite concat_app; cbn [concat]; rewrite app_nil_r; reflexivity).
  rewrite E. apply (read32_piece _ (Datatypes.S j)); [| |exact F].
  - cbn [nth_error]. rewrite nth_error_app1 by (rewrite map_length; lia). apply map_nth_error. exact H.
  - cbn [firstn]. rewrite <- blen_concat. cbn [concat]. rewrite blen_app. f_equal. rewrite firstn_app, map_length. replace (j - length l)%nat with 0%nat by lia.
    cbn [firstn]. rewrite app_nil_r. symmetry. apply words_before. lia.
Qed.
Lemma desc_words ps : desc_chunks ps = map word (map f_bits ps).
Proof. unfold desc_chunks. rewrite map_map. apply map_ext. intros p. unfold float_bytes. cbn [map concat]. rewrite app_nil_r. reflexivity. Qed.

Section Meta.
Context (s : ssettings) (list_name : list N) (c : scontext) (anim : list N).
Hypothesis S : sound list_name c.
Let ts := sc_tracks c.
Let T := N.of_nat (length ts).
Hypothesis LA : blen anim = anim_size c.
Let m := clip_bytes s list_name c anim.
Let H_nc := so_nc _ _ S.
Let H_const := so_const _ _ S.
Let H_range := so_range _ _ S.
Let H_fits := so_fits _ _ S.
Let H_bounds := bounds s list_name c H_nc H_const H_range H_fits.
Let H_size := size_bound s list_name c H_nc H_const H_range H_fits.
Let H_off := offsets s list_name c H_nc H_fits.

Definition m_start : list N := concat (firstn 20 (m_all s list_name c anim)).
Lemma m_start_len : blen m_start = at_end c.
Proof.
  unfold m_start, m_all, body, head_pieces. cbn [app firstn]. rewrite blen_concat. cbn [lens map sum_n]. rewrite !blen_word, !blen_zeros, LA.
  change (blen (half version_latest)) with 2. change (blen [0]) with 1. change (blen [sc_type c]) with 1. rewrite meta_len. unfold at_end, at_anim, at_range.
  assert (52 + T <= at_const c) by apply H_bounds. fold ts T. lia.
Qed.
Lemma m_parts : m = m_start ++ concat (tail_pieces s list_name c).
Proof.
  change m with (concat (m_all s list_name c anim)). unfold m_start. rewrite <- concat_app. f_equal.
Qed.
Lemma size_read : h_size m = Ok (clip_size s list_name c).
Proof.
  unfold h_size. change m with (concat (m_all s list_name c anim)). apply (read32_piece _ 0%nat); [reflexivity|reflexivity|].
  change (2 ^ 32) with 4294967296 in *. lia.
Qed.
Lemma has_metadata_read : has_metadata m = Ok (negb (meta_size s list_name c =? 0)).
Proof.
  unfold has_metadata, h_misc. change m with (concat (m_all s list_name c anim)).
  assert (E : misc_bits s list_name c < 2 ^ 32 /\ negb (get_has_metadata (misc_bits s list_name c) =? 0) = negb (meta_size s list_name c =? 0)).
  { unfold misc_bits, is_wrap. destruct (sc_looping c), (meta_size s list_name c =? 0); split; reflexivity. }
  destruct E as [E1 E2]. rewrite (read32_piece (m_all s list_name c anim) 9 (misc_bits s list_name c) 28 eq_refl eq_refl E1). cbn [bindo]. rewrite E2. reflexivity.
Qed.
Lemma num_tracks_read : h_num_tracks m = Ok T.
Proof.
  unfold h_num_tracks. change m with (concat (m_all s list_name c anim)). apply (read32_piece _ 6%nat); [reflexivity|reflexivity|].
  pose proof H_fits as F. fold ts T in F. change (2 ^ 32) with 4294967296 in *. lia.
Qed.
Hypothesis HM : meta_size s list_name c <> 0.
Lemma header_read : metadata_header m = Ok (o_header s list_name c).
Proof.
  unfold metadata_header. rewrite size_read. cbn [bindo]. f_equal. pose proof H_off as (_ & _ & _ & _ & OH). destruct (OH HM) as [O1 O2].
  rewrite O2. rewrite subw_ge by (change (2 ^ 64) with 18446744073709551616; change (2 ^ 32) with 4294967296 in *; lia). lia.
Qed.
Lemma tail_eq : tail_pieces s list_name c =
  [zeros (o_name c - at_end c); b_name s list_name; zeros (o_names s list_name c - (o_name c + blen (b_name s list_name))); b_names s c; zeros (o_desc s list_name c - (o_names s list_name c + blen (b_names s c))); b_desc s c;
        zeros (o_header s list_name c - (o_desc s list_name c + blen (b_desc s c)));
        word (opt (include_track_list_name s) (o_name c)); word (opt (include_track_names s) (o_names s list_name c)); word invalid_ptr;
        word (opt (include_track_descriptions s) (o_desc s list_name c)); zeros 4].
Proof. unfold tail_pieces. replace (meta_size s list_name c =? 0) with false by lia. reflexivity. Qed.

(** where the pieces of the tail lie *)
Ltac tail i := rewrite m_parts, tail_eq; let L := fresh in
  match goal with |- context [m_start ++ concat ?l] => change (m_start ++ concat l) with (concat (m_start :: l)) end;
  apply (read32_piece _ i); [reflexivity| |]; [cbn [firstn lens map sum_n]; rewrite ?m_start_len, ?blen_word, ?blen_zeros; pose proof H_off as (? & ? & ? & ? & OH); destruct (OH HM); lia|].
Lemma off_small : o_name c < 2 ^ 32 - 64 /\ o_names s list_name c < 2 ^ 32 - 64 /\ o_desc s list_name c < 2 ^ 32 - 64.
Proof. pose proof H_off as (? & ? & ? & ? & OH). destruct (OH HM). change (2 ^ 32) with 4294967296 in *. lia. Qed.
Lemma opt_small b o : o < 2 ^ 32 - 64 -> opt b o < 2 ^ 32.
Proof. unfold opt, invalid_ptr. change (2 ^ 32) with 4294967296. destruct b; lia. Qed.
Lemma opt_valid b o : o < 2 ^ 32 - 64 -> ptr_is_valid (opt b o) = b.
Proof. unfold ptr_is_valid, opt, invalid_ptr. change (2 ^ 32) with 4294967296. destruct b; lia. Qed.
Lemma hdr0 : read32 m (o_header s list_name c) = Ok (opt (include_track_list_name s) (o_name c)).
Proof. tail 8%nat. apply opt_small, off_small. Qed.
Lemma hdr1 : read32 m (o_header s list_name c + 4) = Ok (opt (include_track_names s) (o_names s list_name c)).
Proof. tail 9%nat. apply opt_small, off_small. Qed.
Lemma hdr2 : read32 m (o_header s list_name c + 8) = Ok invalid_ptr.
Proof. tail 10%nat. reflexivity. Qed.
Lemma hdr3 : read32 m (o_header s list_name c + 12) = Ok (opt (include_track_descriptions s) (o_desc s list_name c)).
Proof. tail 11%nat. apply opt_small, off_small. Qed.

Lemma name_split : exists a rest, m = a ++ b_name s list_name ++ rest /\ blen a = o_name c.
Proof.
  exists (m_start ++ zeros (o_name c - at_end c)). eexists. rewrite m_parts, tail_eq. cbn [concat]. split; [rewrite <- !app_assoc; reflexivity|].
  rewrite blen_app, m_start_len, blen_zeros. pose proof H_off as (? & ? & ? & ? & OH). lia.
Qed.
Lemma names_split : exists a rest, m = a ++ b_names s c ++ rest /\ blen a = o_names s list_name c.
Proof.
  exists (m_start ++ zeros (o_name c - at_end c) ++ b_name s list_name ++ zeros (o_names s list_name c - (o_name c + blen (b_name s list_name)))). eexists.
  rewrite m_parts, tail_eq. cbn [concat]. split; [rewrite <- !app_assoc; reflexivity|].
  rewrite !blen_app, m_start_len, !blen_zeros. pose proof H_off as (? & ? & ? & ? & OH). lia.
Qed.
Lemma desc_split : exists a rest, m = a ++ b_desc s c ++ rest /\ blen a = o_desc s list_name c.
Proof.
  exists (m_start ++ zeros (o_name c - at_end c) ++ b_name s list_name ++ zeros (o_names s list_name c - (o_name c + blen (b_name s list_name))) ++ b_names s c
    ++ zeros (o_desc s list_name c - (o_names s list_name c + blen (b_names s c)))). eexists.
  rewrite m_parts, tail_eq. cbn [concat]. split; [rewrite <- !app_assoc; reflexivity|].
  rewrite !blen_app, m_start_len, !blen_zeros. pose proof H_off as (? & ? & ? & ? & OH). lia.
Qed.
Lemma with_metadata : has_metadata m = Ok true.
Proof. rewrite has_metadata_read. replace (meta_size s list_name c =? 0) with false by lia. reflexivity. Qed.

Lemma list_name_got : bindo (get_name m) (read_string m) =
  if include_track_names s then (if include_track_list_name s then Ok (c_str list_name) else UB) else Ok [].
Proof.
  unfold get_name. rewrite with_metadata. cbn [bindo negb]. rewrite header_read. cbn [bindo]. rewrite hdr1. cbn [bindo]. rewrite opt_valid by apply off_small.
  destruct (include_track_names s); cbn [negb]; [|reflexivity]. rewrite hdr0. cbn [bindo]. unfold safe_add_to. rewrite opt_valid by apply off_small.
  destruct (include_track_list_name s) eqn:L; [|reflexivity]. cbn [opt]. destruct name_split as (a & rest & E & LE). unfold b_name in E. rewrite L in E. rewrite E. apply read_at. exact LE.
Qed.
Lemma track_name_got j t : nth_error ts j = Some t -> bindo (get_track_name m (N.of_nat j)) (read_string m) = Ok (if include_track_names s then c_str (ct_name t) else []).
Proof.
  intros NT. assert (J : (j < length ts)%nat) by (apply nth_error_Some; congruence).
  unfold get_track_name. rewrite with_metadata. cbn [bindo negb]. rewrite num_tracks_read. cbn [bindo]. replace (T <=? N.of_nat j) with false by (unfold T; lia).
  rewrite header_read. cbn [bindo]. rewrite hdr1. cbn [bindo]. rewrite opt_valid by apply off_small. destruct (include_track_names s) eqn:L; cbn [negb]; [|reflexivity].
  cbn [opt]. destruct names_split as (a & rest & E & LE). unfold b_names in E. rewrite L in E. fold ts in E. rewrite <- LE, E.
  destruct (names_read a (map ct_name ts) rest j (ct_name t)) as (o & R1 & R2).
  - apply map_nth_error. exact NT.
  - rewrite map_length, LE. pose proof H_off as (? & ? & ? & ? & OH). destruct (OH HM) as [O1 O2].
    assert (BL : blen (b_names s c) = 5 * N.of_nat (length ts) + name_bytes c) by (unfold b_names; rewrite L; apply names_len).
    assert (SB : sum_n (map (fun n => blen n + 1) (map ct_name ts)) <= N.of_nat (length ts) + name_bytes c).
    { unfold name_bytes. fold ts. clear. induction ts as [|x l IH]; [reflexivity|]. cbn [map sum_n length]. lia. }
    change (2 ^ 32) with 4294967296 in *. lia.
  - rewrite R1. cbn [bindo]. exact R2.
Qed.
Lemma parent_got j : get_parent_track_index m j = Ok k_invalid_track_index.
Proof.
  unfold get_parent_track_index. rewrite with_metadata. cbn [bindo negb]. rewrite num_tracks_read. cbn [bindo]. destruct (T <=? j); [reflexivity|].
  rewrite header_read. cbn [bindo]. rewrite hdr2. reflexivity.
Qed.
Lemma description_got j t : nth_error ts j = Some t -> get_scalar_description m (N.of_nat j) = Ok (if include_track_descriptions s then Some (ct_precision t) else None).
Proof.
  intros NT. assert (J : (j < length ts)%nat) by (apply nth_error_Some; congruence).
  unfold get_scalar_description. rewrite with_metadata. cbn [bindo negb]. rewrite num_tracks_read. cbn [bindo]. replace (T <=? N.of_nat j) with false by (unfold T; lia).
  rewrite header_read. cbn [bindo]. rewrite hdr3. cbn [bindo]. rewrite opt_valid by apply off_small. destruct (include_track_descriptions s) eqn:L; cbn [negb]; [|reflexivity].
  cbn [opt]. destruct desc_split as (a & rest & E & LE). unfold b_desc in E. rewrite L in E. fold ts in E. rewrite <- LE, E, desc_words.
  rewrite (words_read a _ rest j (f_bits (ct_precision t))); [cbn [bindo]; rewrite f_of_bits_bits; reflexivity| |apply f_bits_lt].
  apply map_nth_error, map_nth_error. exact NT.
Qed.
End Meta.
Section NoMeta.
Context (s : ssettings) (list_name : list N) (c : scontext) (anim : list N).
Hypothesis S : sound list_name c.
Hypothesis LA : blen anim = anim_size c.
Let m := clip_bytes s list_name c anim.
Hypothesis HM : meta_size s list_name c = 0.
Lemma without_metadata : has_metadata m = Ok false.
Proof. unfold m. rewrite has_metadata_read. rewrite HM. reflexivity. Qed.
Lemma no_flags : sc_tracks c <> [] -> include_track_list_name s = false /\ include_track_names s = false /\ include_track_descriptions s = false.
Proof.
  intros NE. pose proof (up4_bounds (blen (b_name s list_name))) as U1. pose proof (up4_bounds (up4 (blen (b_name s list_name)) + blen (b_names s c))) as U2. unfold meta_size in HM.
  assert (Z : blen (b_name s list_name) = 0 /\ blen (b_names s c) = 0 /\ blen (b_desc s c) = 0) by lia. destruct Z as (Z1 & Z2 & Z3). clear - NE Z1 Z2 Z3.
  split; [|split].
  - unfold b_name in Z1. destruct (include_track_list_name s); [|reflexivity]. rewrite name_chunk_len in Z1. lia.
  - unfold b_names in Z2. destruct (include_track_names s); [|reflexivity]. rewrite names_len in Z2. destruct (sc_tracks c); [congruence|]. cbn [length] in Z2. lia.
  - unfold b_desc in Z3. destruct (include_track_descriptions s); [|reflexivity]. destruct (sc_tracks c); [congruence|]. cbn [map desc_chunks concat] in Z3. rewrite blen_app, float_bytes_len in Z3. cbn [length] in Z3. lia.
Qed.
End NoMeta.

Section Both.
Context (s : ssettings) (list_name : list N) (c : scontext) (anim : list N).
Hypothesis S : sound list_name c.
Hypothesis LA : blen anim = anim_size c.
Let m := clip_bytes s list_name c anim.
Lemma both_list_name : sc_tracks c <> [] -> bindo (get_name m) (read_string m) =
  if include_track_names s then (if include_track_list_name s then Ok (c_str list_name) else UB) else Ok [].
Proof.
  intros NE. destruct (N.eq_dec (meta_size s list_name c) 0) as [Z|Z]; [|apply list_name_got; assumption].
  destruct (no_flags s list_name c anim LA Z NE) as (-> & -> & _). unfold get_name, m. rewrite without_metadata by assumption. reflexivity.
Qed.
Lemma both_track j t : nth_error (sc_tracks c) j = Some t ->
  bindo (get_track_name m (N.of_nat j)) (read_string m) = Ok (if include_track_names s then c_str (ct_name t) else []) /\
  get_scalar_description m (N.of_nat j) = Ok (if include_track_descriptions s then Some (ct_precision t) else None) /\
  get_parent_track_index m (N.of_nat j) = Ok k_invalid_track_index.
Proof.
  intros NT. destruct (N.eq_dec (meta_size s list_name c) 0) as [Z|Z].
  - assert (NE : sc_tracks c <> []) by (intros E; rewrite E in NT; destruct j; discriminate NT). destruct (no_flags s list_name c anim LA Z NE) as (_ & -> & ->).
    unfold get_track_name, get_scalar_description, get_parent_track_index, m. rewrite without_metadata by assumption. auto.
  - split; [apply track_name_got; assumption|]. split; [apply description_got; assumption|apply parent_got; assumption].
Qed.
End Both.
