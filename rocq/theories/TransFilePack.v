(** The buffer of a transform clip, once it is packed. *)
From Coq Require Import Lia Permutation.
From Verif Require Import Word WordFacts Pieces MemoryUtils MemoryFacts RewriteFacts LayoutFacts BitManip BitManipFacts Float32 Quant Headers HeadersFacts Packing PackSpec PackingFacts SubTracks SubTracksFacts DbBuild ScalarWrite
  TransDec TransSpec TransRing TransMem TransConst TransAnim TransAnim2 TransPose TransPoseFacts TransEnc TransEncSpec TransEncFacts TransEncAnim TransEncAnim2 TransEncBytes TransEncBytes2 TransEncBytes3
  TransClipSpec TransClip TransClip2 TransFile TransFileSizes TransFileBytes TransFileFacts TransFileSegs.
Local Open Scope N_scope.
Ltac Zify.zify_post_hook ::= idtac.

Section Pack.
  Context (p : tclip) (out : list content).
  Notation f := (formats_of p).
  Notation F := (formats_size (formats_of p) out).
  Notation R := (if 1 <? num_segments p then 6 * formats_size (formats_of p) out else 0).
  Notation hs := (header_stride p).

  (** the sizes of the parts, and the first byte after the last one *)
  Definition starts_size : N := if 1 <? num_segments p then 4 * (num_segments p + 1) else 0.
  Definition headers_size : N := hs * num_segments p.
  Definition types_size : N := 4 * (num_sub_track_entries (len out) * (if p_has_scale p then 3 else 2)).
  Definition clip_ranges_size (bones : list tbone) : N := if is_range_reduced p then ranges_size f bones else 0.
  Definition headers_at : N := 84 + starts_size.
  Definition types_at : N := headers_at + headers_size.
  Definition constants_at : N := types_at + types_size.
  Definition clip_ranges_at : N := constants_at + constants_size f out.
  Definition segments_at (bones : list tbone) : N := clip_ranges_at + clip_ranges_size bones.
  Definition clip_end (bones : list tbone) : N := bases_end F R (datas p out 0 (p_segments p)) (segments_at bones).

  Record clip_ok (g0 : tsegment) (rest : list tsegment) (b0 : tbone) : Prop := {
    co_segments : p_segments p = g0 :: rest;
    co_ok : segments_ok p out 0 (p_segments p);
    co_tracks : 18 * len out + 64 < 2 ^ 32;
    co_first : nth_error (g_bones g0) 0 = Some b0;
    co_packed : rotation_variable (p_rotation p) = true -> ts_packed_size (b_stream b0 Rotation) <> 16;
    co_end : clip_end (g_bones g0) + 64 < 2 ^ 32
  }.

  Lemma formats_size_le : F <= 3 * len out + 3.
  Proof.
    unfold formats_size. pose proof (up4_bounds (len (ct_animated Rotation out))). pose proof (filter_le (fun c => negb (ct_constant c Rotation)) out) as H1.
    pose proof (filter_le (fun c => negb (ct_constant c Translation)) out) as H2. pose proof (filter_le (fun c => negb (ct_constant c Scale)) out) as H3.
    fold (ct_animated Rotation out) in H1. fold (ct_animated Translation out) in H2. fold (ct_animated Scale out) in H3. destruct (variable f Rotation), (variable f Translation), (variable f Scale); lia.
  Qed.
  Lemma parts_mod : starts_size mod 4 = 0 /\ headers_size mod 4 = 0 /\ types_size mod 4 = 0 /\ constants_size f out mod 4 = 0 /\ forall bones, clip_ranges_size bones mod 4 = 0.
  Proof.
    assert (M : forall x, (4 * x) mod 4 = 0) by (intros x; apply mod_mul; discriminate).
    split. { unfold starts_size. destruct (1 <? num_segments p); [apply M | reflexivity]. }
    split. { unfold headers_size, header_stride. destruct (p_stripped p); [replace (20 * num_segments p) with (4 * (5 * num_segments p)) by lia | replace (16 * num_segments p) with (4 * (4 * num_segments p)) by lia]; apply M. }
    split. { apply M. }
    split. { unfold constants_size. replace (_ + _ + _) with (4 * (TransClipSpec.components f Rotation * len (ct_constants Rotation out) + 3 * len (ct_constants Translation out) + 3 * len (ct_constants Scale out))) by lia. apply M. }
    intros bones. unfold clip_ranges_size, ranges_size. destruct (is_range_reduced p); [| reflexivity]. match goal with |- (24 * ?x) mod 4 = 0 => replace (24 * x) with (4 * (6 * x)) by lia end. apply M.
  Qed.
  Lemma mod4_add a b : a mod 4 = 0 -> b mod 4 = 0 -> (a + b) mod 4 = 0.
  Proof. intros A B. rewrite N.add_mod, A, B by discriminate. reflexivity. Qed.
  Lemma ats_mod : headers_at mod 4 = 0 /\ types_at mod 4 = 0 /\ constants_at mod 4 = 0 /\ clip_ranges_at mod 4 = 0 /\ forall bones, segments_at bones mod 4 = 0.
  Proof.
    destruct parts_mod as (M1 & M2 & M3 & M4 & M5).
    assert (A1 : headers_at mod 4 = 0) by (apply mod4_add; [reflexivity | exact M1]). assert (A2 : types_at mod 4 = 0) by (apply mod4_add; assumption).
    assert (A3 : constants_at mod 4 = 0) by (apply mod4_add; assumption). assert (A4 : clip_ranges_at mod 4 = 0) by (apply mod4_add; assumption).
    repeat split; try assumption. intros bones. apply mod4_add; [exact A4 | apply M5].
  Qed.
  Lemma ats_le bones : 84 <= headers_at /\ headers_at <= types_at /\ types_at <= constants_at /\ constants_at <= clip_ranges_at /\ clip_ranges_at <= segments_at bones /\ segments_at bones <= clip_end bones.
  Proof.
    unfold clip_end. pose proof (bases_grow F R (datas p out 0 (p_segments p)) (segments_at bones)) as G. set (e := bases_end _ _ _ _) in *. clearbody e.
    unfold segments_at, clip_ranges_at, constants_at, types_at, headers_at in *. lia.
  Qed.

  Lemma segments_end_ok gs : forall i b, bases_end F R (datas p out i gs) b + 8 < 2 ^ 32 -> segments_end F (sizes_from p out i gs) b = bases_end F R (datas p out i gs) b.
  Proof.
    induction gs as [| g t IH]; intros i b W; [reflexivity |]. cbn [segments_end sizes_from datas map bases_end] in *. fold (datas p out (i + 1) t) in *.
    change (z_data (size_of p out i g)) with (data_size p out i g) in *. change (z_range (size_of p out i g)) with R.
    pose proof (bases_grow F R (datas p out (i + 1) t) (next_base F R (data_size p out i g) b)) as GR. pose proof (geometry F R (data_size p out i g) b) as GE.
    rewrite (addw_small 32 b F) by lia. rewrite align_up2 by (try (left; reflexivity); lia). change (up2 (b + F)) with (ranges_at F b).
    rewrite (addw_small 32 (ranges_at F b)) by lia. rewrite align_up4' by (try (left; reflexivity); lia). change (up4 (ranges_at F b + R)) with (animated_at F R b).
    rewrite addw_small by lia. replace (animated_at F R b + data_size p out i g) with (next_base F R (data_size p out i g) b) by lia. apply IH, W.
  Qed.

  Section Ok.
  Context (g0 : tsegment) (rest : list tsegment) (b0 : tbone).
  Hypothesis K : clip_ok g0 rest b0.
  Notation bones := (g_bones g0).

  Lemma first_ok : segment_ok p out 0 g0.
  Proof. pose proof (co_ok _ _ _ K) as H. rewrite (co_segments _ _ _ K) in H. exact (proj1 H). Qed.
  Lemma small_out : len out + 16 < 2 ^ 32. Proof. pose proof (co_tracks _ _ _ K). lia. Qed.
  Lemma small_F : 6 * F + 6 < 2 ^ 32. Proof. pose proof (co_tracks _ _ _ K). pose proof formats_size_le. lia. Qed.
  Lemma mapping_len : N.of_nat (length (p_mapping p)) = len out.
  Proof.
    destruct (so_holds _ _ _ _ first_ok) as (l & O & H). change (len (p_mapping p) = len out). transitivity (len l); [exact (F2_len _ _ _ (proj1 O)) | exact (F2_len _ _ _ H)].
  Qed.
  Definition the_layout : tlayout :=
    {| l_constants := constants_size f out; l_formats := F; l_range := clip_ranges_size bones; l_end := clip_end bones;
       o_headers := headers_at - 32; o_types := types_at - 32; o_constants := constants_at - 32; o_range := clip_ranges_at - 32 |}.
  Lemma mod4_sub a : 32 <= a -> a mod 4 = 0 -> (a - 32) mod 4 = 0.
  Proof. intros L M. pose proof (N.div_mod a 4 ltac:(discriminate)) as E. rewrite M in E. set (q := a / 4) in *. clearbody q. replace (a - 32) with (4 * (q - 8)) by lia. apply mod_mul. discriminate. Qed.
  Lemma layout_ok : transform_layout p bones (sizes_from p out 0 (p_segments p)) = the_layout.
  Proof.
    destruct (so_holds _ _ _ _ first_ok) as (l & O & H). pose proof small_out as SO. pose proof small_F as SF. pose proof (co_end _ _ _ K) as W. pose proof (ats_le bones) as LE. destruct ats_mod as (A1 & A2 & A3 & A4 & A5).
    assert (C : constants_size f out + 64 < 2 ^ 32) by (unfold clip_ranges_at in LE; lia). assert (G : clip_ranges_size bones + 64 < 2 ^ 32) by (unfold segments_at in LE; lia).
    unfold transform_layout. rewrite mapping_len.
    assert (E1 : get_constant_data_size (p_has_scale p) bones = constants_size f out) by (apply (constant_data_size_ok f 0 _ bones _ l out H O SO); lia). rewrite E1.
    assert (E2 : get_format_per_track_data_size (p_variable p Rotation) (p_variable p Translation) (p_variable p Scale) bones = F) by (apply (format_size_ok f 0 _ bones _ l out H O SO); lia). rewrite E2.
    assert (T0 : num_sub_track_entries (len out) * (if p_has_scale p then 3 else 2) * 4 = types_size) by (unfold types_size; lia).
    assert (E3 : mulw 32 (mulw 32 (addw 32 (len out) 15 / 16) (if p_has_scale p then 3 else 2)) 4 = types_size).
    { rewrite addw_small by lia. replace (len out + 15) with (len out + 16 - 1) by lia. fold (num_sub_track_entries (len out)). assert (T : types_size < 2 ^ 32) by (unfold constants_at in LE; lia).
      rewrite (mulw_small 32 (num_sub_track_entries (len out))) by lia. rewrite mulw_small by lia. exact T0. }
    rewrite E3.
    assert (E4 : (if 1 <? num_segments p then mulw 32 4 (addw 32 (num_segments p) 1) else 0) = starts_size).
    { assert (T : starts_size < 2 ^ 32) by (unfold headers_at in LE; lia). unfold starts_size in *. destruct (1 <? num_segments p); [| reflexivity]. rewrite addw_small by lia. apply mulw_small. lia. }
    rewrite E4.
    assert (E5 : mulw 32 (if p_stripped p then 20 else 16) (num_segments p) = headers_size). { change (if p_stripped p then 20 else 16) with hs. apply mulw_small. fold headers_size. unfold types_at in LE. lia. }
    rewrite E5.
    assert (E6 : (if is_range_reduced p then get_clip_range_data_size (p_variable p) (p_rotation p) bones else 0) = clip_ranges_size bones).
    { unfold clip_ranges_size in *. destruct (is_range_reduced p); [| reflexivity]. apply (clip_range_size_ok f bones out SO). lia. }
    rewrite E6. cbv zeta.
    change (transform_header + transform_header_size) with 84. change (align_to 32 transform_header_size 4) with 52. change (align_to 32 84 4) with 84.
    rewrite (addw_small 32 84 starts_size) by (unfold headers_at in LE; lia). fold headers_at.
    assert (W0 : headers_at < 2 ^ 32) by lia. unfold headers_at in W0. rewrite (addw_small 32 52 starts_size) by lia. replace (52 + starts_size) with (headers_at - 32) by (unfold headers_at; lia).
    rewrite (al4_id 32 headers_at) by (try (left; reflexivity); try exact A1; lia). rewrite (addw_small 32 headers_at headers_size) by (unfold types_at in LE; lia). fold types_at.
    rewrite (al4_id 32 (headers_at - 32)) by (try (left; reflexivity); try (apply mod4_sub; [lia | exact A1]); lia). rewrite (addw_small 32 (headers_at - 32) headers_size) by (unfold types_at in LE; lia).
    replace (headers_at - 32 + headers_size) with (types_at - 32) by (unfold types_at; lia).
    rewrite (al4_id 32 types_at) by (try (left; reflexivity); try exact A2; lia). rewrite (addw_small 32 types_at types_size) by (unfold constants_at in LE; lia). fold constants_at.
    rewrite (al4_id 32 (types_at - 32)) by (try (left; reflexivity); try (apply mod4_sub; [lia | exact A2]); lia). rewrite (addw_small 32 (types_at - 32) types_size) by (unfold constants_at in LE; lia).
    replace (types_at - 32 + types_size) with (constants_at - 32) by (unfold constants_at; lia).
    rewrite (al4_id 32 constants_at) by (try (left; reflexivity); try exact A3; lia). rewrite (addw_small 32 constants_at (constants_size f out)) by (unfold clip_ranges_at in LE; lia). fold clip_ranges_at.
    rewrite (al4_id 32 (constants_at - 32)) by (try (left; reflexivity); try (apply mod4_sub; [lia | exact A3]); lia). rewrite (addw_small 32 (constants_at - 32) (constants_size f out)) by (unfold clip_ranges_at in LE; lia).
    replace (constants_at - 32 + constants_size f out) with (clip_ranges_at - 32) by (unfold clip_ranges_at; lia).
    rewrite (al4_id 32 clip_ranges_at) by (try (left; reflexivity); try exact A4; lia). rewrite (addw_small 32 clip_ranges_at (clip_ranges_size bones)) by (unfold segments_at in LE; lia). fold (segments_at bones).
    rewrite (al4_id 32 (clip_ranges_at - 32)) by (try (left; reflexivity); try (apply mod4_sub; [lia | exact A4]); lia).
    rewrite segments_end_ok by (fold (clip_end bones); lia). reflexivity.
  Qed.

  Lemma types_of_ok ch l : forall mapping, mapped bones mapping l -> types_of ch bones mapping = Ok (map (fun b => sub_track_type_of b ch) l).
  Proof. induction l as [| b l IH]; intros mapping M; inversion M as [| i b' is bs' Hi M']; subst; [reflexivity |]. cbn [types_of]. unfold bone_at. rewrite Hi. cbn [bindo]. rewrite (IH _ M'). reflexivity. Qed.
  Lemma write_types_ok : write_sub_track_types (p_has_scale p) bones (p_mapping p) = Ok (clip_types f out).
  Proof.
    destruct (so_holds _ _ _ _ first_ok) as (l & O & H). unfold write_sub_track_types. rewrite !(types_of_ok _ l _ (proj1 O)). cbn [bindo].
    assert (E : forall ch, map (fun b => sub_track_type_of b ch) l = map (fun c => if ct_default c ch then 0 else if ct_constant c ch then 1 else 2) out).
    { intros ch. clear - H. induction H as [| b c bs cs Hb _ IH]; [reflexivity |]. cbn [map]. rewrite IH. f_equal. unfold sub_track_type_of. rewrite (bh_default _ _ _ _ _ Hb), (bh_constant _ _ _ _ _ Hb). reflexivity. }
    rewrite !E. unfold clip_types. change (fm_has_scale f) with (p_has_scale p). destruct (p_has_scale p); reflexivity.
  Qed.
  Lemma clip_types_ok : bytes_ok (clip_types f out). Proof. apply word_bytes_ok. Qed.

  (** the two headers *)
  Definition raw_header : list N :=
    le_bytes 4 tag_compressed_tracks ++ le_bytes 2 version_latest ++ [0; track_type_qvvf] ++
    words [len out; if len out =? 0 then 0 else p_num_samples p; f_bits (if len out =? 0 then f_zero else p_sample_rate p); header_bits p].
  Definition raw_transform_header : list N := words
    [num_segments p; F; len (ct_animated Rotation out); len (ct_animated Translation out); len (ct_animated Scale out);
     len (ct_constants Rotation out); len (ct_constants Translation out); get_num_constant_samples (p_has_scale p) bones Scale; 0xFFFFFFFF;
     headers_at - 32; types_at - 32; constants_at - 32; clip_ranges_at - 32].
  Record packed (m : list N) : Prop := {
    pk_size : blen m = clip_end bones;
    pk_bytes : bytes_ok m;
    pk_header : placed m 8 raw_header;
    pk_transform_header : placed m 32 raw_transform_header;
    pk_starts : 1 < num_segments p -> placed m 84 (start_indices (p_segments p));
    pk_headers : headers_placed p out m 0 (p_segments p) headers_at (segments_at bones - 32);
    pk_types : placed m types_at (clip_types f out);
    pk_constants : placed m constants_at (clip_constants f out);
    pk_ranges : placed m clip_ranges_at (clip_ranges f out);
    pk_segments : segments_placed p out m 0 (p_segments p) (segments_at bones)
  }.
  Lemma raw_header_blen : blen raw_header = 24. Proof. unfold raw_header. rewrite !blen_app, words_blen. unfold blen. rewrite !le_bytes_length. reflexivity. Qed.
  Lemma raw_header_ok : bytes_ok raw_header.
  Proof. unfold raw_header. apply bytes_app; [apply le_bytes_ok |]. apply bytes_app; [apply le_bytes_ok |]. apply bytes_app; [| apply words_ok]. repeat constructor. Qed.
  Lemma placed_nil m off : placed m off []. Proof. intros k b E. destruct k; discriminate. Qed.
  Lemma bytes_zero n : bytes_ok (repeat 0 n). Proof. induction n; constructor; [reflexivity | assumption]. Qed.
  Lemma no_clip_ranges : is_range_reduced p = false -> clip_ranges f out = [].
  Proof. intros E. unfold is_range_reduced in E. apply Bool.orb_false_iff in E as [E E3]. apply Bool.orb_false_iff in E as [E1 E2]. unfold clip_ranges. rewrite !formats_variable, E1, E2, E3. reflexivity. Qed.

  Theorem pack_ok junk4 junk_lanes junk : length junk4 = 4%nat -> length junk_lanes = 4%nat -> buffer_ok junk ->
    exists m, pack_transforms junk4 junk_lanes junk p = Ok m /\ packed m.
  Proof.
    intros J4 JL J. destruct (so_holds _ _ _ _ first_ok) as (l & O & H). pose proof small_out as SO. pose proof small_F as SF. pose proof (co_end _ _ _ K) as W. pose proof (ats_le bones) as LE. destruct ats_mod as (A1 & A2 & A3 & A4 & A5).
    assert (CS : forall X : tsegment -> outcome (list N), match p_segments p with [] => UB | g :: _ => X g end = X g0) by (intros X; rewrite (co_segments _ _ _ K); reflexivity).
    unfold pack_transforms. rewrite CS. clear CS. rewrite (all_sizes_ok p out SO SF (p_segments p) 0 (co_ok _ _ _ K)). cbn [bindo]. rewrite layout_ok. rewrite mapping_len. cbv zeta. unfold the_layout. cbn [l_end l_constants l_formats l_range o_headers o_types o_constants o_range].
    set (m0 := repeat 0 (N.to_nat (clip_end bones))). assert (B0 : bytes_ok m0) by apply bytes_zero. assert (L0 : blen m0 = clip_end bones) by (unfold blen, m0; rewrite repeat_length; lia).
    fold raw_header. destruct (store_placed m0 8 raw_header B0 raw_header_ok) as (m1 & E1 & (L1 & B1 & K1) & P1); [rewrite raw_header_blen; lia |]. rewrite E1. cbn [bindo]. clear E1.
    rewrite !(num_animated_ok f 0 _ bones _ l out H O SO).
    rewrite (num_constant_ok f 0 _ bones _ l out H O SO Rotation (fun _ => ltac:(discriminate)) : get_num_constant_samples (p_has_scale p) bones Rotation = _).
    rewrite (num_constant_ok f 0 _ bones _ l out H O SO Translation (fun _ => ltac:(discriminate)) : get_num_constant_samples (p_has_scale p) bones Translation = _).
    fold raw_transform_header. change transform_header with 32.
    assert (L2 : blen raw_transform_header = 52) by (unfold raw_transform_header; rewrite words_blen; reflexivity).
    destruct (store_placed m1 32 raw_transform_header B1 (words_ok _)) as (m2 & E2 & (L2' & B2 & K2) & P2); [lia |]. rewrite E2. cbn [bindo]. clear E2.
    change (32 + align_to 32 transform_header_size 4) with 84.
    assert (S3 : exists m3, (if 1 <? num_segments p then store_bytes m2 84 (start_indices (p_segments p)) else Ok m2) = Ok m3 /\ kept_below 84 m2 m3 /\ (1 < num_segments p -> placed m3 84 (start_indices (p_segments p)))).
    { unfold headers_at, starts_size in LE. destruct (N.ltb_spec 1 (num_segments p)) as [H1 | H1].
      - destruct (store_placed m2 84 (start_indices (p_segments p)) B2 (words_ok _)) as (m3 & E3 & K3 & P3).
        + unfold start_indices. rewrite words_blen, len_app. unfold len. rewrite map_length. fold (num_segments p). change (N.of_nat (length [4294967295])) with 1. lia.
        + exists m3. auto.
      - exists m2. split; [reflexivity |]. split; [apply kept_refl, B2 |]. lia. }
    destruct S3 as (m3 & E3 & (L3 & B3 & K3) & P3). rewrite E3. cbn [bindo]. clear E3.
    replace (32 + (headers_at - 32)) with headers_at by lia. replace (32 + (types_at - 32)) with types_at by lia. replace (32 + (constants_at - 32)) with constants_at by lia. replace (32 + (clip_ranges_at - 32)) with clip_ranges_at by lia.
    rewrite addw_small by (unfold segments_at in LE; lia). replace (clip_ranges_at - 32 + clip_ranges_size bones) with (segments_at bones - 32) by (unfold segments_at in *; lia).
    assert (NS : num_segments p = len (p_segments p)) by reflexivity.
    assert (TOP : 32 + bases_end F R (datas p out 0 (p_segments p)) (segments_at bones - 32) = clip_end bones).
    { unfold clip_end. assert (G : forall Ds b, bases_end F R Ds (32 + b) = 32 + bases_end F R Ds b). { induction Ds as [| x t IH]; intros b; [reflexivity |]. cbn [bases_end]. rewrite (proj2 (proj2 (shifted 32 F R x b eq_refl))). apply IH. }
      rewrite <- G. f_equal. lia. }
    destruct (write_headers_ok p out SO SF (p_segments p) 0 headers_at (segments_at bones - 32) m3 B3) as (m4 & E4 & (L4 & B4 & K4) & P4); [unfold types_at, headers_size in LE; lia | lia |]. rewrite E4. cbn [bindo]. clear E4.
    rewrite write_types_ok. cbn [bindo].
    assert (LT : blen (clip_types f out) = types_size) by (apply clip_types_blen; exact SO).
    destruct (store_placed m4 types_at (clip_types f out) B4 clip_types_ok) as (m5 & E5 & (L5 & B5 & K5) & P5); [rewrite LT; fold constants_at; lia |]. rewrite E5. cbn [bindo]. clear E5.
    assert (LC : blen (clip_constants f out) = constants_size f out) by (apply (clip_constants_blen f (g_num_samples g0) l); assumption).
    assert (S6 : exists m6, (if constants_size f out =? 0 then Ok m5 else bindo (write_constant_track_data junk4 (p_rotation p) (p_has_scale p) bones (p_mapping p)) (store_bytes m5 constants_at)) = Ok m6 /\
      kept_below constants_at m5 m6 /\ placed m6 constants_at (clip_constants f out)).
    { destruct (N.eqb_spec (constants_size f out) 0) as [E0 | E0].
      - exists m5. split; [reflexivity |]. split; [apply kept_refl, B5 |]. rewrite E0 in LC. unfold blen in LC. destruct (clip_constants f out); [apply placed_nil | cbn [length] in LC; lia].
      - change (p_rotation p) with (fm_rotation f). change (p_has_scale p) with (fm_has_scale f). rewrite (write_constants_clip junk4 f (g_num_samples g0) bones _ l out H (proj1 O) J4). cbn [bindo].
        apply store_placed; [exact B5 | apply clip_constants_ok |]. rewrite LC. fold clip_ranges_at. lia. }
    destruct S6 as (m6 & E6 & (L6 & B6 & K6) & P6). rewrite E6. cbn [bindo]. clear E6.
    assert (S7 : exists m7, (if is_range_reduced p then bindo (write_clip_range_data junk_lanes bones (p_has_scale p) (p_variable p) (p_mapping p)) (store_bytes m6 clip_ranges_at) else Ok m6) = Ok m7 /\
      kept_below clip_ranges_at m6 m7 /\ placed m7 clip_ranges_at (clip_ranges f out) /\ blen (clip_ranges f out) <= clip_ranges_size bones).
    { destruct (is_range_reduced p) eqn:E0.
      - change (p_has_scale p) with (fm_has_scale f). change (p_variable p) with (variable f).
        rewrite (write_clip_clip junk_lanes f (g_num_samples g0) bones _ l out b0 H (proj1 O) JL (co_first _ _ _ K)) by exact (co_packed _ _ _ K). cbn [bindo].
        pose proof (clip_ranges_blen f _ l out bones _ H O) as LR. destruct (store_placed m6 clip_ranges_at (clip_ranges f out) B6 (clip_ranges_ok _ _)) as (m7 & E7 & K7 & P7); [unfold segments_at, clip_ranges_size in LE; rewrite E0 in LE; lia |].
        exists m7. split; [exact E7 |]. split; [exact K7 |]. split; [exact P7 |]. unfold clip_ranges_size. rewrite E0. exact LR.
      - exists m6. split; [reflexivity |]. split; [apply kept_refl, B6 |]. rewrite (no_clip_ranges E0). split; [apply placed_nil |]. change (blen []) with 0. lia. }
    destruct S7 as (m7 & E7 & (L7 & B7 & K7) & P7 & LR). rewrite E7. cbn [bindo]. clear E7.
    assert (Q6 : kept_below clip_ranges_at m6 m7) by (split; [exact L7 | split; [exact B7 | exact K7]]).
    assert (Q5 : kept_below constants_at m5 m7) by (apply (kept_trans _ clip_ranges_at m5 m6); [split; [exact L6 | split; [exact B6 | exact K6]] | exact Q6 | lia]).
    assert (Q4 : kept_below types_at m4 m7) by (apply (kept_trans _ constants_at m4 m5); [split; [exact L5 | split; [exact B5 | exact K5]] | exact Q5 | lia]).
    assert (Q3 : kept_below headers_at m3 m7) by (apply (kept_trans _ types_at m3 m4); [split; [exact L4 | split; [exact B4 | exact K4]] | exact Q4 | lia]).
    assert (Q2 : kept_below 84 m2 m7) by (apply (kept_trans _ headers_at m2 m3); [split; [exact L3 | split; [exact B3 | exact K3]] | exact Q3 | lia]).
    assert (Q1 : kept_below 32 m1 m7) by (apply (kept_trans _ 84 m1 m2); [split; [exact L2' | split; [exact B2 | exact K2]] | exact Q2 | lia]).
    assert (T2 : placed m7 32 raw_transform_header) by (apply (kept_placed 84 m2); [exact Q2 | exact P2 | lia]).
    assert (LM : blen m7 = clip_end bones) by lia.
    assert (TH : headers_placed p out m7 0 (p_segments p) headers_at (segments_at bones - 32)) by (apply (kept_headers p out SO SF m4 m7 types_at _ Q4); [exact P4 | unfold types_at, headers_size; lia]).
    destruct (write_segments_ok p out SO SF junk J (p_segments p) 0 headers_at (segments_at bones - 32) m7 B7 (co_ok _ _ _ K) TH) as (m8 & E8 & K8 & P8).
    - change 36 with (32 + 4 * 1). apply (read_word _ _ _ 1 F T2); [reflexivity | lia].
    - change 32 with (32 + 4 * 0) at 1. apply (read_word _ _ _ 0 (num_segments p) T2); [reflexivity |]. unfold types_at, headers_size, header_stride in LE. destruct (p_stripped p); lia.
    - lia.
    - unfold types_at, headers_size in LE. lia.
    - replace (32 + (segments_at bones - 32)) with (segments_at bones) by lia. fold (clip_end bones). lia.
    - lia.
    - replace (32 + (segments_at bones - 32)) with (segments_at bones) in * by lia. exists m8. split; [exact E8 |]. destruct K8 as (L8 & B8 & K8). assert (Q8 : kept_below (segments_at bones) m7 m8) by (split; [exact L8 | split; [exact B8 | exact K8]]).
      constructor; try assumption.
      + lia.
      + apply (kept_placed 32 m1); [apply (kept_trans 32 (segments_at bones) m1 m7); [exact Q1 | exact Q8 | lia] | exact P1 | rewrite raw_header_blen; lia].
      + apply (kept_placed _ m7 _ _ _ Q8 T2). lia.
      + intros H1. apply (kept_placed headers_at m3); [apply (kept_trans headers_at (segments_at bones) m3 m7); [exact Q3 | exact Q8 | lia] | exact (P3 H1) |]. unfold start_indices. rewrite words_blen, len_app. unfold len. rewrite map_length. fold (num_segments p). change (N.of_nat (length [4294967295])) with 1. unfold headers_at, starts_size. rewrite (proj2 (N.ltb_lt _ _) H1). lia.
      + apply (kept_headers p out SO SF m7 m8 (segments_at bones) _ Q8 0 headers_at _ TH). unfold types_at, headers_size in LE. lia.
      + apply (kept_placed constants_at m5); [apply (kept_trans constants_at (segments_at bones) m5 m7); [exact Q5 | exact Q8 | lia] | exact P5 | rewrite LT; unfold constants_at; lia].
      + apply (kept_placed clip_ranges_at m6); [apply (kept_trans clip_ranges_at (segments_at bones) m6 m7); [exact Q6 | exact Q8 | lia] | exact P6 | rewrite LC; unfold clip_ranges_at; lia].
      + apply (kept_placed _ m7 _ _ _ Q8 P7). unfold segments_at. lia.
  Qed.
  End Ok.
End Pack.
