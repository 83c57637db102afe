(** The buffer of a transform clip does not depend on what memory contained before it was written: the local buffers of the writers
    and the padding and the unused bits of the streams. *)
From Coq Require Import Lia Permutation.
From Verif Require Import Word WordFacts Pieces MemoryUtils MemoryFacts ByteFacts Float32 Quant Headers Packing PackSpec PackingFacts SubTracks DbBuild ScalarBits
  TransDec TransSpec TransRing TransMem TransEnc TransEncSpec TransEncAnim2 TransEncBytes TransEncBytes2 TransEncBytes3
  TransClipSpec TransClip TransClip2 TransFile TransFileSizes TransFileBytes TransFileFacts TransFileSegs TransFilePack.
Import ListNotations.
Local Open Scope N_scope.
Ltac Zify.zify_post_hook ::= idtac.

(** ** The bits of the animated data *)
Lemma fields_same m m' n vs : forall p, fields_at m p n vs -> fields_at m' p n vs -> forall i, p <= i < p + n * N.of_nat (length vs) -> mbit m i = mbit m' i.
Proof.
  induction vs as [| v t IH]; intros p A B i Hi; cbn [length] in Hi; [lia |]. destruct A as [A1 A2], B as [B1 B2]. rewrite Nat2N.inj_succ, N.mul_succ_r in Hi.
  destruct (N.lt_ge_cases i (p + n)) as [L | L].
  - replace i with (p + (i - p)) by lia. rewrite A1, B1 by lia. reflexivity.
  - apply (IH (p + n)); try assumption. lia.
Qed.
Lemma stored_same m m' l : forall p, stored_at m p l -> stored_at m' p l -> forall i, p <= i < p + stored_sizes l -> mbit m i = mbit m' i.
Proof.
  induction l as [| x t IH]; intros p A B i Hi; [unfold stored_sizes in Hi; cbn in Hi; lia |]. destruct A as [A1 A2], B as [B1 B2].
  change (stored_sizes (x :: t)) with (stored_size x + stored_sizes t) in Hi. destruct (N.lt_ge_cases i (p + stored_size x)) as [L | L].
  - apply (fields_same m m' _ _ p A1 B1). unfold stored_size in L. lia.
  - apply (IH (p + stored_size x)); try assumption. lia.
Qed.
Lemma changed_same dest d d' l : only_changed dest d 0 (stored_sizes l) -> only_changed dest d' 0 (stored_sizes l) -> stored_at d 0 l -> stored_at d' 0 l -> d = d'.
Proof.
  intros (L & B & O) (L' & B' & O') S S'. apply bytes_eq; [exact B | exact B' | congruence |]. intros i _. destruct (N.lt_ge_cases i (stored_sizes l)) as [H | H].
  - apply (stored_same d d' l 0 S S'). lia.
  - rewrite O, O' by (right; lia). reflexivity.
Qed.
Lemma animated_same junk junk' f g n p bones bones' mapping l l' out kept dest : Forall2 (bone_holds f g n) l out -> Forall2 (bone_holds f g n) l' out ->
  mapped bones mapping l -> mapped bones' mapping l' -> buffer_ok junk -> buffer_ok junk' ->
  (forall k, k < n -> stored_sizes (key_frame_samples f out g k) = p) -> bytes_ok dest -> 8 * blen dest < 2 ^ 60 -> kept_before kept n * p <= 8 * blen dest ->
  write_animated_track_data junk bones (fm_has_scale f) mapping kept n dest = write_animated_track_data junk' bones' (fm_has_scale f) mapping kept n dest.
Proof.
  intros H H' M M' J J' Hp Hd W L.
  assert (E : stored_sizes (concat (map (key_frame_samples f out g) (filter kept (sample_indices n)))) = kept_before kept n * p).
  { rewrite (sizes_concat _ p); [reflexivity |]. apply Forall_forall. intros j Hj. apply filter_In in Hj as [Hj _]. unfold sample_indices in Hj.
    apply in_map_iff in Hj as (i & <- & Hi). apply in_seq in Hi. apply Hp. lia. }
  assert (W60 : 2 ^ 60 + 7 < 2 ^ 64) by reflexivity.
  destruct (write_animated_ok junk bones (fm_has_scale f) mapping l kept n (key_frame_samples f out g) dest M J) as (d & A & B & C); try assumption; [| lia | rewrite E; exact L | rewrite E; lia |]; [intros k Hk _; apply (held_frame f g n l out H), Hk |].
  destruct (write_animated_ok junk' bones' (fm_has_scale f) mapping l' kept n (key_frame_samples f out g) dest M' J') as (d' & A' & B' & C'); try assumption; [| lia | rewrite E; exact L | rewrite E; lia |]; [intros k Hk _; apply (held_frame f g n l' out H'), Hk |].
  rewrite A, A', (changed_same dest d d' _ B B' C C'). reflexivity.
Qed.

(** ** Two clips that only differ by the bones of their segments *)
Definition with_segments (p : tclip) (gs : list tsegment) : tclip :=
  {| p_segments := gs; p_mapping := p_mapping p;
     p_rotation := p_rotation p; p_translation := p_translation p; p_scale := p_scale p; p_has_scale := p_has_scale p; p_stripped := p_stripped p;
     p_num_samples := p_num_samples p; p_sample_rate := p_sample_rate p; p_default_scale := p_default_scale p; p_trivial_defaults := p_trivial_defaults p; p_wrap := p_wrap p |}.
Definition same_shape (g g' : tsegment) : Prop := g_num_samples g' = g_num_samples g /\ g_start g' = g_start g /\ g_hard g' = g_hard g.

Lemma store_keeps m off l m' : bytes_ok m -> bytes_ok l -> store_bytes m off l = Ok m' -> bytes_ok m' /\ blen m' = blen m.
Proof.
  intros B L E. destruct (N.le_gt_cases (off + blen l) (blen m)) as [K | K].
  - destruct (store_placed m off l B L K) as (m1 & E1 & (L1 & B1 & _) & _). rewrite E in E1. injection E1 as ->. auto.
  - unfold store_bytes in E. destruct (N.leb_spec (off + blen l) (blen m)); [lia | discriminate].
Qed.
Lemma write_segment_cons junk p F g t z zs at_ m : write_segment_data junk p F (g :: t) (z :: zs) at_ m =
  bindo (write_segment_data junk p F [g] [z] at_ m) (write_segment_data junk p F t zs (at_ + (if p_stripped p then 20 else 16))).
Proof.
  cbn [write_segment_data]. destruct (segment_pointers m at_) as [[[a b] c] | |]; [| reflexivity | reflexivity]. cbn [bindo].
  destruct (if F =? 0 then Ok m else _) as [m1 | |]; [| reflexivity | reflexivity]. cbn [bindo].
  destruct (if z_range z =? 0 then Ok m1 else _) as [m2 | |]; [| reflexivity | reflexivity]. cbn [bindo].
  destruct (if z_data z =? 0 then Ok m2 else _) as [m3 | |]; reflexivity.
Qed.

Section Same.
  Context (p : tclip) (out : list content) (gs' : list tsegment) (junk junk' : list N).
  Notation p' := (with_segments p gs').
  Notation f := (formats_of p).
  Notation F := (formats_size (formats_of p) out).
  Notation R := (if 1 <? num_segments p then 6 * formats_size (formats_of p) out else 0).
  Notation hs := (header_stride p).
  Hypothesis Small : len out + 16 < 2 ^ 32.
  Hypothesis SmallF : 6 * F + 6 < 2 ^ 32.
  Hypothesis J : buffer_ok junk.
  Hypothesis J' : buffer_ok junk'.
  Hypothesis NS : num_segments p' = num_segments p.

  Lemma same_formats : formats_of p' = formats_of p.
  Proof. unfold formats_of. rewrite NS. reflexivity. Qed.
  Lemma same_size i g g' : same_shape g g' -> size_of p' out i g' = size_of p out i g.
  Proof. intros (E1 & E2 & E3). unfold size_of, data_size, pose_size, num_stored, kept_of. rewrite NS, same_formats, E1, E3. reflexivity. Qed.
  Lemma same_sizes gs0 gs1 : Forall2 same_shape gs0 gs1 -> forall i, sizes_from p' out i gs1 = sizes_from p out i gs0.
  Proof. induction 1 as [| g g' t t' S _ IH]; intros i; [reflexivity |]. cbn [sizes_from]. rewrite (same_size i g g' S), IH. reflexivity. Qed.

  Lemma segment_same i g g' at_ rel m : bytes_ok m -> segment_ok p out i g -> segment_ok p' out i g' -> same_shape g g' -> placed m at_ (words (header_words p out i g rel)) ->
    read32 m 36 = Ok F -> read32 m 32 = Ok (num_segments p) -> next_base F R (data_size p out i g) (32 + rel) <= blen m -> blen m + 64 < 2 ^ 32 ->
    write_segment_data junk p F [g] [size_of p out i g] at_ m = write_segment_data junk' p' F [g'] [size_of p out i g] at_ m.
  Proof.
    intros B K K' (E1 & E2 & E3) HP EF EN L W. pose proof (geometry F R (data_size p out i g) (32 + rel)) as GE.
    pose proof (so_samples _ _ _ _ K) as N1. destruct (so_holds _ _ _ _ K) as (l & O & H). destruct (so_holds _ _ _ _ K') as (l' & O' & H').
    rewrite same_formats, E1 in H'. change (p_mapping p') with (p_mapping p) in O'.
    cbn [write_segment_data]. rewrite (pointers_ok p out Small SmallF m at_ i g rel HP EF EN) by lia. cbn [bindo].
    change (p_has_scale p') with (fm_has_scale f). change (p_has_scale p) with (fm_has_scale f). change (p_mapping p') with (p_mapping p). change (p_variable p') with (variable f). change (p_variable p) with (variable f).
    change (p_stripped p') with (p_stripped p). rewrite E3, E1.
    rewrite (write_formats_clip f i _ 0 _ _ l out H (proj1 O)) by lia. rewrite (write_formats_clip f i _ 0 _ _ l' out H' (proj1 O')) by lia. cbn [bindo].
    destruct (if F =? 0 then Ok m else store_bytes m (32 + rel) (segment_formats f out i 0)) as [m1 | |] eqn:X1; [| reflexivity | reflexivity]. cbn [bindo].
    assert (B1 : bytes_ok m1 /\ blen m1 = blen m).
    { destruct (F =? 0); [injection X1 as <-; auto |]. apply (store_keeps _ _ _ _ B) in X1; [exact X1 |]. apply (segment_formats_ok f (g_num_samples g) l); [exact H | lia]. }
    change (z_range (size_of p out i g)) with R. change (z_data (size_of p out i g)) with (data_size p out i g).
    assert (X : (if R =? 0 then Ok m1 else bindo (write_segment_range_data (g_bones g) (fm_has_scale f) (variable f) (p_mapping p)) (store_bytes m1 (ranges_at F (32 + rel)))) =
                (if R =? 0 then Ok m1 else bindo (write_segment_range_data (g_bones g') (fm_has_scale f) (variable f) (p_mapping p)) (store_bytes m1 (ranges_at F (32 + rel))))).
    { destruct (1 <? num_segments p) eqn:E4; [| reflexivity]. rewrite (write_ranges_clip f i _ 0 _ _ l out H (proj1 O)) by (try exact E4; lia). rewrite (write_ranges_clip f i _ 0 _ _ l' out H' (proj1 O')) by (try exact E4; lia). reflexivity. }
    rewrite <- X. clear X.
    destruct (if R =? 0 then Ok m1 else bindo _ _) as [m2 | |] eqn:X2; [| reflexivity | reflexivity]. cbn [bindo].
    assert (B2 : bytes_ok m2 /\ blen m2 = blen m).
    { destruct (1 <? num_segments p) eqn:E4; [| change (0 =? 0) with true in X2; cbv iota in X2; injection X2 as <-; exact B1]. destruct (6 * F =? 0); [injection X2 as <-; exact B1 |].
      rewrite (write_ranges_clip f i _ 0 _ _ l out H (proj1 O)) in X2 by (try exact E4; lia). cbn [bindo] in X2. apply (store_keeps _ _ _ _ (proj1 B1)) in X2; [rewrite <- (proj2 B1); exact X2 |]. apply (segment_ranges_ok f (g_num_samples g) l); [exact H | lia]. }
    destruct B2 as [B2 L2]. destruct (data_size p out i g =? 0); [reflexivity |].
    set (a := animated_at F R (32 + rel)) in *. pose proof (data_bits p out Small SmallF i g) as DB.
    assert (LS : blen (skipn (N.to_nat a) m2) = blen m2 - a) by (unfold blen; rewrite skipn_length; lia).
    rewrite (animated_same junk junk' f i (g_num_samples g) (pose_size p out i) (g_bones g) (g_bones g') (p_mapping p) l l' out (is_kept (p_stripped p) (g_hard g)) (skipn (N.to_nat a) m2) H H' (proj1 O) (proj1 O') J J').
    - reflexivity.
    - intros k Hk. apply (same_frame_size f i _ l out H k 0); [exact Hk | lia].
    - apply bytes_ok_skipn, B2.
    - rewrite LS. change (2 ^ 32) with 4294967296 in W. change (2 ^ 60) with 1152921504606846976. lia.
    - rewrite LS. fold (kept_of p g). fold (num_stored p g). lia.
  Qed.

  Lemma segments_same gs0 gs1 : Forall2 same_shape gs0 gs1 -> forall i at_ rel m, bytes_ok m -> segments_ok p out i gs0 -> segments_ok p' out i gs1 -> headers_placed p out m i gs0 at_ rel ->
    read32 m 36 = Ok F -> read32 m 32 = Ok (num_segments p) -> 40 <= at_ -> at_ + hs * len gs0 <= 32 + rel -> bases_end F R (datas p out i gs0) (32 + rel) <= blen m -> blen m + 64 < 2 ^ 32 ->
    write_segment_data junk p F gs0 (sizes_from p out i gs0) at_ m = write_segment_data junk' p' F gs1 (sizes_from p out i gs0) at_ m.
  Proof.
    induction 1 as [| g g' t t' S _ IH]; intros i at_ rel m B K K' HP EF EN A40 L W WM; [reflexivity |]. cbn [sizes_from]. rewrite (write_segment_cons junk p F g t), (write_segment_cons junk' p' F g' t').
    pose proof K as [K1 K2]. destruct K' as [K1' K2']. pose proof HP as [HP1 HP2]. rewrite len_cons in L. cbn [TransFileFacts.datas sizes_from map bases_end] in W. change (z_data (size_of p out i g)) with (data_size p out i g) in W. fold (datas p out (i + 1) t) in W.
    pose proof (bases_grow F R (datas p out (i + 1) t) (next_base F R (data_size p out i g) (32 + rel))) as GR.
    rewrite <- (segment_same i g g' at_ rel m) by (try assumption; lia).
    destruct (write_segments_ok p out Small SmallF junk J [g] i at_ rel m B) as (m3 & E3 & K13 & _); try assumption.
    - split; [exact K1 | exact I].
    - split; [exact HP1 | exact I].
    - change (len [g]) with 1. unfold header_stride in *. lia.
    - cbn [TransFileFacts.datas sizes_from map bases_end]. change (z_data (size_of p out i g)) with (data_size p out i g). lia.
    - cbn [sizes_from] in E3. rewrite E3. cbn [bindo]. change (if p_stripped p' then 20 else 16) with hs. change (if p_stripped p then 20 else 16) with hs.
      pose proof (geometry F R (data_size p out i g) (32 + rel)) as GE. pose proof (shifted 32 F R (data_size p out i g) rel eq_refl) as (_ & _ & SH).
      assert (rd : forall o, o + 4 <= 32 + rel -> read32 m3 o = read32 m o) by (intros o Ho; apply (kept_read (32 + rel)); assumption).
      apply (IH (i + 1) (at_ + hs) (next_base F R (data_size p out i g) rel) m3).
      + exact (proj1 (proj2 K13)).
      + exact K2.
      + exact K2'.
      + apply (kept_headers p out Small SmallF m m3 (32 + rel) t K13); [exact HP2 |]. lia.
      + rewrite rd by lia. exact EF.
      + rewrite rd by lia. exact EN.
      + lia.
      + lia.
      + rewrite <- SH. destruct K13 as (Q1 & _ & _). rewrite Q1. exact W.
      + destruct K13 as (Q1 & _ & _). rewrite Q1. exact WM.
  Qed.
End Same.

Lemma no_scale_count bones : get_num_constant_samples false bones Scale = 0.
Proof.
  unfold get_num_constant_samples. enough (G : forall a, fold_left (fun a b => if b_output_index b =? 0xFFFFFFFF then a else if false && is_written_constant b Scale then addw 32 a 1 else a) bones a = a) by apply G.
  induction bones as [| b t IH]; intros a; [reflexivity |]. cbn [fold_left]. cbn [andb]. destruct (b_output_index b =? 0xFFFFFFFF); apply IH.
Qed.

(** ** What is written before the data of the segments *)
Section Front.
  Context (p : tclip) (out : list content).
  Notation f := (formats_of p).
  Notation F := (formats_size (formats_of p) out).
  (** [e]: the end of the buffer, [s]: where the segments start *)
  Definition front_header : list N := words
    [num_segments p; F; len (ct_animated Rotation out); len (ct_animated Translation out); len (ct_animated Scale out);
     len (ct_constants Rotation out); len (ct_constants Translation out); if p_has_scale p then len (ct_constants Scale out) else 0; 0xFFFFFFFF;
     headers_at p - 32; types_at p - 32; constants_at p out - 32; clip_ranges_at p out - 32].
  Definition front (e s : N) : outcome (list N) :=
    bindo (store_bytes (repeat 0 (N.to_nat e)) 8 (raw_header p out)) (fun m =>
    bindo (store_bytes m 32 front_header) (fun m =>
    bindo (if 1 <? num_segments p then store_bytes m 84 (start_indices (p_segments p)) else Ok m) (fun m =>
    bindo (write_segment_headers (p_stripped p) F (p_segments p) (sizes_from p out 0 (p_segments p)) (headers_at p) (s - 32) m) (fun m =>
    bindo (store_bytes m (types_at p) (clip_types f out)) (fun m =>
    bindo (if constants_size f out =? 0 then Ok m else store_bytes m (constants_at p out) (clip_constants f out)) (fun m =>
    if is_range_reduced p then store_bytes m (clip_ranges_at p out) (clip_ranges f out) else Ok m)))))).
End Front.
Section FrontOk.
  Context (p : tclip) (out : list content) (g0 : tsegment) (rest : list tsegment) (b0 : tbone).
  Hypothesis K : clip_ok p out g0 rest b0.
  Notation f := (formats_of p).
  Notation F := (formats_size (formats_of p) out).
  Notation R := (if 1 <? num_segments p then 6 * formats_size (formats_of p) out else 0).
  Notation bones := (g_bones g0).

  Lemma front_header_eq : raw_transform_header p out g0 = front_header p out.
  Proof.
    unfold raw_transform_header, front_header. destruct (so_holds _ _ _ _ (first_ok p out g0 rest b0 K)) as (l & O & H). pose proof (small_out p out g0 rest b0 K) as SO.
    assert (E : get_num_constant_samples (p_has_scale p) bones Scale = if p_has_scale p then len (ct_constants Scale out) else 0); [| rewrite E; reflexivity].
    destruct (p_has_scale p) eqn:ES; [| apply no_scale_count]. rewrite <- ES. apply (num_constant_ok f 0 _ bones _ l out H O SO Scale). intros X. change (p_has_scale p = false) in X. congruence.
  Qed.
  Lemma pack_front junk4 junk_lanes junk : length junk4 = 4%nat -> length junk_lanes = 4%nat ->
    pack_transforms junk4 junk_lanes junk p = bindo (front p out (clip_end p out bones) (segments_at p out bones)) (write_segment_data junk p F (p_segments p) (sizes_from p out 0 (p_segments p)) (headers_at p)).
  Proof.
    intros J4 JL. destruct (so_holds _ _ _ _ (first_ok p out g0 rest b0 K)) as (l & O & H). pose proof (small_out p out g0 rest b0 K) as SO. pose proof (small_F p out g0 rest b0 K) as SF. pose proof (co_end _ _ _ _ _ K) as W. pose proof (ats_le p out bones) as LE.
    assert (CS : forall X : tsegment -> outcome (list N), match p_segments p with [] => UB | g :: _ => X g end = X g0) by (intros X; rewrite (co_segments _ _ _ _ _ K); reflexivity).
    unfold pack_transforms. rewrite CS. clear CS. rewrite (all_sizes_ok p out SO SF (p_segments p) 0 (co_ok _ _ _ _ _ K)). cbn [bindo]. rewrite (layout_ok p out g0 rest b0 K). rewrite (mapping_len p out g0 rest b0 K). cbv zeta. unfold the_layout. cbn [l_end l_constants l_formats l_range o_headers o_types o_constants o_range].
    fold (raw_header p out).
    rewrite !(num_animated_ok f 0 _ bones _ l out H O SO).
    rewrite (num_constant_ok f 0 _ bones _ l out H O SO Rotation (fun _ => ltac:(discriminate)) : get_num_constant_samples (p_has_scale p) bones Rotation = _).
    rewrite (num_constant_ok f 0 _ bones _ l out H O SO Translation (fun _ => ltac:(discriminate)) : get_num_constant_samples (p_has_scale p) bones Translation = _).
    fold (raw_transform_header p out g0). rewrite front_header_eq. change transform_header with 32. change (32 + align_to 32 transform_header_size 4) with 84.
    replace (32 + (headers_at p - 32)) with (headers_at p) by lia. replace (32 + (types_at p - 32)) with (types_at p) by lia. replace (32 + (constants_at p out - 32)) with (constants_at p out) by lia. replace (32 + (clip_ranges_at p out - 32)) with (clip_ranges_at p out) by lia.
    rewrite addw_small by (unfold segments_at in LE; lia). replace (clip_ranges_at p out - 32 + clip_ranges_size p bones) with (segments_at p out bones - 32) by (unfold segments_at in *; lia).
    rewrite (write_types_ok p out g0 rest b0 K). cbn [bindo]. unfold front.
    change (p_rotation p) with (fm_rotation f). change (p_has_scale p) with (fm_has_scale f). change (p_variable p) with (variable f). rewrite (write_constants_clip junk4 f (g_num_samples g0) bones _ l out H (proj1 O) J4). cbn [bindo].
    rewrite (write_clip_clip junk_lanes f (g_num_samples g0) bones _ l out b0 H (proj1 O) JL (co_first _ _ _ _ _ K)) by exact (co_packed _ _ _ _ _ K). cbn [bindo].
    repeat match goal with |- bindo ?x _ = bindo (bindo ?x _) _ => destruct x; [cbn [bindo] | reflexivity | reflexivity] end.
    destruct (if is_range_reduced p then _ else _); reflexivity.
  Qed.

  Lemma front_ok : exists m7, front p out (clip_end p out bones) (segments_at p out bones) = Ok m7 /\ bytes_ok m7 /\ blen m7 = clip_end p out bones /\
    headers_placed p out m7 0 (p_segments p) (headers_at p) (segments_at p out bones - 32) /\ read32 m7 36 = Ok F /\ read32 m7 32 = Ok (num_segments p).
  Proof.
    destruct (so_holds _ _ _ _ (first_ok p out g0 rest b0 K)) as (l & O & H). pose proof (small_out p out g0 rest b0 K) as SO. pose proof (small_F p out g0 rest b0 K) as SF. pose proof (co_end _ _ _ _ _ K) as W. pose proof (ats_le p out bones) as LE.
    set (e := clip_end p out bones) in *. unfold front. set (m0 := repeat 0 (N.to_nat e)). assert (B0 : bytes_ok m0) by apply bytes_zero. assert (L0 : blen m0 = e) by (unfold blen, m0; rewrite repeat_length; lia).
    destruct (store_placed m0 8 (raw_header p out) B0 (raw_header_ok p out)) as (m1 & E1 & (L1 & B1 & K1) & P1); [rewrite raw_header_blen; lia |]. rewrite E1. cbn [bindo]. clear E1.
    assert (L2 : blen (front_header p out) = 52) by (unfold front_header; rewrite words_blen; reflexivity).
    destruct (store_placed m1 32 (front_header p out) B1 (words_ok _)) as (m2 & E2 & (L2' & B2 & K2) & P2); [lia |]. rewrite E2. cbn [bindo]. clear E2.
    assert (S3 : exists m3, (if 1 <? num_segments p then store_bytes m2 84 (start_indices (p_segments p)) else Ok m2) = Ok m3 /\ kept_below 84 m2 m3).
    { unfold headers_at, starts_size in LE. destruct (N.ltb_spec 1 (num_segments p)) as [H1 | H1].
      - destruct (store_placed m2 84 (start_indices (p_segments p)) B2 (words_ok _)) as (m3 & E3 & K3 & P3).
        + unfold start_indices. rewrite words_blen, len_app. unfold len. rewrite map_length. fold (num_segments p). change (N.of_nat (length [4294967295])) with 1. lia.
        + exists m3. auto.
      - exists m2. split; [reflexivity |]. apply kept_refl, B2. }
    destruct S3 as (m3 & E3 & (L3 & B3 & K3)). rewrite E3. cbn [bindo]. clear E3.
    assert (NS : num_segments p = len (p_segments p)) by reflexivity.
    assert (TOP : 32 + bases_end F R (datas p out 0 (p_segments p)) (segments_at p out bones - 32) = e).
    { unfold e, clip_end. assert (G : forall Ds b, bases_end F R Ds (32 + b) = 32 + bases_end F R Ds b). { induction Ds as [| x t IH]; intros b; [reflexivity |]. cbn [bases_end]. rewrite (proj2 (proj2 (shifted 32 F R x b eq_refl))). apply IH. }
      rewrite <- G. f_equal. lia. }
    destruct (write_headers_ok p out SO SF (p_segments p) 0 (headers_at p) (segments_at p out bones - 32) m3 B3) as (m4 & E4 & (L4 & B4 & K4) & P4); [unfold types_at, headers_size in LE; lia | lia |]. rewrite E4. cbn [bindo]. clear E4.
    assert (LT : blen (clip_types f out) = types_size p out) by (apply clip_types_blen; exact SO).
    destruct (store_placed m4 (types_at p) (clip_types f out) B4 (word_bytes_ok _)) as (m5 & E5 & (L5 & B5 & K5) & _); [rewrite LT; fold (constants_at p out); lia |]. rewrite E5. cbn [bindo]. clear E5.
    assert (LC : blen (clip_constants f out) = constants_size f out) by (apply (clip_constants_blen f (g_num_samples g0) l); assumption).
    assert (S6 : exists m6, (if constants_size f out =? 0 then Ok m5 else store_bytes m5 (constants_at p out) (clip_constants f out)) = Ok m6 /\ kept_below (constants_at p out) m5 m6).
    { destruct (N.eqb_spec (constants_size f out) 0) as [E0 | E0].
      - exists m5. split; [reflexivity |]. apply kept_refl, B5.
      - destruct (store_placed m5 (constants_at p out) (clip_constants f out) B5 (clip_constants_ok _ _)) as (m6 & E6 & K6 & _); [rewrite LC; fold (clip_ranges_at p out); lia |]. exists m6. auto. }
    destruct S6 as (m6 & E6 & (L6 & B6 & K6)). rewrite E6. cbn [bindo]. clear E6.
    assert (S7 : exists m7, (if is_range_reduced p then store_bytes m6 (clip_ranges_at p out) (clip_ranges f out) else Ok m6) = Ok m7 /\ kept_below (clip_ranges_at p out) m6 m7).
    { destruct (is_range_reduced p) eqn:E0; [| exists m6; split; [reflexivity | apply kept_refl, B6]].
      pose proof (clip_ranges_blen f _ l out bones _ H O) as LR. destruct (store_placed m6 (clip_ranges_at p out) (clip_ranges f out) B6 (clip_ranges_ok _ _)) as (m7 & E7 & K7 & _); [unfold segments_at, clip_ranges_size in LE; rewrite E0 in LE; lia |]. exists m7. auto. }
    destruct S7 as (m7 & E7 & (L7 & B7 & K7)). exists m7. split; [exact E7 |]. split; [exact B7 |]. split; [lia |].
    assert (Q6 : kept_below (clip_ranges_at p out) m6 m7) by (split; [exact L7 | split; [exact B7 | exact K7]]).
    assert (Q5 : kept_below (constants_at p out) m5 m7) by (apply (kept_trans _ (clip_ranges_at p out) m5 m6); [split; [exact L6 | split; [exact B6 | exact K6]] | exact Q6 | lia]).
    assert (Q4 : kept_below (types_at p) m4 m7) by (apply (kept_trans _ (constants_at p out) m4 m5); [split; [exact L5 | split; [exact B5 | exact K5]] | exact Q5 | lia]).
    assert (Q3 : kept_below (headers_at p) m3 m7) by (apply (kept_trans _ (types_at p) m3 m4); [split; [exact L4 | split; [exact B4 | exact K4]] | exact Q4 | lia]).
    assert (Q2 : kept_below 84 m2 m7) by (apply (kept_trans _ (headers_at p) m2 m3); [split; [exact L3 | split; [exact B3 | exact K3]] | exact Q3 | lia]).
    assert (T2 : placed m7 32 (front_header p out)) by (apply (kept_placed 84 m2); [exact Q2 | exact P2 | lia]).
    split; [apply (kept_headers p out SO SF m4 m7 (types_at p) _ Q4); [exact P4 | unfold types_at, headers_size; lia] |]. split.
    - change 36 with (32 + 4 * 1). apply (read_word _ _ _ 1 F T2); [reflexivity | lia].
    - change 32 with (32 + 4 * 0) at 1. apply (read_word _ _ _ 0 (num_segments p) T2); [reflexivity |]. unfold types_at, headers_size, header_stride in LE. destruct (p_stripped p); lia.
  Qed.
End FrontOk.

(** ** Two clips with the same content are the same bytes *)
Section Twins.
  Context (p : tclip) (out : list content) (gs' : list tsegment) (g0 g0' : tsegment) (rest rest' : list tsegment) (b0 b0' : tbone).
  Notation p' := (with_segments p gs').
  Notation f := (formats_of p).
  Notation F := (formats_size (formats_of p) out).
  Hypothesis K : clip_ok p out g0 rest b0.
  Hypothesis K' : clip_ok p' out g0' rest' b0'.
  Hypothesis SH : Forall2 same_shape (p_segments p) gs'.
  Hypothesis RS : ranges_size f (g_bones g0') = ranges_size f (g_bones g0).

  Lemma twins_segments : num_segments p' = num_segments p.
  Proof. symmetry. exact (F2_len _ _ _ SH). Qed.
  Lemma headers_same stripped size gs0 gs1 : Forall2 same_shape gs0 gs1 -> forall zs at_ o m, write_segment_headers stripped size gs1 zs at_ o m = write_segment_headers stripped size gs0 zs at_ o m.
  Proof.
    induction 1 as [| g g' t t' (E1 & E2 & E3) _ IH]; intros zs at_ o m; [reflexivity |]. destruct zs as [| z zs]; [reflexivity |]. cbn [write_segment_headers]. rewrite E3.
    destruct (store_bytes m at_ _); [cbn [bindo]; apply IH | reflexivity | reflexivity].
  Qed.
  Lemma starts_same gs0 gs1 : Forall2 same_shape gs0 gs1 -> start_indices gs1 = start_indices gs0.
  Proof. intros H. unfold start_indices. f_equal. f_equal. induction H as [| g g' t t' (E1 & E2 & E3) _ IH]; [reflexivity |]. cbn [map]. rewrite E2, IH. reflexivity. Qed.
  Lemma ats_same : headers_at p' = headers_at p /\ types_at p' = types_at p /\ constants_at p' out = constants_at p out /\ clip_ranges_at p' out = clip_ranges_at p out /\
    segments_at p' out (g_bones g0') = segments_at p out (g_bones g0) /\ clip_end p' out (g_bones g0') = clip_end p out (g_bones g0).
  Proof.
    pose proof twins_segments as NS. pose proof (same_formats p gs' NS) as EF.
    assert (A1 : headers_at p' = headers_at p) by (unfold headers_at, starts_size; rewrite NS; reflexivity).
    assert (A2 : types_at p' = types_at p) by (unfold types_at, headers_size; rewrite A1, NS; reflexivity).
    assert (A3 : constants_at p' out = constants_at p out) by (unfold constants_at; rewrite A2; reflexivity).
    assert (A4 : clip_ranges_at p' out = clip_ranges_at p out) by (unfold clip_ranges_at; rewrite A3, EF; reflexivity).
    assert (A5 : segments_at p' out (g_bones g0') = segments_at p out (g_bones g0)) by (unfold segments_at, clip_ranges_size; rewrite A4, EF, RS; reflexivity).
    repeat (split; [assumption |]). unfold clip_end. rewrite A5, EF, NS. f_equal. unfold datas. f_equal. apply (same_sizes p out gs' NS _ _ SH).
  Qed.
  Theorem pack_same junk4 junk4' lanes lanes' junk junk' : length junk4 = 4%nat -> length lanes = 4%nat -> buffer_ok junk -> length junk4' = 4%nat -> length lanes' = 4%nat -> buffer_ok junk' ->
    pack_transforms junk4' lanes' junk' p' = pack_transforms junk4 lanes junk p.
  Proof.
    intros J4 JL J J4' JL' J'. pose proof twins_segments as NS. pose proof (same_formats p gs' NS) as EF. destruct ats_same as (A1 & A2 & A3 & A4 & A5 & A6).
    rewrite (pack_front p out g0 rest b0 K _ _ junk J4 JL), (pack_front p' out g0' rest' b0' K' _ _ junk' J4' JL'). rewrite A1, A5, A6, EF. change (p_segments p') with gs'. rewrite (same_sizes p out gs' NS _ _ SH).
    assert (EFR : front p' out (clip_end p out (g_bones g0)) (segments_at p out (g_bones g0)) = front p out (clip_end p out (g_bones g0)) (segments_at p out (g_bones g0))).
    { unfold front. rewrite A1, A2, A3, A4, EF, NS. assert (EH : front_header p' out = front_header p out) by (unfold front_header; rewrite A1, A2, A3, A4, EF, NS; reflexivity). rewrite EH.
      change (raw_header p' out) with (raw_header p out). change (p_segments p') with gs'. rewrite (starts_same _ _ SH), (same_sizes p out gs' NS _ _ SH).
      destruct (store_bytes _ 8 _) as [m1 | |]; [cbn [bindo] | reflexivity | reflexivity]. destruct (store_bytes m1 32 _) as [m2 | |]; [cbn [bindo] | reflexivity | reflexivity].
      destruct (if 1 <? num_segments p then _ else _) as [m3 | |]; [cbn [bindo] | reflexivity | reflexivity]. change (p_stripped p') with (p_stripped p). rewrite (headers_same _ _ _ _ SH). reflexivity. }
    rewrite EFR. destruct (front_ok p out g0 rest b0 K) as (m7 & E7 & B7 & L7 & HP & R1 & R2). rewrite E7. cbn [bindo]. symmetry.
    pose proof (ats_le p out (g_bones g0)) as LE. pose proof (co_end _ _ _ _ _ K) as W.
    apply (segments_same p out gs' junk junk' (small_out p out g0 rest b0 K) (small_F p out g0 rest b0 K) J J' NS (p_segments p) gs' SH 0 (headers_at p) (segments_at p out (g_bones g0) - 32) m7 B7 (co_ok _ _ _ _ _ K) (co_ok _ _ _ _ _ K') HP R1 R2); replace (32 + (segments_at p out (g_bones g0) - 32)) with (segments_at p out (g_bones g0)) by lia.
    - lia.
    - unfold types_at, headers_size in LE. change (len (p_segments p)) with (num_segments p). lia.
    - fold (clip_end p out (g_bones g0)). lia.
    - lia.
  Qed.
End Twins.
