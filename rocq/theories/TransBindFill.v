(** The buffer of a clip that is bound to a database: what it holds. *)
From Coq Require Import Lia Sorted.
From Verif Require Import Word WordFacts Pieces MemoryUtils MemoryFacts Hash HashFacts Float32 Headers HeadersFacts PackSpec PackingFacts DbTiers DbBuild ClipRewrite SeekSpec BuildSpec ByteFacts RewriteFacts ScalarEnc ScalarDec ScalarWrite ScalarMeta
  LayoutFacts SubTracks TransDec TransSpec TransClipSpec TransEncSpec TransSeek TransRing TransMem TransEnc TransFile TransFileSizes TransFileFacts TransFileSegs TransFilePack TransFilePlay TransPlaySpec TransBind TransBindMem TransBindSrc TransBindParts.
Import ListNotations.
Local Open Scope N_scope.
Ltac Zify.zify_post_hook ::= idtac.

Lemma laid_nth tier t tr : forall headers outs s offset e i h o, laid tier t s tr headers outs offset e -> nth_error headers i = Some h -> nth_error outs i = Some o ->
  exists o1 o2, step_facts tier t (s + N.of_nat i) tr h o o1 o2 /\ offset <= o1 /\ o2 <= e.
Proof.
  induction headers as [| h0 hs IH]; intros [| o0 os] s offset e i h o L E1 E2; cbn [laid] in L; try tauto; [destruct i; discriminate |].
  destruct L as (next & SF & L). destruct i as [| i]; cbn [nth_error] in E1, E2.
  - injection E1 as ->. injection E2 as ->. change (N.of_nat 0) with 0. rewrite N.add_0_r. exists offset, next. split; [exact SF |]. pose proof (laid_le _ _ _ _ _ _ _ _ L). lia.
  - destruct (IH os (s + 1) next e i h o L E1 E2) as (o1 & o2 & F & G1 & G2). exists o1, o2. replace (s + N.of_nat (S i)) with (s + 1 + N.of_nat i) by lia. split; [exact F |]. pose proof (sf_next _ _ _ _ _ _ _ _ SF). lia.
Qed.
Lemma skip_blen (m : list N) k : k <= blen m -> blen (skipn (N.to_nat k) m) = blen m - k.
Proof. intros H. unfold blen in *. rewrite skipn_length. lia. Qed.
(** the part after the header, rewritten *)
Lemma joined m d o hi : bytes_ok m -> 32 <= blen m -> o + 32 <= blen m -> same_but (8 * o) hi (skipn 32 m) d ->
  kept_below (32 + o) m (firstn 32 m ++ d) /\ skipn 32 (firstn 32 m ++ d) = d.
Proof.
  intros B L1 L2 S. pose proof (same_but_blen _ _ _ _ S) as BL. pose proof (same_but_ok _ _ _ _ S) as BD.
  assert (L32 : length (firstn 32 m) = 32%nat) by (rewrite firstn_length; unfold blen in L1; lia).
  assert (SK : blen (skipn 32 m) = blen m - 32) by (change 32%nat with (N.to_nat 32); apply skip_blen; exact L1).
  assert (B2 : bytes_ok (skipn 32 m)) by (apply bytes_ok_skipn, B).
  pose proof (same_but_kept o hi (skipn 32 m) d B2 ltac:(lia) S) as K.
  split.
  - split; [unfold blen in *; rewrite app_length, L32; lia |]. split; [apply Forall_app; split; [apply bytes_ok_firstn, B | exact BD] |].
    intros k Hk. destruct (Nat.lt_ge_cases k 32) as [H | H].
    + rewrite nth_error_app1 by lia. apply nth_error_firstn'. exact H.
    + rewrite nth_error_app2 by lia. rewrite L32. destruct K as (_ & _ & K). rewrite K by lia. rewrite nth_error_skipn'. f_equal. lia.
  - rewrite skipn_app, L32, Nat.sub_diag. rewrite skipn_all2 by lia. reflexivity.
Qed.
Lemma kept_after m m' e : bytes_ok m -> 32 <= blen m -> kept_below (32 + e) m m' -> same_but (8 * e) (8 * blen m) (skipn 32 m) (skipn 32 m').
Proof.
  intros B L K. pose proof (kept_blen _ _ _ K) as BL. split; [unfold blen in BL; rewrite !skipn_length; lia |]. split; [apply bytes_ok_skipn, (kept_ok _ _ _ K) |].
  intros i [Hi | Hi].
  - change 32%nat with (N.to_nat 32). rewrite !mbit_skipn. apply (kept_bits (32 + e) m m' _ K). lia.
  - unfold mbit. f_equal. assert (Q : blen m <= i / 8) by (apply N.div_le_lower_bound; lia). set (q := i / 8) in *. clearbody q. unfold blen in *. rewrite !nth_overflow by (rewrite skipn_length; lia). reflexivity.
Qed.
(** the size and the hash *)
Lemma finished m size : bytes_ok m -> 8 <= size -> blen m = size -> size < 2 ^ 32 ->
  exists m', bindo (write32 m 0 size) (fun m => bindo (load_bytes m 8 (N.to_nat (subw 64 size 8))) (fun content => write32 m 4 (hash32 content))) = Ok m' /\
    blen m' = blen m /\ bytes_ok m' /\ (forall k, (8 <= k)%nat -> nth_error m' k = nth_error m k) /\ read32 m' 0 = Ok size /\ exists h, read32 m' 4 = Ok h.
Proof.
  intros B L EL W. assert (E : subw 64 size 8 = size - 8) by (apply subw_ge; [apply N.lt_trans with (2 ^ 32); [exact W | reflexivity] | exact L]). destruct (write32_ok m 0 size B ltac:(lia) W) as (m1 & E1 & S1 & R1). rewrite E1. cbn [bindo]. pose proof (same_but_blen _ _ _ _ S1) as BL1. pose proof (same_but_ok _ _ _ _ S1) as B1. rewrite E.
  destruct (load_bytes_in m1 8 (N.to_nat (size - 8))) as (c & E2 & _); [lia |]. rewrite E2. cbn [bindo].
  destruct (write32_ok m1 4 (hash32 c) B1 ltac:(lia) (hash32_lt c)) as (m2 & E3 & S3 & R3). rewrite E3. exists m2. split; [reflexivity |]. pose proof (same_but_blen _ _ _ _ S3) as BL3. pose proof (same_but_ok _ _ _ _ S3) as B3.
  split; [lia |]. split; [exact B3 |]. split; [| split; [| exists (hash32 c); exact R3]].
  - intros k Hk. destruct (Nat.lt_ge_cases k (length m)) as [H | H].
    + pose proof (same_but_same_at _ _ _ _ 8 (blen m - 8) B1 S3 ltac:(lia) ltac:(lia)) as A1. pose proof (same_but_same_at _ _ _ _ 8 (blen m - 8) B S1 ltac:(lia) ltac:(lia)) as A2.
      specialize (A1 (k - 8)%nat ltac:(unfold blen in *; lia)). specialize (A2 (k - 8)%nat ltac:(unfold blen in *; lia)). replace (N.to_nat 8 + (k - 8))%nat with k in A1, A2 by lia. congruence.
    + unfold blen in *. rewrite !(proj2 (nth_error_None _ _)) by lia. reflexivity.
  - rewrite <- R1. apply (read32_same m1 m2 0 _ _ B1 S3). lia.
Qed.

(** what the builder is given: [e0 .. e4] are the entries of the metadata header of the clip *)
Record bindable (tier : list frame_mapping) (t : N) (p : tclip) (out : list content) (src : list N) (SA : N) (raws : list raw_segment) (mh e0 e1 e2 e3 e4 : N) : Prop := {
  bi_source : source p out src SA raws;
  bi_stripped : p_stripped p = false;
  bi_header : metadata_header src = Ok mh;
  bi_e0 : read32 src mh = Ok e0; bi_e1 : read32 src (mh + 4) = Ok e1; bi_e2 : read32 src (mh + 8) = Ok e2; bi_e3 : read32 src (mh + 12) = Ok e3; bi_e4 : read32 src (mh + 16) = Ok e4;
  bi_entries : entries_ok 0 [e0; e1; e2; e3; e4] (blen src);
  bi_error : ptr_is_valid e4 = true;
  bi_sorted : forall s, StronglySorted N.lt (kept tier t s);
  bi_ready : all_ready tier t 0 {| tr_variable_sub_tracks := formats_size (formats_of p) out; tr_num_segments := N.to_nat (num_segments p) |} (skipn 32 src) (map header_of_raw raws) (sizes_of p);
  bi_fits : 2 * blen src + 4 * num_segments p + bound_all {| tr_variable_sub_tracks := formats_size (formats_of p) out; tr_num_segments := N.to_nat (num_segments p) |} (map header_of_raw raws) + 128 < 2 ^ 32
}.

Record filled (tier : list frame_mapping) (t clip_header : N) (p : tclip) (out : list content) (src : list N) (SA : N) (raws : list raw_segment) (m : list N) (outs : list stripped_header) : Prop := {
  fi_bytes : bytes_ok m;
  fi_small : blen m + 64 < 4294967296;
  fi_hash : exists h, read32 m 4 = Ok h;
  fi_head : same_at m 8 src 8 20;
  fi_misc : exists misc x y, h_misc src = Ok misc /\ h_misc m = Ok (set_has_metadata (set_has_stripped_keyframes (set_has_database misc 1) (b2n x)) (b2n y));
  fi_members : same_at m 32 src 32 32;
  fi_offsets : let db := 52 + starts_size p in read32 m 64 = Ok db /\ read32 m 68 = Ok (db + 4) /\ read32 m 72 = Ok (db + 4 + 20 * num_segments p) /\ read32 m 76 = Ok (db + 4 + 20 * num_segments p + types_size p out) /\
    read32 m 80 = Ok (db + 4 + 20 * num_segments p + types_size p out + (clip_ranges_at p out - constants_at p out));
  fi_starts : 1 < num_segments p -> same_at m 84 src 84 (starts_size p);
  fi_database : read32 m (84 + starts_size p) = Ok clip_header;
  fi_headers : forall i r o, nth_error raws i = Some r -> nth_error outs i = Some o -> placed m (88 + starts_size p + 20 * N.of_nat i) (words (stripped_words r o));
  fi_types : same_at m (88 + starts_size p + 20 * num_segments p) src (types_at p) (types_size p out);
  fi_constants : same_at m (88 + starts_size p + 20 * num_segments p + types_size p out) src (constants_at p out) (clip_ranges_at p out - constants_at p out);
  fi_ranges : same_at m (88 + starts_size p + 20 * num_segments p + types_size p out + (clip_ranges_at p out - constants_at p out)) src (clip_ranges_at p out) (SA - clip_ranges_at p out);
  fi_laid : exists e, laid tier t 0 {| tr_variable_sub_tracks := formats_size (formats_of p) out; tr_num_segments := N.to_nat (num_segments p) |} (map header_of_raw raws) outs (SA + 4 * num_segments p - 28) e /\ 32 + e + 15 <= blen m;
  fi_segments : forall i h o, nth_error (map header_of_raw raws) i = Some h -> nth_error outs i = Some o ->
    segment_kept {| tr_variable_sub_tracks := formats_size (formats_of p) out; tr_num_segments := N.to_nat (num_segments p) |} (skipn 32 src) h (skipn 32 m) o (kept tier t (N.of_nat i))
}.
(** the metadata of the new clip: the entries of the input but for the contributing error *)
Definition metadata_kept (src m : list N) (e0 e1 e2 e3 e4 : N) : Prop :=
  let s0 := metadata_span e0 [e1; e2; e3; e4] in let s1 := metadata_span e1 [e2; e3; e4] in let s2 := metadata_span e2 [e3; e4] in let s3 := metadata_span e3 [e4] in
  (has_metadata m = Ok false /\ s0 = 0 /\ s1 = 0 /\ s2 = 0 /\ s3 = 0) \/
  (has_metadata m = Ok true /\ exists h, metadata_header m = Ok h /\ read32 m (h + 16) = Ok invalid_ptr /\
     entry_copied m h src e0 s0 /\ entry_copied m (h + 4) src e1 s1 /\ entry_copied m (h + 8) src e2 s2 /\ entry_copied m (h + 12) src e3 s3).

  (** the metadata size, and the total *)
  Lemma meta_size s0 s1 s2 s3 e : s0 + s1 + s2 + s3 + e + 128 < 2 ^ 32 ->
    let meta := align_to 32 (addw 32 (align_to 32 (addw 32 (align_to 32 (addw 32 (align_to 32 s0 4) s1) 4) s2) 4) s3) 4 in
    let size := if negb (meta =? 0) then addw 32 (align_to 32 (addw 32 (align_to 32 (32 + e) 4) meta) 4) 20 else addw 32 (32 + e) 15 in
    let start := align_to 32 (32 + e) 4 in
    32 + e <= start /\ size <= e + s0 + s1 + s2 + s3 + 75 /\ 47 + e <= size /\ (meta = 0 -> s0 = 0 /\ s1 = 0 /\ s2 = 0 /\ s3 = 0) /\ (meta <> 0 -> subw 64 size 20 = size - 20 /\ 20 <= size /\ start + s0 + s1 + s2 + s3 <= size - 20).
  Proof.
    change (2 ^ 32) with 4294967296. intros H. cbv zeta.
    assert (U : forall x, x + 3 < 4294967296 -> x <= align_to 32 x 4 <= x + 3) by (intros x Hx; pose proof (al4 32 x (or_introl eq_refl) Hx) as Q; cbv zeta in Q; lia).
    pose proof (U s0 ltac:(lia)) as U0. set (a0 := align_to 32 s0 4) in *. clearbody a0. rewrite (addw_small 32 a0 s1) by (change (2 ^ 32) with 4294967296; lia).
    pose proof (U (a0 + s1) ltac:(lia)) as U1. set (a1 := align_to 32 (a0 + s1) 4) in *. clearbody a1. rewrite (addw_small 32 a1 s2) by (change (2 ^ 32) with 4294967296; lia).
    pose proof (U (a1 + s2) ltac:(lia)) as U2. set (a2 := align_to 32 (a1 + s2) 4) in *. clearbody a2. rewrite (addw_small 32 a2 s3) by (change (2 ^ 32) with 4294967296; lia).
    pose proof (U (a2 + s3) ltac:(lia)) as U3. set (meta := align_to 32 (a2 + s3) 4) in *. clearbody meta.
    pose proof (U (32 + e) ltac:(lia)) as U4. set (start := align_to 32 (32 + e) 4) in *. clearbody start. rewrite (addw_small 32 start meta) by (change (2 ^ 32) with 4294967296; lia).
    pose proof (U (start + meta) ltac:(lia)) as U5. set (a5 := align_to 32 (start + meta) 4) in *. clearbody a5. clear U.
    rewrite (addw_small 32 (32 + e) 15) by (change (2 ^ 32) with 4294967296; lia). rewrite (addw_small 32 a5 20) by (change (2 ^ 32) with 4294967296; lia).
    destruct (N.eqb_spec meta 0) as [Z | Z]; cbn [negb].
    - repeat (split; [lia |]). intros Q. congruence.
    - split; [lia |]. split; [lia |]. split; [lia |]. split; [intros Q; congruence |]. intros _. split; [| lia]. apply subw_ge; [change (2 ^ 64) with 18446744073709551616; lia | lia].
  Qed.

Section Fill.
  Context (tier : list frame_mapping) (t clip_header : N) (p : tclip) (out : list content) (src : list N) (SA : N) (raws : list raw_segment) (mh e0 e1 e2 e3 e4 : N).
  Hypothesis Bi : bindable tier t p out src SA raws mh e0 e1 e2 e3 e4.
  Hypothesis CH : clip_header < 2 ^ 32.
  Notation So := (bi_source _ _ _ _ _ _ _ _ _ _ _ _ _ Bi).
  Notation tr := {| tr_variable_sub_tracks := formats_size (formats_of p) out; tr_num_segments := N.to_nat (num_segments p) |}.
  Notation n := (num_segments p).

  Lemma member k w : k < 13 -> k <> 7 -> nth_error [num_segments p; formats_size (formats_of p) out; len (ct_animated Rotation out); len (ct_animated Translation out); len (ct_animated Scale out);
     len (ct_constants Rotation out); len (ct_constants Translation out); 0; 0xFFFFFFFF; headers_at p - 32; types_at p - 32; constants_at p out - 32; clip_ranges_at p out - 32] (N.to_nat k) = Some w -> read32 src (32 + 4 * k) = Ok w.
  Proof. exact (sr_members _ _ _ _ _ So k w). Qed.
  Lemma spans_total : sumN (spans [e0; e1; e2; e3; e4]) <= blen src.
  Proof.
    destruct (spans_ok (blen src) e4 (bi_error _ _ _ _ _ _ _ _ _ _ _ _ _ Bi)) with (l := [e0; e1; e2; e3]) (lo := 0) as (x & _ & _ & L); [pose proof (bi_fits _ _ _ _ _ _ _ _ _ _ _ _ _ Bi); lia | exact (bi_entries _ _ _ _ _ _ _ _ _ _ _ _ _ Bi) |].
    cbn [app] in L. lia.
  Qed.
  Lemma entries_inside : let s0 := metadata_span e0 [e1; e2; e3; e4] in let s1 := metadata_span e1 [e2; e3; e4] in let s2 := metadata_span e2 [e3; e4] in let s3 := metadata_span e3 [e4] in
    (s0 <> 0 -> e0 + s0 <= blen src) /\ (s1 <> 0 -> e1 + s1 <= blen src) /\ (s2 <> 0 -> e2 + s2 <= blen src) /\ (s3 <> 0 -> e3 + s3 <= blen src).
  Proof.
    pose proof (bi_entries _ _ _ _ _ _ _ _ _ _ _ _ _ Bi) as E. pose proof (bi_error _ _ _ _ _ _ _ _ _ _ _ _ _ Bi) as V. assert (H : blen src < 2 ^ 32) by (pose proof (bi_fits _ _ _ _ _ _ _ _ _ _ _ _ _ Bi); lia).
    cbv zeta. pose proof (span_inside (blen src) e4 V H) as SI.
    assert (T : forall lo e l, entries_ok lo (e :: l) (blen src) -> exists lo', entries_ok lo' l (blen src)) by (intros lo e l Q; cbn [entries_ok] in Q; destruct (ptr_is_valid e); [exists e; apply Q | exists lo; exact Q]).
    split; [intros Z; apply (SI [e1; e2; e3] 0 e0 E Z) |]. destruct (T _ _ _ E) as (l1 & E1). split; [intros Z; apply (SI [e2; e3] l1 e1 E1 Z) |]. destruct (T _ _ _ E1) as (l2 & E2).
    split; [intros Z; apply (SI [e3] l2 e2 E2 Z) |]. destruct (T _ _ _ E2) as (l3 & E3). intros Z. apply (SI [] l3 e3 E3 Z).
  Qed.

End Fill.
