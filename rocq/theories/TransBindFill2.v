(** Binding a clip to a database fills the buffer of the new clip. *)
From Coq Require Import Lia Sorted.
From Verif Require Import Word WordFacts Pieces MemoryUtils MemoryFacts Hash HashFacts Float32 Headers HeadersFacts PackSpec PackingFacts DbTiers DbBuild ClipRewrite SeekSpec BuildSpec ByteFacts RewriteFacts ScalarEnc ScalarDec ScalarWrite ScalarMeta
  LayoutFacts SubTracks TransDec TransSpec TransClipSpec TransEncSpec TransSeek TransRing TransMem TransEnc TransFile TransFileSizes TransFileFacts TransFileSegs TransFilePack TransFilePlay TransPlaySpec TransBind TransBindMem TransBindSrc TransBindParts TransBindFill.
Import ListNotations.
Local Open Scope N_scope.
Ltac Zify.zify_post_hook ::= idtac.

Lemma agree_read (m m' : list N) x : blen m' = blen m -> (forall k, (8 <= k)%nat -> nth_error m' k = nth_error m k) -> 8 <= x -> read32 m' x = read32 m x.
Proof.
  intros L A H. unfold read32, load_le, load_bytes. rewrite L. destruct (_ <=? _); [| reflexivity]. cbn [bindo]. assert (E : skipn (N.to_nat x) m' = skipn (N.to_nat x) m) by (apply list_ext_error; intros j; rewrite !nth_error_skipn'; apply A; lia). rewrite E. reflexivity.
Qed.
Lemma agree_same m m' a src b size : (forall k, (8 <= k)%nat -> nth_error m' k = nth_error m k) -> 8 <= a -> same_at m a src b size -> same_at m' a src b size.
Proof. intros A H S k Hk. rewrite A by lia. apply S, Hk. Qed.
Lemma agree_placed m m' a l : (forall k, (8 <= k)%nat -> nth_error m' k = nth_error m k) -> 8 <= a -> placed m a l -> placed m' a l.
Proof. intros A H P k x Hx. rewrite A by lia. apply P, Hx. Qed.
Lemma agree_skip (m m' : list N) : (forall k, (8 <= k)%nat -> nth_error m' k = nth_error m k) -> skipn 32 m' = skipn 32 m.
Proof. intros A. apply list_ext_error. intros j. rewrite !nth_error_skipn'. apply A. lia. Qed.
Lemma agree_entry m m' h src e s : blen m' = blen m -> (forall k, (8 <= k)%nat -> nth_error m' k = nth_error m k) -> 8 <= h -> entry_copied m h src e s -> entry_copied m' h src e s.
Proof.
  intros L A H. unfold entry_copied. rewrite (agree_read m m' h L A H). destruct (N.eqb_spec s 0) as [Z | Z]; [auto |]. intros (o & E1 & G & E2 & E3 & E4). exists o.
  split; [exact E1 |]. split; [exact G |]. split; [exact E2 |]. split; [lia |]. apply (agree_same m m' o src e s A ltac:(lia) E4).
Qed.
Lemma word_read m off w : placed m off (words [w]) -> w < 2 ^ 32 -> read32 m off = Ok w.
Proof. intros P W. pose proof (read_word m off [w] 0 w P eq_refl W) as R. rewrite N.mul_0_r, N.add_0_r in R. exact R. Qed.

Definition hide (P : Prop) : Prop := P.
Ltac hidden H := let T := type of H in change (hide T) in H.

Section Fill.
  Context (tier : list frame_mapping) (t clip_header : N) (p : tclip) (out : list content) (src : list N) (SA : N) (raws : list raw_segment) (mh e0 e1 e2 e3 e4 : N).
  Hypothesis Bi : bindable tier t p out src SA raws mh e0 e1 e2 e3 e4.
  Hypothesis CH : clip_header < 2 ^ 32.
  Notation So := (bi_source _ _ _ _ _ _ _ _ _ _ _ _ _ Bi).
  Notation tr := {| tr_variable_sub_tracks := formats_size (formats_of p) out; tr_num_segments := N.to_nat (num_segments p) |}.
  Notation n := (num_segments p).

  Lemma bind_fills : exists m outs, bind_clip tier t clip_header src = Ok m /\ filled tier t clip_header p out src SA raws m outs /\ metadata_kept src m e0 e1 e2 e3 e4.
  Proof.
    destruct raws as [| first others]; [destruct (sr_first _ _ _ _ _ So) as (? & ? & RE & _); discriminate RE |].
    pose proof (bi_fits _ _ _ _ _ _ _ _ _ _ _ _ _ Bi) as FITS. assert (ST : sumN (spans [e0; e1; e2; e3; e4]) <= blen src) by (eapply spans_total; eassumption). pose proof (entries_inside _ _ _ _ _ _ _ _ _ _ _ _ _ _ Bi CH) as EI. cbv zeta in EI. hidden EI.
    destruct (sr_ats _ _ _ _ _ So) as (A1 & A2 & A3 & A4). destruct (sr_misc _ _ _ _ _ So) as (BO & b & MI). destruct (header_get p b BO) as (ML & _ & _ & _ & MS & _).
    pose proof (sr_bytes _ _ _ _ _ So) as BS. pose proof (sr_small _ _ _ _ _ So) as SM. pose proof (sr_num _ _ _ _ _ So) as NL.
    set (misc := set_has_metadata (header_bits p) (b2n b)) in *. clearbody misc.
    pose proof (ats_le p out []) as LE. change (2 ^ 32) with 4294967296 in FITS, A3, SM, CH.
    pose proof (sr_members _ _ _ _ _ So) as MB.
    pose proof (MB 0 _ ltac:(reflexivity) ltac:(discriminate) eq_refl) as M0. pose proof (MB 1 _ ltac:(reflexivity) ltac:(discriminate) eq_refl) as M1. pose proof (MB 9 _ ltac:(reflexivity) ltac:(discriminate) eq_refl) as M9.
    pose proof (MB 10 _ ltac:(reflexivity) ltac:(discriminate) eq_refl) as M10. pose proof (MB 11 _ ltac:(reflexivity) ltac:(discriminate) eq_refl) as M11. pose proof (MB 12 _ ltac:(reflexivity) ltac:(discriminate) eq_refl) as M12. clear MB.
    change (32 + 4 * 0) with 32 in M0. change (32 + 4 * 1) with 36 in M1. change (32 + 4 * 9) with 68 in M9. change (32 + 4 * 10) with 72 in M10. change (32 + 4 * 11) with 76 in M11. change (32 + 4 * 12) with 80 in M12.
    destruct (sr_first _ _ _ _ _ So) as (first' & others' & RE & FD). injection RE as <- <-. pose proof (sr_raws _ _ _ _ _ So) as RW.
    unfold bind_clip. change (transform_header + 4) with 36. change (transform_header + 36) with 68. change (transform_header + 40) with 72. change (transform_header + 44) with 76. change (transform_header + 48) with 80. change (transform_header + 32) with 64.
    destruct (load_bytes_in src 8 24) as (hb & LH & HBL); [lia |]. destruct (load_bytes_in src 32 52) as (tb & LT & TBL); [lia |]. change (load_bytes src transform_header 52) with (load_bytes src 32 52). rewrite LH, LT. cbn [bindo].
    rewrite (sr_tracks _ _ _ _ _ So), (sr_samples _ _ _ _ _ So), MI. cbn [bindo]. change (read32 src transform_header) with (read32 src 32). rewrite M0, M1, M9, M10, M11, M12. cbn [bindo].
    replace (transform_header + (headers_at p - 32)) with (headers_at p) by (change transform_header with 32; lia). rewrite RW. cbn [bindo]. rewrite (bi_header _ _ _ _ _ _ _ _ _ _ _ _ _ Bi). cbn [bindo].
    rewrite (bi_e0 _ _ _ _ _ _ _ _ _ _ _ _ _ Bi), (bi_e1 _ _ _ _ _ _ _ _ _ _ _ _ _ Bi), (bi_e2 _ _ _ _ _ _ _ _ _ _ _ _ _ Bi), (bi_e3 _ _ _ _ _ _ _ _ _ _ _ _ _ Bi), (bi_e4 _ _ _ _ _ _ _ _ _ _ _ _ _ Bi). cbn [bindo].
    rewrite FD. set (raws' := first :: others) in *. destruct (layout_bound p out (get_has_scale misc) SA) as [LY LYE]; [rewrite MS; destruct (p_has_scale p); reflexivity | exact (bi_stripped _ _ _ _ _ _ _ _ _ _ _ _ _ Bi) | exact A1 | exact A4 | change (2 ^ 32) with 4294967296; lia | change (2 ^ 32) with 4294967296; lia |].
    rewrite LY. cbn [u_starts u_headers u_types u_constants u_range a_database a_headers a_types a_constants a_range u_end]. clear LY A4.
    set (ss := starts_size p) in *. set (cs := clip_ranges_at p out - constants_at p out) in *. set (ts := types_size p out) in *. set (rs := SA - clip_ranges_at p out) in *.
    set (base := 52 + ss + 4 + 20 * n + ts + cs + rs) in *. 
    assert (BE : base = SA + 4 * n - 28) by lia.
    rewrite (addw_small 32 (52 + ss + 4 + 20 * n + ts + cs) rs) by (fold base; change (2 ^ 32) with 4294967296; lia). fold base.
    destruct (headers_shift tier t tr (skipn 32 src) (bi_sorted _ _ _ _ _ _ _ _ _ _ _ _ _ Bi) _ _ 0 base (bi_ready _ _ _ _ _ _ _ _ _ _ _ _ _ Bi)) as (outs & outs' & e & HS1 & HS2); [change (2 ^ 32) with 4294967296; lia |].
    destruct (headers_ok tier t tr (skipn 32 src) (bi_sorted _ _ _ _ _ _ _ _ _ _ _ _ _ Bi) _ _ 0 base (bi_ready _ _ _ _ _ _ _ _ _ _ _ _ _ Bi)) as (outs2 & e2' & HO1 & LAID & EB); [change (2 ^ 32) with 4294967296; lia |].
    rewrite HS1 in HO1. injection HO1 as <- <-. rewrite HS2. cbn [bindo].
    set (s0 := metadata_span e0 [e1; e2; e3; e4]) in *. set (s1 := metadata_span e1 [e2; e3; e4]) in *. set (s2 := metadata_span e2 [e3; e4]) in *. set (s3 := metadata_span e3 [e4]) in *.
    assert (SPT : s0 + s1 + s2 + s3 <= blen src). { unfold spans in ST. cbn [sumN] in ST. fold s0 s1 s2 s3 in ST. lia. } clear ST.
    pose proof (laid_le _ _ _ _ _ _ _ _ LAID) as EGE.
    destruct (meta_size s0 s1 s2 s3 e) as (Z1 & Z2 & Z3 & Z4 & Z5); [change (2 ^ 32) with 4294967296; lia |]. hidden Z4. hidden Z5. hidden BE.
    set (meta := align_to 32 (addw 32 (align_to 32 (addw 32 (align_to 32 (addw 32 (align_to 32 s0 4) s1) 4) s2) 4) s3) 4) in *.
    set (size := if negb (meta =? 0) then addw 32 (align_to 32 (addw 32 (align_to 32 (32 + e) 4) meta) 4) 20 else addw 32 (32 + e) 15) in *.
    set (start := align_to 32 (32 + e) 4) in *.
    set (misc' := set_has_metadata (set_has_stripped_keyframes (set_has_database misc 1) (b2n (negb (subw 32 (p_num_samples p) (num_remaining outs') =? 0)))) (b2n (negb (meta =? 0)))).
    assert (ML' : misc' < 2 ^ 32) by (apply (hset_lt HasMetadata); [apply (hset_lt HasStrippedKeyframes); [apply (hset_lt HasDatabase); [exact ML | reflexivity] | apply b2n_lt] | apply b2n_lt]).
    assert (HG : get_has_metadata misc' = b2n (negb (meta =? 0))) by (apply (hget_hset_same HasMetadata); [apply (hset_lt HasStrippedKeyframes); [apply (hset_lt HasDatabase); [exact ML | reflexivity] | apply b2n_lt] | apply b2n_lt]).
    assert (B0 : bytes_ok (repeat 0 (N.to_nat size))) by (clear; apply Forall_forall; intros x X; apply repeat_spec in X; subst x; reflexivity).
    assert (L0 : blen (repeat 0 (N.to_nat size)) = size) by (clear; unfold blen; rewrite repeat_length; apply N2Nat.id).
    set (m0 := repeat 0 (N.to_nat size)) in *. clearbody m0 meta start. clearbody size.
    assert (MEQ : exists x y, misc' = set_has_metadata (set_has_stripped_keyframes (set_has_database misc 1) (b2n x)) (b2n y)) by (do 2 eexists; reflexivity). clearbody misc'.
    change (transform_header + align_to 32 transform_header_size 4) with 84. change transform_header with 32. change (N.to_nat 32) with 32%nat.
    replace (32 + (52 + ss)) with (84 + ss) by (clear; lia). replace (32 + (52 + ss + 4)) with (88 + ss) by (clear; lia).
    replace (32 + (52 + ss + 4 + 20 * n)) with (88 + ss + 20 * n) by (clear; lia). replace (32 + (52 + ss + 4 + 20 * n + ts)) with (88 + ss + 20 * n + ts) by (clear; lia). replace (32 + (52 + ss + 4 + 20 * n + ts + cs)) with (88 + ss + 20 * n + ts + cs) by (clear; lia).
    replace (32 + (types_at p - 32)) with (types_at p) by (clear - LE; lia). replace (32 + (constants_at p out - 32)) with (constants_at p out) by (clear - LE; lia). replace (32 + (clip_ranges_at p out - 32)) with (clip_ranges_at p out) by (clear - LE; lia).
    assert (TOP : 88 + ss + 20 * n + ts + cs + rs = 32 + base) by (unfold base; clear; lia).
    assert (GE1 : headers_at p = 84 + ss) by (unfold headers_at; reflexivity).
    assert (GE2 : types_at p + ts <= blen src /\ constants_at p out + cs <= blen src /\ clip_ranges_at p out + rs <= blen src). { unfold constants_at in *. fold ts in LE |- *. unfold cs, rs. clear - LE A1 A2. unfold constants_at. fold ts. lia. }
    assert (GE3 : 84 + ss <= blen src) by (clear - GE1 LE A1 A2; lia).
    assert (LRAW : len raws' = n). { unfold len. rewrite (sr_length _ _ _ _ _ So). reflexivity. }
    assert (LOUT : length outs = length raws') by (rewrite (laid_length _ _ _ _ _ _ _ _ LAID), map_length; reflexivity).
    assert (HB : bytes_ok hb) by (apply (load_bytes_bytes src 8 24 hb BS LH)). assert (TB : bytes_ok tb) by (apply (load_bytes_bytes src 32 52 tb BS LT)).
    destruct (load_placed _ _ _ _ LH) as (PH & _ & _). destruct (load_placed _ _ _ _ LT) as (PT & _ & _).
    assert (HBB : blen hb = 24) by (clear - HBL; unfold blen; lia). assert (TBB : blen tb = 52) by (clear - TBL; unfold blen; lia).
    clear LE LH LT M0 M1 M9 M10 M11 M12 FD RW HBL TBL.
    assert (SZ : 47 + e <= size /\ size + 64 < 4294967296) by (clear - Z2 Z3 EB FITS LYE A2 SPT; lia).
    clear Z2 Z3 EB FITS LYE A1 A2 A3 SPT SM NL GE1. assert (EQ : hide (ss = starts_size p /\ cs = clip_ranges_at p out - constants_at p out /\ ts = types_size p out /\ rs = SA - clip_ranges_at p out)) by (repeat split). clearbody ss cs ts rs base.
    (* the writes *)
    destruct (store_placed m0 8 hb B0 HB) as (m1 & E1 & K1 & P1); [lia |]. rewrite E1. cbn [bindo]. clear E1. pose proof (eq_trans (kept_blen _ _ _ K1) L0) as L1. pose proof (kept_ok _ _ _ K1) as B1.
    destruct (write_word m1 28 misc' B1) as (m2 & E2 & K2 & P2); [lia |]. rewrite E2. cbn [bindo]. clear E2. pose proof (eq_trans (kept_blen _ _ _ K2) L1) as L2. clear L1. pose proof (kept_ok _ _ _ K2) as B2.
    destruct (store_placed m2 32 tb B2 TB) as (m3 & E3 & K3 & P3); [lia |]. rewrite E3. cbn [bindo]. clear E3. pose proof (eq_trans (kept_blen _ _ _ K3) L2) as L3. clear L2. pose proof (kept_ok _ _ _ K3) as B3.
    destruct (write_word m3 64 (52 + ss) B3) as (m4 & E4 & K4 & P4); [lia |]. rewrite E4. cbn [bindo]. clear E4. pose proof (eq_trans (kept_blen _ _ _ K4) L3) as L4. clear L3. pose proof (kept_ok _ _ _ K4) as B4.
    destruct (write_word m4 68 (52 + ss + 4) B4) as (m5 & E5 & K5 & P5); [lia |]. rewrite E5. cbn [bindo]. clear E5. pose proof (eq_trans (kept_blen _ _ _ K5) L4) as L5. clear L4. pose proof (kept_ok _ _ _ K5) as B5.
    destruct (write_word m5 72 (52 + ss + 4 + 20 * n) B5) as (m6 & E6 & K6 & P6); [lia |]. rewrite E6. cbn [bindo]. clear E6. pose proof (eq_trans (kept_blen _ _ _ K6) L5) as L6. clear L5. pose proof (kept_ok _ _ _ K6) as B6.
    destruct (write_word m6 76 (52 + ss + 4 + 20 * n + ts) B6) as (m7 & E7 & K7 & P7); [lia |]. rewrite E7. cbn [bindo]. clear E7. pose proof (eq_trans (kept_blen _ _ _ K7) L6) as L7. clear L6. pose proof (kept_ok _ _ _ K7) as B7.
    destruct (write_word m7 80 (52 + ss + 4 + 20 * n + ts + cs) B7) as (m8 & E8 & K8 & P8); [lia |]. rewrite E8. cbn [bindo]. clear E8. pose proof (eq_trans (kept_blen _ _ _ K8) L7) as L8. clear L7. pose proof (kept_ok _ _ _ K8) as B8.
    assert (X9 : exists m9, (if 1 <? n then copy_bytes m8 84 src 84 ss else Ok m8) = Ok m9 /\ kept_below 84 m8 m9 /\ (1 < n -> same_at m9 84 src 84 ss)).
    { destruct (N.ltb_spec 1 n) as [H | H]; [| exists m8; split; [reflexivity |]; split; [apply kept_refl, B8 | lia]].
      destruct (copy_same m8 84 src 84 ss B8 BS) as (m9 & E9 & K9 & S9); [lia | lia |]. exists m9. auto. }
    destruct X9 as (m9 & E9 & K9 & P9). rewrite E9. cbn [bindo]. clear E9. pose proof (eq_trans (kept_blen _ _ _ K9) L8) as L9. clear L8. pose proof (kept_ok _ _ _ K9) as B9.
    destruct (write_word m9 (84 + ss) clip_header B9) as (m10 & E10 & K10 & P10); [lia |]. rewrite E10. cbn [bindo]. clear E10. pose proof (eq_trans (kept_blen _ _ _ K10) L9) as L10. clear L9. pose proof (kept_ok _ _ _ K10) as B10.
    rewrite HS1. cbn [bindo].
    destruct (stripped_headers_ok raws' outs (88 + ss) m10 LOUT B10) as (m11 & E11 & K11 & P11); [rewrite LRAW; lia |]. rewrite E11. cbn [bindo]. clear E11. pose proof (eq_trans (kept_blen _ _ _ K11) L10) as L11. clear L10. pose proof (kept_ok _ _ _ K11) as B11.
    destruct (copy_same m11 (88 + ss + 20 * n) src (types_at p) ts B11 BS) as (m12 & E12 & K12 & P12); [lia | lia |]. rewrite E12. cbn [bindo]. clear E12. pose proof (eq_trans (kept_blen _ _ _ K12) L11) as L12. clear L11. pose proof (kept_ok _ _ _ K12) as B12.
    destruct (copy_same m12 (88 + ss + 20 * n + ts) src (constants_at p out) cs B12 BS) as (m13 & E13 & K13 & P13); [lia | lia |]. rewrite E13. cbn [bindo]. clear E13. pose proof (eq_trans (kept_blen _ _ _ K13) L12) as L13. clear L12. pose proof (kept_ok _ _ _ K13) as B13.
    destruct (copy_same m13 (88 + ss + 20 * n + ts + cs) src (clip_ranges_at p out) rs B13 BS) as (m14 & E14 & K14 & P14); [lia | lia |]. rewrite E14. cbn [bindo]. clear E14. pose proof (eq_trans (kept_blen _ _ _ K14) L13) as L14. clear L13. pose proof (kept_ok _ _ _ K14) as B14.
    assert (B14' : bytes_ok (skipn 32 m14)) by (apply bytes_ok_skipn, B14). assert (BS' : bytes_ok (skipn 32 src)) by (apply bytes_ok_skipn, BS).
    assert (L14' : blen (skipn 32 m14) = size - 32) by (clear - L14 SZ; change 32%nat with (N.to_nat 32); rewrite skip_blen by lia; lia).
    destruct (data_ok tier t tr (skipn 32 src) BS' _ outs _ 0 base e (skipn 32 m14) (bi_ready _ _ _ _ _ _ _ _ _ _ _ _ _ Bi) LAID B14') as (d & E15 & S15 & P15); [lia |]. rewrite E15. cbn [bindo]. clear E15.
    destruct (joined m14 d base (8 * e) B14) as [K15 J15]; [lia | lia | exact S15 |]. set (m15 := firstn 32 m14 ++ d) in *. clearbody m15. pose proof (eq_trans (kept_blen _ _ _ K15) L14) as L15. clear L14. pose proof (kept_ok _ _ _ K15) as B15.
    assert (X16 : exists m16, (if meta =? 0 then Ok m15
         else
           let h := subw 64 size 20 in
           bindo (put_entry m15 h s0 start) (fun '(m, offset) =>
           bindo (put_entry m (h + 4) s1 offset) (fun '(m, offset) =>
           bindo (put_entry m (h + 8) s2 offset) (fun '(m, offset) =>
           bindo (put_entry m (h + 12) s3 offset) (fun '(m, _) =>
           bindo (write32 m (h + 16) invalid_ptr) (fun m =>
           bindo (copy_entry m h src e0 s0) (fun m =>
           bindo (copy_entry m (h + 4) src e1 s1) (fun m =>
           bindo (copy_entry m (h + 8) src e2 s2) (fun m =>
           copy_entry m (h + 12) src e3 s3))))))))) = Ok m16 /\ kept_below start m15 m16 /\
       ((meta =? 0) = false -> let h := size - 20 in read32 m16 (h + 16) = Ok invalid_ptr /\ entry_copied m16 h src e0 s0 /\ entry_copied m16 (h + 4) src e1 s1 /\ entry_copied m16 (h + 8) src e2 s2 /\ entry_copied m16 (h + 12) src e3 s3)).
    { destruct (N.eqb_spec meta 0) as [Zm | Zm]; [exists m15; split; [reflexivity |]; split; [apply kept_refl, B15 | discriminate] |]. destruct (Z5 Zm) as (Y1 & Y2 & Y3). cbv zeta. rewrite Y1.
      destruct EI as (I0 & I1 & I2 & I3). clear - B15 BS Y1 Y2 Y3 I0 I1 I2 I3 SZ L15 Z1 EGE TOP.
      destruct (metadata_copied m15 src (size - 20) start e0 e1 e2 e3 s0 s1 s2 s3 B15 BS) as (m16 & E16 & K16 & Q16); [lia | lia | change invalid_ptr with 4294967295; lia | lia | exact I0 | exact I1 | exact I2 | exact I3 |].
      exists m16. split; [exact E16 |]. split; [exact K16 |]. intros _. exact Q16. }
    destruct X16 as (m16 & E16 & K16 & P16). cbv zeta in E16. rewrite E16. cbn [bindo]. clear E16. pose proof (eq_trans (kept_blen _ _ _ K16) L15) as L16. clear L15. pose proof (kept_ok _ _ _ K16) as B16.
    destruct (finished m16 size B16) as (m & EF & LF & BF & AF & RF & HF); [lia | lia | change (2 ^ 32) with 4294967296; lia |]. rewrite EF. clear EF. exists m, outs. split; [reflexivity |].
    (* what stays *)
    pose proof (kept_trans (32 + base) start m14 m15 m16 K15 K16 ltac:(lia)) as T14. pose proof (kept_trans _ _ m13 m14 m16 K14 T14 ltac:(lia)) as T13. pose proof (kept_trans _ _ m12 m13 m16 K13 T13 ltac:(lia)) as T12.
    pose proof (kept_trans _ _ m11 m12 m16 K12 T12 ltac:(lia)) as T11. pose proof (kept_trans _ _ m10 m11 m16 K11 T11 ltac:(lia)) as T10. pose proof (kept_trans _ _ m9 m10 m16 K10 T10 ltac:(lia)) as T9.
    pose proof (kept_trans _ _ m8 m9 m16 K9 T9 ltac:(lia)) as T8. pose proof (kept_trans _ _ m7 m8 m16 K8 T8 ltac:(lia)) as T7. pose proof (kept_trans _ _ m6 m7 m16 K7 T7 ltac:(lia)) as T6. pose proof (kept_trans _ _ m5 m6 m16 K6 T6 ltac:(lia)) as T5.
    pose proof (kept_trans _ _ m4 m5 m16 K5 T5 ltac:(lia)) as T4. pose proof (kept_trans _ _ m3 m4 m16 K4 T4 ltac:(lia)) as T3. pose proof (kept_trans _ _ m2 m3 m16 K3 T3 ltac:(lia)) as T2. pose proof (kept_trans _ _ m1 m2 m16 K2 T2 ltac:(lia)) as T1.
    assert (WD : forall mi off w lim, placed mi off (words [w]) -> kept_below lim mi m16 -> off + 4 <= lim -> 8 <= off -> w < 4294967296 -> read32 m off = Ok w).
    { intros mi off w lim P K H H8 W. rewrite (agree_read m16 m off LF AF H8). apply word_read; [| exact W]. apply (kept_placed lim mi m16 off _ K P). rewrite words_blen. change (len [w]) with 1. lia. }
    assert (SD : forall mi a b k lim, same_at mi a src b k -> kept_below lim mi m16 -> a + k <= lim -> 8 <= a -> same_at m a src b k).
    { intros mi a b0 k lim S K H H8. apply (agree_same m16 m _ _ _ _ AF H8). apply (kept_same_at lim mi m16 a src b0 k K H S). }
    assert (RM : read32 m 28 = Ok misc') by (apply (WD m2 28 misc' 32 P2 T2); [lia | lia | exact ML']).
    clear K1 K2 K3 K4 K5 K6 K7 K8 K9 K10 K11 K12 K13 K14 K15 B0 B1 B2 B3 B4 B5 B6 B7 B8 B9 B10 B11 B12 B13 B14 L0.
    destruct EQ as (EQ1 & EQ2 & EQ3 & EQ4). subst ss ts cs rs. set (ss := starts_size p) in *. set (cs := clip_ranges_at p out - constants_at p out) in *. set (ts := types_size p out) in *. set (rs := SA - clip_ranges_at p out) in *.
    split.
    - constructor; fold ss; fold cs; fold ts; fold rs; clearbody ss cs ts rs.
      + exact BF.
      + lia.
      + exact HF.
      + apply (SD m1 8 8 20 28); [| exact T1 | lia | lia]. pose proof (placed_same m1 8 src 8 hb P1 PH) as Q. rewrite HBB in Q. pose proof (same_at_part _ _ _ _ _ 0 20 Q ltac:(lia)) as Q2. rewrite !N.add_0_r in Q2. exact Q2.
      + destruct MEQ as (x & y & MEQ). exists misc, x, y. split; [exact MI |]. rewrite <- MEQ. exact RM.
      + apply (SD m3 32 32 32 64); [| exact T3 | lia | lia]. pose proof (placed_same m3 32 src 32 tb P3 PT) as Q. rewrite TBB in Q. pose proof (same_at_part _ _ _ _ _ 0 32 Q ltac:(lia)) as Q2. rewrite !N.add_0_r in Q2. exact Q2.
      + cbv zeta. split; [apply (WD m4 64 _ 68 P4 T4); lia |]. split; [apply (WD m5 68 _ 72 P5 T5); lia |]. split; [apply (WD m6 72 _ 76 P6 T6); lia |]. split; [apply (WD m7 76 _ 80 P7 T7); lia |]. apply (WD m8 80 _ 84 P8 T8); lia.
      + intros H. apply (SD m9 84 84 ss (84 + ss) (P9 H) T9); lia.
      + apply (WD m10 (84 + ss) _ (88 + ss) P10 T10); lia.
      + intros i r o Er Eo. apply (agree_placed m16 m _ _ AF); [lia |]. assert (Hi : (i < length raws')%nat) by (apply nth_error_Some; congruence). apply (kept_placed _ m11 m16 _ _ T11 (P11 i r o Er Eo)).
        rewrite words_blen. change (len (stripped_words r o)) with 5. unfold len in LRAW. lia.
      + apply (SD m12 _ _ _ _ P12 T12); lia.
      + apply (SD m13 _ _ _ _ P13 T13); lia.
      + apply (SD m14 _ _ _ _ P14 T14); lia.
      + exists e. split; [unfold hide in BE; rewrite <- BE; exact LAID | lia].
      + intros i h o Eh Eo. rewrite (agree_skip m16 m AF). destruct (laid_nth _ _ _ _ _ _ _ _ _ _ _ LAID Eh Eo) as (o1 & o2 & SF & G1 & G2). rewrite N.add_0_l in SF.
        pose proof (P15 i h o Eh Eo) as SK. rewrite N.add_0_l in SK. rewrite <- J15 in SK. eapply (kept_same _ _ _ _ _ _ _ _ _ _ _ (8 * e) (8 * blen m15) SF); [| left; lia | exact SK].
        apply kept_after; [exact B15 | rewrite <- (kept_blen _ _ _ K16); lia |]. apply (kept_weaken (32 + e) start _ _ K16). lia.
    - unfold metadata_kept, has_metadata, metadata_header, h_misc, h_size. rewrite RM, RF. cbn [bindo]. fold s0 s1 s2 s3.
      rewrite HG. destruct (N.eqb_spec meta 0) as [Zm | Zm].
      + left. split; [reflexivity |]. exact (Z4 Zm).
      + right. split; [reflexivity |]. destruct (Z5 Zm) as (Y1 & Y2 & Y3). exists (size - 20). split; [rewrite Y1; reflexivity |].
        destruct (P16 eq_refl) as (Q0 & Q1 & Q2 & Q3 & Q4). split; [rewrite (agree_read m16 m _ LF AF) by lia; exact Q0 |].
        repeat split; apply (agree_entry m16 m _ _ _ _ LF AF); (assumption || lia).
  Qed.
End Fill.
