(** The parts of a clip that is bound to a database: its layout, the headers of its segments, its metadata. *)
From Coq Require Import Lia Sorted.
From Verif Require Import Word WordFacts Pieces MemoryUtils MemoryFacts DbTiers DbBuild ClipRewrite SeekSpec BuildSpec ByteFacts RewriteFacts Headers ScalarEnc ScalarDec ScalarWrite ScalarMeta
  LayoutFacts SubTracks TransDec TransSpec TransClipSpec TransEncSpec TransSeek TransRing TransMem TransEnc TransFile TransFileSizes TransFileFacts TransFileSegs TransFilePack TransBind TransBindMem.
Import ListNotations.
Local Open Scope N_scope.
Ltac Zify.zify_post_hook ::= idtac.

(** * The layout *)
Lemma layout_bound p out has_scale SA : is_set has_scale = p_has_scale p -> p_stripped p = false -> clip_ranges_at p out <= SA -> SA mod 4 = 0 -> SA + 4 * num_segments p + 64 < 2 ^ 32 -> len out + 16 < 2 ^ 32 ->
  let db := 52 + starts_size p in let hd := db + 4 in let ty := hd + 20 * num_segments p in let co := ty + types_size p out in let ra := co + (clip_ranges_at p out - constants_at p out) in
  layout_of (len out) has_scale (num_segments p) (constants_at p out - 32) (clip_ranges_at p out - 32) (SA - 32) =
  {| u_starts := starts_size p; u_headers := 20 * num_segments p; u_types := types_size p out; u_constants := clip_ranges_at p out - constants_at p out; u_range := SA - clip_ranges_at p out;
     a_database := db; a_headers := hd; a_types := ty; a_constants := co; a_range := ra; u_end := 32 + (ra + (SA - clip_ranges_at p out)) |} /\
  ra + (SA - clip_ranges_at p out) + 28 = SA + 4 * num_segments p.
Proof.
  intros HS St CS SM W SO. cbv zeta. revert SM. pose proof (ats_le p out []) as LE.
  assert (HZ : headers_size p = 16 * num_segments p) by (unfold headers_size, header_stride; rewrite St; reflexivity).
  assert (SZ : clip_ranges_at p out = 84 + starts_size p + 16 * num_segments p + types_size p out + constants_size (formats_of p) out) by (unfold clip_ranges_at, constants_at, types_at, headers_at; lia).
  assert (CZ : clip_ranges_at p out - constants_at p out = constants_size (formats_of p) out) by (unfold clip_ranges_at; lia).
  unfold layout_of. rewrite HS.
  assert (E3 : mulw 32 (mulw 32 (addw 32 (len out) 15 / 16) (if p_has_scale p then 3 else 2)) 4 = types_size p out).
  { rewrite addw_small by lia. replace (len out + 15) with (len out + 16 - 1) by lia. fold (num_sub_track_entries (len out)). 
    assert (T0 : num_sub_track_entries (len out) * (if p_has_scale p then 3 else 2) * 4 = types_size p out) by (unfold types_size; lia).
    rewrite (mulw_small 32 (num_sub_track_entries (len out))) by lia. rewrite mulw_small by lia. exact T0. }
  rewrite E3.
  assert (E4 : (if 1 <? num_segments p then mulw 32 4 (addw 32 (num_segments p) 1) else 0) = starts_size p).
  { unfold starts_size in *. destruct (1 <? num_segments p); [| reflexivity]. rewrite addw_small by lia. apply mulw_small. lia. }
  rewrite E4. rewrite (mulw_small 32 20) by lia. rewrite !(subw_ge 32) by lia.
  replace (clip_ranges_at p out - 32 - (constants_at p out - 32)) with (clip_ranges_at p out - constants_at p out) by lia. replace (SA - 32 - (clip_ranges_at p out - 32)) with (SA - clip_ranges_at p out) by lia. rewrite CZ.
  cbv zeta. change (transform_header + transform_header_size) with 84. change (align_to 32 transform_header_size 4) with 52. change (align_to 32 84 4) with 84.
  set (S := starts_size p) in *. set (T := types_size p out) in *. set (C := constants_size (formats_of p) out) in *. set (n := num_segments p) in *. set (CR := SA - clip_ranges_at p out) in *.
  assert (BIG : 84 + S + 20 * n + 4 + T + C + CR + 56 < 4294967296) by (unfold CR; change (2 ^ 32) with 4294967296 in W; clear - W SZ CS; lia).
  assert (FIN : 52 + S + 4 + 20 * n + T + C + CR + 28 = SA + 4 * n) by (unfold CR; clear - SZ CS; lia).
  intros SM. destruct (ats_mod p out) as (A1 & A2 & A3 & A4 & _). destruct (parts_mod p out) as (M1 & _ & M3 & M4 & _). fold S T C in M1, M3, M4.
  assert (CM : CR mod 4 = 0).
  { unfold CR. pose proof (N.div_mod SA 4 ltac:(discriminate)) as D1. pose proof (N.div_mod (clip_ranges_at p out) 4 ltac:(discriminate)) as D2. rewrite SM in D1. rewrite A4 in D2.
    replace (SA - clip_ranges_at p out) with (4 * (SA / 4 - clip_ranges_at p out / 4)) by (clear - D1 D2 CS; lia). apply mod_mul. discriminate. }
  assert (NM : (20 * n) mod 4 = 0) by (replace (20 * n) with (4 * (5 * n)) by (clear; lia); apply mod_mul; discriminate).
  assert (AD : forall a b, a mod 4 = 0 -> b mod 4 = 0 -> (a + b) mod 4 = 0) by exact mod4_add.
  assert (ID : forall x, x mod 4 = 0 -> x + 3 < 2 ^ 32 -> align_to 32 x 4 = x) by (intros x X1 X2; apply al4_id; [left; reflexivity | exact X1 | exact X2]).
  assert (Q1 : (84 + S) mod 4 = 0) by (apply AD; [reflexivity | exact M1]).
  assert (Q2 : (84 + S + 20 * n) mod 4 = 0) by (apply AD; assumption).
  assert (Q3 : (84 + S + 20 * n + 4) mod 4 = 0) by (apply AD; [assumption | reflexivity]).
  assert (Q4 : (84 + S + 20 * n + 4 + T) mod 4 = 0) by (apply AD; assumption).
  assert (Q5 : (84 + S + 20 * n + 4 + T + C) mod 4 = 0) by (apply AD; assumption).
  assert (P1 : (52 + S) mod 4 = 0) by (apply AD; [reflexivity | exact M1]).
  assert (P2 : (52 + S + 4) mod 4 = 0) by (apply AD; [assumption | reflexivity]).
  assert (P3 : (52 + S + 4 + 20 * n) mod 4 = 0) by (apply AD; assumption).
  assert (P4 : (52 + S + 4 + 20 * n + T) mod 4 = 0) by (apply AD; assumption).
  assert (P5 : (52 + S + 4 + 20 * n + T + C) mod 4 = 0) by (apply AD; assumption).
  split; [| exact FIN].
  rewrite (addw_small 32 84 S) by (change (2 ^ 32) with 4294967296; clear - BIG; clearbody CR; lia). rewrite (ID (84 + S) Q1) by (change (2 ^ 32) with 4294967296; clear - BIG; clearbody CR; lia). rewrite (addw_small 32 (84 + S)) by (change (2 ^ 32) with 4294967296; clear - BIG; clearbody CR; lia). rewrite (ID _ Q2) by (change (2 ^ 32) with 4294967296; clear - BIG; clearbody CR; lia). rewrite (addw_small 32 (84 + S + 20 * n)) by (change (2 ^ 32) with 4294967296; clear - BIG; clearbody CR; lia). rewrite (ID _ Q3) by (change (2 ^ 32) with 4294967296; clear - BIG; clearbody CR; lia).
  rewrite (addw_small 32 (84 + S + 20 * n + 4)) by (change (2 ^ 32) with 4294967296; clear - BIG; clearbody CR; lia). rewrite (ID _ Q4) by (change (2 ^ 32) with 4294967296; clear - BIG; clearbody CR; lia). rewrite (addw_small 32 (84 + S + 20 * n + 4 + T)) by (change (2 ^ 32) with 4294967296; clear - BIG; clearbody CR; lia). rewrite (ID _ Q5) by (change (2 ^ 32) with 4294967296; clear - BIG; clearbody CR; lia). rewrite (addw_small 32 (84 + S + 20 * n + 4 + T + C)) by (change (2 ^ 32) with 4294967296; clear - BIG; clearbody CR; lia).
  rewrite (addw_small 32 52 S) by (change (2 ^ 32) with 4294967296; clear - BIG; clearbody CR; lia). rewrite (ID _ P1) by (change (2 ^ 32) with 4294967296; clear - BIG; clearbody CR; lia). rewrite (addw_small 32 (52 + S)) by (change (2 ^ 32) with 4294967296; clear - BIG; clearbody CR; lia). rewrite (ID _ P2) by (change (2 ^ 32) with 4294967296; clear - BIG; clearbody CR; lia). rewrite (addw_small 32 (52 + S + 4)) by (change (2 ^ 32) with 4294967296; clear - BIG; clearbody CR; lia). rewrite (ID _ P3) by (change (2 ^ 32) with 4294967296; clear - BIG; clearbody CR; lia).
  rewrite (addw_small 32 (52 + S + 4 + 20 * n)) by (change (2 ^ 32) with 4294967296; clear - BIG; clearbody CR; lia). rewrite (ID _ P4) by (change (2 ^ 32) with 4294967296; clear - BIG; clearbody CR; lia). rewrite (addw_small 32 (52 + S + 4 + 20 * n + T)) by (change (2 ^ 32) with 4294967296; clear - BIG; clearbody CR; lia). rewrite (ID _ P5) by (change (2 ^ 32) with 4294967296; clear - BIG; clearbody CR; lia).
  f_equal. clear - BIG. lia.
Qed.

(** * The headers of the segments *)
Lemma stripped_headers_ok rs : forall os at_ m, length os = length rs -> bytes_ok m -> at_ + 20 * len rs <= blen m ->
  exists m', write_stripped_headers rs os at_ m = Ok m' /\ kept_below at_ m m' /\
    forall i r o, nth_error rs i = Some r -> nth_error os i = Some o -> placed m' (at_ + 20 * N.of_nat i) (words (stripped_words r o)).
Proof.
  induction rs as [| r rs IH]; intros [| o os] at_ m L B W; try discriminate.
  - exists m. split; [reflexivity |]. split; [apply kept_refl, B |]. intros [|]; discriminate.
  - cbn [write_stripped_headers]. rewrite len_cons in W. assert (BW : blen (words (stripped_words r o)) = 20) by (rewrite words_blen; reflexivity).
    destruct (store_placed m at_ (words (stripped_words r o)) B (words_ok _)) as (m1 & E1 & K1 & P1); [rewrite BW; lia |]. rewrite E1. cbn [bindo].
    destruct (IH os (at_ + 20) m1 ltac:(injection L; auto) (kept_ok _ _ _ K1)) as (m2 & E2 & K2 & P2); [rewrite (kept_blen _ _ _ K1); lia |].
    exists m2. split; [exact E2 |]. split; [apply (kept_trans at_ (at_ + 20) m m1 m2 K1 K2); lia |].
    intros [| i] r' o' Er Eo.
    + injection Er as <-. injection Eo as <-. change (N.of_nat 0) with 0. rewrite N.mul_0_r, N.add_0_r. apply (kept_placed (at_ + 20) m1 m2 at_ _ K2 P1). lia.
    + cbn [nth_error] in Er, Eo. replace (at_ + 20 * N.of_nat (S i)) with (at_ + 20 + 20 * N.of_nat i) by lia. apply P2; assumption.
Qed.

(** * The metadata *)
(** the offsets that are present are in order, up to [hi] *)
Fixpoint entries_ok (lo : N) (l : list N) (hi : N) : Prop :=
  match l with
  | [] => lo <= hi
  | e :: t => if ptr_is_valid e then lo <= e /\ entries_ok e t hi else entries_ok lo t hi
  end.
Fixpoint spans (l : list N) : list N := match l with [] => [] | [_] => [] | e :: t => metadata_span e t :: spans t end.
Lemma spans_ok hi last : ptr_is_valid last = true -> hi < 2 ^ 32 -> forall l lo, entries_ok lo (l ++ [last]) hi ->
  exists n, find ptr_is_valid (l ++ [last]) = Some n /\ lo <= n /\ n + sumN (spans (l ++ [last])) <= hi.
Proof.
  intros V H. induction l as [| e l IH]; intros lo E.
  - cbn [app entries_ok find spans sumN] in *. rewrite V in *. exists last. split; [reflexivity |]. lia.
  - cbn [app entries_ok find] in *. assert (SP : spans (e :: l ++ [last]) = metadata_span e (l ++ [last]) :: spans (l ++ [last])) by (destruct l; reflexivity). rewrite SP. cbn [sumN]. unfold metadata_span.
    destruct (ptr_is_valid e) eqn:Ve; cbn [negb].
    + destruct E as [E1 E2]. destruct (IH e E2) as (n & F & L1 & L2). rewrite F. exists e. split; [reflexivity |]. rewrite subw_ge by lia. lia.
    + destruct (IH lo E) as (n & F & L1 & L2). exists n. split; [exact F |]. lia.
Qed.
(** an entry lies in the buffer *)
Lemma span_inside hi last : ptr_is_valid last = true -> hi < 2 ^ 32 -> forall l lo e, entries_ok lo (e :: l ++ [last]) hi -> metadata_span e (l ++ [last]) <> 0 -> e + metadata_span e (l ++ [last]) <= hi.
Proof.
  intros V H l lo e E NZ. unfold metadata_span in *. cbn [entries_ok] in E. destruct (ptr_is_valid e); cbn [negb] in *; [| congruence]. destruct E as [_ E]. destruct (spans_ok hi last V H l e E) as (n & F & L1 & L2). rewrite F in *.
  rewrite subw_ge in * by lia. lia.
Qed.
Lemma span_lt hi last : ptr_is_valid last = true -> hi < 2 ^ 32 -> forall l lo e, entries_ok lo (e :: l ++ [last]) hi -> metadata_span e (l ++ [last]) <= hi.
Proof.
  intros V H l lo e E. destruct (N.eq_dec (metadata_span e (l ++ [last])) 0) as [Z | Z]; [lia |]. pose proof (span_inside hi last V H l lo e E Z). lia.
Qed.

Lemma put_entry_ok m h s off : bytes_ok m -> h + 4 <= blen m -> off + s < 2 ^ 32 -> off < invalid_ptr ->
  exists m', put_entry m h s off = Ok (m', off + s) /\ same_but (8 * h) (8 * (h + 4)) m m' /\ read32 m' h = Ok (if s =? 0 then invalid_ptr else off).
Proof.
  intros B L W V. unfold put_entry. destruct (N.eqb_spec s 0) as [-> | Z]; cbn [negb].
  - destruct (write32_ok m h invalid_ptr B L) as (m' & E & SB & R); [reflexivity |]. rewrite E. cbn [bindo]. rewrite N.add_0_r. exists m'. auto.
  - destruct (write32_ok m h off B L) as (m' & E & SB & R); [lia |]. rewrite E. cbn [bindo]. rewrite addw_small by exact W. exists m'. auto.
Qed.
(** copying the content of an entry to [off] *)
Lemma copy_entry_ok m h src e s off lim : bytes_ok m -> bytes_ok src -> (s <> 0 -> read32 m h = Ok off) -> (s <> 0 -> e + s <= blen src) -> off + s <= lim -> lim <= blen m ->
  exists m', copy_entry m h src e s = Ok m' /\ blen m' = blen m /\ bytes_ok m' /\ kept_below off m m' /\ (forall x, lim <= x -> read32 m' x = read32 m x) /\ (s <> 0 -> same_at m' off src e s).
Proof.
  intros B BS R L W LM. unfold copy_entry. destruct (N.eqb_spec s 0) as [-> | Z].
  - exists m. split; [reflexivity |]. split; [reflexivity |]. split; [exact B |]. split; [apply kept_refl, B |]. split; [reflexivity |]. congruence.
  - rewrite (R Z). cbn [bindo]. destruct (copy_bytes_ok m off src e s B BS) as (m' & E & SB & BE); [lia | exact (L Z) |]. exists m'. pose proof (same_but_blen _ _ _ _ SB) as BL. pose proof (same_but_ok _ _ _ _ SB) as B'.
    split; [exact E |]. split; [exact BL |]. split; [exact B' |]. split; [apply (same_but_kept off _ m m' B ltac:(lia) SB) |]. split.
    + intros x Hx. apply (read32_same m m' x _ _ B SB). lia.
    + intros _. apply bits_same_at; try assumption; [lia | exact (L Z)].
Qed.

(** what is found of an entry in the new clip *)
Definition entry_copied (m : list N) (h : N) (src : list N) (e s : N) : Prop :=
  if s =? 0 then read32 m h = Ok invalid_ptr else exists o, read32 m h = Ok o /\ 32 <= o /\ o <> invalid_ptr /\ o + s <= blen m /\ same_at m o src e s.

Lemma metadata_copied m src h start e0 e1 e2 e3 s0 s1 s2 s3 : bytes_ok m -> bytes_ok src -> 32 <= start -> h + 20 <= blen m -> blen m < invalid_ptr -> start + s0 + s1 + s2 + s3 <= h ->
  (s0 <> 0 -> e0 + s0 <= blen src) -> (s1 <> 0 -> e1 + s1 <= blen src) -> (s2 <> 0 -> e2 + s2 <= blen src) -> (s3 <> 0 -> e3 + s3 <= blen src) ->
  exists m', bindo (put_entry m h s0 start) (fun '(m, offset) =>
           bindo (put_entry m (h + 4) s1 offset) (fun '(m, offset) =>
           bindo (put_entry m (h + 8) s2 offset) (fun '(m, offset) =>
           bindo (put_entry m (h + 12) s3 offset) (fun '(m, _) =>
           bindo (write32 m (h + 16) invalid_ptr) (fun m =>
           bindo (copy_entry m h src e0 s0) (fun m =>
           bindo (copy_entry m (h + 4) src e1 s1) (fun m =>
           bindo (copy_entry m (h + 8) src e2 s2) (fun m =>
           copy_entry m (h + 12) src e3 s3)))))))) = Ok m' /\
    kept_below start m m' /\ read32 m' (h + 16) = Ok invalid_ptr /\
    entry_copied m' h src e0 s0 /\ entry_copied m' (h + 4) src e1 s1 /\ entry_copied m' (h + 8) src e2 s2 /\ entry_copied m' (h + 12) src e3 s3.
Proof.
  change invalid_ptr with 4294967295. intros B BS L32 LH LM LS L0 L1 L2 L3.
  assert (P : forall m h s off, bytes_ok m -> h + 4 <= blen m -> off + s < 4294967295 -> exists m', put_entry m h s off = Ok (m', off + s) /\ same_but (8 * h) (8 * (h + 4)) m m' /\ read32 m' h = Ok (if s =? 0 then 4294967295 else off)).
  { intros. apply put_entry_ok; [assumption | assumption | change (2 ^ 32) with 4294967296; lia | change invalid_ptr with 4294967295; lia]. }
  destruct (P m h s0 start B ltac:(lia) ltac:(lia)) as (m1 & E1 & S1 & R1). rewrite E1. cbn [bindo]. clear E1. pose proof (same_but_blen _ _ _ _ S1) as BL1. pose proof (same_but_ok _ _ _ _ S1) as B1.
  destruct (P m1 (h + 4) s1 (start + s0) B1 ltac:(lia) ltac:(lia)) as (m2 & E2 & S2 & R2). rewrite E2. cbn [bindo]. clear E2. pose proof (same_but_blen _ _ _ _ S2) as BL2. pose proof (same_but_ok _ _ _ _ S2) as B2.
  destruct (P m2 (h + 8) s2 (start + s0 + s1) B2 ltac:(lia) ltac:(lia)) as (m3 & E3 & S3 & R3). rewrite E3. cbn [bindo]. clear E3. pose proof (same_but_blen _ _ _ _ S3) as BL3. pose proof (same_but_ok _ _ _ _ S3) as B3.
  destruct (P m3 (h + 12) s3 (start + s0 + s1 + s2) B3 ltac:(lia) ltac:(lia)) as (m4 & E4 & S4 & R4). rewrite E4. cbn [bindo]. clear E4. pose proof (same_but_blen _ _ _ _ S4) as BL4. pose proof (same_but_ok _ _ _ _ S4) as B4.
  destruct (write32_ok m4 (h + 16) 4294967295 B4 ltac:(lia) ltac:(reflexivity)) as (m5 & E5 & S5 & R5). rewrite E5. cbn [bindo]. clear E5. pose proof (same_but_blen _ _ _ _ S5) as BL5. pose proof (same_but_ok _ _ _ _ S5) as B5.
  assert (Q0 : read32 m5 h = read32 m1 h). { rewrite (read32_same m4 m5 h _ _ B4 S5) by lia. rewrite (read32_same m3 m4 h _ _ B3 S4) by lia. rewrite (read32_same m2 m3 h _ _ B2 S3) by lia. apply (read32_same m1 m2 h _ _ B1 S2). lia. }
  assert (Q1 : read32 m5 (h + 4) = read32 m2 (h + 4)). { rewrite (read32_same m4 m5 _ _ _ B4 S5) by lia. rewrite (read32_same m3 m4 _ _ _ B3 S4) by lia. apply (read32_same m2 m3 _ _ _ B2 S3). lia. }
  assert (Q2 : read32 m5 (h + 8) = read32 m3 (h + 8)). { rewrite (read32_same m4 m5 _ _ _ B4 S5) by lia. apply (read32_same m3 m4 _ _ _ B3 S4). lia. }
  assert (Q3 : read32 m5 (h + 12) = read32 m4 (h + 12)) by (apply (read32_same m4 m5 _ _ _ B4 S5); lia).
  rewrite R1 in Q0. rewrite R2 in Q1. rewrite R3 in Q2. rewrite R4 in Q3. clear R1 R2 R3 R4.
  assert (K : forall a b x, bytes_ok a -> h <= blen a -> h <= x -> same_but (8 * x) (8 * (x + 4)) a b -> kept_below h a b).
  { intros a b x Ba La Hx S. apply (same_but_kept h (8 * (x + 4)) a b Ba La). eapply same_but_weaken; [exact S | lia | lia]. }
  assert (K5 : kept_below h m m5).
  { apply (kept_trans h h m m1); [apply (K _ _ h B); [lia | lia | exact S1] | | lia]. apply (kept_trans h h m1 m2); [apply (K _ _ (h + 4) B1); [lia | lia | exact S2] | | lia].
    apply (kept_trans h h m2 m3); [apply (K _ _ (h + 8) B2); [lia | lia | exact S3] | | lia]. apply (kept_trans h h m3 m4); [apply (K _ _ (h + 12) B3); [lia | lia | exact S4] | | lia].
    apply (K _ _ (h + 16) B4); [lia | lia | exact S5]. }
  clear S1 S2 S3 S4 S5 B1 B2 B3 B4 K P.
  assert (Z : forall s x, s <> 0 -> (if s =? 0 then 4294967295 else x) = x) by (intros s x H; rewrite (proj2 (N.eqb_neq _ _) H); reflexivity).
  destruct (copy_entry_ok m5 h src e0 s0 start h B5 BS) as (n0 & F0 & G0 & H0 & I0 & J0 & T0); [intros X; rewrite Q0, Z by exact X; reflexivity | exact L0 | lia | lia |]. rewrite F0. cbn [bindo]. clear F0.
  destruct (copy_entry_ok n0 (h + 4) src e1 s1 (start + s0) h H0 BS) as (n1 & F1 & G1 & H1 & I1 & J1 & T1); [intros X; rewrite J0, Q1, Z by (try exact X; lia); reflexivity | exact L1 | lia | lia |]. rewrite F1. cbn [bindo]. clear F1.
  destruct (copy_entry_ok n1 (h + 8) src e2 s2 (start + s0 + s1) h H1 BS) as (n2 & F2 & G2 & H2 & I2 & J2 & T2); [intros X; rewrite J1, J0, Q2, Z by (try exact X; lia); reflexivity | exact L2 | lia | lia |]. rewrite F2. cbn [bindo]. clear F2.
  destruct (copy_entry_ok n2 (h + 12) src e3 s3 (start + s0 + s1 + s2) h H2 BS) as (n3 & F3 & G3 & H3 & I3 & J3 & T3); [intros X; rewrite J2, J1, J0, Q3, Z by (try exact X; lia); reflexivity | exact L3 | lia | lia |]. rewrite F3. clear F3.
  exists n3. split; [reflexivity |].
  assert (M1 : kept_below (start + s0) n0 n3) by (apply (kept_trans _ (start + s0 + s1) n0 n1 n3 I1); [apply (kept_trans _ (start + s0 + s1 + s2) n1 n2 n3 I2 I3); lia | lia]).
  assert (M2 : kept_below (start + s0 + s1) n1 n3) by (apply (kept_trans _ (start + s0 + s1 + s2) n1 n2 n3 I2 I3); lia).
  split. { apply (kept_trans start start m m5); [apply (kept_weaken start h m m5 K5); lia | | lia]. apply (kept_trans start (start + s0) m5 n0 n3 I0 M1). lia. }
  split; [rewrite J3, J2, J1, J0 by lia; exact R5 |].
  assert (C : forall x s off e, read32 n3 x = Ok (if s =? 0 then 4294967295 else off) -> off + s <= h -> 32 <= off -> (s <> 0 -> same_at n3 off src e s) -> entry_copied n3 x src e s).
  { intros x s off e Rx Ho H32 SA. unfold entry_copied. change invalid_ptr with 4294967295. destruct (N.eqb_spec s 0) as [E | E]; [exact Rx |]. exists off. split; [exact Rx |]. split; [exact H32 |]. split; [lia |]. split; [lia | exact (SA E)]. }
  split; [apply (C _ _ start); [rewrite J3, J2, J1, J0 by lia; exact Q0 | lia | lia |] |].
  { intros X. apply (kept_same_at (start + s0) n0); [exact M1 | lia | exact (T0 X)]. }
  split; [apply (C _ _ (start + s0)); [rewrite J3, J2, J1, J0 by lia; exact Q1 | lia | lia |] |].
  { intros X. apply (kept_same_at (start + s0 + s1) n1); [exact M2 | lia | exact (T1 X)]. }
  split; [apply (C _ _ (start + s0 + s1)); [rewrite J3, J2, J1, J0 by lia; exact Q2 | lia | lia |] |].
  { intros X. apply (kept_same_at (start + s0 + s1 + s2) n2); [exact I3 | lia | exact (T2 X)]. }
  apply (C _ _ (start + s0 + s1 + s2)); [rewrite J3, J2, J1, J0 by lia; exact Q3 | lia | lia |].
  intros X. exact (T3 X).
Qed.
