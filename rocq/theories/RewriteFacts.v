(** Proofs about the rewriting of a clip's segments. *)
From Coq Require Import Lia Sorted.
From Verif Require Import Word WordFacts MemoryUtils MemoryFacts Bitset BitsetFacts SeekSpec StripKeyFacts DbTiers TierSpec DbBuild ClipRewrite BuildSpec ByteFacts DbBuildFacts DbHeaderFacts TierJobFacts.
Local Open Scope N_scope.
Ltac Zify.zify_post_hook ::= idtac.

(** alignment *)
Lemma al2 w x : w = 32 \/ w = 64 -> x + 1 < 2 ^ 32 -> let r := align_to w x 2 in x <= r /\ r <= x + 1 /\ r mod 2 = 0 /\ forall m, x <= m -> m mod 2 = 0 -> r <= m.
Proof.
  intros W H. assert (B : x + (2 ^ 1 - 1) < 2 ^ w) by (change (2 ^ 1 - 1) with 1; change (2 ^ 32) with 4294967296 in H; destruct W; subst w; [change (2 ^ 32) with 4294967296 | change (2 ^ 64) with 18446744073709551616]; lia).
  assert (W2 : w <= 64 /\ 1 <= w) by (destruct W; subst w; lia).
  pose proof (align_to_spec w x 1 (proj1 W2) (proj2 W2) ltac:(lia) B) as A. cbv zeta in A. change (2 ^ 1) with 2 in A. cbv zeta. set (r := align_to w x 2) in *. clearbody r.
  destruct A as (A1 & A2 & A3 & A4). split; auto. split; [lia|]. split; auto.
Qed.
Lemma al4 w x : w = 32 \/ w = 64 -> x + 3 < 2 ^ 32 -> let r := align_to w x 4 in x <= r /\ r <= x + 3 /\ r mod 4 = 0 /\ forall m, x <= m -> m mod 4 = 0 -> r <= m.
Proof.
  intros W H. assert (B : x + (2 ^ 2 - 1) < 2 ^ w) by (change (2 ^ 2 - 1) with 3; change (2 ^ 32) with 4294967296 in H; destruct W; subst w; [change (2 ^ 32) with 4294967296 | change (2 ^ 64) with 18446744073709551616]; lia).
  assert (W2 : w <= 64 /\ 2 <= w) by (destruct W; subst w; lia).
  pose proof (align_to_spec w x 2 (proj1 W2) (proj2 W2) ltac:(lia) B) as A. cbv zeta in A. change (2 ^ 2) with 4 in A. cbv zeta. set (r := align_to w x 4) in *. clearbody r.
  destruct A as (A1 & A2 & A3 & A4). split; auto. split; [lia|]. split; auto.
Qed.

(** bits of loaded bytes *)
Lemma mbit_loaded m off n l i : load_bytes m off n = Ok l -> i < 8 * N.of_nat n -> mbit m (8 * off + i) = mbit l i.
Proof.
  unfold load_bytes. destruct (N.leb_spec (off + N.of_nat n) (blen m)) as [L|L]; [|discriminate]. intros E I. injection E as <-. unfold mbit.
  assert (D : (8 * off + i) / 8 = off + i / 8). { rewrite N.mul_comm, N.div_add_l by lia. reflexivity. }
  assert (R : (8 * off + i) mod 8 = i mod 8). { rewrite N.add_comm, N.mul_comm, N.mod_add by lia. reflexivity. }
  rewrite D, R. f_equal. assert (Q : i / 8 < N.of_nat n) by (apply N.div_lt_upper_bound; lia). set (q := i / 8) in *. clearbody q.
  rewrite nth_firstn_lt by lia. rewrite nth_skipn. f_equal. lia.
Qed.
Lemma load_bytes_in m off n : off + N.of_nat n <= blen m -> exists l, load_bytes m off n = Ok l /\ length l = n.
Proof.
  intros L. unfold load_bytes. destruct (N.leb_spec (off + N.of_nat n) (blen m)); [|lia]. eexists. split; [reflexivity|]. rewrite firstn_length, skipn_length. unfold blen in L. lia.
Qed.
Lemma load_bytes_bytes m off n l : bytes_ok m -> load_bytes m off n = Ok l -> bytes_ok l.
Proof. intros B. unfold load_bytes. destruct (_ <=? _); [|discriminate]. intros E. injection E as <-. apply bytes_ok_firstn, bytes_ok_skipn. exact B. Qed.
Lemma copy_bytes_ok m dst src from size : bytes_ok m -> bytes_ok src -> dst + size <= blen m -> from + size <= blen src ->
  exists m', copy_bytes m dst src from size = Ok m' /\ same_but (8 * dst) (8 * (dst + size)) m m' /\ bits_equal m' dst src from size.
Proof.
  intros B1 B2 L1 L2. unfold copy_bytes. destruct (load_bytes_in src from (N.to_nat size)) as (l & E & LL); [lia|]. rewrite E. cbn [bindo].
  assert (BL : blen l = size) by (unfold blen; lia).
  destruct (store_bytes_ok m dst l B1 (load_bytes_bytes _ _ _ _ B2 E)) as (m' & S1 & S2 & S3); [lia|]. exists m'. split; auto. rewrite BL in S2. split; auto.
  intros i I. rewrite (mbit_loaded src from _ l i E) by lia. apply (mbit_loaded m' dst _ l i S3). lia.
Qed.
Lemma bits_equal_same m m' at1 src at2 size lo hi : same_but lo hi m m' -> (8 * (at1 + size) <= lo \/ hi <= 8 * at1) -> bits_equal m at1 src at2 size -> bits_equal m' at1 src at2 size.
Proof. intros (_ & _ & SB) D E i I. rewrite <- (E i I). apply SB. lia. Qed.
Lemma bits_equal_le m at1 src at2 size size' : size' <= size -> bits_equal m at1 src at2 size -> bits_equal m at1 src at2 size'.
Proof. intros L E i I. apply E. lia. Qed.

(** the sample indices of the key frames that stay *)
Lemma clip_indices_filter t s : forall tier b, clip_indices_loop tier t s b = sample_indices_loop (filter (in_segment t s) tier) b.
Proof.
  induction tier as [|f r IH]; intros b; cbn [clip_indices_loop filter]; [reflexivity|]. destruct (in_segment t s f); auto. cbn [sample_indices_loop].
  destruct (bitset_set b (fm_segment_frame f) true); cbn [bindo]; auto.
Qed.
Lemma clip_sample_indices_ok t s tier : Forall (fun f => fm_segment_frame f < 32) (filter (in_segment t s) tier) -> StronglySorted N.lt (map fm_segment_frame (filter (in_segment t s) tier)) ->
  exists w, clip_sample_indices tier t s = Ok w /\ w < 2 ^ 32 /\ stored_frames w = map fm_segment_frame (filter (in_segment t s) tier) /\
    bitset_count_set_bits [w] = N.of_nat (length (filter (in_segment t s) tier)).
Proof.
  intros F SS. destruct (sample_indices_ok _ F) as (w & W1 & W2 & W3). exists w. unfold clip_sample_indices. rewrite clip_indices_filter. split; [exact W1|]. split; auto.
  assert (SF : stored_frames w = map fm_segment_frame (filter (in_segment t s) tier)).
  { apply stored_frames_are; auto. apply Forall_forall. intros x I. apply in_map_iff in I. destruct I as (y & <- & I). rewrite Forall_forall in F. auto. }
  split; auto. rewrite bitset_count_spec; [|constructor; auto|reflexivity]. change (32 * length [w])%nat with 32%nat. rewrite <- stored_card, SF, map_length. reflexivity.
Qed.

(** the frames of one segment *)
Lemma rewrite_frames_ok bits t s src ain : forall tier m aout nb,
  Forall (fun f => fm_bits f = bits /\ 8 * ain + (fm_segment_frame f + 1) * bits <= 8 * blen src /\ fm_segment_frame f < 32) (filter (in_segment t s) tier) ->
  32 * bits < 2 ^ 32 -> bytes_ok m -> bytes_ok src -> 8 * aout + nb + bits * N.of_nat (length (filter (in_segment t s) tier)) <= 8 * blen m ->
  exists m', rewrite_frames tier t s src ain m aout nb = Ok m' /\
    same_but (8 * aout + nb) (8 * aout + nb + bits * N.of_nat (length (filter (in_segment t s) tier))) m m' /\
    forall r f b, nth_error (map fm_segment_frame (filter (in_segment t s) tier)) r = Some f -> b < bits ->
      mbit m' (8 * aout + nb + N.of_nat r * bits + b) = mbit src (8 * ain + f * bits + b).
Proof.
  induction tier as [|f r IH]; intros m aout nb F B BM BS L; cbn [rewrite_frames filter] in *.
  - cbn [length map]. exists m. split; auto. split; [apply same_but_refl; auto|]. intros [|i] f b K; discriminate K.
  - destruct (in_segment t s f) eqn:E; [|apply IH; auto]. cbn [length map] in *. inversion F as [|? ? (E1 & E2 & E3) F']; subst.
    assert (SB : fm_segment_frame f * fm_bits f <= 31 * fm_bits f) by (apply N.mul_le_mono_r; lia).
    rewrite mulw_small by (eapply N.le_lt_trans; [exact SB | lia]).
    destruct (memcpy_bits_ok m (8 * aout + nb) src (8 * ain + fm_segment_frame f * fm_bits f) (fm_bits f)) as (m1 & M1 & S1 & C1); auto; [lia | lia |].
    rewrite M1. cbn [bindo]. pose proof (same_but_blen _ _ _ _ S1) as BL1.
    destruct (IH m1 aout (nb + fm_bits f) F' B (same_but_ok _ _ _ _ S1) BS) as (m2 & M2 & S2 & C2); [rewrite BL1; lia|].
    exists m2. split; auto. split.
    + eapply same_but_trans; [eapply same_but_weaken; [exact S1 | lia | lia] | eapply same_but_weaken; [exact S2 | lia | lia]].
    + intros [|i] f' b K Lb.
      * cbn in K. injection K as <-. destruct S2 as (_ & _ & S2). rewrite S2 by lia. replace (8 * aout + nb + N.of_nat 0 * fm_bits f + b) with (8 * aout + nb + b) by lia. apply C1. exact Lb.
      * cbn in K. rewrite <- (C2 i f' b K Lb). f_equal. lia.
Qed.

(** what the rewriting needs of a segment: it lies in the input, and its frames that stay know its pose size *)
Definition segment_ready (tier : list frame_mapping) (t s : N) (tr : transforms) (src : list N) (h : seg_header) (n : N) : Prop :=
  segment_inside tr src h n /\ n <= 32 /\
  Forall (fun f => fm_bits f = sh_pose_bits h /\ fm_segment_frame f < n) (filter (in_segment t s) tier).
Definition segment_bound (tr : transforms) (h : seg_header) : N := tr_variable_sub_tracks tr + range_data_size tr + 4 * sh_pose_bits h + 8.

Definition kept (tier : list frame_mapping) (t s : N) : list N := map fm_segment_frame (filter (in_segment t s) tier).
Record step_facts (tier : list frame_mapping) (t s : N) (tr : transforms) (h : seg_header) (o : stripped_header) (offset next : N) : Prop := {
  sf_data : sh_data (st_header o) = offset;
  sf_bits : sh_pose_bits (st_header o) = sh_pose_bits h;
  sf_w32 : st_sample_indices o < 2 ^ 32;
  sf_kept : stored_frames (st_sample_indices o) = kept tier t s;
  sf_lay : let '(fi, ri, ai) := get_segment_data tr (sh_data h) in let '(fo, ro, ao) := get_segment_data tr offset in
    fi = sh_data h /\ fo = offset /\ fi <= ri /\ ri <= ai /\ ai < 2 ^ 32 /\
    tr_variable_sub_tracks tr <= ri - fi /\ range_data_size tr <= ai - ri /\
    offset + tr_variable_sub_tracks tr <= ro /\ ro + range_data_size tr <= ao /\ offset + (ri - fi) <= next /\ ro + (ai - ri) <= next /\
    8 * ao + sh_pose_bits h * N.of_nat (length (filter (in_segment t s) tier)) <= 8 * next;
  sf_next : offset <= next /\ next <= offset + segment_bound tr h }.

Lemma filter_len {A} (f : A -> bool) l : (length (filter f l) <= length l)%nat.
Proof. induction l as [|x l IH]; cbn [filter length]; [lia|]. destruct (f x); cbn [length]; lia. Qed.
Lemma header_step tier t s tr src h n offset : segment_ready tier t s tr src h n -> StronglySorted N.lt (kept tier t s) -> offset + segment_bound tr h < 2 ^ 32 ->
  exists o next, rewrite_header tier t s tr h offset = Ok (o, next) /\ step_facts tier t s tr h o offset next.
Proof.
  intros (SI & N32 & FF) SS OB. unfold rewrite_header.
  assert (F32 : Forall (fun f => fm_segment_frame f < 32) (filter (in_segment t s) tier)) by (eapply Forall_impl; [|exact FF]; cbn; intros f (_ & X); lia).
  destruct (clip_sample_indices_ok t s tier F32 SS) as (w & W1 & W2 & W3 & W4). rewrite W1. cbn [bindo].
  unfold segment_inside in SI. unfold segment_bound in *. remember (tr_variable_sub_tracks tr) as nv eqn:ENV. remember (range_data_size tr) as rs eqn:ERS. remember (sh_pose_bits h) as bits eqn:EBT.
  set (len := N.of_nat (length (filter (in_segment t s) tier))) in *.
  assert (LEN : len <= 32).
  { unfold len. rewrite <- (map_length fm_segment_frame), <- W3. unfold stored_frames. pose proof (filter_len (present w) (map N.of_nat (seq 0 32))) as Q. rewrite map_length, seq_length in Q. lia. }
  destruct (get_segment_data tr (sh_data h)) as ((fi, ri), ai) eqn:GI. destruct (get_segment_data tr offset) as ((fo, ro), ao) eqn:GO.
  pose proof GI as GIc. pose proof GO as GOc. unfold get_segment_data in GI, GO. rewrite <- ENV, <- ERS in GI, GO. injection GI as GI1 GI2 GI3. injection GO as GO1 GO2 GO3.
  destruct SI as (S1 & S2 & S3 & S4). change (2 ^ 32) with 4294967296 in *.
  pose proof (al2 64 (sh_data h + nv) (or_intror eq_refl)) as X1. cbv zeta in X1. rewrite GI2 in X1. destruct X1 as (X11 & X12 & _ & _); [change (2 ^ 32) with 4294967296; lia|].
  rewrite GI2 in GI3.
  pose proof (al4 64 (ri + rs) (or_intror eq_refl)) as X2. cbv zeta in X2. rewrite GI3 in X2. destruct X2 as (X21 & X22 & _ & _); [change (2 ^ 32) with 4294967296; lia|].
  pose proof (al2 64 (offset + nv) (or_intror eq_refl)) as X3. cbv zeta in X3. rewrite GO2 in X3. destruct X3 as (X31 & X32 & X33 & X34); [change (2 ^ 32) with 4294967296; lia|].
  rewrite GO2 in GO3.
  pose proof (al4 64 (ro + rs) (or_intror eq_refl)) as X4. cbv zeta in X4. rewrite GO3 in X4. destruct X4 as (X41 & X42 & X43 & X44); [change (2 ^ 32) with 4294967296; lia|].
  clear GI2 GI3 GO2 GO3. subst fi fo.
  assert (LB : len * bits <= 32 * bits) by (apply N.mul_le_mono_r; exact LEN).
  assert (WR : wrapw 32 ri = ri) by (unfold wrapw; apply N.mod_small; change (2 ^ 32) with 4294967296; lia).
  assert (WA : wrapw 32 ai = ai) by (unfold wrapw; apply N.mod_small; change (2 ^ 32) with 4294967296; lia).
  assert (WF : wrapw 32 (sh_data h) = sh_data h) by (unfold wrapw; apply N.mod_small; change (2 ^ 32) with 4294967296; lia).
  rewrite WR, WA, WF. rewrite (subw_ge 32 ri) by (change (2 ^ 32) with 4294967296; lia). rewrite (subw_ge 32 ai) by (change (2 ^ 32) with 4294967296; lia).
  rewrite W4. fold len. rewrite mulw_small by (change (2 ^ 32) with 4294967296; lia). rewrite (addw32 (len * bits)) by lia.
  assert (AS : exists asize, (len * bits + 7) / 8 = asize /\ len * bits <= 8 * asize /\ 8 * asize <= len * bits + 7).
  { exists ((len * bits + 7) / 8). split; auto. pose proof (N.div_mod (len * bits + 7) 8 ltac:(lia)) as D. pose proof (N.mod_lt (len * bits + 7) 8 ltac:(lia)) as R.
    set (q := (len * bits + 7) / 8) in *. set (x := (len * bits + 7) mod 8) in *. clearbody q x. lia. }
  destruct AS as (asize & -> & AS1 & AS2).
  rewrite (addw32 offset) by lia. set (x1 := offset + (ri - sh_data h)) in *.
  pose proof (al2 32 x1 (or_introl eq_refl)) as Y1. cbv zeta in Y1. destruct Y1 as (Y11 & Y12 & Y13 & Y14); [change (2 ^ 32) with 4294967296; lia|].
  set (a := align_to 32 x1 2) in *. rewrite (addw32 a) by lia. set (x2 := a + (ai - ri)) in *.
  pose proof (al4 32 x2 (or_introl eq_refl)) as Y2. cbv zeta in Y2. destruct Y2 as (Y21 & Y22 & Y23 & Y24); [change (2 ^ 32) with 4294967296; lia|].
  set (b := align_to 32 x2 4) in *. rewrite (addw32 b) by lia. eexists. eexists. split; [reflexivity|].
  assert (RA : ro <= a) by (apply X34; [lia | exact Y13]).
  assert (AB : ao <= b) by (apply X44; [lia | exact Y23]).
  assert (OA : offset <= b) by lia.
  clear X33 X34 X43 X44 Y13 Y14 Y23 Y24. clearbody a b.
  constructor; auto; cbn [st_header sh_data sh_pose_bits st_sample_indices]; unfold segment_bound; rewrite <- ?ENV, <- ?ERS, <- ?EBT; auto; fold len.
  - rewrite GIc, GOc. change (2 ^ 32) with 4294967296. repeat (split; [lia|]). lia.
  - split; lia.
Qed.

Lemma kept_same tr src h m m' o tier t s offset next lo hi : step_facts tier t s tr h o offset next -> same_but lo hi m m' -> (8 * next <= lo \/ hi <= 8 * offset) ->
  segment_kept tr src h m o (kept tier t s) -> segment_kept tr src h m' o (kept tier t s).
Proof.
  intros [D1 D2 D3 D4 D5 D6] SB DJ SK. unfold segment_kept in *. rewrite D1 in *.
  destruct (get_segment_data tr (sh_data h)) as ((fi, ri), ai). destruct (get_segment_data tr offset) as ((fo, ro), ao).
  destruct D5 as (-> & -> & L1 & L2 & L3 & L4 & L5 & L6 & L7 & L8 & L9 & L10). destruct SK as (K1 & K2 & K3 & K4 & K5 & K6).
  split; auto. split; auto. split; auto.
  split; [eapply bits_equal_same; [exact SB | lia | exact K4]|]. split; [eapply bits_equal_same; [exact SB | lia | exact K5]|].
  intros r f b KR LB. rewrite <- (K6 r f b KR LB). destruct SB as (_ & _ & SB). apply SB.
  assert (RL : (r < length (filter (in_segment t s) tier))%nat) by (rewrite <- (map_length fm_segment_frame); apply nth_error_Some; unfold kept in KR; congruence).
  assert (MM : N.of_nat r * sh_pose_bits h + sh_pose_bits h <= sh_pose_bits h * N.of_nat (length (filter (in_segment t s) tier))).
  { replace (N.of_nat r * sh_pose_bits h + sh_pose_bits h) with (sh_pose_bits h * (N.of_nat r + 1)) by lia. apply N.mul_le_mono_l. lia. }
  lia.
Qed.

Lemma data_step tier t s tr src h n o offset next m : segment_ready tier t s tr src h n -> step_facts tier t s tr h o offset next -> bytes_ok m -> bytes_ok src -> next <= blen m ->
  exists m1 m2 m3,
    let '(fi, ri, ai) := get_segment_data tr (sh_data h) in let '(fo, ro, ao) := get_segment_data tr (sh_data (st_header o)) in
    copy_bytes m fo src fi (subw 32 (wrapw 32 ri) (wrapw 32 fi)) = Ok m1 /\
    copy_bytes m1 ro src ri (subw 32 (wrapw 32 ai) (wrapw 32 ri)) = Ok m2 /\
    rewrite_frames tier t s src ai m2 ao 0 = Ok m3 /\
    same_but (8 * offset) (8 * next) m m3 /\ segment_kept tr src h m3 o (kept tier t s).
Proof.
  intros (SI & N32 & FF) SF BM BS LN. pose proof SF as [D1 D2 D3 D4 D5 D6]. unfold segment_kept. unfold segment_inside in SI. rewrite D1.
  destruct (get_segment_data tr (sh_data h)) as ((fi, ri), ai). destruct (get_segment_data tr offset) as ((fo, ro), ao).
  destruct D5 as (-> & -> & L1 & L2 & L3 & L4 & L5 & L6 & L7 & L8 & L9 & L10). destruct SI as (I1 & I2 & I3 & I4).
  set (nv := tr_variable_sub_tracks tr) in *. set (rs := range_data_size tr) in *. set (bits := sh_pose_bits h) in *.
  change (2 ^ 32) with 4294967296 in L3, I2, I4.
  assert (WR : wrapw 32 ri = ri) by (unfold wrapw; apply N.mod_small; change (2 ^ 32) with 4294967296; lia).
  assert (WA : wrapw 32 ai = ai) by (unfold wrapw; apply N.mod_small; change (2 ^ 32) with 4294967296; lia).
  assert (WF : wrapw 32 (sh_data h) = sh_data h) by (unfold wrapw; apply N.mod_small; change (2 ^ 32) with 4294967296; lia).
  rewrite WR, WA, WF. rewrite (subw_ge 32 ri) by (change (2 ^ 32) with 4294967296; lia). rewrite (subw_ge 32 ai) by (change (2 ^ 32) with 4294967296; lia).
  destruct (copy_bytes_ok m offset src (sh_data h) (ri - sh_data h) BM BS) as (m1 & M1 & S1 & E1); [lia | lia |].
  pose proof (same_but_ok _ _ _ _ S1) as B1. pose proof (same_but_blen _ _ _ _ S1) as BL1.
  destruct (copy_bytes_ok m1 ro src ri (ai - ri) B1 BS) as (m2 & M2 & S2 & E2); [lia | lia |].
  pose proof (same_but_ok _ _ _ _ S2) as B2. pose proof (same_but_blen _ _ _ _ S2) as BL2.
  destruct (rewrite_frames_ok bits t s src ai tier m2 ao 0) as (m3 & M3 & S3 & E3); auto.
  { eapply Forall_impl; [|exact FF]. cbn. intros f (X1 & X2). split; auto. split; [|lia].
    assert ((fm_segment_frame f + 1) * bits <= n * bits) by (apply N.mul_le_mono_r; lia). lia. }
  { change (2 ^ 32) with 4294967296. lia. }
  { rewrite BL2, BL1. lia. }
  exists m1, m2, m3. split; [exact M1|]. split; [exact M2|]. split; [exact M3|].
  split. { eapply same_but_trans; [eapply same_but_weaken; [exact S1 | lia | lia]|]. eapply same_but_trans; [eapply same_but_weaken; [exact S2 | lia | lia]|].
           eapply same_but_weaken; [exact S3 | lia | lia]. }
  split; [exact D2|]. split; auto. split; auto.
  split. { eapply bits_equal_same; [exact S3 | lia |]. eapply bits_equal_same; [exact S2 | lia |]. eapply bits_equal_le; [|exact E1]. lia. }
  split. { eapply bits_equal_same; [exact S3 | lia |]. eapply bits_equal_le; [|exact E2]. lia. }
  intros r f b KR LB. rewrite <- (E3 r f b KR LB). f_equal. lia.
Qed.

(** all the segments *)
Fixpoint laid (tier : list frame_mapping) (t s : N) (tr : transforms) (headers : list seg_header) (outs : list stripped_header) (offset e : N) : Prop :=
  match headers, outs with
  | [], [] => offset = e
  | h :: hs, o :: os => exists next, step_facts tier t s tr h o offset next /\ laid tier t (s + 1) tr hs os next e
  | _, _ => False
  end.
Lemma laid_le tier t tr : forall headers outs s offset e, laid tier t s tr headers outs offset e -> offset <= e.
Proof.
  induction headers as [|h hs IH]; intros [|o os] s offset e L; cbn [laid] in L; try tauto; [lia|]. destruct L as (next & SF & L). pose proof (sf_next _ _ _ _ _ _ _ _ SF). specialize (IH _ _ _ _ L). lia.
Qed.
Definition bound_all (tr : transforms) (headers : list seg_header) : N := sumN (map (segment_bound tr) headers).
Definition all_ready (tier : list frame_mapping) (t s : N) (tr : transforms) (src : list N) (headers : list seg_header) (ns : list N) : Prop :=
  forall i h, nth_error headers i = Some h -> exists n, nth_error ns i = Some n /\ segment_ready tier t (s + N.of_nat i) tr src h n.
Lemma all_ready_tail tier t s tr src h hs n ns : all_ready tier t s tr src (h :: hs) (n :: ns) -> all_ready tier t (s + 1) tr src hs ns.
Proof. intros A i h' K. destruct (A (S i) h' K) as (n' & K' & R). exists n'. split; auto. replace (s + 1 + N.of_nat i) with (s + N.of_nat (S i)) by lia. exact R. Qed.
Lemma all_ready_head tier t s tr src h hs ns : all_ready tier t s tr src (h :: hs) ns -> exists n ns', ns = n :: ns' /\ segment_ready tier t s tr src h n.
Proof.
  intros A. destruct (A 0%nat h eq_refl) as (n & K & R). destruct ns as [|n' ns']; [discriminate K|]. cbn in K. injection K as ->. exists n, ns'. split; auto.
  replace (s + N.of_nat 0) with s in R by lia. exact R.
Qed.

Lemma headers_ok tier t tr src : (forall s, StronglySorted N.lt (kept tier t s)) -> forall headers ns s offset, all_ready tier t s tr src headers ns -> offset + bound_all tr headers < 2 ^ 32 ->
  exists outs e, rewrite_segment_headers tier t s tr headers offset = Ok (outs, e) /\ laid tier t s tr headers outs offset e /\ e <= offset + bound_all tr headers.
Proof.
  intros SS. change (2 ^ 32) with 4294967296. unfold bound_all. induction headers as [|h hs IH]; intros ns s offset A B; cbn [rewrite_segment_headers map sumN] in *.
  - exists [], offset. split; auto. split; [reflexivity | lia].
  - destruct (all_ready_head _ _ _ _ _ _ _ _ A) as (n & ns' & -> & R). destruct (header_step tier t s tr src h n offset R (SS s)) as (o & next & E & SF); [change (2 ^ 32) with 4294967296; lia|].
    rewrite E. cbn [bindo]. pose proof (sf_next _ _ _ _ _ _ _ _ SF) as (N1 & N2). destruct (IH ns' (s + 1) next (all_ready_tail _ _ _ _ _ _ _ _ _ A)) as (outs & e & E2 & L2 & B2); [lia|].
    rewrite E2. cbn [bindo]. exists (o :: outs), e. split; auto. split; [cbn [laid]; eauto | lia].
Qed.

Lemma data_ok tier t tr src : bytes_ok src -> forall headers outs ns s offset e m, all_ready tier t s tr src headers ns -> laid tier t s tr headers outs offset e -> bytes_ok m -> e <= blen m ->
  exists m', rewrite_segment_data tier t s tr src headers outs m = Ok m' /\ same_but (8 * offset) (8 * e) m m' /\
    forall i h o, nth_error headers i = Some h -> nth_error outs i = Some o -> segment_kept tr src h m' o (kept tier t (s + N.of_nat i)).
Proof.
  intros BS. induction headers as [|h hs IH]; intros [|o os] ns s offset e m A L BM LE; cbn [laid] in L; try tauto.
  - cbn [rewrite_segment_data]. exists m. split; auto. split; [apply same_but_refl; auto|]. intros [|i] h o K; discriminate K.
  - destruct L as (next & SF & L). destruct (all_ready_head _ _ _ _ _ _ _ _ A) as (n & ns' & -> & R). pose proof (laid_le _ _ _ _ _ _ _ _ L) as LN. pose proof (sf_next _ _ _ _ _ _ _ _ SF) as (N1 & _).
    destruct (data_step tier t s tr src h n o offset next m R SF BM BS) as (m1 & m2 & m3 & DS); [lia|]. cbn [rewrite_segment_data].
    destruct (get_segment_data tr (sh_data h)) as ((fi, ri), ai). destruct (get_segment_data tr (sh_data (st_header o))) as ((fo, ro), ao). destruct DS as (E1 & E2 & E3 & S3 & K3).
    rewrite E1. cbn [bindo]. rewrite E2. cbn [bindo]. rewrite E3. cbn [bindo]. pose proof (same_but_ok _ _ _ _ S3) as B3. pose proof (same_but_blen _ _ _ _ S3) as BL3.
    destruct (IH os ns' (s + 1) next e m3 (all_ready_tail _ _ _ _ _ _ _ _ _ A) L B3) as (m' & E' & S' & K'); [lia|]. exists m'. split; auto.
    split. { eapply same_but_trans; [eapply same_but_weaken; [exact S3 | lia | lia] | eapply same_but_weaken; [exact S' | lia | lia]]. }
    intros [|i] h' o' KH KO; cbn in KH, KO.
    + injection KH as <-. injection KO as <-. replace (s + N.of_nat 0) with s by lia. eapply kept_same; [exact SF | exact S' | lia | exact K3].
    + replace (s + N.of_nat (S i)) with (s + 1 + N.of_nat i) by lia. apply (K' i h' o' KH KO).
Qed.
Lemma laid_length tier t tr : forall headers outs s offset e, laid tier t s tr headers outs offset e -> length outs = length headers.
Proof. induction headers as [|h hs IH]; intros [|o os] s offset e L; cbn [laid] in L; try tauto. destruct L as (next & _ & L). cbn [length]. f_equal. eapply IH; eauto. Qed.

Lemma rewrite_clip_ok tier t tr src headers ns base tail : (forall s, StronglySorted N.lt (kept tier t s)) -> bytes_ok src -> all_ready tier t 0 tr src headers ns ->
  base + bound_all tr headers < 2 ^ 32 ->
  exists m outs, rewrite_clip tier t tr src headers base tail = Ok (m, outs) /\ bytes_ok m /\ length outs = length headers /\
    forall i h o, nth_error headers i = Some h -> nth_error outs i = Some o -> segment_kept tr src h m o (kept tier t (N.of_nat i)).
Proof.
  intros SS BS A B. unfold rewrite_clip. destruct (headers_ok tier t tr src SS headers ns 0 base A B) as (outs & e & E & L & _). rewrite E. cbn [bindo].
  destruct (data_ok tier t tr src BS headers outs ns 0 base e (repeat 0 (N.to_nat (e + tail))) A L) as (m & M & SM & K).
  - apply Forall_forall. intros x X. apply repeat_spec in X. subst x. reflexivity.
  - unfold blen. rewrite repeat_length. lia.
  - rewrite M. cbn [bindo]. exists m, outs. split; auto. split; [apply (same_but_ok _ _ _ _ SM)|]. split; [eapply laid_length; eauto|]. exact K.
Qed.
