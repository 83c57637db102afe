(** Copies between buffers, and the segments of a clip rewritten at two places. *)
From Coq Require Import Lia Sorted.
From Verif Require Import Word WordFacts Pieces MemoryUtils MemoryFacts Bitset BitsetFacts StripKeyFacts DbTiers TierSpec DbBuild ClipRewrite BuildSpec SeekSpec ByteFacts RewriteFacts Packing PackSpec PackingFacts ScalarWrite
  TransDec TransRing TransMem TransAnim TransEnc TransEncSpec TransFileFacts TransFileSegs.
Import ListNotations.
Local Open Scope N_scope.
Ltac Zify.zify_post_hook ::= idtac.

(** [size] bytes of [m] from [a] on are those of [src] from [b] on *)
Definition same_at (m : list N) (a : N) (src : list N) (b size : N) : Prop :=
  forall k, (k < N.to_nat size)%nat -> nth_error m (N.to_nat a + k) = nth_error src (N.to_nat b + k).

Lemma same_at_part m a src b size x size' : same_at m a src b size -> x + size' <= size -> same_at m (a + x) src (b + x) size'.
Proof.
  intros S H k Hk. replace (N.to_nat (a + x) + k)%nat with (N.to_nat a + (N.to_nat x + k))%nat by lia. replace (N.to_nat (b + x) + k)%nat with (N.to_nat b + (N.to_nat x + k))%nat by lia. apply S. lia.
Qed.
Lemma same_at_trans m a m' b src c size : same_at m a m' b size -> same_at m' b src c size -> same_at m a src c size.
Proof. intros S1 S2 k Hk. rewrite S1 by exact Hk. apply S2, Hk. Qed.
Lemma same_at_placed m a src b size l : same_at m a src b size -> placed src b l -> blen l <= size -> placed m a l.
Proof. intros S P H k x Hx. rewrite S; [apply P, Hx |]. assert (k < length l)%nat by (apply nth_error_Some; congruence). unfold blen in H. lia. Qed.
Lemma same_at_load m a src b size n : same_at m a src b size -> N.of_nat n <= size -> a + size <= blen m -> b + size <= blen src -> load_bytes m a n = load_bytes src b n.
Proof.
  intros S H L1 L2. unfold load_bytes. rewrite !(proj2 (N.leb_le _ _)) by lia. f_equal. apply list_ext_error. intros j. destruct (Nat.lt_ge_cases j n) as [Hj | Hj].
  - rewrite !nth_error_firstn' by exact Hj. rewrite !nth_error_skipn'. apply S. lia.
  - rewrite !(proj2 (nth_error_None _ _)); [reflexivity | |]; rewrite firstn_length; lia.
Qed.
Lemma same_at_read m a src b size : same_at m a src b size -> 4 <= size -> a + size <= blen m -> b + size <= blen src -> read32 m a = read32 src b.
Proof. intros S H L1 L2. unfold read32, load_le. rewrite (same_at_load m a src b size 4 S) by (try assumption; exact H). reflexivity. Qed.
Lemma nth_of_error2 {A} (l l' : list A) k k' d : nth_error l k = nth_error l' k' -> nth k l d = nth k' l' d.
Proof.
  intros H. destruct (nth_error l k) as [x |] eqn:E.
  - rewrite (nth_error_nth l k d E). symmetry in H. rewrite (nth_error_nth l' k' d H). reflexivity.
  - symmetry in H. apply nth_error_None in E, H. rewrite !nth_overflow by assumption. reflexivity.
Qed.
Lemma same_at_bits m a src b size i : same_at m a src b size -> i < 8 * size -> mbit m (8 * a + i) = mbit src (8 * b + i).
Proof.
  intros S H. unfold mbit.
  assert (D : forall y, (8 * y + i) / 8 = y + i / 8) by (intros y; rewrite N.mul_comm, N.div_add_l by lia; reflexivity).
  assert (Q : forall y, (8 * y + i) mod 8 = i mod 8) by (intros y; rewrite N.add_comm, N.mul_comm, N.mod_add by lia; reflexivity).
  rewrite !D, !Q. f_equal. assert (L : i / 8 < size) by (apply N.div_lt_upper_bound; lia). set (q := i / 8) in *. clearbody q.
  apply nth_of_error2. specialize (S (N.to_nat q) ltac:(lia)). replace (N.to_nat (a + q)) with (N.to_nat a + N.to_nat q)%nat by lia. replace (N.to_nat (b + q)) with (N.to_nat b + N.to_nat q)%nat by lia. exact S.
Qed.
Lemma same_at_bits_equal m a src b size : same_at m a src b size -> bits_equal m a src b size.
Proof. intros S i Hi. apply (same_at_bits m a src b size i S Hi). Qed.
Lemma bits_same_at m a src b size : bytes_ok m -> bytes_ok src -> a + size <= blen m -> b + size <= blen src -> bits_equal m a src b size -> same_at m a src b size.
Proof.
  intros B1 B2 L1 L2 E k Hk. unfold blen in *.
  assert (V : nth (N.to_nat a + k) m 0 = nth (N.to_nat b + k) src 0).
  { assert (X1 : nth (N.to_nat a + k) m 0 = nth (N.to_nat 0) [nth (N.to_nat a + k) m 0] 0) by reflexivity.
    assert (X2 : nth (N.to_nat b + k) src 0 = nth (N.to_nat 0) [nth (N.to_nat b + k) src 0] 0) by reflexivity.
    rewrite X1, X2. apply mbit_bytes; [| constructor; [apply bytes_ok_nth, B1 | constructor] | constructor; [apply bytes_ok_nth, B2 | constructor]].
    intros j Hj. specialize (E (8 * N.of_nat k + j) ltac:(lia)). unfold mbit in E |- *.
    assert (D : forall y, (8 * y + (8 * N.of_nat k + j)) / 8 = y + N.of_nat k). { intros y. replace (8 * y + (8 * N.of_nat k + j)) with ((y + N.of_nat k) * 8 + j) by lia. rewrite N.div_add_l by lia. rewrite (N.div_small j) by exact Hj. lia. }
    assert (Q : forall y, (8 * y + (8 * N.of_nat k + j)) mod 8 = j). { intros y. replace (8 * y + (8 * N.of_nat k + j)) with (j + (y + N.of_nat k) * 8) by lia. rewrite N.mod_add by lia. apply N.mod_small, Hj. }
    rewrite !D, !Q in E. replace ((8 * 0 + j) / 8) with 0 by (symmetry; rewrite N.mul_0_r, N.add_0_l; apply N.div_small, Hj). replace ((8 * 0 + j) mod 8) with j by (symmetry; rewrite N.mul_0_r, N.add_0_l; apply N.mod_small, Hj).
    replace (N.to_nat (a + N.of_nat k)) with (N.to_nat a + k)%nat in E by lia. replace (N.to_nat (b + N.of_nat k)) with (N.to_nat b + k)%nat in E by lia. exact E. }
  rewrite (nth_error_nth' m 0) by lia. rewrite (nth_error_nth' src 0) by lia. rewrite V. reflexivity.
Qed.
Lemma kept_same_at off m m' a src b size : kept_below off m m' -> a + size <= off -> same_at m a src b size -> same_at m' a src b size.
Proof. intros (_ & _ & K) H S k Hk. rewrite K by lia. apply S, Hk. Qed.
Lemma kept_agree off m m' a size : kept_below off m m' -> a + size <= off -> same_at m' a m a size.
Proof. intros (_ & _ & K) H k Hk. apply K. lia. Qed.
Lemma same_but_kept off hi m m' : bytes_ok m -> off <= blen m -> same_but (8 * off) hi m m' -> kept_below off m m'.
Proof.
  intros B L (E & B' & S). split; [unfold blen; lia |]. split; [exact B' |]. intros k Hk.
  pose proof (bits_same_at m' 0 m 0 off B' B) as Q. unfold blen in *. specialize (Q ltac:(lia) ltac:(lia)).
  apply Q; [| exact Hk]. intros i Hi. apply S. lia.
Qed.
Lemma same_but_same_at lo hi m m' a size : bytes_ok m -> same_but lo hi m m' -> a + size <= blen m -> (8 * (a + size) <= lo \/ hi <= 8 * a) -> same_at m' a m a size.
Proof.
  intros B S L D. pose proof (same_but_blen _ _ _ _ S) as BL. pose proof (same_but_ok _ _ _ _ S) as B'. apply bits_same_at; try assumption; [rewrite BL; exact L |]. intros i Hi. destruct S as (_ & _ & S). apply S. lia.
Qed.

(** copying *)
Lemma load_placed src b n l : load_bytes src b n = Ok l -> placed src b l /\ length l = n /\ b + N.of_nat n <= blen src.
Proof.
  unfold load_bytes. destruct (N.leb_spec (b + N.of_nat n) (blen src)) as [L | L]; [| discriminate]. intros E. injection E as <-. split; [| split; [| exact L]].
  - intros k x Hx. assert (Hk : (k < n)%nat). { assert (H : (k < length (firstn n (skipn (N.to_nat b) src)))%nat) by (apply nth_error_Some; congruence). rewrite firstn_length in H. lia. }
    rewrite nth_error_firstn' in Hx by exact Hk. rewrite nth_error_skipn' in Hx. exact Hx.
  - rewrite firstn_length, skipn_length. unfold blen in L. lia.
Qed.
Lemma placed_same m a src b l : placed m a l -> placed src b l -> same_at m a src b (blen l).
Proof.
  intros P1 P2 k Hk. unfold blen in Hk. destruct (nth_error l k) as [x |] eqn:E; [| apply nth_error_None in E; lia]. rewrite (P1 k x E), (P2 k x E). reflexivity.
Qed.
Lemma copy_same m dst src from size : bytes_ok m -> bytes_ok src -> dst + size <= blen m -> from + size <= blen src ->
  exists m', copy_bytes m dst src from size = Ok m' /\ kept_below dst m m' /\ same_at m' dst src from size.
Proof.
  intros B1 B2 L1 L2. unfold copy_bytes. destruct (load_bytes_in src from (N.to_nat size)) as (l & E & LL); [lia |]. rewrite E. cbn [bindo]. destruct (load_placed _ _ _ _ E) as (P & _ & _).
  assert (BL : blen l = size) by (unfold blen; lia). destruct (store_placed m dst l B1 (load_bytes_bytes _ _ _ _ B2 E)) as (m' & S1 & K & P'); [lia |]. exists m'. split; [exact S1 |]. split; [exact K |].
  rewrite <- BL. apply (placed_same m' dst src from l P' P).
Qed.
Lemma write_word m off w : bytes_ok m -> off + 4 <= blen m -> exists m', write32 m off w = Ok m' /\ kept_below off m m' /\ placed m' off (words [w]).
Proof.
  intros B L. unfold write32. destruct (store_placed m off (le_bytes 4 w) B (le_bytes_ok 4 w)) as (m' & S1 & K & P); [rewrite le4_blen; exact L |]. exists m'. split; [exact S1 |]. split; [exact K |].
  unfold words. cbn [map concat]. rewrite app_nil_r. exact P.
Qed.
Lemma kept_ok off m m' : kept_below off m m' -> bytes_ok m'. Proof. intros (_ & B & _). exact B. Qed.
Lemma kept_blen off m m' : kept_below off m m' -> blen m' = blen m. Proof. intros (L & _). exact L. Qed.

(** * The segments at an offset and 32 bytes further *)
Lemma next_shift o fs rs asz : o + fs + rs + asz + 40 < 2 ^ 32 ->
  addw 32 (align_to 32 (addw 32 (align_to 32 (addw 32 (32 + o) fs) 2) rs) 4) asz = 32 + addw 32 (align_to 32 (addw 32 (align_to 32 (addw 32 o fs) 2) rs) 4) asz.
Proof.
  change (2 ^ 32) with 4294967296. intros H. rewrite !(addw_small 32 _ fs) by (change (2 ^ 32) with 4294967296; lia).
  rewrite (align_up2 32 (32 + o + fs)), (align_up2 32 (o + fs)) by (try (left; reflexivity); change (2 ^ 32) with 4294967296; lia).
  replace (32 + o + fs) with (2 * 16 + (o + fs)) by lia. rewrite up2_add. pose proof (up2_bounds (o + fs)) as U.
  rewrite !(addw_small 32 _ rs) by (change (2 ^ 32) with 4294967296; lia).
  rewrite (align_up4' 32 (2 * 16 + up2 (o + fs) + rs)), (align_up4' 32 (up2 (o + fs) + rs)) by (try (left; reflexivity); change (2 ^ 32) with 4294967296; lia).
  replace (2 * 16 + up2 (o + fs) + rs) with (4 * 8 + (up2 (o + fs) + rs)) by lia. rewrite up4_mul. pose proof (up4_bounds (up2 (o + fs) + rs)) as V.
  rewrite !addw_small by (change (2 ^ 32) with 4294967296; lia). lia.
Qed.
Lemma header_shift tier t s tr src h n offset : segment_ready tier t s tr src h n -> StronglySorted N.lt (kept tier t s) -> offset + segment_bound tr h + 64 < 2 ^ 32 ->
  exists o o' next, rewrite_header tier t s tr h offset = Ok (o, next) /\ rewrite_header tier t s tr h (32 + offset) = Ok (o', 32 + next) /\ st_sample_indices o' = st_sample_indices o.
Proof.
  intros (SI & N32 & FF) SS OB. unfold rewrite_header.
  assert (F32 : Forall (fun f => fm_segment_frame f < 32) (filter (in_segment t s) tier)) by (eapply Forall_impl; [|exact FF]; cbn; intros f (_ & X); lia).
  destruct (clip_sample_indices_ok t s tier F32 SS) as (w & W1 & W2 & W3 & W4). rewrite W1. cbn [bindo].
  assert (LEN : N.of_nat (length (filter (in_segment t s) tier)) <= 32).
  { rewrite <- (map_length fm_segment_frame), <- W3. unfold stored_frames. pose proof (filter_len (present w) (map N.of_nat (seq 0 32))) as Q. rewrite map_length, seq_length in Q. lia. }
  unfold segment_inside in SI. unfold segment_bound in OB. destruct (get_segment_data tr (sh_data h)) as ((fi, ri), ai) eqn:GI. pose proof GI as GIc. unfold get_segment_data in GI. injection GI as GI1 GI2 GI3.
  destruct SI as (S1 & S2 & S3 & S4). change (2 ^ 32) with 4294967296 in *.
  pose proof (al2 64 (sh_data h + tr_variable_sub_tracks tr) (or_intror eq_refl)) as X1. cbv zeta in X1. rewrite GI2 in X1. destruct X1 as (X11 & X12 & _ & _); [change (2 ^ 32) with 4294967296; lia|].
  rewrite GI2 in GI3.
  pose proof (al4 64 (ri + range_data_size tr) (or_intror eq_refl)) as X2. cbv zeta in X2. rewrite GI3 in X2. destruct X2 as (X21 & X22 & _ & _); [change (2 ^ 32) with 4294967296; lia|].
  clear GI2 GI3. subst fi.
  assert (WR : wrapw 32 ri = ri) by (unfold wrapw; apply N.mod_small; change (2 ^ 32) with 4294967296; lia).
  assert (WA : wrapw 32 ai = ai) by (unfold wrapw; apply N.mod_small; change (2 ^ 32) with 4294967296; lia).
  assert (WF : wrapw 32 (sh_data h) = sh_data h) by (unfold wrapw; apply N.mod_small; change (2 ^ 32) with 4294967296; lia).
  rewrite WR, WA, WF, W4. set (len := N.of_nat (length (filter (in_segment t s) tier))) in *. clearbody len.
  assert (LB : len * sh_pose_bits h <= 32 * sh_pose_bits h) by (apply N.mul_le_mono_r; exact LEN).
  rewrite (subw_ge 32 ri) by (change (2 ^ 32) with 4294967296; lia). rewrite (subw_ge 32 ai) by (change (2 ^ 32) with 4294967296; lia).
  rewrite mulw_small by (change (2 ^ 32) with 4294967296; lia). rewrite (addw_small 32 (len * sh_pose_bits h)) by (change (2 ^ 32) with 4294967296; lia).
  assert (AS : (len * sh_pose_bits h + 7) / 8 <= 4 * sh_pose_bits h) .
  { destruct (N.eq_dec (sh_pose_bits h) 0) as [Z | Z]; [rewrite Z, N.mul_0_r; change ((0 + 7) / 8) with 0; lia |]. apply N.lt_succ_r. apply N.div_lt_upper_bound; lia. }
  set (asz := (len * sh_pose_bits h + 7) / 8) in *. clearbody asz.
  do 3 eexists. split; [reflexivity |]. split; [rewrite next_shift by (change (2 ^ 32) with 4294967296; lia); reflexivity | reflexivity].
Qed.
Lemma headers_shift tier t tr src : (forall s, StronglySorted N.lt (kept tier t s)) -> forall headers ns s offset, all_ready tier t s tr src headers ns -> offset + bound_all tr headers + 64 < 2 ^ 32 ->
  exists outs outs' e, rewrite_segment_headers tier t s tr headers offset = Ok (outs, e) /\ rewrite_segment_headers tier t s tr headers (32 + offset) = Ok (outs', 32 + e).
Proof.
  intros SS. unfold bound_all. induction headers as [|h hs IH]; intros ns s offset A B; cbn [rewrite_segment_headers map sumN] in *.
  - do 3 eexists. split; reflexivity.
  - destruct (all_ready_head _ _ _ _ _ _ _ _ A) as (n & ns' & -> & R). destruct (header_shift tier t s tr src h n offset R (SS s)) as (o & o' & next & E & E' & _); [lia |].
    destruct (header_step tier t s tr src h n offset R (SS s)) as (o2 & next2 & E2 & SF); [lia |]. rewrite E in E2. injection E2 as -> ->.
    pose proof (sf_next _ _ _ _ _ _ _ _ SF) as (N1 & N2). destruct (IH ns' (s + 1) next2 (all_ready_tail _ _ _ _ _ _ _ _ _ A)) as (outs & outs' & e & E3 & E4); [lia |].
    rewrite E, E'. cbn [bindo]. rewrite E3, E4. cbn [bindo]. do 3 eexists. split; reflexivity.
Qed.
