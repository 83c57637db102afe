(** Proofs about the streaming model. *)
From Coq Require Import Lia.
From Verif Require Import Word WordFacts BitManip BitSpec BitManipFacts Bitset BitsetFacts DbStream StreamSpec.
Local Open Scope N_scope.
Ltac Zify.zify_post_hook ::= idtac.

(* ---------- bit sets holding an interval ---------- *)

Lemma bmem_cons_lo w ws i : i < 32 -> bmem (w :: ws) i = N.testbit w (31 - i).
Proof. intros H. unfold bmem. rewrite N.div_small, N.mod_small by lia. reflexivity. Qed.

Lemma bmem_cons_hi w ws i : 32 <= i -> bmem (w :: ws) i = bmem ws (i - 32).
Proof.
  intros H. unfold bmem. set (j := i - 32). replace i with (j + 1 * 32) by (subst j; lia).
  rewrite N.div_add, N.mod_add by lia. replace (N.to_nat (j / 32 + 1)) with (S (N.to_nat (j / 32))) by lia. reflexivity.
Qed.

Definition holds (bs : list N) (a b : N) : Prop := forall i, bmem bs i = (a <=? i) && (i <? b).

Lemma holds_tail w ws a b : holds (w :: ws) a b -> holds ws (a - 32) (b - 32).
Proof.
  intros H i. specialize (H (i + 32)). rewrite bmem_cons_hi in H by lia. replace (i + 32 - 32) with i in H by lia.
  rewrite H. apply Bool.eq_iff_eq_true. rewrite !andb_true_iff, !N.leb_le, !N.ltb_lt. lia.
Qed.

Lemma holds_word w ws a b i : holds (w :: ws) a b -> i < 32 -> N.testbit w i = (a <=? 31 - i) && (31 - i <? b).
Proof. intros H Hi. rewrite <- (H (31 - i)), bmem_cons_lo by lia. f_equal. lia. Qed.

Lemma testbit_lt32 w i : w < 2 ^ 32 -> 32 <= i -> N.testbit w i = false.
Proof.
  intros H Hi. rewrite <- (N.mod_small w (2 ^ 32)) by exact H. apply N.mod_pow2_bits_high. exact Hi.
Qed.

Lemma word_zero w : w < 2 ^ 32 -> (forall i, i < 32 -> N.testbit w i = false) -> w = 0.
Proof.
  intros H Z. apply N.bits_inj. intros i. rewrite N.bits_0. destruct (N.lt_ge_cases i 32); auto using testbit_lt32.
Qed.

Lemma scan_pending_spec ws : forall b e, words_ok ws -> holds ws 0 b -> b <= 32 * blen ws -> (e + blen ws) * 32 < 2 ^ 32 ->
  scan_pending ws e = if b <? 32 * blen ws then Some (e * 32 + b) else None.
Proof.
  change (2 ^ 32) with 4294967296.
  induction ws as [|w ws IH]; intros b e W H L E.
  - unfold blen in *. cbn [length] in *. cbn [scan_pending]. replace (b <? 32 * N.of_nat 0) with false; [reflexivity|]. symmetry. apply N.ltb_ge. lia.
  - inversion W as [|? ? W1 W2]; subst. unfold blen in *. cbn [length] in *. cbn [scan_pending].
    destruct (N.le_gt_cases 32 b) as [B|B].
    + assert (Z : count_trailing_zeros w = 0).
      { apply count_trailing_zeros_spec; auto. split; [|intros j Hj; lia].
        rewrite (holds_word w ws 0 b) by (auto; lia). apply andb_true_iff. rewrite N.leb_le, N.ltb_lt. lia. }
      rewrite Z. rewrite N.eqb_refl. rewrite (IH (b - 32)); auto.
      * destruct (N.ltb_spec (b - 32) (32 * N.of_nat (length ws))); destruct (N.ltb_spec b (32 * N.of_nat (S (length ws)))); try lia; auto.
        f_equal. lia.
      * apply holds_tail in H. exact H.
      * lia.
      * lia.
    + assert (Z : count_trailing_zeros w = 32 - b).
      { destruct (N.eq_dec b 0) as [-> |B0].
        - rewrite (word_zero w); auto using count_trailing_zeros_0. intros i Hi. rewrite (holds_word w ws 0 0) by auto.
          apply andb_false_iff. rewrite N.ltb_ge. lia.
        - apply count_trailing_zeros_spec; auto. split.
          + rewrite (holds_word w ws 0 b) by (auto; lia). apply andb_true_iff. rewrite N.leb_le, N.ltb_lt. lia.
          + intros j Hj. rewrite (holds_word w ws 0 b) by (auto; lia). apply andb_false_iff. rewrite N.ltb_ge. lia. }
      rewrite Z. destruct (N.eqb_spec (32 - b) 0); [lia|].
      replace (b <? 32 * N.of_nat (S (length ws))) with true by (symmetry; apply N.ltb_lt; lia).
      unfold mulw, addw. change (2 ^ 32) with 4294967296. rewrite (N.mod_small (e * 32)) by lia. rewrite N.mod_small by lia. f_equal. lia.
Qed.

Lemma scan_loaded_spec ws : forall a b e, words_ok ws -> holds ws a b -> b <= 32 * blen ws -> (e + blen ws) * 32 < 2 ^ 32 ->
  scan_loaded ws e = if a <? b then Some (e * 32 + a) else None.
Proof.
  change (2 ^ 32) with 4294967296.
  induction ws as [|w ws IH]; intros a b e W H L E.
  - unfold blen in *. cbn [length] in *. cbn [scan_loaded]. replace (a <? b) with false; [reflexivity|]. symmetry. apply N.ltb_ge. lia.
  - inversion W as [|? ? W1 W2]; subst. unfold blen in *. cbn [length] in *. cbn [scan_loaded].
    destruct (N.le_gt_cases (N.min 32 b) a) as [A|A].
    + rewrite (word_zero w); auto.
      * rewrite count_leading_zeros_0, N.eqb_refl. rewrite (IH (a - 32) (b - 32)); try assumption; try lia.
        -- destruct (N.ltb_spec (a - 32) (b - 32)); destruct (N.ltb_spec a b); try lia; auto. f_equal. lia.
        -- eapply holds_tail; eauto.
      * intros i Hi. rewrite (holds_word w ws a b) by auto. apply andb_false_iff. rewrite N.leb_gt, N.ltb_ge. lia.
    + assert (Z : count_leading_zeros w = a).
      { replace a with (31 - (31 - a)) at 1 by lia. apply count_leading_zeros_spec; auto. split.
        - rewrite (holds_word w ws a b) by (auto; lia). apply andb_true_iff. rewrite N.leb_le, N.ltb_lt. lia.
        - intros j Hj. destruct (N.lt_ge_cases j 32) as [J|J]; [|auto using testbit_lt32].
          rewrite (holds_word w ws a b) by (auto; lia). apply andb_false_iff. rewrite N.leb_gt, N.ltb_ge. lia. }
      rewrite Z. destruct (N.eqb_spec a 32); [lia|]. replace (a <? b) with true by (symmetry; apply N.ltb_lt; lia).
      unfold mulw, addw. change (2 ^ 32) with 4294967296. rewrite (N.mod_small (e * 32)) by lia. rewrite N.mod_small by lia. f_equal.
Qed.

Lemma filter_all {A} (f : A -> bool) l : (forall x, In x l -> f x = true) -> filter f l = l.
Proof. induction l; cbn; intros H; auto. rewrite (H a) by auto. f_equal. apply IHl. intros; apply H; auto. Qed.
Lemma filter_none {A} (f : A -> bool) l : (forall x, In x l -> f x = false) -> filter f l = [].
Proof. induction l; cbn; intros H; auto. rewrite (H a) by auto. apply IHl. intros; apply H; auto. Qed.

Lemma card_interval n a b s : a <= b -> b <= N.of_nat n -> (forall i, s i = (a <=? i) && (i <? b)) -> card n s = b - a.
Proof.
  intros A B S. unfold card. replace n with (N.to_nat a + (N.to_nat (b - a) + (n - N.to_nat b)))%nat by lia.
  rewrite !seq_app, !filter_app, !app_length.
  rewrite (filter_none _ (seq 0 _)), (filter_all _ (seq (0 + N.to_nat a) _)), (filter_none _ (seq (0 + N.to_nat a + _) _)).
  - rewrite seq_length. cbn [length]. lia.
  - intros x Hx. apply in_seq in Hx. rewrite S. apply andb_false_iff. rewrite N.ltb_ge. lia.
  - intros x Hx. apply in_seq in Hx. rewrite S. apply andb_true_iff. rewrite N.leb_le, N.ltb_lt. lia.
  - intros x Hx. apply in_seq in Hx. rewrite S. apply andb_false_iff. rewrite N.leb_gt. lia.
Qed.

Lemma count_holds bs a b : words_ok bs -> holds bs a b -> a <= b -> b <= 32 * blen bs -> 32 * blen bs < 2 ^ 32 ->
  bitset_count_set_bits bs = b - a.
Proof.
  intros W H A B L. rewrite bitset_count_spec by auto. apply card_interval; auto. unfold blen in B. lia.
Qed.

Lemma set_range_holds bs s n (v : bool) : words_ok bs -> s + n <= 32 * blen bs ->
  exists bs', bitset_set_range bs s n v = Ok bs' /\ words_ok bs' /\ blen bs' = blen bs /\
    forall j, bmem bs' j = if (s <=? j) && (j <? s + n) then v else bmem bs j.
Proof.
  intros W L. destruct (bitset_set_range_spec bs s n v W L) as (x & A & B & C & D). exists x. unfold blen. rewrite C. auto.
Qed.

(* ---------- clamping ---------- *)
Lemma clamp_spec first num n : first <= n -> n < 2 ^ 32 -> 1 <= num -> 1 <= n ->
  let last := clamp_last first num n in
  clamp_num first last = N.min num (n - first) /\ (first < n -> last + 1 = first + N.min num (n - first)).
Proof.
  change (2 ^ 32) with 4294967296. intros A B C D. cbv zeta. unfold clamp_last.
  assert (E : subw 64 (addw 64 first (N.min num n)) 1 = first + N.min num n - 1).
  { unfold subw, addw. change (2 ^ 64) with 18446744073709551616. rewrite (N.mod_small (first + _)) by lia.
    replace (first + N.min num n + (18446744073709551616 - 1)) with (first + N.min num n - 1 + 1 * 18446744073709551616) by lia.
    rewrite N.mod_add, N.mod_small by lia. reflexivity. }
  rewrite E. clear E.
  assert (S : forall x, first <= x -> x < 4294967296 - 1 -> clamp_num first x = x - first + 1).
  { intros x X Y. unfold clamp_num, subw, addw. change (2 ^ 32) with 4294967296.
    replace (x + (4294967296 - first)) with (x - first + 1 * 4294967296) by lia. rewrite N.mod_add, (N.mod_small (x - first)), N.mod_small by lia. lia. }
  assert (S1 : subw 32 n 1 = n - 1).
  { unfold subw. change (2 ^ 32) with 4294967296. replace (n + (4294967296 - 1)) with (n - 1 + 1 * 4294967296) by lia.
    rewrite N.mod_add, N.mod_small by lia. reflexivity. }
  destruct (N.leb_spec n (first + N.min num n - 1)) as [Q|Q].
  - rewrite S1. destruct (N.eq_dec first n) as [-> |F].
    + split; [|lia]. unfold clamp_num. unfold subw, addw. change (2 ^ 32) with 4294967296.
      rewrite (N.mod_small (n - 1 + _)) by lia. replace (n - 1 + (4294967296 - n) + 1) with (1 * 4294967296) by lia. rewrite N.mod_mul by lia. lia.
    + rewrite S by lia. split; lia.
  - rewrite S by lia. split; lia.
Qed.

(* ---------- storing segment metadata ---------- *)
Lemma store_segs_notin value segs : forall f o, ~ In o (map cs_segment_header_offset segs) -> store_segs value segs f o = f o.
Proof.
  induction segs as [|s segs IH]; intros f o H; cbn in *; auto. unfold store_segs in *. rewrite IH by tauto.
  unfold set_meta. destruct (N.eqb_spec o (cs_segment_header_offset s)); auto. subst; tauto.
Qed.

Lemma store_segs_in value segs : forall f s, NoDup (map cs_segment_header_offset segs) -> In s segs ->
  store_segs value segs f (cs_segment_header_offset s) = value s.
Proof.
  induction segs as [|x segs IH]; intros f s N I; cbn in *; [tauto|]. inversion N; subst. unfold store_segs in *. cbn [fold_left].
  destruct I as [-> |I]; [|apply IH; auto].
  fold (store_segs value segs (set_meta f (cs_segment_header_offset s) (value s))). rewrite store_segs_notin by auto.
  unfold set_meta. rewrite N.eqb_refl. reflexivity.
Qed.

Lemma NoDup_app_l {A} (l k : list A) : NoDup (l ++ k) -> NoDup l.
Proof. induction l; cbn; intros H; constructor; inversion H; subst; auto. intro; apply H2; apply in_or_app; auto. Qed.
Lemma NoDup_app_r {A} (l k : list A) : NoDup (l ++ k) -> NoDup k.
Proof. induction l; cbn; intros H; auto. inversion H; auto. Qed.
Lemma NoDup_app_disj {A} (l k : list A) x : NoDup (l ++ k) -> In x l -> In x k -> False.
Proof. induction l; cbn; intros H I J; [tauto|]. inversion H; subst. destruct I as [-> |I]; eauto. apply H2, in_or_app; auto. Qed.

Lemma chunk_nodup chunks : NoDup (map cs_segment_header_offset (flat_map ck_segs chunks)) ->
  forall c ch, nth_error chunks c = Some ch -> NoDup (map cs_segment_header_offset (ck_segs ch)).
Proof.
  induction chunks as [|x l IH]; intros N c ch H; [destruct c; discriminate|]. cbn in N. rewrite map_app in N.
  destruct c; cbn in H; [injection H as <-; eauto using NoDup_app_l | eauto using NoDup_app_r].
Qed.

Lemma in_chunk_offsets chunks c ch o : nth_error chunks c = Some ch -> In o (map cs_segment_header_offset (ck_segs ch)) ->
  In o (map cs_segment_header_offset (flat_map ck_segs chunks)).
Proof.
  intros H I. apply in_map_iff in I. destruct I as (s & <- & I). apply in_map. apply in_flat_map. exists ch. eauto using nth_error_In.
Qed.

Lemma chunk_unique chunks : NoDup (map cs_segment_header_offset (flat_map ck_segs chunks)) ->
  forall c ch c' ch' o, nth_error chunks c = Some ch -> nth_error chunks c' = Some ch' ->
  In o (map cs_segment_header_offset (ck_segs ch)) -> In o (map cs_segment_header_offset (ck_segs ch')) -> c = c'.
Proof.
  induction chunks as [|x l IH]; intros N c ch c' ch' o H H' I I'; [destruct c; discriminate|]. cbn in N. rewrite map_app in N.
  destruct c, c'; cbn in H, H'; auto.
  - injection H as <-. exfalso. eapply NoDup_app_disj; eauto. eauto using in_chunk_offsets.
  - injection H' as <-. exfalso. eapply NoDup_app_disj; eauto. eauto using in_chunk_offsets.
  - f_equal. eapply IH; eauto using NoDup_app_r.
Qed.

Lemma for_chunks_spec chunks m ptr value : NoDup (map cs_segment_header_offset (flat_map ck_segs chunks)) ->
  forall k first f,
  (forall c, first <= c < first + N.of_nat k -> exists ch, nth_error chunks (N.to_nat c) = Some ch /\ read_chunk m ptr ch = Ok (ck_segs ch)) ->
  exists f', for_chunks k chunks first m ptr value f = Ok f' /\
    forall c ch sg, nth_error chunks (N.to_nat c) = Some ch -> In sg (ck_segs ch) ->
      f' (cs_segment_header_offset sg) = if (first <=? c) && (c <? first + N.of_nat k) then value sg else f (cs_segment_header_offset sg).
Proof.
  intros Hn. induction k as [|k IH]; intros first f H.
  - exists f. split; auto. intros c ch sg _ _. replace ((first <=? c) && (c <? first + N.of_nat 0)) with false; auto.
    symmetry. apply andb_false_iff. rewrite N.leb_gt, N.ltb_ge. lia.
  - cbn [for_chunks]. destruct (H first) as (ch & E & R); [lia|]. rewrite E, R. cbn [bindo].
    destruct (IH (first + 1) (store_segs value (ck_segs ch) f)) as (f' & F & M); [intros c Hc; apply H; lia|].
    exists f'. split; auto. intros c ch' sg E' I. rewrite (M c ch' sg E' I).
    destruct (N.eq_dec c first) as [-> |D].
    + rewrite E in E'. injection E' as <-.
      replace ((first + 1 <=? first) && _) with false by (symmetry; apply andb_false_iff; rewrite N.leb_gt; lia).
      replace ((first <=? first) && _) with true by (symmetry; apply andb_true_iff; rewrite N.leb_le, N.ltb_lt; lia).
      apply store_segs_in; auto. eapply chunk_nodup; eauto.
    + replace ((first <=? c) && (c <? first + N.of_nat (S k))) with ((first + 1 <=? c) && (c <? first + 1 + N.of_nat k)).
      2:{ apply Bool.eq_iff_eq_true. rewrite !andb_true_iff, !N.leb_le, !N.ltb_lt. lia. }
      destruct (_ && _); auto. apply store_segs_notin. intro J. apply D.
      apply N2Nat.inj. eapply (chunk_unique chunks Hn _ _ _ _ (cs_segment_header_offset sg)); eauto. apply in_map. exact I.
Qed.

Lemma all_resident_spec m n : forall o, all_resident m o n = true <-> forall b, o <= b < o + N.of_nat n -> m b = true.
Proof.
  induction n as [|n IH]; intros o.
  - cbn. split; auto. intros _ b H. lia.
  - cbn [all_resident]. rewrite andb_true_iff, IH. split.
    + intros [A B] b H. destruct (N.eq_dec b o) as [-> |D]; auto. apply B. lia.
    + intros H. split; [apply H; lia | intros b Hb; apply H; lia].
Qed.

Lemma read_chunk_ok m p ch : bm_buffer m = Some p -> (forall b, ck_offset ch <= b < ck_offset ch + ck_size ch -> bm_resident m b = true) ->
  read_chunk m (Some p) ch = Ok (ck_segs ch).
Proof.
  intros B R. unfold read_chunk. rewrite B, N.eqb_refl. cbn [andb].
  replace (all_resident _ _ _) with true; auto. symmetry. apply all_resident_spec. intros b Hb. apply R. lia.
Qed.

(* ---------- request ids ---------- *)
Lemma request_id_inj i g : i < 2 ^ 32 -> g < 2 ^ 32 -> get_request_index (make_request_id i g) = i /\ get_generation_id (make_request_id i g) = g.
Proof.
  intros I G. unfold get_request_index, get_generation_id, make_request_id, wrapw, shrw, shlw.
  assert (E : N.shiftl g 32 mod 2 ^ 64 = N.shiftl g 32).
  { apply N.mod_small. rewrite N.shiftl_mul_pow2. change (2 ^ 64) with (2 ^ 32 * 2 ^ 32). apply N.mul_lt_mono_pos_r; auto. }
  rewrite E. split.
  - apply N.bits_inj. intros k. destruct (N.lt_ge_cases k 32) as [K|K].
    + rewrite N.mod_pow2_bits_low, N.lor_spec, N.shiftl_spec_low by auto. reflexivity.
    + rewrite N.mod_pow2_bits_high by auto. symmetry. apply testbit_lt32; auto.
  - rewrite N.shiftr_lor, N.shiftr_shiftl_l, N.sub_diag, N.shiftl_0_r by lia.
    rewrite (N.shiftr_div_pow2 i), N.div_small, N.lor_0_r by auto. apply N.mod_small; auto.
Qed.

Lemma request_id_of id : id < 2 ^ 64 -> make_request_id (get_request_index id) (get_generation_id id) = id.
Proof.
  intros H. unfold get_request_index, get_generation_id, make_request_id, wrapw, shrw, shlw.
  assert (S : N.shiftr id 32 < 2 ^ 32).
  { rewrite N.shiftr_div_pow2. apply N.div_lt_upper_bound; [discriminate|]. exact H. }
  rewrite (N.mod_small (N.shiftr id 32)) by auto.
  apply N.bits_inj. intros k. rewrite N.lor_spec.
  destruct (N.lt_ge_cases k 32) as [K|K].
  - rewrite (N.mod_pow2_bits_low id) by auto. destruct (N.lt_ge_cases k 64); [|lia].
    rewrite N.mod_pow2_bits_low, N.shiftl_spec_low by lia. reflexivity.
  - rewrite (N.mod_pow2_bits_high id), orb_false_r by auto. destruct (N.lt_ge_cases k 64).
    + rewrite N.mod_pow2_bits_low, N.shiftl_spec_high, N.shiftr_spec by lia. f_equal. lia.
    + rewrite N.mod_pow2_bits_high by auto. symmetry. rewrite <- (N.mod_small id (2 ^ 64)) by auto. apply N.mod_pow2_bits_high. auto.
Qed.
