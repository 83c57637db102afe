(** The bit stream that is written contains the samples of the streams. *)
From Coq Require Import Lia.
From Verif Require Import Word WordFacts Pieces MemoryUtils MemoryFacts Float32 Quant Headers HeadersFacts Packing PackSpec PackingFacts SubTracks DbBuild
  TransDec TransSpec TransRing TransMem TransConst TransAnim TransEnc TransEncSpec TransEncFacts.
Local Open Scope N_scope.
Ltac Zify.zify_post_hook ::= idtac.

Lemma placed_skip m off l : placed m off l -> placed (skipn (N.to_nat off) m) 0 l.
Proof. intros P k b H. rewrite nth_error_skipn. exact (P k b H). Qed.
Lemma blen_skipn n m : blen (skipn n m) = blen m - N.of_nat n.
Proof. unfold blen. rewrite skipn_length. lia. Qed.
Lemma mbit_skipn m off i : mbit (skipn (N.to_nat off) m) i = mbit m (8 * off + i).
Proof.
  unfold mbit. rewrite nth_skipn.
  replace ((8 * off + i) / 8) with (off + i / 8) by (rewrite (N.mul_comm 8 off), N.div_add_l; lia).
  replace ((8 * off + i) mod 8) with (i mod 8) by (rewrite N.add_comm, (N.mul_comm 8 off), N.mod_add; lia).
  f_equal. f_equal. set (q := i / 8). clearbody q. lia.
Qed.
Lemma fields_at_skip m off n vs : fields_at m (8 * off) n vs -> fields_at (skipn (N.to_nat off) m) 0 n vs.
Proof. apply fields_at_shift. intros j _. rewrite mbit_skipn. f_equal; lia. Qed.

(** the loop of [load_words] *)
Definition load_words_from (n : nat) (m : list N) (off : N) : outcome (list N) :=
  (fix go n off := match n with O => Ok [] | Datatypes.S n => bindo (load_le m off 4) (fun w => bindo (go n (off + 4)) (fun l => Ok (w :: l))) end) n off.
Lemma load_words_from_ok m ws : forall off, placed m off (word_bytes ws) -> off + 4 * len ws <= blen m -> Forall (fun w => w < 2 ^ 32) ws ->
  load_words_from (length ws) m off = Ok ws.
Proof.
  induction ws as [| w ws IH]; intros off P B W; [reflexivity |]. inversion W; subst. rewrite len_cons in B.
  rewrite word_bytes_cons in P. apply placed_app in P as [P1 P2].
  cbn [length load_words_from]. change (load_le m off 4) with (read32 m off).
  rewrite (read32_placed m off w P1) by (try assumption; lia). cbn [bindo].
  assert (E : blen (le_bytes 4 w) = 4) by reflexivity. rewrite E in P2.
  change ((fix go (n : nat) (off0 : N) {struct n} : outcome (list N) := _) (length ws) (off + 4)) with (load_words_from (length ws) m (off + 4)).
  rewrite IH; [reflexivity | exact P2 | lia | assumption].
Qed.
Lemma load_words_prefix n m ws : placed m 0 (word_bytes ws) -> 4 * len ws <= blen m -> Forall (fun w => w < 2 ^ 32) ws -> (n <= length ws)%nat ->
  load_words n m = Ok (firstn n ws).
Proof.
  intros P B W Hn. change (load_words n m) with (load_words_from n m 0).
  pose proof (load_words_from_ok m (firstn n ws) 0) as L. rewrite firstn_length_le in L by exact Hn. apply L.
  - rewrite <- (firstn_skipn n ws) in P. unfold word_bytes in *. rewrite map_app, concat_app in P. apply placed_app in P. apply P.
  - unfold len in *. rewrite firstn_length_le by exact Hn. lia.
  - apply Forall_first, W.
Qed.

Lemma get_sample_ok t k : stream_ok t -> k < ts_num_samples t ->
  get_raw_sample_ptr t k = Ok (skipn (N.to_nat (k * ts_sample_size t)) (ts_data t)) /\
  ts_sample_size t + 15 <= blen (skipn (N.to_nat (k * ts_sample_size t)) (ts_data t)) /\ bytes_ok (skipn (N.to_nat (k * ts_sample_size t)) (ts_data t)).
Proof.
  intros (A & B & C) H. unfold get_raw_sample_ptr. replace (k <? ts_num_samples t) with true by (symmetry; apply N.ltb_lt, H).
  assert (k * ts_sample_size t + ts_sample_size t <= ts_num_samples t * ts_sample_size t) by nia.
  rewrite mulw_small by lia. split; [reflexivity |]. rewrite blen_skipn. split; [lia | apply bytes_ok_skipn, A].
Qed.

Lemma write_raw_app a : forall dest p b, write_raw dest p (a ++ b) = bindo (write_raw dest p a) (fun d => write_raw d (p + 32 * blen a) b).
Proof.
  induction a as [| x a IH]; intros dest p b; cbn [app write_raw].
  - cbn [bindo]. replace (p + 32 * blen []) with p by (unfold blen; cbn [length]; lia). reflexivity.
  - destruct (write_raw_component dest p x) as [d | |]; cbn [bindo]; try reflexivity. rewrite IH. destruct (write_raw d (p + 32) a); cbn [bindo]; try reflexivity.
    f_equal. unfold blen. cbn [length]. lia.
Qed.
Lemma write_raw_one dest p x : write_raw dest p [x] = write_raw_component dest p x.
Proof. cbn [write_raw]. destruct (write_raw_component dest p x); reflexivity. Qed.
Lemma write_raw_snoc l d dest p d' : write_raw dest p (l ++ [d]) = Ok d' ->
  exists d0, write_raw dest p l = Ok d0 /\ write_raw_component d0 (p + 32 * blen l) d = Ok d'.
Proof.
  rewrite write_raw_app. destruct (write_raw dest p l) as [m | |]; cbn [bindo]; try discriminate. rewrite write_raw_one. intros H. exists m. split; [reflexivity | exact H].
Qed.
Lemma write_raw_split a b c d dest p d' : write_raw dest p [a; b; c; d] = Ok d' ->
  exists d0, write_raw dest p [a; b; c] = Ok d0 /\ write_raw_component d0 (p + 96) d = Ok d'.
Proof.
  intros H. assert (B : p + 32 * blen [a; b; c] = p + 96) by reflexivity. rewrite <- B. revert H. generalize (write_raw_snoc [a; b; c] d dest p d'). cbn [app]. intros F. exact F.
Qed.
Lemma write_raw_ok ws dest p : bytes_ok dest -> Forall (fun v => v < 2 ^ 32) ws -> p + 32 * blen ws <= 8 * blen dest ->
  exists d', write_raw dest p ws = Ok d' /\ only_changed dest d' p (32 * blen ws) /\ fields_at d' p 32 ws.
Proof. intros Hd W L. rewrite write_raw_components by exact W. apply write_components_spec; try assumption; lia. Qed.

Lemma fields_at_app m n a : forall p b, fields_at m p n (a ++ b) <-> fields_at m p n a /\ fields_at m (p + n * len a) n b.
Proof.
  induction a as [| v a IH]; intros p b; cbn [app fields_at].
  - unfold len. cbn [length]. rewrite N.mul_0_r, N.add_0_r. tauto.
  - rewrite IH, len_cons. replace (p + n + n * len a) with (p + n * (len a + 1)) by lia. tauto.
Qed.

Definition writes (dest : list N) (bit : N) (x : stored) (d' : list N) : Prop :=
  only_changed dest d' bit (stored_size x) /\ fields_at d' bit (s_bits x) (s_vals x).

Lemma blen_len (l : list N) : blen l = len l. Proof. reflexivity. Qed.
Lemma addw64_ok a b c : a + b <= 8 * c -> 8 * c < 2 ^ 64 -> addw 64 a b = a + b.
Proof. intros H1 H2. apply addw_small. exact (N.le_lt_trans _ _ _ H1 H2). Qed.

Lemma write_fixed_sample_ok t k x dest bit : stream_ok t -> stream_sample t k x -> ts_rate t = 255 -> bytes_ok dest ->
  bit + stored_size x <= 8 * blen dest -> 8 * blen dest < 2 ^ 64 ->
  exists d', write_animated_sample t k dest bit = Ok (d', bit + stored_size x) /\ writes dest bit x d'.
Proof.
  intros K H E Hd L W. unfold stream_sample in H. unfold write_animated_sample, is_bit_rate_variable, k_invalid_bit_rate. rewrite E in *.
  change (255 =? 255) with true in *. cbn [negb]. cbv iota in *.
  destruct H as (Hb & [Len Hw] & Hk & Hs & Hp & At). destruct (get_sample_ok t k K Hk) as (G1 & G2 & G3). rewrite G1. cbn [bindo].
  apply placed_skip in At. set (p := skipn _ _) in *. clearbody p.
  destruct Hp as [Hp | Hp]; rewrite Hp in *.
  - change (16 =? 16) with true in *. cbv iota in *. assert (Sz : stored_size x = 128) by (unfold stored_size; rewrite Hb, Len; reflexivity). unfold writes. rewrite Sz, Hb in *.
    destruct (s_vals x) as [| a [| b [| c [| d [| e l]]]]]; cbn [length] in Len; try lia.
    rewrite (load_words_prefix 3 p [a; b; c; d]) by (try assumption; unfold len; cbn [length]; lia). cbn [bindo firstn].
    assert (Rd : load_le p 12 4 = Ok d).
    { apply (read32_placed p 12 d); [| lia | inversion Hw as [| ? ? _ Hw1]; inversion Hw1 as [| ? ? _ Hw2]; inversion Hw2 as [| ? ? _ Hw3]; inversion Hw3; assumption].
      rewrite !word_bytes_cons in At. apply placed_app in At as [_ At]. apply placed_app in At as [_ At]. apply placed_app in At as [_ At].
      apply placed_app in At as [At _]. exact At. }
    rewrite Rd.
    destruct (write_raw_ok [a; b; c; d] dest bit Hd Hw) as (d' & E1 & E2 & E3); [unfold blen in *; cbn [length]; lia |].
    assert (Spl : exists d0, write_raw dest bit [a; b; c] = Ok d0 /\ write_raw_component d0 (bit + 96) d = Ok d').
    { apply write_raw_split, E1. }
    destruct Spl as (d0 & S1 & S2). rewrite S1. cbn [bindo]. rewrite S2. cbn [bindo].
    exists d'. rewrite (addw64_ok _ _ _ L W). split; [reflexivity |]. split; [exact E2 | exact E3].
  - change (12 =? 16) with false in *. cbv iota in *. assert (Sz : stored_size x = 96) by (unfold stored_size; rewrite Hb, Len; reflexivity). unfold writes. rewrite Sz, Hb in *.
    destruct (s_vals x) as [| a [| b [| c [| d l]]]]; cbn [length] in Len; try lia.
    rewrite (load_words_prefix 3 p [a; b; c]) by (try assumption; unfold len; cbn [length]; lia). cbn [bindo firstn].
    destruct (write_raw_ok [a; b; c] dest bit Hd Hw) as (d' & E1 & E2 & E3); [unfold blen in *; cbn [length]; lia |].
    rewrite E1. cbn [bindo]. exists d'. rewrite (addw64_ok _ _ _ L W). split; [reflexivity |]. split; [exact E2 | exact E3].
Qed.
Lemma write_variable_raw_ok t k x dest bit : stream_ok t -> stream_sample t k x -> ts_rate t = 24 -> bytes_ok dest ->
  bit + stored_size x <= 8 * blen dest -> 8 * blen dest < 2 ^ 64 ->
  exists d', write_animated_sample t k dest bit = Ok (d', bit + stored_size x) /\ writes dest bit x d'.
Proof.
  intros K H E Hd L W. unfold stream_sample in H. unfold write_animated_sample, is_bit_rate_variable, k_invalid_bit_rate. rewrite E in *.
  change (24 =? 255) with false in *. change (24 =? 0) with false in *. change (24 =? 24) with true in *. cbn [negb]. cbv iota in *.
  destruct H as (Hb & [Len Hw] & Hk & Hs & At). destruct (get_sample_ok t k K Hk) as (G1 & G2 & G3). rewrite G1. cbn [bindo].
  apply placed_skip in At. set (p := skipn _ _) in *. clearbody p.
  change (get_num_bits_at_bit_rate 24) with (Ok 32). change (is_raw_bit_rate 24) with true. cbn [bindo]. cbv iota. change (mulw 32 32 3) with 96.
  assert (Sz : stored_size x = 96) by (unfold stored_size; rewrite Hb, Len; reflexivity). unfold writes. rewrite Sz, Hb in *.
  destruct (s_vals x) as [| a [| b [| c [| d l]]]]; cbn [length] in Len; try lia.
  rewrite (load_words_prefix 3 p [a; b; c]) by (try assumption; unfold len; cbn [length]; lia). cbn [bindo firstn].
  destruct (write_raw_ok [a; b; c] dest bit Hd Hw) as (d' & E1 & E2 & E3); [unfold blen in *; cbn [length]; lia |].
  rewrite E1. cbn [bindo]. exists d'. rewrite (addw64_ok _ _ _ L W). split; [reflexivity |]. split; [exact E2 | exact E3].
Qed.
Lemma write_variable_ok t k x dest bit : stream_ok t -> stream_sample t k x -> ts_rate t <> 255 -> ts_rate t <> 0 -> ts_rate t <> 24 -> bytes_ok dest ->
  bit + stored_size x <= 8 * blen dest -> 8 * blen dest < 2 ^ 64 ->
  exists d', write_animated_sample t k dest bit = Ok (d', bit + stored_size x) /\ writes dest bit x d'.
Proof.
  intros K H E E0 E24 Hd L W. unfold stream_sample in H.
  unfold write_animated_sample, is_bit_rate_variable, k_invalid_bit_rate, is_raw_bit_rate, k_highest_bit_rate, get_num_bits_at_bit_rate.
  rewrite (proj2 (N.eqb_neq (ts_rate t) 255)), (proj2 (N.eqb_neq (ts_rate t) 0)), (proj2 (N.eqb_neq (ts_rate t) 24)) in * by assumption. cbn [negb].
  destruct H as (Hb & Hn & [Len Hw] & Hk & Hs & At). destruct (get_sample_ok t k K Hk) as (G1 & G2 & G3). rewrite G1. cbn [bindo].
  apply fields_at_skip in At. set (p := skipn _ _) in *. clearbody p. rewrite Hn. cbn [bindo].
  assert (Sz : stored_size x = s_bits x * 3) by (unfold stored_size; rewrite Len; reflexivity). unfold writes. rewrite Sz in *.
  assert (S3 : s_bits x * 3 < 2 ^ 32) by (change (2 ^ 32) with 4294967296; lia). rewrite mulw_small by exact S3. clear S3.
  assert (B : blen (s_vals x) = 3) by exact Len.
  destruct (copy_fields dest bit p (s_bits x) (s_vals x)) as (d' & E1 & E2 & E3); try assumption; rewrite ?B; try lia.
  rewrite B in E1, E2. rewrite E1. cbn [bindo]. exists d'. rewrite (addw64_ok _ _ _ L W). split; [reflexivity |]. split; assumption.
Qed.
Lemma write_animated_sample_ok t k x dest bit : stream_ok t -> stream_sample t k x -> ts_rate t <> 0 -> bytes_ok dest ->
  bit + stored_size x <= 8 * blen dest -> 8 * blen dest < 2 ^ 64 ->
  exists d', write_animated_sample t k dest bit = Ok (d', bit + stored_size x) /\ writes dest bit x d'.
Proof.
  intros K H R Hd L W. destruct (N.eq_dec (ts_rate t) 255); [apply write_fixed_sample_ok; assumption |].
  destruct (N.eq_dec (ts_rate t) 24); [apply write_variable_raw_ok | apply write_variable_ok]; assumption.
Qed.
