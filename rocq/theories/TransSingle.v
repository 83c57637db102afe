(** Decompressing a single track reads the same sub-tracks. *)
From Coq Require Import Lia.
From Verif Require Import Word WordFacts MemoryUtils RewriteFacts Pieces Float32 Quant Interp Packing PackSpec PackingFacts DbBuild ScalarDec SeekSpec SubTracks SubTracksFacts
  TransDec TransSpec TransRing TransMem TransConst TransFloat TransAnim TransAnim2 TransAnim3 TransPose TransPoseFacts.
Local Open Scope N_scope.
Ltac Zify.zify_post_hook ::= idtac.

(** ** One word *)
Lemma word_bytes_app a b : word_bytes (a ++ b) = word_bytes a ++ word_bytes b.
Proof. unfold word_bytes. rewrite map_app, concat_app. reflexivity. Qed.
Lemma nth_error_split3 {A} (l : list A) k x : nth_error l k = Some x -> exists a b, l = a ++ x :: b /\ length a = k.
Proof. apply nth_error_split. Qed.
Lemma read_word m p ws k w : padded m p (word_bytes ws) -> Forall (fun w => w < 2 ^ 32) ws -> nth_error ws (N.to_nat k) = Some w ->
  read32 m (p + 4 * k) = Ok w.
Proof.
  intros P F H. apply nth_error_split in H as (a & b & -> & L). rewrite word_bytes_app, word_bytes_cons in P.
  apply padded_app in P as [_ P]. rewrite word_bytes_blen, L, Nnat.N2Nat.id in P. apply padded_app in P as [[P B] _].
  unfold blen in B. rewrite le_bytes_length in B. apply Forall_app in F as [_ F]. inversion F; subst. apply read32_placed; [exact P | unfold blen; lia | assumption].
Qed.
Lemma rows_nth_width {A} (w : nat) (rows : list (list A)) : Forall (fun r => length r = w) rows -> forall r i, (r < length rows)%nat -> (i < w)%nat ->
  nth_error (concat rows) (w * r + i) = nth_error (nth r rows []) i.
Proof.
  induction 1 as [| row rows Hr _ IH]; intros r i Hl Hi; [cbn in Hl; lia |]. cbn [concat].
  destruct r as [| r].
  - rewrite nth_error_app1 by lia. cbn [nth]. f_equal. lia.
  - rewrite nth_error_app2 by lia. rewrite Hr. replace (w * S r + i - w)%nat with (w * r + i)%nat by lia. apply IH; [cbn in Hl; lia | exact Hi].
Qed.
Lemma soa_columns n chunk : soa_words n chunk = word_bytes (concat (map (fun c => column 0 c chunk) (seq 0 n))).
Proof.
  unfold soa_words. generalize (seq 0 n). intros l. induction l as [| c l IH]; [reflexivity |]. cbn [map concat]. rewrite word_bytes_app, IH. reflexivity.
Qed.
Lemma read_soa m p (n : nat) chunk i ws r : padded m p (soa_words n chunk) -> Forall (in_words 32 (N.of_nat n)) chunk ->
  nth_error chunk (N.to_nat i) = Some ws -> (N.to_nat r < n)%nat -> read32 m (p + 4 * (i + len chunk * r)) = Ok (nth (N.to_nat r) ws 0).
Proof.
  intros P F H Hr. assert (Hi : (N.to_nat i < length chunk)%nat) by (apply nth_error_Some; congruence).
  rewrite soa_columns in P. apply (read_word m p _ (i + len chunk * r) _ P).
  - apply Forall_concat. apply Forall_forall. intros col Hc. apply in_map_iff in Hc as (c & <- & Hc). apply in_seq in Hc.
    apply (column_words 32 (N.of_nat n)); [exact F | lia].
  - replace (N.to_nat (i + len chunk * r)) with (length chunk * N.to_nat r + N.to_nat i)%nat by (unfold len; lia).
    rewrite rows_nth_width; [| | rewrite map_length, seq_length; exact Hr | exact Hi].
    + rewrite (nth_indep _ [] (column 0 0 chunk)) by (rewrite map_length, seq_length; exact Hr).
      rewrite (map_nth (fun c => column 0 c chunk)), seq_nth by exact Hr. unfold column. rewrite nth_error_map, H. reflexivity.
    + apply Forall_forall. intros row Hin. apply in_map_iff in Hin as (c & <- & _). apply column_length.
Qed.

(** ** Constant sub-tracks *)
Lemma div4 k : exists g i, k / 4 = g /\ k mod 4 = i /\ k = 4 * g + i /\ i < 4.
Proof. exists (k / 4), (k mod 4). repeat split; [apply N.div_mod; lia | apply N.mod_lt; lia]. Qed.
Lemma mulw4 g : 4 * g < 2 ^ 32 -> mulw 32 g 4 = 4 * g.
Proof. intros H. rewrite mulw_small by (rewrite N.mul_comm; exact H). lia. Qed.

Lemma constant_rotation_ok full m first ls k ws : Forall (in_words 32 (components full)) ls -> padded m first (rotation_words full ls) ->
  len ls < 2 ^ 32 -> nth_error ls (N.to_nat k) = Some ws ->
  constant_rotation_within full m first (len ls) (k / 4) (k mod 4) = Ok (const_out ws).
Proof.
  intros F P Hl Hk. assert (Kl : (N.to_nat k < length ls)%nat) by (apply nth_error_Some; congruence).
  destruct (div4 k) as (g & i & -> & -> & -> & Hi). unfold len in *. unfold constant_rotation_within.
  rewrite mulw4 by lia. rewrite subw_ge by lia. destruct full; cbn [components] in F.
  - pose proof (nth_error_split _ _ Hk) as (a & b & E & La). cbn [rotation_words] in P. fold (vector_words ls) in P. rewrite E in P, F.
    rewrite vector_words_app in P. apply padded_app in P as [_ P]. apply Forall_app in F as [F1 F2]. inversion F2 as [| ? ? Fw _]; subst ws.
    rewrite (vector_words_blen 4 a F1) in P. unfold len in P. rewrite La in P. unfold vector_words in P. cbn [map concat] in P. apply padded_app in P as [P _].
    replace (first + 4 * g * 16 + i * 16) with (first + 4 * 4 * N.of_nat (N.to_nat (4 * g + i))) by lia. destruct Fw as [L4 W4].
    destruct (vector_load_words m _ x P W4 ltac:(lia)) as (r & -> & Lr). cbn [bindo]. destruct r; [| cbn [length] in Lr; lia]. rewrite app_nil_r. reflexivity.
  - set (q := N.to_nat g). assert (Lq : length (firstn (4 * q) ls) = (4 * q)%nat) by (rewrite firstn_length; lia).
    cbn [rotation_words] in P. rewrite <- (firstn_skipn (4 * q) ls) in P. rewrite (chunk4_app q) in P by exact Lq. rewrite map_app, concat_app in P.
    apply padded_app in P as [_ P]. rewrite chunked_blen in P. unfold len in P. rewrite Lq in P.
    set (rest := skipn (4 * q) ls) in *. assert (Hn : nth_error rest (N.to_nat i) = Some ws).
    { unfold rest. rewrite nth_error_skipn. replace (4 * q + N.to_nat i)%nat with (N.to_nat (4 * g + i)) by lia. exact Hk. }
    assert (Hr : rest <> []) by (intros X; rewrite X in Hn; destruct (N.to_nat i); discriminate).
    rewrite chunk4_step in P by exact Hr. cbn [map concat] in P. apply padded_app in P as [P _].
    replace (first + 4 * N.of_nat 3 * N.of_nat (4 * q)) with (first + 4 * g * 12) in P by lia.
    assert (Lc : N.min (N.of_nat (length ls) - 4 * g) 4 = len (firstn 4 rest)).
    { unfold len. rewrite firstn_length. unfold rest. rewrite skipn_length. lia. }
    rewrite Lc. assert (Hc : nth_error (firstn 4 rest) (N.to_nat i) = Some ws) by (rewrite nth_error_firstn by lia; exact Hn).
    assert (Fc : Forall (in_words 32 (N.of_nat 3)) (firstn 4 rest)) by (apply Forall_first, Forall_rest, F).
    rewrite (read_soa m _ 3 _ i ws 0 P Fc Hc) by lia. rewrite (read_soa m _ 3 _ i ws 1 P Fc Hc) by lia. rewrite (read_soa m _ 3 _ i ws 2 P Fc Hc) by lia.
    cbn [bindo]. unfold const_out. assert (L3 : length ws = 3%nat). { rewrite Forall_forall in F. apply (in_words_len 32 3), F. apply nth_error_In in Hk. exact Hk. }
    rewrite (list3 0 ws L3) at 4. reflexivity.
Qed.
Lemma constant_vector_ok m first ls k ws : Forall (in_words 32 3) ls -> padded m first (vector_words ls) -> len ls < 2 ^ 32 -> nth_error ls (N.to_nat k) = Some ws ->
  constant_vector_within m first (k / 4) (k mod 4) = Ok (const_out ws).
Proof.
  intros F P Hl Hk. assert (Kl : (N.to_nat k < length ls)%nat) by (apply nth_error_Some; congruence).
  destruct (div4 k) as (g & i & -> & -> & -> & Hi). unfold len in *. unfold constant_vector_within. rewrite mulw4 by lia.
  pose proof (nth_error_split _ _ Hk) as (a & b & E & La). rewrite E in P, F.
  rewrite vector_words_app in P. apply padded_app in P as [_ P]. apply Forall_app in F as [F1 F2]. inversion F2 as [| ? ? Fw _]; subst ws.
  rewrite (vector_words_blen 3 a F1) in P. unfold len in P. rewrite La in P. unfold vector_words in P. cbn [map concat] in P. apply padded_app in P as [P _].
  replace (first + 4 * g * 12 + i * 12) with (first + 4 * 3 * N.of_nat (N.to_nat (4 * g + i))) by lia. destruct Fw as [L3 W3].
  destruct (vector_load_words m _ x P W3 ltac:(lia)) as (r & -> & Lr). cbn [bindo]. unfold const_out. do 2 f_equal.
  rewrite firstn_app, map_length. replace (3 - length x)%nat with 0%nat by lia. rewrite firstn_O, app_nil_r. apply firstn_all2. rewrite map_length. lia.
Qed.

(** ** Skipping animated samples *)
Definition total_bits (l : list stored) : N := fold_right (fun s a => s_bits s + a) 0 l.
Lemma total_bits_app a b : total_bits (a ++ b) = total_bits a + total_bits b.
Proof. induction a as [| s a IH]; [reflexivity |]. cbn [app total_bits fold_right]. fold (total_bits (a ++ b)) (total_bits a). rewrite IH. lia. Qed.
Lemma sizes_bits hs l : Forall (stored_ok hs) l -> stored_sizes l = 3 * total_bits l.
Proof.
  induction 1 as [| s l Hs _ IH]; [reflexivity |]. rewrite stored_sizes_cons. change (total_bits (s :: l)) with (s_bits s + total_bits l). rewrite IH. unfold stored_size. rewrite (stored_length hs s Hs). lia.
Qed.
Lemma sizes_raw n l : Forall (is_raw n) l -> stored_sizes l = 32 * n * len l.
Proof.
  induction 1 as [| s l [Hs [V _]] _ IH]; [unfold len; cbn; lia |]. rewrite stored_sizes_cons. unfold stored_size. rewrite IH, Hs, V, len_cons. lia.
Qed.
Lemma code_bits version hs s : stored_ok hs s -> component_bits version (format_code version s) = s_bits s.
Proof.
  intros [_ H]. unfold component_bits, format_code, raw_bit_rate_bits.
  destruct (N.eqb_spec (s_bits s) 32) as [E | E]; [rewrite N.eqb_refl; congruence |].
  destruct H as [(Z & _) | [(B & _) | (Z & _)]]; [| | contradiction];
    (destruct (N.eqb_spec (s_bits s) (if 9 <=? version then 31 else 32)) as [E2 | E2]; [| reflexivity]); destruct (9 <=? version); lia.
Qed.
Lemma total_bits_cons s l : total_bits (s :: l) = s_bits s + total_bits l.
Proof. reflexivity. Qed.

Section Skip.
  Context (version : N) (hs : bool) (m data : list N).
  Lemma sum_bits_ok l : Forall (stored_ok hs) l -> total_bits l < 2 ^ 32 -> sum_bits version (map (format_code version) l) = total_bits l.
  Proof.
    induction 1 as [| s l Hs _ IH]; intros W; [reflexivity |]. rewrite total_bits_cons in *. cbn [map sum_bits]. rewrite IH by lia. rewrite (code_bits version hs s Hs).
    apply addw_small. exact W.
  Qed.
  Lemma count_bits_ok g : forall ss fmt rest, padded m fmt (map (format_code version) (firstn (4 * g) ss) ++ rest) -> Forall (stored_ok hs) ss ->
    (4 * g <= length ss)%nat -> total_bits (firstn (4 * g) ss) < 2 ^ 32 ->
    count_group_bits g version m fmt = Ok (total_bits (firstn (4 * g) ss)).
  Proof.
    induction g as [| g IH]; intros ss fmt rest P F L W; [reflexivity |].
    destruct ss as [| a [| b [| c [| d t]]]]; cbn [length] in L; try lia.
    replace (4 * S g)%nat with (S (S (S (S (4 * g))))) in * by lia. cbn [firstn] in *.
    set (t' := firstn (4 * g) t) in *. set (cs := [a; b; c; d]). change (a :: b :: c :: d :: t') with (cs ++ t') in *.
    rewrite total_bits_app in *. rewrite map_app, <- app_assoc in P. apply padded_app in P as [P1 P2].
    assert (Lc : blen (map (format_code version) cs) = 4) by reflexivity. rewrite Lc in P2.
    change (a :: b :: c :: d :: t) with (cs ++ t) in F. apply Forall_app in F as [Fc Ft].
    cbn [count_group_bits]. destruct P1 as [P1 B1]. rewrite Lc in B1.
    destruct (load_bytes_placed m fmt _ 16 P1) as (r & -> & _); [cbn; lia | unfold blen in *; lia |]. cbn [bindo].
    unfold t' in *. rewrite (IH t (fmt + 4) rest P2 Ft) by lia. cbn [bindo].
    assert (E : firstn 4 (map (format_code version) cs ++ r) = map (format_code version) cs) by reflexivity. rewrite E.
    rewrite sum_bits_ok by (assumption || lia). rewrite addw_small by exact W. reflexivity.
  Qed.
  Lemma skip_size_ok n : forall ss fmt rest, placed m fmt (map (format_code version) ss ++ rest) -> Forall (stored_ok hs) ss ->
    (n <= length ss)%nat -> total_bits (firstn n ss) < 2 ^ 32 -> skip_size n version m fmt = Ok (total_bits (firstn n ss)).
  Proof.
    induction n as [| n IH]; intros ss fmt rest P F L W; [reflexivity |].
    destruct (nth_error ss n) as [s |] eqn:Es; [| apply nth_error_None in Es; lia].
    assert (Ef : firstn (S n) ss = firstn n ss ++ [s]).
    { clear - Es. revert ss Es. induction n as [| n IH]; intros [| a ss] E; try discriminate; cbn in *; [congruence |]. f_equal. apply IH, E. }
    rewrite Ef, total_bits_app in *. cbn [skip_size].
    rewrite (load8_placed m fmt _ (N.of_nat n) (format_code version s) P).
    2:{ rewrite Nnat.Nat2N.id, nth_error_app1 by (rewrite map_length; lia). rewrite nth_error_map, Es. reflexivity. }
    cbn [bindo]. rewrite (IH ss fmt rest P F) by lia. cbn [bindo]. rewrite total_bits_cons, N.add_0_r in *.
    assert (Hs : stored_ok hs s). { rewrite Forall_forall in F. apply F. apply nth_error_In in Es. exact Es. }
    rewrite (code_bits version hs s Hs). rewrite addw_small by lia. f_equal. lia.
  Qed.

  Lemma formats_split g ss : (4 * g <= length ss)%nat ->
    rotation_formats version ss = map (format_code version) (firstn (4 * g) ss) ++ rotation_formats version (skipn (4 * g) ss).
  Proof.
    intros L. unfold rotation_formats. rewrite <- (firstn_skipn (4 * g) ss) at 1. rewrite map_app, (chunk4_app g).
    2:{ rewrite map_length, firstn_length. lia. }
    rewrite map_app, concat_app. f_equal. assert (Lg : length (map (format_code version) (firstn (4 * g) ss)) = (4 * g)%nat) by (rewrite map_length, firstn_length; lia).
    revert Lg. generalize (map (format_code version) (firstn (4 * g) ss)). clear. induction g as [| g IH]; intros l L.
    - destruct l; [reflexivity | cbn in L; lia].
    - destruct l as [| a [| b [| c [| d t]]]]; cbn [length] in L; try lia. cbn [chunk4 map concat]. rewrite IH by lia. reflexivity.
  Qed.
  Definition kskip (k : kposition) (fmt range : N) (l : list stored) : kposition :=
    {| k_format := k_format k + fmt; k_range := k_range k + range; k_bit := k_bit k + stored_sizes l |}.
  Lemma ksrc_skip g : forall k ss, ksrc version hs m data k ss -> (4 * g <= length ss)%nat ->
    ksrc version hs m data (kskip k (4 * N.of_nat g) (24 * N.of_nat g) (firstn (4 * g) ss)) (skipn (4 * g) ss).
  Proof.
    induction g as [| g IH]; intros k ss K L.
    - unfold kskip. cbn [Nat.mul firstn skipn]. unfold stored_sizes. cbn [fold_right N.of_nat]. rewrite !N.mul_0_r, !N.add_0_r. destruct k; exact K.
    - assert (Hne : ss <> []) by (destruct ss; [cbn in L; lia | discriminate]).
      destruct (ksrc_first _ _ _ _ _ _ K Hne) as (_ & _ & K1). apply IH in K1; [| rewrite skipn_length; lia].
      assert (E1 : skipn (4 * g) (skipn 4 ss) = skipn (4 * S g) ss). { apply list_ext. intros j. rewrite !nth_error_skipn. f_equal. lia. }
      assert (E2 : firstn (4 * S g) ss = firstn 4 ss ++ firstn (4 * g) (skipn 4 ss)).
      { destruct ss as [| a [| b [| c [| d t]]]]; cbn [length] in L; try lia. replace (4 * S g)%nat with (S (S (S (S (4 * g))))) by lia. reflexivity. }
      rewrite E1 in K1. rewrite E2. unfold kskip, kstep in *. cbn [k_format k_range k_bit] in K1. rewrite stored_sizes_app.
      replace (k_format k + 4 * N.of_nat (S g)) with (k_format k + 4 + 4 * N.of_nat g) by lia.
      replace (k_range k + 24 * N.of_nat (S g)) with (k_range k + 24 + 24 * N.of_nat g) by lia. rewrite N.add_assoc. exact K1.
  Qed.
  Lemma vsrc_skip n : forall k ss, vsrc version hs m data k ss -> (n <= length ss)%nat ->
    vsrc version hs m data (kskip k (N.of_nat n) (6 * N.of_nat n) (firstn n ss)) (skipn n ss).
  Proof.
    intros k ss [S F R K] L. rewrite <- (firstn_skipn n ss) in S, F, R, K. apply Forall_app in K as [K1 K2].
    assert (Ln : length (firstn n ss) = n) by (rewrite firstn_length; lia).
    constructor; cbn [kskip k_format k_range k_bit].
    - apply stream_rest, S.
    - unfold vector_formats in F. rewrite map_app in F. apply padded_app in F as [_ F]. unfold blen in F. rewrite map_length, Ln in F. exact F.
    - intros Hh. specialize (R Hh). unfold vector_ranges in R. rewrite map_app, concat_app in R. apply padded_app in R as [_ R].
      assert (E := vector_ranges_blen hs (firstn n ss) K1). unfold vector_ranges in E. rewrite E in R. unfold len in R. rewrite Ln in R. replace (6 * N.of_nat n) with (N.of_nat n * 6) by lia. exact R.
    - exact K2.
  Qed.
  Lemma stream_small bit ss n : stream data bit ss -> Forall (stored_ok hs) ss -> bit + 3 * total_bits (firstn n ss) < 2 ^ 32.
  Proof.
    intros [_ _ W _] F. rewrite <- (firstn_skipn n ss), stored_sizes_app in W. rewrite (sizes_bits hs) in W by (apply Forall_first, F). lia.
  Qed.
End Skip.

(** ** One animated sample *)
Lemma firstn_firstn_le {A} (l : list A) n k : (n <= k)%nat -> firstn n (firstn k l) = firstn n l.
Proof. intros H. rewrite firstn_firstn. f_equal. lia. Qed.
Lemma skipn_cons {A} (l : list A) n x : nth_error l n = Some x -> skipn n l = x :: skipn (S n) l.
Proof. revert l. induction n as [| n IH]; intros [| a l] H; try discriminate; cbn in *; [congruence |]. apply IH, H. Qed.
Lemma stream_at data bit ss n s : stream data bit ss -> nth_error ss n = Some s -> stream data (bit + stored_sizes (firstn n ss)) (s :: skipn (S n) ss).
Proof.
  intros S H. pose proof (skipn_cons ss n s H) as E. rewrite <- E. apply stream_rest. rewrite firstn_skipn. exact S.
Qed.

Lemma single_quat_variable c data k ss index s clips clip cl : c_rotation_format c = quatf_drop_w_variable ->
  ksrc (c_version c) (c_has_segments c) (c_mem c) data k ss -> index < 4 -> nth_error ss (N.to_nat index) = Some s ->
  padded (c_mem c) clip (soa_words 6 (firstn 4 clips)) -> Forall (in_words 32 6) clips -> nth_error clips (N.to_nat index) = Some cl ->
  single_quat c data index (len (firstn 4 clips)) clip k = Ok (decoded (c_has_segments c) s cl).
Proof.
  intros Ef K Hi Hs Pc Wc Hc. set (hs := c_has_segments c) in *. set (m := c_mem c) in *. set (v := c_version c) in *.
  assert (Hne : ss <> []) by (intros X; rewrite X in Hs; destruct (N.to_nat index); discriminate).
  destruct (ksrc_first _ _ _ _ _ _ K Hne) as (F & R & _). destruct K as [S _ _ Ok_ss].
  assert (Li : (N.to_nat index < length ss)%nat) by (apply nth_error_Some; congruence).
  assert (Ok_s : stored_ok hs s). { rewrite Forall_forall in Ok_ss. apply Ok_ss. apply nth_error_In in Hs. exact Hs. }
  pose proof (stream_small hs data (k_bit k) ss (N.to_nat index) S Ok_ss) as W.
  unfold single_quat. fold hs m v. rewrite Ef. cbn [rotation_variable].
  unfold pad4 in F. rewrite (skip_size_ok v hs m (N.to_nat index) (firstn 4 ss) (k_format k) _ F);
    [| apply Forall_first, Ok_ss | rewrite firstn_length; lia | rewrite firstn_firstn_le by lia; lia].
  rewrite firstn_firstn_le by lia. cbn [bindo]. rewrite mulw_small by lia. rewrite addw_small by lia.
  pose proof (stream_at _ _ _ _ _ S Hs) as S2. rewrite (sizes_bits hs) in S2 by (apply Forall_first, Ok_ss). rewrite (N.mul_comm 3) in S2.
  assert (Hs4 : nth_error (firstn 4 ss) (N.to_nat index) = Some s) by (rewrite nth_error_firstn by lia; exact Hs).
  assert (R' : hs = true -> placed m (k_range k) (range_rows (firstn 4 ss))) by (intros Hh; apply R, Hh).
  rewrite (unpack_quat_ok v hs m data (firstn 4 ss) (k_format k) (k_range k) _ index s _ ltac:(rewrite firstn_length; lia) F R' Hs4 Ok_s S2).
  cbn [bindo sample_of u_ignore_segment u_ignore_clip u_lanes].
  (* the clip range *)
  assert (Hc4 : nth_error (firstn 4 clips) (N.to_nat index) = Some cl) by (rewrite nth_error_firstn by lia; exact Hc).
  assert (Word : forall r, r < 6 -> read32 m (clip + 4 * (index + len (firstn 4 clips) * r)) = Ok (nth (N.to_nat r) cl 0)).
  { intros r Hr. apply (read_soa m clip 6 (firstn 4 clips) index cl r); [exact Pc | apply (Forall_first (in_words 32 (N.of_nat 6))), Wc | exact Hc4 | lia]. }
  pose proof (stored_length hs s Ok_s) as L3.
  assert (Clip : forall l, bindo (read32 m (clip + 4 * (index + len (firstn 4 clips) * 0))) (fun a0 => bindo (read32 m (clip + 4 * (index + len (firstn 4 clips) * 1))) (fun a1 =>
      bindo (read32 m (clip + 4 * (index + len (firstn 4 clips) * 2))) (fun a2 => bindo (read32 m (clip + 4 * (index + len (firstn 4 clips) * 3))) (fun b0 =>
      bindo (read32 m (clip + 4 * (index + len (firstn 4 clips) * 4))) (fun b1 => bindo (read32 m (clip + 4 * (index + len (firstn 4 clips) * 5))) (fun b2 =>
      Ok (mul_add3 l [f_of_bits b0; f_of_bits b1; f_of_bits b2] [f_of_bits a0; f_of_bits a1; f_of_bits a2]))))))) =
    Ok (mul_add3 l [clip_value cl 3; clip_value cl 4; clip_value cl 5] [clip_value cl 0; clip_value cl 1; clip_value cl 2])).
  { intros l. rewrite !Word by lia. reflexivity. }
  destruct (N.eqb_spec (s_bits s) 32) as [E32 | E32].
  - rewrite E32. eqbs. cbn [negb]. rewrite andb_false_r. cbn [bindo]. unfold raw_lanes, decoded. rewrite E32. reflexivity.
  - cbn [negb]. rewrite orb_false_r, decoded_cons by exact E32. destruct (N.eqb_spec (s_bits s) 0) as [E0 | E0].
    + cbn [negb]. rewrite andb_false_r. cbn [bindo]. cbv zeta. rewrite Clip. f_equal. f_equal. unfold raw_lanes, normalized. rewrite E0. eqbs. rewrite (list3 0 (s_vals s) L3) at 1. reflexivity.
    + cbn [negb]. rewrite andb_true_r. destruct hs.
      * assert (Row : forall r, r < 6 -> load8 m (k_range k + index + 4 * r) = Ok (nth (N.to_nat r) (rotation_range s) 0)).
        { intros r Hr. specialize (R' eq_refl). replace (k_range k + index + 4 * r) with (k_range k + (4 * r + index)) by lia. apply (load8_placed m _ _ _ _ R').
          replace (N.to_nat (4 * r + index)) with (4 * N.to_nat r + N.to_nat index)%nat by lia. apply range_rows_nth; [rewrite firstn_length; lia | lia | exact Hs4]. }
        pose proof (Row 0 ltac:(lia)) as Q0. pose proof (Row 1 ltac:(lia)) as Q1. pose proof (Row 2 ltac:(lia)) as Q2. pose proof (Row 3 ltac:(lia)) as Q3.
        pose proof (Row 4 ltac:(lia)) as Q4. pose proof (Row 5 ltac:(lia)) as Q5.
        change (4 * 0) with 0 in Q0. change (4 * 1) with 4 in Q1. change (4 * 2) with 8 in Q2. change (4 * 3) with 12 in Q3. change (4 * 4) with 16 in Q4. change (4 * 5) with 20 in Q5.
        rewrite Q0, Q1, Q2, Q3, Q4, Q5. cbn [bindo]. cbv zeta. rewrite Clip. f_equal. f_equal.
        unfold raw_lanes, normalized, rotation_range, in_range. rewrite (proj2 (N.eqb_neq _ _) E0), (proj2 (N.eqb_neq _ _) E32). rewrite (list3 0 (s_vals s) L3) at 1. reflexivity.
      * cbn [bindo]. cbv zeta. rewrite Clip. f_equal. f_equal. unfold raw_lanes, normalized. rewrite (proj2 (N.eqb_neq _ _) E0), (proj2 (N.eqb_neq _ _) E32). rewrite (list3 0 (s_vals s) L3) at 1. reflexivity.
Qed.

Lemma raw_small n data bit ss i : stream data bit ss -> Forall (is_raw n) ss -> (N.to_nat i <= length ss)%nat ->
  stored_sizes (firstn (N.to_nat i) ss) = 32 * n * i /\ bit + 32 * n * i < 2 ^ 32.
Proof.
  intros [_ _ W _] F L. assert (E : stored_sizes (firstn (N.to_nat i) ss) = 32 * n * i).
  { rewrite (sizes_raw n) by (apply Forall_first, F). unfold len. rewrite firstn_length. do 2 f_equal. lia. }
  split; [exact E |]. rewrite <- (firstn_skipn (N.to_nat i) ss), stored_sizes_app, E in W. lia.
Qed.
Lemma mulw_small' a b : a * b < 2 ^ 32 -> mulw 32 a b = a * b.
Proof. apply mulw_small. Qed.

Lemma single_quat_full c data k ss index s clip cl gs : rotation_variable (c_rotation_format c) = false ->
  stream data (k_bit k) ss -> Forall (is_raw (rotation_components (c_rotation_format c))) ss -> nth_error ss (N.to_nat index) = Some s ->
  single_quat c data index gs clip k = Ok (decoded (c_has_segments c) s cl).
Proof.
  intros Ev S F Hs. assert (Li : (N.to_nat index < length ss)%nat) by (apply nth_error_Some; congruence).
  destruct (raw_small _ _ _ _ index S F ltac:(lia)) as [E W].
  assert (Rs : is_raw (rotation_components (c_rotation_format c)) s). { rewrite Forall_forall in F. apply F. apply nth_error_In in Hs. exact Hs. }
  unfold single_quat. rewrite Ev. cbn [bindo].
  assert (Eb : 32 * rotation_components (c_rotation_format c) = raw_sample_bits (c_rotation_format c)).
  { unfold rotation_components, raw_sample_bits. destruct (rotation_full (c_rotation_format c)); reflexivity. }
  rewrite Eb in *. rewrite mulw_small' by lia. rewrite addw_small by lia. rewrite (N.mul_comm index), <- E.
  pose proof (stream_at _ _ _ _ _ S Hs) as S2.
  pose proof (unpack_quats_raw (c_version c) (c_rotation_format c) (rotation_components (c_rotation_format c)) (c_mem c) data (k_format k) (k_range k)) as U.
  specialize (U ltac:(unfold rotation_components; destruct (c_rotation_format c); [left | right | discriminate]; auto) [s] (skipn (Datatypes.S (N.to_nat index)) ss) _ index ltac:(constructor; [exact Rs | constructor]) S2).
  cbn [length unpack_quats map] in U. destruct (unpack_quat (c_version c) (c_rotation_format c) (c_mem c) data (k_format k) (k_range k) _ index) as [[u b] | |]; try discriminate.
  cbn [bindo] in U |- *. injection U as -> _. unfold sample_of, raw_lanes, decoded. cbn [u_lanes]. destruct Rs as [-> _]. reflexivity.
Qed.

Lemma single_vector_variable c data k ss index s clips clip cl :
  vsrc (c_version c) (c_has_segments c) (c_mem c) data k ss -> nth_error ss (N.to_nat index) = Some s ->
  padded (c_mem c) clip (vector_clip_ranges clips) -> Forall (in_words 32 6) clips -> nth_error clips (N.to_nat index) = Some cl ->
  single_vector true c data index clip k = Ok (decoded (c_has_segments c) s cl).
Proof.
  intros V Hs Pc Wc Hc. assert (Li : (N.to_nat index < length ss)%nat) by (apply nth_error_Some; congruence).
  pose proof V as [S Pf _ Ok_ss]. pose proof (stream_small _ data (k_bit k) ss (N.to_nat index) S Ok_ss) as W.
  unfold single_vector. destruct Pf as [Pf _]. unfold vector_formats in Pf. rewrite <- (app_nil_r (map _ ss)) in Pf.
  rewrite (skip_size_ok _ _ _ (N.to_nat index) ss _ _ Pf Ok_ss) by lia. cbn [bindo]. rewrite mulw_small by lia. rewrite addw_small by lia.
  pose proof (vsrc_skip _ _ _ _ (N.to_nat index) k ss V ltac:(lia)) as V2. rewrite (skipn_cons ss _ s Hs) in V2.
  unfold kskip in V2. rewrite (sizes_bits _ _ (Forall_first _ _ _ Ok_ss)) in V2. rewrite Nnat.N2Nat.id in V2.
  pose proof (nth_error_split _ _ Hc) as (a & b & -> & La). unfold vector_clip_ranges in Pc. rewrite vector_words_app in Pc. apply padded_app in Pc as [_ Pc].
  apply Forall_app in Wc as [Wa Wb]. inversion Wb as [| ? ? Wcl _]; subst. rewrite (vector_words_blen 6 a Wa) in Pc. unfold len in Pc. rewrite La, Nnat.N2Nat.id in Pc.
  unfold vector_words in Pc. cbn [map concat] in Pc. apply padded_app in Pc as [Pc _].
  destruct (unpack_vector_ok _ _ _ _ _ s _ (clip + 24 * index) 0 cl V2 Wcl) as (k' & E & _).
  { rewrite N.mul_0_r, N.add_0_r. exact Pc. }
  cbn [k_format k_range k_bit] in E. rewrite (N.mul_comm 3) in E. change (12 * 2) with 24. rewrite E. reflexivity.
Qed.
Lemma single_vector_full c data k ss index s clip cl : stream data (k_bit k) ss -> Forall (is_raw 3) ss -> nth_error ss (N.to_nat index) = Some s ->
  single_vector false c data index clip k = Ok (decoded (c_has_segments c) s cl).
Proof.
  intros S F Hs. assert (Li : (N.to_nat index < length ss)%nat) by (apply nth_error_Some; congruence).
  destruct (raw_small _ _ _ _ index S F ltac:(lia)) as [E W]. change (32 * 3) with 96 in *.
  assert (Rs : is_raw 3 s). { rewrite Forall_forall in F. apply F. apply nth_error_In in Hs. exact Hs. }
  unfold single_vector. cbn [bindo]. rewrite mulw_small' by lia. rewrite addw_small by lia. rewrite (N.mul_comm index), <- E.
  pose proof (stream_at _ _ _ _ _ S Hs) as S2.
  pose proof (unpack_raw_vectors_ok (c_version c) (c_has_segments c) (c_mem c) data (clip + 24 * index) [s] 0 (skipn (Datatypes.S (N.to_nat index)) ss)
    {| k_format := k_format k + index; k_range := k_range k + 6 * index; k_bit := k_bit k + stored_sizes (firstn (N.to_nat index) ss) |} S2 ltac:(constructor; [exact Rs | constructor])) as U.
  cbn [length unpack_animated_vector3 map k_format k_range k_bit] in U. change (12 * 2) with 24.
  destruct (unpack_vector _ _ _ _ _ _ _ _ _ _) as [[u b] | |]; try discriminate.
  cbn [bindo] in U |- *. injection U as -> _. unfold decoded. destruct Rs as [-> _]. reflexivity.
Qed.

(** ** Skipping groups *)
Lemma map_len_le {A B} (f : A -> B) l n : (n <= length l -> n <= length (map f l))%nat.
Proof. rewrite map_length. auto. Qed.
Lemma skip_rotations_ok c p l g : arotations c p l -> 4 * g <= len l ->
  exists p', (if negb (g =? 0) then skip_groups (rotation_variable (c_rotation_format c)) (4 * raw_sample_bits (c_rotation_format c)) (c_version c) (c_mem c) g p
              else Ok p) = Ok p' /\ arotations c p' (skipn (4 * N.to_nat g) l).
Proof.
  intros H L. destruct (N.eqb_spec g 0) as [-> | Hg]; cbn [negb]; [exists p; split; [reflexivity | exact H] |].
  assert (Ln : (4 * N.to_nat g <= length l)%nat) by (unfold len in L; lia). unfold skip_groups.
  destruct (rotation_variable (c_rotation_format c)) eqn:Ev.
  - destruct H as [H _]. specialize (H Ev) as (K0 & K1 & Pc & Wc & Hss).
    assert (C : forall data k ss, ksrc (c_version c) (c_has_segments c) (c_mem c) data k ss -> (4 * N.to_nat g <= length ss)%nat ->
      exists b, count_group_bits (N.to_nat g) (c_version c) (c_mem c) (k_format k) = Ok b /\ stored_sizes (firstn (4 * N.to_nat g) ss) = 3 * b /\ k_bit k + 3 * b < 2 ^ 32).
    { intros data k ss K Ls. pose proof K as [S F _ Ok_ss]. rewrite (formats_split _ (N.to_nat g) ss Ls) in F.
      pose proof (stream_small _ data (k_bit k) ss (4 * N.to_nat g) S Ok_ss) as W.
      eexists. split; [apply (count_bits_ok _ _ _ _ ss _ _ F Ok_ss Ls); lia |]. split; [apply (sizes_bits (c_has_segments c)), Forall_first, Ok_ss | exact W]. }
    destruct (C _ _ _ K0 (map_len_le _ _ _ Ln)) as (b0 & -> & E0 & W0). destruct (C _ _ _ K1 (map_len_le _ _ _ Ln)) as (b1 & -> & E1 & W1). cbn [bindo]. cbv zeta.
    eexists. split; [reflexivity |]. constructor; [| rewrite Ev; discriminate]. intros _. cbn [a_kf0 a_kf1 a_clip].
    apply (ksrc_skip _ _ _ _ (N.to_nat g)) in K0; [| apply map_len_le, Ln]. apply (ksrc_skip _ _ _ _ (N.to_nat g)) in K1; [| apply map_len_le, Ln].
    unfold kskip in K0, K1. rewrite E0 in K0. rewrite E1 in K1. rewrite Nnat.N2Nat.id in K0, K1. rewrite !mulw_small by lia. rewrite !addw_small by lia.
    rewrite <- !skipn_map. replace (g * 4) with (4 * g) by lia. replace (g * 6 * 4) with (24 * g) by lia. rewrite (N.mul_comm b0), (N.mul_comm b1).
    split; [exact K0 |]. split; [exact K1 |]. split; [| split].
    + unfold rotation_clip_ranges in *. rewrite <- (firstn_skipn (4 * N.to_nat g) (map xclip l)) in Pc. rewrite (chunk4_app (N.to_nat g)) in Pc by (rewrite firstn_length, map_length; lia).
      rewrite map_app, concat_app in Pc. apply padded_app in Pc as [_ Pc]. rewrite chunked_blen in Pc. unfold len in Pc. rewrite firstn_length, map_length in Pc.
      rewrite Nat.min_l in Pc by exact Ln. replace (12 * 2 * 4 * g) with (4 * N.of_nat 6 * N.of_nat (4 * N.to_nat g)) by lia. exact Pc.
    + apply Forall_rest, Wc.
    + intros Hs. cbn [k_range]. rewrite Hss by exact Hs. reflexivity.
  - destruct H as [_ H]. specialize (H Ev) as (S0 & S1 & W0 & W1). cbv zeta. eexists. split; [reflexivity |]. constructor; [rewrite Ev; discriminate |]. intros _. cbn [a_kf0 a_kf1 k_bit].
    assert (C : forall data bit ss, stream data bit ss -> Forall (is_raw (rotation_components (c_rotation_format c))) ss -> (4 * N.to_nat g <= length ss)%nat ->
      stream data (addw 32 bit (mulw 32 (4 * raw_sample_bits (c_rotation_format c)) g)) (skipn (4 * N.to_nat g) ss)).
    { intros data bit ss S F Ls. destruct (raw_small _ _ _ _ (4 * g) S F ltac:(lia)) as [E W].
      assert (Eb : 32 * rotation_components (c_rotation_format c) * (4 * g) = 4 * raw_sample_bits (c_rotation_format c) * g).
      { unfold rotation_components, raw_sample_bits. destruct (rotation_full (c_rotation_format c)); lia. }
      rewrite Eb in *. rewrite mulw_small' by lia. rewrite addw_small by lia. rewrite <- E.
      replace (N.to_nat (4 * g)) with (4 * N.to_nat g)%nat by lia. apply stream_rest. rewrite firstn_skipn. exact S. }
    rewrite <- !skipn_map. split; [apply C; auto using map_len_le |]. split; [apply C; auto using map_len_le |]. split; apply Forall_rest; assumption.
Qed.
Lemma skip_vectors_ok variable c p l g : avectors variable c p l -> 4 * g <= len l ->
  exists p', (if negb (g =? 0) then skip_groups variable 384 (c_version c) (c_mem c) g p else Ok p) = Ok p' /\ avectors variable c p' (skipn (4 * N.to_nat g) l).
Proof.
  intros H L. destruct (N.eqb_spec g 0) as [-> | Hg]; cbn [negb]; [exists p; split; [reflexivity | exact H] |].
  assert (Ln : (4 * N.to_nat g <= length l)%nat) by (unfold len in L; lia). unfold skip_groups.
  destruct variable.
  - destruct H as [H _]. specialize (H eq_refl) as (K0 & K1 & Pc & Wc).
    assert (C : forall data k ss, vsrc (c_version c) (c_has_segments c) (c_mem c) data k ss -> (4 * N.to_nat g <= length ss)%nat ->
      exists b, count_group_bits (N.to_nat g) (c_version c) (c_mem c) (k_format k) = Ok b /\ stored_sizes (firstn (4 * N.to_nat g) ss) = 3 * b /\ k_bit k + 3 * b < 2 ^ 32).
    { intros data k ss K Ls. pose proof K as [S F _ Ok_ss]. unfold vector_formats in F. rewrite <- (firstn_skipn (4 * N.to_nat g) ss), map_app in F.
      pose proof (stream_small _ data (k_bit k) ss (4 * N.to_nat g) S Ok_ss) as W.
      eexists. split; [apply (count_bits_ok _ _ _ _ ss _ _ F Ok_ss Ls); lia |]. split; [apply (sizes_bits (c_has_segments c)), Forall_first, Ok_ss | exact W]. }
    destruct (C _ _ _ K0 (map_len_le _ _ _ Ln)) as (b0 & -> & E0 & W0). destruct (C _ _ _ K1 (map_len_le _ _ _ Ln)) as (b1 & -> & E1 & W1). cbn [bindo]. cbv zeta.
    eexists. split; [reflexivity |]. constructor; [| discriminate]. intros _. cbn [a_kf0 a_kf1 a_clip].
    apply (vsrc_skip _ _ _ _ (4 * N.to_nat g)) in K0; [| apply map_len_le, Ln]. apply (vsrc_skip _ _ _ _ (4 * N.to_nat g)) in K1; [| apply map_len_le, Ln].
    unfold kskip in K0, K1. rewrite E0 in K0. rewrite E1 in K1. rewrite !mulw_small by lia. rewrite !addw_small by lia.
    rewrite <- !skipn_map. replace (g * 4) with (N.of_nat (4 * N.to_nat g)) by lia. replace (g * 6 * 4) with (6 * N.of_nat (4 * N.to_nat g)) by lia. rewrite (N.mul_comm b0), (N.mul_comm b1).
    split; [exact K0 |]. split; [exact K1 |]. split.
    + unfold vector_clip_ranges in *. rewrite <- (firstn_skipn (4 * N.to_nat g) (map xclip l)), vector_words_app in Pc. apply padded_app in Pc as [_ Pc].
      rewrite (vector_words_blen 6) in Pc by (apply Forall_first, Wc). unfold len in Pc. rewrite firstn_length, map_length in Pc.
      rewrite Nat.min_l in Pc by exact Ln. replace (12 * 2 * 4 * g) with (4 * 6 * N.of_nat (4 * N.to_nat g)) by lia. exact Pc.
    + apply Forall_rest, Wc.
  - destruct H as [_ H]. specialize (H eq_refl) as (S0 & S1 & W0 & W1). cbv zeta. eexists. split; [reflexivity |]. constructor; [discriminate |]. intros _. cbn [a_kf0 a_kf1 k_bit].
    assert (C : forall data bit ss, stream data bit ss -> Forall (is_raw 3) ss -> (4 * N.to_nat g <= length ss)%nat ->
      stream data (addw 32 bit (mulw 32 384 g)) (skipn (4 * N.to_nat g) ss)).
    { intros data bit ss S F Ls. destruct (raw_small _ _ _ _ (4 * g) S F ltac:(lia)) as [E W].
      assert (Eb : 32 * 3 * (4 * g) = 384 * g) by lia.
      rewrite Eb in *. rewrite mulw_small' by lia. rewrite addw_small by lia. rewrite <- E.
      replace (N.to_nat (4 * g)) with (4 * N.to_nat g)%nat by lia. apply stream_rest. rewrite firstn_skipn. exact S. }
    rewrite <- !skipn_map. split; [apply C; auto using map_len_le |]. split; [apply C; auto using map_len_le |]. split; apply Forall_rest; assumption.
Qed.

Lemma nth_skip {A} (l : list A) g i x : nth_error l (N.to_nat (4 * g + i)) = Some x -> nth_error (skipn (4 * N.to_nat g) l) (N.to_nat i) = Some x.
Proof. intros H. rewrite nth_error_skipn. replace (4 * N.to_nat g + N.to_nat i)%nat with (N.to_nat (4 * g + i)) by lia. exact H. Qed.
Lemma nth_map {A B} (f : A -> B) l i x : nth_error l i = Some x -> nth_error (map f l) i = Some (f x).
Proof. intros H. rewrite nth_error_map, H. reflexivity. Qed.

Lemma animated_rotation_ok c policy l k x : arotations c (rotation_start c) l -> c_num_anim_rotations c = len l -> len l < 2 ^ 32 -> nth_error l (N.to_nat k) = Some x ->
  animated_rotation_at c policy k = Ok (OMix policy (decoded (c_has_segments c) (x0 x) (xclip x)) (decoded (c_has_segments c) (x1 x) (xclip x))).
Proof.
  intros H Hn Hl Hk. assert (Kl : (N.to_nat k < length l)%nat) by (apply nth_error_Some; congruence).
  unfold animated_rotation_at. destruct (div4 k) as (g & i & -> & -> & -> & Hi). cbv zeta.
  destruct (skip_rotations_ok c (rotation_start c) l g H ltac:(unfold len; lia)) as (p & -> & Hp). cbn [bindo].
  apply nth_skip in Hk. set (rest := skipn (4 * N.to_nat g) l) in *. rewrite Hn. rewrite subw_ge by (unfold len in *; lia).
  assert (Lg : N.min (len l - g * 4) 4 = len (firstn 4 (map xclip rest))).
  { unfold len, rest. rewrite firstn_length, map_length, skipn_length. lia. }
  destruct (rotation_variable (c_rotation_format c)) eqn:Ev.
  - destruct Hp as [Hp _]. specialize (Hp Ev) as (K0 & K1 & Pc & Wc & _).
    assert (Ef : c_rotation_format c = quatf_drop_w_variable) by (destruct (c_rotation_format c); try discriminate; reflexivity).
    assert (Hne : map xclip rest <> []) by (intros X; apply map_eq_nil in X; rewrite X in Hk; destruct (N.to_nat i); discriminate).
    unfold rotation_clip_ranges in Pc. rewrite chunk4_step in Pc by exact Hne. cbn [map concat] in Pc. apply padded_app in Pc as [Pc _].
    rewrite Lg. rewrite (single_quat_variable c _ _ _ i (x0 x) (map xclip rest) _ (xclip x) Ef K0 Hi (nth_map _ _ _ _ Hk) Pc Wc (nth_map _ _ _ _ Hk)). cbn [bindo].
    rewrite (single_quat_variable c _ _ _ i (x1 x) (map xclip rest) _ (xclip x) Ef K1 Hi (nth_map _ _ _ _ Hk) Pc Wc (nth_map _ _ _ _ Hk)). reflexivity.
  - destruct Hp as [_ Hp]. specialize (Hp Ev) as (S0 & S1 & W0 & W1).
    rewrite (single_quat_full c _ _ _ i (x0 x) _ (xclip x) _ Ev S0 W0 (nth_map _ _ _ _ Hk)). cbn [bindo].
    rewrite (single_quat_full c _ _ _ i (x1 x) _ (xclip x) _ Ev S1 W1 (nth_map _ _ _ _ Hk)). reflexivity.
Qed.
Lemma animated_vector_ok variable c policy start l k x : avectors variable c start l -> len l < 2 ^ 32 -> nth_error l (N.to_nat k) = Some x ->
  animated_vector_at variable c policy start k = Ok (OMix policy (decoded (c_has_segments c) (x0 x) (xclip x)) (decoded (c_has_segments c) (x1 x) (xclip x))).
Proof.
  intros H Hl Hk. assert (Kl : (N.to_nat k < length l)%nat) by (apply nth_error_Some; congruence).
  unfold animated_vector_at. destruct (div4 k) as (g & i & -> & -> & -> & Hi). cbv zeta.
  destruct (skip_vectors_ok variable c start l g H ltac:(unfold len; lia)) as (p & -> & Hp). cbn [bindo].
  apply nth_skip in Hk. set (rest := skipn (4 * N.to_nat g) l) in *. destruct variable.
  - destruct Hp as [Hp _]. specialize (Hp eq_refl) as (K0 & K1 & Pc & Wc).
    rewrite (single_vector_variable c _ _ _ i (x0 x) (map xclip rest) _ (xclip x) K0 (nth_map _ _ _ _ Hk) Pc Wc (nth_map _ _ _ _ Hk)). cbn [bindo].
    rewrite (single_vector_variable c _ _ _ i (x1 x) (map xclip rest) _ (xclip x) K1 (nth_map _ _ _ _ Hk) Pc Wc (nth_map _ _ _ _ Hk)). reflexivity.
  - destruct Hp as [_ Hp]. specialize (Hp eq_refl) as (S0 & S1 & W0 & W1).
    rewrite (single_vector_full c _ _ _ i (x0 x) _ (xclip x) S0 W0 (nth_map _ _ _ _ Hk)). cbn [bindo].
    rewrite (single_vector_full c _ _ _ i (x1 x) _ (xclip x) S1 W1 (nth_map _ _ _ _ Hk)). reflexivity.
Qed.

(** ** How many of a kind precede a track *)
Lemma picks_at {B} (c : N) (sel : sub -> option B) : (forall s, (c =? kind s) = match sel s with Some _ => true | None => false end) ->
  forall l i x v, nth_error l i = Some x -> sel x = Some v ->
  nth_error (picks sel l) (length (filter (N.eqb c) (firstn i (kinds l)))) = Some v.
Proof.
  intros Hs. induction l as [| s l IH]; intros i x v Hi Hv; [destruct i; discriminate |].
  unfold kinds. cbn [map]. fold (kinds l). destruct i as [| i]; cbn [nth_error firstn filter length picks] in *.
  - injection Hi as ->. rewrite Hv. reflexivity.
  - rewrite Hs. destruct (sel s); cbn [length nth_error]; apply (IH i x v Hi Hv).
Qed.

(** ** The track *)
Definition alone_events (ch : channel) (w : twriter) (c : tcontext) (i : N) (x : sub) : list event :=
  match x with
  | SDefault => if tw_skip_default w ch then [] else [(ch, i, ODefault)]
  | SConst ws => [(ch, i, const_out ws)]
  | SAnim x => [(ch, i, OMix (track_policy w c i) (decoded (c_has_segments c) (x0 x) (xclip x)) (decoded (c_has_segments c) (x1 x) (xclip x)))]
  end.
Lemma write_sub_track_ok ch w c i l x constant anim : len l < 2 ^ 32 -> nth_error l (N.to_nat i) = Some x ->
  (forall k ws, nth_error (constants l) (N.to_nat k) = Some ws -> constant k = Ok (const_out ws)) ->
  (forall k x, nth_error (animated l) (N.to_nat k) = Some x ->
     anim k = Ok (OMix (track_policy w c i) (decoded (c_has_segments c) (x0 x) (xclip x)) (decoded (c_has_segments c) (x1 x) (xclip x)))) ->
  write_sub_track ch w i (kind x) (entries_of l) constant anim = Ok (alone_events ch w c i x).
Proof.
  intros Hl Hx HC HA. assert (Li : i < N.of_nat (length (kinds l))).
  { unfold kinds. rewrite map_length. assert (N.to_nat i < length l)%nat by (apply nth_error_Some; congruence). lia. }
  assert (Ll : N.of_nat (length (kinds l)) < 2 ^ 32) by (unfold kinds; rewrite map_length; exact Hl).
  unfold write_sub_track, alone_events. destruct x as [| ws | a]; cbn [kind].
  - change (0 =? 0) with true. cbv iota. reflexivity.
  - change (1 =? 0) with false. change (negb (N.land 1 1 =? 0)) with true. cbv iota. unfold entries_of.
    rewrite (count_before_spec (kinds l) 1 _ i (kinds_ok l) Ll Li) by (left; split; reflexivity). cbn [bindo]. rewrite (HC _ ws); [reflexivity |].
    rewrite Nnat.Nat2N.id, <- picks_const. apply (picks_at 1 sel_const) with (x := SConst ws); [intros []; reflexivity | exact Hx | reflexivity].
  - change (2 =? 0) with false. change (negb (N.land 2 1 =? 0)) with false. cbv iota. unfold entries_of.
    rewrite (count_before_spec (kinds l) 2 _ i (kinds_ok l) Ll Li) by (right; split; reflexivity). cbn [bindo]. rewrite (HA _ a); [reflexivity |].
    rewrite Nnat.Nat2N.id, <- picks_anim. apply (picks_at 2 sel_anim) with (x := SAnim a); [intros []; reflexivity | exact Hx | reflexivity].
Qed.
Lemma type_ok l i x : nth_error l (N.to_nat i) = Some x -> sub_track_type (entries_of l) i = Ok (kind x).
Proof.
  intros Hx. assert (Li : (N.to_nat i < length l)%nat) by (apply nth_error_Some; congruence). unfold entries_of.
  rewrite sub_track_type_spec; [| apply kinds_ok | unfold kinds; rewrite map_length; lia]. f_equal. apply nth_error_nth. apply nth_map, Hx.
Qed.

Lemma decompress_track_ok w c r t s i xr xt xs : clip_layout c r t s -> nth_error r (N.to_nat i) = Some xr -> nth_error t (N.to_nat i) = Some xt ->
  nth_error s (N.to_nat i) = Some xs ->
  decompress_track w c i = Ok (alone_events Rotation w c i xr ++ alone_events Translation w c i xt ++ alone_events Scale w c i xs).
Proof.
  intros H Xr Xt Xs. unfold decompress_track.
  pose proof (cl_small _ _ _ _ H) as Sm. pose proof (cl_num_r _ _ _ _ H) as Nr. pose proof (cl_num_t _ _ _ _ H) as Nt. pose proof (cl_num_s _ _ _ _ H) as Ns.
  assert (Lr : len r < 2 ^ 32) by (unfold len; change (2 ^ 32) with 4294967296 in *; lia).
  assert (Lt : len t < 2 ^ 32) by (unfold len; change (2 ^ 32) with 4294967296 in *; lia).
  assert (Ls : len s < 2 ^ 32) by (unfold len; change (2 ^ 32) with 4294967296 in *; lia).
  cbv zeta. set (n := num_sub_track_entries (c_num_tracks c)).
  assert (Hr : N.of_nat (length (entries_of r)) = n) by (rewrite entries_length, Nr; reflexivity).
  assert (Ht : N.of_nat (length (entries_of t)) = n) by (rewrite entries_length, Nt; reflexivity).
  assert (Hs : N.of_nat (length (entries_of s)) = n) by (rewrite entries_length, Ns; reflexivity).
  pose proof (cl_types _ _ _ _ H) as T. fold (entries_of r) (entries_of t) (entries_of s) in T.
  unfold word_bytes in T. rewrite !map_app, !concat_app in T. fold (word_bytes (entries_of r)) (word_bytes (entries_of t)) in T.
  apply placed_app in T as [T1 T2]. apply placed_app in T2 as [T2 T3]. rewrite !word_bytes_blen, Hr in T2. rewrite !word_bytes_blen, Hr, Ht in T3.
  replace (c_types c + 4 * (0 * n)) with (c_types c) by lia. replace (c_types c + 4 * (1 * n)) with (c_types c + 4 * n) by lia.
  assert (Rr : read_entries (N.to_nat n) (c_mem c) (c_types c) = Ok (entries_of r)).
  { rewrite <- Hr, Nnat.Nat2N.id. apply read_entries_ok; [apply entries_words | exact T1]. }
  assert (Rt : read_entries (N.to_nat n) (c_mem c) (c_types c + 4 * n) = Ok (entries_of t)).
  { rewrite <- Ht at 1. rewrite Nnat.Nat2N.id. apply read_entries_ok; [apply entries_words | exact T2]. }
  assert (Rs : read_entries (N.to_nat n) (c_mem c) (c_types c + 4 * ((if c_has_scale c then 2 else 0) * n)) = Ok (if c_has_scale c then entries_of s else entries_of r)).
  { destruct (c_has_scale c).
    - replace (c_types c + 4 * (2 * n)) with (c_types c + 4 * n + 4 * n) by lia. rewrite <- Hs at 1. rewrite Nnat.Nat2N.id. apply read_entries_ok; [apply entries_words | exact T3].
    - replace (c_types c + 4 * (0 * n)) with (c_types c) by lia. exact Rr. }
  rewrite Rr. cbn [bindo]. rewrite (type_ok r i xr Xr). cbn [bindo]. rewrite Rt. cbn [bindo]. rewrite (type_ok t i xt Xt). cbn [bindo]. rewrite Rs. cbn [bindo].
  pose proof (cl_constants _ _ _ _ H) as C. unfold constant_layout in C. apply padded_app in C as [C1 C2]. apply padded_app in C2 as [C2 C3].
  rewrite rotation_words_blen in C2, C3 by exact (cl_constant_r _ _ _ _ H). rewrite (vector_words_blen 3) in C3 by exact (cl_constant_t _ _ _ _ H).
  assert (At : constant_translations_at c = c_constants c + 4 * components (rotation_full (c_rotation_format c)) * len (constants r)).
  { unfold constant_translations_at, packed_rotation_size, components. rewrite (cl_num_const_r _ _ _ _ H). unfold len. destruct (rotation_full (c_rotation_format c)); lia. }
  assert (As : constant_scales_at c = c_constants c + 4 * components (rotation_full (c_rotation_format c)) * len (constants r) + 4 * 3 * len (constants t)).
  { unfold constant_scales_at. rewrite At, (cl_num_const_t _ _ _ _ H). unfold len. lia. }
  assert (Er : write_sub_track Rotation w i (kind xr) (entries_of r)
           (fun k => constant_rotation_within (rotation_full (c_rotation_format c)) (c_mem c) (c_constants c) (c_num_const_rotations c) (k / 4) (k mod 4))
           (animated_rotation_at c (track_policy w c i)) = Ok (alone_events Rotation w c i xr)).
  { apply write_sub_track_ok; [exact Lr | exact Xr | |].
    - intros k ws Hk. rewrite (cl_num_const_r _ _ _ _ H). apply constant_rotation_ok; [exact (cl_constant_r _ _ _ _ H) | exact C1 | pose proof (constants_len r); lia | exact Hk].
    - intros k x Hk. apply (animated_rotation_ok c _ (animated r)); [apply (animated_rotations_ok _ _ _ _ H) | exact (cl_num_r_animated _ _ _ _ H) | pose proof (animated_len r); lia | exact Hk]. }
  assert (Et : write_sub_track Translation w i (kind xt) (entries_of t)
           (fun k => constant_vector_within (c_mem c) (constant_translations_at c) (k / 4) (k mod 4))
           (animated_vector_at (c_translation_variable c) c (track_policy w c i) (translation_start c)) = Ok (alone_events Translation w c i xt)).
  { apply write_sub_track_ok; [exact Lt | exact Xt | |].
    - intros k ws Hk. apply (constant_vector_ok _ _ (constants t)); [exact (cl_constant_t _ _ _ _ H) | rewrite At; exact C2 | pose proof (constants_len t); lia | exact Hk].
    - intros k x Hk. apply (animated_vector_ok _ c _ _ (animated t)); [apply (animated_translations_ok _ _ _ _ H) | pose proof (animated_len t); lia | exact Hk]. }
  destruct (c_has_scale c) eqn:Hsc.
  - rewrite (type_ok s i xs Xs). cbn [bindo]. cbv zeta. rewrite Er. cbn [bindo]. rewrite Et. cbn [bindo].
    assert (Es : write_sub_track Scale w i (kind xs) (entries_of s)
           (fun k => constant_vector_within (c_mem c) (constant_scales_at c) (k / 4) (k mod 4))
           (animated_vector_at (c_scale_variable c) c (track_policy w c i) (scale_start c)) = Ok (alone_events Scale w c i xs)).
    { apply write_sub_track_ok; [exact Ls | exact Xs | |].
      - intros k ws Hk. apply (constant_vector_ok _ _ (constants s)); [exact (cl_constant_s _ _ _ _ H) | rewrite As; exact C3 | pose proof (constants_len s); lia | exact Hk].
      - intros k x Hk. apply (animated_vector_ok _ c _ _ (animated s)); [apply (animated_scales_ok _ _ _ _ H) | pose proof (animated_len s); lia | exact Hk]. }
    rewrite Es. reflexivity.
  - rewrite (type_ok r i xr Xr). cbn [bindo]. cbv zeta. rewrite Er. cbn [bindo]. rewrite Et. cbn [bindo].
    pose proof (cl_no_scale _ _ _ _ H Hsc) as Fs. rewrite Forall_forall in Fs. rewrite (Fs xs) by (apply nth_error_In in Xs; exact Xs). reflexivity.
Qed.

Lemma alone_in ch w c i x ch' j o : In (ch', j, o) (alone_events ch w c i x) <-> ch' = ch /\ j = i /\ written_alone w c ch i x o.
Proof.
  unfold alone_events, written_alone, const_out. destruct x as [| ws | a]; [destruct (tw_skip_default w ch) | |]; cbn [In].
  all: split; [intros G | intros (-> & -> & G)]; try (destruct G as [G | []]); try contradiction; try (injection G as <- <- <-; auto); try (destruct G; congruence); try (destruct G as [_ ->]; auto); try (rewrite G; auto).
Qed.

(** decompressing one track gives its three sub-tracks, once each, and nothing else *)
Theorem decompress_track_written w c r t s i : clip_layout c r t s -> i < c_num_tracks c ->
  exists events, decompress_track w c i = Ok events /\ NoDup (map fst events) /\
    forall ch j o, In (ch, j, o) events <-> j = i /\ exists x, nth_error (subs r t s ch) (N.to_nat i) = Some x /\ written_alone w c ch i x o.
Proof.
  intros H Hi. assert (G : forall l, N.of_nat (length l) = c_num_tracks c -> exists x : sub, nth_error l (N.to_nat i) = Some x).
  { intros l L. destruct (nth_error l (N.to_nat i)) as [x |] eqn:E; [exists x; reflexivity |]. apply nth_error_None in E. lia. }
  destruct (G r (cl_num_r _ _ _ _ H)) as [xr Xr]. destruct (G t (cl_num_t _ _ _ _ H)) as [xt Xt]. destruct (G s (cl_num_s _ _ _ _ H)) as [xs Xs].
  eexists. split; [apply (decompress_track_ok w c r t s i xr xt xs H Xr Xt Xs) |]. split.
  - assert (Z : forall ch x, map fst (alone_events ch w c i x) = [] \/ map fst (alone_events ch w c i x) = [(ch, i)]).
    { intros ch x. destruct x; cbn [alone_events]; [destruct (tw_skip_default w ch) | |]; auto. }
    unfold event in *. rewrite !map_app. destruct (Z Rotation xr) as [-> | ->], (Z Translation xt) as [-> | ->], (Z Scale xs) as [-> | ->]; cbn [app];
      repeat (constructor; [cbn [In]; intros X; repeat (destruct X as [X | X]; [discriminate X |]); exact X |]); constructor.
  - intros ch j o. rewrite !in_app_iff, !alone_in. unfold subs. split.
    + intros [(-> & -> & X) | [(-> & -> & X) | (-> & -> & X)]]; (split; [reflexivity |]); eexists; (split; [eassumption | exact X]).
    + intros (-> & x & Hx & X). destruct ch; [left | right; left | right; right]; (split; [reflexivity | split; [reflexivity |]]); congruence.
Qed.
