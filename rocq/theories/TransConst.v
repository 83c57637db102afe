(** The constant sub-tracks are read back from their layout. *)
From Coq Require Import Lia.
From Verif Require Import Word WordFacts Pieces Float32 DbBuild ScalarDec SubTracks SubTracksFacts TransDec TransSpec TransRing TransMem.
Local Open Scope N_scope.
Ltac Zify.zify_post_hook ::= idtac.

Definition const_out (ws : list N) : out := OConst (map f_of_bits ws).

Lemma in_words_len w n l : in_words w n l -> length l = N.to_nat n.
Proof. intros [H _]. lia. Qed.

Lemma constant_quats_ok m ls : forall p rest, Forall (in_words 32 4) ls -> padded m p (vector_words (ls ++ rest)) ->
  constant_quats (length ls) m p = Ok (map const_out ls, p + 16 * len ls).
Proof.
  induction ls as [| ws ls IH]; intros p rest Hw P; cbn [constant_quats length map].
  - unfold len. cbn [length]. rewrite N.mul_0_r, N.add_0_r. reflexivity.
  - inversion Hw as [| ? ? W4 Hw2]; subst. pose proof W4 as [L4 F4]. apply in_words_len in W4. change (N.to_nat 4) with 4%nat in W4. unfold vector_words in P. cbn [app map concat] in P. apply padded_app in P as [P1 P2].
    destruct (vector_load_words m p ws P1 F4 ltac:(lia)) as (r & -> & Hr). cbn [bindo].
    destruct r; [| cbn [length] in Hr; lia]. rewrite app_nil_r. rewrite word_bytes_blen in P2.
    replace (p + 4 * N.of_nat (length ws)) with (p + 16) in P2 by lia.
    rewrite (IH _ rest Hw2 P2). cbn [bindo]. rewrite len_cons. do 2 f_equal. lia.
Qed.

Lemma column_length {A} (d : A) c l : length (column d c l) = length l.
Proof. apply map_length. Qed.
Lemma column_nth {A} (d : A) c l i : (i < length l)%nat -> nth i (column d c l) d = nth c (nth i l []) d.
Proof.
  intros H. unfold column. rewrite (nth_indep _ d (nth c [] d)) by (rewrite map_length; exact H).
  apply (map_nth (fun ws => nth c ws d) l []).
Qed.
Lemma column_words w n c l : Forall (in_words w n) l -> (c < N.to_nat n)%nat -> Forall (fun v => v < 2 ^ w) (column 0 c l).
Proof.
  intros H Hc. unfold column. apply Forall_forall. intros v Hv. apply in_map_iff in Hv as (ws & <- & Hin).
  rewrite Forall_forall in H. destruct (H _ Hin) as [L F]. rewrite Forall_forall in F. apply F. apply nth_In. lia.
Qed.
Lemma list3 {A} (d : A) l : length l = 3%nat -> l = [nth 0 l d; nth 1 l d; nth 2 l d].
Proof. destruct l as [| a [| b [| c [| e t]]]]; cbn; intros; try lia. reflexivity. Qed.

Lemma soa3 chunk : soa_words 3 chunk = word_bytes (column 0 0 chunk) ++ word_bytes (column 0 1 chunk) ++ word_bytes (column 0 2 chunk).
Proof. unfold soa_words. cbn [seq map concat]. rewrite app_nil_r. reflexivity. Qed.

Lemma soa_lanes_ok chunk sample : (length chunk <= 4)%nat ->
  (forall i, (i < length chunk)%nat -> sample i = const_out (nth i chunk [])) ->
  soa_lanes (len chunk) sample = map const_out chunk ++ repeat OJunk (4 - length chunk).
Proof.
  intros H E. unfold soa_lanes, len.
  destruct chunk as [| a [| b [| c [| d [| e t]]]]]; cbn [length] in *; try lia;
    repeat match goal with E : forall i, _ -> sample i = _ |- _ =>
      pose proof (E 0%nat); pose proof (E 1%nat); pose proof (E 2%nat); pose proof (E 3%nat); clear E end;
    cbn [map nth] in *; repeat match goal with H : (?a < ?b)%nat -> _ |- _ => first [specialize (H ltac:(lia)) | clear H] end;
    cbn; repeat match goal with H : sample _ = _ |- _ => rewrite H; clear H end; reflexivity.
Qed.

Lemma constant_soa_ok m fuel : forall l rest p, Forall (in_words 32 3) l -> (length l <= 4 * fuel)%nat ->
  (rest = [] \/ exists q, length l = 4 * q)%nat -> padded m p (rotation_words false (l ++ rest)) ->
  exists j q, constant_soa fuel (len l) m p = Ok (map const_out l ++ repeat OJunk j, p + 12 * len l) /\ (length l + j = 4 * q /\ j < 4)%nat.
Proof.
  induction fuel as [| fuel IH]; intros l rest p Hw Hl Hr P.
  - assert (l = []) as -> by (destruct l; [reflexivity | cbn in Hl; lia]). exists 0%nat, 0%nat. cbn [constant_soa]. unfold len. cbn.
    rewrite N.add_0_r. split; [reflexivity | lia].
  - cbn [constant_soa]. destruct (N.eqb_spec (len l) 0) as [E | E].
    { assert (l = []) as -> by (destruct l; [reflexivity | rewrite len_cons in E; lia]). exists 0%nat, 0%nat. unfold len. cbn.
      rewrite N.add_0_r. split; [reflexivity | lia]. }
    cbv zeta. set (chunk := firstn 4 l).
    assert (Hlen : (0 < length l)%nat) by (unfold len in E; lia).
    assert (Hchunk : N.min (len l) 4 = len chunk) by (unfold len, chunk; rewrite firstn_length; lia).
    assert (Hc4 : (length chunk <= 4)%nat) by (unfold chunk; rewrite firstn_length; lia).
    assert (Hc0 : (0 < length chunk)%nat) by (unfold chunk; rewrite firstn_length; lia).
    rewrite Hchunk.
    assert (Wc : Forall (in_words 32 3) chunk) by (apply Forall_first, Hw).
    assert (Hf : firstn 4 (l ++ rest) = chunk).
    { unfold chunk. destruct Hr as [-> | [q Hq]]; [rewrite app_nil_r; reflexivity |]. rewrite firstn_app.
      replace (4 - length l)%nat with 0%nat by lia. rewrite firstn_O, app_nil_r. reflexivity. }
    assert (Hs : skipn 4 (l ++ rest) = skipn 4 l ++ rest).
    { destruct Hr as [-> | [q Hq]]; [rewrite !app_nil_r; reflexivity |]. rewrite skipn_app.
      replace (4 - length l)%nat with 0%nat by lia. reflexivity. }
    unfold rotation_words in P. rewrite chunk4_step, Hf, Hs in P by (destruct l; [cbn in Hlen; lia | discriminate]).
    cbn [map concat] in P. apply padded_app in P as [Pc Pr]. rewrite soa3 in Pc, Pr. rewrite !blen_app, !word_bytes_blen, !column_length in Pr.
    apply padded_app in Pc as [Px Pc]. apply padded_app in Pc as [Py Pz]. rewrite !word_bytes_blen, !column_length in *.
    fold (len chunk) in *.
    destruct (vector_load_words m _ _ Px) as (rx & Ex & Lx); [apply (column_words 32 3); [assumption | lia] | rewrite column_length; lia |].
    destruct (vector_load_words m _ _ Py) as (ry & Ey & Ly); [apply (column_words 32 3); [assumption | lia] | rewrite column_length; lia |].
    destruct (vector_load_words m _ _ Pz) as (rz & Ez & Lz); [apply (column_words 32 3); [assumption | lia] | rewrite column_length; lia |].
    replace (p + 4 * len chunk * 0) with p by lia. replace (p + 4 * len chunk * 1) with (p + 4 * len chunk) by lia.
    replace (p + 4 * len chunk * 2) with (p + 4 * len chunk + 4 * len chunk) by lia.
    rewrite Ex, Ey, Ez. cbn [bindo].
    replace (len l - len chunk) with (len (skipn 4 l)).
    2:{ unfold len, chunk. rewrite skipn_length, firstn_length. lia. }
    replace (p + (4 * len chunk + (4 * len chunk + 4 * len chunk))) with (p + 4 * len chunk * 3) in Pr by lia.
    destruct (IH (skipn 4 l) rest (p + 4 * len chunk * 3)) as (j & q & Ej & Hj).
    + apply Forall_rest, Hw.
    + rewrite skipn_length. lia.
    + destruct Hr as [-> | [q Hq]]; [left; reflexivity |]. right. exists (q - 1)%nat. rewrite skipn_length. lia.
    + exact Pr.
    + rewrite Ej. cbn [bindo]. rewrite (soa_lanes_ok chunk); [| exact Hc4 |].
      2:{ intros i Hi. unfold const_out. rewrite !lane_app_l by (rewrite map_length, column_length; exact Hi).
          rewrite !lane_words by (rewrite column_length; exact Hi). rewrite !column_nth by exact Hi.
          assert (L3 : length (nth i chunk []) = 3%nat).
          { apply (in_words_len 32 3). rewrite Forall_forall in Wc. apply Wc, nth_In, Hi. }
          rewrite (list3 0 (nth i chunk []) L3) at 4. reflexivity. }
      destruct (Nat.lt_ge_cases (length l) 4) as [Hs4 | Hs4].
      * assert (skipn 4 l = []) as Hn by (apply skipn_all2; lia).
        assert (chunk = l) as Hcl by (unfold chunk; apply firstn_all2; lia). rewrite Hcl. rewrite Hn in *. cbn [length map app] in *.
        assert (j = 0)%nat as -> by lia. cbn [repeat]. rewrite app_nil_r. exists (4 - length l)%nat, 1%nat.
        split; [| lia]. match goal with |- Ok (?a, ?b) = Ok (?c, ?d) => assert (b = d) as -> by (unfold len; cbn [length]; lia) end. reflexivity.
      * assert (length chunk = 4)%nat as Hc by (unfold chunk; rewrite firstn_length; lia). rewrite Hc. cbn [repeat Nat.sub].
        rewrite app_nil_r. exists j, (S q). rewrite skipn_length in Hj. split; [| lia]. do 2 f_equal.
        -- rewrite app_assoc. f_equal. rewrite <- map_app. f_equal. apply firstn_skipn.
        -- unfold len. rewrite skipn_length, Hc. lia.
Qed.

(** ** Rotations *)
Definition components (full : bool) : N := if full then 4 else 3.
Definition rotation_src (full : bool) (m : list N) (p : N) (outs : list out) : Prop :=
  exists ls, outs = map const_out ls /\ Forall (in_words 32 (components full)) ls /\ padded m p (rotation_words full ls).

Lemma vector_words_app a b : vector_words (a ++ b) = vector_words a ++ vector_words b.
Proof. unfold vector_words. rewrite map_app, concat_app. reflexivity. Qed.
Lemma vector_words_blen n l : Forall (in_words 32 n) l -> blen (vector_words l) = 4 * n * len l.
Proof.
  induction 1 as [| ws l [H _] _ IH]; [unfold len; cbn [length N.of_nat]; rewrite N.mul_0_r; reflexivity |]. unfold vector_words in *. cbn [map concat].
  rewrite blen_app, IH, word_bytes_blen, H, len_cons. nia.
Qed.
Lemma soa_words_blen n l : blen (soa_words n l) = 4 * N.of_nat n * len l.
Proof.
  unfold soa_words. assert (H : forall s, blen (concat (map (fun c => word_bytes (column 0 c l)) (seq s n))) = 4 * N.of_nat n * len l).
  2:{ apply H. }
  induction n as [| n IH]; intros s; [cbn [seq map concat N.of_nat]; rewrite N.mul_0_r; reflexivity |]. cbn [seq map concat]. rewrite blen_app, IH, word_bytes_blen, column_length. unfold len. nia.
Qed.
Lemma chunked_blen n l : blen (concat (map (soa_words n) (chunk4 l))) = 4 * N.of_nat n * len l.
Proof.
  induction l as [| l Hne IH] using chunk_ind; [unfold len; cbn [length N.of_nat]; rewrite N.mul_0_r; reflexivity |].
  rewrite chunk4_step by exact Hne. cbn [map concat]. rewrite blen_app, IH, soa_words_blen. rewrite <- N.mul_add_distr_l.
  rewrite <- (firstn_skipn 4 l) at 3. rewrite len_app. reflexivity.
Qed.
Lemma rotation_words_blen full l : Forall (in_words 32 (components full)) l -> blen (rotation_words full l) = 4 * components full * len l.
Proof.
  intros H. destruct full; cbn [rotation_words components] in *; [apply vector_words_blen; exact H |]. rewrite chunked_blen. lia.
Qed.
(** splitting at a multiple of four *)
Lemma chunk4_app {A} q : forall (a b : list A), length a = (4 * q)%nat -> chunk4 (a ++ b) = chunk4 a ++ chunk4 b.
Proof.
  induction q as [| q IH]; intros a b Ha.
  - destruct a; [reflexivity | cbn in Ha; lia].
  - destruct a as [| x [| y [| z [| w a]]]]; cbn [length] in Ha; try lia. cbn [app chunk4]. f_equal. apply IH. lia.
Qed.

Lemma fetch_constant_ok full m : forall p l, rotation_src full m p l -> l <> [] ->
  exists vs p', fetch_constant_rotations full m (N.min (len l) 16) p = Ok (vs, p') /\ (length vs <= N.to_nat 16)%nat /\
    (length l < N.to_nat 16 -> firstn (length l) vs = l)%nat /\ (N.to_nat 16 <= length l -> vs = firstn (N.to_nat 16) l)%nat /\
    rotation_src full m p' (skipn (N.to_nat 16) l).
Proof.
  change (N.to_nat 16) with 16%nat. intros p l (ls & -> & Hw & P) Hne.
  set (a := firstn 16 ls). set (b := skipn 16 ls).
  assert (Hab : ls = a ++ b) by (symmetry; apply firstn_skipn).
  assert (Hn : N.min (len (map const_out ls)) 16 = len a).
  { unfold len, a. rewrite map_length, firstn_length. lia. }
  assert (La : (length a <= 16)%nat) by (unfold a; rewrite firstn_length; lia).
  assert (Wa : Forall (in_words 32 (components full)) a) by (apply Forall_first, Hw).
  assert (Wb : Forall (in_words 32 (components full)) b) by (apply Forall_rest, Hw).
  assert (Pb : padded m (p + 4 * components full * len a) (rotation_words full b)).
  { rewrite Hab in P. rewrite <- (rotation_words_blen full a Wa). destruct full; unfold rotation_words in *.
    - fold (vector_words (a ++ b)) in P. rewrite vector_words_app in P. apply padded_app in P. apply P.
    - destruct (Nat.lt_ge_cases (length ls) 16) as [Hs | Hs].
      + assert (b = []) as -> by (apply skipn_all2; lia). rewrite app_nil_r in P. destruct P as [_ P].
        split; [intros k v Hk; destruct k; discriminate |]. cbn [chunk4 map concat]. change (blen []) with 0. lia.
      + rewrite (chunk4_app 4) in P by (unfold a; rewrite firstn_length; lia). rewrite map_app, concat_app in P. apply padded_app in P. apply P. }
  rewrite Hn. unfold fetch_constant_rotations. rewrite skipn_map. fold b. rewrite firstn_map. fold a. rewrite map_length.
  destruct full.
  - rewrite Hab in P. unfold rotation_words in P. unfold len at 1. rewrite Nnat.Nat2N.id. rewrite (constant_quats_ok m a p b Wa P).
    eexists _, _. split; [reflexivity |]. rewrite map_length. split; [exact La |]. split; [| split].
    + intros Hs. assert (a = ls) as -> by (unfold a; apply firstn_all2; lia). apply firstn_all2. rewrite map_length. lia.
    + reflexivity.
    + exists b. cbn [components] in *. replace (p + 16 * len a) with (p + 4 * 4 * len a) by lia. auto.
  - rewrite Hab in P. destruct (constant_soa_ok m 5 a b p) as (j & q & -> & Hj); [exact Wa | lia | | exact P |].
    { destruct (Nat.lt_ge_cases (length ls) 16) as [Hs | Hs]; [left; apply skipn_all2; lia |]. right. exists 4%nat. unfold a. rewrite firstn_length. lia. }
    eexists _, _. split; [reflexivity |]. rewrite app_length, map_length, repeat_length. split; [lia |]. split; [| split].
    + intros Hs. assert (a = ls) as -> by (unfold a; apply firstn_all2; lia). rewrite firstn_app, map_length, Nat.sub_diag, firstn_O, app_nil_r.
      apply firstn_all2. rewrite map_length. lia.
    + intros Hs. assert (length a = 16)%nat by (unfold a; rewrite firstn_length; lia). assert (j = 0)%nat as -> by lia. cbn [repeat]. apply app_nil_r.
    + exists b. cbn [components] in *. replace (p + 12 * len a) with (p + 4 * 3 * len a) by lia. auto.
Qed.

(** ** Translations and scales *)
Lemma constant_vectors_ok m skip tracks : forall ls p, Forall (in_words 32 3) ls -> length ls = length tracks ->
  padded m p (vector_words ls) ->
  constant_vectors tracks skip m p = Ok (filter (fun x => negb (skip (fst x))) (combine tracks (map const_out ls))).
Proof.
  induction tracks as [| i tracks IH]; intros ls p Hw Hl P.
  - reflexivity.
  - destruct ls as [| ws ls]; [discriminate |]. inversion Hw as [| ? ? W3 Hw2]; subst. pose proof W3 as [L3 F3]. apply in_words_len in W3. change (N.to_nat 3) with 3%nat in W3. cbn [constant_vectors map combine filter fst].
    unfold vector_words in P. cbn [map concat] in P. apply padded_app in P as [P1 P2]. rewrite word_bytes_blen in P2.
    replace (p + 4 * N.of_nat (length ws)) with (p + 12) in P2 by lia.
    destruct (skip i); cbn [negb].
    + cbn [bindo]. rewrite (IH ls) by (assumption || (cbn in Hl; lia)). reflexivity.
    + destruct (vector_load_words m p ws P1 F3 ltac:(lia)) as (r & -> & Hr). cbn [bindo].
      rewrite (IH ls) by (assumption || (cbn in Hl; lia)). cbn [bindo app]. do 2 f_equal. unfold const_out.
      rewrite firstn_app, map_length. replace (3 - length ws)%nat with 0%nat by lia. rewrite firstn_O, app_nil_r.
      rewrite firstn_all2 by (rewrite map_length; lia). reflexivity.
Qed.
