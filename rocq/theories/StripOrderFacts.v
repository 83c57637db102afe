(** Proofs about the stripping order of a segment (find_contributing_error). *)
From Coq Require Import Lia Permutation Sorted.
From Verif Require Import Word WordFacts Float32 FloatOrder Bitset BitsetFacts StripOrder SeekSpec StripSpec.
Local Open Scope N_scope.
Ltac Zify.zify_post_hook ::= idtac.

Lemma test32 w i : i < 32 -> bitset_test [w] i = Ok (bmem [w] i).
Proof. intros H. apply bitset_test_spec. change (blen [w]) with 1. lia. Qed.

Lemma retained_before_ok w : bmem [w] 0 = true -> forall fuel i, i < 32 -> (N.to_nat i < fuel)%nat ->
  exists a, retained_before fuel [w] i = Ok a /\ a <= i /\ bmem [w] a = true /\ forall j, a < j <= i -> bmem [w] j = false.
Proof.
  intros Z. induction fuel as [|f IH]; intros i H L; [lia|]. cbn [retained_before]. rewrite test32 by auto. cbn [bindo].
  destruct (bmem [w] i) eqn:E; [exists i; repeat split; auto; intros; lia|].
  assert (i <> 0) by (intros ->; congruence). rewrite subw_ge by (change (2 ^ 32) with 4294967296; lia).
  destruct (IH (i - 1)) as (a & A & B & C & D); [lia | lia |]. exists a. repeat split; auto; [lia|].
  intros j J. destruct (N.eq_dec j i) as [-> |]; auto. apply D. lia.
Qed.

Lemma retained_after_ok w m : m < 32 -> bmem [w] m = true -> forall fuel i, i <= m -> (N.to_nat (m - i) < fuel)%nat ->
  exists a, retained_after fuel [w] i = Ok a /\ i <= a <= m /\ bmem [w] a = true /\ forall j, i <= j < a -> bmem [w] j = false.
Proof.
  intros M Z. induction fuel as [|f IH]; intros i H L; [lia|]. cbn [retained_after]. rewrite test32 by lia. cbn [bindo].
  destruct (bmem [w] i) eqn:E; [exists i; repeat split; auto; intros; lia|].
  assert (i <> m) by (intros ->; congruence). rewrite addw_small by (change (2 ^ 32) with 4294967296; lia).
  destruct (IH (i + 1)) as (a & A & B & C & D); [lia | lia |]. exists a. repeat split; auto; [lia | lia |].
  intros j J. destruct (N.eq_dec j i) as [-> |]; auto. apply D. lia.
Qed.

Lemma in_index_dec (l : list keyframe) (i : N) : {In i (map kf_index l)} + {~ In i (map kf_index l)}.
Proof. apply in_dec. apply N.eq_dec. Qed.

Lemma nth_error_firstn_lt {A} (l : list A) i n : (i < n)%nat -> nth_error (firstn n l) i = nth_error l i.
Proof. revert i n. induction l as [|a l IH]; intros i n H; destruct n; try lia; destruct i; cbn; auto. apply IH. lia. Qed.

Section SEG.
Variables (err : N -> N -> f32 * bool) (n s : N).
Hypothesis N2 : 2 <= n <= 32.
Hypothesis ERR : forall a b, a + 2 <= b -> b < n -> below_inf (fst (err a b)).

Definition boundary (i : N) : keyframe := {| kf_index := i; kf_segment := s; kf_strip := k_none; kf_error := f_inf; kf_trivial := false |}.
Definition init_best : keyframe := {| kf_index := k_none; kf_segment := s; kf_strip := k_none; kf_error := f_inf; kf_trivial := false |}.
(** the word holds the key frames that were not removed *)
Definition holds (w : N) (removed : list keyframe) : Prop := forall i, i < n -> (bmem [w] i = true <-> retained removed i).

Definition good (it : N) (removed : list keyframe) (upper : N) (k : keyframe) : Prop :=
  1 <= kf_index k < upper /\ retained removed (kf_index k) /\ kf_segment k = s /\ kf_strip k = it - 1 /\ below_inf (kf_error k) /\
  (exists a b, enclosing n removed (kf_index k) a b /\ err a b = (kf_error k, kf_trivial k)).
Definition least (removed : list keyframe) (upper : N) (k : keyframe) : Prop :=
  forall j a b, 0 < j < upper -> retained removed j -> enclosing n removed j a b -> flt (fst (err a b)) (kf_error k) = false.

Lemma good_mono it w u u' k : u <= u' -> good it w u k -> good it w u' k.
Proof. unfold good. intros H (A & B). split; [lia | exact B]. Qed.

Lemma enclosing_fun removed f a b a' b' : enclosing n removed f a b -> enclosing n removed f a' b' -> a = a' /\ b = b'.
Proof.
  intros (A1 & A2 & A3 & A4 & A5) (B1 & B2 & B3 & B4 & B5). split.
  - destruct (N.lt_trichotomy a a') as [L|[L|L]]; auto; exfalso; [apply (A5 a'); auto; lia | apply (B5 a); auto; lia].
  - destruct (N.lt_trichotomy b b') as [L|[L|L]]; auto; exfalso; [apply (B5 b); auto; lia | apply (A5 b'); auto; lia].
Qed.

Lemma find_best_ok w it removed : holds w removed -> retained removed 0 -> retained removed (n - 1) ->
  forall num frame best, 1 <= frame -> frame + N.of_nat num = n - 1 ->
  (best = init_best \/ good it removed frame best) -> least removed frame best ->
  (best = init_best -> exists i, frame <= i < n - 1 /\ retained removed i) ->
  exists k, find_best num err s it [w] frame best = Ok k /\ good it removed (n - 1) k /\ least removed (n - 1) k.
Proof.
  intros HW R0 R1. assert (Z0 : bmem [w] 0 = true) by (apply HW; [lia | auto]). assert (Z1 : bmem [w] (n - 1) = true) by (apply HW; [lia | auto]).
  induction num as [|num IH]; intros frame best F1 F2 B LE E; cbn [find_best].
  - exists best. split; auto. destruct B as [B|B]; [destruct (E B) as (i & I & _); lia|].
    replace (n - 1) with frame by lia. split; auto.
  - rewrite test32 by lia. cbn [bindo]. destruct (bmem [w] frame) eqn:T.
    + destruct (retained_before_ok w Z0 33 (frame - 1)) as (a & A1 & A2 & A3 & A4); [lia | lia |]. rewrite A1. cbn [bindo].
      destruct (retained_after_ok w (n - 1) ltac:(lia) Z1 33 (frame + 1)) as (b & B1 & B2 & B3 & B4); [lia | lia |]. rewrite B1. cbn [bindo].
      assert (BI : below_inf (fst (err a b))) by (apply ERR; lia).
      assert (EN : enclosing n removed frame a b).
      { split; [lia|]. split; [lia|]. split; [apply HW; [lia | auto]|]. split; [apply HW; [lia | auto]|].
        intros j J1 J2 J3. apply HW in J3; [|lia]. assert (D : j <= frame - 1 \/ frame + 1 <= j) by lia. destruct D as [D|D].
        - rewrite A4 in J3 by lia. discriminate.
        - rewrite B4 in J3 by lia. discriminate. }
      assert (RF : retained removed frame) by (apply HW; [lia | auto]).
      set (best' := if flt (fst (err a b)) (kf_error best) then _ else _).
      assert (G : good it removed (frame + 1) best').
      { unfold best'. destruct (flt (fst (err a b)) (kf_error best)) eqn:C.
        - unfold good. cbn [kf_index kf_segment kf_strip kf_error kf_trivial]. repeat split; auto; try lia.
          exists a, b. split; auto. apply surjective_pairing.
        - destruct B as [-> |B]; [cbn [kf_error init_best] in C; unfold below_inf in BI; congruence|]. eapply good_mono; [|exact B]. lia. }
      assert (L' : least removed (frame + 1) best').
      { intros j x y J1 J2 J3. assert (D : j = frame \/ j < frame) by lia. destruct D as [-> |D].
        - destruct (enclosing_fun _ _ _ _ _ _ J3 EN) as [-> ->]. unfold best'.
          destruct (flt (fst (err a b)) (kf_error best)) eqn:C; [cbn [kf_error] | exact C].
          unfold below_inf in BI. apply fle_not_flt. apply fle_refl. apply (flt_num _ _ BI).
        - pose proof (LE j x y ltac:(lia) J2 J3) as Q. unfold best'. destruct (flt (fst (err a b)) (kf_error best)) eqn:C; [cbn [kf_error] | exact Q].
          destruct (flt (fst (err x y)) (fst (err a b))) eqn:C'; auto. rewrite (flt_trans _ _ _ C' C) in Q. discriminate. }
      apply IH; [lia | lia | right; exact G | exact L' |]. intros Q. rewrite Q in G. destruct G as (G & _). cbn [kf_index init_best] in G. unfold k_none in G. lia.
    + apply IH; [lia | lia | | |].
      * destruct B as [B|B]; [left; auto | right; eapply good_mono; [|exact B]; lia].
      * intros j x y J1 J2 J3. apply (LE j x y); auto. assert (j <> frame); [|lia]. intros ->. apply HW in J2; [congruence | lia].
      * intros H. destruct (E H) as (i & I1 & I2). exists i. split; auto. assert (i <> frame); [|lia]. intros ->. apply HW in I2; [congruence | lia].
Qed.

(** the table once the key frames of [hist] were removed in this order *)
Record table_inv (w : N) (errors hist : list keyframe) : Prop := {
  ti_len : length errors = 32%nat;
  ti_w : w < 2 ^ 32;
  ti_holds : holds w hist;
  ti_first : nth_error errors 0 = Some (boundary 0);
  ti_last : nth_error errors (N.to_nat (n - 1)) = Some (boundary (n - 1));
  ti_nodup : NoDup (map kf_index hist);
  ti_hist : forall j k, nth_error hist j = Some k ->
    0 < kf_index k < n - 1 /\ kf_segment k = s /\ kf_strip k = N.of_nat j /\ below_inf (kf_error k) /\ nth_error errors (N.to_nat (kf_index k)) = Some k;
  ti_greedy : greedy err n s hist }.

Lemma hist_interior w errors hist : table_inv w errors hist -> forall i, In i (map kf_index hist) -> 0 < i < n - 1.
Proof. intros T i H. apply in_map_iff in H. destruct H as (k & <- & K). apply In_nth_error in K. destruct K as (j & K). apply (ti_hist _ _ _ T _ _ K). Qed.

Definition interior : list N := map N.of_nat (seq 1 (N.to_nat n - 2)).
Lemma interior_in i : In i interior <-> 0 < i < n - 1.
Proof.
  unfold interior. rewrite in_map_iff. split.
  - intros (x & <- & X). apply in_seq in X. lia.
  - intros H. exists (N.to_nat i). split; [apply N2Nat.id|]. apply in_seq. lia.
Qed.
Lemma interior_nodup : NoDup interior.
Proof. unfold interior. apply FinFun.Injective_map_NoDup; [intros x y H; lia | apply seq_NoDup]. Qed.
Lemma interior_length : length interior = (N.to_nat n - 2)%nat.
Proof. unfold interior. rewrite map_length, seq_length. reflexivity. Qed.

Lemma some_left w errors hist : table_inv w errors hist -> (length hist < N.to_nat n - 2)%nat -> exists i, 1 <= i < n - 1 /\ retained hist i.
Proof.
  intros T L. destruct (Forall_Exists_dec (fun i => In i (map kf_index hist)) (fun i => in_index_dec hist i) interior) as [F|F].
  - exfalso. assert (I : incl interior (map kf_index hist)) by (intros x X; rewrite Forall_forall in F; auto).
    apply (NoDup_incl_length interior_nodup) in I. rewrite interior_length, map_length in I. lia.
  - apply Exists_exists in F. destruct F as (i & I1 & I2). exists i. apply interior_in in I1. split; [lia | auto].
Qed.

Lemma removal_ok : forall num it w errors hist, (length hist + num = N.to_nat n - 2)%nat -> it = N.of_nat (length hist) + 1 -> table_inv w errors hist ->
  exists w' errors' hist', removal_loop num err n s it [w] errors = Ok errors' /\ length hist' = (N.to_nat n - 2)%nat /\ table_inv w' errors' hist'.
Proof.
  induction num as [|num IH]; intros it w errors hist I1 I2 T; cbn [removal_loop].
  - exists w, errors, hist. split; auto. split; [lia | auto].
  - assert (R0 : retained hist 0) by (intros C; apply (hist_interior _ _ _ T) in C; lia).
    assert (R1 : retained hist (n - 1)) by (intros C; apply (hist_interior _ _ _ T) in C; lia).
    destruct (find_best_ok w it hist (ti_holds _ _ _ T) R0 R1 (N.to_nat (n - 2)) 1 init_best) as (k & K1 & (K2 & K3 & K4 & K5 & K6 & K7) & K8); try lia; auto.
    { intros j a b J. lia. }
    { intros _. apply (some_left _ _ _ T). lia. }
    unfold init_best in K1. rewrite K1. cbn [bindo]. pose proof (ti_len _ _ _ T) as TL.
    replace (kf_index k <? N.of_nat (length errors)) with true by (symmetry; apply N.ltb_lt; lia).
    destruct (bitset_set_spec [w] (kf_index k) false) as (bs & S1 & S2 & S3 & S4); [constructor; auto; apply (ti_w _ _ _ T) | change (blen [w]) with 1; lia |].
    rewrite S1. cbn [bindo]. destruct bs as [|w' [|? ?]]; try discriminate S3. inversion S2 as [|? ? W' _]; subst.
    apply (IH _ w' _ (hist ++ [k])); [rewrite app_length; cbn [length]; lia | rewrite app_length; cbn [length]; lia |].
    constructor.
    + rewrite upd_length. auto.
    + auto.
    + intros i L. rewrite S4. unfold retained. rewrite map_app, in_app_iff. cbn [map In]. destruct (N.eqb_spec i (kf_index k)) as [Q|Q].
      * split; [discriminate|]. intros C. exfalso. apply C. right. left. auto.
      * rewrite (ti_holds _ _ _ T i L). unfold retained. split; [intros A [B|[B|[]]]; auto | intros A B; apply A; auto].
    + rewrite nth_error_upd by lia. destruct (Nat.eqb_spec 0 (N.to_nat (kf_index k))); [lia | apply (ti_first _ _ _ T)].
    + rewrite nth_error_upd by lia. destruct (Nat.eqb_spec (N.to_nat (n - 1)) (N.to_nat (kf_index k))); [lia | apply (ti_last _ _ _ T)].
    + rewrite map_app. cbn [map]. apply NoDup_Add with (a := kf_index k) (l := map kf_index hist).
      * replace (map kf_index hist) with (map kf_index hist ++ []) at 1 by apply app_nil_r. apply Add_app.
      * split; [apply (ti_nodup _ _ _ T) | exact K3].
    + intros j q Q. assert (D : (j < length hist)%nat \/ j = length hist) by (apply nth_error_Some_lt in Q || (assert (X : nth_error (hist ++ [k]) j <> None) by congruence; apply nth_error_Some in X; rewrite app_length in X; cbn [length] in X; lia)).
      destruct D as [D| ->].
      * rewrite nth_error_app1 in Q by auto. destruct (ti_hist _ _ _ T _ _ Q) as (A1 & A2 & A3 & A4 & A5). repeat split; auto; try lia.
        rewrite nth_error_upd by lia. destruct (Nat.eqb_spec (N.to_nat (kf_index q)) (N.to_nat (kf_index k))) as [E|E]; auto.
        exfalso. apply K3. apply N2Nat.inj in E. rewrite <- E. apply in_map. eapply nth_error_In. eauto.
      * rewrite nth_error_app2 in Q by lia. rewrite Nat.sub_diag in Q. cbn in Q. inversion Q; subst q. repeat split; auto; try lia.
        rewrite nth_error_upd by lia. rewrite Nat.eqb_refl. reflexivity.
    + intros j q Q Lj. cbv zeta. assert (D : (j < length hist)%nat \/ j = length hist) by (assert (X : nth_error (hist ++ [k]) j <> None) by congruence; apply nth_error_Some in X; rewrite app_length in X; cbn [length] in X; lia).
      destruct D as [D| ->].
      * rewrite nth_error_app1 in Q by auto. rewrite firstn_app. replace (j - length hist)%nat with 0%nat by lia. cbn [firstn]. rewrite app_nil_r.
        apply (ti_greedy _ _ _ T _ _ Q Lj).
      * rewrite nth_error_app2 in Q by lia. rewrite Nat.sub_diag in Q. cbn in Q. inversion Q; subst q.
        rewrite firstn_app, Nat.sub_diag. cbn [firstn]. rewrite app_nil_r, firstn_all. split; auto.
Qed.
End SEG.

(** a sorted permutation of strictly increasing elements followed by greater ones *)
Lemma sorted_prefix {A} (key : A -> N) : forall h b l,
  Permutation (h ++ b) l -> StronglySorted (fun x y => key x <= key y) l -> StronglySorted (fun x y => key x < key y) h ->
  (forall x y, In x h -> In y b -> key x < key y) -> exists b', l = h ++ b' /\ Permutation b b'.
Proof.
  induction h as [|a h IH]; intros b l P S1 S2 HB.
  - exists l. auto.
  - cbn [app] in P. destruct l as [|x l]; [apply Permutation_length in P; discriminate|].
    inversion S1 as [|? ? S1a S1b]; subst. inversion S2 as [|? ? S2a S2b]; subst. rewrite Forall_forall in S1b, S2b.
    assert (E : x = a).
    { assert (I : In x (a :: h ++ b)) by (eapply Permutation_in; [apply Permutation_sym, P | left; auto]).
      destruct I as [I|I]; auto. exfalso. assert (K1 : key a < key x). { apply in_app_or in I. destruct I as [I|I]; [auto | apply HB; auto; left; auto]. }
      assert (J : In a (x :: l)) by (eapply Permutation_in; [exact P | left; auto]). destruct J as [J|J]; [subst; lia|]. apply S1b in J. lia. }
    subst x. apply Permutation_cons_inv in P. destruct (IH b l P S1a S2a) as (b' & B1 & B2); [intros; apply HB; auto; right; auto|].
    exists b'. split; auto. cbn. f_equal. auto.
Qed.

Lemma nth_sorted {A} (key : A -> N) (l : list A) : forall o, (forall j k, nth_error l j = Some k -> key k = o + N.of_nat j) -> StronglySorted (fun x y => key x < key y) l.
Proof.
  induction l as [|a l IH]; intros o H; constructor.
  - apply (IH (o + 1)). intros j k K. rewrite (H (S j) k K). lia.
  - apply Forall_forall. intros x X. apply In_nth_error in X. destruct X as (j & X). rewrite (H 0%nat a eq_refl), (H (S j) x X). lia.
Qed.

Lemma upto_in n i : In i (upto n) <-> i < n.
Proof.
  unfold upto. rewrite in_map_iff. split.
  - intros (x & <- & X). apply in_seq in X. lia.
  - intros H. exists (N.to_nat i). split; [lia|]. apply in_seq. lia.
Qed.
Lemma upto_nodup n : NoDup (upto n).
Proof. unfold upto. apply FinFun.Injective_map_NoDup; [intros x y H; lia | apply seq_NoDup]. Qed.

(** what the removal loop leaves: the removed key frames, then the two boundaries in either order *)
Lemma find_errors_ok err n s : 2 <= n <= 32 -> (forall a b, a + 2 <= b -> b < n -> below_inf (fst (err a b))) ->
  exists l, find_contributing_error err n s = Ok l /\
    forall l', sorted_by_strip l l' -> exists hist bs, l' = hist ++ bs /\ length hist = (N.to_nat n - 2)%nat /\
      Permutation [boundary s 0; boundary s (n - 1)] bs /\ NoDup (map kf_index hist) /\
      (forall k, In k hist -> 0 < kf_index k < n - 1 /\ kf_segment k = s /\ below_inf (kf_error k)) /\ greedy err n s hist.
Proof.
  intros H E. unfold find_contributing_error. replace ((n =? 0) || (32 <? n)) with false
    by (symmetry; apply orb_false_iff; split; [apply N.eqb_neq; lia | apply N.ltb_ge; lia]). cbv zeta.
  set (t0 := upd (upd _ _ _) _ _).
  assert (FULL : forall i, i < 32 -> bmem [0xFFFFFFFF] i = true).
  { apply (bitset_reset_spec 1 true). }
  assert (I0 : table_inv err n s 0xFFFFFFFF t0 []).
  { constructor.
    - unfold t0; rewrite !upd_length; apply repeat_length.
    - reflexivity.
    - intros i L. rewrite FULL by lia. split; auto. intros _ [].
    - unfold t0. rewrite nth_error_upd by (rewrite upd_length, repeat_length; lia). destruct (Nat.eqb_spec 0 (N.to_nat (n - 1))); [lia|].
      rewrite nth_error_upd by (rewrite repeat_length; lia). reflexivity.
    - unfold t0. rewrite nth_error_upd by (rewrite upd_length, repeat_length; lia). rewrite Nat.eqb_refl. reflexivity.
    - constructor.
    - intros [|j] k K; discriminate.
    - intros [|j] k K; discriminate. }
  destruct (removal_ok err n s H E (N.to_nat (n - 2)) 1 0xFFFFFFFF t0 []) as (w & l & hist & R & L & T); [cbn [length]; lia | reflexivity | exact I0 |].
  rewrite R. cbn [bindo]. eexists. split; [reflexivity|]. intros l' (P & SO).
  assert (P2 : Permutation (hist ++ [boundary s 0; boundary s (n - 1)]) (firstn (N.to_nat n) l)).
  { apply NoDup_Permutation_bis.
    - apply NoDup_map_inv with (f := kf_index). rewrite map_app. cbn [map]. apply (Permutation_NoDup (l := 0 :: n - 1 :: map kf_index hist)).
      + change (0 :: n - 1 :: map kf_index hist) with ([0; n - 1] ++ map kf_index hist). apply Permutation_app_comm.
      + pose proof (hist_interior _ _ _ _ _ _ T) as HI. constructor; [intros [C|C]; [lia | apply HI in C; lia]|].
        constructor; [intros C; apply HI in C; lia | apply (ti_nodup _ _ _ _ _ _ T)].
    - rewrite firstn_length, (ti_len _ _ _ _ _ _ T), app_length. cbn [length]. lia.
    - intros k K. apply in_app_or in K. destruct K as [K|K].
      + apply In_nth_error in K. destruct K as (j & K). destruct (ti_hist _ _ _ _ _ _ T _ _ K) as (A1 & A2 & A3 & A4 & A5).
        apply (nth_error_In _ (N.to_nat (kf_index k))). rewrite nth_error_firstn_lt by lia. exact A5.
      + destruct K as [<-|[<-|[]]].
        * apply (nth_error_In _ 0). rewrite nth_error_firstn_lt by lia. apply (ti_first _ _ _ _ _ _ T).
        * apply (nth_error_In _ (N.to_nat (n - 1))). rewrite nth_error_firstn_lt by lia. apply (ti_last _ _ _ _ _ _ T). }
  destruct (sorted_prefix kf_strip hist [boundary s 0; boundary s (n - 1)] l') as (bs & B1 & B2); auto.
  - eapply Permutation_trans; eauto.
  - apply (nth_sorted kf_strip hist 0). intros j k K. apply (ti_hist _ _ _ _ _ _ T _ _ K).
  - intros x y X Y. apply In_nth_error in X. destruct X as (j & X). destruct (ti_hist _ _ _ _ _ _ T _ _ X) as (A1 & A2 & A3 & A4 & A5).
    assert (J : (j < length hist)%nat) by (apply nth_error_Some; congruence). rewrite A3. destruct Y as [<-|[<-|[]]]; cbn [kf_strip boundary]; unfold k_none; lia.
  - exists hist, bs. split; auto. split; auto. split; auto. split; [apply (ti_nodup _ _ _ _ _ _ T)|]. split; [|apply (ti_greedy _ _ _ _ _ _ T)].
    intros k K. apply In_nth_error in K; destruct K as (j & K); destruct (ti_hist _ _ _ _ _ _ T _ _ K) as (A1 & A2 & A3 & A4 & A5); auto.
Qed.

Lemma segment_order_ok err n s : 1 <= n <= 32 -> (forall a b, a + 2 <= b -> b < n -> below_inf (fst (err a b))) ->
  exists l, find_contributing_error err n s = Ok l /\ forall l', sorted_by_strip l l' -> segment_order n s l' /\ greedy err n s l'.
Proof.
  intros H E. assert (D : n = 1 \/ 2 <= n) by lia. destruct D as [-> |D].
  - eexists. split; [reflexivity|]. intros l' (P & _). cbn in P. apply Permutation_length_1_inv in P. subst l'. split.
    + split; [apply Permutation_refl|]. split; [constructor; auto|]. intros [|[|i]] k K; try discriminate. cbn in K. inversion K; subst. split; [cbn; lia|].
      intros _. cbn. auto.
    + intros i k K L. cbn in L. lia.
  - destruct (find_errors_ok err n s ltac:(lia) E) as (l & F & G). exists l. split; auto. intros l' P.
    destruct (G l' P) as (hist & bs & -> & A1 & A2 & A3 & A4 & A5). split.
    + split; [|split].
      * apply NoDup_Permutation_bis.
        { apply (Permutation_NoDup (l := 0 :: n - 1 :: map kf_index hist)).
          - eapply Permutation_trans with (map kf_index hist ++ [0; n - 1]); [change (0 :: n - 1 :: map kf_index hist) with ([0; n - 1] ++ map kf_index hist); apply Permutation_app_comm|].
            rewrite map_app. apply Permutation_app_head. apply (Permutation_map kf_index) in A2. exact A2.
          - assert (HI : forall i, In i (map kf_index hist) -> 0 < i < n - 1) by (intros i I; apply in_map_iff in I; destruct I as (k & <- & K); apply A4; auto).
            constructor; [intros [C|C]; [lia | apply HI in C; lia]|]. constructor; [intros C; apply HI in C; lia | auto]. }
        { unfold upto. rewrite !map_length, seq_length, app_length, A1, <- (Permutation_length A2). cbn [length]. lia. }
        { intros i I. apply upto_in. rewrite map_app in I. apply in_app_or in I. destruct I as [I|I]; apply in_map_iff in I; destruct I as (k & <- & K).
          - apply A4 in K. lia.
          - apply Permutation_sym in A2. eapply Permutation_in in K; [|exact A2]. destruct K as [<-|[<-|[]]]; cbn; lia. }
      * apply Forall_forall. intros k K. apply in_app_or in K. destruct K as [K|K]; [apply A4; auto|].
        apply Permutation_sym in A2. eapply Permutation_in in K; [|exact A2]. destruct K as [<-|[<-|[]]]; reflexivity.
      * intros i k K. split; intros L.
        { rewrite nth_error_app1 in K by lia. apply nth_error_In in K. apply A4 in K. destruct K as (K1 & K2 & K3). split; auto. }
        { rewrite nth_error_app2 in K by lia. apply nth_error_In in K. apply Permutation_sym in A2. eapply Permutation_in in K; [|exact A2].
          destruct K as [<-|[<-|[]]]; cbn; auto. }
    + intros i k K L. cbv zeta. rewrite nth_error_app1 in K by lia. rewrite firstn_app. replace (i - length hist)%nat with 0%nat by lia. cbn [firstn]. rewrite app_nil_r.
      apply (A5 _ _ K L).
Qed.
