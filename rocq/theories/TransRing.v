(** Facts about the sample caches of transform decompression ([unpack_group], [consume] of TransDec.v). *)
From Coq Require Import Lia.
From Verif Require Import Word BitManip WordFacts SubTracks SubTracksFacts TransDec.
Local Open Scope N_scope.
Ltac Zify.zify_post_hook ::= idtac.

Definition len {A} (l : list A) : N := N.of_nat (length l).
Lemma len_cons {A} (x : A) l : len (x :: l) = len l + 1.
Proof. unfold len. cbn [length]. lia. Qed.
Lemma len_app {A} (a b : list A) : len (a ++ b) = len a + len b.
Proof. unfold len. rewrite app_length. lia. Qed.

Lemma div_cases (b w : N) : 0 < b -> w mod b = 0 ->
  (w mod (2 * b) = 0 /\ exists q, w = 2 * b * q) \/ (w mod (2 * b) = b /\ exists q, w = 2 * b * q + b).
Proof.
  intros Hb Hm. pose proof (N.div_mod w b) as E. rewrite Hm in E. specialize (E ltac:(lia)).
  set (k := w / b) in *. clearbody k. pose proof (N.div_mod k 2 ltac:(lia)) as E2.
  pose proof (N.mod_lt k 2 ltac:(lia)) as L2. set (q := k / 2) in *. set (r := k mod 2) in *. clearbody q r.
  assert (r = 0 \/ r = 1) as [-> | ->] by lia.
  - left. assert (w = 2 * b * q) by (subst; lia). split; [| eauto]. subst w. rewrite H. rewrite N.mul_comm. apply N.mod_mul. lia.
  - right. assert (w = 2 * b * q + b) by (subst; lia). split; [| eauto]. rewrite H. symmetry. apply (N.mod_unique _ _ q); lia.
Qed.

(** the cells hold [vs] from the running index [i] on *)
Definition holds (cells : list out) (size i : N) (vs : list out) : Prop :=
  forall k v, nth_error vs k = Some v -> nth_error cells (N.to_nat ((i + N.of_nat k) mod size)) = Some v.

Lemma nth_error_mid {A} (pre vs post : list A) k : (k < length vs)%nat ->
  nth_error (pre ++ vs ++ post) (length pre + k) = nth_error vs k.
Proof.
  intros H. rewrite nth_error_app2 by lia. replace (length pre + k - length pre)%nat with k by lia. apply nth_error_app1; lia.
Qed.

Lemma store_cells_spec cells at_ vs : (N.to_nat at_ + length vs <= length cells)%nat ->
  exists cells', store_cells cells at_ vs = Ok cells' /\ length cells' = length cells /\
    (forall k, (k < length vs)%nat -> nth_error cells' (N.to_nat at_ + k) = nth_error vs k) /\
    (forall j, (j < N.to_nat at_ \/ N.to_nat at_ + length vs <= j)%nat -> nth_error cells' j = nth_error cells j).
Proof.
  intros H. unfold store_cells. cbv zeta. destruct (Nat.leb_spec (N.to_nat at_ + length vs) (length cells)); [| lia].
  set (i := N.to_nat at_) in *. clearbody i. eexists. split; [reflexivity |].
  assert (Hl : length (firstn i cells) = i) by (apply firstn_length_le; lia).
  split; [| split].
  - rewrite !app_length, Hl, skipn_length. lia.
  - intros k Hk. transitivity (nth_error (firstn i cells ++ vs ++ skipn (i + length vs) cells) (length (firstn i cells) + k)); [rewrite Hl; reflexivity | apply nth_error_mid; assumption].
  - intros j Hj. assert ((i <= j -> i + length vs <= j)%nat) by lia.
    destruct (Nat.lt_ge_cases j i).
    + rewrite nth_error_app1 by lia. rewrite <- (firstn_skipn i cells) at 2. rewrite nth_error_app1 by lia. reflexivity.
    + rewrite nth_error_app2 by lia. rewrite nth_error_app2 by lia. rewrite Hl.
      rewrite <- (firstn_skipn (i + length vs) cells) at 2. rewrite nth_error_app2; rewrite firstn_length_le by lia; [| lia].
      f_equal. lia.
Qed.

Section Ring.
  Context {P : Type} (batch : N) (fetch : N -> P -> outcome (list out * P)) (src : P -> list out -> Prop).
  Hypothesis batch_pos : 0 < batch.
  Hypothesis batch_word : batch < 2 ^ 31.
  Hypothesis fetch_ok : forall p l, src p l -> l <> [] ->
    exists vs p', fetch (N.min (len l) batch) p = Ok (vs, p') /\ (length vs <= N.to_nat batch)%nat /\
      (length l < N.to_nat batch -> firstn (length l) vs = l)%nat /\ (N.to_nat batch <= length l -> vs = firstn (N.to_nat batch) l)%nat /\
      src p' (skipn (N.to_nat batch) l).

  Record ring_inv (r : ring) (p : P) (cached rest : list out) : Prop := {
    ri_left : r_left r = len rest;
    ri_word : r_write r + len rest < 2 ^ 32;
    ri_read : r_read r + len cached = r_write r;
    ri_cells : length (r_cells r) = N.to_nat (2 * batch);
    ri_phase : rest <> [] -> r_write r mod batch = 0;
    ri_holds : holds (r_cells r) (2 * batch) (r_read r) cached;
    ri_src : src p rest
  }.

  Lemma new_ring_inv p l : src p l -> len l < 2 ^ 32 -> ring_inv (new_ring (2 * batch) (len l)) p [] l.
  Proof.
    intros Hs Hl. split; cbn [new_ring r_left r_write r_read r_cells]; try lia; auto.
    - apply repeat_length.
    - intros k v H. destruct k; discriminate.
  Qed.

  Lemma unpack_group_inv r p cached rest : ring_inv r p cached rest ->
    exists r' p' cached' rest', unpack_group batch fetch (r, p) = Ok (r', p') /\ ring_inv r' p' cached' rest' /\
      cached' ++ rest' = cached ++ rest /\ (rest' = [] \/ batch <= len cached').
  Proof.
    intros I. destruct I as [Il Iw Ir Ic Ip Ih Is]. unfold unpack_group.
    destruct (N.eqb_spec (r_left r) 0) as [E | E].
    { assert (rest = []) as -> by (destruct rest; [reflexivity | rewrite len_cons in Il; lia]).
      exists r, p, cached, []. split; [reflexivity |]. split; [constructor; auto |]. auto. }
    assert (Hrest : rest <> []) by (intros ->; unfold len in Il; cbn [length] in Il; lia).
    rewrite subw_ge by (unfold len in *; lia). replace (r_write r - r_read r) with (len cached) by lia.
    destruct (N.leb_spec batch (len cached)) as [Hc | Hc].
    { exists r, p, cached, rest. split; [reflexivity |]. split; [constructor; auto |]. auto. }
    cbv zeta. rewrite Il. destruct (fetch_ok p rest Is Hrest) as (vs & p' & -> & Hvs & Hshort & Hfull & Hs'). cbn [bindo].
    specialize (Ip Hrest).
    set (n := N.min (len rest) batch) in *.
    assert (Hn : n <= len rest /\ 0 < n /\ n <= batch).
    { unfold n. destruct rest; [congruence |]. rewrite len_cons. lia. }
    set (new := firstn (N.to_nat batch) rest).
    assert (Hnew : len new = n).
    { unfold new, n, len. rewrite firstn_length. lia. }
    assert (Hnv : forall k v, nth_error new k = Some v -> nth_error vs k = Some v).
    { intros k v Hk. destruct (Nat.lt_ge_cases (length rest) (N.to_nat batch)) as [Hl | Hl].
      - unfold new in Hk. rewrite firstn_all2 in Hk by lia. rewrite <- (Hshort Hl) in Hk.
        assert (k < length rest)%nat.
        { assert (nth_error (firstn (length rest) vs) k <> None) as Hne by congruence. apply nth_error_Some in Hne. rewrite firstn_length in Hne. lia. }
        rewrite <- (firstn_skipn (length rest) vs). rewrite nth_error_app1; [exact Hk |].
        apply nth_error_Some. congruence.
      - rewrite (Hfull Hl). exact Hk. }
    assert (Hk : forall k v, nth_error new k = Some v -> (k < length vs)%nat /\ N.of_nat k < n).
    { intros k v Hk. split; [apply nth_error_Some; rewrite (Hnv _ _ Hk); congruence |].
      assert (k < length new)%nat by (apply nth_error_Some; congruence). unfold len in Hnew. lia. }
    set (at_ := r_write r mod (2 * batch)).
    assert (Hat : at_ = 0 \/ at_ = batch) by (destruct (div_cases batch (r_write r)) as [[X _] | [X _]]; auto).
    destruct (store_cells_spec (r_cells r) at_ vs) as (cells' & -> & Hlen & Hin & Hout).
    { rewrite Ic. lia. }
    cbn [bindo]. rewrite addw_small by lia. rewrite subw_ge by lia.
    eexists _, p', (cached ++ new), (skipn (N.to_nat batch) rest). split; [reflexivity |]. split; [constructor; cbn [r_left r_write r_read r_cells] |].
    - unfold n, len. rewrite skipn_length. lia.
    - unfold n, len in *. rewrite skipn_length. lia.
    - rewrite len_app, Hnew. lia.
    - lia.
    - intros Hne. assert (n = batch) as ->.
      { unfold n, len. destruct (Nat.lt_ge_cases (length rest) (N.to_nat batch)); [| lia]. exfalso. apply Hne. apply skipn_all2. lia. }
      rewrite <- N.add_mod_idemp_r, N.mod_same, N.add_0_r by lia. exact Ip.
    - intros k v Hkv. destruct (Nat.lt_ge_cases k (length cached)) as [Hlt | Hge].
      + rewrite nth_error_app1 in Hkv by lia. rewrite Hout; [apply Ih; assumption |].
        assert (Hd : exists d, r_read r + N.of_nat k + d = r_write r /\ 0 < d <= batch).
        { exists (r_write r - (r_read r + N.of_nat k)). unfold len in *. lia. }
        destruct Hd as (d & Hd & Hdb).
        destruct (div_cases batch (r_write r)) as [[Ha [q Hq]] | [Ha [q Hq]]]; auto; fold at_ in Ha.
        * right. rewrite Ha. assert ((r_read r + N.of_nat k) mod (2 * batch) = 2 * batch - d) as ->.
          { symmetry. apply (N.mod_unique _ _ (q - 1)); [lia |]. assert (1 <= q) by nia. replace q with (q - 1 + 1) in Hq by lia.
            rewrite N.mul_add_distr_l in Hq. lia. }
          lia.
        * left. rewrite Ha. assert ((r_read r + N.of_nat k) mod (2 * batch) = batch - d) as ->.
          { symmetry. apply (N.mod_unique _ _ q); lia. }
          lia.
      + rewrite nth_error_app2 in Hkv by lia. pose proof (Hk _ _ Hkv) as [Hk1 Hk2].
        set (j := (k - length cached)%nat) in *.
        replace (r_read r + N.of_nat k) with (r_write r + N.of_nat j) by (unfold len in *; lia).
        assert ((r_write r + N.of_nat j) mod (2 * batch) = at_ + N.of_nat j) as ->.
        { destruct (div_cases batch (r_write r)) as [[Ha [q Hq]] | [Ha [q Hq]]]; auto; fold at_ in Ha; rewrite Ha;
            symmetry; apply (N.mod_unique _ _ q); lia. }
        replace (N.to_nat (at_ + N.of_nat j)) with (N.to_nat at_ + j)%nat by lia. rewrite Hin by lia. apply Hnv, Hkv.
    - exact Hs'.
    - split; [rewrite <- app_assoc; f_equal; apply firstn_skipn |].
      destruct (Nat.lt_ge_cases (length rest) (N.to_nat batch)).
      + left. apply skipn_all2. lia.
      + right. rewrite len_app, Hnew. unfold n, len. lia.
  Qed.

  Lemma consume_inv r p v cached rest : ring_inv r p (v :: cached) rest ->
    exists r', consume batch (r, p) = Ok (v, (r', p)) /\ ring_inv r' p cached rest.
  Proof.
    intros [Il Iw Ir Ic Ip Ih Is]. unfold consume. pose proof (Ih 0%nat v eq_refl) as H0. rewrite N.add_0_r in H0. rewrite H0.
    rewrite len_cons in Ir. rewrite addw_small by lia.
    eexists. split; [reflexivity |]. constructor; cbn [r_left r_write r_read r_cells]; auto; [lia |].
    intros k x Hk. specialize (Ih (S k) x Hk). replace (r_read r + 1 + N.of_nat k) with (r_read r + N.of_nat (S k)) by lia. exact Ih.
  Qed.

  Lemma consume_tracks_inv tracks : forall r p cached rest, ring_inv r p cached rest -> (length tracks <= length cached)%nat ->
    exists r', consume_tracks batch tracks (r, p) = Ok (combine tracks cached, (r', p)) /\ ring_inv r' p (skipn (length tracks) cached) rest.
  Proof.
    induction tracks as [| i tracks IH]; intros r p cached rest I H.
    - exists r. auto.
    - destruct cached as [| v cached]; [cbn in H; lia |]. cbn [consume_tracks].
      destruct (consume_inv _ _ _ _ _ I) as (r1 & -> & I1). cbn [bindo].
      destruct (IH _ _ _ _ I1) as (r2 & -> & I2); [cbn in H; lia |]. cbn [bindo]. exists r2. split; [reflexivity | exact I2].
  Qed.

  Lemma combine_app_l {A B} (a b : list A) (l : list B) : combine (a ++ b) l = combine a l ++ combine b (skipn (length a) l).
  Proof.
    revert l. induction a as [| x a IH]; intros l; [reflexivity |]. destruct l as [| y l].
    - cbn. rewrite combine_nil. reflexivity.
    - cbn. f_equal. apply IH.
  Qed.
  Lemma combine_firstn_l {A B} (a : list A) (l l' : list B) : (length a <= length l)%nat -> combine a (l ++ l') = combine a l.
  Proof.
    revert l. induction a as [| x a IH]; intros l H; [reflexivity |]. destruct l; [cbn in H; lia |]. cbn. f_equal. apply IH. cbn in H. lia.
  Qed.

  Theorem unpack_sub_tracks_ok groups : Forall (fun g => (length g <= N.to_nat batch)%nat) groups ->
    forall r p cached rest, ring_inv r p cached rest -> (length (concat groups) <= length (cached ++ rest))%nat ->
    unpack_sub_tracks batch fetch groups (r, p) = Ok (combine (concat groups) (cached ++ rest)).
  Proof.
    induction 1 as [| g groups Hg _ IH]; intros r p cached rest I Hlen; [reflexivity |]. cbn [unpack_sub_tracks].
    destruct (unpack_group_inv _ _ _ _ I) as (r1 & p1 & c1 & l1 & -> & I1 & E1 & Hc). cbn [bindo].
    rewrite <- E1 in Hlen |- *. cbn [concat] in *. rewrite !app_length in Hlen.
    assert (Hg1 : (length g <= length c1)%nat).
    { destruct Hc as [-> | Hc]; [cbn in Hlen; lia |]. unfold len in Hc. lia. }
    destruct (consume_tracks_inv g _ _ _ _ I1 Hg1) as (r2 & -> & I2). cbn [bindo].
    rewrite (IH _ _ _ _ I2).
    - cbn [bindo]. rewrite combine_app_l, (combine_firstn_l g c1 l1) by lia. do 2 f_equal. f_equal.
      rewrite skipn_app. replace (length g - length c1)%nat with 0%nat by lia. reflexivity.
    - rewrite app_length, skipn_length. lia.
  Qed.

  Theorem unpack_all groups p l : src p l -> len l < 2 ^ 32 -> Forall (fun g => (length g <= N.to_nat batch)%nat) groups ->
    length (concat groups) = length l ->
    unpack_sub_tracks batch fetch groups (new_ring (2 * batch) (len l), p) = Ok (combine (concat groups) l).
  Proof.
    intros Hs Hl Hg Hn. rewrite (unpack_sub_tracks_ok groups Hg _ _ [] l); [reflexivity | apply new_ring_inv; assumption | cbn; lia].
  Qed.
End Ring.

(** ** The groups are a partition of the walked tracks *)
Lemma walk_group_list_spec hi fuel : forall e i l, walk_groups fuel hi e i = Ok l ->
  exists gs, walk_group_list fuel hi e i = Ok gs /\ concat gs = l /\ Forall (fun g => (length g <= 4)%nat) gs.
Proof.
  induction fuel as [| f IH]; intros e i l; cbn [walk_groups walk_group_list].
  - destruct (e =? 0); [| discriminate]. intros [= <-]. exists []. auto.
  - destruct (e =? 0). { intros [= <-]. exists []. auto. }
    destruct (walk_groups f hi (shlw 32 e 8) (i + 4)) as [r | |] eqn:E; cbn [bindo]; try discriminate.
    destruct (IH _ _ _ E) as (gs & -> & Hc & Hf). cbn [bindo]. unfold walk_mask.
    match goal with |- context [if ?b then [] else _] => destruct b end; intros [= <-].
    + exists gs. auto.
    + eexists. split; [reflexivity |]. split; [cbn [concat]; rewrite Hc; reflexivity |]. constructor; [| exact Hf].
      rewrite !app_length. repeat match goal with |- context [if ?b then _ else _] => destruct b end; cbn; lia.
Qed.

Lemma animated_groups_spec es : forall i l, animated_tracks_loop es i = Ok l ->
  exists gs, animated_groups es i = Ok gs /\ concat gs = l /\ Forall (fun g => (length g <= 4)%nat) gs.
Proof.
  induction es as [| e es IH]; intros i l; cbn [animated_tracks_loop animated_groups].
  - intros [= <-]. exists []. auto.
  - destruct (walk_groups 5 _ _ i) as [a | |] eqn:E; cbn [bindo]; try discriminate.
    destruct (animated_tracks_loop es (i + 16)) as [b | |] eqn:E2; cbn [bindo]; try discriminate. intros [= <-].
    destruct (walk_group_list_spec _ _ _ _ _ E) as (g1 & -> & <- & F1). cbn [bindo].
    destruct (IH _ _ E2) as (g2 & -> & <- & F2). cbn [bindo]. exists (g1 ++ g2). rewrite concat_app. split; [reflexivity |].
    split; [reflexivity |]. apply Forall_app; auto.
Qed.

Lemma filter_len {A} (f : A -> bool) l : (length (filter f l) <= length l)%nat.
Proof. induction l as [| x l IH]; [auto |]. cbn. destruct (f x); cbn; lia. Qed.

Lemma constant_groups_spec es : Forall (fun e => e < 2 ^ 32) es -> forall i l, constant_tracks_loop es i = Ok l ->
  exists gs, constant_groups es i = Ok gs /\ concat gs = l /\ Forall (fun g => (length g <= 16)%nat) gs.
Proof.
  induction 1 as [| e es He Hes IH]; intros i l; cbn [constant_tracks_loop constant_groups].
  - intros [= <-]. exists []. auto.
  - destruct (walk_groups 5 _ _ i) as [a | |] eqn:E; cbn [bindo]; try discriminate.
    destruct (constant_tracks_loop es (i + 16)) as [b | |] eqn:E2; cbn [bindo]; try discriminate. intros [= <-].
    destruct (IH _ _ E2) as (g2 & -> & <- & F2). cbn [bindo]. exists (a :: g2). split; [reflexivity |].
    split; [reflexivity |]. constructor; [| exact F2].
    rewrite (walk5 0x40 30) in E; [| auto | apply and_not_lt; [reflexivity | exact He]].
    injection E as <-. rewrite map_length. unfold hits.
    etransitivity; [apply filter_len |]. rewrite seq_length. lia.
Qed.
