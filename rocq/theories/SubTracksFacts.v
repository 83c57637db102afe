(** Facts about the packed sub-track types. *)
From Coq Require Import Lia.
From Verif Require Import Word WordFacts BitSpec BitManip BitManipFacts SubTracks SeekSpec.

(** the entry [e] holds the types [l] (at most 16 of them), first type in the top bits *)
Definition packs (e : N) (l : list N) : Prop :=
  e < 2 ^ 32 /\ forall b, b < 32 -> N.testbit e b = N.testbit (nth (15 - N.to_nat (b / 2)) l 0) (b mod 2).

Inductive packed : list N -> list N -> Prop :=
| packed_nil : packed [] []
| packed_last e l : packs e l -> (1 <= length l <= 16)%nat -> packed [e] l
| packed_full e l es ts : packs e l -> length l = 16%nat -> packed es ts -> es <> [] -> packed (e :: es) (l ++ ts).

Lemma packs_nil : packs 0 [].
Proof. split; [reflexivity |]. intros b Hb. rewrite N.bits_0. destruct (15 - N.to_nat (b / 2))%nat; now rewrite N.bits_0. Qed.

Lemma type_bits t i : t <= 2 -> 2 <= i -> N.testbit t i = false.
Proof. intros. apply (testbit_high t 2); [change (2 ^ 2) with 4; lia | auto]. Qed.

Lemma packs_snoc e l t idx : packs e l -> (length l < 16)%nat -> t <= 2 -> idx mod 16 = N.of_nat (length l) ->
  packs (N.lor e (shlw 32 t ((15 - idx mod 16) * 2))) (l ++ [t]).
Proof.
  intros [He Hb] Hl Ht Hi. rewrite Hi. set (s := (15 - N.of_nat (length l)) * 2).
  split.
  - apply testbit_lt. intros i Hi'. rewrite N.lor_spec, testbit_shlw, (testbit_high e 32 He i Hi').
    destruct (N.ltb_spec i 32); [lia | reflexivity].
  - intros b Hb32. rewrite N.lor_spec, testbit_shlw, Hb by auto.
    assert (L32 : (b <? 32) = true) by (apply N.ltb_lt; auto). rewrite L32. rewrite andb_true_l.
    pose proof (N.div_mod b 2 ltac:(lia)) as DM. pose proof (N.mod_lt b 2 ltac:(lia)) as ML.
    set (q := b / 2) in *. set (r := b mod 2) in *. clearbody q r.
    destruct (lt_eq_lt_dec (15 - N.to_nat q) (length l)) as [[C | C] | C].
    + rewrite app_nth1 by auto.
      destruct (N.leb_spec s b); [| rewrite orb_false_r; reflexivity].
      rewrite (type_bits t (b - s)) by (unfold s; lia). rewrite andb_false_r, orb_false_r. reflexivity.
    + rewrite (nth_overflow l) by lia. rewrite app_nth2 by lia. rewrite C, Nat.sub_diag. cbn [nth]. rewrite N.bits_0.
      assert (b - s = r) as -> by (unfold s; lia).
      assert ((s <=? b) = true) as -> by (apply N.leb_le; unfold s; lia). reflexivity.
    + rewrite !nth_overflow by (rewrite ?app_length; cbn [length]; lia). rewrite !N.bits_0.
      assert ((s <=? b) = false) as -> by (apply N.leb_gt; unfold s; lia). reflexivity.
Qed.

Lemma pack_types_loop_packed types : forall p idx e, Forall (fun t => t <= 2) types ->
  packs e p -> (length p <= 16)%nat -> (idx + 16) mod 16 = N.of_nat (length p) mod 16 ->
  packed (pack_types_loop types idx (N.of_nat (length p)) e) (p ++ types).
Proof.
  induction types as [| t rest IH]; intros p idx e Ht Hp Hl Hi.
  - cbn [pack_types_loop]. rewrite app_nil_r. destruct (N.eqb_spec (N.of_nat (length p)) 0) as [E | E]; simpl.
    + destruct p; [constructor | simpl in E; lia].
    + apply packed_last; auto. lia.
  - inversion Ht as [| ? ? Ht1 Ht2]; subst. cbn [pack_types_loop].
    rewrite (N.add_mod idx 16 16), N.mod_same, N.add_0_r, N.mod_mod in Hi by lia.
    destruct (N.eqb_spec (N.of_nat (length p)) 16) as [E | E].
    + assert (Lp : length p = 16%nat) by lia.
      assert (I0 : idx mod 16 = 0) by (rewrite Hi, E; reflexivity).
      assert (X : packed (pack_types_loop rest (idx + 1) (0 + 1) (N.lor 0 (shlw 32 t ((15 - idx mod 16) * 2)))) ([t] ++ rest)).
      { apply (IH [t] (idx + 1) (N.lor 0 (shlw 32 t ((15 - idx mod 16) * 2)))); auto; [| simpl; lia |].
        - apply (packs_snoc 0 [] t idx); auto using packs_nil. simpl. lia.
        - simpl length. rewrite (N.add_mod (idx + 1)), N.mod_same, N.add_0_r, N.mod_mod by lia.
          rewrite (N.add_mod idx 1), I0 by lia. reflexivity. }
      simpl app at 1. apply (packed_full e p _ (t :: rest)); auto.
      intro N0. rewrite N0 in X. inversion X.
    + simpl app at 1.
      replace (N.of_nat (length p) + 1) with (N.of_nat (length (p ++ [t]))) by (rewrite app_length; simpl; lia).
      replace (p ++ t :: rest) with ((p ++ [t]) ++ rest) by (rewrite <- app_assoc; reflexivity).
      assert (Im : idx mod 16 = N.of_nat (length p)) by (rewrite Hi; apply N.mod_small; lia).
      apply IH; auto.
      * apply packs_snoc; auto; lia.
      * rewrite app_length. simpl. lia.
      * rewrite app_length. simpl length.
        rewrite (N.add_mod (idx + 1)), N.mod_same, N.add_0_r, N.mod_mod by lia.
        rewrite (N.add_mod idx 1), Im by lia. rewrite Nat2N.inj_add. change (1 mod 16) with (N.of_nat 1). reflexivity.
Qed.

Lemma write_packed types : Forall (fun t => t <= 2) types -> packed (write_packed_sub_track_types types) types.
Proof. intro H. apply (pack_types_loop_packed types [] 0 0); auto using packs_nil. simpl; lia. Qed.

Lemma packed_length es ts : packed es ts -> N.of_nat (length es) = num_sub_track_entries (N.of_nat (length ts)).
Proof.
  unfold num_sub_track_entries. induction 1.
  - reflexivity.
  - change (N.of_nat (length [e])) with 1. apply (N.div_unique _ 16 1 (N.of_nat (length l) - 1)); lia.
  - simpl length at 1. rewrite app_length, H0, Nat2N.inj_succ, IHpacked.
    replace (N.of_nat (16 + length ts) + 16 - 1) with (1 * 16 + (N.of_nat (length ts) + 16 - 1)) by lia.
    rewrite N.div_add_l by lia. lia.
Qed.

(** walking *)
Lemma land_pow2_test g k : negb (N.land g (2 ^ k) =? 0) = N.testbit g k.
Proof.
  destruct (N.testbit g k) eqn:E.
  - apply negb_true_iff, N.eqb_neq. intro Z. assert (N.testbit (N.land g (2 ^ k)) k = false) by (rewrite Z; apply N.bits_0).
    rewrite N.land_spec, testbit_pow2, N.eqb_refl, E in H. discriminate.
  - apply negb_false_iff, N.eqb_eq. apply N.bits_inj. intro i. rewrite N.land_spec, testbit_pow2, N.bits_0.
    destruct (N.eqb_spec i k) as [-> | _]; [rewrite E; reflexivity | apply andb_false_r].
Qed.

Definition hits (w hb : N) (n : nat) : list nat := filter (fun j => N.testbit w (hb - 2 * N.of_nat j)) (seq 0 n).

Lemma filter_map_S {A B} (f : A -> B) (p : B -> bool) l : filter p (map f l) = map f (filter (fun x => p (f x)) l).
Proof. induction l; simpl; auto. destruct (p (f a)); simpl; now rewrite IHl. Qed.

Lemma seq_from n s : seq s n = map (fun j => (s + j)%nat) (seq 0 n).
Proof.
  revert s. induction n; intro s; simpl; auto. rewrite (IHn (S s)), (IHn 1%nat), map_map. f_equal; [lia |].
  apply map_ext. intro; lia.
Qed.

Lemma seq_shift4 n : seq 4 n = map (fun j => (4 + j)%nat) (seq 0 n).
Proof. apply seq_from. Qed.

Lemma walk_groups_spec hi hb : (hi = 0x80 /\ hb = 31) \/ (hi = 0x40 /\ hb = 30) ->
  forall f extra w i, w < 2 ^ 32 -> (f <= 4)%nat -> (forall b, b < 32 - 8 * N.of_nat f -> N.testbit w b = false) ->
  walk_groups (f + extra) hi w i = Ok (map (fun j => i + N.of_nat j) (hits w hb (4 * f))).
Proof.
  intros Hh. induction f; intros extra w i Hw Hf Hz.
  - assert (w = 0) as ->.
    { apply N.bits_inj. intro b. rewrite N.bits_0. destruct (N.lt_ge_cases b 32).
      - apply Hz. simpl. lia. - apply (testbit_high w 32); auto. }
    simpl. destruct extra; reflexivity.
  - simpl Nat.add. cbn [walk_groups]. destruct (N.eqb_spec w 0) as [-> | Hw0].
    { unfold hits. replace (filter _ _) with (@nil nat); [reflexivity |].
      symmetry. induction (seq 0 (4 * S f)); simpl; auto; rewrite ?N.bits_0; auto. }
    assert (Hf4 : (f <= 3)%nat) by lia.
    rewrite IHf; [| apply shlw_lt | lia |].
    2: { intros b Hb. rewrite testbit_shlw. destruct (N.leb_spec 8 b); [| rewrite andb_false_r; reflexivity].
         rewrite Hz by lia. apply andb_false_r. }
    cbn [bindo]. f_equal.
    assert (G : forall s, s = 0 \/ s = 2 \/ s = 4 \/ s = 6 -> group_bit w hi s = N.testbit w (hb - s)).
    { intros s Hs. unfold group_bit. destruct Hh as [[-> ->] | [-> ->]]; destruct Hs as [-> | [-> | [-> | ->]]];
        rewrite <- land_pow2_test; reflexivity. }
    rewrite !G by tauto. clear G.
    assert (H4 : hits w hb (4 * S f) = filter (fun j => N.testbit w (hb - 2 * N.of_nat j)) [0; 1; 2; 3]%nat
                 ++ map (fun j => (4 + j)%nat) (hits (shlw 32 w 8) hb (4 * f))).
    { unfold hits. replace (4 * S f)%nat with (4 + 4 * f)%nat by lia. rewrite seq_app, filter_app.
      f_equal. simpl Nat.add. rewrite seq_shift4, filter_map_S. f_equal. apply filter_ext_in. intros j Hj. apply in_seq in Hj.
      rewrite testbit_shlw. replace (hb - 2 * N.of_nat j - 8) with (hb - 2 * N.of_nat (4 + j)) by lia.
      assert ((hb - 2 * N.of_nat j <? 32) = true) as -> by (apply N.ltb_lt; destruct Hh as [[_ ->] | [_ ->]]; lia).
      assert ((8 <=? hb - 2 * N.of_nat j) = true) as -> by (apply N.leb_le; destruct Hh as [[_ ->] | [_ ->]]; lia).
      reflexivity. }
    rewrite H4, map_app, map_map. f_equal.
    + match goal with |- (if ?c then _ else _) = _ => destruct c eqn:C end.
      * apply N.eqb_eq in C.
        assert (Z : forall s, s = 0 \/ s = 2 \/ s = 4 \/ s = 6 -> N.testbit w (hb - s) = false).
        { intros s Hs. destruct (N.testbit w (hb - s)) eqn:T; auto. exfalso.
          match type of C with N.land w ?m = 0 => assert (N.testbit (N.land w m) (hb - s) = false) as X by (rewrite C; apply N.bits_0);
            rewrite N.land_spec, T, andb_true_l in X end.
          destruct Hh as [[-> ->] | [-> ->]]; destruct Hs as [-> | [-> | [-> | ->]]]; discriminate X. }
        assert (FZ : filter (fun j => N.testbit w (hb - 2 * N.of_nat j)) [0; 1; 2; 3]%nat = []).
        { cbn [filter]. change (2 * N.of_nat 0) with 0. change (2 * N.of_nat 1) with 2. change (2 * N.of_nat 2) with 4. change (2 * N.of_nat 3) with 6.
          rewrite !Z by tauto. reflexivity. }
        rewrite FZ. reflexivity.
      * cbn [filter]. change (2 * N.of_nat 0) with 0. change (2 * N.of_nat 1) with 2. change (2 * N.of_nat 2) with 4. change (2 * N.of_nat 3) with 6.
        destruct (N.testbit w (hb - 0)), (N.testbit w (hb - 2)), (N.testbit w (hb - 4)), (N.testbit w (hb - 6)); reflexivity.
    + apply map_ext. intro j. lia.
Qed.

Lemma walk5 hi hb w i : (hi = 0x80 /\ hb = 31) \/ (hi = 0x40 /\ hb = 30) -> w < 2 ^ 32 ->
  walk_groups 5 hi w i = Ok (map (fun j => i + N.of_nat j) (hits w hb 16)).
Proof.
  intros Hh Hw. change 5%nat with (4 + 1)%nat. rewrite (walk_groups_spec hi hb Hh 4 1 w i Hw); [reflexivity | lia |].
  intros b Hb. change (32 - 8 * N.of_nat 4) with 0 in Hb. lia.
Qed.

(** the arithmetic trick for default sub-tracks *)
Fixpoint fives (k : nat) : N := match k with O => 0 | S k' => 1 + 4 * fives k' end.
Definition lane_free3 (k : nat) (e : N) := forall i, i < N.of_nat k -> N.testbit e (2 * i) && N.testbit e (2 * i + 1) = false.

Lemma testbit_4 x d i : d < 4 -> N.testbit (4 * x + d) i = if i <? 2 then N.testbit d i else N.testbit x (i - 2).
Proof.
  intros Hd. destruct (N.ltb_spec i 2) as [C | C].
  - assert (d = (4 * x + d) mod 2 ^ 2).
    { change (2 ^ 2) with 4. rewrite N.add_comm, N.mul_comm, N.mod_add by lia. symmetry. apply N.mod_small; auto. }
    rewrite H at 2. rewrite testbit_mod_pow2. destruct (N.ltb_spec i 2); [reflexivity | lia].
  - replace i with (i - 2 + 2) at 1 by lia. rewrite <- testbit_shiftr. f_equal. rewrite N.shiftr_div_pow2.
    change (2 ^ 2) with 4. rewrite N.mul_comm, N.div_add_l by lia. rewrite N.div_small; lia.
Qed.

Lemma default_lanes k : forall e, e < 4 ^ N.of_nat k -> lane_free3 k e ->
  fives k + e <= 4 ^ N.of_nat k - 1 /\
  forall i, i < N.of_nat k ->
    N.testbit (4 ^ N.of_nat k - 1 - e - fives k) (2 * i + 1) = negb (N.testbit e (2 * i)) && negb (N.testbit e (2 * i + 1)).
Proof.
  induction k; intros e He Hl.
  - simpl in *. split; [lia | intros; lia].
  - rewrite Nat2N.inj_succ, N.pow_succ_r' in *.
    assert (D : e = 4 * (e / 4) + e mod 4) by (apply N.div_mod; lia).
    pose proof (N.mod_lt e 4 ltac:(lia)) as ML.
    set (x := e / 4) in *. set (d := e mod 4) in *.
    assert (TB : forall i, N.testbit e i = if i <? 2 then N.testbit d i else N.testbit x (i - 2)) by (intro i; rewrite D; apply testbit_4; auto).
    clearbody x d.
    assert (D2 : d <= 2).
    { specialize (Hl 0 ltac:(lia)). rewrite !TB in Hl. simpl in Hl.
      assert (d = 0 \/ d = 1 \/ d = 2 \/ d = 3) as [-> | [-> | [-> | ->]]] by lia; try lia. discriminate Hl. }
    assert (Hx : lane_free3 k x).
    { intros i Hi. specialize (Hl (i + 1) ltac:(lia)). rewrite !TB in Hl.
      destruct (N.ltb_spec (2 * (i + 1)) 2); [lia |]. destruct (N.ltb_spec (2 * (i + 1) + 1) 2); [lia |].
      replace (2 * (i + 1) - 2) with (2 * i) in Hl by lia. replace (2 * (i + 1) + 1 - 2) with (2 * i + 1) in Hl by lia. exact Hl. }
    destruct (IHk x) as [I1 I2]; [lia | auto |].
    set (P := 4 ^ N.of_nat k) in *. assert (1 <= P) by (unfold P; change 1 with (4 ^ 0); apply N.pow_le_mono_r; lia).
    cbn [fives]. split; [lia |]. intros i Hi.
    replace (4 * P - 1 - e - (1 + 4 * fives k)) with (4 * (P - 1 - x - fives k) + (2 - d)) by lia.
    rewrite testbit_4 by lia. rewrite !TB.
    destruct (N.eq_dec i 0) as [-> | Hi0].
    + simpl. assert (d = 0 \/ d = 1 \/ d = 2) as [-> | [-> | ->]] by lia; reflexivity.
    + destruct (N.ltb_spec (2 * i + 1) 2); [lia |]. destruct (N.ltb_spec (2 * i) 2); [lia |].
      replace (2 * i + 1 - 2) with (2 * (i - 1) + 1) by lia. replace (2 * i - 2) with (2 * (i - 1)) by lia.
      apply I2. lia.
Qed.

Lemma type_eq t c : t <= 2 -> c <= 2 -> (N.testbit t 0 = N.testbit c 0 /\ N.testbit t 1 = N.testbit c 1) -> t = c.
Proof.
  intros H1 H2 [A B]. assert (t = 0 \/ t = 1 \/ t = 2) as [-> | [-> | ->]] by lia;
  assert (c = 0 \/ c = 1 \/ c = 2) as [-> | [-> | ->]] by lia; try reflexivity; discriminate.
Qed.

Definition types_ok (l : list N) := Forall (fun t => t <= 2) l.
Lemma types_nth l j : types_ok l -> nth j l 0 <= 2.
Proof.
  intro H. destruct (Nat.lt_ge_cases j (length l)).
  - unfold types_ok in H. rewrite Forall_forall in H. apply H, nth_In; auto.
  - rewrite nth_overflow by auto. lia.
Qed.

Lemma packs_bit e l j : packs e l -> (j < 16)%nat ->
  N.testbit e (31 - 2 * N.of_nat j) = N.testbit (nth j l 0) 1 /\ N.testbit e (30 - 2 * N.of_nat j) = N.testbit (nth j l 0) 0.
Proof.
  intros [_ H] Hj. rewrite !H by lia.
  assert (E1 : (31 - 2 * N.of_nat j) / 2 = 15 - N.of_nat j) by (symmetry; apply (N.div_unique _ 2 _ 1); lia).
  assert (E2 : (31 - 2 * N.of_nat j) mod 2 = 1) by (symmetry; apply (N.mod_unique _ 2 (15 - N.of_nat j)); lia).
  assert (E3 : (30 - 2 * N.of_nat j) / 2 = 15 - N.of_nat j) by (symmetry; apply (N.div_unique _ 2 _ 0); lia).
  assert (E4 : (30 - 2 * N.of_nat j) mod 2 = 0) by (symmetry; apply (N.mod_unique _ 2 (15 - N.of_nat j)); lia).
  rewrite E1, E2, E3, E4. replace (15 - N.to_nat (15 - N.of_nat j))%nat with j by lia. auto.
Qed.

Lemma default_mask_bit e l pm j : packs e l -> types_ok l -> (j < 16)%nat ->
  N.testbit (default_mask e pm) (31 - 2 * N.of_nat j) = (nth j l 0 =? 0) && N.testbit pm (31 - 2 * N.of_nat j).
Proof.
  intros Hp Ht Hj. unfold default_mask. rewrite !N.land_spec. f_equal.
  destruct Hp as [He Hb].
  assert (L3 : lane_free3 16 e).
  { intros i Hi. change (N.of_nat 16) with 16 in Hi.
    pose proof (packs_bit e l (15 - N.to_nat i) (conj He Hb) ltac:(lia)) as [A B].
    replace (31 - 2 * N.of_nat (15 - N.to_nat i)) with (2 * i + 1) in A by lia.
    replace (30 - 2 * N.of_nat (15 - N.to_nat i)) with (2 * i) in B by lia.
    rewrite A, B. pose proof (types_nth l (15 - N.to_nat i) Ht).
    assert (nth (15 - N.to_nat i) l 0 = 0 \/ nth (15 - N.to_nat i) l 0 = 1 \/ nth (15 - N.to_nat i) l 0 = 2) as [-> | [-> | ->]] by lia; reflexivity. }
  destruct (default_lanes 16 e He L3) as [D1 D2].
  change (4 ^ N.of_nat 16) with (2 ^ 32) in *. change (fives 16) with 0x55555555 in *.
  rewrite notw_sub by auto. rewrite subw_ge by lia.
  pose proof (packs_bit e l j (conj He Hb) Hj) as [A B].
  assert (M : N.testbit 0xAAAAAAAA (31 - 2 * N.of_nat j) = true).
  { do 16 (destruct j as [| j]; [reflexivity |]). lia. }
  rewrite M, andb_true_r.
  replace (31 - 2 * N.of_nat j) with (2 * (15 - N.of_nat j) + 1) in * by lia.
  replace (30 - 2 * N.of_nat j) with (2 * (15 - N.of_nat j)) in * by lia.
  rewrite D2 by lia. rewrite A, B.
  pose proof (types_nth l j Ht). assert (nth j l 0 = 0 \/ nth j l 0 = 1 \/ nth j l 0 = 2) as [-> | [-> | ->]] by lia; reflexivity.
Qed.

Lemma default_mask_lt e pm : pm < 2 ^ 32 -> default_mask e pm < 2 ^ 32.
Proof. intro H. apply testbit_lt. intros i Hi. unfold default_mask. rewrite N.land_spec, (testbit_high pm 32 H i Hi). apply andb_false_r. Qed.

(** the same with a base and cut to entry size *)
Lemma hits_class w hb l c i : (length l <= 16)%nat ->
  (forall j, (j < 16)%nat -> N.testbit w (hb - 2 * N.of_nat j) = (j <? length l)%nat && (nth j l 3 =? c)) ->
  map (fun j => i + N.of_nat j) (hits w hb 16) = map (fun x => i + x) (tracks_of c l).
Proof.
  intros Hl H. unfold tracks_of, hits. rewrite map_map.
  replace 16%nat with (length l + (16 - length l))%nat by lia.
  rewrite seq_app, filter_app.
  replace (filter _ (seq (0 + length l) (16 - length l))) with (@nil nat).
  - rewrite app_nil_r. f_equal. apply filter_ext_in. intros j Hj. apply in_seq in Hj.
    rewrite H by lia. assert ((j <? length l)%nat = true) as -> by (apply Nat.ltb_lt; lia). reflexivity.
  - symmetry. assert (X : forall q, (forall j, In j q -> (length l <= j < 16)%nat) -> filter (fun j => N.testbit w (hb - 2 * N.of_nat j)) q = []).
    { induction q as [| a q IH]; intros Hq; simpl; auto.
      rewrite H by (specialize (Hq a (or_introl eq_refl)); lia).
      assert ((a <? length l)%nat = false) as -> by (apply Nat.ltb_ge; specialize (Hq a (or_introl eq_refl)); lia).
      simpl. apply IH. intros; apply Hq; right; auto. }
    apply X. intros j Hj. apply in_seq in Hj. lia.
Qed.

Lemma tracks_of_app c a b : tracks_of c (a ++ b) = tracks_of c a ++ map (fun x => N.of_nat (length a) + x) (tracks_of c b).
Proof.
  unfold tracks_of. rewrite app_length, seq_app, filter_app, map_app. f_equal.
  - f_equal. apply filter_ext_in. intros i Hi. apply in_seq in Hi. rewrite app_nth1 by lia. reflexivity.
  - rewrite Nat.add_0_l, seq_from, filter_map_S, !map_map.
    rewrite (filter_ext_in _ (fun i => nth i b 3 =? c)).
    + apply map_ext. intro. lia.
    + intros i Hi. rewrite app_nth2 by lia. f_equal. f_equal. lia.
Qed.

Lemma nth_default l j d d' : (j < length l)%nat -> nth j l d = nth j l d' :> N.
Proof. intro. apply nth_indep; auto. Qed.

Lemma full_class_bits w hb l c : (forall j, (j < 16)%nat -> N.testbit w (hb - 2 * N.of_nat j) = (nth j l 0 =? c)) ->
  c <> 0 -> forall j, (j < 16)%nat -> N.testbit w (hb - 2 * N.of_nat j) = (j <? length l)%nat && (nth j l 3 =? c).
Proof.
  intros H Hc j Hj. rewrite H by auto. destruct (Nat.ltb_spec j (length l)).
  - rewrite (nth_default l j 0 3) by auto. reflexivity.
  - rewrite nth_overflow by auto. simpl. apply N.eqb_neq. auto.
Qed.

Lemma animated_bits e l : packs e l -> types_ok l -> forall j, (j < 16)%nat ->
  N.testbit (and_not (notw 32 0xAAAAAAAA) e) (31 - 2 * N.of_nat j) = (nth j l 0 =? 2).
Proof.
  intros Hp Ht j Hj. destruct Hp as [He Hb]. rewrite testbit_and_not; [| reflexivity | auto].
  destruct (packs_bit e l j (conj He Hb) Hj) as [A _]. rewrite A.
  assert (M : negb (N.testbit (notw 32 0xAAAAAAAA) (31 - 2 * N.of_nat j)) = true) by (do 16 (destruct j as [| j]; [reflexivity |]); lia).
  rewrite M. pose proof (types_nth l j Ht). assert (nth j l 0 = 0 \/ nth j l 0 = 1 \/ nth j l 0 = 2) as [-> | [-> | ->]] by lia; reflexivity.
Qed.

Lemma constant_bits e l : packs e l -> types_ok l -> forall j, (j < 16)%nat ->
  N.testbit (and_not (notw 32 0x55555555) e) (30 - 2 * N.of_nat j) = (nth j l 0 =? 1).
Proof.
  intros Hp Ht j Hj. destruct Hp as [He Hb]. rewrite testbit_and_not; [| reflexivity | auto].
  destruct (packs_bit e l j (conj He Hb) Hj) as [_ A]. rewrite A.
  assert (M : negb (N.testbit (notw 32 0x55555555) (30 - 2 * N.of_nat j)) = true) by (do 16 (destruct j as [| j]; [reflexivity |]); lia).
  rewrite M. pose proof (types_nth l j Ht). assert (nth j l 0 = 0 \/ nth j l 0 = 1 \/ nth j l 0 = 2) as [-> | [-> | ->]] by lia; reflexivity.
Qed.

Lemma and_not_lt a b : a < 2 ^ 32 -> b < 2 ^ 32 -> and_not a b < 2 ^ 32.
Proof. intros Ha Hb. apply testbit_lt. intros i Hi. rewrite testbit_and_not, (testbit_high b 32 Hb i Hi) by auto. apply andb_false_r. Qed.

Lemma map_add_add (i a : N) l : map (fun x => i + x) (map (fun x => a + x) l) = map (fun x => i + a + x) l.
Proof. rewrite map_map. apply map_ext. intro; lia. Qed.

Lemma animated_loop_spec es ts : packed es ts -> types_ok ts -> forall i,
  animated_tracks_loop es i = Ok (map (fun x => i + x) (tracks_of 2 ts)).
Proof.
  induction 1 as [| e l Hp Hl | e l es ts Hp Hl Hpk IH Hne]; intros Ht i.
  - reflexivity.
  - cbn [animated_tracks_loop]. rewrite (walk5 0x80 31); [| auto | apply and_not_lt; [reflexivity | apply Hp]].
    cbn [bindo]. rewrite app_nil_r. f_equal. apply hits_class; [lia |]. apply full_class_bits; [| lia]. apply animated_bits; auto.
  - apply Forall_app in Ht as [Ht1 Ht2]. cbn [animated_tracks_loop].
    rewrite (walk5 0x80 31); [| auto | apply and_not_lt; [reflexivity | apply Hp]]. cbn [bindo].
    rewrite IH by auto. cbn [bindo]. rewrite tracks_of_app, map_app, map_add_add, Hl. f_equal. f_equal.
    apply hits_class; [lia |]. apply full_class_bits; [| lia]. apply animated_bits; auto.
Qed.

Lemma constant_loop_spec es ts : packed es ts -> types_ok ts -> forall i,
  constant_tracks_loop es i = Ok (map (fun x => i + x) (tracks_of 1 ts)).
Proof.
  induction 1 as [| e l Hp Hl | e l es ts Hp Hl Hpk IH Hne]; intros Ht i.
  - reflexivity.
  - cbn [constant_tracks_loop]. rewrite (walk5 0x40 30); [| auto | apply and_not_lt; [reflexivity | apply Hp]].
    cbn [bindo]. rewrite app_nil_r. f_equal. apply hits_class; [lia |]. apply full_class_bits; [| lia]. apply constant_bits; auto.
  - apply Forall_app in Ht as [Ht1 Ht2]. cbn [constant_tracks_loop].
    rewrite (walk5 0x40 30); [| auto | apply and_not_lt; [reflexivity | apply Hp]]. cbn [bindo].
    rewrite IH by auto. cbn [bindo]. rewrite tracks_of_app, map_app, map_add_add, Hl. f_equal. f_equal.
    apply hits_class; [lia |]. apply full_class_bits; [| lia]. apply constant_bits; auto.
Qed.

(** padding mask: depends only on the count modulo 16 *)
Lemma testbit_ff i : N.testbit 0xFFFFFFFF i = (i <? 32).
Proof. change 0xFFFFFFFF with (2 ^ 32 - 1). apply testbit_ones_sub1. Qed.

Definition pad_ok (pm : N) (r : nat) := pm < 2 ^ 32 /\ forall j, (j < 16)%nat -> N.testbit pm (31 - 2 * N.of_nat j) = (j <? r)%nat.

Lemma default_padding_ok n r q : n = 16 * N.of_nat q + N.of_nat r -> (1 <= r <= 16)%nat -> pad_ok (default_padding_mask n) r.
Proof.
  intros -> Hr. unfold default_padding_mask.
  assert (E : num_sub_track_entries (16 * N.of_nat q + N.of_nat r) = N.of_nat q + 1).
  { unfold num_sub_track_entries. symmetry. apply (N.div_unique _ 16 _ (N.of_nat r - 1)); lia. }
  rewrite E. replace ((N.of_nat q + 1) * 16 - (16 * N.of_nat q + N.of_nat r)) with (16 - N.of_nat r) by lia.
  destruct (N.eqb_spec (16 - N.of_nat r) 0) as [Z | Z]; simpl negb; cbv iota.
  - split; [reflexivity |]. intros j Hj. rewrite testbit_ff.
    assert ((31 - 2 * N.of_nat j <? 32) = true) as -> by (apply N.ltb_lt; lia). symmetry. apply Nat.ltb_lt. lia.
  - assert (S : N.shiftr 0xFFFFFFFF ((16 - (16 - N.of_nat r)) * 2) < 2 ^ 32).
    { apply testbit_lt. intros i Hi. rewrite testbit_shiftr, testbit_ff. apply N.ltb_ge. lia. }
    split; [apply notw_lt; auto |]. intros j Hj. rewrite testbit_notw by auto. rewrite testbit_shiftr, testbit_ff.
    assert ((31 - 2 * N.of_nat j <? 32) = true) as -> by (apply N.ltb_lt; lia). rewrite andb_true_l.
    destruct (N.ltb_spec (31 - 2 * N.of_nat j + (16 - (16 - N.of_nat r)) * 2) 32); destruct (Nat.ltb_spec j r); try reflexivity; lia.
Qed.

Lemma default_last_bits e l pm : packs e l -> types_ok l -> pad_ok pm (length l) -> forall j, (j < 16)%nat ->
  N.testbit (default_mask e pm) (31 - 2 * N.of_nat j) = (j <? length l)%nat && (nth j l 3 =? 0).
Proof.
  intros Hp Ht [_ Hpad] j Hj. rewrite (default_mask_bit e l) by auto. rewrite Hpad by auto. rewrite andb_comm.
  destruct (Nat.ltb_spec j (length l)); [| reflexivity]. rewrite (nth_default l j 0 3) by auto. reflexivity.
Qed.

Lemma default_loop_spec es ts : packed es ts -> types_ok ts -> forall n q i,
  n = 16 * N.of_nat q + N.of_nat (length ts) ->
  default_tracks_loop es (default_padding_mask n) i = Ok (map (fun x => i + x) (tracks_of 0 ts)).
Proof.
  induction 1 as [| e l Hp Hl | e l es ts Hp Hl Hpk IH Hne]; intros Ht n q i Hn.
  - reflexivity.
  - cbn [default_tracks_loop].
    assert (P : pad_ok (default_padding_mask n) (length l)) by (eapply default_padding_ok; eauto).
    rewrite (walk5 0x80 31); [| auto | apply default_mask_lt; apply P].
    cbn [bindo]. rewrite app_nil_r. f_equal. apply hits_class; [lia |]. apply default_last_bits; auto.
  - apply Forall_app in Ht as [Ht1 Ht2]. cbn [default_tracks_loop].
    destruct es as [| e' es]; [congruence |].
    rewrite (walk5 0x80 31); [| auto | apply default_mask_lt; reflexivity]. cbn [bindo].
    rewrite (IH Ht2 n (S q)) by (rewrite app_length, Hl in Hn; lia). cbn [bindo]. rewrite tracks_of_app, map_app, map_add_add, Hl. f_equal. f_equal.
    apply hits_class; [lia |]. apply default_last_bits; auto. rewrite Hl. split; [reflexivity |].
    intros j Hj. rewrite testbit_ff. assert ((31 - 2 * N.of_nat j <? 32) = true) as -> by (apply N.ltb_lt; lia). symmetry. apply Nat.ltb_lt. lia.
Qed.

Lemma map_add_0 l : map (fun x => 0 + x) l = l.
Proof. rewrite <- (map_id l) at 2. apply map_ext. reflexivity. Qed.

Theorem walk_classes types : Forall (fun t => t <= 2) types ->
  let entries := write_packed_sub_track_types types in
  N.of_nat (length entries) = num_sub_track_entries (N.of_nat (length types)) /\
  default_tracks (N.of_nat (length types)) entries = Ok (tracks_of 0 types) /\
  constant_tracks entries = Ok (tracks_of 1 types) /\
  animated_tracks entries = Ok (tracks_of 2 types).
Proof.
  intros Ht entries. pose proof (write_packed types Ht) as P. fold entries in P.
  split; [apply packed_length; auto |].
  split; [unfold default_tracks; rewrite (default_loop_spec entries types P Ht _ 0%nat) by lia; now rewrite map_add_0 |].
  split; [unfold constant_tracks; rewrite (constant_loop_spec entries types P Ht); now rewrite map_add_0 |].
  unfold animated_tracks; rewrite (animated_loop_spec entries types P Ht); now rewrite map_add_0.
Qed.

(** single track lookup *)
Lemma packed_lookup es ts : packed es ts -> forall k e, nth_error es k = Some e ->
  exists l, packs e l /\ l = firstn 16 (skipn (16 * k) ts) /\ (1 <= length l)%nat.
Proof.
  induction 1 as [| e l Hp Hl | e l es ts Hp Hl Hpk IH Hne]; intros k e' Hk.
  - destruct k; discriminate.
  - destruct k; [| destruct k; discriminate]. injection Hk as <-. exists l. rewrite Nat.mul_0_r. simpl skipn. rewrite firstn_all2 by lia. repeat split; try apply Hp. lia.
  - destruct k.
    + injection Hk as <-. exists l. rewrite Nat.mul_0_r. simpl skipn. rewrite firstn_app, Hl, Nat.sub_diag, <- Hl, firstn_all. simpl. rewrite app_nil_r. split; [auto | split; [auto |]]. lia.
    + destruct (IH k e' Hk) as (l' & L1 & L2 & L3). exists l'. split; auto. split; auto. rewrite L2. f_equal.
      replace (16 * S k)%nat with (length l + 16 * k)%nat by lia. rewrite skipn_app.
      rewrite (skipn_all2 l) by lia. cbn [app]. f_equal. lia.
Qed.

Lemma div16_nat i : N.to_nat (i / 16) = (N.to_nat i / 16)%nat.
Proof. rewrite N2Nat.inj_div. reflexivity. Qed.

Lemma sub_track_type_spec types i : types_ok types -> i < N.of_nat (length types) ->
  sub_track_type (write_packed_sub_track_types types) i = Ok (nth (N.to_nat i) types 0).
Proof.
  intros Ht Hi. pose proof (write_packed types Ht) as P. unfold sub_track_type.
  set (es := write_packed_sub_track_types types) in *.
  pose proof (packed_length es types P) as PL.
  pose proof (N.div_mod i 16 ltac:(lia)) as DM. pose proof (N.mod_lt i 16 ltac:(lia)) as ML.
  set (q := i / 16) in *. set (r := i mod 16) in *.
  assert (Lq : (N.to_nat q < length es)%nat).
  { assert (q + 1 <= num_sub_track_entries (N.of_nat (length types))); [| lia].
    unfold num_sub_track_entries. apply N.div_le_lower_bound; lia. }
  destruct (nth_error es (N.to_nat q)) as [e |] eqn:E; [| apply nth_error_None in E; lia].
  destruct (packed_lookup es types P _ _ E) as (l & L1 & L2 & L3).
  f_equal.
  assert (NL : nth (N.to_nat r) l 0 = nth (N.to_nat i) types 0).
  { rewrite L2, nth_firstn_lt, nth_skipn by lia. f_equal. lia. }
  rewrite <- NL. assert (Tl : types_ok l).
  { rewrite L2. unfold types_ok. apply Forall_forall. intros x Hx. unfold types_ok in Ht. rewrite Forall_forall in Ht. apply Ht.
    rewrite <- (firstn_skipn (16 * N.to_nat q) types). apply in_or_app. right. rewrite <- (firstn_skipn 16 (skipn _ types)). apply in_or_app. left. exact Hx. }
  destruct (packs_bit e l (N.to_nat r) L1 ltac:(lia)) as [A B]. rewrite N2Nat.id in A, B.
  apply N.bits_inj. intro b. rewrite N.land_spec, testbit_shiftr.
  replace 3 with (2 ^ 2 - 1) by reflexivity. rewrite testbit_ones_sub1.
  destruct (N.ltb_spec b 2).
  - rewrite andb_true_r. assert (b = 0 \/ b = 1) as [-> | ->] by lia.
    + replace (0 + (15 - r) * 2) with (30 - 2 * r) by lia. exact B.
    + replace (1 + (15 - r) * 2) with (31 - 2 * r) by lia. exact A.
  - rewrite andb_false_r. symmetry. apply type_bits; auto. apply types_nth; auto.
Qed.

(** counting *)
Lemma parity_count p : p <= 1 -> forall k w (g : nat -> bool),
  (forall b, (b < 2 * k)%nat -> N.testbit w (N.of_nat b) = (N.of_nat b mod 2 =? p) && g (k - 1 - b / 2)%nat) ->
  length (filter (fun b => N.testbit w (N.of_nat b)) (seq 0 (2 * k))) = length (filter g (seq 0 k)).
Proof.
  intros Hp. induction k; intros w g H; [reflexivity |].
  replace (2 * S k)%nat with (2 * k + 2)%nat by lia. rewrite seq_app, filter_app, app_length.
  replace (seq 0 (S k)) with ([0]%nat ++ map S (seq 0 k)) by (rewrite seq_shift; reflexivity).
  rewrite filter_app, app_length, filter_map_S, map_length, Nat.add_comm. f_equal.
  - rewrite Nat.add_0_l. cbn [seq filter].
    assert (D0 : (2 * k / 2 = k)%nat) by (rewrite Nat.mul_comm, Nat.div_mul; lia).
    assert (D1 : (S (2 * k) / 2 = k)%nat) by (symmetry; apply (Nat.div_unique _ 2 k 1); lia).
    rewrite !H by lia. rewrite D0, D1.
    assert (M0 : N.of_nat (2 * k) mod 2 = 0) by (symmetry; apply (N.mod_unique _ 2 (N.of_nat k)); lia).
    assert (M1 : N.of_nat (S (2 * k)) mod 2 = 1) by (symmetry; apply (N.mod_unique _ 2 (N.of_nat k)); lia).
    rewrite M0, M1. replace (S k - 1 - k)%nat with 0%nat by lia.
    assert (p = 0 \/ p = 1) as [-> | ->] by lia; simpl; destruct (g 0%nat); reflexivity.
  - apply (IHk w (fun j => g (S j))). intros b Hb. rewrite H by lia. f_equal. f_equal.
    assert (b / 2 < k)%nat by (apply Nat.div_lt_upper_bound; lia). lia.
Qed.

Lemma count_class e l pm mask c p r : packs e l -> types_ok l -> pm < 2 ^ 32 ->
  (mask = 0x55555555 /\ c = 1 /\ p = 0) \/ (mask = 0xAAAAAAAA /\ c = 2 /\ p = 1) ->
  (r <= 16)%nat -> (forall b, b < 32 -> N.testbit pm b = (b <? 32 - 2 * N.of_nat r)) ->
  count_set_bits32 (N.land (and_not pm e) mask) = N.of_nat (length (filter (N.eqb c) (firstn r l))).
Proof.
  intros [He Hb] Ht Hpm Hc Hr Hbits.
  assert (W : N.land (and_not pm e) mask < 2 ^ 32).
  { apply testbit_lt. intros i Hi. rewrite N.land_spec, (testbit_high _ 32 (and_not_lt pm e Hpm He) i Hi). reflexivity. }
  rewrite count_set_bits32_spec by auto. unfold num_set_bits. f_equal.
  change 32%nat with (2 * 16)%nat.
  rewrite (parity_count p ltac:(destruct Hc as [(_ & _ & ->) | (_ & _ & ->)]; lia) 16 _ (fun j => (j <? r)%nat && (nth j l 0 =? c))).
  - (* filter over indices = filter over the list *)
    assert (c <> 0) by (destruct Hc as [(_ & -> & _) | (_ & -> & _)]; lia).
    clear - H Hr. revert l r Hr. generalize 16%nat as k. induction k; intros l r Hr.
    + assert (r = 0)%nat as -> by lia. reflexivity.
    + replace (seq 0 (S k)) with ([0]%nat ++ map S (seq 0 k)) by (rewrite seq_shift; reflexivity).
      rewrite filter_app, app_length, filter_map_S, map_length.
      destruct r as [| r].
      * rewrite (filter_ext (fun x => (S x <? 0)%nat && _) (fun _ => false)) by reflexivity. cbn. clear. induction (seq 0 k); simpl; auto.
      * destruct l as [| t l].
        -- assert (F : forall q : list nat, filter (fun x => (S x <? S r)%nat && (nth (S x) (@nil N) 0 =? c)) q = []).
           { induction q; simpl; auto. rewrite andb_comm. destruct c; [congruence | exact IHq]. }
           rewrite F. simpl. destruct c; [congruence | reflexivity].
        -- simpl firstn. cbn [filter nth]. rewrite (filter_ext _ (fun j => (j <? r)%nat && (nth j l 0 =? c))) by (intro; reflexivity).
           rewrite (IHk l r) by lia. cbn [Nat.ltb Nat.leb andb]. rewrite (N.eqb_sym t c). destruct (c =? t); reflexivity.
  - intros b Hb32. assert (b' : N.of_nat b < 32) by lia. rewrite N.land_spec, testbit_and_not by auto.
    rewrite Hbits by auto. rewrite Hb by auto.
    assert (Q : (b / 2)%nat = N.to_nat (N.of_nat b / 2)) by (rewrite N2Nat.inj_div, Nat2N.id; reflexivity).
    rewrite Q. pose proof (N.div_mod (N.of_nat b) 2 ltac:(lia)) as DM. pose proof (N.mod_lt (N.of_nat b) 2 ltac:(lia)) as ML.
    assert (MK : N.testbit mask (N.of_nat b) = (N.of_nat b mod 2 =? p)).
    { clear - Hc Hb32. destruct Hc as [(-> & _ & ->) | (-> & _ & ->)]; do 32 (destruct b as [| b]; [reflexivity |]); lia. }
    rewrite MK.
    set (q := N.of_nat b / 2) in *. set (m := N.of_nat b mod 2) in *. clearbody q m.
    replace (16 - 1 - N.to_nat q)%nat with (15 - N.to_nat q)%nat by lia.
    replace (N.of_nat b <? 32 - 2 * N.of_nat r) with (negb (15 - N.to_nat q <? r)%nat).
    2:{ destruct (Nat.ltb_spec (15 - N.to_nat q) r), (N.ltb_spec (N.of_nat b) (32 - 2 * N.of_nat r)); try reflexivity; lia. }
    rewrite negb_involutive. set (z := (15 - N.to_nat q)%nat) in *. clearbody z. destruct (z <? r)%nat; [| simpl; rewrite ?andb_false_r; reflexivity].
    rewrite !andb_true_l.
    pose proof (types_nth l z Ht).
    assert (m = 0 \/ m = 1) as [-> | ->] by lia; destruct Hc as [(_ & -> & ->) | (_ & -> & ->)];
    assert (nth z l 0 = 0 \/ nth z l 0 = 1 \/ nth z l 0 = 2) as [-> | [-> | ->]] by lia; reflexivity.
Qed.

Lemma firstn_add {A} (l : list A) a b : firstn (a + b) l = firstn a l ++ firstn b (skipn a l).
Proof. revert l. induction a; intros l; simpl; auto. destruct l; simpl; [now rewrite firstn_nil | now rewrite IHa]. Qed.

Lemma firstn_sub {A} (l : list A) a b : (a <= b)%nat -> firstn a (firstn b l) = firstn a l.
Proof. intro. rewrite firstn_firstn, Nat.min_l; auto. Qed.

Lemma count_before_spec types c mask i : types_ok types -> N.of_nat (length types) < 2 ^ 32 -> i < N.of_nat (length types) ->
  (mask = 0x55555555 /\ c = 1) \/ (mask = 0xAAAAAAAA /\ c = 2) ->
  count_before (write_packed_sub_track_types types) mask i =
  Ok (N.of_nat (length (filter (N.eqb c) (firstn (N.to_nat i) types)))).
Proof.
  intros Ht Hlen Hi Hc. pose proof (write_packed types Ht) as P. unfold count_before.
  set (es := write_packed_sub_track_types types) in *.
  pose proof (packed_length es types P) as PL.
  pose proof (N.div_mod i 16 ltac:(lia)) as DM. pose proof (N.mod_lt i 16 ltac:(lia)) as ML.
  unfold track_padding_mask.
  set (q := i / 16) in *. set (r := i mod 16) in *.
  replace ((q + 1) * 16 - i) with (16 - r) by lia.
  destruct (N.eqb_spec (16 - r) 0) as [Z | _]; [lia |]. simpl negb. cbv iota.
  replace (16 - (16 - r)) with r by lia.
  assert (Lq : (N.to_nat q < length es)%nat).
  { assert (q + 1 <= num_sub_track_entries (N.of_nat (length types))); [| lia].
    unfold num_sub_track_entries. apply N.div_le_lower_bound; lia. }
  set (pmask := N.shiftr 0xFFFFFFFF (r * 2)).
  assert (PM : pmask < 2 ^ 32 /\ forall b, b < 32 -> N.testbit pmask b = (b <? 32 - 2 * N.of_nat (N.to_nat r))).
  { split.
    - apply testbit_lt. intros b Hb. unfold pmask. rewrite testbit_shiftr, testbit_ff. apply N.ltb_ge. lia.
    - intros b Hb. unfold pmask. rewrite testbit_shiftr, testbit_ff.
      destruct (N.ltb_spec (b + r * 2) 32), (N.ltb_spec b (32 - 2 * N.of_nat (N.to_nat r))); try reflexivity; lia. }
  assert (Z0 : forall b, b < 32 -> N.testbit 0 b = (b <? 32 - 2 * N.of_nat 16)).
  { intros b Hb. rewrite N.bits_0. symmetry. apply N.ltb_ge. lia. }
  assert (TY : forall k, types_ok (firstn 16 (skipn (16 * k) types))).
  { intro k. apply Forall_forall. intros x Hx. unfold types_ok in Ht. rewrite Forall_forall in Ht. apply Ht.
    rewrite <- (firstn_skipn (16 * k) types). apply in_or_app. right. rewrite <- (firstn_skipn 16 (skipn _ types)). apply in_or_app. left. exact Hx. }
  assert (Hc' : exists p, (mask = 0x55555555 /\ c = 1 /\ p = 0) \/ (mask = 0xAAAAAAAA /\ c = 2 /\ p = 1)).
  { destruct Hc as [[-> ->] | [-> ->]]; [exists 0 | exists 1]; auto. }
  destruct Hc' as [p Hc'].
  set (cnt := fun n => N.of_nat (length (filter (N.eqb c) (firstn n types)))).
  assert (CB : forall n, cnt n < 2 ^ 32).
  { intro n. unfold cnt. eapply N.le_lt_trans; [| exact Hlen].
    pose proof (filter_len_le (N.eqb c) (firstn n types)). rewrite firstn_length in H. lia. }
  assert (G : forall m k, (k + m = N.to_nat q + 1)%nat ->
     count_before_loop es mask pmask q (N.of_nat k) m (cnt (Nat.min (16 * k) (N.to_nat i))) = Ok (cnt (N.to_nat i))).
  { induction m; intros k Hk.
    - cbn [count_before_loop]. f_equal. f_equal. lia.
    - cbn [count_before_loop]. rewrite Nat2N.id.
      destruct (nth_error es k) as [e |] eqn:E; [| apply nth_error_None in E; lia].
      destruct (packed_lookup es types P _ _ E) as (l & L1 & L2 & L3).
      assert (Tl : types_ok l) by (rewrite L2; apply TY).
      replace (N.of_nat k + 1) with (N.of_nat (S k)) by lia.
      rewrite <- (IHm (S k)) by lia. f_equal.
      destruct (N.eqb_spec (N.of_nat k) q) as [Eq | Ne].
      + rewrite (count_class e l pmask mask c p (N.to_nat r) L1 Tl (proj1 PM) Hc' ltac:(lia) (proj2 PM)).
        assert (Q : N.of_nat (length (filter (N.eqb c) (firstn (N.to_nat r) l))) + cnt (Nat.min (16 * k) (N.to_nat i)) = cnt (Nat.min (16 * S k) (N.to_nat i))).
        { unfold cnt. replace (Nat.min (16 * k) (N.to_nat i)) with (16 * k)%nat by lia.
          replace (Nat.min (16 * S k) (N.to_nat i)) with (16 * k + N.to_nat r)%nat by lia.
          rewrite firstn_add, filter_app, app_length, L2, firstn_sub by lia. lia. }
        rewrite addw_small by (rewrite N.add_comm, Q; apply CB). rewrite N.add_comm. exact Q.
      + rewrite (count_class e l 0 mask c p 16 L1 Tl ltac:(reflexivity) Hc' ltac:(lia) Z0).
        assert (Q : N.of_nat (length (filter (N.eqb c) (firstn 16 l))) + cnt (Nat.min (16 * k) (N.to_nat i)) = cnt (Nat.min (16 * S k) (N.to_nat i))).
        { unfold cnt. replace (Nat.min (16 * k) (N.to_nat i)) with (16 * k)%nat by lia.
          replace (Nat.min (16 * S k) (N.to_nat i)) with (16 * k + 16)%nat by lia.
          rewrite firstn_add, filter_app, app_length, L2, firstn_sub by lia. lia. }
        rewrite addw_small by (rewrite N.add_comm, Q; apply CB). rewrite N.add_comm. exact Q. }
  replace (N.to_nat (q + 1)) with (N.to_nat q + 1)%nat by lia.
  specialize (G (N.to_nat q + 1)%nat 0%nat eq_refl). exact G.
Qed.
