From Coq Require Import Lia ZifyBool ZifyNat ZifyN.
From Verif Require Export WordFacts Headers.
Open Scope N_scope.

Lemma testbit_one i : N.testbit 1 i = (i =? 0).
Proof. destruct (N.eqb_spec i 0) as [E|E]; [subst i; reflexivity|]. apply (testbit_high 1 1); [reflexivity|lia]. Qed.

Definition fpos (f : hfield) : N :=
  match f with
  | HasScale => 0 | DefaultScale => 1 | ScaleFormat => 2 | TranslationFormat => 3 | RotationFormat => 4
  | HasDatabase => 8 | HasTrivialDefaults => 9 | HasStrippedKeyframes => 10 | IsWrapOptimized => 30 | HasMetadata => 31
  end.
Definition fwidth (f : hfield) : N := match f with RotationFormat => 4 | _ => 1 end.

Lemma testbit_set_gen misc pos width v i : misc < 2 ^ 32 -> pos + width <= 32 -> v < 2 ^ width ->
  N.testbit (N.lor (mask_out misc (shlw 32 (2 ^ width - 1) pos)) (shlw 32 v pos)) i =
  if (pos <=? i) && (i <? pos + width) then N.testbit v (i - pos) else N.testbit misc i.
Proof.
  intros Hm Hp Hv. unfold mask_out. rewrite N.lor_spec, N.land_spec.
  assert (HL : shlw 32 (2 ^ width - 1) pos < 2 ^ 32) by (unfold shlw; apply N.mod_lt; discriminate).
  rewrite testbit_notw by exact HL. rewrite !testbit_shlw. rewrite testbit_ones_sub1.
  destruct (N.leb_spec pos i), (N.ltb_spec i (pos + width)), (N.ltb_spec i 32); cbn [andb orb negb]; try lia.
  - destruct (N.ltb_spec (i - pos) width); [|lia]. cbn. rewrite andb_false_r. reflexivity.
  - destruct (N.ltb_spec (i - pos) width); [lia|]. cbn. rewrite andb_true_r.
    rewrite (testbit_high v width Hv (i - pos)) by lia. apply orb_false_r.
  - rewrite (testbit_high misc 32 Hm i) by lia. reflexivity.
  - rewrite andb_true_r. apply orb_false_r.
Qed.

Lemma hset_gen f misc v : hset f misc v =  N.lor (mask_out misc (shlw 32 (2 ^ fwidth f - 1) (fpos f))) (shlw 32 v (fpos f)) \/ f = HasScale.
Proof. destruct f; auto; left; reflexivity. Qed.

Lemma testbit_hset f misc v i : misc < 2 ^ 32 -> v < hcard f ->
  N.testbit (hset f misc v) i =
  if (fpos f <=? i) && (i <? fpos f + fwidth f) then N.testbit v (i - fpos f) else N.testbit misc i.
Proof.
  intros Hm Hv. assert (Hc : hcard f = 2 ^ fwidth f) by (destruct f; reflexivity). rewrite Hc in Hv.
  assert (Hp : fpos f + fwidth f <= 32) by (destruct f; discriminate).
  rewrite <- (testbit_set_gen misc _ _ v i Hm Hp Hv).
  destruct (hset_gen f misc v) as [-> | ->]; [reflexivity|].
  cbn [hset fwidth fpos] in *. unfold set_has_scale. do 2 f_equal.
  unfold shlw. rewrite N.shiftl_0_r. symmetry. apply N.mod_small. lia.
Qed.

Lemma hset_lt f misc v : misc < 2 ^ 32 -> v < hcard f -> hset f misc v < 2 ^ 32.
Proof.
  intros Hm Hv. apply testbit_lt. intros i Hi. rewrite testbit_hset by assumption.
  rewrite (testbit_high misc 32 Hm i Hi).
  destruct ((fpos f <=? i) && (i <? fpos f + fwidth f)) eqn:E; [|reflexivity].
  apply andb_true_iff in E as [E1 E2]. apply N.leb_le in E1. apply N.ltb_lt in E2.
  assert (fpos f + fwidth f <= 32) by (destruct f; discriminate). lia.
Qed.

Lemma testbit_b2n_flag misc k i : k < 32 -> N.testbit (b2n (negb (N.land misc (shlw 32 1 k) =? 0))) i = (i =? 0) && N.testbit misc k.
Proof.
  intros Hk. replace (shlw 32 1 k) with (2 ^ k).
  2:{ unfold shlw. rewrite N.shiftl_1_l. symmetry. apply N.mod_small. apply pow2_lt; exact Hk. }
  destruct (N.testbit misc k) eqn:E.
  - replace (N.land misc (2 ^ k) =? 0) with false.
    2:{ symmetry. apply N.eqb_neq. intros C.
        assert (X : N.testbit (N.land misc (2 ^ k)) k = true) by (rewrite N.land_spec, E, testbit_pow2, N.eqb_refl; reflexivity).
        rewrite C, N.bits_0 in X; discriminate. }
    cbn [negb b2n]. rewrite andb_true_r. rewrite testbit_one. reflexivity.
  - replace (N.land misc (2 ^ k)) with 0.
    2:{ symmetry. apply N.bits_inj; intros j. rewrite N.land_spec, testbit_pow2, N.bits_0.
        destruct (N.eqb_spec j k) as [->|]; [rewrite E; reflexivity|apply andb_false_r]. }
    cbn. rewrite andb_false_r. apply N.bits_0.
Qed.

Lemma testbit_hget f misc i : misc < 2 ^ 32 ->
  N.testbit (hget f misc) i = (i <? fwidth f) && N.testbit misc (i + fpos f).
Proof.
  intros Hm.
  assert (B : forall k, (i =? 0) && N.testbit misc k = (i <? 1) && N.testbit misc (i + k)).
  { intros k. destruct (N.eqb_spec i 0) as [E|E]; [subst i; reflexivity|]. destruct (N.ltb_spec i 1); [lia|reflexivity]. }
  assert (L : forall k, N.testbit (N.land (N.shiftr misc k) 1) i = (i <? 1) && N.testbit misc (i + k)).
  { intros k. rewrite N.land_spec, testbit_shiftr. change 1 with (2 ^ 1 - 1) at 1. rewrite testbit_ones_sub1. apply andb_comm. }
  destruct f; cbn [hget fwidth fpos].
  - unfold get_has_scale. rewrite <- (L 0). rewrite N.shiftr_0_r. reflexivity.
  - apply L.
  - apply L.
  - apply L.
  - unfold get_rotation_format. rewrite N.land_spec, testbit_shiftr. change 15 with (2 ^ 4 - 1). rewrite testbit_ones_sub1. apply andb_comm.
  - rewrite <- B. apply testbit_b2n_flag; reflexivity.
  - rewrite <- B. apply testbit_b2n_flag; reflexivity.
  - rewrite <- B. apply testbit_b2n_flag; reflexivity.
  - rewrite <- B. apply testbit_b2n_flag; reflexivity.
  - unfold get_has_metadata. rewrite N.shiftr_div_pow2.
    assert (D : misc / 2 ^ 31 = b2n (N.testbit misc 31)).
    { rewrite N.testbit_eqb. assert (misc / 2 ^ 31 < 2) by (change (2 ^ 32) with 4294967296 in Hm; change (2 ^ 31) with 2147483648; lia).
      destruct (misc / 2 ^ 31) as [|[p|p|]] eqn:?; cbn; lia || reflexivity. }
    rewrite D, <- B. destruct (N.testbit misc 31); cbn.
    + rewrite andb_true_r. rewrite testbit_one. reflexivity.
    + rewrite andb_false_r. apply N.bits_0.
Qed.

Lemma fields_disjoint f g i : f <> g -> i < fwidth f -> (fpos g <=? i + fpos f) && (i + fpos f <? fpos g + fwidth g) = false.
Proof.
  intros N H. destruct f, g; try congruence; cbn [fpos fwidth] in *;
    match goal with |- (?a <=? ?b) && _ = false => destruct (N.leb_spec a b); cbn [andb]; [apply N.ltb_ge; lia|reflexivity] end.
Qed.

Lemma hget_hset_same f misc v : misc < 2 ^ 32 -> v < hcard f -> hget f (hset f misc v) = v.
Proof.
  intros Hm Hv. apply N.bits_inj. intros i. rewrite testbit_hget by (apply hset_lt; assumption).
  rewrite testbit_hset by assumption.
  assert (Hc : hcard f = 2 ^ fwidth f) by (destruct f; reflexivity). rewrite Hc in Hv.
  destruct (N.ltb_spec i (fwidth f)) as [L|L]; cbn [andb].
  - destruct (N.leb_spec (fpos f) (i + fpos f)); [|lia]. destruct (N.ltb_spec (i + fpos f) (fpos f + fwidth f)); [|lia].
    cbn [andb]. f_equal. lia.
  - symmetry. apply (testbit_high v (fwidth f) Hv i L).
Qed.

Lemma hget_hset_other f g misc v : misc < 2 ^ 32 -> v < hcard f -> f <> g -> hget g (hset f misc v) = hget g misc.
Proof.
  intros Hm Hv N. apply N.bits_inj. intros i. rewrite !testbit_hget by (try apply hset_lt; assumption).
  destruct (N.ltb_spec i (fwidth g)) as [L|L]; cbn [andb]; [|reflexivity].
  rewrite testbit_hset by assumption. rewrite (fields_disjoint g f i) by congruence. reflexivity.
Qed.

Definition hfield_eqb (a b : hfield) : bool := fpos a =? fpos b.
Lemma hfield_eqb_spec a b : reflect (a = b) (hfield_eqb a b).
Proof. destruct a, b; constructor; congruence. Qed.

(** the value a history of writes leaves in field [g]: the last one written, else the initial one *)
Definition last_written (g : hfield) (init : N) (ws : list (hfield * N)) : N :=
  fold_left (fun acc fv => if hfield_eqb (fst fv) g then snd fv else acc) ws init.

Definition hrun (misc : N) (ws : list (hfield * N)) : N := fold_left (fun m fv => hset (fst fv) m (snd fv)) ws misc.

Lemma hrun_spec ws : forall misc, misc < 2 ^ 32 -> Forall (fun fv => snd fv < hcard (fst fv)) ws ->
  hrun misc ws < 2 ^ 32 /\ forall g, hget g (hrun misc ws) = last_written g (hget g misc) ws.
Proof.
  induction ws as [|[f v] ws IH]; intros misc Hm H; [split; [exact Hm|reflexivity]|].
  inversion H as [|? ? Hv Hws]; subst. cbn [fst snd] in Hv. cbn [hrun fold_left].
  destruct (IH (hset f misc v)) as [I1 I2]; [apply hset_lt; assumption|exact Hws|].
  split; [exact I1|]. intros g. unfold hrun in I2. cbn [fst snd]. rewrite I2. unfold last_written. cbn [fold_left fst snd].
  destruct (hfield_eqb_spec f g) as [->|N]; [rewrite hget_hset_same by assumption|rewrite hget_hset_other by assumption]; reflexivity.
Qed.

(** bits that belong to no field are never changed *)
Lemma hset_other_bits f misc v i : misc < 2 ^ 32 -> v < hcard f -> 11 <= i < 30 ->
  N.testbit (hset f misc v) i = N.testbit misc i.
Proof.
  intros Hm Hv Hi. rewrite testbit_hset by assumption.
  destruct ((fpos f <=? i) && (i <? fpos f + fwidth f)) eqn:E; [|reflexivity].
  apply andb_true_iff in E as [E1 E2]. apply N.leb_le in E1. apply N.ltb_lt in E2. destruct f; cbn in E1, E2; lia.
Qed.

Lemma bulk_inline_roundtrip misc v : misc < 2 ^ 16 -> v < 2 ->
  get_is_bulk_data_inline (set_is_bulk_data_inline misc v) = v /\
  set_is_bulk_data_inline misc v < 2 ^ 16 /\
  forall i, 1 <= i -> N.testbit (set_is_bulk_data_inline misc v) i = N.testbit misc i.
Proof.
  intros Hm Hv. unfold set_is_bulk_data_inline, get_is_bulk_data_inline.
  assert (T : forall i, N.testbit (wrapw 16 (N.lor (N.land misc (notw 32 1)) v)) i = if i =? 0 then N.testbit v 0 else N.testbit misc i).
  { intros i. rewrite testbit_wrapw, N.lor_spec, N.land_spec, testbit_notw by reflexivity.
    rewrite testbit_one.
    destruct (N.eqb_spec i 0) as [->|N].
    - cbn [negb N.ltb N.compare andb]. rewrite andb_false_r. reflexivity.
    - rewrite (testbit_high v 1) by (assumption || lia). rewrite orb_false_r. cbn [negb]. rewrite andb_true_r.
      destruct (N.ltb_spec i 16).
      + replace (i <? 32) with true by (symmetry; apply N.ltb_lt; lia). cbn. apply andb_true_r.
      + cbn. symmetry. apply (testbit_high misc 16 Hm i). assumption. }
  split; [|split].
  - set (x := wrapw 16 _) in *. change 1 with (2 ^ 1 - 1). rewrite land_ones_mod. change (2 ^ 1) with 2. rewrite <- N.bit0_mod.
    rewrite T. rewrite N.eqb_refl. assert (v = 0 \/ v = 1) as [-> | ->] by lia; reflexivity.
  - unfold wrapw. apply N.mod_lt. discriminate.
  - intros i Hi. rewrite T. destruct (N.eqb_spec i 0); [lia|reflexivity].
Qed.

(* bit rates *)
Lemma bit_rate_ok b : b <= k_highest_bit_rate ->
  exists n, get_num_bits_at_bit_rate b = Ok n /\ n <= 32 /\ (n <= 23 \/ n = 32).
Proof.
  intros H. unfold k_highest_bit_rate in H.
  assert (F : forallb (fun k => match get_num_bits_at_bit_rate (N.of_nat k) with Ok n => (n <=? 23) || (n =? 32) | _ => false end) (seq 0 25) = true) by reflexivity.
  rewrite forallb_forall in F. specialize (F (N.to_nat b)). rewrite N2Nat.id in F.
  specialize (F ltac:(apply in_seq; lia)).
  destruct (get_num_bits_at_bit_rate b) as [n| |]; try discriminate. exists n. split; [reflexivity|]. lia.
Qed.
