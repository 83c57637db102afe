(** Proofs about strip_keyframes. *)
From Coq Require Import Lia Permutation Sorted Reals Lra.
From Flocq Require Import Core.
From Verif Require Import Word WordFacts MemoryUtils MemoryFacts Float32 Float32Facts FloatOrder Bitset BitsetFacts StripOrder SeekSpec StripSpec StripOrderFacts ClipOrderFacts.
Local Open Scope N_scope.
Ltac Zify.zify_post_hook ::= idtac.

Lemma card_split m f (x : N) : (N.to_nat x < m)%nat -> f x = true ->
  card m f = card m (fun i => if i =? x then false else f i) + 1.
Proof.
  intros L F. unfold card.
  assert (G : forall lo m', (lo <= N.to_nat x < lo + m')%nat ->
    length (filter (fun i => f (N.of_nat i)) (seq lo m')) = S (length (filter (fun i => if N.of_nat i =? x then false else f (N.of_nat i)) (seq lo m')))).
  { intros lo m'. revert lo. induction m' as [|m' IH]; intros lo H; [lia|]. cbn [seq filter].
    destruct (N.eqb_spec (N.of_nat lo) x) as [Q|Q].
    - subst x. rewrite F. cbn [length]. f_equal. f_equal. apply filter_ext_in. intros a A. apply in_seq in A.
      destruct (N.eqb_spec (N.of_nat a) (N.of_nat lo)); [lia | reflexivity].
    - specialize (IH (S lo)). destruct (f (N.of_nat lo)); cbn [length]; rewrite IH by lia; reflexivity. }
  rewrite (G 0%nat m) by lia. lia.
Qed.

Lemma bmem_present w f : f < 32 -> bmem [w] f = present w f.
Proof. intros H. unfold bmem, present. rewrite N.div_small, N.mod_small by auto. reflexivity. Qed.
Lemma filter_map_len {A B} (g : A -> B) (f : B -> bool) l : length (filter f (map g l)) = length (filter (fun x => f (g x)) l).
Proof. induction l as [|a l IH]; cbn; auto. destruct (f (g a)); cbn; auto. Qed.
Lemma stored_card w : N.of_nat (length (stored_frames w)) = card 32 (bmem [w]).
Proof.
  unfold stored_frames, card. rewrite filter_map_len. generalize (seq 0 32) (fun a (H : In a (seq 0 32)) => proj1 (in_seq 32 0 a) H). intros l H.
  induction l as [|a l IH]; [reflexivity|]. cbn [filter]. rewrite bmem_present by (specialize (H a (or_introl eq_refl)); lia).
  assert (IH' := IH (fun b B => H b (or_intror B))). destruct (present w (N.of_nat a)); cbn [length]; lia.
Qed.

Lemma count_while_ok p order m : (N.to_nat m <= length order)%nat -> forall fuel i, i <= m -> (N.to_nat (m - i) < fuel)%nat ->
  exists r, count_while fuel p order i m = Ok r /\ scan p order m i r.
Proof.
  intros ML. induction fuel as [|fuel IH]; intros i L F; [lia|]. cbn [count_while]. destruct (N.ltb_spec i m) as [C|C].
  - destruct (nth_error order (N.to_nat i)) as [k|] eqn:K; [|apply nth_error_None in K; lia]. destruct (p k) eqn:P.
    + destruct (IH (i + 1)) as (r & R1 & R2 & R3 & R4); [lia | lia |]. exists r. split; auto. split; [lia|]. split; auto.
      intros j q J Q. destruct (N.eq_dec j i) as [-> |]; [congruence|]. apply (R3 j); auto. lia.
    + exists i. split; auto. split; [lia|]. split; [intros; lia|]. right. exists k. auto.
  - exists i. split; auto. split; [lia|]. split; [intros; lia | left; lia].
Qed.

Lemma NoDup_app_intro {A} (a b : list A) : NoDup a -> NoDup b -> (forall x, In x a -> In x b -> False) -> NoDup (a ++ b).
Proof.
  induction a as [|x a IH]; intros A1 B1 D; cbn [app]; auto. inversion A1; subst. constructor.
  - intros C. apply in_app_or in C. destruct C; [auto | eapply D; eauto; left; auto].
  - apply IH; auto. intros y Y. apply D. right. auto.
Qed.

Lemma filter_all_true {A} (f : A -> bool) l : (forall x, In x l -> f x = true) -> filter f l = l.
Proof. induction l as [|a l IH]; intros H; cbn [filter]; auto. rewrite H by (left; auto). f_equal. apply IH. intros x X. apply H. right. auto. Qed.
Section STRIP.
Variables (sizes : list N) (order : list keyframe) (segs0 : list strip_seg).
Hypothesis TOT : sumN sizes < 2 ^ 32.
Hypothesis CO : clip_order sizes order.
Hypothesis SO : strippable sizes segs0.

Let pair (k : keyframe) := (kf_segment k, kf_index k).

Lemma order_length : length order = N.to_nat (sumN sizes).
Proof. destruct CO as (P & _). apply Permutation_length in P. rewrite map_length, clip_frames_length in P. exact P. Qed.
Lemma order_nodup : NoDup (map pair order).
Proof.
  destruct CO as (P & _). eapply Permutation_NoDup; [apply Permutation_sym, P|].
  unfold clip_frames. assert (G : forall k, NoDup (flat_map (fun s => map (fun f => (N.of_nat s, start_of sizes s + f)) (upto (nth s sizes 0))) (seq 0 k))).
  { induction k as [|k IH]; [constructor|]. rewrite seq_S, flat_map_app. cbn [flat_map plus]. rewrite app_nil_r.
    apply NoDup_app_intro; auto.
    - apply FinFun.Injective_map_NoDup; [intros x y H; inversion H; lia | apply upto_nodup].
    - intros x X Y. apply in_flat_map in X. destruct X as (s & S1 & S2). apply in_seq in S1. apply in_map_iff in S2, Y.
      destruct S2 as (f & <- & _), Y as (g & E & _). inversion E. lia. }
  apply G.
Qed.
Lemma order_valid i k : nth_error order i = Some k -> (N.to_nat (kf_segment k) < length sizes)%nat /\
  start_of sizes (N.to_nat (kf_segment k)) <= kf_index k < start_of sizes (N.to_nat (kf_segment k)) + nth (N.to_nat (kf_segment k)) sizes 0.
Proof.
  intros K. destruct CO as (P & _). assert (I : In (pair k) (clip_frames sizes)).
  { eapply Permutation_in; [exact P|]. apply (in_map pair). eapply nth_error_In; eauto. }
  apply clip_frames_in in I. destruct I as (s & f & S & F & E). inversion E as [[E1 E2]]. rewrite E1, E2, Nat2N.id. split; [auto | lia].
Qed.

(** the segments once the key frames [done] were removed *)
Definition seg_state (done : list keyframe) (s : nat) (sg0 sg : strip_seg) : Prop :=
  st_num_samples sg = st_num_samples sg0 /\ st_offset sg = st_offset sg0 /\ st_pose_bits sg = st_pose_bits sg0 /\
  exists w, st_hard sg = [w] /\ w < 2 ^ 32 /\
    (forall f, f < 32 -> (bmem [w] f = true <-> f < nth s sizes 0 /\ ~ In (N.of_nat s, start_of sizes s + f) (map pair done))) /\
    card 32 (bmem [w]) + N.of_nat (taken (N.of_nat s) done) = nth s sizes 0 /\
    st_data_size sg = (if (taken (N.of_nat s) done =? 0)%nat then st_data_size sg0
                       else (st_pose_bits sg0 * card 32 (bmem [w]) + 7) / 8).
Definition state_ok (done : list keyframe) (segs : list strip_seg) : Prop :=
  length segs = length segs0 /\ forall s sg0, nth_error segs0 s = Some sg0 -> exists sg, nth_error segs s = Some sg /\ seg_state done s sg0 sg.

Lemma card_below n : (n <= 32)%nat -> card 32 (fun i => i <? N.of_nat n) = N.of_nat n.
Proof.
  intros H. unfold card. replace 32%nat with (n + (32 - n))%nat by lia. rewrite seq_app, filter_app, app_length.
  rewrite filter_all_true by (intros x X; apply in_seq in X; apply N.ltb_lt; lia).
  rewrite (filter_ext_in _ (fun _ => false)) by (intros x X; apply in_seq in X; apply N.ltb_ge; lia).
  rewrite seq_length. replace (filter (fun _ : nat => false) (seq (0 + n) (32 - n))) with (@nil nat) by (induction (seq (0 + n) (32 - n)); auto). cbn [length]. lia.
Qed.

Lemma init_ok : exists segs1, init_hard segs0 = Ok segs1 /\ state_ok [] segs1.
Proof.
  destruct SO as (LEN & SEG).
  assert (G : forall l o, (forall s sg, nth_error l s = Some sg -> nth_error segs0 (o + s) = Some sg) ->
    exists l', init_hard l = Ok l' /\ length l' = length l /\ forall s sg0, nth_error l s = Some sg0 -> exists sg, nth_error l' s = Some sg /\ seg_state [] (o + s) sg0 sg).
  { induction l as [|sg l IH]; intros o H; cbn [init_hard].
    - exists []. split; auto. split; auto. intros [|s] sg0 C; discriminate.
    - destruct (SEG (o + 0)%nat sg (H 0%nat sg eq_refl)) as (A1 & A2 & A3 & A4 & A5).
      destruct (bitset_set_range_spec (st_hard sg) 0 (st_num_samples sg) true) as (bs & B1 & B2 & B3 & B4).
      { rewrite A4. repeat constructor. }
      { rewrite A4, A2. change (blen [0]) with 1. lia. }
      rewrite B1. cbn [bindo]. destruct (IH (S o)) as (l' & L1 & L2 & L3).
      { intros s sg' K. replace (S o + s)%nat with (o + S s)%nat by lia. apply H. exact K. }
      rewrite L1. cbn [bindo]. eexists. split; [reflexivity|]. split; [cbn [length]; lia|].
      intros [|s] sg0 K.
      + cbn in K. inversion K; subst sg0. eexists. split; [reflexivity|]. rewrite A4 in B3. destruct bs as [|w [|? ?]]; try discriminate B3.
        inversion B2 as [|? ? W' _]; subst. split; [reflexivity|]. split; [reflexivity|]. split; [reflexivity|]. exists w. split; [reflexivity|]. split; [exact W'|].
        assert (M : forall f, f < 32 -> bmem [w] f = (f <? nth (o + 0) sizes 0)).
        { intros f F. rewrite B4, A2, A4. replace (0 <=? f) with true by (symmetry; apply N.leb_le; lia). cbn [andb].
          replace (0 + nth (o + 0) sizes 0) with (nth (o + 0) sizes 0) by lia.
          destruct (f <? nth (o + 0) sizes 0); auto. unfold bmem. rewrite N.div_small by auto. apply N.bits_0. }
        split; [intros f F; rewrite (M f F), N.ltb_lt; cbn [map In]; tauto|]. cbn [taken filter length].
        split; [|reflexivity]. rewrite (card_ext _ _ (fun i => i <? N.of_nat (N.to_nat (nth (o + 0) sizes 0)))).
        * rewrite card_below by lia. unfold taken. cbn [filter length]. lia.
        * intros i I. rewrite M by lia. rewrite N2Nat.id. reflexivity.
      + cbn [nth_error] in K |- *. destruct (L3 s sg0 K) as (sg' & Q1 & Q2). exists sg'. split; auto. replace (o + S s)%nat with (S o + s)%nat by lia. auto. }
  destruct (G segs0 0%nat) as (l' & L1 & L2 & L3); [auto|]. exists l'. split; auto. split; auto.
Qed.

Lemma data_size_ok bits : bits < 2 ^ 31 -> align_to 32 bits 8 / 8 = (bits + 7) / 8.
Proof.
  intros H. change 8 with (2 ^ 3) at 1. destruct (align_to_spec 32 bits 3) as (A & B & C & D); try lia.
Qed.

Lemma strip_loop_ok : forall rest done segs, (exists tail, done ++ rest ++ tail = order) ->
  (forall k, In k rest -> first_of sizes (kf_segment k) < kf_index k < last_of sizes (kf_segment k)) ->
  state_ok done segs -> exists segs', strip_loop rest segs = Ok segs' /\ state_ok (done ++ rest) segs'.
Proof.
  induction rest as [|k rest IH]; intros done segs (tail & OE) INT ST; cbn [strip_loop].
  - exists segs. split; auto. rewrite app_nil_r. auto.
  - pose proof ST as (ST1 & ST2). destruct SO as (LEN & SEG).
    assert (KO : nth_error order (length done) = Some k) by (rewrite <- OE, nth_error_app2, Nat.sub_diag by lia; reflexivity).
    destruct (order_valid _ _ KO) as (V1 & V2). set (s := N.to_nat (kf_segment k)) in *.
    assert (SE : kf_segment k = N.of_nat s) by (unfold s; lia).
    destruct (nth_error segs0 s) as [sg0|] eqn:S0; [|apply nth_error_None in S0; lia].
    destruct (SEG _ _ S0) as (A1 & A2 & A3 & A4 & A5). destruct (ST2 _ _ S0) as (sg & G1 & G2 & G3 & G4 & w & W1 & W2 & W3 & W4 & W5).
    rewrite G1. rewrite G3, A3, W1. assert (FE : first_of sizes (kf_segment k) < kf_index k < last_of sizes (kf_segment k)) by (apply INT; left; auto).
    unfold first_of, last_of in FE. fold s in FE.
    assert (TN : start_of sizes s + nth s sizes 0 <= sumN sizes) by apply start_of_next. change (2 ^ 32) with 4294967296 in TOT.
    rewrite subw_ge by (change (2 ^ 32) with 4294967296; lia). set (f := kf_index k - start_of sizes s) in *.
    destruct (bitset_set_spec [w] f false) as (bs & B1 & B2 & B3 & B4); [constructor; auto | change (blen [w]) with 1; lia |].
    rewrite B1. cbn [bindo]. destruct bs as [|w' [|? ?]]; try discriminate B3. assert (W' : w' < 2 ^ 32) by (inversion B2; auto).
    assert (ND : ~ In (N.of_nat s, start_of sizes s + f) (map pair done)).
    { pose proof order_nodup as ON. rewrite <- OE, map_app in ON. cbn [app map] in ON. apply NoDup_remove_2 in ON.
      intros C. apply ON. apply in_or_app. left. unfold pair at 1. rewrite SE. replace (kf_index k) with (start_of sizes s + f) by lia. exact C. }
    assert (FM : bmem [w] f = true) by (apply W3; [lia | split; [lia | auto]]).
    assert (CS := card_split 32 (bmem [w]) f ltac:(lia) FM).
    assert (CE : card 32 (bmem [w']) = card 32 (fun i => if i =? f then false else bmem [w] i)) by (apply card_ext; intros i _; apply B4).
    assert (TK : taken (N.of_nat s) (done ++ [k]) = S (taken (N.of_nat s) done)).
    { rewrite taken_app. unfold taken at 2. cbn [filter]. rewrite SE, N.eqb_refl. cbn [length]. lia. }
    rewrite bitset_count_spec by (auto; reflexivity). change (32 * length [w'])%nat with 32%nat.
    assert (C32 : card 32 (bmem [w']) <= 32) by lia.
    assert (MS : st_pose_bits sg0 * card 32 (bmem [w']) < 2 ^ 31).
    { apply N.le_lt_trans with (st_pose_bits sg0 * 32); [apply N.mul_le_mono_l; exact C32|]. change (2 ^ 31) with (67108864 * 32). change (2 ^ 26) with 67108864 in A5. apply N.mul_lt_mono_pos_r; lia. }
    rewrite G4, mulw_small by (eapply N.lt_trans; [exact MS | reflexivity]). rewrite data_size_ok by exact MS.
    destruct (IH (done ++ [k]) (upd segs s {| st_num_samples := st_num_samples sg; st_offset := start_of sizes s; st_pose_bits := st_pose_bits sg0;
        st_hard := [w']; st_data_size := (st_pose_bits sg0 * card 32 (bmem [w']) + 7) / 8 |})) as (segs' & R1 & R2).
    + exists tail. rewrite <- app_assoc. exact OE.
    + intros q Q. apply INT. right. auto.
    + split; [rewrite upd_length; auto|]. intros s' sg0' K. assert (LL : (s' < length segs)%nat) by (rewrite ST1; apply nth_error_Some; congruence).
      rewrite nth_error_upd by lia. destruct (Nat.eqb_spec s' s) as [-> |NE].
      * rewrite S0 in K. inversion K; subst sg0'. eexists. split; [reflexivity|]. split; [exact G2|]. split; [symmetry; exact A3|]. split; [reflexivity|].
        exists w'. split; [reflexivity|]. split; [exact W'|]. split; [|split].
        { intros f' F'. rewrite B4, map_app, in_app_iff. cbn [map In]. unfold pair at 2. rewrite SE. destruct (N.eqb_spec f' f) as [-> |NF].
          - split; [discriminate|]. intros (_ & C). exfalso. apply C. right. left. f_equal. lia.
          - rewrite (W3 f' F'). split; intros (C1 & C2); (split; [exact C1|]); [intros [C|[C|[]]]; [exact (C2 C) | inversion C; lia] | intros C; apply C2; left; exact C]. }
        { rewrite TK. lia. }
        { cbn [st_data_size]. rewrite TK. reflexivity. }
      * destruct (ST2 _ _ K) as (sg' & H1 & H2 & H3 & H4 & v & V3 & V4 & V5 & V6 & V7). exists sg'. split; auto. split; auto. split; auto. split; auto.
        assert (TK' : taken (N.of_nat s') (done ++ [k]) = taken (N.of_nat s') done).
        { rewrite taken_app. unfold taken at 2. cbn [filter]. rewrite SE. destruct (N.eqb_spec (N.of_nat s) (N.of_nat s')); [lia | cbn [length]; lia]. }
        exists v. split; auto. split; auto. rewrite TK'. split; auto. intros f' F'. rewrite (V5 f' F'), map_app, in_app_iff. cbn [map In]. unfold pair at 3. rewrite SE.
        split; intros (C1 & C2); (split; [exact C1|]); [intros [C|[C|[]]]; [exact (C2 C) | inversion C; lia] | intros C; apply C2; left; exact C].
    + exists segs'. split; auto. rewrite <- app_assoc in R2. exact R2.
Qed.

Lemma bits_saved_ok segs1 : state_ok [] segs1 -> forall l acc, (forall k, In k l -> In k order) ->
  acc + sumN (map (fun k => match nth_error segs0 (N.to_nat (kf_segment k)) with Some sg => st_pose_bits sg | None => 0 end) l) < 2 ^ 32 ->
  bits_saved segs1 l acc = Ok (acc + sumN (map (fun k => match nth_error segs0 (N.to_nat (kf_segment k)) with Some sg => st_pose_bits sg | None => 0 end) l)).
Proof.
  intros (ST1 & ST2). induction l as [|k l IH]; intros acc H B; cbn [bits_saved map sumN].
  - f_equal. lia.
  - assert (KI : In k order) by (apply H; left; auto). apply In_nth_error in KI. destruct KI as (i & KI). destruct (order_valid _ _ KI) as (V & _).
    destruct SO as (LEN & SEG).
    cbn [map sumN] in B. destruct (nth_error segs0 (N.to_nat (kf_segment k))) as [sg0|] eqn:S0; [|apply nth_error_None in S0; lia].
    destruct (ST2 _ _ S0) as (sg & G1 & _ & _ & G4 & _). rewrite G1, G4. rewrite addw_small by lia. rewrite IH; [f_equal; lia | intros; apply H; right; auto | lia].
Qed.

Lemma final_ok n segs' : state_ok (firstn (N.to_nat n) order) segs' -> stripped_to sizes order n segs0 segs'.
Proof.
  intros (S1 & S2). split; auto. intros s sg sg' K K'. destruct (S2 _ _ K) as (sg'' & G1 & G2 & G3 & G4 & w & W1 & W2 & W3 & W4 & W5).
  rewrite K' in G1. inversion G1; subst sg''. split; auto. split; auto. split; auto. exists w. split; auto. split; auto. split.
  - intros f F. rewrite <- bmem_present by auto. apply W3. auto.
  - rewrite stored_card. exact W5.
Qed.
End STRIP.

Lemma to_u32_proportion p n : ffinite p = true -> (0 <= FR p <= 1)%R -> n <= 2 ^ 24 ->
  exists c, f_to_u32 (fmul p (f_of_N n)) = Ok c /\ c = Z.to_N (Zfloor (rnd (FR p * IZR (Z.of_N n)))) /\ c <= n.
Proof.
  intros F P L. destruct (f_of_N_exact n L) as (E1 & E2).
  assert (N0 : (0 <= IZR (Z.of_N n))%R) by (apply IZR_le; lia).
  assert (U : (0 <= FR p * IZR (Z.of_N n) <= IZR (Z.of_N n))%R) by nra.
  assert (BIG : (IZR (Z.of_N n) <= fbig)%R).
  { unfold fbig. apply Rle_trans with (IZR (2 ^ 24)); [apply IZR_le; lia|]. change (IZR (2 ^ 24)) with (IZR (radix2 ^ 24)). rewrite IZR_Zpower by lia. apply bpow_le. lia. }
  destruct (fmul_R p (f_of_N n) F E1) as (M1 & M2); [rewrite E2, Rabs_pos_eq by lra; lra|]. rewrite E2 in M2.
  assert (IS : is_f32 (IZR (Z.of_N n))) by (rewrite <- E2; apply FR_f32).
  assert (R0 : (0 <= rnd (FR p * IZR (Z.of_N n)) <= IZR (Z.of_N n))%R).
  { split; [|apply rnd_le_f; auto; lra]. rewrite <- rnd_0. apply rnd_le. lra. }
  assert (Z0 : (0 <= Zfloor (rnd (FR p * IZR (Z.of_N n))) <= Z.of_N n)%Z).
  { split; [apply Zfloor_lub; apply R0|]. apply le_IZR. eapply Rle_trans; [apply Zfloor_lb | apply R0]. }
  eexists. split; [apply f_to_u32_R; auto; rewrite M2; [lra | lia]|]. rewrite M2. split; [reflexivity | lia].
Qed.

Lemma strip_keyframes_ok s sizes order segs :
  1 <= sumN sizes <= 2 ^ 24 -> (2 <= sumN sizes -> 2 * N.of_nat (length sizes) <= sumN sizes) -> clip_order sizes order -> strippable sizes segs ->
  ffinite (ss_proportion s) = true -> (0 <= FR (ss_proportion s) <= 1)%R ->
  saved_bits segs order (sumN sizes) < 2 ^ 32 -> strip_is_enabled s = true ->
  let m := if 2 <=? sumN sizes then sumN sizes - 2 * N.of_nat (length sizes) else 0 in
  exists segs' t c n, strip_keyframes s (sumN sizes) order segs = Ok (segs', n) /\
    (if ss_trivial s then scan kf_trivial order m 0 t else t = 0) /\
    scan (fun k => negb (fgt (kf_error k) (ss_threshold s))) order m t c /\
    (let wanted := N.max c (N.min m (Z.to_N (Zfloor (rnd (FR (ss_proportion s) * IZR (Z.of_N (sumN sizes))))))) in
     n = if saved_bits segs order wanted / 8 <=? 4 * N.of_nat (length sizes) then 0 else wanted) /\
    m <= movable sizes /\ stripped_to sizes order n segs segs'.
Proof.
  intros TOT T2 CO SO PF PR SB EN m. unfold strip_keyframes. rewrite EN. cbn [negb].
  assert (TOT' : sumN sizes < 2 ^ 32) by (change (2 ^ 32) with 4294967296; change (2 ^ 24) with 16777216 in TOT; lia).
  destruct (init_ok sizes segs TOT' SO) as (segs1 & I1 & I2). rewrite I1. cbn [bindo].
  pose proof SO as (LEN & _). pose proof (order_length sizes order CO) as OL.
  assert (LS : N.of_nat (length sizes) <= sumN sizes).
  { destruct (N.le_gt_cases 2 (sumN sizes)) as [L|L]; [specialize (T2 L); lia|]. destruct sizes as [|a [|b l]]; cbn [length sumN] in *; try lia.
    exfalso. destruct SO as (SO1 & SO2). destruct segs as [|x [|y ?]]; try discriminate SO1.
    pose proof (SO2 0%nat _ eq_refl) as (Q1 & _). pose proof (SO2 1%nat _ eq_refl) as (Q2 & _). cbn [nth] in Q1, Q2. lia. }
  assert (ME : (if 2 <=? sumN sizes then subw 32 (sumN sizes) (mulw 32 (N.of_nat (length segs)) 2) else 0) = m).
  { unfold m. destruct (N.leb_spec 2 (sumN sizes)) as [L|L]; auto. specialize (T2 L). rewrite LEN.
    change (2 ^ 24) with 16777216 in TOT. rewrite mulw_small by (change (2 ^ 32) with 4294967296; lia). rewrite subw_ge by (change (2 ^ 32) with 4294967296; lia). lia. }
  rewrite ME.
  assert (MM : m <= movable sizes).
  { unfold m. destruct (N.leb_spec 2 (sumN sizes)) as [L|L]; [|lia]. specialize (T2 L). clear -T2. unfold movable.
    assert (G : sumN sizes <= sumN (map (fun z => z - 2) sizes) + 2 * N.of_nat (length sizes)); [|lia].
    clear T2. induction sizes as [|a l IH]; cbn [map sumN length]; lia. }
  assert (MO : (N.to_nat m <= length order)%nat) by (rewrite OL; pose proof (movable_le sizes); lia).
  assert (T0 : exists t, (if ss_trivial s then count_while (S (length order)) kf_trivial order 0 m else Ok 0) = Ok t /\
     (if ss_trivial s then scan kf_trivial order m 0 t else t = 0) /\ t <= m).
  { destruct (ss_trivial s).
    - destruct (count_while_ok kf_trivial order m MO (S (length order)) 0) as (t & A & B); [lia | lia |]. exists t. split; auto. split; auto. apply B.
    - exists 0. split; auto. split; auto. lia. }
  destruct T0 as (t & TA & TB & TC). rewrite TA. cbn [bindo].
  destruct (count_while_ok (fun k => negb (fgt (kf_error k) (ss_threshold s))) order m MO (S (length order)) t) as (c & CA & CB); [lia | lia |].
  rewrite CA. cbn [bindo].
  destruct (to_u32_proportion (ss_proportion s) (sumN sizes) PF PR) as (p & P1 & P2 & P3); [apply TOT|]. rewrite P1. cbn [bindo]. rewrite <- P2.
  set (wanted := N.max c (N.min m p)). assert (WM : wanted <= m) by (unfold wanted; destruct CB as (CB & _); lia).
  assert (SUB : forall n, (forall k, In k (firstn n order) -> In k order)) by (intros n k K; rewrite <- (firstn_skipn n order); apply in_or_app; left; auto).
  assert (SBM : saved_bits segs order wanted <= saved_bits segs order (sumN sizes)).
  { unfold saved_bits. rewrite <- OL, firstn_all. rewrite <- (firstn_skipn (N.to_nat wanted) order) at 2. rewrite map_app, sumN_app. lia. }
  rewrite (bits_saved_ok sizes order segs TOT' CO SO segs1 I2); [|apply SUB | fold (saved_bits segs order wanted); lia].
  fold (saved_bits segs order wanted). cbn [bindo]. rewrite N.add_0_l, LEN.
  change (2 ^ 24) with 16777216 in TOT. rewrite mulw_small by (change (2 ^ 32) with 4294967296; lia). rewrite (N.mul_comm (N.of_nat (length sizes)) 4).
  set (n := if saved_bits segs order wanted / 8 <=? 4 * N.of_nat (length sizes) then 0 else wanted).
  assert (NM : n <= m) by (unfold n; destruct (saved_bits segs order wanted / 8 <=? 4 * N.of_nat (length sizes)); [apply N.le_0_l | exact WM]).
  destruct (strip_loop_ok sizes order segs TOT' CO SO (firstn (N.to_nat n) order) [] segs1) as (segs' & R1 & R2); auto.
  - exists (skipn (N.to_nat n) order). cbn [app]. apply firstn_skipn.
  - intros k K. apply In_nth_error in K. destruct K as (i & K). assert (L : (i < N.to_nat n)%nat).
    { assert (X : (i < length (firstn (N.to_nat n) order))%nat) by (apply nth_error_Some; congruence). rewrite firstn_length in X. lia. }
    rewrite nth_error_firstn_lt in K by auto. destruct CO as (_ & CO2). destruct (CO2 _ _ K) as (_ & Q & _). apply Q. lia.
  - rewrite R1. cbn [bindo]. exists segs', t, c, n. split; auto. split; auto. split; auto. split; auto. split; auto.
    apply final_ok. exact R2.
Qed.
