(** C21: the tiers of a database partition the key frames.  The vocabulary is in TierSpec.v and StripSpec.v. *)
From Coq Require Import ZArith NArith Reals List Bool Permutation Sorted Lia Lra.
From Flocq Require Import Core.
From Verif Require Import Word Float32 Float32Facts FloatOrder StripOrder SeekSpec StripSpec StripOrderFacts ClipOrderFacts StripKeyFacts DbStreamFacts DbTiers TierSpec DbTiersFacts Prop_Strip.
Import ListNotations.
Local Open Scope N_scope.

(** For any clips (each with a stripping order, C37) and any proportions: building succeeds; every key frame of every clip
    is in exactly one tier, once, with the data of its own segment; no segment gives away its first or last key frame; the
    low tier is filled first, then the medium one, up to what can be moved; each tier is in clip, segment, key frame order. *)
Theorem C21_tiers_partition : forall sizes clips low_proportion medium_proportion,
  length clips = length sizes ->
  (forall i z c, nth_error sizes i = Some z -> nth_error clips i = Some c -> clip_ok z c) ->
  ffinite low_proportion = true -> (0 <= FR low_proportion <= 1)%R ->
  ffinite medium_proportion = true -> (0 <= FR medium_proportion <= 1)%R ->
  total_frames sizes <= 2 ^ 24 ->
  exists high medium low, build_tiers low_proportion medium_proportion clips = Ok (high, medium, low) /\
    Permutation (map key (high ++ medium ++ low)) (all_frames sizes) /\
    Forall (mapping_ok sizes clips) (high ++ medium ++ low) /\
    Forall (mapping_interior sizes) (medium ++ low) /\
    N.of_nat (length low) =
      N.min (total_movable sizes) (Z.to_N (Zfloor (rnd (FR low_proportion * IZR (Z.of_N (total_frames sizes)))))) /\
    N.of_nat (length medium) =
      N.min (total_movable sizes - N.of_nat (length low)) (Z.to_N (Zfloor (rnd (FR medium_proportion * IZR (Z.of_N (total_frames sizes)))))) /\
    StronglySorted key_lt (map key high) /\ StronglySorted key_lt (map key medium) /\ StronglySorted key_lt (map key low).
Proof.
  intros sizes clips pl pm LEN CL F1 R1 F2 R2 T.
  destruct (build_ok sizes clips LEN CL pl pm F1 R1 F2 R2 T) as (h & m & l & B & L1 & L2 & PK & P & MO & MI).
  assert (ND : NoDup (map key (l ++ m ++ h))) by (eapply Permutation_NoDup; [symmetry; exact P | apply all_frames_nodup]).
  assert (PA : Permutation (sort_frames h ++ sort_frames m ++ sort_frames l) (l ++ m ++ h)).
  { rewrite !sort_perm. rewrite (Permutation_app_comm h). rewrite (Permutation_app_comm m). rewrite <- app_assoc. reflexivity. }
  exists (sort_frames h), (sort_frames m), (sort_frames l). split; auto.
  split; [rewrite <- P; apply Permutation_map; exact PA|].
  split; [eapply Permutation_Forall; [symmetry; exact PA | exact MO]|].
  split. { eapply Permutation_Forall; [|exact MI]. rewrite !sort_perm. apply Permutation_app_comm. }
  rewrite !(Permutation_length (sort_perm _)). split; auto. split; auto.
  rewrite !map_app in ND. pose proof (NoDup_app_r _ _ ND) as ND2.
  split; [|split]; apply sort_sorted; eauto using NoDup_app_l, NoDup_app_r.
Qed.
Print Assumptions C21_tiers_partition.

(** The key frames are taken in the stripping order of their clip, and each one taken for the low or the medium tier has the
    smallest error of what the clips still hold. *)
Theorem C21_smallest_error_first : forall sizes clips low_proportion medium_proportion,
  length clips = length sizes ->
  (forall i z c, nth_error sizes i = Some z -> nth_error clips i = Some c -> clip_ok z c) ->
  ffinite low_proportion = true -> (0 <= FR low_proportion <= 1)%R ->
  ffinite medium_proportion = true -> (0 <= FR medium_proportion <= 1)%R ->
  total_frames sizes <= 2 ^ 24 ->
  exists high medium low high' medium' low', build_tiers low_proportion medium_proportion clips = Ok (high, medium, low) /\
    Permutation high' high /\ Permutation medium' medium /\ Permutation low' low /\
    picks clips (length (low' ++ medium')) (low' ++ medium' ++ high').
Proof.
  intros sizes clips pl pm LEN CL F1 R1 F2 R2 T.
  destruct (build_ok sizes clips LEN CL pl pm F1 R1 F2 R2 T) as (h & m & l & B & L1 & L2 & PK & P & MO & MI).
  exists (sort_frames h), (sort_frames m), (sort_frames l), h, m, l. split; auto. split; [symmetry; apply sort_perm|].
  split; [symmetry; apply sort_perm|]. split; [symmetry; apply sort_perm|]. exact PK.
Qed.
Print Assumptions C21_smallest_error_first.

(** What a clip keeps: the first and the last key frame of every segment are in the highest importance tier, which stays in
    the clip. *)
Theorem C21_boundaries_stay : forall sizes clips low_proportion medium_proportion high medium low c s z n,
  length clips = length sizes ->
  (forall i z c, nth_error sizes i = Some z -> nth_error clips i = Some c -> clip_ok z c) ->
  ffinite low_proportion = true -> (0 <= FR low_proportion <= 1)%R ->
  ffinite medium_proportion = true -> (0 <= FR medium_proportion <= 1)%R ->
  total_frames sizes <= 2 ^ 24 ->
  build_tiers low_proportion medium_proportion clips = Ok (high, medium, low) ->
  nth_error sizes c = Some z -> nth_error z s = Some n ->
  In (N.of_nat c, N.of_nat s, 0) (map key high) /\ In (N.of_nat c, N.of_nat s, n - 1) (map key high).
Proof.
  intros sizes clips pl pm h m l c s z n LEN CL F1 R1 F2 R2 T B Z NS.
  destruct (C21_tiers_partition sizes clips pl pm LEN CL F1 R1 F2 R2 T) as (h' & m' & l' & B' & P & MO & MI & _).
  rewrite B in B'. assert (E : (h', m', l') = (h, m, l)) by congruence. injection E as -> -> ->. clear B'.
  assert (CLL : (c < length sizes)%nat) by (apply nth_error_Some; congruence).
  destruct (nth_error clips c) as [cl|] eqn:C; [|apply nth_error_None in C; lia].
  destruct (CL _ _ _ Z C) as (_ & _ & _ & _ & Z5 & _). rewrite Forall_forall in Z5.
  assert (N1 : 1 <= n <= 32) by (apply Z5; eapply nth_error_In; eauto).
  assert (SL : (s < length z)%nat) by (apply nth_error_Some; congruence).
  assert (G : forall f, f < n -> f = 0 \/ f = n - 1 -> In (N.of_nat c, N.of_nat s, f) (map key h)).
  { intros f FL D. assert (I : In (N.of_nat c, N.of_nat s, f) (all_frames sizes)).
    { unfold all_frames. apply in_flat_map. exists c. split; [apply in_seq; lia|]. rewrite (nth_error_nth _ _ [] Z). unfold frames_of.
      apply in_flat_map. exists s. split; [apply in_seq; lia|]. rewrite (nth_error_nth _ _ 0 NS). apply in_map. apply upto_in. exact FL. }
    apply (Permutation_in _ (Permutation_sym P)) in I. rewrite map_app in I. apply in_app_iff in I. destruct I as [I|I]; auto. exfalso.
    apply in_map_iff in I. destruct I as (x & K & I). rewrite Forall_forall in MI. destruct (MI _ I) as (Q1 & Q2). unfold key in K.
    inversion K as [[K1 K2 K3]]. rewrite K1, K2, K3, !Nat2N.id, (nth_error_nth _ _ [] Z), (nth_error_nth _ _ 0 NS) in Q2. rewrite K3 in Q1. lia. }
  split; apply G; auto; lia.
Qed.
Print Assumptions C21_boundaries_stay.

(** std::sort is modelled by one sorting algorithm; any other gives the same result, since the keys are distinct. *)
Theorem C21_sort_is_determined : forall l l', NoDup (map key l) -> Permutation l' l -> StronglySorted key_lt (map key l') ->
  l' = sort_frames l.
Proof.
  intros l l' ND P S. assert (P2 : Permutation l' (sort_frames l)) by (rewrite sort_perm; exact P).
  pose proof (sort_sorted l ND) as S2. remember (sort_frames l) as r. clear - P2 S S2.
  revert l' P2 S. induction r as [|x r IH]; intros l' P S.
  - apply Permutation_sym, Permutation_nil in P. auto.
  - destruct l' as [|y l']; [apply Permutation_nil_cons in P; tauto|]. cbn [map] in S, S2. inversion S as [|? ? S' F]; subst. inversion S2 as [|? ? S2' F2]; subst.
    rewrite Forall_forall in F, F2.
    assert (E : y = x).
    { assert (I1 : In y (x :: r)) by (eapply Permutation_in; [exact P | left; auto]).
      assert (I2 : In x (y :: l')) by (eapply Permutation_in; [symmetry; exact P | left; auto]).
      destruct I1 as [-> |I1]; auto. destruct I2 as [-> |I2]; auto. specialize (F2 _ (in_map key _ _ I1)). specialize (F _ (in_map key _ _ I2)).
      exfalso. unfold key_lt in *. lia. }
    subst y. f_equal. apply IH; auto. eapply Permutation_cons_inv. exact P.
Qed.
Print Assumptions C21_sort_is_determined.

(** FINDING: for a clip older than v02.01.99.2 the builder makes a table of its key frames but never keeps it; assigning the
    first key frame then reads through a null pointer. *)
Theorem C21_old_clip_refuted : forall c rest num_high num_medium num_low,
  dc_order c = None -> 1 <= dc_num_samples c -> 1 <= num_high + num_medium + num_low ->
  assign_frames_to_tiers (c :: rest) num_high num_medium num_low = UB.
Proof.
  intros c rest nh nm nl ON SN T.
  assert (G : forall n hi, n <> 0%nat -> assign_loop n hi (c :: rest) (repeat 0 (length (c :: rest))) = UB).
  { intros [|n] hi NZ; [congruence|]. cbn [assign_loop length repeat best_frame]. rewrite ON. destruct (N.leb_spec (dc_num_samples c) 0); [lia | reflexivity]. }
  unfold assign_frames_to_tiers. destruct (N.eq_dec nl 0) as [-> |N1]; [|rewrite G by lia; reflexivity].
  change (N.to_nat 0) with 0%nat. cbn [assign_loop bindo fst snd]. destruct (N.eq_dec nm 0) as [-> |N2]; [|rewrite G by lia; reflexivity].
  change (N.to_nat 0) with 0%nat. cbn [assign_loop bindo fst snd]. rewrite G by lia. reflexivity.
Qed.
Print Assumptions C21_old_clip_refuted.

(** Two clips: the 9 key frames of C37 and one with a single key frame. *)
Definition sat_clips : list db_clip :=
  [ {| dc_num_samples := 9; dc_starts := [0; 5]; dc_pose_bits := [100; 80]; dc_data := [[1; 2]; [3]]; dc_order := Some sat_order |};
    {| dc_num_samples := 1; dc_starts := [0]; dc_pose_bits := [8]; dc_data := [[4]];
       dc_order := Some [{| kf_index := 0; kf_segment := 0; kf_strip := 0; kf_error := f_inf; kf_trivial := false |}] |} ].
Example C21_sat_tiers : match build_tiers (f_of_bits 0x3EAAAAAB (* 1/3 *)) (f_of_bits 0x3E000000 (* 1/8 *)) sat_clips with
  | Ok (h, m, l) => Some (map key h, map key m, map key l) | _ => None end =
  Some ([(0, 0, 0); (0, 0, 2); (0, 0, 4); (0, 1, 0); (0, 1, 3); (1, 0, 0)], [(0, 1, 2)], [(0, 0, 1); (0, 0, 3); (0, 1, 1)]).
Proof. vm_compute. reflexivity. Qed.
Lemma insert_strip_perm k l : Permutation (insert_strip k l) (k :: l).
Proof. induction l as [|x l IH]; cbn [insert_strip]; auto. destruct (kf_strip k <=? kf_strip x); auto. rewrite IH. apply perm_swap. Qed.
Lemma sort_strip_sorted l : sorted_by_strip l (sort_strip l).
Proof.
  assert (P : forall l, Permutation l (sort_strip l)).
  { clear. induction l as [|x l IH]; cbn; auto. unfold sort_strip in *. rewrite insert_strip_perm. constructor. exact IH. }
  split; [apply P|]. induction l as [|x l IH]; [constructor|]. change (sort_strip (x :: l)) with (insert_strip x (sort_strip l)).
  induction IH as [|y t S IH F]; cbn [insert_strip]; [repeat constructor|]. destruct (N.leb_spec (kf_strip x) (kf_strip y)) as [L|L].
  - constructor; [constructor; auto|]. constructor; auto. eapply Forall_impl; [|exact F]. cbn. intros; lia.
  - constructor; auto. rewrite insert_strip_perm. constructor; auto. lia.
Qed.
Example C21_sat_hyps : forall i z c, nth_error [[5; 4]; [1]] i = Some z -> nth_error sat_clips i = Some c -> clip_ok z c.
Proof.
  assert (CO : clip_order [5; 4] sat_order).
  { assert (S5 := C37_segment_order (sat_err 0) 5 0 ltac:(lia)). assert (S4 := C37_segment_order (sat_err 1) 4 1 ltac:(lia)).
    destruct S5 as (l5 & E5 & H5). { intros a b AB B. assert (D : (a = 0 \/ a = 1 \/ a = 2) /\ (b = 2 \/ b = 3 \/ b = 4)) by lia.
      destruct D as ([-> |[-> | ->]] & [-> |[-> | ->]]); vm_compute; reflexivity. }
    destruct S4 as (l4 & E4 & H4). { intros a b AB B. assert (D : (a = 0 \/ a = 1) /\ (b = 2 \/ b = 3)) by lia.
      destruct D as ([-> | ->] & [-> | ->]); vm_compute; reflexivity. }
    destruct (C37_clip_order [5; 4] [sat_seg 0 5 0 0; sat_seg 1 4 1 5]) as (o & O1 & _ & O3); [reflexivity | vm_compute; reflexivity | |].
    - intros [|[|[|s]]] sg K; cbn [nth_error] in K; [| |discriminate K|discriminate K]; injection K as <-; (split; [reflexivity|]; split; [reflexivity|]).
      + unfold sat_seg. cbn [se_errors]. rewrite E5. apply H5, sort_strip_sorted.
      + unfold sat_seg. cbn [se_errors]. rewrite E4. apply H4, sort_strip_sorted.
    - unfold sat_order. change (sumN [5; 4]) with 9 in O1. rewrite O1. exact O3. }
  intros [|[|[|i]]] z c K1 K2; cbn [nth_error sat_clips] in K1, K2; [| |discriminate K1|discriminate K1]; injection K1 as <-; injection K2 as <-.
  - split; [reflexivity|]. split; [vm_compute; reflexivity|]. split; [cbn; lia|]. split; [cbn; lia|]. split; [repeat constructor; lia|].
    split; [reflexivity|]. split; [reflexivity|]. split; [reflexivity|]. split; [|exists sat_order; split; [reflexivity | exact CO]].
    intros [|[|s]] L; cbn in L; [reflexivity | reflexivity | lia].
  - split; [reflexivity|]. split; [vm_compute; reflexivity|]. split; [cbn; lia|]. split; [cbn; lia|]. split; [repeat constructor; lia|].
    split; [reflexivity|]. split; [reflexivity|]. split; [reflexivity|]. split; [intros [|s] L; cbn in L; [reflexivity | lia]|].
    eexists. split; [reflexivity|]. split; [apply Permutation_refl|]. intros [|i] k K; [|destruct i; discriminate K]. injection K as <-. cbn. split; [reflexivity|]. split; [lia | intros _; auto].
Qed.
