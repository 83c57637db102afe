(** C37: key frame stripping keeps the clip playable.  The vocabulary is in StripSpec.v and SeekSpec.v. *)
From Coq Require Import ZArith NArith Reals List Bool Permutation Lia.
From Flocq Require Import Core.
From Verif Require Import Word Float32 Float32Facts FloatOrder Bitset StripOrder SeekSpec StripSpec StripOrderFacts ClipOrderFacts StripKeyFacts.
Import ListNotations.
Local Open Scope N_scope.

(** Inside a segment: whatever the error metric (as long as its errors are numbers below infinity), the error of every key
    frame is computed without undefined behaviour; the order has every key frame once, the boundaries last; and each
    removal is the best one at that point. *)
Theorem C37_segment_order : forall err n s,
  1 <= n <= 32 -> (forall a b, a + 2 <= b -> b < n -> below_inf (fst (err a b))) ->
  exists l, find_contributing_error err n s = Ok l /\
    forall sorted, sorted_by_strip l sorted -> segment_order n s sorted /\ greedy err n s sorted.
Proof. exact segment_order_ok. Qed.
Print Assumptions C37_segment_order.

(** Over the clip: the orders of the segments are merged greedily, every key frame of the clip is in the result once, and
    no boundary of a segment comes before a key frame that can be removed. *)
Theorem C37_clip_order : forall sizes segs,
  length segs = length sizes -> sumN sizes < 2 ^ 32 ->
  (forall s sg, nth_error segs s = Some sg ->
     se_num_samples sg = nth s sizes 0 /\ se_offset sg = start_of sizes s /\ segment_order (nth s sizes 0) (N.of_nat s) (se_errors sg)) ->
  exists order, sort_contributing_error (sumN sizes) segs = Ok order /\ merge_of segs order /\ clip_order sizes order.
Proof.
  intros sizes segs L T H. destruct (merge_ok sizes segs L T H _ eq_refl) as (order & A & _ & B & C). exists order. auto.
Qed.
Print Assumptions C37_clip_order.

(** Stripping removes the first n key frames of the order and nothing else: t is where the trivial ones end, c where the
    threshold is exceeded, and the proportion asks for a minimum; nothing is stripped when it does not pay for the larger
    segment headers.  The masks, the counts and the sizes agree with what was removed. *)
Theorem C37_stripping : forall s sizes order segs,
  1 <= sumN sizes <= 2 ^ 24 -> (2 <= sumN sizes -> 2 * N.of_nat (length sizes) <= sumN sizes) ->
  clip_order sizes order -> strippable sizes segs ->
  ffinite (ss_proportion s) = true -> (0 <= FR (ss_proportion s) <= 1)%R ->
  saved_bits segs order (sumN sizes) < 2 ^ 32 -> strip_is_enabled s = true ->
  let m := if 2 <=? sumN sizes then sumN sizes - 2 * N.of_nat (length sizes) else 0 in
  exists segs' t c n, strip_keyframes s (sumN sizes) order segs = Ok (segs', n) /\
    (if ss_trivial s then scan kf_trivial order m 0 t else t = 0) /\
    scan (fun k => negb (fgt (kf_error k) (ss_threshold s))) order m t c /\
    (let wanted := N.max c (N.min m (Z.to_N (Zfloor (rnd (FR (ss_proportion s) * IZR (Z.of_N (sumN sizes))))))) in
     n = if saved_bits segs order wanted / 8 <=? 4 * N.of_nat (length sizes) then 0 else wanted) /\
    m <= movable sizes /\ stripped_to sizes order n segs segs'.
Proof. exact strip_keyframes_ok. Qed.
Print Assumptions C37_stripping.

(** The first and the last key frame of every segment are retained, whatever the settings: what C15 needs to play the
    clip. *)
Theorem C37_boundaries_retained : forall s sizes order segs segs' n i sg',
  1 <= sumN sizes <= 2 ^ 24 -> (2 <= sumN sizes -> 2 * N.of_nat (length sizes) <= sumN sizes) ->
  clip_order sizes order -> strippable sizes segs ->
  ffinite (ss_proportion s) = true -> (0 <= FR (ss_proportion s) <= 1)%R ->
  saved_bits segs order (sumN sizes) < 2 ^ 32 -> strip_is_enabled s = true ->
  strip_keyframes s (sumN sizes) order segs = Ok (segs', n) -> nth_error segs' i = Some sg' ->
  exists mask, st_hard sg' = [mask] /\ mask < 2 ^ 32 /\ present mask 0 = true /\ present mask (nth i sizes 0 - 1) = true /\
    forall f, nth i sizes 0 <= f < 32 -> present mask f = false.
Proof.
  intros s sizes order segs segs' n i sg' T T2 CO SO F P SB EN R K.
  destruct (strip_keyframes_ok s sizes order segs T T2 CO SO F P SB EN) as (segs2 & t & c & n' & R' & TA & CA & NE & MM & ST).
  rewrite R in R'. inversion R'; subst segs2 n'. clear R'. destruct ST as (L & ST).
  destruct (nth_error segs i) as [sg|] eqn:K0.
  2:{ apply nth_error_None in K0. assert (X : (i < length segs')%nat) by (apply nth_error_Some; congruence). lia. }
  destruct (ST _ _ _ K0 K) as (_ & _ & _ & mask & M1 & M2 & M3 & _). exists mask. split; auto. split; auto.
  destruct SO as (SO1 & SO2). destruct (SO2 _ _ K0) as (S1 & _).
  assert (NB : forall f, f = 0 \/ f = nth i sizes 0 - 1 -> present mask f = true).
  { intros f D. apply M3; [lia|]. split; [lia|]. intros C. unfold stripped_key_frames in C. apply in_map_iff in C. destruct C as (k & E & I).
    apply In_nth_error in I. destruct I as (j & J).
    assert (JL : (j < N.to_nat n)%nat). { assert (X : (j < length (firstn (N.to_nat n) order))%nat) by (apply nth_error_Some; congruence). rewrite firstn_length in X. lia. }
    rewrite nth_error_firstn_lt in J by auto. destruct CO as (_ & CO2). destruct (CO2 _ _ J) as (_ & Q & _).
    assert (NM : n <= movable sizes).
    { cbv zeta in NE, CA, MM. destruct CA as (CA & _). set (m := if 2 <=? sumN sizes then _ else 0) in *. clearbody m. rewrite NE.
      set (z := Z.to_N _) in *. clearbody z. destruct (saved_bits _ _ _ / 8 <=? _); lia. }
    destruct (Q ltac:(lia)) as (Q1 & _). inversion E as [[E1 E2]]. rewrite E1, E2 in Q1. unfold first_of, last_of in Q1. rewrite Nat2N.id in Q1. lia. }
  split; [apply NB; auto|]. split; [apply NB; auto|]. intros f FR. destruct (present mask f) eqn:E; auto. apply M3 in E; lia.
Qed.
Print Assumptions C37_boundaries_retained.

(** Without stripping nothing changes. *)
Theorem C37_disabled : forall s num order segs, strip_is_enabled s = false -> strip_keyframes s num order segs = Ok (segs, 0).
Proof. intros. unfold strip_keyframes. rewrite H. reflexivity. Qed.
Print Assumptions C37_disabled.

(** FINDING: an error metric that returns +infinity (or NaN) makes the table be written out of bounds (at index ~0U); only
    an assert guards it. *)
Theorem C37_infinite_error_refuted : forall err n s, 3 <= n <= 32 -> (forall a b, fst (err a b) = f_inf) ->
  find_contributing_error err n s = UB.
Proof.
  intros err n s H E. unfold find_contributing_error.
  replace ((n =? 0) || (32 <? n)) with false by (symmetry; apply orb_false_iff; split; [apply N.eqb_neq; lia | apply N.ltb_ge; lia]).
  cbv zeta. replace (N.to_nat (n - 2)) with (S (N.to_nat (n - 3))) by lia. cbn [removal_loop].
  set (best0 := {| kf_index := k_none; kf_segment := s; kf_strip := k_none; kf_error := f_inf; kf_trivial := false |}).
  assert (FULL : forall i, i < 32 -> bitset_test [0xFFFFFFFF] i = Ok true).
  { intros i L. rewrite test32 by auto. f_equal. apply (BitsetFacts.bitset_reset_spec 1 true). cbn. lia. }
  assert (G : forall num frame, 1 <= frame -> frame + N.of_nat num <= n - 1 -> find_best num err s 1 [0xFFFFFFFF] frame best0 = Ok best0).
  { induction num as [|num IH]; intros frame F1 F2; cbn [find_best]; auto. rewrite FULL by lia. cbn [bindo].
    assert (BM : forall i, i < 32 -> BitsetFacts.bmem [0xFFFFFFFF] i = true) by (apply (BitsetFacts.bitset_reset_spec 1 true)).
    destruct (retained_before_ok 0xFFFFFFFF (BM 0 ltac:(lia)) 33 (frame - 1)) as (a & A1 & _); [lia | lia |]. rewrite A1. cbn [bindo].
    destruct (retained_after_ok 0xFFFFFFFF 31 ltac:(lia) (BM 31 ltac:(lia)) 33 (frame + 1)) as (b & B1 & _); [lia | lia |]. rewrite B1. cbn [bindo]. rewrite E. change (flt f_inf (kf_error best0)) with false. cbv iota. apply IH; lia. }
  rewrite (G _ 1) by lia. cbn [bindo]. unfold best0 at 1. cbn [kf_index]. rewrite !WordFacts.upd_length, repeat_length. reflexivity.
Qed.
Print Assumptions C37_infinite_error_refuted.

(** A clip of 9 key frames in two segments (5 and 4); the error of removing key frames grows with the gap. *)
Definition sat_err (bias a b : N) : f32 * bool := (f_of_N (bias + (b - a) * (b - a)), b - a =? 2).
Fixpoint insert_strip (k : keyframe) (l : list keyframe) : list keyframe :=
  match l with [] => [k] | x :: t => if kf_strip k <=? kf_strip x then k :: l else x :: insert_strip k t end.
Definition sort_strip (l : list keyframe) : list keyframe := fold_right insert_strip [] l.
Definition sat_seg (bias n s off : N) : seg_errors :=
  {| se_num_samples := n; se_offset := off;
     se_errors := match find_contributing_error (sat_err bias) n s with Ok l => sort_strip l | _ => [] end |}.
Definition sat_order : list keyframe :=
  match sort_contributing_error 9 [sat_seg 0 5 0 0; sat_seg 1 4 1 5] with Ok l => l | _ => [] end.
Definition sat_segs : list strip_seg :=
  [ {| st_num_samples := 5; st_offset := 0; st_pose_bits := 100; st_hard := [0]; st_data_size := 63 |};
    {| st_num_samples := 4; st_offset := 5; st_pose_bits := 80; st_hard := [0]; st_data_size := 40 |} ].
Definition sat_settings : strip_settings := {| ss_proportion := f_of_bits 0x3EAAAAAB (* 1/3 *); ss_threshold := f_zero; ss_trivial := false |}.
Example C37_sat_order : map (fun k => (kf_segment k, kf_index k, f_bits (kf_error k))) sat_order =
  [(0, 1, 0x40800000); (0, 3, 0x40800000); (1, 6, 0x40A00000); (1, 7, 0x41200000); (0, 2, 0x41800000);
   (1, 5, 0x7F800000); (1, 8, 0x7F800000); (0, 0, 0x7F800000); (0, 4, 0x7F800000)].
Proof. vm_compute. reflexivity. Qed.
Example C37_sat_strip : match strip_keyframes sat_settings 9 sat_order sat_segs with
  | Ok (l, n) => Some (map (fun g => (st_hard g, st_data_size g)) l, n) | _ => None end
  = Some ([([0xA8000000], 38); ([0xB0000000], 30)], 3).
Proof. vm_compute. reflexivity. Qed.
Example C37_sat_hyps : strippable [5; 4] sat_segs /\ strip_is_enabled sat_settings = true /\ saved_bits sat_segs sat_order 9 < 2 ^ 32.
Proof.
  split; [|split; [vm_compute; reflexivity | vm_compute; reflexivity]].
  split; [reflexivity|]. intros [|[|[|s]]] sg K; cbn [nth_error sat_segs] in K; [| |discriminate K | discriminate K]; injection K as <-;
    (split; [cbn; lia|]; split; [reflexivity|]; split; [reflexivity|]; split; [reflexivity|]; reflexivity).
Qed.
