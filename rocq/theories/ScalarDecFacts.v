(** Facts about the scalar decompressor: random access against bulk decompression, seek histories. *)
From Verif Require Import Word WordFacts Float32 Interp ScalarEnc ScalarDec ScalarSpec LayoutBuild.
From Coq Require Import Lia ZifyBool ZifyN ZifyNat.
Local Open Scope N_scope.

Lemma addw_assoc32 a b c : addw 32 (addw 32 a b) c = addw 32 a (addw 32 b c).
Proof. unfold addw, wrapw. rewrite N.add_mod_idemp_l, N.add_mod_idemp_r by discriminate. f_equal. lia. Qed.
Lemma addw_lt32 a b : addw 32 a b < 2 ^ 32.
Proof. unfold addw, wrapw. apply N.mod_lt. discriminate. Qed.
Lemma addw_0_r32 a : a < 2 ^ 32 -> addw 32 a 0 = a.
Proof. intros H. unfold addw, wrapw. rewrite N.add_0_r. apply N.mod_small. exact H. Qed.
Lemma num_bits_of_le v b n : num_bits_of v b = Ok n -> n <= 32.
Proof.
  unfold num_bits_of. set (l := if v =? 7 then _ else _). destruct (nth_error l _) as [x|] eqn:E; [|discriminate]. intros H. injection H as <-.
  apply nth_error_In in E. assert (F : Forall (fun x => x <= 32) l) by (subst l; destruct (v =? 7); repeat constructor; discriminate).
  rewrite Forall_forall in F. apply F. exact E.
Qed.

Section Random.
Context (ds : dsettings) (c : dcontext) (version ty : N) (nc : nat) (animated : list N) (mptr : N) (o0 o1 : N).
Hypothesis Known : known_type ds ty = true.
Let m := d_tracks c.
Definition alpha_of (w : writer) (i : N) : f32 :=
  if is_per_track_rounding_supported ds then apply_rounding_policy (d_alpha c) (w_rounding w (d_rounding c) i) else d_alpha c.

Lemma loop_spec w : forall count index cptr rptr b out, b < 2 ^ 32 ->
  decompress_loop ds w c version ty nc animated mptr count index cptr rptr (addw 32 o0 b) (addw 32 o1 b) = Ok out ->
  exists vals, length vals = count /\
    (forall w', same_rounding w w' ->
      decompress_loop ds w' c version ty nc animated mptr count index cptr rptr (addw 32 o0 b) (addw 32 o1 b) = Ok (not_skipped w' (numbered index vals))) /\
    (forall j v, nth_error vals j = Some v -> exists cptr' rptr' b' br nb,
       scan_tracks m version nc mptr j index cptr rptr b = Ok (cptr', rptr', b') /\
       load8 m (mptr + (index + N.of_nat j)) = Ok br /\ num_bits_of version br = Ok nb /\
       decompress_value nc nb m animated cptr' rptr' (addw 32 o0 b') (addw 32 o1 b') (alpha_of w (index + N.of_nat j)) = Ok v).
Proof.
  induction count as [|count IH]; intros index cptr rptr b out Hb E.
  - exists []. split; [reflexivity|]. split; [reflexivity|]. intros [|j] v H; discriminate H.
  - cbn [decompress_loop] in E. rewrite Known in E. cbn [negb] in E.
    destruct (bindo_ok _ _ _ E) as (br & L & E1). cbn beta in E1. clear E.
    destruct (bindo_ok _ _ _ E1) as (nb & NB & E2). cbn beta in E2. clear E1.
    change (if is_per_track_rounding_supported ds then apply_rounding_policy (d_alpha c) (w_rounding w (d_rounding c) index) else d_alpha c)
      with (alpha_of w index) in E2.
    destruct (bindo_ok _ _ _ E2) as (value & V & E3). cbn beta in E3. clear E2.
    destruct (bindo_ok _ _ _ E3) as (rest & R & E4). cbn beta in E4. clear E3 E4 out.
    set (bits := mulw 32 nb (N.of_nat nc)) in *.
    set (cptr' := if nb =? 0 then cptr + 4 * N.of_nat nc else cptr) in *.
    set (rptr' := if (nb =? 0) || (nb =? 32) then rptr else rptr + 4 * N.of_nat nc * 2) in *.
    assert (B : forall o, (if nb =? 0 then addw 32 o b else addw 32 (addw 32 o b) bits) = addw 32 o (addw 32 b bits)).
    { intros o. destruct (N.eqb_spec nb 0) as [->|Hn].
      - assert (bits = 0) as -> by (subst bits; reflexivity). rewrite addw_0_r32 by exact Hb. reflexivity.
      - apply addw_assoc32. }
    rewrite !B in R.
    destruct (IH (index + 1) cptr' rptr' (addw 32 b bits) rest (addw_lt32 _ _) R) as (vals & Len & P & Q).
    exists (value :: vals). split; [cbn [length]; lia|]. split.
    + intros w' Hw. cbn [decompress_loop]. rewrite Known. cbn [negb]. rewrite L. cbn [bindo]. rewrite NB. cbn [bindo].
      change (if is_per_track_rounding_supported ds then apply_rounding_policy (d_alpha c) (w_rounding w' (d_rounding c) index) else d_alpha c)
        with (alpha_of w' index).
      assert (alpha_of w' index = alpha_of w index) as -> by (unfold alpha_of; rewrite Hw; reflexivity).
      rewrite V. cbn [bindo]. fold cptr' rptr' bits. rewrite !B. rewrite (P w' Hw). cbn [bindo numbered].
      unfold not_skipped. cbn [filter fst]. destruct (w_skip w' index); reflexivity.
    + intros [|j] v H; cbn [nth_error] in H.
      * injection H as <-. rewrite N.add_0_r. exists cptr, rptr, b, br, nb. repeat split; assumption.
      * destruct (Q j v H) as (c2 & r2 & b2 & br2 & nb2 & S2 & L2 & NB2 & V2).
        replace (index + N.of_nat (S j)) with (index + 1 + N.of_nat j) by lia.
        exists c2, r2, b2, br2, nb2. split; [|repeat split; assumption].
        cbn [scan_tracks]. change m with (d_tracks c). rewrite L. cbn [bindo]. rewrite NB. cbn [bindo]. fold cptr'.
        replace (if nb =? 0 then rptr else if nb <? 32 then rptr + 4 * (N.of_nat nc * 2) else rptr) with rptr'; [exact S2|].
        subst rptr'. pose proof (num_bits_of_le _ _ _ NB). destruct (N.eqb_spec nb 0), (N.eqb_spec nb 32), (N.ltb_spec nb 32); cbn [orb]; try lia.
Qed.
End Random.

Lemma loop_unknown ds w c version ty nc animated mptr : known_type ds ty = false -> forall count index cptr rptr off0 off1 out,
  decompress_loop ds w c version ty nc animated mptr count index cptr rptr off0 off1 = Ok out ->
  (forall w', decompress_loop ds w' c version ty nc animated mptr count index cptr rptr off0 off1 = Ok []) /\
  (forall j cptr rptr b, (j < count)%nat -> exists x br nb, scan_tracks (d_tracks c) version nc mptr j index cptr rptr b = Ok x /\
     load8 (d_tracks c) (mptr + (index + N.of_nat j)) = Ok br /\ num_bits_of version br = Ok nb).
Proof.
  intros Known. induction count as [|count IH]; intros index cptr rptr off0 off1 out E.
  - split; [reflexivity|]. intros; lia.
  - cbn [decompress_loop] in E. rewrite Known in E. cbn [negb] in E.
    destruct (bindo_ok _ _ _ E) as (br & L & E1). cbn beta in E1. clear E.
    destruct (bindo_ok _ _ _ E1) as (nb & NB & E2). cbn beta in E2. clear E1.
    destruct (IH _ _ _ _ _ _ E2) as [P Q]. split.
    + intros w'. cbn [decompress_loop]. rewrite Known. cbn [negb]. rewrite L. cbn [bindo]. rewrite NB. cbn [bindo]. apply P.
    + intros [|j] c0 r0 b Hj.
      * rewrite N.add_0_r. exists (c0, r0, b), br, nb. repeat split; assumption.
      * cbn [scan_tracks]. rewrite L. cbn [bindo]. rewrite NB. cbn [bindo].
        replace (index + N.of_nat (S j)) with (index + 1 + N.of_nat j) by lia. apply Q. lia.
Qed.

Definition offsets_ok (c : dcontext) : Prop := d_offset0 c < 2 ^ 32 /\ d_offset1 c < 2 ^ 32.
Lemma offsets_fresh : offsets_ok fresh_context. Proof. split; reflexivity. Qed.
Lemma offsets_call ds c x c' : offsets_ok c -> do_call ds c x = Ok c' -> offsets_ok c'.
Proof.
  intros O E. destruct x as [m|m|p|t p]; cbn [do_call] in E.
  - unfold initialize in E. destruct (bindo_ok _ _ _ E) as (a & _ & E1). cbn beta in E1. destruct (bindo_ok _ _ _ E1) as (b & _ & E2). cbn beta in E2.
    destruct (bindo_ok _ _ _ E2) as (d & _ & E3). injection E3 as <-. exact O.
  - destruct (bindo_ok _ _ _ E) as ([b c1] & R & E1). injection E1 as <-. unfold relocated in R.
    destruct (bindo_ok _ _ _ R) as (a & _ & R1). cbn beta in R1. destruct (negb (d_hash c =? a)); injection R1 as <- <-; exact O.
  - unfold set_looping_policy in E. destruct (negb (is_wrapping_supported ds)); [injection E as <-; exact O|].
    destruct (bindo_ok _ _ _ E) as (a & _ & E1). cbn beta in E1. destruct (lp_eqb (d_looping c) a); [injection E1 as <-; exact O|].
    destruct (bindo_ok _ _ _ E1) as (d & _ & E2). injection E2 as <-. exact O.
  - unfold seek in E. destruct (bindo_ok _ _ _ E) as (n & _ & E1). cbn beta in E1. destruct (n =? 0); [injection E1 as <-; exact O|].
    destruct (feq _ _ && rp_eqb _ _); [injection E1 as <-; exact O|].
    destruct (bindo_ok _ _ _ E1) as (r & _ & E2). cbn beta in E2. destruct (bindo_ok _ _ _ E2) as ([[k0 k1] al] & _ & E3). cbn beta in E3.
    destruct (bindo_ok _ _ _ E3) as (bits & _ & E4). injection E4 as <-. split; cbn [d_offset0 d_offset1]; unfold mulw, wrapw; apply N.mod_lt; discriminate.
Qed.
Lemma offsets_calls ds l : forall c c', offsets_ok c -> do_calls ds c l = Ok c' -> offsets_ok c'.
Proof.
  induction l as [|x l IH]; intros c c' O E; [injection E as <-; exact O|]. cbn [do_calls] in E.
  destruct (bindo_ok _ _ _ E) as (c1 & E1 & E2). eapply IH; [|exact E2]. eapply offsets_call; eassumption.
Qed.

Lemma random_access ds c w out : offsets_ok c -> decompress_tracks ds c w = Ok out ->
  exists vals, forall w', same_rounding w w' ->
    decompress_tracks ds c w' = Ok (not_skipped w' (numbered 0 vals)) /\
    forall i, decompress_track ds c i w' = Ok (match nth_error vals (N.to_nat i) with Some v => [(i, v)] | None => [] end).
Proof.
  intros [O0 O1] E. unfold decompress_tracks, decompress_track in *.
  destruct (bindo_ok _ _ _ E) as (nt & NT & E1). cbn beta in E1. clear E. rewrite NT. cbn [bindo].
  destruct (N.eqb_spec nt 0) as [Z|Z].
  { exists []. intros w' _. split; [reflexivity|]. intros i. destruct (N.to_nat i); reflexivity. }
  destruct (flt (d_time c) f_zero) eqn:T.
  { exists []. intros w' _. split; [reflexivity|]. intros i. destruct (N.to_nat i); reflexivity. }
  destruct (bindo_ok _ _ _ E1) as (mptr & M & E2). cbn beta in E2. clear E1. rewrite M. cbn [bindo].
  destruct (bindo_ok _ _ _ E2) as (cptr & C & E1). cbn beta in E1. clear E2. rewrite C. cbn [bindo].
  destruct (bindo_ok _ _ _ E1) as (rptr & R & E2). cbn beta in E2. clear E1. rewrite R. cbn [bindo].
  destruct (bindo_ok _ _ _ E2) as (aptr & A & E1). cbn beta in E1. clear E2. rewrite A. cbn [bindo].
  destruct (bindo_ok _ _ _ E1) as (ty & TY & E2). cbn beta in E2. clear E1. rewrite TY. cbn [bindo].
  destruct (bindo_ok _ _ _ E2) as (ver & V & E1). cbn beta in E1. clear E2. rewrite V. cbn [bindo].
  destruct (known_type ds ty) eqn:K; cbn [negb].
  - rewrite <- (addw_0_r32 (d_offset0 c) O0) in E1. rewrite <- (addw_0_r32 (d_offset1 c) O1) in E1.
    destruct (loop_spec ds c ver ty _ _ mptr _ _ K w _ _ _ _ _ _ (eq_refl : 0 < 2 ^ 32) E1) as (vals & Len & P & Q).
    exists vals. intros w' Hw. split.
    + rewrite <- (P w' Hw). rewrite (addw_0_r32 (d_offset0 c) O0), (addw_0_r32 (d_offset1 c) O1). reflexivity.
    + intros i. destruct (N.leb_spec nt i) as [G|G].
      * destruct (nth_error vals (N.to_nat i)) as [v|] eqn:H; [|reflexivity].
        pose proof (proj1 (nth_error_Some vals (N.to_nat i)) ltac:(congruence)). lia.
      * destruct (nth_error vals (N.to_nat i)) as [v|] eqn:H; [|apply nth_error_None in H; lia].
        destruct (Q _ _ H) as (c2 & r2 & b2 & br & nb & S & L & NB & Va). rewrite N2Nat.id, N.add_0_l in L, Va.
        rewrite S. cbn [bindo]. rewrite L. cbn [bindo]. rewrite NB. cbn [bindo].
        change (if is_per_track_rounding_supported ds then apply_rounding_policy (d_alpha c) (w_rounding w' (d_rounding c) i) else d_alpha c)
          with (alpha_of ds c w' i).
        replace (alpha_of ds c w' i) with (alpha_of ds c w i) by (unfold alpha_of; rewrite Hw; reflexivity).
        rewrite Va. reflexivity.
  - destruct (loop_unknown ds w c ver ty _ _ mptr K _ _ _ _ _ _ _ E1) as [P Q]. exists []. intros w' _. split; [apply P|].
    intros i. replace (match nth_error [] (N.to_nat i) with Some v => [(i, v)] | None => [] end) with (@nil (N * list f32)) by (destruct (N.to_nat i); reflexivity).
    destruct (N.leb_spec nt i) as [G|G]; [reflexivity|].
    destruct (Q (N.to_nat i) cptr rptr 0 ltac:(lia)) as ([[x y] z] & br & nb & S & L & NB). rewrite N2Nat.id, N.add_0_l in L.
    rewrite S. cbn [bindo]. rewrite L. cbn [bindo]. rewrite NB. reflexivity.
Qed.
