(** How large the buffer of a transform clip can be: a bound that only depends on the numbers of bones and of samples. *)
From Coq Require Import Lia Permutation.
From Verif Require Import Word WordFacts MemoryUtils SubTracks Headers PackSpec SeekSpec SegmentFacts ScalarWrite TransDec TransSpec TransRing TransMem TransEnc TransEncSpec TransEncAnim2 TransEncBytes TransEncBytes2 TransEncBytes3
  TransClipSpec TransFile TransFileSizes TransFileFacts TransFilePack TransPlaySpec.
Import ListNotations.
Local Open Scope N_scope.
Ltac Zify.zify_post_hook ::= idtac.

Lemma filter_short {A} (P : A -> bool) l : (length (filter P l) <= length l)%nat. Proof. induction l as [| x l IH]; cbn [filter length]; [lia |]. destruct (P x); cbn [length]; lia. Qed.
(** a sample takes at most 128 bits *)
Lemma sample_bits t k x : stream_sample t k x -> stored_size x <= 128.
Proof.
  unfold stream_sample, stored_size. destruct (ts_rate t =? 255); [| destruct (ts_rate t =? 0); [| destruct (ts_rate t =? 24)]].
  - intros (-> & [L _] & _). rewrite L. destruct (_ =? 16); lia.
  - intros (-> & _). lia.
  - intros (-> & [L _] & _). rewrite L. lia.
  - intros (B & _ & [L _] & _). rewrite L. lia.
Qed.
Lemma channel_bits f g n ch (l : list tbone) out : 1 <= n -> Forall2 (bone_holds f g n) l out -> stored_sizes (samples out g 0 ch) <= 128 * len out.
Proof.
  intros Hn. unfold samples, ct_animated. induction 1 as [| b c l out H _ IH]; [cbn; lia |]. rewrite len_cons. cbn [filter]. destruct (ct_constant c ch) eqn:C; cbn [negb]; [lia |]. cbn [map stored_sizes fold_right].
  pose proof (sample_bits _ _ _ (proj2 (bh_sample _ _ _ _ _ H ch 0 C ltac:(lia)))). unfold stored_sizes in IH. lia.
Qed.
Lemma stored_app a b : stored_sizes (a ++ b) = stored_sizes a + stored_sizes b.
Proof. unfold stored_sizes. induction a as [| x a IH]; cbn [app fold_right]; lia. Qed.
Lemma pose_bits_le p (l : list tbone) out g n : 1 <= n -> Forall2 (bone_holds (formats_of p) g n) l out -> pose_size p out g <= 384 * len out.
Proof.
  intros Hn H. unfold pose_size, key_frame_samples. rewrite !stored_app. pose proof (channel_bits _ _ _ Rotation _ _ Hn H). pose proof (channel_bits _ _ _ Translation _ _ Hn H). pose proof (channel_bits _ _ _ Scale _ _ Hn H). lia.
Qed.
Lemma stored_le p g : num_stored p g <= g_num_samples g.
Proof. unfold num_stored, kept_before, sample_indices. pose proof (filter_short (kept_of p g) (map N.of_nat (seq 0 (N.to_nat (g_num_samples g))))) as L. rewrite map_length, seq_length in L. lia. Qed.
Lemma div8 x : (8 * x + 7) / 8 = x.
Proof. rewrite N.mul_comm, N.div_add_l by discriminate. change (7 / 8) with 0. lia. Qed.
Lemma data_le p out i g : pose_size p out i <= 384 * len out -> data_size p out i g <= 48 * len out * g_num_samples g.
Proof.
  intros H. unfold data_size. pose proof (stored_le p g) as S0. rewrite <- (div8 (48 * len out * g_num_samples g)). apply N.div_le_mono; [discriminate |]. assert (pose_size p out i * num_stored p g <= 384 * len out * g_num_samples g) by (apply N.mul_le_mono; assumption). lia.
Qed.
Lemma bases_le F R Ds : forall b, bases_end F R Ds b <= b + sumN Ds + N.of_nat (length Ds) * (F + R + 4).
Proof.
  induction Ds as [| D t IH]; intros b; cbn [bases_end sumN length]; [lia |]. specialize (IH (next_base F R D b)). pose proof (geometry F R D b). lia.
Qed.
Lemma datas_le p out gs : forall i, (forall k, pose_size p out k <= 384 * len out \/ (forall j, (j < length gs)%nat -> k <> i + N.of_nat j)) -> sumN (datas p out i gs) <= 48 * len out * sumN (map g_num_samples gs).
Proof.
  induction gs as [| g gs IH]; intros i H; [cbn; lia |]. cbn [datas sizes_from map sumN length] in *. unfold datas in IH.
  assert (P : pose_size p out i <= 384 * len out). { destruct (H i) as [P | P]; [exact P |]. exfalso. apply (P 0%nat ltac:(lia)). lia. }
  pose proof (data_le p out i g P) as D. cbn [size_of z_data].
  assert (IH' := IH (i + 1)). specialize (IH'). assert (sumN (map z_data (sizes_from p out (i + 1) gs)) <= 48 * len out * sumN (map g_num_samples gs)).
  { apply IH'. intros k. destruct (H k) as [Q | Q]; [left; exact Q | right]. intros j Hj E. apply (Q (S j) ltac:(lia)). lia. }
  lia.
Qed.
Lemma filter_len {A} (P : A -> bool) l : len (filter P l) <= len l.
Proof. unfold len. pose proof (filter_short P l). lia. Qed.
Lemma total_le {A} (h : A -> N) l B : (forall x, h x <= B) -> total h l <= B * len l.
Proof. intros H. induction l as [| x l IH]; [cbn; lia |]. rewrite len_cons. unfold total in *. cbn [fold_right map] in *. specialize (H x). lia. Qed.

Lemma clip_end_le p out bones T : (forall i, i < num_segments p -> pose_size p out i <= 384 * len out) -> len out <= len bones -> sumN (sizes_of p) = T -> num_segments p <= T ->
  clip_end p out bones <= 128 * ((len bones + 1) * (T + 1)).
Proof.
  intros HP HL HT HS. unfold clip_end. set (F := formats_size (formats_of p) out). set (R := if 1 <? num_segments p then 6 * F else 0).
  pose proof (formats_size_le p out) as HF. fold F in HF. assert (HR : R <= 6 * F) by (unfold R; destruct (1 <? num_segments p); lia).
  pose proof (bases_le F R (datas p out 0 (p_segments p)) (segments_at p out bones)) as HB.
  assert (HD : sumN (datas p out 0 (p_segments p)) <= 48 * len out * T).
  { rewrite <- HT. apply datas_le. intros k. destruct (N.lt_ge_cases k (num_segments p)) as [L | L]; [left; apply HP, L | right]. unfold num_segments in L. intros j Hj. lia. }
  assert (HN : N.of_nat (length (datas p out 0 (p_segments p))) = num_segments p).
  { clear. unfold datas. rewrite map_length. unfold num_segments. f_equal. generalize 0. induction (p_segments p) as [| g gs IH]; intros i; [reflexivity |]. cbn [sizes_from length]. rewrite IH. reflexivity. }
  rewrite HN in HB.
  assert (H1 : segments_at p out bones <= 88 + 24 * num_segments p + 12 * (len out + 1) + 40 * len out + 72 * len bones).
  { unfold segments_at, clip_ranges_at, constants_at, types_at, headers_at.
    assert (A1 : starts_size p <= 4 * (num_segments p + 1)) by (unfold starts_size; destruct (1 <? num_segments p); lia).
    assert (A2 : headers_size p <= 20 * num_segments p) by (unfold headers_size, header_stride; destruct (p_stripped p); lia).
    assert (A3 : types_size p out <= 12 * (len out + 1)).
    { unfold types_size, num_sub_track_entries. assert ((len out + 16 - 1) / 16 <= len out + 1). { apply N.div_le_upper_bound; [discriminate |]. lia. } set (d := (len out + 16 - 1) / 16) in *. clearbody d. destruct (p_has_scale p); lia. }
    assert (A4 : constants_size (formats_of p) out <= 40 * len out).
    { unfold constants_size. assert (C4 : components (formats_of p) Rotation <= 4) by (cbn; destruct (p_rotation p); cbn; lia).
      pose proof (filter_len (fun c => negb (ct_default c Rotation) && ct_constant c Rotation) out) as L1. pose proof (filter_len (fun c => negb (ct_default c Translation) && ct_constant c Translation) out) as L2. pose proof (filter_len (fun c => negb (ct_default c Scale) && ct_constant c Scale) out) as L3.
      fold (ct_constants Rotation out) in L1. fold (ct_constants Translation out) in L2. fold (ct_constants Scale out) in L3. assert (4 * components (formats_of p) Rotation * len (ct_constants Rotation out) <= 16 * len out) by (apply N.mul_le_mono; [lia | exact L1]). lia. }
    assert (A5 : clip_ranges_size p bones <= 72 * len bones).
    { unfold clip_ranges_size, ranges_size. destruct (is_range_reduced p); [| lia]. match goal with |- 24 * total ?h ?l <= _ => assert (total h l <= 3 * len l) end; [| lia]. apply total_le. intros b.
      destruct (_ && _), (_ && _), (_ && _); lia. }
    lia. }
  set (S0 := num_segments p) in *. set (L := len out) in *. set (B := len bones) in *. set (z := segments_at p out bones) in *. set (e := bases_end _ _ _ _) in *. clearbody e z S0 L B F R.
  assert (E1 : S0 * (F + R + 4) <= T * (21 * B + 25)) by (apply N.mul_le_mono; lia). assert (E2 : 48 * L * T <= 48 * B * T) by (apply N.mul_le_mono; lia).
  lia.
Qed.
