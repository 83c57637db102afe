(** The sizes that the compressor computes are those of what it writes. *)
From Coq Require Import Lia Permutation.
From Verif Require Import Word WordFacts Pieces MemoryUtils MemoryFacts LayoutFacts Float32 Quant Headers SubTracks SubTracksFacts DbBuild ScalarWrite
  TransDec TransSpec TransRing TransMem TransConst TransAnim TransAnim2 TransPose TransPoseFacts TransEnc TransEncSpec TransEncFacts TransEncAnim TransEncAnim2 TransEncBytes TransEncBytes2 TransEncBytes3
  TransClipSpec TransClip TransClip2 TransFile.
Local Open Scope N_scope.
Ltac Zify.zify_post_hook ::= idtac.

(** * Sums *)
Definition total {A} (f : A -> N) (l : list A) : N := fold_right (fun x a => f x + a) 0 l.
Lemma total_ext {A} (f g : A -> N) l : (forall x, In x l -> f x = g x) -> total f l = total g l.
Proof. unfold total. induction l as [| x l IH]; intros H; [reflexivity |]. cbn [fold_right]. rewrite (H x (or_introl eq_refl)), IH; [reflexivity |]. intros y Hy. apply H. right. exact Hy. Qed.
Lemma total_perm {A} (f : A -> N) l l' : Permutation l l' -> total f l = total f l'.
Proof. unfold total. induction 1; cbn [fold_right]; lia. Qed.
Lemma total_filter {A} (P : A -> bool) (f : A -> N) l : total f (filter P l) = total (fun x => if P x then f x else 0) l.
Proof. unfold total. induction l as [| x l IH]; [reflexivity |]. cbn [filter fold_right]. destruct (P x); cbn [fold_right]; rewrite IH; reflexivity. Qed.
Lemma total_plus {A} (f g : A -> N) l : total (fun x => f x + g x) l = total f l + total g l.
Proof. unfold total. induction l as [| x l IH]; [reflexivity |]. cbn [fold_right]. rewrite IH. lia. Qed.
Lemma total_mul {A} c (f : A -> N) l : total (fun x => c * f x) l = c * total f l.
Proof. unfold total. induction l as [| x l IH]; cbn [fold_right]; [lia |]. rewrite IH. lia. Qed.
Lemma total_count {A} (P : A -> bool) l : total (fun x => if P x then 1 else 0) l = len (filter P l).
Proof. unfold total. induction l as [| x l IH]; [reflexivity |]. cbn [filter fold_right]. destruct (P x); rewrite ?len_cons, IH; lia. Qed.
Lemma total_F2 {A B} (R : A -> B -> Prop) (f : A -> N) (g : B -> N) l l' : (forall x y, R x y -> f x = g y) -> Forall2 R l l' -> total f l = total g l'.
Proof. intros H. unfold total. induction 1 as [| x y l l' E F IH]; [reflexivity |]. cbn [fold_right]. rewrite (H x y E), IH. reflexivity. Qed.
Lemma total_zero {A} (l : list A) : total (fun _ => 0) l = 0.
Proof. unfold total. induction l as [| x l IH]; [reflexivity |]. cbn [fold_right]. exact IH. Qed.
Lemma total_le {A} (f g : A -> N) l : (forall x, f x <= g x) -> total f l <= total g l.
Proof. intros H. unfold total. induction l as [| x l IH]; cbn [fold_right]; [lia |]. specialize (H x). lia. Qed.
Lemma filter_le {A} (P : A -> bool) l : len (filter P l) <= len l.
Proof. unfold len. induction l as [| x l IH]; [reflexivity |]. cbn [filter]. destruct (P x); cbn [length]; lia. Qed.

(** * 32 bit sums that do not overflow *)
Lemma fold_total {A} (f : A -> N) (g : N -> A -> N) l : (forall a x, In x l -> a + f x < 2 ^ 32 -> g a x = a + f x) -> forall a, a + total f l < 2 ^ 32 -> fold_left g l a = a + total f l.
Proof.
  induction l as [| x l IH]; intros G a H; cbn [fold_left total fold_right] in *; [lia |]. fold (total f l) in *.
  rewrite G; [| left; reflexivity | lia]. rewrite IH; [lia | | lia]. intros a' y Hy. apply G. right. exact Hy.
Qed.
Lemma fold_total2 {A} (f1 f2 : A -> N) (g : N * N -> A -> N * N) l :
  (forall a x, fst a + f1 x < 2 ^ 32 -> snd a + f2 x < 2 ^ 32 -> g a x = (fst a + f1 x, snd a + f2 x)) ->
  forall a, fst a + total f1 l < 2 ^ 32 -> snd a + total f2 l < 2 ^ 32 -> fold_left g l a = (fst a + total f1 l, snd a + total f2 l).
Proof.
  intros G. induction l as [| x l IH]; intros a H1 H2; cbn [fold_left total fold_right] in *; [rewrite !N.add_0_r; destruct a; reflexivity |].
  fold (total f1 l) in *. fold (total f2 l) in *. rewrite G by lia. rewrite IH by (cbn [fst snd]; lia). cbn [fst snd]. rewrite !N.add_assoc. reflexivity.
Qed.

Definition is_output (b : tbone) : bool := negb (b_output_index b =? 0xFFFFFFFF).
(** the mapping lists the output bones: each once *)
Definition outputs (bones : list tbone) (mapping : list N) (l : list tbone) : Prop :=
  mapped bones mapping l /\ Permutation l (filter is_output bones).
Lemma total_outputs bones mapping l f : outputs bones mapping l -> total (fun b => if is_output b then f b else 0) bones = total f l.
Proof. intros [_ P]. rewrite <- total_filter. symmetry. apply total_perm, P. Qed.

Section Sizes.
  Context (f : formats) (g n : N) (bones : list tbone) (mapping : list N) (l : list tbone) (out : list content).
  Hypothesis H : Forall2 (bone_holds f g n) l out.
  Hypothesis O : outputs bones mapping l.
  Hypothesis Small : len out + 16 < 2 ^ 32.

  Lemma animated_count ch : total (fun b => if is_output b then if negb (b_constant b ch) then 1 else 0 else 0) bones = len (ct_animated ch out).
  Proof.
    rewrite (total_outputs bones mapping l _ O). unfold ct_animated. rewrite <- total_count. eapply total_F2; [| exact H]. intros b c Hb. cbn. rewrite (bh_constant _ _ _ _ _ Hb). reflexivity.
  Qed.
  Lemma constant_count ch : total (fun b => if is_output b then if is_written_constant b ch then 1 else 0 else 0) bones = len (ct_constants ch out).
  Proof.
    rewrite (total_outputs bones mapping l _ O). unfold ct_constants. rewrite <- total_count. eapply total_F2; [| exact H]. intros b c Hb. cbn. unfold is_written_constant. rewrite (bh_constant _ _ _ _ _ Hb), (bh_default _ _ _ _ _ Hb). reflexivity.
  Qed.
  Lemma animated_le ch : len (ct_animated ch out) <= len out. Proof. apply filter_le. Qed.
  Lemma constants_le ch : len (ct_constants ch out) <= len out. Proof. apply filter_le. Qed.

  Lemma num_animated_ok ch : num_animated ch bones = len (ct_animated ch out).
  Proof.
    unfold num_animated. rewrite <- animated_count. rewrite (fold_total (fun b => if is_output b then if negb (b_constant b ch) then 1 else 0 else 0)).
    - lia.
    - intros a b _ Ha. unfold is_output in *. destruct (b_output_index b =? _); cbn [negb] in *; [lia |]. destruct (b_constant b ch); cbn [negb] in *; [lia |]. apply addw_small, Ha.
    - rewrite animated_count. pose proof (animated_le ch). lia.
  Qed.
  Lemma num_constant_ok ch : (fm_has_scale f = false -> ch <> Scale) -> get_num_constant_samples (fm_has_scale f) bones ch = len (ct_constants ch out).
  Proof.
    intros Hs. unfold get_num_constant_samples. rewrite <- constant_count. rewrite (fold_total (fun b => if is_output b then if is_written_constant b ch then 1 else 0 else 0)).
    - lia.
    - intros a b _ Ha. unfold is_output in *. destruct (b_output_index b =? _); cbn [negb] in *; [lia |].
      replace (match ch with Scale => fm_has_scale f | _ => true end) with true by (destruct ch; try reflexivity; destruct (fm_has_scale f); [reflexivity | contradiction (Hs eq_refl eq_refl)]).
      cbn [andb]. destruct (is_written_constant b ch); [apply addw_small, Ha | lia].
    - rewrite constant_count. pose proof (constants_le ch). lia.
  Qed.

  (** get_constant_data_size *)
  Definition constants_size : N := 4 * components f Rotation * len (ct_constants Rotation out) + 12 * len (ct_constants Translation out) + 12 * len (ct_constants Scale out).
  Lemma no_scale_constants : fm_has_scale f = false -> len (ct_constants Scale out) = 0.
  Proof.
    intros E. unfold ct_constants. rewrite <- total_count. transitivity (total (fun _ : content => 0) out).
    - apply total_ext. intros c Hc. clear - H E Hc. induction H as [| b c' bs cs Hb F IH]; [contradiction |]. destruct Hc as [-> | Hc]; [| exact (IH F Hc)].
      rewrite (bh_no_scale _ _ _ _ _ Hb E). reflexivity.
    - apply total_zero.
  Qed.
  Lemma constant_data_size_ok : constants_size < 2 ^ 32 -> get_constant_data_size (fm_has_scale f) bones = constants_size.
  Proof.
    intros W.
    assert (T : total (constant_size (fm_has_scale f)) bones = constants_size).
    { transitivity (total (fun b => if is_output b then constant_size (fm_has_scale f) b else 0) bones).
      { apply total_ext. intros b _. unfold is_output, constant_size. destruct (b_output_index b =? _); reflexivity. }
      rewrite <- total_filter. 
      transitivity (total (fun b => (if is_written_constant b Rotation then ts_packed_size (b_stream b Rotation) else 0) + (if is_written_constant b Translation then ts_packed_size (b_stream b Translation) else 0) +
        (if fm_has_scale f && is_written_constant b Scale then ts_packed_size (b_stream b Scale) else 0)) (filter is_output bones)).
      { apply total_ext. intros b Hb. apply filter_In in Hb as [_ Hb]. unfold is_output in Hb. unfold constant_size. destruct (b_output_index b =? _); [discriminate | reflexivity]. }
      rewrite <- (total_perm _ _ _ (proj2 O)). rewrite !total_plus. unfold constants_size.
      assert (G : forall ch, total (fun b => if is_written_constant b ch then ts_packed_size (b_stream b ch) else 0) l = 4 * components f ch * len (ct_constants ch out)).
      { intros ch. unfold ct_constants. rewrite <- total_count, <- total_mul. eapply total_F2; [| exact H]. intros b c Hb. cbn beta. unfold is_written_constant.
        rewrite (bh_constant _ _ _ _ _ Hb), (bh_default _ _ _ _ _ Hb), (bh_packed _ _ _ _ _ Hb). destruct (_ && _); lia. }
      rewrite (G Rotation), (G Translation). f_equal.
      destruct (fm_has_scale f) eqn:E; cbn [andb]; [apply (G Scale) |]. rewrite no_scale_constants by exact E. apply total_zero. }
    unfold get_constant_data_size. rewrite (fold_total (constant_size (fm_has_scale f))); [lia | | lia]. intros a b _ Ha. apply addw_small, Ha.
  Qed.

  (** get_format_per_track_data_size and the segment range size *)
  Definition formats_size : N :=
    (if variable f Rotation then up4 (len (ct_animated Rotation out)) else 0) + (if variable f Translation then len (ct_animated Translation out) else 0) +
    (if variable f Scale then len (ct_animated Scale out) else 0).
  Lemma up4_partial a x : (if x mod 4 =? 0 then a + x else a + x + (4 - x mod 4)) = a + up4 x.
  Proof.
    pose proof (N.div_mod x 4 ltac:(lia)) as D. pose proof (N.mod_lt x 4 ltac:(lia)) as L. set (r := x mod 4) in *. set (q := x / 4) in *. clearbody q r. subst x.
    rewrite up4_mul. destruct (N.eqb_spec r 0) as [-> | Z]; [reflexivity |].
    assert (U : up4 r = 4). { assert (R : r = 1 \/ r = 2 \/ r = 3) by lia. destruct R as [-> | [-> | ->]]; reflexivity. } lia.
  Qed.
  Lemma count_animated (v : bool) ch : total (fun b => if is_output b then is_animated v b ch else 0) bones = if v then len (ct_animated ch out) else 0.
  Proof.
    destruct v; [rewrite <- animated_count; apply total_ext; intros b _; unfold is_animated; rewrite andb_true_r; reflexivity |].
    transitivity (total (fun _ : tbone => 0) bones); [| apply total_zero].
    apply total_ext. intros b _. unfold is_animated. rewrite andb_false_r. destruct (is_output b); reflexivity.
  Qed.
  Lemma format_size_ok : formats_size < 2 ^ 32 -> get_format_per_track_data_size (variable f Rotation) (variable f Translation) (variable f Scale) bones = formats_size.
  Proof.
    intros W. unfold formats_size in W. pose proof (up4_bounds (len (ct_animated Rotation out))) as U.
    set (f1 := fun b => if is_output b then is_animated (variable f Rotation) b Rotation + is_animated (variable f Translation) b Translation + is_animated (variable f Scale) b Scale else 0).
    set (f2 := fun b => if is_output b then is_animated (variable f Rotation) b Rotation else 0).
    assert (T2 : total f2 bones = if variable f Rotation then len (ct_animated Rotation out) else 0) by apply count_animated.
    assert (T1 : total f1 bones = (if variable f Rotation then len (ct_animated Rotation out) else 0) + (if variable f Translation then len (ct_animated Translation out) else 0) + (if variable f Scale then len (ct_animated Scale out) else 0)).
    { rewrite <- !count_animated, <- !total_plus. apply total_ext. intros b _. unfold f1. destruct (is_output b); reflexivity. }
    unfold get_format_per_track_data_size. rewrite (fold_total2 f1 f2).
    - cbn [fst snd]. rewrite !N.add_0_l, T2, T1. unfold formats_size.
      set (x := len (ct_animated Rotation out)) in *. set (y := if variable f Translation then _ else _) in *. set (z := if variable f Scale then _ else _) in *. clearbody x y z.
      destruct (variable f Rotation).
      + pose proof (up4_partial (y + z) x) as P. destruct (N.eqb_spec (x mod 4) 0); [lia |]. pose proof (N.mod_lt x 4 ltac:(lia)). set (r := x mod 4) in *. clearbody r.
        rewrite addw_small; [lia |]. lia.
      + change (0 mod 4 =? 0) with true. cbn iota. lia.
    - intros a b H1 H2. unfold f1, f2 in *. unfold is_output in *. destruct (b_output_index b =? _); cbn [negb] in *; [rewrite !N.add_0_r; destruct a; reflexivity |].
      rewrite (addw_small 32 (snd a)) by lia. rewrite (addw_small 32 (fst a)) by lia. rewrite (addw_small 32 (fst a + _)) by lia. rewrite addw_small by lia. f_equal. lia.
    - cbn [fst]. rewrite T1. destruct (variable f Rotation); lia.
    - cbn [snd]. rewrite T2. destruct (variable f Rotation); lia.
  Qed.
  Lemma range_size_ok : 6 * formats_size < 2 ^ 32 -> segment_range_size (variable f) bones = 6 * formats_size.
  Proof.
    intros W. unfold formats_size in *. pose proof (up4_bounds (len (ct_animated Rotation out))) as U.
    set (f1 := fun b => if is_output b then 6 * (is_animated (variable f Rotation) b Rotation + is_animated (variable f Translation) b Translation + is_animated (variable f Scale) b Scale) else 0).
    set (f2 := fun b => if is_output b then is_animated (variable f Rotation) b Rotation else 0).
    assert (T2 : total f2 bones = if variable f Rotation then len (ct_animated Rotation out) else 0) by apply count_animated.
    assert (T1 : total f1 bones = 6 * ((if variable f Rotation then len (ct_animated Rotation out) else 0) + (if variable f Translation then len (ct_animated Translation out) else 0) + (if variable f Scale then len (ct_animated Scale out) else 0))).
    { rewrite <- !count_animated, <- !total_plus, <- total_mul. apply total_ext. intros b _. unfold f1. destruct (is_output b); lia. }
    unfold segment_range_size. rewrite (fold_total2 f1 f2).
    - cbn [fst snd]. rewrite !N.add_0_l, T2, T1.
      set (x := len (ct_animated Rotation out)) in *. set (y := if variable f Translation then _ else _) in *. set (z := if variable f Scale then _ else _) in *. clearbody x y z.
      destruct (variable f Rotation).
      + pose proof (up4_partial (y + z) x) as P. destruct (N.eqb_spec (x mod 4) 0); [lia |]. pose proof (N.mod_lt x 4 ltac:(lia)). set (r := x mod 4) in *. clearbody r.
        rewrite mulw_small by (change (2 ^ 32) with 4294967296; lia). rewrite addw_small; lia.
      + change (0 mod 4 =? 0) with true. cbn iota. lia.
    - intros a b H1 H2. unfold f1, f2 in *. unfold is_output in *. destruct (b_output_index b =? _); cbn [negb] in *; [rewrite !N.add_0_r; destruct a; reflexivity |].
      assert (E : forall ch, (if variable f ch && negb (b_constant b ch) then 6 else 0) = 6 * is_animated (variable f ch) b ch).
      { intros ch. unfold is_animated. rewrite andb_comm. destruct (_ && _); reflexivity. }
      rewrite !E. rewrite (addw_small 32 (fst a)) by lia. rewrite (addw_small 32 (fst a + _)) by lia. rewrite (addw_small 32 (fst a + _ + _)) by lia. f_equal; [lia |]. unfold is_animated at 1. rewrite (andb_comm (negb _)). destruct (variable f Rotation && negb (b_constant b Rotation)) eqn:Q; [| lia]. apply addw_small.
      unfold is_animated in H2. rewrite andb_comm, Q in H2. exact H2.
    - cbn [fst]. rewrite T1. destruct (variable f Rotation); lia.
    - cbn [snd]. rewrite T2. destruct (variable f Rotation); lia.
  Qed.

  (** the clip ranges: the bones that are not output are counted too *)
  Definition ranges_size : N := 24 * total (fun b => (if variable f Rotation && negb (b_constant b Rotation) then 1 else 0) + (if variable f Translation && negb (b_constant b Translation) then 1 else 0) +
    (if variable f Scale && negb (b_constant b Scale) then 1 else 0)) bones.
  Lemma clip_range_size_ok : ranges_size < 2 ^ 32 -> get_clip_range_data_size (variable f) (fm_rotation f) bones = ranges_size.
  Proof.
    intros W. unfold get_clip_range_data_size, ranges_size in *. rewrite <- total_mul in *.
    match type of W with total ?F _ < _ => rewrite (fold_total F); [lia | | exact W] end.
    intros a b _ Ha. cbn beta in Ha. assert (E : (if variable f Rotation then if rotation_full (fm_rotation f) then 32 else 24 else 0) = if variable f Rotation then 24 else 0).
    { unfold variable. destruct (fm_rotation f); reflexivity. }
    rewrite E. clear E. cbv zeta. change (2 ^ 32) with 4294967296 in *.
    assert (A : forall x y, x + y < 4294967296 -> addw 32 x y = x + y) by (intros; apply addw_small; change (2 ^ 32) with 4294967296; lia).
    destruct (b_constant b Rotation), (b_constant b Translation), (b_constant b Scale); rewrite ?andb_true_r, ?andb_false_r in *;
    destruct (variable f Rotation), (variable f Translation), (variable f Scale); cbn [andb negb] in *; try (rewrite (A a) by lia); try (rewrite (A (a + _)) by lia); try (rewrite (A (a + _ + _)) by lia); lia.
  Qed.
End Sizes.
