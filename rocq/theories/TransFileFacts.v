(** The buffer of a transform clip: where each part is once all of them are written. *)
From Coq Require Import Lia Permutation.
From Verif Require Import Word WordFacts Pieces MemoryUtils MemoryFacts RewriteFacts LayoutFacts BitManip BitManipFacts Float32 Quant Headers HeadersFacts Packing PackSpec PackingFacts SubTracks SubTracksFacts DbBuild ScalarWrite
  TransDec TransSpec TransRing TransMem TransConst TransAnim TransAnim2 TransPose TransPoseFacts TransEnc TransEncSpec TransEncFacts TransEncAnim TransEncAnim2 TransEncBytes TransEncBytes2 TransEncBytes3
  TransClipSpec TransClip TransClip2 TransFile TransFileSizes TransFileBytes.
Local Open Scope N_scope.
Ltac Zify.zify_post_hook ::= idtac.

(** * Writes that leave what is below alone *)
Definition kept_below (off : N) (m m' : list N) : Prop :=
  blen m' = blen m /\ bytes_ok m' /\ forall k, (k < N.to_nat off)%nat -> nth_error m' k = nth_error m k.
Lemma kept_refl off m : bytes_ok m -> kept_below off m m.
Proof. intros B. repeat split. exact B. Qed.
Lemma kept_trans a b m m' m'' : kept_below a m m' -> kept_below b m' m'' -> a <= b -> kept_below a m m''.
Proof. intros (L1 & _ & K1) (L2 & B2 & K2) H. split; [lia |]. split; [exact B2 |]. intros k Hk. rewrite K2 by lia. apply K1, Hk. Qed.
Lemma kept_weaken a b m m' : kept_below b m m' -> a <= b -> kept_below a m m'.
Proof. intros (L & B & K) H. split; [exact L |]. split; [exact B |]. intros k Hk. apply K. lia. Qed.
Lemma kept_placed off m m' a l : kept_below off m m' -> placed m a l -> a + blen l <= off -> placed m' a l.
Proof.
  intros (_ & _ & K) P H k b Hb. rewrite K; [apply P, Hb |]. assert (k < length l)%nat by (apply nth_error_Some; congruence). unfold blen in H. lia.
Qed.
Lemma nth_of_error {A} (l l' : list A) k d : nth_error l k = nth_error l' k -> nth k l d = nth k l' d.
Proof.
  intros H. destruct (nth_error l k) as [x |] eqn:E.
  - rewrite (nth_error_nth l k d E). symmetry in H. rewrite (nth_error_nth l' k d H). reflexivity.
  - symmetry in H. apply nth_error_None in E, H. rewrite !nth_overflow by assumption. reflexivity.
Qed.
Lemma kept_bits off m m' i : kept_below off m m' -> i < 8 * off -> mbit m' i = mbit m i.
Proof.
  intros (_ & _ & K) H. unfold mbit. rewrite (nth_of_error m' m); [reflexivity |]. apply K. assert (i / 8 < off) by (apply N.div_lt_upper_bound; lia). lia.
Qed.
Lemma store_placed m off l : bytes_ok m -> bytes_ok l -> off + blen l <= blen m ->
  exists m', store_bytes m off l = Ok m' /\ kept_below off m m' /\ placed m' off l.
Proof.
  intros B BL H. unfold store_bytes. rewrite (proj2 (N.leb_le _ _) H). eexists. split; [reflexivity |].
  assert (E : blen (firstn (N.to_nat off) m) = off) by (unfold blen in *; rewrite firstn_length; lia). split.
  - split; [| split].
    + unfold blen in *. rewrite !app_length, firstn_length, skipn_length. lia.
    + apply bytes_app; [apply bytes_ok_firstn, B |]. apply bytes_app; [exact BL | apply bytes_ok_skipn, B].
    + intros k Hk. rewrite nth_error_app1 by (unfold blen in E; lia). clear - Hk. revert k Hk. generalize (N.to_nat off). intros n. revert m. induction n as [| n IH]; intros m k Hk; [lia |]. destruct m as [| x m]; [reflexivity |]. destruct k as [| k]; [reflexivity |]. cbn. apply IH. lia.
  - rewrite <- E at 3. apply placed_mid.
Qed.

(** * Alignment *)
Definition up2 (x : N) : N := 2 * ((x + 1) / 2).
Lemma up2_bounds x : x <= up2 x <= x + 1.
Proof. unfold up2. pose proof (N.div_mod (x + 1) 2 ltac:(discriminate)). pose proof (N.mod_lt (x + 1) 2 ltac:(discriminate)). lia. Qed.
Lemma up2_add a x : up2 (2 * a + x) = 2 * a + up2 x.
Proof. unfold up2. replace (2 * a + x + 1) with (a * 2 + (x + 1)) by lia. rewrite N.div_add_l by discriminate. lia. Qed.
Lemma mod_mul a b : b <> 0 -> (b * a) mod b = 0. Proof. intros H. rewrite N.mul_comm. apply N.mod_mul, H. Qed.
Lemma align_up2 w x : w = 32 \/ w = 64 -> x + 1 < 2 ^ 32 -> align_to w x 2 = up2 x.
Proof.
  intros W H. pose proof (al2 w x W H) as (A & B & C & D). cbv zeta in *. pose proof (up2_bounds x).
  assert (M : up2 x mod 2 = 0) by (unfold up2; apply mod_mul; discriminate). specialize (D (up2 x) ltac:(lia) M).
  set (r := align_to w x 2) in *. clearbody r. set (u := up2 x) in *. clearbody u.
  pose proof (N.div_mod r 2 ltac:(discriminate)). pose proof (N.div_mod u 2 ltac:(discriminate)). rewrite C in *. rewrite M in *. set (a := r / 2) in *. set (b := u / 2) in *. clearbody a b. lia.
Qed.
Lemma align_up4' w x : w = 32 \/ w = 64 -> x + 3 < 2 ^ 32 -> align_to w x 4 = up4 x.
Proof.
  intros W H. pose proof (al4 w x W H) as (A & B & C & D). cbv zeta in *. pose proof (up4_bounds x).
  assert (M : up4 x mod 4 = 0) by (unfold up4; apply mod_mul; discriminate). specialize (D (up4 x) ltac:(lia) M).
  set (r := align_to w x 4) in *. clearbody r. set (u := up4 x) in *. clearbody u.
  pose proof (N.div_mod r 4 ltac:(discriminate)). pose proof (N.div_mod u 4 ltac:(discriminate)). rewrite C in *. rewrite M in *. set (a := r / 4) in *. set (b := u / 4) in *. clearbody a b. lia.
Qed.

(** * The geometry of the segments: format bytes, ranges and animated data of the segment that starts at [b] *)
Definition ranges_at (F b : N) : N := up2 (b + F).
Definition animated_at (F R b : N) : N := up4 (ranges_at F b + R).
Definition next_base (F R D b : N) : N := animated_at F R b + D.
Fixpoint bases_end (F R : N) (Ds : list N) (b : N) : N := match Ds with [] => b | D :: t => bases_end F R t (next_base F R D b) end.
Lemma geometry F R D b : b + F <= ranges_at F b /\ ranges_at F b <= b + F + 1 /\ ranges_at F b + R <= animated_at F R b /\ animated_at F R b <= ranges_at F b + R + 3 /\ next_base F R D b = animated_at F R b + D.
Proof. unfold next_base, animated_at, ranges_at. pose proof (up2_bounds (b + F)). pose proof (up4_bounds (up2 (b + F) + R)). lia. Qed.
Lemma bases_grow F R Ds : forall b, b <= bases_end F R Ds b.
Proof. induction Ds as [| D t IH]; intros b; cbn [bases_end]; [lia |]. specialize (IH (next_base F R D b)). pose proof (geometry F R D b). lia. Qed.
Lemma shifted a F R D b : a mod 4 = 0 -> ranges_at F (a + b) = a + ranges_at F b /\ animated_at F R (a + b) = a + animated_at F R b /\ next_base F R D (a + b) = a + next_base F R D b.
Proof.
  intros M. pose proof (N.div_mod a 4 ltac:(discriminate)) as E. rewrite M in E. set (q := a / 4) in *. clearbody q. rewrite N.add_0_r in E.
  assert (E1 : ranges_at F (a + b) = a + ranges_at F b). { unfold ranges_at. replace (a + b + F) with (2 * (2 * q) + (b + F)) by lia. rewrite up2_add. lia. }
  assert (E2 : animated_at F R (a + b) = a + animated_at F R b). { unfold animated_at. rewrite E1. replace (a + ranges_at F b + R) with (4 * q + (ranges_at F b + R)) by lia. rewrite up4_mul. lia. }
  split; [exact E1 |]. split; [exact E2 |]. unfold next_base. lia.
Qed.

(** * The segments *)
Definition formats_of (p : tclip) : formats :=
  {| fm_rotation := p_rotation p; fm_translation := p_translation p; fm_scale := p_scale p; fm_has_scale := p_has_scale p; fm_has_segments := 1 <? num_segments p |}.
Lemma formats_variable p ch : variable (formats_of p) ch = p_variable p ch. Proof. destruct ch; reflexivity. Qed.
Definition kept_of (p : tclip) (g : tsegment) : N -> bool := is_kept (p_stripped p) (g_hard g).
Definition num_stored (p : tclip) (g : tsegment) : N := kept_before (kept_of p g) (g_num_samples g).
Definition pose_size (p : tclip) (out : list content) (i : N) : N := stored_sizes (key_frame_samples (formats_of p) out i 0).
Definition data_size (p : tclip) (out : list content) (i : N) (g : tsegment) : N := (pose_size p out i * num_stored p g + 7) / 8.
Definition header_stride (p : tclip) : N := if p_stripped p then 20 else 16.

(** a segment that contains the tracks: each has samples, and its data is not too large *)
Record segment_ok (p : tclip) (out : list content) (i : N) (g : tsegment) : Prop := {
  so_samples : 1 <= g_num_samples g;
  so_holds : exists l, outputs (g_bones g) (p_mapping p) l /\ Forall2 (bone_holds (formats_of p) i (g_num_samples g)) l out;
  so_bits : pose_size p out i * num_stored p g + 7 < 2 ^ 32;
  so_pose : pose_size p out i < 2 ^ 32;
  so_hard : p_stripped p = true -> g_num_samples g <= 32 /\ g_hard g < 2 ^ 32 /\ forall k, g_num_samples g <= k < 32 -> N.testbit (g_hard g) (31 - k) = false
}.

Section Segments.
  Context (p : tclip) (out : list content).
  Let f := formats_of p.
  Let F := formats_size f out.
  Let R := if 1 <? num_segments p then 6 * F else 0.
  Let hs := header_stride p.
  Hypothesis Small : len out + 16 < 2 ^ 32.
  Hypothesis SmallF : 6 * F + 6 < 2 ^ 32.

  Definition size_of (i : N) (g : tsegment) : seg_sizes :=
    {| z_rotation := stored_sizes (samples out i 0 Rotation); z_translation := stored_sizes (samples out i 0 Translation);
       z_pose := pose_size p out i; z_range := R; z_data := data_size p out i g |}.
  Fixpoint sizes_from (i : N) (gs : list tsegment) : list seg_sizes := match gs with [] => [] | g :: t => size_of i g :: sizes_from (i + 1) t end.
  Fixpoint segments_ok (i : N) (gs : list tsegment) : Prop := match gs with [] => True | g :: t => segment_ok p out i g /\ segments_ok (i + 1) t end.
  Definition datas (i : N) (gs : list tsegment) : list N := map z_data (sizes_from i gs).

  Lemma kept_all n : kept_before (fun _ => true) n = n.
  Proof. unfold kept_before. assert (E : filter (fun _ : N => true) (sample_indices n) = sample_indices n) by (induction (sample_indices n) as [| x l IH]; [reflexivity | cbn [filter]; rewrite IH; reflexivity]).
    rewrite E. unfold sample_indices. rewrite map_length, seq_length. lia. Qed.
  Lemma filter_false {A} (P : A -> bool) l : (forall x, In x l -> P x = false) -> filter P l = [].
  Proof. induction l as [| x l IH]; intros H; [reflexivity |]. cbn [filter]. rewrite (H x (or_introl eq_refl)). apply IH. intros y Hy. apply H. right. exact Hy. Qed.
  Lemma filter_rev_length {A} (P : A -> bool) l : length (filter P (rev l)) = length (filter P l).
  Proof. induction l as [| x l IH]; [reflexivity |]. cbn [rev]. rewrite filter_app, app_length, IH. cbn [filter]. destruct (P x); cbn [length]; lia. Qed.
  Lemma kept_hard hard n : n <= 32 -> hard < 2 ^ 32 -> (forall k, n <= k < 32 -> N.testbit hard (31 - k) = false) ->
    count_set_bits32 hard = kept_before (is_kept true hard) n.
  Proof.
    intros Hn Hh Hz. rewrite count_set_bits32_spec by exact Hh.
    assert (E : kept_before (is_kept true hard) n = kept_before (is_kept true hard) 32).
    { unfold kept_before, sample_indices. replace (N.to_nat 32) with (N.to_nat n + (32 - N.to_nat n))%nat by lia. rewrite seq_app, map_app, filter_app, app_length.
      rewrite (filter_false _ (map N.of_nat (seq (0 + N.to_nat n) (32 - N.to_nat n)))); [cbn [length]; f_equal; lia |].
      intros x Hx. apply in_map_iff in Hx as (j & <- & Hj). apply in_seq in Hj. unfold is_kept. apply Hz. lia. }
    rewrite E. unfold num_set_bits, kept_before, sample_indices. f_equal. change (N.to_nat 32) with 32%nat.
    transitivity (length (filter (fun i => N.testbit hard (N.of_nat i)) (rev (seq 0 32)))).
    - symmetry. apply filter_rev_length.
    - change (rev (seq 0 32)) with (map (fun i => (31 - i)%nat) (seq 0 32)). set (L := seq 0 32). assert (HL : forall i, In i L -> (i < 32)%nat) by (intros i Hi; apply in_seq in Hi; lia).
      clearbody L. induction L as [| x L IH]; [reflexivity |]. cbn [map filter]. unfold is_kept at 1. specialize (HL x (or_introl eq_refl)) as Hx.
      replace (N.of_nat (31 - x)) with (31 - N.of_nat x) by lia. specialize (IH (fun i Hi => HL i (or_intror Hi))). destruct (N.testbit hard (31 - N.of_nat x)); cbn [length]; rewrite IH; reflexivity.
  Qed.
  Lemma num_stored_ok i g : segment_ok p out i g -> (if p_stripped p then count_set_bits32 (g_hard g) else g_num_samples g) = num_stored p g.
  Proof.
    intros H. unfold num_stored, kept_of. destruct (p_stripped p) eqn:E.
    - destruct (so_hard _ _ _ _ H E) as (H1 & H2 & H3). apply kept_hard; assumption.
    - unfold is_kept. symmetry. apply kept_all.
  Qed.
  Lemma eighths x : x + 7 < 2 ^ 32 -> align_to 32 x 8 / 8 = (x + 7) / 8.
  Proof.
    intros H. destruct (align_to_spec 32 x 3) as (A & B & C & D); [lia | lia | lia | change (2 ^ 3 - 1) with 7; lia |]. change (2 ^ 3) with 8 in *. set (r := align_to 32 x 8) in *. clearbody r.
    pose proof (N.div_mod r 8 ltac:(discriminate)) as E. rewrite B in E. set (q := r / 8) in *. clearbody q.
    apply (N.div_unique (x + 7) 8 q (x + 7 - r)); lia.
  Qed.
  Lemma segment_sizes_ok i g : segment_ok p out i g -> segment_sizes p g = Ok (size_of i g).
  Proof.
    intros K. destruct (so_holds _ _ _ _ K) as (l & O & H). pose proof (so_samples _ _ _ _ K) as N1. pose proof (so_pose _ _ _ _ K) as W. pose proof (so_bits _ _ _ _ K) as WB.
    assert (E : pose_size p out i = stored_sizes (samples out i 0 Rotation) + stored_sizes (samples out i 0 Translation) + stored_sizes (samples out i 0 Scale)) by (unfold pose_size, key_frame_samples; rewrite !stored_sizes_app; lia).
    unfold segment_sizes. rewrite (num_stored_ok i g K).
    rewrite (pose_bits_ok (formats_of p) i _ l out H Rotation _ _ 0 0 (proj1 O)) by lia. cbn [bindo].
    rewrite (pose_bits_ok (formats_of p) i _ l out H Translation _ _ 0 0 (proj1 O)) by lia. cbn [bindo].
    rewrite (pose_bits_ok (formats_of p) i _ l out H Scale _ _ 0 0 (proj1 O)) by lia. cbn [bindo]. rewrite !N.add_0_l.
    rewrite (addw_small 32 (stored_sizes (samples out i 0 Rotation))) by lia. rewrite addw_small by lia. rewrite <- E. rewrite mulw_small by lia. rewrite eighths by exact WB.
    unfold size_of, data_size. f_equal. f_equal. subst R F f. unfold is_range_reduced. destruct (1 <? num_segments p) eqn:E1; [| rewrite Bool.andb_false_r; reflexivity]. rewrite Bool.andb_true_r.
    destruct (p_variable p Rotation || p_variable p Translation || p_variable p Scale) eqn:E2.
    - rewrite <- (range_size_ok (formats_of p) i _ _ _ l out H O Small) by lia. unfold segment_range_size. reflexivity.
    - apply Bool.orb_false_iff in E2 as [E2 E3]. apply Bool.orb_false_iff in E2 as [E2 E4]. unfold formats_size. rewrite !formats_variable, E2, E3, E4. reflexivity.
  Qed.
  Lemma all_sizes_ok gs : forall i, segments_ok i gs -> all_sizes p gs = Ok (sizes_from i gs).
  Proof. induction gs as [| g t IH]; intros i K; [reflexivity |]. destruct K as [K1 K2]. cbn [all_sizes sizes_from]. rewrite (segment_sizes_ok i g K1). cbn [bindo]. rewrite (IH _ K2). reflexivity. Qed.
End Segments.
