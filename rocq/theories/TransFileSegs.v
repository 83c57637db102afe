(** The segment headers and the segments of a transform clip. *)
From Coq Require Import Lia Permutation.
From Verif Require Import Word WordFacts Pieces MemoryUtils MemoryFacts RewriteFacts LayoutFacts BitManip BitManipFacts Float32 Quant Headers HeadersFacts Packing PackSpec PackingFacts SubTracks SubTracksFacts DbBuild ScalarWrite
  TransDec TransSpec TransRing TransMem TransConst TransAnim TransAnim2 TransPose TransPoseFacts TransEnc TransEncSpec TransEncFacts TransEncAnim TransEncAnim2 TransEncBytes TransEncBytes2 TransEncBytes3
  TransClipSpec TransClip TransClip2 TransFile TransFileSizes TransFileBytes TransFileFacts.
Local Open Scope N_scope.
Ltac Zify.zify_post_hook ::= idtac.

Lemma list_ext_error {A} (l l' : list A) : (forall j, nth_error l j = nth_error l' j) -> l = l'.
Proof.
  revert l'. induction l as [| x l IH]; intros [| y l'] H; [reflexivity | specialize (H 0%nat); discriminate | specialize (H 0%nat); discriminate |].
  pose proof (H 0%nat) as H0. cbn in H0. inversion H0; subst. f_equal. apply IH. intros j. apply (H (S j)).
Qed.
Lemma nth_error_firstn' {A} (l : list A) : forall n k, (k < n)%nat -> nth_error (firstn n l) k = nth_error l k.
Proof. induction l as [| x l IH]; intros [| n] k Hk; try lia; [reflexivity |]. destruct k as [| k]; [reflexivity |]. cbn. apply IH. lia. Qed.
Lemma nth_error_skipn' {A} n : forall (l : list A) k, nth_error (skipn n l) k = nth_error l (n + k).
Proof. induction n as [| n IH]; intros l k; [reflexivity |]. destruct l as [| x l]; [cbn; destruct k; reflexivity |]. cbn. apply IH. Qed.
Lemma kept_stored_at off m m' a bit l : kept_below off m m' -> stored_at (skipn (N.to_nat a) m) bit l -> 8 * a + bit + stored_sizes l <= 8 * off ->
  stored_at (skipn (N.to_nat a) m') bit l.
Proof.
  intros K S H. apply (stored_at_ext (skipn (N.to_nat a) m)); [| exact S]. intros i Hi. rewrite !mbit_skipn. symmetry. apply (kept_bits off _ _ _ K). lia.
Qed.
(** a sample that takes no bits is anywhere *)
Lemma stored_nowhere m bit l : stored_sizes l = 0 -> stored_at m bit l.
Proof.
  revert bit. induction l as [| x l IH]; intros bit E; [exact I |]. rewrite stored_sizes_cons in E. split; [| apply IH; lia].
  assert (E0 : stored_size x = 0) by lia. unfold stored_size in E0. destruct (s_vals x) as [| v vs] eqn:EV; [exact I |].
  assert (Z : s_bits x = 0) by (cbn [length] in E0; lia). rewrite Z. clear. set (ws := v :: vs). clearbody ws. revert bit. induction ws as [| w ws IH]; intros bit; [exact I |]. split; [intros j Hj; lia | apply IH].
Qed.
Lemma words_bytes ws : words ws = word_bytes ws. Proof. reflexivity. Qed.
Lemma words_ok ws : bytes_ok (words ws). Proof. apply word_bytes_ok. Qed.
Lemma words_blen ws : blen (words ws) = 4 * len ws. Proof. apply word_bytes_blen. Qed.
Lemma words_cons w ws : words (w :: ws) = le_bytes 4 w ++ words ws. Proof. reflexivity. Qed.
Lemma le4_blen w : blen (le_bytes 4 w) = 4. Proof. unfold blen. rewrite le_bytes_length. reflexivity. Qed.
Lemma placed_blen m off l : placed m off l -> 0 < blen l -> off + blen l <= blen m.
Proof.
  intros P H. unfold blen in *. assert (E : exists b, nth_error l (length l - 1) = Some b). { destruct (nth_error l (length l - 1)) eqn:E; [eauto |]. apply nth_error_None in E. lia. }
  destruct E as (b & E). apply P in E. assert (N.to_nat off + (length l - 1) < length m)%nat by (apply nth_error_Some; congruence). lia.
Qed.
Lemma kept_read off m m' o : kept_below off m m' -> o + 4 <= off -> read32 m' o = read32 m o.
Proof.
  intros (L & _ & K) H. unfold read32, load_le, load_bytes. rewrite L. destruct (o + N.of_nat 4 <=? blen m); [| reflexivity]. cbn [bindo]. do 2 f_equal.
  apply list_ext_error. intros j. destruct (Nat.lt_ge_cases j 4) as [Hj | Hj].
  - rewrite !nth_error_firstn' by exact Hj. rewrite !nth_error_skipn'. apply K. lia.
  - rewrite !(proj2 (nth_error_None _ _)); [reflexivity | |]; rewrite firstn_length; lia.
Qed.
(** a word of a placed list of words *)
Lemma read_word m off ws k w : placed m off (words ws) -> nth_error ws (N.to_nat k) = Some w -> w < 2 ^ 32 -> read32 m (off + 4 * k) = Ok w.
Proof.
  intros P E W. pose proof (placed_blen _ _ _ P) as L. rewrite words_blen in L. assert (K : (N.to_nat k < length ws)%nat) by (apply nth_error_Some; congruence).
  apply nth_error_split in E as (l1 & l2 & E1 & E2). subst ws. assert (EW : words (l1 ++ w :: l2) = words l1 ++ le_bytes 4 w ++ words l2) by (unfold words; rewrite map_app, concat_app; reflexivity).
  rewrite EW in P. apply placed_app in P as [_ P]. apply placed_app in P as [P _]. rewrite words_blen in P. replace (4 * len l1) with (4 * k) in P by (unfold len; lia).
  apply read32_placed; [exact P | | exact W]. rewrite len_app, len_cons in L. unfold len in L. lia.
Qed.

Section Segments.
  Context (p : tclip) (out : list content).
  Notation f := (formats_of p).
  Notation F := (formats_size (formats_of p) out).
  Notation R := (if 1 <? num_segments p then 6 * formats_size (formats_of p) out else 0).
  Notation hs := (header_stride p).
  Notation D := (data_size p out).
  Hypothesis Small : len out + 16 < 2 ^ 32.
  Hypothesis SmallF : 6 * F + 6 < 2 ^ 32.

  (** the header of segment [i], whose data is at [rel] bytes from the transform header *)
  Definition header_words (i : N) (g : tsegment) (rel : N) : list N :=
    [pose_size p out i; stored_sizes (samples out i 0 Rotation); stored_sizes (samples out i 0 Translation); rel] ++ if p_stripped p then [g_hard g] else [].
  Fixpoint headers_placed (m : list N) (i : N) (gs : list tsegment) (at_ rel : N) : Prop :=
    match gs with
    | [] => True
    | g :: t => placed m at_ (words (header_words i g rel)) /\ headers_placed m (i + 1) t (at_ + hs) (next_base F R (D i g) rel)
    end.
  Lemma header_blen i g rel : blen (words (header_words i g rel)) = hs.
  Proof. rewrite words_blen. unfold header_words, header_stride. destruct (p_stripped p); reflexivity. Qed.
  Lemma kept_headers m m' off gs : kept_below off m m' -> forall i at_ rel, headers_placed m i gs at_ rel -> at_ + hs * len gs <= off -> headers_placed m' i gs at_ rel.
  Proof.
    intros K. induction gs as [| g t IH]; intros i at_ rel P L; [exact I |]. destruct P as [P1 P2]. rewrite len_cons in L. split.
    - apply (kept_placed off m); [exact K | exact P1 |]. rewrite header_blen. lia.
    - apply IH; [exact P2 |]. lia.
  Qed.
  Notation datas := (datas p out).

  Lemma write_headers_ok gs : forall i at_ rel m, bytes_ok m -> at_ + hs * len gs <= blen m -> bases_end F R (datas i gs) rel + 8 < 2 ^ 32 ->
    exists m', write_segment_headers (p_stripped p) F gs (sizes_from p out i gs) at_ rel m = Ok m' /\ kept_below at_ m m' /\ headers_placed m' i gs at_ rel.
  Proof.
    induction gs as [| g t IH]; intros i at_ rel m B L W; cbn [write_segment_headers sizes_from].
    - exists m. split; [reflexivity |]. split; [apply kept_refl, B | exact I].
    - rewrite len_cons in L. cbn [TransFileFacts.datas sizes_from map bases_end] in W. change (z_data (size_of p out i g)) with (D i g) in W. fold (datas (i + 1) t) in W.
      pose proof (bases_grow F R (datas (i + 1) t) (next_base F R (D i g) rel)) as GR. pose proof (geometry F R (D i g) rel) as GE.
      change (z_pose (size_of p out i g)) with (pose_size p out i). change (z_rotation (size_of p out i g)) with (stored_sizes (samples out i 0 Rotation)).
      change (z_translation (size_of p out i g)) with (stored_sizes (samples out i 0 Translation)). change (z_range (size_of p out i g)) with R. change (z_data (size_of p out i g)) with (D i g).
      fold (header_words i g rel). change (if p_stripped p then 20 else 16) with hs.
      destruct (store_placed m at_ (words (header_words i g rel)) B (words_ok _)) as (m1 & E1 & K1 & P1); [rewrite header_blen; lia |]. rewrite E1. cbn [bindo].
      rewrite (addw_small 32 rel F) by lia. rewrite align_up2 by (try (left; reflexivity); unfold ranges_at in *; pose proof (up2_bounds (rel + F)); lia). change (up2 (rel + F)) with (ranges_at F rel).
      rewrite (addw_small 32 (ranges_at F rel)) by lia. rewrite align_up4' by (try (left; reflexivity); lia). change (up4 (ranges_at F rel + R)) with (animated_at F R rel).
      rewrite (addw_small 32 (animated_at F R rel)) by lia. replace (animated_at F R rel + D i g) with (next_base F R (D i g) rel) by lia.
      destruct K1 as (KL & KB & KK). destruct (IH (i + 1) (at_ + hs) (next_base F R (D i g) rel) m1 KB) as (m2 & E2 & K2 & P2); [lia | exact W |]. rewrite E2.
      exists m2. split; [reflexivity |]. split; [apply (kept_trans at_ (at_ + hs) m m1); [repeat split; assumption | exact K2 | lia] |].
      split; [| exact P2]. apply (kept_placed (at_ + hs) m1); [exact K2 | exact P1 |]. rewrite header_blen. lia.
  Qed.

  (** the data of segment [i], which starts at [b] *)
  Record segment_placed (m : list N) (i : N) (g : tsegment) (b : N) : Prop := {
    sp_formats : forall k, k < g_num_samples g -> placed m b (segment_formats f out i k);
    sp_ranges : 1 < num_segments p -> forall k, k < g_num_samples g -> placed m (ranges_at F b) (segment_ranges f out i k);
    sp_data : forall k, k < g_num_samples g -> kept_of p g k = true ->
      stored_at (skipn (N.to_nat (animated_at F R b)) m) (kept_before (kept_of p g) k * pose_size p out i) (key_frame_samples f out i k)
  }.
  Fixpoint segments_placed (m : list N) (i : N) (gs : list tsegment) (b : N) : Prop :=
    match gs with [] => True | g :: t => segment_placed m i g b /\ segments_placed m (i + 1) t (next_base F R (D i g) b) end.

  Lemma data_bits i g : pose_size p out i * num_stored p g <= 8 * D i g.
  Proof. unfold data_size. set (x := pose_size p out i * num_stored p g). pose proof (N.div_mod (x + 7) 8 ltac:(discriminate)). pose proof (N.mod_lt (x + 7) 8 ltac:(discriminate)). lia. Qed.
  Lemma frame_end i g k : segment_ok p out i g -> k < g_num_samples g -> kept_of p g k = true ->
    kept_before (kept_of p g) k * pose_size p out i + stored_sizes (key_frame_samples f out i k) <= 8 * D i g.
  Proof.
    intros K Hk Kp. destruct (so_holds _ _ _ _ K) as (l & O & H). rewrite (same_frame_size f i _ l out H k 0) by (try exact Hk; lia).
    change (stored_sizes (key_frame_samples f out i 0)) with (pose_size p out i). pose proof (kept_before_le (kept_of p g) k _ Hk Kp) as L. fold (num_stored p g) in L.
    pose proof (data_bits i g). set (P := pose_size p out i) in *. set (a := kept_before (kept_of p g) k) in *. clearbody a P. nia.
  Qed.
  Lemma kept_segment m m' i g b off : segment_ok p out i g -> kept_below off m m' -> segment_placed m i g b -> next_base F R (D i g) b <= off -> segment_placed m' i g b.
  Proof.
    intros K KB P L. pose proof (geometry F R (D i g) b) as GE. destruct (so_holds _ _ _ _ K) as (l & O & H). constructor.
    - intros k Hk. apply (kept_placed off m); [exact KB | apply (sp_formats _ _ _ _ P), Hk |]. rewrite (segment_formats_blen f _ out i k Hk Small). lia.
    - intros H1 k Hk. apply (kept_placed off m); [exact KB | apply (sp_ranges _ _ _ _ P H1), Hk |].
      assert (E : fm_has_segments f = true) by (apply N.ltb_lt, H1). rewrite (segment_ranges_blen f _ l out i k H Hk Small). apply N.ltb_lt in H1. rewrite H1 in *. lia.
    - intros k Hk Kp. apply (kept_stored_at off m); [exact KB | apply (sp_data _ _ _ _ P); assumption |]. pose proof (frame_end i g k K Hk Kp). lia.
  Qed.
  Lemma kept_segments m m' off : kept_below off m m' -> forall gs i b, segments_ok p out i gs -> segments_placed m i gs b -> bases_end F R (datas i gs) b <= off -> segments_placed m' i gs b.
  Proof.
    intros KB. induction gs as [| g t IH]; intros i b K P L; [exact I |]. destruct K as [K1 K2]. destruct P as [P1 P2].
    cbn [TransFileFacts.datas sizes_from map bases_end] in L. change (z_data (size_of p out i g)) with (D i g) in L. fold (datas (i + 1) t) in L.
    pose proof (bases_grow F R (datas (i + 1) t) (next_base F R (D i g) b)). split; [apply (kept_segment m m' i g b off K1 KB P1); lia | apply IH; assumption].
  Qed.

  Lemma pointers_ok m at_ i g rel : placed m at_ (words (header_words i g rel)) -> read32 m 36 = Ok F -> read32 m 32 = Ok (num_segments p) ->
    rel + F + R + 48 < 2 ^ 32 -> segment_pointers m at_ = Ok (32 + rel, ranges_at F (32 + rel), animated_at F R (32 + rel)).
  Proof.
    intros P EF EN W. unfold segment_pointers. pose proof (geometry F R 0 (32 + rel)) as GE.
    replace (at_ + 12) with (at_ + 4 * 3) by lia. rewrite (read_word m at_ _ 3 rel P) by (try reflexivity; lia). cbn [bindo].
    change (transform_header + 4) with 36. change transform_header with 32. rewrite EF. cbn [bindo]. rewrite EN. cbn [bindo]. cbv zeta.
    rewrite align_up2 by (try (right; reflexivity); lia). change (up2 (32 + rel + F)) with (ranges_at F (32 + rel)).
    assert (E : (if 1 <? num_segments p then mulw 32 6 F else 0) = R) by (destruct (1 <? num_segments p); [rewrite mulw_small by lia; reflexivity | reflexivity]). rewrite E.
    rewrite align_up4' by (try (right; reflexivity); lia). reflexivity.
  Qed.

  Lemma write_segments_ok junk : buffer_ok junk -> forall gs i at_ rel m, bytes_ok m -> segments_ok p out i gs -> headers_placed m i gs at_ rel ->
    read32 m 36 = Ok F -> read32 m 32 = Ok (num_segments p) -> 40 <= at_ -> at_ + hs * len gs <= 32 + rel -> bases_end F R (datas i gs) (32 + rel) <= blen m -> blen m + 64 < 2 ^ 32 ->
    exists m', write_segment_data junk p F gs (sizes_from p out i gs) at_ m = Ok m' /\ kept_below (32 + rel) m m' /\ segments_placed m' i gs (32 + rel).
  Proof.
    intros J. induction gs as [| g t IH]; intros i at_ rel m B K HP EF EN A40 L W WM; cbn [write_segment_data sizes_from].
    - exists m. split; [reflexivity |]. split; [apply kept_refl, B | exact I].
    - destruct K as [K1 K2]. destruct HP as [HP1 HP2]. rewrite len_cons in L. cbn [TransFileFacts.datas sizes_from map bases_end] in W. change (z_data (size_of p out i g)) with (D i g) in W. fold (datas (i + 1) t) in W.
      set (b := 32 + rel) in *. pose proof (geometry F R (D i g) b) as GE. pose proof (bases_grow F R (datas (i + 1) t) (next_base F R (D i g) b)) as GR.
      pose proof (so_samples _ _ _ _ K1) as N1. destruct (so_holds _ _ _ _ K1) as (l & O & H).
      assert (same_formats_k : forall k, k < g_num_samples g -> segment_formats f out i k = segment_formats f out i 0).
      { intros k Hk. pose proof (write_formats_clip f i _ k _ _ l out H (proj1 O) Hk) as E1. rewrite (write_formats_clip f i _ 0 _ _ l out H (proj1 O)) in E1 by lia. congruence. }
      assert (same_ranges_k : fm_has_segments f = true -> forall k, k < g_num_samples g -> segment_ranges f out i k = segment_ranges f out i 0).
      { intros Hs k Hk. pose proof (write_ranges_clip f i _ k _ _ l out H (proj1 O) Hk Hs) as E1. rewrite (write_ranges_clip f i _ 0 _ _ l out H (proj1 O)) in E1 by (try exact Hs; lia). congruence. }
      rewrite (pointers_ok m at_ i g rel HP1 EF EN) by lia. fold b. cbn [bindo].
      (* formats *)
      assert (S1 : exists m1, (if F =? 0 then Ok m else bindo (write_format_per_track_data (g_bones g) (p_has_scale p) (p_mapping p)) (store_bytes m b)) = Ok m1 /\
        kept_below b m m1 /\ placed m1 b (segment_formats f out i 0)).
      { pose proof (segment_formats_blen f _ out i 0 ltac:(apply N.lt_le_trans with 1; [reflexivity | exact N1]) Small) as BL. destruct (N.eqb_spec F 0) as [E0 | E0].
        - exists m. split; [reflexivity |]. split; [apply kept_refl, B |]. rewrite E0 in BL. unfold blen in BL. destruct (segment_formats f out i 0); [| cbn [length] in BL; lia]. intros k0 b0 E. destruct k0; discriminate.
        - change (p_has_scale p) with (fm_has_scale f). rewrite (write_formats_clip f i _ 0 _ _ l out H (proj1 O)) by lia. cbn [bindo]. apply store_placed; [exact B | apply (segment_formats_ok f (g_num_samples g) l); [exact H | lia] |]. rewrite BL. lia. }
      destruct S1 as (m1 & E1 & (KL1 & KB1 & KK1) & P1). rewrite E1. cbn [bindo].
      (* ranges *)
      change (z_range (size_of p out i g)) with R.
      assert (S2 : exists m2, (if R =? 0 then Ok m1 else bindo (write_segment_range_data (g_bones g) (p_has_scale p) (p_variable p) (p_mapping p)) (store_bytes m1 (ranges_at F b))) = Ok m2 /\
        kept_below (ranges_at F b) m1 m2 /\ (1 < num_segments p -> placed m2 (ranges_at F b) (segment_ranges f out i 0))).
      { pose proof (segment_ranges_blen f _ l out i 0 H ltac:(apply N.lt_le_trans with 1; [reflexivity | exact N1]) Small) as BL. destruct (N.eqb_spec R 0) as [E0 | E0].
        - exists m1. split; [reflexivity |]. split; [apply kept_refl, KB1 |]. intros H1. apply N.ltb_lt in H1. rewrite H1 in E0. rewrite E0 in BL. unfold blen in BL. destruct (segment_ranges f out i 0); [| cbn [length] in BL; lia]. intros k0 b0 E. destruct k0; discriminate.
        - destruct (1 <? num_segments p) eqn:E2; [| lia]. change (p_has_scale p) with (fm_has_scale f). change (p_variable p) with (variable f).
          rewrite (write_ranges_clip f i _ 0 _ _ l out H (proj1 O)) by (try exact E2; lia). cbn [bindo].
          destruct (store_placed m1 (ranges_at F b) (segment_ranges f out i 0) KB1) as (m2 & E3 & K3 & P3); [apply (segment_ranges_ok f (g_num_samples g) l); [exact H | lia] | rewrite BL; lia |].
          exists m2. split; [exact E3 |]. split; [exact K3 |]. intros _. exact P3. }
      destruct S2 as (m2 & E2 & (KL2 & KB2 & KK2) & P2). rewrite E2. cbn [bindo].
      (* samples *)
      change (z_data (size_of p out i g)) with (D i g). set (a := animated_at F R b) in *.
      assert (S3 : exists m3, (if D i g =? 0 then Ok m2 else bindo (write_animated_track_data junk (g_bones g) (p_has_scale p) (p_mapping p) (is_kept (p_stripped p) (g_hard g)) (g_num_samples g) (skipn (N.to_nat a) m2))
                   (fun '(d, _) => Ok (firstn (N.to_nat a) m2 ++ d))) = Ok m3 /\ kept_below a m2 m3 /\
        (forall k, k < g_num_samples g -> kept_of p g k = true -> stored_at (skipn (N.to_nat a) m3) (kept_before (kept_of p g) k * pose_size p out i) (key_frame_samples f out i k))).
      { pose proof (data_bits i g) as DB. destruct (N.eqb_spec (D i g) 0) as [E0 | E0].
        - exists m2. split; [reflexivity |]. split; [apply kept_refl, KB2 |]. intros k Hk Kp. apply stored_nowhere. pose proof (frame_end i g k K1 Hk Kp). lia.
        - assert (LS : blen (skipn (N.to_nat a) m2) = blen m2 - a) by (unfold blen; rewrite skipn_length; lia).
          assert (LF : length (firstn (N.to_nat a) m2) = N.to_nat a) by (rewrite firstn_length; unfold blen in *; lia).
          destruct (write_animated_clip junk f i (g_num_samples g) (pose_size p out i) (g_bones g) (p_mapping p) l out (kept_of p g) (skipn (N.to_nat a) m2) H (proj1 O) J) as (d & E3 & (C1 & C2 & C3) & S3).
          + intros k Hk. apply (same_frame_size f i _ l out H k 0); [exact Hk | lia].
          + apply bytes_ok_skipn, KB2.
          + rewrite LS. change (2 ^ 32) with 4294967296 in WM. change (2 ^ 60) with 1152921504606846976. lia.
          + rewrite LS. fold (num_stored p g). lia.
          + change (p_has_scale p) with (fm_has_scale f). fold (kept_of p g). rewrite E3. cbn [bindo]. eexists. split; [reflexivity |].
            split; [split; [| split] |].
            * unfold blen in *. rewrite app_length, C1, LF, skipn_length. lia.
            * apply bytes_app; [apply bytes_ok_firstn, KB2 | exact C2].
            * intros k Hk. rewrite nth_error_app1 by lia. clear - Hk. revert k Hk. generalize (N.to_nat a). intros n. revert m2. induction n as [| n IH]; intros m k Hk; [lia |]. destruct m as [| x m]; [reflexivity |]. destruct k as [| k]; [reflexivity |]. cbn. apply IH. lia.
            * intros k Hk Kp. rewrite skipn_app, LF, Nat.sub_diag. rewrite skipn_all2 by (rewrite LF; lia). cbn [skipn app]. apply S3; assumption. }
      destruct S3 as (m3 & E3 & (KL3 & KB3 & KK3) & P3). rewrite E3. cbn [bindo].
      assert (K13 : kept_below b m m3). { apply (kept_trans b (ranges_at F b) m m2); [apply (kept_trans b (ranges_at F b) m m1); [split; [exact KL1 | split; [exact KB1 | exact KK1]] | split; [exact KL2 | split; [exact KB2 | exact KK2]] | lia] | apply (kept_weaken _ a); [split; [exact KL3 | split; [exact KB3 | exact KK3]] | lia] | lia]. }
      change (if p_stripped p then 20 else 16) with hs.
      pose proof (shifted 32 F R (D i g) rel eq_refl) as (_ & _ & SH). fold b in SH.
      assert (rd : forall o, o + 4 <= b -> read32 m3 o = read32 m o).
      { intros o Ho. apply (kept_read b); assumption. }
      destruct (IH (i + 1) (at_ + hs) (next_base F R (D i g) rel) m3) as (m4 & E4 & K4 & P4).
      + exact (proj1 (proj2 K13)).
      + exact K2.
      + apply (kept_headers m m3 b t K13); [exact HP2 |]. lia.
      + rewrite rd by (unfold b; lia). exact EF.
      + rewrite rd by (unfold b; lia). exact EN.
      + lia.
      + lia.
      + rewrite <- SH. destruct K13 as (Q1 & _ & _). rewrite Q1. exact W.
      + destruct K13 as (Q1 & _ & _). rewrite Q1. exact WM.
      + rewrite E4. rewrite <- SH in K4, P4. exists m4. split; [reflexivity |]. split; [apply (kept_trans b _ m m3 m4 K13 K4); lia |]. split; [| exact P4].
        apply (kept_segment m3 m4 i g b (next_base F R (D i g) b) K1 K4); [| lia]. constructor.
        * intros k Hk. rewrite (same_formats_k k Hk). apply (kept_placed (ranges_at F b) m1).
          -- apply (kept_trans (ranges_at F b) a m1 m2); [split; [exact KL2 | split; [exact KB2 | exact KK2]] | split; [exact KL3 | split; [exact KB3 | exact KK3]] | lia].
          -- exact P1.
          -- rewrite (segment_formats_blen f (g_num_samples g)) by (try exact Small; lia). lia.
        * intros H1 k Hk. assert (Hs : fm_has_segments f = true) by (apply N.ltb_lt, H1). rewrite (same_ranges_k Hs k Hk). apply (kept_placed a m2); [split; [exact KL3 | split; [exact KB3 | exact KK3]] | exact (P2 H1) |].
          rewrite (segment_ranges_blen f (g_num_samples g) l out i 0 H) by (try exact Small; lia). apply N.ltb_lt in H1. rewrite H1 in *. lia.
        * exact P3.
  Qed.
End Segments.
