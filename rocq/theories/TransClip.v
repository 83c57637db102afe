(** From what the streams of the compressor contain to what the writers write, key frame by key frame. *)
From Coq Require Import Lia.
From Verif Require Import Word WordFacts Pieces MemoryUtils MemoryFacts Float32 Quant Headers HeadersFacts Packing PackSpec PackingFacts SubTracks DbBuild
  TransDec TransSpec TransRing TransMem TransConst TransAnim TransAnim2 TransPose TransEnc TransEncSpec TransEncFacts TransEncAnim TransEncAnim2 TransEncBytes TransEncBytes2 TransEncBytes3 TransClipSpec.
Local Open Scope N_scope.
Ltac Zify.zify_post_hook ::= idtac.

Lemma F2_filter {A B} (P : A -> B -> Prop) (p : A -> bool) (q : B -> bool) l m : Forall2 P l m -> (forall a b, P a b -> p a = q b) ->
  Forall2 (fun a b => P a b /\ q b = true) (filter p l) (filter q m).
Proof.
  intros F H. induction F as [| a b l m Hab F IH]; [constructor |]. cbn [filter]. rewrite (H a b Hab). destruct (q b) eqn:E; [constructor; auto | exact IH].
Qed.
Lemma F2_map_r {A B C} (P : A -> C -> Prop) (h : B -> C) l m : Forall2 (fun a b => P a (h b)) l m -> Forall2 P l (map h m).
Proof. induction 1; cbn [map]; constructor; auto. Qed.
Lemma F2_impl {A B} (P Q : A -> B -> Prop) l m : (forall a b, P a b -> Q a b) -> Forall2 P l m -> Forall2 Q l m.
Proof. intros H. induction 1; constructor; auto. Qed.
Lemma F2_right {A B} (P : A -> B -> Prop) (Q : B -> Prop) l m : (forall a b, P a b -> Q b) -> Forall2 P l m -> Forall Q m.
Proof. intros H. induction 1; constructor; eauto. Qed.
Lemma F2_left {A B} (P : A -> B -> Prop) (Q : A -> Prop) l m : (forall a b, P a b -> Q a) -> Forall2 P l m -> Forall Q l.
Proof. intros H. induction 1; constructor; eauto. Qed.

Section Held.
  Context (f : formats) (g n : N) (l : list tbone) (out : list content) (H : Forall2 (bone_holds f g n) l out).

  Lemma held_animated ch : Forall2 (fun b c => bone_holds f g n b c /\ ct_constant c ch = false) (animated_bones ch l) (ct_animated ch out).
  Proof.
    unfold animated_bones, ct_animated. eapply F2_impl; [| apply (F2_filter _ _ (fun c => negb (ct_constant c ch)) _ _ H)].
    - cbn. intros b c [Hb Hc]. split; [exact Hb |]. destruct (ct_constant c ch); [discriminate | reflexivity].
    - intros b c Hb. rewrite (bh_constant _ _ _ _ _ Hb). reflexivity.
  Qed.
  Lemma held_constant ch : Forall2 (fun b c => bone_holds f g n b c /\ ct_default c ch = false /\ ct_constant c ch = true) (constant_bones ch l) (ct_constants ch out).
  Proof.
    unfold constant_bones, ct_constants. eapply F2_impl; [| apply (F2_filter _ _ (fun c => negb (ct_default c ch) && ct_constant c ch) _ _ H)].
    - cbn. intros b c [Hb Hc]. apply andb_prop in Hc as [Hd Hc]. split; [exact Hb |]. split; [| exact Hc]. destruct (ct_default c ch); [discriminate | reflexivity].
    - intros b c Hb. rewrite (bh_constant _ _ _ _ _ Hb), (bh_default _ _ _ _ _ Hb). reflexivity.
  Qed.
  Lemma held_samples ch k : k < n -> Forall2 (bone_sample ch k) (animated_bones ch l) (samples out g k ch).
  Proof.
    intros Hk. apply F2_map_r. eapply F2_impl; [| apply held_animated]. intros b c [Hb Hc]. exact (bh_sample _ _ _ _ _ Hb ch k Hc Hk).
  Qed.
  Lemma held_ranges ch k : k < n -> variable f ch = true -> fm_has_segments f = true -> Forall2 (bone_range ch) (animated_bones ch l) (samples out g k ch).
  Proof.
    intros Hk Hv Hs. apply F2_map_r. eapply F2_impl; [| apply held_animated]. intros b c [Hb Hc]. exact (bh_range _ _ _ _ _ Hb ch k Hc Hv Hs Hk).
  Qed.
  Lemma held_words ch : g = 0 -> Forall2 (bone_constant ch (components f ch)) (constant_bones ch l) (map (fun c => ct_words c ch) (ct_constants ch out)).
  Proof.
    intros Hg. apply F2_map_r. eapply F2_impl; [| apply held_constant]. intros b c (Hb & Hd & Hc). exact (bh_words _ _ _ _ _ Hb ch Hd Hc Hg).
  Qed.
  Lemma held_format ch : same_format ch (variable f ch) l.
  Proof.
    unfold same_format. eapply F2_left; [| apply held_animated]. intros b c [Hb Hc]. cbn. exact (bh_variable _ _ _ _ _ Hb ch Hc).
  Qed.
  Lemma held_clip ch : Forall (has_clip ch) (animated_bones ch l) /\ map (clip_words ch) (animated_bones ch l) = map (fun c => ct_clip c ch) (ct_animated ch out).
  Proof.
    split.
    - eapply F2_left; [| apply (held_animated ch)]. intros b c [Hb Hc]. exact (proj1 (bh_clip _ _ _ _ _ Hb ch Hc)).
    - pose proof (held_animated ch) as F. induction F as [| b c bs cs [Hb Hc] F IH]; [reflexivity |]. cbn [map]. rewrite IH.
      rewrite (proj2 (bh_clip _ _ _ _ _ Hb ch Hc)). reflexivity.
  Qed.
  Lemma held_no_scale : fm_has_scale f = false -> ct_animated Scale out = [] /\ ct_constants Scale out = [].
  Proof.
    intros Hn. unfold ct_animated, ct_constants. clear - H Hn. induction H as [| b c bs cs Hb F IH]; [split; reflexivity |]. cbn [filter].
    pose proof (bh_no_scale _ _ _ _ _ Hb Hn) as D. rewrite (bh_default_constant _ _ _ _ _ Hb _ D), D. cbn [negb andb]. auto.
  Qed.
  Lemma held_scale_samples k : k < n ->
    if fm_has_scale f then Forall2 (bone_sample Scale k) (animated_bones Scale l) (samples out g k Scale) else samples out g k Scale = [].
  Proof.
    intros Hk. destruct (fm_has_scale f) eqn:E; [apply held_samples, Hk |]. unfold samples. rewrite (proj1 (held_no_scale E)). reflexivity.
  Qed.
  Lemma held_frame k : k < n -> frame_of l (fm_has_scale f) k (key_frame_samples f out g k).
  Proof.
    intros Hk. exists (samples out g k Rotation), (samples out g k Translation), (samples out g k Scale).
    split; [reflexivity |]. split; [apply held_samples, Hk |]. split; [apply held_samples, Hk | apply held_scale_samples, Hk].
  Qed.
End Held.

(** ** All the key frames of a segment have the same size *)
Lemma sample_bits t k x : stream_sample t k x -> ts_packed_size t = 12 \/ ts_packed_size t = 16 -> stream_pose_bits t = Ok (stored_size x) /\ stored_size x <= 128.
Proof.
  intros Hs Hp. split; [| apply (sample_size_le t k), Hs]. unfold stream_pose_bits, is_bit_rate_variable, k_invalid_bit_rate, stored_size. unfold stream_sample in Hs.
  destruct (N.eqb_spec (ts_rate t) 255) as [E | E]; cbn [negb].
  - destruct Hs as (-> & [Hl _] & _). rewrite Hl. destruct Hp as [-> | ->]; reflexivity.
  - destruct (N.eqb_spec (ts_rate t) 0) as [E0 | E0].
    { destruct Hs as (-> & _). rewrite E0. reflexivity. }
    destruct (N.eqb_spec (ts_rate t) 24) as [E24 | E24].
    { destruct Hs as (-> & [Hl _] & _). rewrite Hl, E24. reflexivity. }
    destruct Hs as (Hb & Hn & [Hl _] & _). rewrite Hl. unfold get_num_bits_at_bit_rate.
    rewrite Hn. cbn [bindo]. unfold mulw, wrapw. rewrite N.mod_small by (change (2 ^ 32) with 4294967296; lia). reflexivity.
Qed.
Lemma components_packed f ch : 4 * components f ch = 12 \/ 4 * components f ch = 16.
Proof. destruct ch; cbn [components]; unfold rotation_components; [destruct (rotation_full (fm_rotation f)) |..]; lia. Qed.

Section Sizes.
  Context (f : formats) (g n : N) (l : list tbone) (out : list content) (H : Forall2 (bone_holds f g n) l out).
  Lemma held_size c b ch k : bone_holds f g n b c -> ct_constant c ch = false -> k < n -> stream_pose_bits (b_stream b ch) = Ok (stored_size (ct_sample c g k ch)) /\ stored_size (ct_sample c g k ch) <= 128.
  Proof.
    intros Hb Hc Hk. pose proof (bh_sample _ _ _ _ _ Hb ch k Hc Hk) as [_ Hs].
    apply (sample_bits _ k); [exact Hs |]. rewrite (bh_packed _ _ _ _ _ Hb). apply components_packed.
  Qed.
  Lemma same_size ch k k' : k < n -> k' < n -> stored_sizes (samples out g k ch) = stored_sizes (samples out g k' ch).
  Proof.
    intros Hk Hk'. unfold samples. pose proof (held_animated f g n l out H ch) as F. induction F as [| b c bs cs [Hb Hc] F IH]; [reflexivity |].
    cbn [map]. rewrite !stored_sizes_cons, IH. f_equal. destruct (held_size c b ch k Hb Hc Hk) as [E _]. destruct (held_size c b ch k' Hb Hc Hk') as [E' _]. congruence.
  Qed.
  Lemma same_frame_size k k' : k < n -> k' < n -> stored_sizes (key_frame_samples f out g k) = stored_sizes (key_frame_samples f out g k').
  Proof. intros Hk Hk'. unfold key_frame_samples. rewrite !stored_sizes_app, !(same_size _ k k' Hk Hk'). reflexivity. Qed.

  Lemma pose_bits_ok ch bones mapping k a : mapped bones mapping l -> k < n -> a + stored_sizes (samples out g k ch) < 2 ^ 32 ->
    pose_bits ch bones mapping a = Ok (a + stored_sizes (samples out g k ch)).
  Proof.
    intros M Hk. revert a. revert M. revert mapping. clear - H Hk. induction H as [| b c bs cs Hb F IH]; intros mapping M a W; inversion M as [| i b' is bs' Hi M']; subst.
    - cbn. f_equal. unfold samples. cbn. lia.
    - cbn [pose_bits]. unfold bone_at. rewrite Hi. cbn [bindo]. rewrite (bh_constant _ _ _ _ _ Hb). unfold samples, ct_animated in *. cbn [filter] in *.
      destruct (ct_constant c ch) eqn:E; cbn [negb bindo] in *.
      + apply IH; assumption.
      + destruct (held_size c b ch k Hb E Hk) as [S1 S2]. rewrite S1. cbn [bindo map] in *. rewrite stored_sizes_cons in *.
        rewrite addw_small by lia. rewrite (IH F _ M' (a + stored_size (ct_sample c g k ch))) by lia. f_equal. lia.
  Qed.
End Sizes.

(** ** Key frame [k] is where the number of kept key frames before it tells *)
Lemma sample_indices_split k n : k < n -> sample_indices n = sample_indices k ++ k :: map (fun i => N.of_nat (N.to_nat k + 1 + i)) (seq 0 (N.to_nat n - N.to_nat k - 1)).
Proof.
  intros Hk. unfold sample_indices. replace (N.to_nat n) with (N.to_nat k + (1 + (N.to_nat n - N.to_nat k - 1)))%nat at 1 by lia.
  rewrite !seq_app, !map_app. f_equal. cbn [seq map app]. f_equal; [lia |].
  generalize (N.to_nat n - N.to_nat k - 1)%nat as m. intros m. 
  assert (G : forall m a b, map N.of_nat (seq (a + b) m) = map (fun i => N.of_nat (a + i)) (seq b m)).
  { clear. induction m as [| m IH]; intros a b; [reflexivity |]. cbn [seq map]. f_equal. rewrite plus_n_Sm. apply IH. }
  rewrite <- (G m (N.to_nat k + 1)%nat 0%nat). rewrite Nat.add_0_r. f_equal.
Qed.
Lemma sizes_concat {A} (h : A -> list stored) p l : Forall (fun a => stored_sizes (h a) = p) l -> stored_sizes (concat (map h l)) = N.of_nat (length l) * p.
Proof.
  induction 1 as [| a l Ha F IH]; [reflexivity |]. cbn [map concat length]. rewrite stored_sizes_app, Ha, IH. lia.
Qed.
Lemma frames_at (h : N -> list stored) kept n d p k : stored_at d 0 (concat (map h (filter kept (sample_indices n)))) ->
  (forall j, j < n -> stored_sizes (h j) = p) -> k < n -> kept k = true -> stored_at d (kept_before kept k * p) (h k).
Proof.
  intros S Hp Hk Hkept. rewrite (sample_indices_split k n Hk) in S. rewrite filter_app in S. cbn [filter] in S. rewrite Hkept in S.
  rewrite map_app, concat_app in S. apply stored_at_app in S as [_ S]. cbn [map concat] in S. apply stored_at_app in S as [S _].
  rewrite N.add_0_l in S. rewrite (sizes_concat h p) in S; [exact S |].
  apply Forall_forall. intros j Hj. apply filter_In in Hj as [Hj _]. unfold sample_indices in Hj. apply in_map_iff in Hj as (i & <- & Hi). apply in_seq in Hi. apply Hp. lia.
Qed.
Lemma kept_before_le kept k n : k < n -> kept k = true -> kept_before kept k + 1 <= kept_before kept n.
Proof.
  intros Hk Hkept. unfold kept_before. rewrite (sample_indices_split k n Hk), filter_app, app_length. cbn [filter]. rewrite Hkept. cbn [length]. lia.
Qed.
