(** The sizes of the parts of a transform clip, and that they are bytes. *)
From Coq Require Import Lia.
From Verif Require Import Word WordFacts Pieces MemoryUtils MemoryFacts LayoutFacts Float32 Quant Headers SubTracks SubTracksFacts DbBuild ScalarWrite
  TransDec TransSpec TransRing TransMem TransConst TransAnim TransAnim2 TransPose TransPoseFacts TransEnc TransEncSpec TransEncFacts TransEncAnim TransEncAnim2 TransEncBytes TransEncBytes2 TransEncBytes3
  TransClipSpec TransClip TransClip2 TransFile TransFileSizes.
Local Open Scope N_scope.
Ltac Zify.zify_post_hook ::= idtac.

Lemma bytes_concat l : Forall bytes_ok l -> bytes_ok (concat l).
Proof. unfold bytes_ok. induction 1 as [| x l Hx F IH]; [constructor |]. cbn [concat]. apply Forall_app. split; assumption. Qed.
Lemma word_bytes_ok ws : bytes_ok (word_bytes ws).
Proof. apply bytes_concat. apply Forall_map, Forall_forall. intros x _. apply le_bytes_ok. Qed.
Lemma soa_ok n c : bytes_ok (soa_words n c).
Proof. apply bytes_concat. apply Forall_map, Forall_forall. intros x _. apply word_bytes_ok. Qed.
Lemma vector_words_ok l : bytes_ok (vector_words l).
Proof. apply bytes_concat. apply Forall_map, Forall_forall. intros x _. apply word_bytes_ok. Qed.
Lemma chunked_ok n l : bytes_ok (concat (map (soa_words n) (chunk4 l))).
Proof. apply bytes_concat. apply Forall_map, Forall_forall. intros x _. apply soa_ok. Qed.
Lemma when_ok (b : bool) l : (b = true -> bytes_ok l) -> bytes_ok (when b l).
Proof. intros H. destruct b; [apply H; reflexivity | constructor]. Qed.
Lemma bytes_app a b : bytes_ok a -> bytes_ok b -> bytes_ok (a ++ b).
Proof. intros A B. apply Forall_app. split; assumption. Qed.
Lemma clip_types_ok f out : bytes_ok (clip_types f out). Proof. apply word_bytes_ok. Qed.
Lemma clip_constants_ok f out : bytes_ok (clip_constants f out).
Proof.
  unfold clip_constants, constant_layout, rotation_words. repeat apply bytes_app; try apply vector_words_ok. destruct (rotation_full _); [apply vector_words_ok | apply chunked_ok].
Qed.
Lemma clip_ranges_ok f out : bytes_ok (clip_ranges f out).
Proof. unfold clip_ranges. repeat apply bytes_app; apply when_ok; intros _; [apply chunked_ok | apply vector_words_ok | apply vector_words_ok]. Qed.
Lemma in_chunk4 {A} (l : list A) c x : In c (chunk4 l) -> In x c -> In x l.
Proof.
  induction l as [| l Hne IH] using chunk_ind; [intros [] |]. rewrite chunk4_step by exact Hne. intros [<- | H] Hx; rewrite <- (firstn_skipn 4 l); apply in_or_app; [left; exact Hx | right; apply IH; assumption].
Qed.
Lemma pad4_ok l : bytes_ok l -> bytes_ok (pad4 l).
Proof. intros H. apply bytes_app; [exact H |]. apply Forall_forall. intros x Hx. apply repeat_spec in Hx. subst x. lia. Qed.
Lemma format_code_ok hs s : stored_ok hs s -> format_code 9 s < 256.
Proof. unfold format_code. intros [_ C]. change (9 <=? 9) with true. cbn iota. destruct (N.eqb_spec (s_bits s) 32); [lia |]. destruct C as [(B & _) | [(B & _) | (B & _)]]; lia. Qed.
Lemma vals16_ok (F : N -> list N) vs : (forall v, v < 2 ^ 16 -> bytes_ok (F v)) -> Forall (fun v => v < 2 ^ 16) vs -> bytes_ok (concat (map F vs)).
Proof. intros H Hv. apply bytes_concat. apply Forall_map. eapply Forall_impl; [| exact Hv]. exact H. Qed.
Lemma halves v : v < 2 ^ 16 -> v / 256 < 256 /\ v mod 256 < 256.
Proof. intros H. split; [apply N.div_lt_upper_bound; [lia | exact H] | apply N.mod_lt; lia]. Qed.
Lemma rotation_range_ok hs s : stored_ok hs s -> bytes_ok (rotation_range s).
Proof.
  intros [R C]. unfold rotation_range. destruct (N.eqb_spec (s_bits s) 0) as [E | E]; [| exact (proj2 R)].
  destruct C as [(_ & _ & V) | [(B & _) | (B & _)]]; [| lia | lia]. apply vals16_ok; [| exact (proj2 V)].
  intros v Hv. apply halves in Hv as [H1 H2]. repeat constructor; assumption.
Qed.
Lemma vector_range_ok hs s : stored_ok hs s -> bytes_ok (vector_range s).
Proof.
  intros [R C]. unfold vector_range. destruct (N.eqb_spec (s_bits s) 0) as [E | E]; [| exact (proj2 R)].
  destruct C as [(_ & _ & V) | [(B & _) | (B & _)]]; [| lia | lia]. apply vals16_ok; [| exact (proj2 V)].
  intros v Hv. apply halves in Hv as [H1 H2]. repeat constructor; assumption.
Qed.
Lemma rotation_formats_ok hs l : Forall (stored_ok hs) l -> bytes_ok (rotation_formats 9 l).
Proof.
  intros F. unfold rotation_formats. apply bytes_concat. apply Forall_map, Forall_forall. intros c Hc. apply pad4_ok. apply Forall_forall. intros x Hx.
  apply (in_chunk4 _ c x Hc) in Hx. apply in_map_iff in Hx as (s & <- & Hs). rewrite Forall_forall in F. apply (format_code_ok hs), F, Hs.
Qed.
Lemma vector_formats_ok hs l : Forall (stored_ok hs) l -> bytes_ok (vector_formats 9 l).
Proof. intros F. apply Forall_map. eapply Forall_impl; [| exact F]. intros s. apply format_code_ok. Qed.
Lemma rotation_ranges_ok hs l : Forall (stored_ok hs) l -> bytes_ok (rotation_ranges l).
Proof.
  intros F. unfold rotation_ranges. apply bytes_concat. apply Forall_map, Forall_forall. intros c Hc. apply bytes_concat. apply Forall_map, Forall_forall. intros j _. apply pad4_ok.
  apply Forall_forall. intros x Hx. unfold column in Hx. apply in_map_iff in Hx as (ws & <- & Hw). apply (in_chunk4 _ c ws Hc) in Hw. apply in_map_iff in Hw as (s & <- & Hs).
  rewrite Forall_forall in F. pose proof (rotation_range_ok hs s (F s Hs)) as B. destruct (nth_in_or_default j (rotation_range s) 0) as [I | E]; [| rewrite E; lia].
  unfold bytes_ok in B. rewrite Forall_forall in B. apply B, I.
Qed.
Lemma vector_ranges_ok hs l : Forall (stored_ok hs) l -> bytes_ok (vector_ranges l).
Proof. intros F. apply bytes_concat. apply Forall_map. eapply Forall_impl; [| exact F]. intros s. apply vector_range_ok. Qed.

Lemma map_len {A B} (F : A -> B) l : len (map F l) = len l. Proof. unfold len. rewrite map_length. reflexivity. Qed.
Lemma samples_len out g k ch : len (samples out g k ch) = len (ct_animated ch out). Proof. apply map_len. Qed.
Lemma held_constant_words f n l out ch : Forall2 (bone_holds f 0 n) l out -> Forall (in_words 32 (TransClipSpec.components f ch)) (map (fun c => ct_words c ch) (ct_constants ch out)).
Proof. intros H. apply Forall_map. eapply F2_right; [| apply (held_constant f 0 n l out H ch)]. intros b c0 (Hb & Hd & Hc). exact (proj1 (proj2 (proj2 (proj2 (bh_words _ _ _ _ _ Hb ch Hd Hc eq_refl))))). Qed.
Lemma held_clip_words f g n l out ch : Forall2 (bone_holds f g n) l out -> Forall (in_words 32 6) (map (fun c => ct_clip c ch) (ct_animated ch out)).
Proof. intros H. rewrite <- (proj2 (held_clip f g n l out H ch)). apply Forall_map. eapply Forall_impl; [| exact (proj1 (held_clip f g n l out H ch))]. intros b Hb. apply clip_words_ok, Hb. Qed.

Section Sized.
  Context (f : formats) (n : N) (l : list tbone) (out : list content).
  Lemma clip_constants_blen : Forall2 (bone_holds f 0 n) l out -> blen (clip_constants f out) = constants_size f out.
  Proof.
    intros H. unfold clip_constants, constant_layout. rewrite !blen_app. rewrite rotation_words_blen.
    - rewrite (vector_words_blen 3 _ (held_constant_words f n l out Translation H)), (vector_words_blen 3 _ (held_constant_words f n l out Scale H)). rewrite !map_len. unfold constants_size. unfold TransClipSpec.components, rotation_components, TransConst.components. lia.
    - pose proof (held_constant_words f n l out Rotation H) as F. unfold TransClipSpec.components, rotation_components in F. unfold TransConst.components. exact F.
  Qed.
  Lemma clip_types_blen : blen (clip_types f out) = 4 * (num_sub_track_entries (len out) * (if fm_has_scale f then 3 else 2)).
  Proof.
    unfold clip_types. rewrite word_bytes_blen, !app_length. f_equal.
    assert (E : forall ch, N.of_nat (length (write_packed_sub_track_types (map (fun c => if ct_default c ch then 0 else if ct_constant c ch then 1 else 2) out))) = num_sub_track_entries (len out)).
    { intros ch. rewrite <- (kinds_subs 0 0 0 0 ch). pose proof (entries_length (clip_subs out 0 0 0 0 ch)) as E. unfold entries_of in E. rewrite E. unfold clip_subs, len. rewrite map_length. reflexivity. }
    pose proof (E Rotation) as ER. pose proof (E Translation) as ET. pose proof (E Scale) as ES. destruct (fm_has_scale f); cbn [when length]; lia.
  Qed.
  Lemma clip_ranges_blen bones mapping : Forall2 (bone_holds f 0 n) l out -> outputs bones mapping l -> blen (clip_ranges f out) <= ranges_size f bones.
  Proof.
    intros H O. unfold clip_ranges. rewrite !blen_app.
    assert (E : forall ch, len (ct_animated ch out) <= total (fun b => if negb (b_constant b ch) then 1 else 0) bones).
    { intros ch. rewrite <- (animated_count f 0 n bones mapping l out H O ch). apply total_le. intros b. destruct (is_output b), (negb _); lia. }
    assert (B : blen (when (variable f Rotation) (rotation_clip_ranges (map (fun c => ct_clip c Rotation) (ct_animated Rotation out)))) = 24 * (if variable f Rotation then len (ct_animated Rotation out) else 0)).
    { destruct (variable f Rotation); [| reflexivity]. cbn [when]. unfold rotation_clip_ranges. rewrite chunked_blen, map_len. change (N.of_nat 6) with 6. lia. }
    assert (V : forall ch, blen (when (variable f ch) (vector_clip_ranges (map (fun c => ct_clip c ch) (ct_animated ch out)))) = 24 * (if variable f ch then len (ct_animated ch out) else 0)).
    { intros ch. destruct (variable f ch); [| reflexivity]. cbn [when]. unfold vector_clip_ranges. rewrite (vector_words_blen 6) by (apply (held_clip_words f 0 n l out ch H)). rewrite map_len. lia. }
    rewrite B, !V. unfold ranges_size. rewrite !total_plus.
    assert (G : forall ch, (if variable f ch then len (ct_animated ch out) else 0) <= total (fun b => if variable f ch && negb (b_constant b ch) then 1 else 0) bones).
    { intros ch. destruct (variable f ch); cbn [andb]; [apply E | lia]. }
    pose proof (G Rotation). pose proof (G Translation). pose proof (G Scale). lia.
  Qed.
  Context (g k : N).
  Hypothesis H : Forall2 (bone_holds f g n) l out.
  Hypothesis Hk : k < n.
  Hypothesis Small : len out + 16 < 2 ^ 32.
  Lemma all_stored ch : variable f ch = true -> Forall (stored_ok (fm_has_segments f)) (samples out g k ch).
  Proof. intros E. pose proof (held_all_stored f g n l out ch k H Hk) as A. rewrite E in A. exact A. Qed.
  Lemma animated_small ch : len (ct_animated ch out) + 3 < 2 ^ 32.
  Proof. pose proof (animated_le out ch). lia. Qed.
  Lemma segment_formats_ok : bytes_ok (segment_formats f out g k).
  Proof.
    unfold segment_formats. repeat apply bytes_app; apply when_ok; intros E; apply all_stored in E;
      [eapply rotation_formats_ok | eapply vector_formats_ok | eapply vector_formats_ok]; exact E.
  Qed.
  Lemma segment_ranges_ok : bytes_ok (segment_ranges f out g k).
  Proof.
    unfold segment_ranges. repeat apply bytes_app; apply when_ok; intros E; apply all_stored in E;
      [eapply rotation_ranges_ok | eapply vector_ranges_ok | eapply vector_ranges_ok]; exact E.
  Qed.
  Lemma segment_formats_blen : blen (segment_formats f out g k) = formats_size f out.
  Proof.
    unfold segment_formats, formats_size. rewrite !blen_app, <- N.add_assoc. f_equal; [| f_equal].
    - destruct (variable f Rotation); [| reflexivity]. cbn [when]. rewrite rotation_formats_blen by (rewrite samples_len; apply animated_small). rewrite samples_len. apply align_up4, animated_small.
    - destruct (variable f Translation); [| reflexivity]. cbn [when]. rewrite vector_formats_blen. apply samples_len.
    - destruct (variable f Scale); [| reflexivity]. cbn [when]. rewrite vector_formats_blen. apply samples_len.
  Qed.
  Lemma segment_ranges_blen : blen (segment_ranges f out g k) = 6 * formats_size f out.
  Proof.
    unfold segment_ranges, formats_size. rewrite !blen_app, !N.mul_add_distr_l, <- N.add_assoc. f_equal; [| f_equal].
    - destruct (variable f Rotation); [| reflexivity]. cbn [when]. rewrite rotation_ranges_blen by (rewrite samples_len; apply animated_small). rewrite samples_len.
      rewrite align_up4 by apply animated_small. lia.
    - pose proof (all_stored Translation) as A. destruct (variable f Translation); [| reflexivity]. cbn [when]. rewrite (vector_ranges_blen _ _ (A eq_refl)), samples_len. lia.
    - pose proof (all_stored Scale) as A. destruct (variable f Scale); [| reflexivity]. cbn [when]. rewrite (vector_ranges_blen _ _ (A eq_refl)), samples_len. lia.
  Qed.
End Sized.
