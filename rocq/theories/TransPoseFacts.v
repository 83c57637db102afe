(** Decompressing a pose: every sub-track, once, with its value. *)
From Coq Require Import Lia.
From Verif Require Import Word WordFacts MemoryUtils RewriteFacts Pieces Float32 Quant Interp Packing PackSpec PackingFacts DbBuild ScalarDec SeekSpec SubTracks SubTracksFacts
  TransDec TransSpec TransRing TransMem TransConst TransFloat TransAnim TransAnim2 TransAnim3 TransPose.
Local Open Scope N_scope.
Ltac Zify.zify_post_hook ::= idtac.

(** ** Sub-tracks and their indices *)
Fixpoint items {A B} (sel : A -> option B) (b : N) (l : list A) : list (N * B) :=
  match l with
  | [] => []
  | s :: t => match sel s with Some v => (b, v) :: items sel (b + 1) t | None => items sel (b + 1) t end
  end.
Fixpoint picks {A B} (sel : A -> option B) (l : list A) : list B :=
  match l with [] => [] | s :: t => match sel s with Some v => v :: picks sel t | None => picks sel t end end.
Definition sel_default (s : sub) : option unit := match s with SDefault => Some tt | _ => None end.
Definition sel_const (s : sub) : option (list N) := match s with SConst ws => Some ws | _ => None end.
Definition sel_anim (s : sub) : option asub := match s with SAnim x => Some x | _ => None end.

Lemma picks_const l : picks sel_const l = constants l.
Proof. induction l as [| s l IH]; [reflexivity |]. destruct s; cbn; rewrite ?IH; reflexivity. Qed.
Lemma picks_anim l : picks sel_anim l = animated l.
Proof. induction l as [| s l IH]; [reflexivity |]. destruct s; cbn; rewrite ?IH; reflexivity. Qed.

Lemma tracks_of_cons c t l : tracks_of c (t :: l) = (if t =? c then [0] else []) ++ map (fun x => 1 + x) (tracks_of c l).
Proof.
  change (t :: l) with ([t] ++ l). rewrite tracks_of_app. f_equal. unfold tracks_of. cbn [length seq filter nth].
  destruct (t =? c); reflexivity.
Qed.
Lemma items_tracks {B C} (c : N) (sel : sub -> option B) (f : B -> C) : (forall s, (kind s =? c) = match sel s with Some _ => true | None => false end) ->
  forall l b, combine (map (fun x => b + x) (tracks_of c (kinds l))) (map f (picks sel l)) = map (fun x => (fst x, f (snd x))) (items sel b l) /\
    length (tracks_of c (kinds l)) = length (picks sel l).
Proof.
  intros Hs. induction l as [| s l IH]; intros b; [split; reflexivity |].
  unfold kinds. cbn [map]. fold (kinds l). rewrite tracks_of_cons, map_app, map_add_add, Hs. cbn [picks items].
  destruct (IH (b + 1)) as [E L]. destruct (sel s) as [v |]; cbn [app map combine length]; rewrite ?N.add_0_r, ?app_length, ?map_length; cbn [length].
  - split; [rewrite E; reflexivity | rewrite L; reflexivity].
  - split; [exact E | exact L].
Qed.
Lemma items_in {A B} (sel : A -> option B) l : forall b i v, In (i, v) (items sel b l) <-> b <= i /\ exists s, nth_error l (N.to_nat (i - b)) = Some s /\ sel s = Some v.
Proof.
  induction l as [| s l IH]; intros b i v; cbn [items].
  - split; [intros [] |]. intros (_ & s & H & _). destruct (N.to_nat (i - b)); discriminate.
  - assert (E : forall P : Prop, (In (i, v) (items sel (b + 1) l) <-> P) -> True) by auto. clear E. specialize (IH (b + 1) i v).
    destruct (N.eq_dec i b) as [-> | Hne].
    + rewrite N.sub_diag. cbn [N.to_nat nth_error].
      assert (Hno : ~ In (b, v) (items sel (b + 1) l)) by (rewrite IH; intros [H _]; lia).
      destruct (sel s) as [u |] eqn:Es; cbn [In].
      * split.
        -- intros [H | H]; [injection H as ->; split; [lia | exists s; auto] | contradiction].
        -- intros (_ & s' & [= <-] & H). left. congruence.
      * split; [intros H; contradiction |]. intros (_ & s' & [= <-] & H). congruence.
    + assert (Hd : b <= i /\ (exists s', nth_error (s :: l) (N.to_nat (i - b)) = Some s' /\ sel s' = Some v) <->
                   b + 1 <= i /\ (exists s', nth_error l (N.to_nat (i - (b + 1))) = Some s' /\ sel s' = Some v)).
      { split; intros (H1 & s' & H2 & H3); (split; [lia |]); exists s'; (split; [| exact H3]).
        - replace (N.to_nat (i - b)) with (S (N.to_nat (i - (b + 1)))) in H2 by lia. exact H2.
        - replace (N.to_nat (i - b)) with (S (N.to_nat (i - (b + 1)))) by lia. exact H2. }
      rewrite Hd, <- IH. destruct (sel s) as [u |]; [| reflexivity]. cbn [In]. split; [intros [H | H]; [congruence | exact H] | auto].
Qed.
Lemma items_nodup {A B} (sel : A -> option B) l : forall b, NoDup (map fst (items sel b l)).
Proof.
  induction l as [| s l IH]; intros b; cbn [items]; [constructor |].
  destruct (sel s) as [v |]; [| apply IH]. cbn [map fst]. constructor; [| apply IH].
  intros H. apply in_map_iff in H as ([i u] & E & H). cbn in E. subst i. apply items_in in H as [H _]. lia.
Qed.

(** ** Reading the packed types *)
Lemma placed_bound m off l : placed m off l -> l <> [] -> off + blen l <= blen m.
Proof.
  intros P Hne. destruct (length l) as [| n] eqn:E; [destruct l; [contradiction | discriminate] |].
  destruct (nth_error l n) as [b |] eqn:Hb; [| apply nth_error_None in Hb; lia].
  apply P in Hb. assert (N.to_nat off + n < length m)%nat by (apply nth_error_Some; congruence). unfold blen. lia.
Qed.
Lemma read_entries_ok m es : forall off, Forall (fun e => e < 2 ^ 32) es -> placed m off (word_bytes es) -> read_entries (length es) m off = Ok es.
Proof.
  induction es as [| e es IH]; intros off He P; [reflexivity |]. inversion He as [| ? ? He1 He2]; subst. cbn [length read_entries].
  rewrite word_bytes_cons in P. apply placed_app in P as [P1 P2]. change (blen (le_bytes 4 e)) with 4 in P2.
  rewrite (read32_placed m off e P1); [| | exact He1].
  - cbn [bindo]. rewrite IH by assumption. reflexivity.
  - apply placed_bound in P1; [exact P1 | discriminate].
Qed.
Lemma packed_words es ts : packed es ts -> Forall (fun e => e < 2 ^ 32) es.
Proof. induction 1 as [| e l [He _] | e l es ts [He _] ? ? ?]; repeat constructor; assumption. Qed.
Lemma kinds_ok l : types_ok (kinds l).
Proof. unfold types_ok, kinds. apply Forall_forall. intros t H. apply in_map_iff in H as (s & <- & _). destruct s; cbn; lia. Qed.
Definition entries_of (l : list sub) : list N := write_packed_sub_track_types (kinds l).
Lemma entries_words l : Forall (fun e => e < 2 ^ 32) (entries_of l).
Proof. apply (packed_words _ (kinds l)), write_packed, kinds_ok. Qed.
Lemma entries_length l : N.of_nat (length (entries_of l)) = num_sub_track_entries (N.of_nat (length l)).
Proof. rewrite <- (map_length kind l). apply (walk_classes (kinds l) (kinds_ok l)). Qed.

(** ** The events of one channel *)
Definition default_events (ch : channel) (w : twriter) (l : list sub) : list event :=
  if tw_skip_default w ch then [] else emit_all ch w (map (fun x => (fst x, ODefault)) (items sel_default 0 l)).
Definition constant_events (ch : channel) (w : twriter) (l : list sub) : list event :=
  emit_all ch w (map (fun x => (fst x, const_out (snd x))) (items sel_const 0 l)).
Definition animated_events (ch : channel) (w : twriter) (c : tcontext) (l : list sub) : list event :=
  emit_all ch w (map (fun x => (fst x, OMix (track_policy w c (fst x)) (sample_value c ch (x0 (snd x)) (xclip (snd x))) (sample_value c ch (x1 (snd x)) (xclip (snd x)))))
    (items sel_anim 0 l)).

Lemma add0 l : map (fun x => 0 + x) l = l.
Proof. apply map_add_0. Qed.
Lemma write_defaults_ok ch w l : write_defaults ch w (N.of_nat (length l)) (entries_of l) = Ok (default_events ch w l).
Proof.
  unfold write_defaults, default_events. destruct (tw_skip_default w ch); [reflexivity |].
  destruct (walk_classes (kinds l) (kinds_ok l)) as (_ & D & _ & _). unfold kinds in D at 1. rewrite map_length in D. fold (entries_of l) in D. rewrite D. cbn [bindo].
  do 2 f_equal. pose proof (proj1 (items_tracks 0 sel_default (fun _ => ODefault) ltac:(intros []; reflexivity) l 0)) as E.
  pose proof (proj2 (items_tracks 0 sel_default (fun _ => ODefault) ltac:(intros []; reflexivity) l 0)) as L. rewrite add0 in E. rewrite <- E.
  clear E D. revert L. generalize (picks sel_default l). induction (tracks_of 0 (kinds l)) as [| i ts IH]; intros [| u us] L; try discriminate; [reflexivity |].
  cbn [map combine]. f_equal. apply IH. injection L as L. exact L.
Qed.
Lemma write_constant_rotations_ok w c l p : c_constants c = p ->
  c_num_const_rotations c = N.of_nat (length (constants l)) -> len l < 2 ^ 32 ->
  Forall (in_words 32 (rotation_components (c_rotation_format c))) (constants l) ->
  padded (c_mem c) p (rotation_words (rotation_full (c_rotation_format c)) (constants l)) ->
  write_constant_rotations w c (entries_of l) = Ok (constant_events Rotation w l).
Proof.
  intros <- Hn Hl Hw P. unfold write_constant_rotations.
  destruct (walk_classes (kinds l) (kinds_ok l)) as (_ & _ & D & _). unfold constant_tracks in D.
  destruct (constant_groups_spec _ (entries_words l) 0 _ D) as (gs & -> & Hc & Hg). cbn [bindo].
  destruct (items_tracks 1 sel_const const_out ltac:(intros []; reflexivity) l 0) as [E L]. rewrite add0, picks_const in E. rewrite picks_const in L.
  rewrite Hn. replace (N.of_nat (length (constants l))) with (len (map const_out (constants l))) by (unfold len; rewrite map_length; reflexivity).
  change 32 with (2 * 16).
  rewrite (unpack_all 16 _ (rotation_src (rotation_full (c_rotation_format c)) (c_mem c)) ltac:(lia) ltac:(reflexivity) (fetch_constant_ok _ _)).
  - cbn [bindo]. rewrite Hc, E. reflexivity.
  - exists (constants l). split; [reflexivity |]. split; [exact Hw | exact P].
  - unfold len. rewrite map_length, <- L. unfold tracks_of, kinds. rewrite map_length.
    pose proof (filter_len (fun i => nth i (map kind l) 3 =? 1) (seq 0 (length (map kind l)))) as F. rewrite seq_length, map_length in F. rewrite map_length. unfold len in Hl. lia.
  - exact Hg.
  - rewrite Hc, map_length. exact L.
Qed.
Lemma map_emit ch w l : map (fun x => (ch, fst x, snd x)) (filter (fun x => negb (tw_skip w ch (fst x))) l) = emit_all ch w l.
Proof. reflexivity. Qed.
Lemma write_constant_vectors_ok ch w c l p : Forall (in_words 32 3) (constants l) -> padded (c_mem c) p (vector_words (constants l)) ->
  write_constant_vectors ch w c (entries_of l) p = Ok (constant_events ch w l).
Proof.
  intros Hw P. unfold write_constant_vectors. destruct (walk_classes (kinds l) (kinds_ok l)) as (_ & _ & D & _). fold (entries_of l) in D. rewrite D. cbn [bindo].
  destruct (items_tracks 1 sel_const const_out ltac:(intros []; reflexivity) l 0) as [E L]. rewrite add0, picks_const in E. rewrite picks_const in L.
  rewrite (constant_vectors_ok (c_mem c) (tw_skip w ch) _ (constants l) p Hw (eq_sym L) P). cbn [bindo]. rewrite E. reflexivity.
Qed.
Lemma write_animated_ok ch w c l n fetch start (source : aposition -> list out -> Prop) (value : asub -> out) : n = N.of_nat (length (animated l)) -> len l < 2 ^ 32 ->
  (forall p outs, source p outs -> outs <> [] ->
    exists vs p', fetch (N.min (len outs) 4) p = Ok (vs, p') /\ (length vs <= N.to_nat 4)%nat /\
    (length outs < N.to_nat 4 -> firstn (length outs) vs = outs)%nat /\ (N.to_nat 4 <= length outs -> vs = firstn (N.to_nat 4) outs)%nat /\
    source p' (skipn (N.to_nat 4) outs)) ->
  source start (map value (animated l)) ->
  (forall x, value x = OMix rp_none (sample_value c ch (x0 x) (xclip x)) (sample_value c ch (x1 x) (xclip x))) ->
  write_animated ch w c (entries_of l) n fetch start = Ok (animated_events ch w c l).
Proof.
  intros -> Hl Hf Hs Hv. unfold write_animated.
  destruct (walk_classes (kinds l) (kinds_ok l)) as (_ & _ & _ & D). unfold animated_tracks in D. fold (entries_of l) in D.
  destruct (animated_groups_spec _ 0 _ D) as (gs & -> & Hc & Hg). cbn [bindo].
  destruct (items_tracks 2 sel_anim value ltac:(intros []; reflexivity) l 0) as [E L]. rewrite add0, picks_anim in E. rewrite picks_anim in L.
  replace (N.of_nat (length (animated l))) with (len (map value (animated l))) by (unfold len; rewrite map_length; reflexivity).
  change 8 with (2 * 4).
  rewrite (unpack_all 4 fetch source ltac:(lia) ltac:(reflexivity) Hf).
  - cbn [bindo]. rewrite Hc, E. unfold animated_events. rewrite map_map. cbn [fst snd]. do 2 f_equal. apply map_ext. intros [i x]. cbn [fst snd]. rewrite Hv. reflexivity.
  - exact Hs.
  - unfold len. rewrite map_length, <- L. unfold tracks_of, kinds. rewrite map_length.
    pose proof (filter_len (fun i => nth i (map kind l) 3 =? 2) (seq 0 (length (map kind l)))) as F. rewrite seq_length, map_length in F. rewrite map_length. unfold len in Hl. lia.
  - exact Hg.
  - rewrite Hc, map_length. exact L.
Qed.

(** ** Sizes *)
Lemma chunk_padded {A} (l : list A) : let n := 4 * N.of_nat (length (chunk4 l)) in len l <= n /\ n <= len l + 3.
Proof.
  induction l as [| l Hne IH] using chunk_ind; [unfold len; cbn; lia |]. rewrite chunk4_step by exact Hne. cbn [length] in *.
  assert (length l <> 0%nat) by (destruct l; [contradiction | cbn; lia]).
  unfold len in *. rewrite skipn_length in IH. cbv zeta in *. lia.
Qed.
Lemma align_chunks {A} (l : list A) : len l + 3 < 2 ^ 32 -> align_to 32 (len l) 4 = 4 * N.of_nat (length (chunk4 l)).
Proof.
  intros H. pose proof (al4 32 (len l) (or_introl eq_refl) H) as (A1 & A2 & A3 & _). pose proof (chunk_padded l) as [B1 B2].
  set (r := align_to 32 (len l) 4) in *. clearbody r. pose proof (N.div_mod r 4 ltac:(lia)) as D. rewrite A3 in D. set (q := r / 4) in *. clearbody q. lia.
Qed.
Lemma concat_blen (k : nat) (ls : list (list N)) : Forall (fun l => length l = k) ls -> blen (concat ls) = N.of_nat k * N.of_nat (length ls).
Proof.
  induction 1 as [| l ls Hl _ IH]; [cbn [concat length]; change (blen []) with 0; lia |]. cbn [concat length]. rewrite blen_app, IH. unfold blen. rewrite Hl. nia.
Qed.
Lemma chunk4_lengths {A} (l : list A) : Forall (fun c => (0 < length c <= 4)%nat) (chunk4 l).
Proof.
  induction l as [| l Hne IH] using chunk_ind; [constructor |]. rewrite chunk4_step by exact Hne. constructor; [| exact IH].
  rewrite firstn_length. destruct l; [contradiction |]. cbn [length]. lia.
Qed.
Lemma rotation_formats_blen v l : len l + 3 < 2 ^ 32 -> blen (rotation_formats v l) = align_to 32 (len l) 4.
Proof.
  intros H. rewrite align_chunks by exact H. unfold rotation_formats. rewrite (concat_blen 4).
  - rewrite map_length, chunk4_map, map_length. reflexivity.
  - apply Forall_forall. intros c Hc. apply in_map_iff in Hc as (x & <- & Hx). apply pad4_length.
    pose proof (chunk4_lengths (map (format_code v) l)) as F. rewrite Forall_forall in F. apply F in Hx. lia.
Qed.
Lemma rotation_ranges_blen l : len l + 3 < 2 ^ 32 -> blen (rotation_ranges l) = align_to 32 (len l) 4 * 6.
Proof.
  intros H. rewrite align_chunks by exact H. unfold rotation_ranges. rewrite (concat_blen 24).
  - rewrite map_length, chunk4_map, map_length. lia.
  - apply Forall_forall. intros c Hc. apply in_map_iff in Hc as (x & <- & Hx).
    pose proof (chunk4_lengths (map rotation_range l)) as F. rewrite Forall_forall in F. apply F in Hx.
    cbn [seq map concat]. rewrite !app_length, !pad4_length by (rewrite column_length; lia). reflexivity.
Qed.
Lemma vector_formats_blen v l : blen (vector_formats v l) = len l.
Proof. unfold vector_formats, blen, len. rewrite map_length. reflexivity. Qed.
Lemma vector_ranges_blen hs l : Forall (stored_ok hs) l -> blen (vector_ranges l) = len l * 6.
Proof.
  intros H. unfold vector_ranges. rewrite (concat_blen 6); [rewrite map_length; unfold len; lia |].
  apply Forall_forall. intros c Hc. apply in_map_iff in Hc as (x & <- & Hx). rewrite Forall_forall in H. apply (vector_range_length hs), H, Hx.
Qed.

(** ** The animated sub-tracks of a clip *)
Lemma len_map {A B} (f : A -> B) l : len (map f l) = len l.
Proof. unfold len. rewrite map_length. reflexivity. Qed.
Lemma animated_len l : len (animated l) <= len l.
Proof. unfold len, animated. induction l as [| s l IH]; [cbn; lia |]. destruct s; cbn [flat_map app length]; lia. Qed.
Lemma constants_len l : len (constants l) <= len l.
Proof. unfold len, constants. induction l as [| s l IH]; [cbn; lia |]. destruct s; cbn [flat_map app length]; lia. Qed.

Section Clip.
  Context (c : tcontext) (r t s : list sub) (H : clip_layout c r t s).
  Let rv := rotation_variable (c_rotation_format c).
  Let tv := c_translation_variable c.
  Let sv := c_scale_variable c.
  Let hs := c_has_segments c.

  Lemma small_r : len (animated r) + 3 < 2 ^ 32.
  Proof.
    pose proof (animated_len r) as A. pose proof (cl_small _ _ _ _ H) as B. rewrite <- (cl_num_r _ _ _ _ H) in B. unfold len in *.
    change (2 ^ 32) with 4294967296 in *. lia.
  Qed.

  (** where each part of a key frame is *)
  Lemma key_parts kf r1 t1 s1 : key_frame_layout c kf r1 t1 s1 -> len r1 = len (animated r) -> len t1 = len (animated t) ->
    let pad := align_to 32 (c_num_anim_rotations c) 4 in
    let nt := c_num_anim_translations c in
    let ft := kf_format kf + (if rv then pad else 0) in
    let rt := kf_range kf + (if rv then pad * 6 else 0) in
    (rv = true -> ksrc (c_version c) hs (c_mem c) (kf_data kf) {| k_format := kf_format kf; k_range := kf_range kf; k_bit := kf_offset kf |} r1) /\
    (rv = false -> stream (kf_data kf) (kf_offset kf) r1 /\ Forall (is_raw (rotation_components (c_rotation_format c))) r1) /\
    let bt := addw 32 (kf_offset kf) (kf_rotation_bits kf) in
    (tv = true -> vsrc (c_version c) hs (c_mem c) (kf_data kf) {| k_format := ft; k_range := rt; k_bit := bt |} t1) /\
    (tv = false -> stream (kf_data kf) bt t1 /\ Forall (is_raw 3) t1) /\
    let bs := addw 32 bt (kf_translation_bits kf) in
    (sv = true -> vsrc (c_version c) hs (c_mem c) (kf_data kf)
                    {| k_format := ft + (if tv then nt else 0); k_range := rt + (if tv then nt * 6 else 0); k_bit := bs |} s1) /\
    (sv = false -> stream (kf_data kf) bs s1 /\ Forall (is_raw 3) s1).
  Proof.
    intros [F R D Br Bt Or Ot Os] Lr Lt. cbv zeta. fold rv tv sv in F; fold rv tv sv hs in R; fold rv in Or; fold hs in Or, Ot, Os; fold tv in Ot; fold sv in Os.
    pose proof small_r as Sm. rewrite <- Lr in Sm.
    rewrite (cl_num_r_animated _ _ _ _ H), (cl_num_t_animated _ _ _ _ H). fold (len (animated r)) (len (animated t)). rewrite <- Lr, <- Lt.
    pose proof D as [_ _ Wd _]. rewrite !stored_sizes_app in Wd.
    rewrite Br, Bt. rewrite (addw_small 32 (kf_offset kf)) by lia. rewrite addw_small by lia.
    apply padded_app in F as [F1 F2]. apply padded_app in F2 as [F2 F3].
    assert (R' : hs = true -> padded (c_mem c) (kf_range kf) (when rv (rotation_ranges r1)) /\
       padded (c_mem c) (kf_range kf + blen (when rv (rotation_ranges r1))) (when tv (vector_ranges t1)) /\
       padded (c_mem c) (kf_range kf + blen (when rv (rotation_ranges r1)) + blen (when tv (vector_ranges t1))) (when sv (vector_ranges s1))).
    { intros Hh. specialize (R Hh). apply padded_app in R as [R1 R2]. apply padded_app in R2 as [R2 R3]. auto. }
    assert (Er : blen (when rv (rotation_ranges r1)) = if rv then align_to 32 (len r1) 4 * 6 else 0).
    { destruct rv; cbn [when]; [apply rotation_ranges_blen; exact Sm | reflexivity]. }
    assert (Ef : blen (when rv (rotation_formats (c_version c) r1)) = if rv then align_to 32 (len r1) 4 else 0).
    { destruct rv; cbn [when]; [apply rotation_formats_blen; exact Sm | reflexivity]. }
    assert (Etf : blen (when tv (vector_formats (c_version c) t1)) = if tv then len t1 else 0).
    { destruct tv; cbn [when]; [apply vector_formats_blen | reflexivity]. }
    assert (Etr : blen (when tv (vector_ranges t1)) = if tv then len t1 * 6 else 0).
    { destruct tv; cbn [when]; [apply (vector_ranges_blen hs); exact Ot | reflexivity]. }
    rewrite Ef in F2, F3. rewrite Etf in F3. rewrite Er, Etr in R'. clear R Er Ef Etf Etr.
    pose proof (stream_first _ _ _ _ D) as D1. pose proof (stream_rest _ _ _ _ D) as D2. pose proof (stream_rest _ _ _ _ D2) as D3. apply stream_first in D2.
    split; [| split; [| split; [| split; [| split]]]]; intros E.
    - rewrite E in F1, R', Or. constructor; cbn [k_format k_range k_bit]; auto. intros Hh. apply R', Hh.
    - rewrite E in Or. split; assumption.
    - rewrite E in F2, R', Ot. constructor; cbn [k_format k_range k_bit]; auto. intros Hh. apply R', Hh.
    - rewrite E in Ot. split; assumption.
    - rewrite E in F3, R', Os. constructor; cbn [k_format k_range k_bit]; auto. intros Hh. apply R', Hh.
    - rewrite E in Os. split; assumption.
  Qed.

  Lemma clip_parts :
    (rv = true -> padded (c_mem c) (c_clip_range c) (rotation_clip_ranges (map xclip (animated r)))) /\
    let ct := c_clip_range c + (if rv then c_num_anim_rotations c * 24 else 0) in
    (tv = true -> padded (c_mem c) ct (vector_clip_ranges (map xclip (animated t)))) /\
    (sv = true -> padded (c_mem c) (ct + (if tv then c_num_anim_translations c * 24 else 0)) (vector_clip_ranges (map xclip (animated s)))).
  Proof.
    pose proof (cl_clip _ _ _ _ H) as P. fold rv tv sv in P. apply padded_app in P as [P1 P2]. apply padded_app in P2 as [P2 P3].
    pose proof (cl_clip_words _ _ _ _ H) as W. apply Forall_app in W as [W1 W2]. apply Forall_app in W2 as [W2 W3].
    assert (E1 : blen (when rv (rotation_clip_ranges (map xclip (animated r)))) = if rv then c_num_anim_rotations c * 24 else 0).
    { destruct rv; cbn [when]; [| reflexivity]. unfold rotation_clip_ranges. rewrite chunked_blen, len_map, (cl_num_r_animated _ _ _ _ H). unfold len. lia. }
    assert (E2 : blen (when tv (vector_clip_ranges (map xclip (animated t)))) = if tv then c_num_anim_translations c * 24 else 0).
    { destruct tv; cbn [when]; [| reflexivity]. unfold vector_clip_ranges. rewrite (vector_words_blen 6) by exact W2. rewrite len_map, (cl_num_t_animated _ _ _ _ H). unfold len. lia. }
    rewrite E1 in P2, P3. rewrite E2 in P3. cbv zeta.
    split; [| split]; intros E; [rewrite E in P1 | rewrite E in P2 | rewrite E in P3]; assumption.
  Qed.

  Lemma animated_rotations_ok : arotations c (rotation_start c) (animated r).
  Proof.
    pose proof (key_parts _ _ _ _ (cl_kf0 _ _ _ _ H) (len_map _ _) (len_map _ _)) as (A0 & B0 & _).
    pose proof (key_parts _ _ _ _ (cl_kf1 _ _ _ _ H) (len_map _ _) (len_map _ _)) as (A1 & B1 & _).
    pose proof (cl_clip_words _ _ _ _ H) as W. apply Forall_app in W as [W1 _].
    constructor; intros E; unfold rotation_start; cbn [a_kf0 a_kf1 a_clip k_range k_bit].
    - split; [apply A0, E |]. split; [apply A1, E |]. split; [apply clip_parts, E |]. split; [exact W1 |]. apply (cl_single _ _ _ _ H).
    - destruct (B0 E), (B1 E). auto.
  Qed.
  Lemma animated_translations_ok : avectors tv c (translation_start c) (animated t).
  Proof.
    pose proof (key_parts _ _ _ _ (cl_kf0 _ _ _ _ H) (len_map _ _) (len_map _ _)) as (_ & _ & A0 & B0 & _).
    pose proof (key_parts _ _ _ _ (cl_kf1 _ _ _ _ H) (len_map _ _) (len_map _ _)) as (_ & _ & A1 & B1 & _).
    pose proof (cl_clip_words _ _ _ _ H) as W. apply Forall_app in W as [_ W]. apply Forall_app in W as [W _].
    constructor; intros E; unfold translation_start; cbn [a_kf0 a_kf1 a_clip k_range k_bit]; fold rv.
    - split; [apply A0, E |]. split; [apply A1, E |]. split; [apply clip_parts, E | exact W].
    - destruct (B0 E), (B1 E). auto.
  Qed.
  Lemma animated_scales_ok : avectors sv c (scale_start c) (animated s).
  Proof.
    pose proof (key_parts _ _ _ _ (cl_kf0 _ _ _ _ H) (len_map _ _) (len_map _ _)) as (_ & _ & _ & _ & A0 & B0).
    pose proof (key_parts _ _ _ _ (cl_kf1 _ _ _ _ H) (len_map _ _) (len_map _ _)) as (_ & _ & _ & _ & A1 & B1).
    pose proof (cl_clip_words _ _ _ _ H) as W. apply Forall_app in W as [_ W]. apply Forall_app in W as [_ W].
    constructor; intros E; unfold scale_start, translation_start; cbn [a_kf0 a_kf1 a_clip k_range k_bit k_format]; fold rv tv.
    - split; [apply A0, E |]. split; [apply A1, E |]. split; [apply clip_parts, E | exact W].
    - destruct (B0 E), (B1 E). auto.
  Qed.

  (** ** The whole pose *)
  Definition pose_events (w : twriter) : list event :=
    default_events Rotation w r ++ constant_events Rotation w r ++ default_events Translation w t ++ constant_events Translation w t ++
    (default_events Scale w s ++ constant_events Scale w s) ++
    animated_events Rotation w c r ++ animated_events Translation w c t ++ animated_events Scale w c s.

  Lemma no_scale_items {B} (sel : sub -> option B) l : sel SDefault = None -> Forall (fun x => x = SDefault) l -> forall b, items sel b l = [].
  Proof. intros Hs F. induction F as [| x l Hx F IH]; intros b; [reflexivity |]. subst x. cbn [items]. rewrite Hs. apply IH. Qed.
  Lemma no_scale_defaults l : Forall (fun x => x = SDefault) l -> forall b,
    map (fun x => (fst x, ODefault)) (items sel_default (N.of_nat b) l) = map (fun i => (N.of_nat i, ODefault)) (seq b (length l)).
  Proof.
    induction 1 as [| x l -> _ IH]; intros b; [reflexivity |]. cbn [items sel_default map fst length seq]. f_equal.
    replace (N.of_nat b + 1) with (N.of_nat (S b)) by lia. apply IH.
  Qed.

  Lemma decompress_tracks_ok w : decompress_tracks w c = Ok (pose_events w).
  Proof.
    unfold decompress_tracks.
    pose proof (cl_small _ _ _ _ H) as Sm. pose proof (cl_num_r _ _ _ _ H) as Nr. pose proof (cl_num_t _ _ _ _ H) as Nt. pose proof (cl_num_s _ _ _ _ H) as Ns.
    assert (Lr : len r < 2 ^ 32) by (unfold len; change (2 ^ 32) with 4294967296 in *; lia).
    assert (Lt : len t < 2 ^ 32) by (unfold len; change (2 ^ 32) with 4294967296 in *; lia).
    assert (Ls : len s < 2 ^ 32) by (unfold len; change (2 ^ 32) with 4294967296 in *; lia).
    destruct (N.eqb_spec (c_num_tracks c) 0) as [E0 | E0].
    { assert (r = []) as Er by (destruct r; [reflexivity | cbn [length] in Nr; lia]). assert (t = []) as Et by (destruct t; [reflexivity | cbn [length] in Nt; lia]).
      assert (s = []) as Es by (destruct s; [reflexivity | cbn [length] in Ns; lia]). unfold pose_events. rewrite Er, Et, Es.
      assert (X : forall ch, default_events ch w [] = []) by (intros ch; unfold default_events; destruct (tw_skip_default w ch); reflexivity).
      rewrite !X. reflexivity. }
    cbv zeta. set (n := num_sub_track_entries (c_num_tracks c)).
    assert (Hr : N.of_nat (length (entries_of r)) = n) by (rewrite entries_length, Nr; reflexivity).
    assert (Ht : N.of_nat (length (entries_of t)) = n) by (rewrite entries_length, Nt; reflexivity).
    assert (Hs : N.of_nat (length (entries_of s)) = n) by (rewrite entries_length, Ns; reflexivity).
    pose proof (cl_types _ _ _ _ H) as T. fold (entries_of r) (entries_of t) (entries_of s) in T.
    unfold word_bytes in T. rewrite !map_app, !concat_app in T. fold (word_bytes (entries_of r)) (word_bytes (entries_of t)) in T.
    apply placed_app in T as [T1 T2]. apply placed_app in T2 as [T2 T3]. rewrite !word_bytes_blen, Hr in T2. rewrite !word_bytes_blen, Hr, Ht in T3.
    replace (c_types c + 4 * (0 * n)) with (c_types c) by lia. replace (c_types c + 4 * (1 * n)) with (c_types c + 4 * n) by lia.
    replace (c_types c + 4 * (2 * n)) with (c_types c + 4 * n + 4 * n) by lia.
    assert (Rr : read_entries (N.to_nat n) (c_mem c) (c_types c) = Ok (entries_of r)).
    { rewrite <- Hr, Nnat.Nat2N.id. apply read_entries_ok; [apply entries_words | exact T1]. }
    assert (Rt : read_entries (N.to_nat n) (c_mem c) (c_types c + 4 * n) = Ok (entries_of t)).
    { rewrite <- Ht at 1. rewrite Nnat.Nat2N.id. apply read_entries_ok; [apply entries_words | exact T2]. }
    assert (Rs : c_has_scale c = true -> read_entries (N.to_nat n) (c_mem c) (c_types c + 4 * n + 4 * n) = Ok (entries_of s)).
    { intros E. rewrite E in T3. rewrite <- Hs at 1. rewrite Nnat.Nat2N.id. apply read_entries_ok; [apply entries_words | exact T3]. }
    rewrite Rr. cbn [bindo]. rewrite <- Nr at 1. rewrite write_defaults_ok. cbn [bindo].
    pose proof (cl_constants _ _ _ _ H) as C. unfold constant_layout in C. apply padded_app in C as [C1 C2]. apply padded_app in C2 as [C2 C3].
    assert (Ecomp : components (rotation_full (c_rotation_format c)) = rotation_components (c_rotation_format c)) by reflexivity.
    rewrite rotation_words_blen in C2, C3 by exact (cl_constant_r _ _ _ _ H). rewrite (vector_words_blen 3) in C3 by exact (cl_constant_t _ _ _ _ H).
    assert (At : constant_translations_at c = c_constants c + 4 * components (rotation_full (c_rotation_format c)) * len (constants r)).
    { unfold constant_translations_at, packed_rotation_size, components. rewrite (cl_num_const_r _ _ _ _ H). unfold len. destruct (rotation_full (c_rotation_format c)); lia. }
    assert (As : constant_scales_at c = c_constants c + 4 * components (rotation_full (c_rotation_format c)) * len (constants r) + 4 * 3 * len (constants t)).
    { unfold constant_scales_at. rewrite At, (cl_num_const_t _ _ _ _ H). unfold len. lia. }
    rewrite (write_constant_rotations_ok w c r (c_constants c) eq_refl (cl_num_const_r _ _ _ _ H) Lr (cl_constant_r _ _ _ _ H) C1). cbn [bindo].
    rewrite Rt. cbn [bindo]. rewrite <- Nt at 1. rewrite write_defaults_ok. cbn [bindo].
    rewrite (write_constant_vectors_ok Translation w c t) by (exact (cl_constant_t _ _ _ _ H) || (rewrite At; exact C2)). cbn [bindo].
    match goal with |- bindo ?e _ = _ => assert (E4 : e = Ok (default_events Scale w s ++ constant_events Scale w s)) end.
    { destruct (c_has_scale c) eqn:Hsc.
      - rewrite Rs by reflexivity. cbn [bindo]. rewrite <- Ns at 1. rewrite write_defaults_ok. cbn [bindo].
        rewrite (write_constant_vectors_ok Scale w c s) by (exact (cl_constant_s _ _ _ _ H) || (rewrite As; exact C3)). reflexivity.
      - pose proof (cl_no_scale _ _ _ _ H Hsc) as Fs. unfold write_no_scale, default_events, constant_events. rewrite (no_scale_items sel_const s eq_refl Fs).
        rewrite app_nil_r. destruct (tw_skip_default w Scale); [reflexivity |]. rewrite <- Ns, Nnat.Nat2N.id.
        pose proof (no_scale_defaults s Fs 0%nat) as Ed. change (N.of_nat 0) with 0 in Ed. rewrite Ed. reflexivity. }
    rewrite E4. cbn [bindo].
    rewrite (write_animated_ok Rotation w c r _ _ _ (rotation_source c) (rotation_out c) (cl_num_r_animated _ _ _ _ H) Lr (fetch_rotations_ok c)); [| exists (animated r); split; [reflexivity | apply animated_rotations_ok] | reflexivity].
    cbn [bindo].
    rewrite (write_animated_ok Translation w c t _ _ _ (vector_source tv c) (vector_out c) (cl_num_t_animated _ _ _ _ H) Lt (fetch_vectors_ok tv c)); [| exists (animated t); split; [reflexivity | apply animated_translations_ok] | reflexivity].
    cbn [bindo].
    match goal with |- bindo ?e _ = _ => assert (E5 : e = Ok (animated_events Scale w c s)) end.
    { destruct (c_has_scale c) eqn:Hsc.
      - rewrite Rs by reflexivity. cbn [bindo].
        apply (write_animated_ok Scale w c s _ _ _ (vector_source sv c) (vector_out c) (cl_num_s_animated _ _ _ _ H) Ls (fetch_vectors_ok sv c)); [exists (animated s); split; [reflexivity | apply animated_scales_ok] | reflexivity].
      - pose proof (cl_no_scale _ _ _ _ H Hsc) as Fs. unfold animated_events. rewrite (no_scale_items sel_anim s eq_refl Fs). reflexivity. }
    rewrite E5. reflexivity.
  Qed.
End Clip.

(** ** The events are the pose *)
Lemma emit_in ch w l ch' i o : In (ch', i, o) (emit_all ch w l) <-> ch' = ch /\ tw_skip w ch i = false /\ In (i, o) l.
Proof.
  unfold emit_all. rewrite in_map_iff. split.
  - intros ([j v] & E & Hin). apply filter_In in Hin as [Hin Hk]. cbn [fst snd] in *. injection E as -> -> ->. apply negb_true_iff in Hk. auto.
  - intros (-> & Hk & Hin). exists (i, o). split; [reflexivity |]. apply filter_In. split; [exact Hin |]. cbn [fst]. rewrite Hk. reflexivity.
Qed.
Lemma items_in0 {A B C} (sel : A -> option B) (f : N * B -> C) l i o : In (i, o) (map (fun x => (fst x, f x)) (items sel 0 l)) <->
  exists s v, nth_error l (N.to_nat i) = Some s /\ sel s = Some v /\ o = f (i, v).
Proof.
  rewrite in_map_iff. split.
  - intros ([j v] & E & Hin). cbn [fst snd] in E. injection E as -> <-. apply items_in in Hin as (_ & s & H1 & H2). rewrite N.sub_0_r in H1. exists s, v. auto.
  - intros (s & v & H1 & H2 & ->). exists (i, v). split; [reflexivity |]. apply items_in. split; [lia |]. rewrite N.sub_0_r. exists s. auto.
Qed.
Lemma emit_keys ch w (l : list (N * out)) : map fst (emit_all ch w l) = map (fun i => (ch, i)) (filter (fun i => negb (tw_skip w ch i)) (map fst l)).
Proof. unfold emit_all. induction l as [| [i v] l IH]; [reflexivity |]. cbn [map filter fst]. destruct (negb (tw_skip w ch i)); cbn [map fst]; rewrite IH; reflexivity. Qed.
Lemma nodup_map_inj {A B} (f : A -> B) l : (forall x y, f x = f y -> x = y) -> NoDup l -> NoDup (map f l).
Proof.
  intros Hf. induction 1 as [| x l Hx _ IH]; [constructor |]. cbn. constructor; [| exact IH]. intros Hin. apply in_map_iff in Hin as (y & E & Hy). apply Hf in E. congruence.
Qed.
Lemma nodup_filter {A} (f : A -> bool) l : NoDup l -> NoDup (filter f l).
Proof. induction 1 as [| x l Hx _ IH]; [constructor |]. cbn. destruct (f x); [| exact IH]. constructor; [| exact IH]. rewrite filter_In. tauto. Qed.
Lemma emit_nodup ch w {B} (sel : sub -> option B) (f : N * B -> out) l : NoDup (map fst (emit_all ch w (map (fun x => (fst x, f x)) (items sel 0 l)))).
Proof.
  rewrite emit_keys. apply nodup_map_inj; [intros x y [= ->]; reflexivity |]. apply nodup_filter. rewrite map_map. cbn [fst]. apply items_nodup.
Qed.
Lemma nodup_app {A} (a b : list A) : NoDup a -> NoDup b -> (forall x, In x a -> In x b -> False) -> NoDup (a ++ b).
Proof.
  induction 1 as [| x a Hx _ IH]; intros Hb Hd; [exact Hb |]. cbn. constructor.
  - rewrite in_app_iff. intros [Hin | Hin]; [contradiction | apply (Hd x); [left; reflexivity | exact Hin]].
  - apply IH; [exact Hb |]. intros y H1 H2. apply (Hd y); [right; exact H1 | exact H2].
Qed.

(** which sub-track an event is about *)
Definition about (subs : channel -> list sub) (k : N) (ch : channel) (e : event) : Prop :=
  fst (fst e) = ch /\ exists s, nth_error (subs ch) (N.to_nat (snd (fst e))) = Some s /\ kind s = k.
Lemma about_nodup subs k ch k' ch' (a b : list event) : (k, ch) <> (k', ch') -> Forall (about subs k ch) a -> Forall (about subs k' ch') b ->
  forall x, In x (map fst a) -> In x (map fst b) -> False.
Proof.
  intros Hne Fa Fb x Ha Hb. apply in_map_iff in Ha as (e & <- & Ha). apply in_map_iff in Hb as (e' & E & Hb).
  rewrite Forall_forall in Fa, Fb. apply Fa in Ha as (H1 & s & H2 & H3). apply Fb in Hb as (H4 & s' & H5 & H6). rewrite E in *. congruence.
Qed.
Lemma nodup_parts subs (parts : list ((N * channel) * list event)) : NoDup (map fst parts) ->
  Forall (fun p => NoDup (map fst (snd p)) /\ Forall (about subs (fst (fst p)) (snd (fst p))) (snd p)) parts ->
  NoDup (map fst (concat (map snd parts))).
Proof.
  induction parts as [| [[k ch] es] parts IH]; intros Hk Hp; [constructor |]. cbn [map concat fst snd] in *. inversion Hk as [| ? ? K1 K2]; subst. inversion Hp as [| ? ? [P1 P2] P3]; subst.
  rewrite map_app. apply nodup_app; [exact P1 | apply IH; assumption |]. intros x Hx Hy.
  apply in_map_iff in Hy as (e & <- & He). apply in_concat in He as (l & Hl & He). apply in_map_iff in Hl as ([[k' ch'] es'] & <- & Hin).
  rewrite Forall_forall in P3. destruct (P3 _ Hin) as [_ A]. cbn [fst snd] in *.
  apply (about_nodup subs k ch k' ch' es es') with (x := fst e); [| exact P2 | exact A | exact Hx | apply in_map, He].
  intros E. apply K1. apply in_map_iff. exists (k', ch', es'). split; [cbn; congruence | exact Hin].
Qed.

Section Events.
  Context (w : twriter) (c : tcontext) (r t s : list sub).
  Notation sb := (subs r t s).
  Lemma default_in ch ch' i o : In (ch', i, o) (default_events ch w (sb ch)) <->
    ch' = ch /\ tw_skip w ch i = false /\ nth_error (sb ch) (N.to_nat i) = Some SDefault /\ tw_skip_default w ch = false /\ o = ODefault.
  Proof.
    unfold default_events. destruct (tw_skip_default w ch); [split; [intros [] | intros (_ & _ & _ & X & _); discriminate] |].
    rewrite emit_in, (items_in0 sel_default (fun _ => ODefault)). split.
    - intros (-> & H1 & x & v & H2 & H3 & H4). destruct x; try discriminate. auto.
    - intros (-> & H1 & H2 & _ & H4). split; [reflexivity |]. split; [exact H1 |]. exists SDefault, tt. auto.
  Qed.
  Lemma constant_in ch ch' i o : In (ch', i, o) (constant_events ch w (sb ch)) <->
    ch' = ch /\ tw_skip w ch i = false /\ exists ws, nth_error (sb ch) (N.to_nat i) = Some (SConst ws) /\ o = OConst (map f_of_bits ws).
  Proof.
    unfold constant_events. rewrite emit_in, (items_in0 sel_const (fun x => const_out (snd x))). split.
    - intros (-> & H1 & x & v & H2 & H3 & H4). destruct x; try discriminate. injection H3 as ->. split; [reflexivity |]. split; [exact H1 |]. exists v. auto.
    - intros (-> & H1 & ws & H2 & H3). split; [reflexivity |]. split; [exact H1 |]. exists (SConst ws), ws. auto.
  Qed.
  Lemma animated_in ch ch' i o : In (ch', i, o) (animated_events ch w c (sb ch)) <->
    ch' = ch /\ tw_skip w ch i = false /\ exists x, nth_error (sb ch) (N.to_nat i) = Some (SAnim x) /\
      o = OMix (track_policy w c i) (sample_value c ch (x0 x) (xclip x)) (sample_value c ch (x1 x) (xclip x)).
  Proof.
    unfold animated_events. rewrite emit_in.
    rewrite (items_in0 sel_anim (fun x => OMix (track_policy w c (fst x)) (sample_value c ch (x0 (snd x)) (xclip (snd x))) (sample_value c ch (x1 (snd x)) (xclip (snd x))))). split.
    - intros (-> & H1 & x & v & H2 & H3 & H4). destruct x; try discriminate. injection H3 as ->. split; [reflexivity |]. split; [exact H1 |]. exists v. auto.
    - intros (-> & H1 & x & H2 & H3). split; [reflexivity |]. split; [exact H1 |]. exists (SAnim x), x. auto.
  Qed.

  Lemma pose_events_ok : pose_written w c sb (pose_events c r t s w).
  Proof.
    split.
    - assert (E : pose_events c r t s w = concat (map snd
        [((0, Rotation), default_events Rotation w (sb Rotation)); ((1, Rotation), constant_events Rotation w (sb Rotation));
         ((0, Translation), default_events Translation w (sb Translation)); ((1, Translation), constant_events Translation w (sb Translation));
         ((0, Scale), default_events Scale w (sb Scale)); ((1, Scale), constant_events Scale w (sb Scale));
         ((2, Rotation), animated_events Rotation w c (sb Rotation)); ((2, Translation), animated_events Translation w c (sb Translation));
         ((2, Scale), animated_events Scale w c (sb Scale))])).
      { unfold pose_events. cbn [map snd concat subs]. rewrite app_nil_r, !app_assoc. reflexivity. }
      rewrite E. apply nodup_parts with (subs := sb).
      + cbn [map fst]. repeat (constructor; [cbn [In]; intuition congruence |]). constructor.
      + assert (D : forall ch, NoDup (map fst (default_events ch w (sb ch))) /\ Forall (about sb 0 ch) (default_events ch w (sb ch))).
        { intros ch. split.
          - unfold default_events. destruct (tw_skip_default w ch); [constructor |]. apply (emit_nodup ch w sel_default (fun _ => ODefault)).
          - apply Forall_forall. intros [[ch' i] o] Hin. apply default_in in Hin as (-> & _ & H2 & _). split; [reflexivity |]. exists SDefault. auto. }
        assert (C : forall ch, NoDup (map fst (constant_events ch w (sb ch))) /\ Forall (about sb 1 ch) (constant_events ch w (sb ch))).
        { intros ch. split.
          - apply (emit_nodup ch w sel_const (fun x => const_out (snd x))).
          - apply Forall_forall. intros [[ch' i] o] Hin. apply constant_in in Hin as (-> & _ & ws & H2 & _). split; [reflexivity |]. exists (SConst ws). auto. }
        assert (A : forall ch, NoDup (map fst (animated_events ch w c (sb ch))) /\ Forall (about sb 2 ch) (animated_events ch w c (sb ch))).
        { intros ch. split.
          - apply (emit_nodup ch w sel_anim (fun x => OMix (track_policy w c (fst x)) (sample_value c ch (x0 (snd x)) (xclip (snd x))) (sample_value c ch (x1 (snd x)) (xclip (snd x))))).
          - apply Forall_forall. intros [[ch' i] o] Hin. apply animated_in in Hin as (-> & _ & x & H2 & _). split; [reflexivity |]. exists (SAnim x). auto. }
        repeat (constructor; [cbn [fst snd]; auto |]). constructor.
    - intros ch i o.
      assert (E : In (ch, i, o) (pose_events c r t s w) <->
        In (ch, i, o) (default_events ch w (sb ch)) \/ In (ch, i, o) (constant_events ch w (sb ch)) \/ In (ch, i, o) (animated_events ch w c (sb ch))).
      { unfold pose_events. rewrite !in_app_iff.
        assert (D : forall ch', In (ch, i, o) (default_events ch' w (sb ch')) <-> ch = ch' /\ In (ch, i, o) (default_events ch w (sb ch))).
        { intros ch'. rewrite !default_in. intuition (subst; auto). }
        assert (C : forall ch', In (ch, i, o) (constant_events ch' w (sb ch')) <-> ch = ch' /\ In (ch, i, o) (constant_events ch w (sb ch))).
        { intros ch'. rewrite !constant_in. intuition (subst; auto). }
        assert (A : forall ch', In (ch, i, o) (animated_events ch' w c (sb ch')) <-> ch = ch' /\ In (ch, i, o) (animated_events ch w c (sb ch))).
        { intros ch'. rewrite !animated_in. intuition (subst; auto). }
        pose proof (D Rotation) as D1. pose proof (D Translation) as D2. pose proof (D Scale) as D3.
        pose proof (C Rotation) as C1. pose proof (C Translation) as C2. pose proof (C Scale) as C3.
        pose proof (A Rotation) as A1. pose proof (A Translation) as A2. pose proof (A Scale) as A3. cbn [subs] in D1, D2, D3, C1, C2, C3, A1, A2, A3.
        rewrite D1, D2, D3, C1, C2, C3, A1, A2, A3. clear.
        destruct ch; intuition congruence. }
      rewrite E, default_in, constant_in, animated_in. unfold written. split.
      + intros [(_ & H1 & H2 & H3 & H4) | [(_ & H1 & ws & H2 & H3) | (_ & H1 & x & H2 & H3)]].
        * exists SDefault. auto.
        * exists (SConst ws). auto.
        * exists (SAnim x). auto.
      + intros (x & H1 & H2 & H3). destruct x as [| ws | x].
        * left. destruct H3. auto.
        * right. left. split; [reflexivity |]. split; [exact H2 |]. exists ws. auto.
        * right. right. split; [reflexivity |]. split; [exact H2 |]. exists x. auto.
  Qed.
End Events.

Theorem decompress_tracks_pose w c r t s : clip_layout c r t s ->
  exists events, decompress_tracks w c = Ok events /\ pose_written w c (subs r t s) events.
Proof. intros H. exists (pose_events c r t s w). split; [apply decompress_tracks_ok, H | apply pose_events_ok]. Qed.
