(** The caches of animated sub-tracks: a group of four at a time. *)
From Coq Require Import Lia.
From Verif Require Import Word WordFacts Pieces Float32 Quant Interp Packing PackSpec PackingFacts DbBuild ScalarDec SubTracks SubTracksFacts
  TransDec TransSpec TransRing TransMem TransConst TransFloat TransAnim.
Local Open Scope N_scope.
Ltac Zify.zify_post_hook ::= idtac.

(** ** [mapi] and [mix] *)
Lemma mapi_pointwise {A B} (f : nat -> A -> B) (h : A -> B) l : forall k,
  (forall i a, nth_error l i = Some a -> f (k + i)%nat a = h a) -> mapi f k l = map h l.
Proof.
  induction l as [| a l IH]; intros k H; [reflexivity |]. cbn [mapi map]. f_equal.
  - specialize (H 0%nat a eq_refl). rewrite Nat.add_0_r in H. exact H.
  - apply IH. intros i b Hb. specialize (H (S i) b Hb). rewrite Nat.add_succ_r in H. exact H.
Qed.
Lemma mapi_map {A B C} (f : nat -> B -> C) (g : A -> B) l : forall k, mapi f k (map g l) = mapi (fun i a => f i (g a)) k l.
Proof. induction l as [| a l IH]; intros k; [reflexivity |]. cbn. f_equal. apply IH. Qed.
Lemma mapi_mapi {A B C} (f : nat -> B -> C) (g : nat -> A -> B) l : forall k, mapi f k (mapi g k l) = mapi (fun i a => f i (g i a)) k l.
Proof. induction l as [| a l IH]; intros k; [reflexivity |]. cbn. f_equal. apply IH. Qed.
Lemma mix_map {A} pol (f g : A -> list f32) l : mix pol (map f l) (map g l) = map (fun x => OMix pol (f x) (g x)) l.
Proof. induction l as [| a l IH]; [reflexivity |]. cbn. f_equal. apply IH. Qed.

(** what a fetch of a batch of four has to give *)
Lemma batch_of_four {A} (f : A -> out) (l : list A) (vs : list out) :
  vs = pad_lanes (map f (firstn 4 l)) \/ vs = map f (firstn 4 l) ->
  (length vs <= N.to_nat 4)%nat /\ (length (map f l) < N.to_nat 4 -> firstn (length (map f l)) vs = map f l)%nat /\
  (N.to_nat 4 <= length (map f l) -> vs = firstn (N.to_nat 4) (map f l))%nat.
Proof.
  change (N.to_nat 4) with 4%nat. rewrite map_length, firstn_map.
  assert (L : length (map f (firstn 4 l)) = Nat.min 4 (length l)) by (rewrite map_length; apply firstn_length).
  assert (Ha : (length l < 4)%nat -> map f (firstn 4 l) = map f l) by (intros; rewrite firstn_all2 by lia; reflexivity).
  assert (M : length (map f l) = length l) by apply map_length.
  set (v := map f (firstn 4 l)) in *. unfold pad_lanes. intros [-> | ->].
  - rewrite app_length, repeat_length. split; [lia | split].
    + intros H. rewrite Ha by exact H. rewrite firstn_app, M, Nat.sub_diag, firstn_O, app_nil_r. apply firstn_all2. lia.
    + intros H. replace (4 - length v)%nat with 0%nat by lia. apply app_nil_r.
  - split; [lia | split; [| reflexivity]]. intros H. rewrite Ha by exact H. apply firstn_all2. lia.
Qed.

(** ** Rotations of a variable format *)
Record ksrc (version : N) (hs : bool) (m data : list N) (k : kposition) (ss : list stored) : Prop := {
  ks_stream : stream data (k_bit k) ss;
  ks_formats : padded m (k_format k) (rotation_formats version ss);
  ks_ranges : hs = true -> padded m (k_range k) (rotation_ranges ss);
  ks_ok : Forall (stored_ok hs) ss
}.
Definition kstep (k : kposition) (chunk : list stored) : kposition :=
  {| k_format := k_format k + 4; k_range := k_range k + 24; k_bit := k_bit k + stored_sizes chunk |}.

Section Key.
  Context (version : N) (hs : bool) (m data : list N).
  Lemma ksrc_first k ss : ksrc version hs m data k ss -> ss <> [] ->
    placed m (k_format k) (pad4 (map (format_code version) (firstn 4 ss))) /\ (hs = true -> padded m (k_range k) (range_rows (firstn 4 ss))) /\
    ksrc version hs m data (kstep k (firstn 4 ss)) (skipn 4 ss).
  Proof.
    intros [S F R Kk] Hne. assert (L4 : (length (firstn 4 ss) <= 4)%nat) by (rewrite firstn_length; lia).
    unfold rotation_formats in F. rewrite chunk4_map, chunk4_step in F by exact Hne. cbn [map concat] in F. apply padded_app in F as [[F1 _] F2].
    assert (Hm : forall (A B : Type) (f : A -> B) l, map f l = [] -> l = []) by (intros; destruct l; [reflexivity | discriminate]).
    assert (R' : hs = true -> padded m (k_range k) (range_rows (firstn 4 ss) ++ rotation_ranges (skipn 4 ss))).
    { intros Hh. specialize (R Hh). unfold rotation_ranges in R. rewrite chunk4_step in R by (intros X; apply Hm in X; contradiction).
      cbn [map concat] in R. rewrite firstn_map, skipn_map in R. exact R. }
    split; [exact F1 |]. split; [intros Hh; apply padded_app in R' as [R1 _]; assumption |].
    constructor; cbn [kstep k_bit k_format k_range].
    - apply stream_rest. rewrite firstn_skipn. exact S.
    - unfold blen in F2. rewrite pad4_length in F2 by (rewrite map_length; exact L4). unfold rotation_formats. rewrite chunk4_map. exact F2.
    - intros Hh. apply padded_app in R' as [_ R2]; [| exact Hh]. unfold blen in R2. rewrite range_rows_length in R2 by exact L4. exact R2.
    - apply Forall_rest, Kk.
  Qed.

  Lemma unpack_group_ok k ss : ksrc version hs m data k ss -> ss <> [] ->
    unpack_animated_quat version quatf_drop_w_variable m data (len (firstn 4 ss)) k = Ok (map sample_of (firstn 4 ss), kstep k (firstn 4 ss)).
  Proof.
    intros H Hne. pose proof (ksrc_first k ss H Hne) as (F & R & _). destruct H as [S _ _ Kk].
    unfold unpack_animated_quat, len. rewrite Nnat.Nat2N.id.
    rewrite (unpack_quats_ok version hs m data (firstn 4 ss) (k_format k) (k_range k)) with (l := firstn 4 ss) (pre := []) (rest := skipn 4 ss).
    - reflexivity.
    - rewrite firstn_length. lia.
    - exact F.
    - intros Hh. apply R, Hh.
    - apply Forall_first, Kk.
    - reflexivity.
    - rewrite firstn_skipn. exact S.
  Qed.
End Key.

Lemma group_values hs (sel : asub -> stored) chunk segs clip : Forall (stored_ok hs) (map sel chunk) ->
  (hs = true -> forall r i s, (r < 6)%nat -> nth_error (map sel chunk) i = Some s -> nth (4 * r + i) segs f_zero = unit_value 8 (nth r (rotation_range s) 0)) ->
  (forall r i cl, (r < 6)%nat -> nth_error (map xclip chunk) i = Some cl -> lane i (nth r clip []) = clip_value cl r) ->
  mapi (remap_clip4 clip) 0 (if hs then mapi (remap_segment4 segs) 0 (map sample_of (map sel chunk)) else map sample_of (map sel chunk))
  = map (fun x => decoded_in_group hs (sel x) (xclip x)) chunk.
Proof.
  intros Hok Hg Hh. rewrite map_map.
  assert (E : mapi (remap_clip4 clip) 0 (if hs then mapi (remap_segment4 segs) 0 (map (fun x => sample_of (sel x)) chunk) else map (fun x => sample_of (sel x)) chunk)
              = mapi (fun i x => remap_clip4 clip i (if hs then remap_segment4 segs i (sample_of (sel x)) else sample_of (sel x))) 0 chunk).
  { destruct hs; rewrite !mapi_map, ?mapi_mapi; reflexivity. }
  rewrite E. apply mapi_pointwise. intros i x Hx. rewrite Nat.add_0_l.
  assert (Ok_s : stored_ok hs (sel x)). { rewrite Forall_forall in Hok. apply Hok, in_map. apply nth_error_In in Hx. exact Hx. }
  rewrite <- (remap_lanes 0 hs (sel x) (xclip x) (fun r => nth (4 * r + i) segs f_zero) (fun r => lane i (nth r clip []))); [| exact Ok_s | |].
  - destruct hs; reflexivity.
  - intros Hs r Hr. apply Hg; [exact Hs | exact Hr |]. rewrite nth_error_map, Hx. reflexivity.
  - intros r Hr. apply Hh; [exact Hr |]. rewrite nth_error_map, Hx. reflexivity.
Qed.

(** ** Rotations of a full format *)
Lemma unpack_quats_raw version f ncomp m data fmt range : (f = quatf_full /\ ncomp = 4 \/ f = quatf_drop_w_full /\ ncomp = 3) ->
  forall l rest bit i, Forall (is_raw ncomp) l -> stream data bit (l ++ rest) ->
  unpack_quats (length l) version f m data fmt range bit i = Ok (map sample_of l, bit + stored_sizes l).
Proof.
  intros Hf. induction l as [| s l IH]; intros rest bit i Hr St.
  - cbn. rewrite N.add_0_r. reflexivity.
  - inversion Hr as [| ? ? [Z V] Hr2]; subst. cbn [length unpack_quats map]. cbn [app] in St. apply stream_cons in St as (F & B & W & St).
    assert (E : unpack_quat version f m data fmt range bit i = Ok (sample_of s, bit + stored_size s)).
    { unfold sample_of, raw_lanes, unpack_quat. rewrite Z in *. eqbs. unfold stored_size in *. rewrite Z in *. fold (len (s_vals s)) in *. pose proof V as [L _]. unfold len in *.
      destruct Hf as [[-> ->] | [-> ->]].
      - rewrite (unpack_raw_ok 4 data bit (s_vals s)) by (assumption || (destruct St; assumption) || (right; reflexivity)). cbn [bindo]. rewrite L in *. rewrite addw_small by exact W. reflexivity.
      - rewrite (unpack_raw_ok 3 data bit (s_vals s)) by (assumption || (destruct St; assumption) || (left; reflexivity)). cbn [bindo]. rewrite L in *. rewrite addw_small by exact W. reflexivity. }
    rewrite E. cbn [bindo]. rewrite (IH rest) by assumption. cbn [bindo]. rewrite stored_sizes_cons, N.add_assoc. reflexivity.
Qed.

(** ** A batch of rotations *)
Definition rotation_value (f : rotation_format) (hs : bool) (s : stored) (clip : list N) : list f32 :=
  if rotation_variable f then decoded_in_group hs s clip else decoded hs s clip.
Definition rotation_out (c : tcontext) (x : asub) : out :=
  OMix rp_none (rotation_value (c_rotation_format c) (c_has_segments c) (x0 x) (xclip x))
               (rotation_value (c_rotation_format c) (c_has_segments c) (x1 x) (xclip x)).
Definition rotation_components (f : rotation_format) : N := if rotation_full f then 4 else 3.

Record arotations (c : tcontext) (p : aposition) (l : list asub) : Prop := {
  ar_variable : rotation_variable (c_rotation_format c) = true ->
    ksrc (c_version c) (c_has_segments c) (c_mem c) (kf_data (c_kf0 c)) (a_kf0 p) (map x0 l) /\
    ksrc (c_version c) (c_has_segments c) (c_mem c) (kf_data (c_kf1 c)) (a_kf1 p) (map x1 l) /\
    padded (c_mem c) (a_clip p) (rotation_clip_ranges (map xclip l)) /\ Forall (in_words 32 6) (map xclip l) /\
    (c_single_segment c = true -> k_range (a_kf1 p) = k_range (a_kf0 p));
  ar_full : rotation_variable (c_rotation_format c) = false ->
    stream (kf_data (c_kf0 c)) (k_bit (a_kf0 p)) (map x0 l) /\ stream (kf_data (c_kf1 c)) (k_bit (a_kf1 p)) (map x1 l) /\
    Forall (is_raw (rotation_components (c_rotation_format c))) (map x0 l) /\ Forall (is_raw (rotation_components (c_rotation_format c))) (map x1 l)
}.
Definition rotation_source (c : tcontext) (p : aposition) (outs : list out) : Prop :=
  exists l, outs = map (rotation_out c) l /\ arotations c p l.

Lemma map_nonempty {A B} (f : A -> B) l : l <> [] -> map f l <> [].
Proof. destruct l; [congruence | discriminate]. Qed.

Lemma fetch_rotations_ok c : forall p l, rotation_source c p l -> l <> [] ->
  exists vs p', fetch_animated_rotations c (N.min (len l) 4) p = Ok (vs, p') /\ (length vs <= N.to_nat 4)%nat /\
    (length l < N.to_nat 4 -> firstn (length l) vs = l)%nat /\ (N.to_nat 4 <= length l -> vs = firstn (N.to_nat 4) l)%nat /\
    rotation_source c p' (skipn (N.to_nat 4) l).
Proof.
  intros p outs (l & -> & H) Hne. assert (Hl : l <> []) by (destruct l; [contradiction Hne; reflexivity | discriminate]). clear Hne.
  set (chunk := firstn 4 l).
  assert (Hn : N.min (len (map (rotation_out c) l)) 4 = len chunk) by (unfold len, chunk; rewrite map_length, firstn_length; lia).
  assert (Hc : (0 < length chunk <= 4)%nat). { unfold chunk. rewrite firstn_length. destruct l; [contradiction |]. cbn [length]. lia. }
  rewrite Hn. unfold fetch_animated_rotations, rotation_source.
  destruct (rotation_variable (c_rotation_format c)) eqn:Hv.
  - destruct H as [H _]. specialize (H Hv) as (K0 & K1 & Pc & Wc & Hss).
    assert (Ef : c_rotation_format c = quatf_drop_w_variable) by (destruct (c_rotation_format c); try discriminate; reflexivity).
    set (hs := c_has_segments c) in *. set (m := c_mem c) in *.
    pose proof (unpack_group_ok _ _ _ _ _ _ K0 (map_nonempty _ _ Hl)) as U0. pose proof (unpack_group_ok _ _ _ _ _ _ K1 (map_nonempty _ _ Hl)) as U1.
    pose proof (ksrc_first _ _ _ _ _ _ K0 (map_nonempty _ _ Hl)) as (_ & R0 & N0). pose proof (ksrc_first _ _ _ _ _ _ K1 (map_nonempty _ _ Hl)) as (_ & R1 & N1).
    rewrite firstn_map in U0, U1, R0, R1, N0, N1. rewrite skipn_map in N0, N1. fold chunk in U0, U1, R0, R1, N0, N1.
    unfold len in U0, U1. rewrite map_length in U0, U1. fold (len chunk) in U0, U1.
    unfold rotation_clip_ranges in Pc. rewrite chunk4_step in Pc by (apply map_nonempty, Hl). cbn [map concat] in Pc. rewrite firstn_map, skipn_map in Pc. fold chunk in Pc.
    apply padded_app in Pc as [Pc Pr]. rewrite soa_words_blen in Pr.
    destruct (clip_range_ok m (map xclip chunk) (a_clip p)) as (clip & Ec & Hclip);
      [rewrite map_length; exact Hc | exact Pc | unfold chunk; rewrite <- firstn_map; apply Forall_first, Wc |].
    unfold len in Ec, Pr. rewrite map_length in Ec, Pr. fold (len chunk) in Ec, Pr.
    assert (S0 : exists segs, (if hs then unpack_segment_range_data m (k_range (a_kf0 p)) else Ok []) = Ok segs /\
      (hs = true -> forall r i s, (r < 6)%nat -> nth_error (map x0 chunk) i = Some s -> nth (4 * r + i) segs f_zero = unit_value 8 (nth r (rotation_range s) 0))).
    { destruct hs; [| exists []; split; [reflexivity | discriminate]]. destruct (segment_range_ok m (map x0 chunk) (k_range (a_kf0 p))) as (rs & E & G);
      [rewrite map_length; lia | apply R0; reflexivity |]. exists rs. split; [exact E | intros _; exact G]. }
    assert (S1 : exists segs, (if hs then unpack_segment_range_data m (k_range (a_kf1 p)) else Ok []) = Ok segs /\
      (hs = true -> forall r i s, (r < 6)%nat -> nth_error (map x1 chunk) i = Some s -> nth (4 * r + i) segs f_zero = unit_value 8 (nth r (rotation_range s) 0))).
    { destruct hs; [| exists []; split; [reflexivity | discriminate]]. destruct (segment_range_ok m (map x1 chunk) (k_range (a_kf1 p))) as (rs & E & G);
      [rewrite map_length; lia | apply R1; reflexivity |]. exists rs. split; [exact E | intros _; exact G]. }
    destruct S0 as (seg0 & E0 & G0). destruct S1 as (seg1 & E1 & G1).
    cbn [andb]. rewrite E0. cbn [bindo]. rewrite Ef.
    assert (S2 : exists segs, (if hs && negb (c_single_segment c) then unpack_segment_range_data m (k_range (a_kf1 p)) else Ok []) = Ok segs /\
      (hs = true -> (if c_single_segment c then seg0 else segs) = seg1)).
    { destruct hs; cbn [andb]; [| exists []; split; [reflexivity | discriminate]]. destruct (c_single_segment c); cbn [negb].
      - exists []. split; [reflexivity |]. intros _. rewrite Hss in E1 by reflexivity. congruence.
      - exists seg1. split; [exact E1 | reflexivity]. }
    destruct S2 as (segs & -> & Hsegs). cbn [bindo]. rewrite U0, U1. cbn [bindo rotation_variable]. rewrite Ec. cbn [bindo].
    replace (if hs then mapi (remap_segment4 (if c_single_segment c then seg0 else segs)) 0 (map sample_of (map x1 chunk)) else map sample_of (map x1 chunk))
      with (if hs then mapi (remap_segment4 seg1) 0 (map sample_of (map x1 chunk)) else map sample_of (map x1 chunk)).
    2:{ destruct hs; [| reflexivity]. rewrite Hsegs by reflexivity. reflexivity. }
    rewrite (group_values hs x0 chunk seg0 clip), (group_values hs x1 chunk seg1 clip); try assumption.
    2:{ unfold chunk. rewrite <- firstn_map. apply Forall_first. exact (ks_ok _ _ _ _ _ _ K1). }
    2:{ unfold chunk. rewrite <- firstn_map. apply Forall_first. exact (ks_ok _ _ _ _ _ _ K0). }
    rewrite mix_map.
    replace (map (fun x => OMix rp_none (decoded_in_group hs (x0 x) (xclip x)) (decoded_in_group hs (x1 x) (xclip x))) chunk) with (map (rotation_out c) chunk).
    2:{ apply map_ext. intros x. unfold rotation_out, rotation_value. rewrite Hv. reflexivity. }
    eexists _, _. split; [reflexivity |].
    match goal with |- (length ?vs <= _)%nat /\ _ => pose proof (batch_of_four (rotation_out c) l vs (or_introl eq_refl)) as (A & B & C) end.
    split; [exact A |]. split; [exact B |]. split; [exact C |].
    exists (skipn 4 l). split; [change (N.to_nat 4) with 4%nat; rewrite skipn_map; reflexivity |].
    constructor; [| rewrite Hv; discriminate]. intros _. fold hs m. cbn [a_kf0 a_kf1 a_clip]. split; [exact N0 |]. split; [exact N1 |].
    split; [| split].
    + unfold rotation_clip_ranges. replace (len chunk * 12 * 2) with (4 * N.of_nat 6 * len chunk) by lia. exact Pr.
    + rewrite <- skipn_map. apply Forall_rest, Wc.
    + intros Hs. cbn [kstep k_range]. rewrite Hss by exact Hs. reflexivity.
  - destruct H as [_ H]. specialize (H Hv) as (S0 & S1 & W0 & W1). cbn [andb bindo].
    assert (U : forall sel data k, stream data (k_bit k) (map sel l) -> Forall (is_raw (rotation_components (c_rotation_format c))) (map sel l) ->
      unpack_animated_quat (c_version c) (c_rotation_format c) (c_mem c) data (len chunk) k =
      Ok (map sample_of (map sel chunk), {| k_format := k_format k; k_range := k_range k; k_bit := k_bit k + stored_sizes (map sel chunk) |})).
    { intros sel data k St W. unfold unpack_animated_quat. rewrite Hv. unfold len. rewrite Nnat.Nat2N.id. rewrite <- (map_length sel chunk).
      rewrite (unpack_quats_raw (c_version c) (c_rotation_format c) (rotation_components (c_rotation_format c))) with (rest := map sel (skipn 4 l)).
      - reflexivity.
      - destruct (c_rotation_format c); [left | right | discriminate]; auto.
      - unfold chunk. rewrite <- firstn_map. apply Forall_first, W.
      - rewrite <- map_app. unfold chunk. rewrite firstn_skipn. exact St. }
    rewrite (U x0 _ _ S0 W0), (U x1 _ _ S1 W1). cbn [bindo].
    assert (D : forall sel, Forall (is_raw (rotation_components (c_rotation_format c))) (map sel l) ->
      map u_lanes (map sample_of (map sel chunk)) = map (fun x => decoded (c_has_segments c) (sel x) (xclip x)) chunk).
    { intros sel W. rewrite !map_map. apply map_ext_in. intros x Hx. rewrite Forall_forall in W. destruct (W (sel x)) as [Z _].
      { apply in_map. unfold chunk in Hx. rewrite <- (firstn_skipn 4 l). apply in_or_app. left. exact Hx. }
      cbn [sample_of u_lanes]. unfold raw_lanes, decoded. rewrite Z. reflexivity. }
    rewrite (D x0 W0), (D x1 W1), mix_map.
    replace (map (fun x => OMix rp_none (decoded (c_has_segments c) (x0 x) (xclip x)) (decoded (c_has_segments c) (x1 x) (xclip x))) chunk) with (map (rotation_out c) chunk).
    2:{ apply map_ext. intros x. unfold rotation_out, rotation_value. rewrite Hv. reflexivity. }
    eexists _, _. split; [reflexivity |].
    match goal with |- (length ?vs <= _)%nat /\ _ => pose proof (batch_of_four (rotation_out c) l vs (or_introl eq_refl)) as (A & B & C) end.
    split; [exact A |]. split; [exact B |]. split; [exact C |].
    exists (skipn 4 l). split; [change (N.to_nat 4) with 4%nat; rewrite skipn_map; reflexivity |].
    constructor; [rewrite Hv; discriminate |]. intros _. cbn [a_kf0 a_kf1 a_clip k_bit].
    rewrite <- !skipn_map. unfold chunk. rewrite <- !firstn_map.
    split; [apply stream_rest; rewrite firstn_skipn; assumption |]. split; [apply stream_rest; rewrite firstn_skipn; assumption |].
    split; apply Forall_rest; assumption.
Qed.
