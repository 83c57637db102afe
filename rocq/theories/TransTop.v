(** Compressing a transform clip, from the quantized streams to the finished buffer, and using a decompression context on it. *)
From Coq Require Import Lia Reals Lra.
From Verif Require Import Word WordFacts Pieces MemoryUtils MemoryFacts Float32 Float32Facts Quant Interp InterpFacts Headers HeadersFacts Packing PackSpec DbBuild ScalarEnc ScalarDec ScalarRead ScalarSeekFacts ScalarPlay TrackArray
  TransMeta TransMetaSpec TransDec TransSpec TransRing TransMem TransEnc TransEncSpec TransEncAnim2 TransEncBytes TransEncBytes2
  TransClipSpec TransFile TransFileFacts TransFileSegs TransFilePack TransFileMeta TransFilePlay TransFilePlay2 TransFilePlay3 Strip Segment SeekSpec TransSeek TransPlaySpec.
Import ListNotations.
Local Open Scope N_scope.
Ltac Zify.zify_post_hook ::= idtac.

(** compress_transform_track_list, compress.transform.impl.h:287-607, once the streams are quantized: the buffer, then its optional
    metadata or padding, its size and its hash.  [junk]: the contents of the local buffers that are not initialized *)
Record junks := { j_words : list N; j_lanes : list (list f32); j_group : list N }.
Definition compress_transforms (j : junks) (f : tflags) (list_name : list N) (tracks : list ttrack) (error : list N) (p : tclip) : outcome (list N) :=
  bindo (pack_transforms (j_words j) (j_lanes j) (j_group j) p) (add_metadata f list_name tracks (p_mapping p) error).
(** the local buffers have their sizes *)
Definition junks_ok (j : junks) : Prop := length (j_words j) = 4%nat /\ length (j_lanes j) = 4%nat /\ buffer_ok (j_group j).

(** a clip to compress: the segments of [p] contain the tracks [out] (at least one), which are split in segments as the compressor
    does, and everything fits 32 bit sizes *)
Record clip_input (list_name : list N) (tracks : list ttrack) (error : list N) (p : tclip) (out : list content) : Prop := {
  ci_tracks : out <> [];
  ci_small : 18 * len out + 64 < 2 ^ 32;
  ci_segments : segments_ok p out 0 (p_segments p);
  ci_first : exists g0 b0, nth_error (p_segments p) 0 = Some g0 /\ nth_error (g_bones g0) 0 = Some b0 /\
    (rotation_variable (p_rotation p) = true -> ts_packed_size (b_stream b0 Rotation) <> 16) /\
    clip_end p out (g_bones g0) + 64 < 2 ^ 32 /\
    clip_end p out (g_bones g0) + blen list_name + blen error + output_names_size tracks (p_mapping p) + 57 * N.of_nat (length (p_mapping p)) < 2 ^ 32 - 512;
  ci_bits : bits_ok p;
  ci_timing : clip_timing p;
  ci_mapping : Forall (fun i => i < N.of_nat (length tracks)) (p_mapping p) /\ NoDup (p_mapping p);
  ci_descriptions : Forall (fun t => length (tt_description t) = 12%nat) tracks;
  ci_count : N.of_nat (length tracks) < 2 ^ 32;
  ci_names : bytes_ok list_name /\ Forall (fun t => bytes_ok (tt_name t)) tracks /\ bytes_ok error
}.

(** the finished buffer of a clip *)
Definition made (p : tclip) (out : list content) (m : list N) : Prop :=
  exists g0 rest b0 prefix, clip_ok p out g0 rest b0 /\ bits_ok p /\ out <> [] /\ clip_timing p /\ packed p out g0 prefix /\ sealed prefix m.

Lemma packed_header p out g0 rest b0 prefix : clip_ok p out g0 rest b0 -> out <> [] -> packed p out g0 prefix ->
  32 <= blen prefix /\ h_num_tracks prefix = Ok (N.of_nat (length (p_mapping p))) /\ h_version prefix = Ok 10.
Proof.
  intros K NE P. pose proof (ats_le p out (g_bones g0)) as L. pose proof (pk_size _ _ _ _ P) as E. pose proof (co_end _ _ _ _ _ K) as CE.
  assert (B : 84 <= blen prefix) by lia. split; [lia |]. rewrite (mapping_len p out g0 rest b0 K). split.
  - unfold h_num_tracks. apply (read_word _ 16 _ 0 _ (header_words_placed p out g0 rest b0 K NE prefix P)); [reflexivity |]. pose proof (co_tracks _ _ _ _ _ K). lia.
  - unfold h_version, load_le. pose proof (pk_header _ _ _ _ P) as H0. unfold raw_header in H0. apply placed_app in H0 as [_ H0]. apply placed_app in H0 as [H0 _]. rewrite le4_blen in H0. change (8 + 4) with 12 in H0.
    destruct (load_bytes_placed prefix 12 (le_bytes 2 version_latest) 2 H0) as (r & -> & Hr); [rewrite le_bytes_length; lia | change (N.of_nat 2) with 2; lia |]. rewrite le_bytes_length in Hr. destruct r; [| cbn in Hr; lia]. reflexivity.
Qed.

Theorem compress_made j f list_name tracks error p out : clip_input list_name tracks error p out -> junks_ok j ->
  exists m, compress_transforms j f list_name tracks error p = Ok m /\ made p out m.
Proof.
  intros I (J1 & J2 & J3). destruct (ci_first _ _ _ _ _ I) as (g0 & b0 & E0 & Eb & PK & CE & FT).
  destruct (p_segments p) as [| g rest] eqn:ES; [discriminate |]. injection E0 as ->.
  assert (K : clip_ok p out g0 rest b0). { constructor; try assumption; [apply (ci_segments _ _ _ _ _ I) | apply (ci_small _ _ _ _ _ I)]. }
  destruct (pack_ok p out g0 rest b0 K _ _ _ J1 J2 J3) as (prefix & EP & P). destruct (packed_header p out g0 rest b0 prefix K (ci_tracks _ _ _ _ _ I) P) as (H1 & H2 & H3).
  assert (TC : transform_clip list_name tracks (p_mapping p) error prefix).
  { constructor; try apply I; try assumption; [apply (pk_bytes _ _ _ _ P) |]. rewrite (pk_size _ _ _ _ P). exact FT. }
  destruct (ci_names _ _ _ _ _ I) as (N1 & N2 & N3). destruct (metadata_sealed f list_name tracks (p_mapping p) error prefix TC N1 N2 N3) as (m & EM & SM).
  exists m. split; [unfold compress_transforms; rewrite EP; exact EM |]. exists g0, rest, b0, prefix. repeat (split; [first [assumption | apply I] |]). exact SM.
Qed.

(** * Histories *)
(** what a context knows: nothing yet, or the key frames of its last seek.  [lp]: the looping policy that seek was done with *)
Inductive ready (p : tclip) (out : list content) (m : list N) (ds : dsettings) (c : pcontext) : Prop :=
| not_sought : x_time c = f_minus_one -> ready p out m ds c
| at_last_seek lp k0 k1 al i0 c0 i1 c1 :
    find_linear_interpolation_samples_with_sample_rate (p_num_samples p) (p_sample_rate p) (x_time c) (x_rounding c) lp = Ok (k0, k1, al) ->
    chosen p k0 k1 al i0 c0 i1 c1 (x_alpha c) -> at_frames p out m c i0 c0 i1 c1 -> ready p out m ds c.

(** a call is legal in a context: a time within the clip unless times are clamped *)
Definition legal (ds : dsettings) (p : tclip) (x : tcall) : Prop :=
  match x with
  | call_seek t _ => clamp_sample_time ds = true \/ (ffinite t = true /\ (0 <= FR t <= FR (clip_finite_duration (p_num_samples p) (p_sample_rate p) lp_clamp))%R)
  | _ => True
  end.
Lemma legal_time_ok ds p m c t rp : clip_timing p -> opened p m ds c -> legal ds p (call_seek t rp) -> time_ok ds (x_duration c) t.
Proof.
  intros T O [L | [F [L1 L2]]]; [left; exact L | right]. split; [exact F |]. split; [exact L1 |]. eapply Rle_trans; [exact L2 |]. rewrite (op_duration _ _ _ _ O).
  pose proof (ti_samples _ T). rewrite !duration_eq by (try apply T; assumption). apply fdiv_mono; try apply T; destruct (x_looping c); lia.
Qed.

Lemma nonempty_len (out : list content) : out <> [] -> len out =? 0 = false. Proof. destruct out; [congruence | reflexivity]. Qed.
Section History.
  Context (p : tclip) (out : list content) (m : list N) (ds : dsettings).
  Hypothesis M : made p out m.

  Lemma open_ok c0 : exists c, tinitialize ds c0 m None = Ok c /\ opened p m ds c /\ x_time c = f_minus_one /\ x_looping c = first_policy ds p.
  Proof. destruct M as (g0 & rest & b0 & prefix & K & B & NE & T & P & Se). exact (initialize_ok p out g0 rest b0 K B NE T prefix m P Se ds c0). Qed.

  (** every legal call is defined, and the context stays ready *)
  Lemma call_ok c x : opened p m ds c -> ready p out m ds c -> legal ds p x ->
    exists c', tdo ds m c x = Ok c' /\ opened p m ds c' /\ ready p out m ds c'.
  Proof.
    intros O R L. destruct M as (g0 & rest & b0 & prefix & K & B & NE & T & P & Se). destruct x as [t rp | policy |]; cbn [tdo].
    - destruct (seek_ok p out g0 rest b0 K B NE T prefix m P Se ds c t rp O (legal_time_ok ds p m c t rp T O L)) as (c' & E & O' & _ & H1 & H2). exists c'. split; [exact E |]. split; [exact O' |].
      destruct (feq (x_time c) (sought ds (x_duration c) t) && rp_eqb (x_rounding c) rp); [rewrite (H1 eq_refl); exact R |].
      destruct (H2 eq_refl) as (X1 & X2 & k0 & k1 & al & i0 & c0 & i1 & c1 & EF & CH & AF). rewrite <- X1, <- X2 in EF. econstructor 2; eassumption.
    - destruct (looping_ok p out g0 rest b0 K B NE T prefix m P Se ds c policy O) as (c' & E & O' & X1 & X2 & X3 & X4 & X5 & X6). exists c'. split; [exact E |]. split; [exact O' |].
      destruct R as [R | lp k0 k1 al i0 c0 i1 c1 EF CH [A1 A2 A3 A4 A5]]; [left; congruence |]. rewrite <- X1, <- X2 in EF. rewrite <- X3 in CH. econstructor 2; [exact EF | exact CH |]. constructor; rewrite ?X1, ?X4, ?X5, ?X6; assumption.
    - destruct (relocated_ok p m ds c O) as (c' & E & O' & X1 & X2). rewrite E. cbn [bindo]. exists c'. split; [reflexivity |]. split; [exact O' |]. left. exact X1.
  Qed.
  Lemma calls_ok l : forall c, opened p m ds c -> ready p out m ds c -> Forall (legal ds p) l ->
    exists c', tdo_all ds m c l = Ok c' /\ opened p m ds c' /\ ready p out m ds c'.
  Proof.
    induction l as [| x l IH]; intros c O R L; [exists c; auto |]. inversion L as [| ? ? L1 L2]; subst. destruct (call_ok c x O R L1) as (c' & E & O' & R'). cbn [tdo_all]. rewrite E. cbn [bindo]. apply IH; assumption.
  Qed.

  (** what a ready context shows *)
  Lemma tracks_ok c : opened p m ds c -> ready p out m ds c ->
    (x_time c = f_minus_one /\ (forall w, play_tracks w c = Ok []) /\ (forall w i, play_track w c i = Ok [])) \/
    exists lp k0 k1 al i0 c0 i1 c1,
      find_linear_interpolation_samples_with_sample_rate (p_num_samples p) (p_sample_rate p) (x_time c) (x_rounding c) lp = Ok (k0, k1, al) /\
      chosen p k0 k1 al i0 c0 i1 c1 (x_alpha c) /\ at_frames p out m c i0 c0 i1 c1.
  Proof.
    intros O R. destruct M as (g0 & rest & b0 & prefix & K & B & NE & T & P & Se). destruct R as [R | lp k0 k1 al i0 c0 i1 c1 EF CH A]; [left | right; exists lp, k0, k1, al, i0, c0, i1, c1; auto].
    split; [exact R |]. assert (NT : h_num_tracks (x_tracks c) = Ok (len out)) by (rewrite (op_tracks _ _ _ _ O); exact (tracks_read p out g0 rest b0 K NE T prefix m P Se)).
    split; intros; [unfold play_tracks | unfold play_track]; rewrite NT; cbn [bindo]; rewrite (nonempty_len out NE), R; reflexivity.
  Qed.
  Lemma shown_ok c i0 c0 i1 c1 : opened p m ds c -> at_frames p out m c i0 c0 i1 c1 -> forall w,
    (exists events, play_tracks w c = Ok events /\ pose_shown w (x_rounding c) (formats_of p) out (N.of_nat i0) c0 (N.of_nat i1) c1 events) /\
    (forall i, i < len out -> exists events, play_track w c i = Ok events /\ track_shown w (x_rounding c) (formats_of p) out i (N.of_nat i0) c0 (N.of_nat i1) c1 events) /\
    (forall i, len out <= i -> play_track w c i = Ok []).
  Proof.
    intros O A w. destruct M as (g0 & rest & b0 & prefix & K & B & NE & T & P & Se).
    split; [exact (play_ok p out g0 rest b0 K NE T prefix m P Se ds w c i0 c0 i1 c1 O A) |]. split; [intros i Hi; exact (play_track_ok p out g0 rest b0 K NE T prefix m P Se ds w c i i0 c0 i1 c1 O A Hi) |].
    intros i Hi. unfold play_track. rewrite (op_tracks _ _ _ _ O). rewrite (tracks_read p out g0 rest b0 K NE T prefix m P Se). cbn [bindo]. rewrite (nonempty_len out NE), (time_positive p out m c _ _ _ _ A), (proj2 (N.leb_le _ _) Hi). reflexivity.
  Qed.
  Lemma final_seek c t rp : opened p m ds c -> x_time c = f_minus_one -> legal ds p (call_seek t rp) ->
    exists c', tseek ds c t rp = Ok c' /\ opened p m ds c' /\ x_time c' = sought ds (x_duration c) t /\ x_rounding c' = rp /\ x_looping c' = x_looping c /\
      exists k0 k1 al i0 c0 i1 c1, find_linear_interpolation_samples_with_sample_rate (p_num_samples p) (p_sample_rate p) (sought ds (x_duration c) t) rp (x_looping c) = Ok (k0, k1, al) /\
        chosen p k0 k1 al i0 c0 i1 c1 (x_alpha c') /\ at_frames p out m c' i0 c0 i1 c1.
  Proof.
    intros O X L. destruct M as (g0 & rest & b0 & prefix & K & B & NE & T & P & Se).
    pose proof (legal_time_ok ds p m c t rp T O L) as TO.
    destruct (seek_ok p out g0 rest b0 K B NE T prefix m P Se ds c t rp O TO) as (c' & E & O' & LP & _ & H2). exists c'. split; [exact E |]. split; [exact O' |].
    destruct (sought_R p T m ds c t O TO) as [F1 [F2 _]].
    assert (NF : feq (x_time c) (sought ds (x_duration c) t) = false). { rewrite X. apply feq_m1. apply flt_Rf; [exact F1 | reflexivity |]. rewrite f_zero_R. exact F2. }
    rewrite NF in H2. cbn [andb] in H2. destruct (H2 eq_refl) as (X1 & X2 & X3). split; [exact X1 |]. split; [exact X2 |]. split; [exact LP | exact X3].
  Qed.
End History.

(** * Vocabulary of the theorems *)
(** a context is initialized with a clip, and used *)
Definition used (ds : dsettings) (c0 : pcontext) (m : list N) (calls : list tcall) : outcome pcontext :=
  bindo (tinitialize ds c0 m None) (fun c => tdo_all ds m c calls).
(** the looping policy after some calls to set_looping_policy; None: as compressed *)
Definition in_effect (ds : dsettings) (p : tclip) (policies : list (option looping_policy)) : looping_policy :=
  fold_left (fun lp x => if is_wrapping_supported ds then match x with Some q => q | None => if p_wrap p =? 0 then lp_clamp else lp_wrap end else lp) policies (first_policy ds p).
(** the context is at key frame [f0] of segment [i0] and key frame [f1] of segment [i1]: what it decompresses *)
Definition plays (p : tclip) (out : list content) (rp : rounding_policy) (i0 : nat) (f0 : N) (i1 : nat) (f1 : N) (c : pcontext) : Prop :=
  forall w,
    (exists events, play_tracks w c = Ok events /\ pose_shown w rp (formats_of p) out (N.of_nat i0) f0 (N.of_nat i1) f1 events) /\
    (forall i, i < len out -> exists events, play_track w c i = Ok events /\ track_shown w rp (formats_of p) out i (N.of_nat i0) f0 (N.of_nat i1) f1 events) /\
    (forall i, len out <= i -> play_track w c i = Ok []).

Lemma lp_eqb_eq a b : lp_eqb a b = true -> a = b. Proof. destruct a, b; (reflexivity || discriminate). Qed.
Lemma looping_to p out m ds c policy : made p out m -> opened p m ds c -> x_time c = f_minus_one ->
  exists c', tset_looping_policy ds c policy = Ok c' /\ opened p m ds c' /\ x_time c' = f_minus_one /\
    x_looping c' = if is_wrapping_supported ds then match policy with Some q => q | None => if p_wrap p =? 0 then lp_clamp else lp_wrap end else x_looping c.
Proof.
  intros M O T. pose proof M as (g0 & rest & b0 & prefix & K & B & NE & Ti & P & Se).
  destruct (looping_ok p out g0 rest b0 K B NE Ti prefix m P Se ds c policy O) as (c' & E & O' & X1 & _). exists c'. split; [exact E |]. split; [exact O' |]. split; [congruence |].
  unfold tset_looping_policy in E. destruct (is_wrapping_supported ds); cbn [negb] in E; [| injection E as <-; reflexivity]. rewrite (op_tracks _ _ _ _ O) in E.
  assert (LR : clip_looping_policy m = Ok (if p_wrap p =? 0 then lp_clamp else lp_wrap)) by exact (looping_read p out g0 rest b0 K B NE Ti prefix m P Se).
  assert (Q : match policy with Some q => Ok q | None => clip_looping_policy m end = Ok (match policy with Some q => q | None => if p_wrap p =? 0 then lp_clamp else lp_wrap end)) by (destruct policy; [reflexivity | exact LR]).
  rewrite Q in E. cbn [bindo] in E. set (q := match policy with Some q => q | None => _ end) in *. clearbody q. destruct (lp_eqb (x_looping c) q) eqn:L; [injection E as <-; apply lp_eqb_eq, L |].
  rewrite (duration_read p out g0 rest b0 K NE Ti prefix m P Se) in E. cbn [bindo] in E. injection E as <-. reflexivity.
Qed.
Lemma loopings_to p out m ds policies : made p out m -> forall c, opened p m ds c -> x_time c = f_minus_one ->
  exists c', tdo_all ds m c (map call_looping policies) = Ok c' /\ opened p m ds c' /\ x_time c' = f_minus_one /\
    x_looping c' = fold_left (fun lp x => if is_wrapping_supported ds then match x with Some q => q | None => if p_wrap p =? 0 then lp_clamp else lp_wrap end else lp) policies (x_looping c).
Proof.
  intros M. induction policies as [| x l IH]; intros c O T; [exists c; auto |]. destruct (looping_to p out m ds c x M O T) as (c1 & E1 & O1 & T1 & L1).
  destruct (IH c1 O1 T1) as (c2 & E2 & O2 & T2 & L2). exists c2. split; [| split; [exact O2 |]; split; [exact T2 |]].
  - change (tdo_all ds m c (map call_looping (x :: l))) with (bindo (tset_looping_policy ds c x) (fun c => tdo_all ds m c (map call_looping l))). rewrite E1. exact E2.
  - rewrite L2, L1. reflexivity.
Qed.
Lemma tdo_app ds m a b : forall c, tdo_all ds m c (a ++ b) = bindo (tdo_all ds m c a) (fun c => tdo_all ds m c b).
Proof. induction a as [| x a IH]; intros c; [reflexivity |]. cbn [app tdo_all]. destruct (tdo ds m c x); cbn [bindo]; [apply IH | reflexivity | reflexivity]. Qed.
Lemma plays_ok p out m ds c i0 c0 i1 c1 : made p out m -> opened p m ds c -> at_frames p out m c i0 c0 i1 c1 -> plays p out (x_rounding c) i0 c0 i1 c1 c.
Proof. intros M O A w. exact (shown_ok p out m ds M c i0 c0 i1 c1 O A w). Qed.

Theorem made_plays p out m : made p out m -> forall ds c0 policies t rp, legal ds p (call_seek t rp) ->
  let lp := in_effect ds p policies in
  exists c k0 k1 al i0 f0 i1 f1, used ds c0 m (map call_looping policies ++ [call_seek t rp]) = Ok c /\
    find_linear_interpolation_samples_with_sample_rate (p_num_samples p) (p_sample_rate p) (sought ds (clip_finite_duration (p_num_samples p) (p_sample_rate p) lp) t) rp lp = Ok (k0, k1, al) /\
    chosen p k0 k1 al i0 f0 i1 f1 (x_alpha c) /\ plays p out rp i0 f0 i1 f1 c.
Proof.
  intros M ds c0 policies t rp L lp. destruct (open_ok p out m ds M c0) as (ca & E1 & O1 & T1 & L1). destruct (loopings_to p out m ds policies M ca O1 T1) as (cb & E2 & O2 & T2 & L2).
  destruct (final_seek p out m ds M cb t rp O2 T2 L) as (c & E3 & O3 & X1 & X2 & X3 & k0 & k1 & al & i0 & f0 & i1 & f1 & EF & CH & AF).
  exists c, k0, k1, al, i0, f0, i1, f1. rewrite L1 in L2. fold lp in L2. rewrite (op_duration _ _ _ _ O2), L2 in EF. split.
  - unfold used. rewrite E1. cbn [bindo]. rewrite tdo_app, E2. cbn [bindo tdo_all tdo]. rewrite E3. reflexivity.
  - split; [exact EF |]. split; [exact CH |]. rewrite <- X2. exact (plays_ok p out m ds c i0 f0 i1 f1 M O3 AF).
Qed.
Theorem made_history p out m : made p out m -> forall ds c0 l, Forall (legal ds p) l ->
  exists c, used ds c0 m l = Ok c /\
    ((forall w, play_tracks w c = Ok [] /\ forall i, play_track w c i = Ok []) \/
     exists lp rp time k0 k1 al i0 f0 i1 f1,
       find_linear_interpolation_samples_with_sample_rate (p_num_samples p) (p_sample_rate p) time rp lp = Ok (k0, k1, al) /\
       chosen p k0 k1 al i0 f0 i1 f1 (x_alpha c) /\ plays p out rp i0 f0 i1 f1 c).
Proof.
  intros M ds c0 l L. destruct (open_ok p out m ds M c0) as (ca & E1 & O1 & T1 & _). destruct (calls_ok p out m ds M l ca O1 (not_sought _ _ _ _ _ T1) L) as (c & E2 & O2 & R).
  exists c. split; [unfold used; rewrite E1; exact E2 |]. destruct (tracks_ok p out m ds M c O2 R) as [(_ & A & B) | (lp & k0 & k1 & al & i0 & f0 & i1 & f1 & EF & CH & AF)]; [left; auto | right].
  exists lp, (x_rounding c), (x_time c), k0, k1, al, i0, f0, i1, f1. split; [exact EF |]. split; [exact CH |]. exact (plays_ok p out m ds c i0 f0 i1 f1 M O2 AF).
Qed.
(** after a seek, whatever came before *)
Lemma rp_eqb_eq a b : rp_eqb a b = true -> a = b. Proof. destruct a, b; (reflexivity || discriminate). Qed.
Lemma feq_refl_fin x : ffinite x = true -> feq x x = true. Proof. intros F. apply feq_R; auto. Qed.
Theorem made_sought p out m : made p out m -> forall ds c0 l t rp, Forall (legal ds p) (l ++ [call_seek t rp]) ->
  exists c, used ds c0 m (l ++ [call_seek t rp]) = Ok c /\
    exists time lp k0 k1 al i0 f0 i1 f1, feq time (sought ds (x_duration c) t) = true /\
       find_linear_interpolation_samples_with_sample_rate (p_num_samples p) (p_sample_rate p) time rp lp = Ok (k0, k1, al) /\
       chosen p k0 k1 al i0 f0 i1 f1 (x_alpha c) /\ plays p out rp i0 f0 i1 f1 c.
Proof.
  intros M ds c0 l t rp L. apply Forall_app in L as [L1 L2]. inversion L2 as [| ? ? LS _]; subst. destruct (open_ok p out m ds M c0) as (ca & E1 & O1 & T1 & _).
  destruct (calls_ok p out m ds M l ca O1 (not_sought _ _ _ _ _ T1) L1) as (cb & E2 & O2 & R). pose proof M as (g0 & rest & b0 & prefix & K & B & NE & T & P & Se).
  pose proof (legal_time_ok ds p m cb t rp T O2 LS) as TO. destruct (sought_R p T m ds cb t O2 TO) as [F1 [F2 _]].
  destruct (seek_ok p out g0 rest b0 K B NE T prefix m P Se ds cb t rp O2 TO) as (c & E & O' & LP & H1 & H2). cbv zeta in *.
  exists c. split; [unfold used; rewrite E1; cbn [bindo]; rewrite tdo_app, E2; cbn [bindo tdo_all tdo]; rewrite E; reflexivity |].
  assert (D : x_duration c = x_duration cb) by (rewrite (op_duration _ _ _ _ O'), (op_duration _ _ _ _ O2), LP; reflexivity). rewrite D.
  destruct (feq (x_time cb) (sought ds (x_duration cb) t) && rp_eqb (x_rounding cb) rp) eqn:G.
  - rewrite (H1 eq_refl) in *. apply andb_prop in G as [G1 G2]. apply rp_eqb_eq in G2. destruct R as [R | lp k0 k1 al i0 f0 i1 f1 EF CH AF].
    + rewrite R, feq_m1 in G1; [discriminate |]. apply flt_Rf; [exact F1 | reflexivity |]. rewrite f_zero_R. exact F2.
    + exists (x_time cb), lp, k0, k1, al, i0, f0, i1, f1. rewrite G2 in EF. split; [exact G1 |]. split; [exact EF |]. split; [exact CH |]. rewrite <- G2. exact (plays_ok p out m ds cb i0 f0 i1 f1 M O2 AF).
  - destruct (H2 eq_refl) as (X1 & X2 & k0 & k1 & al & i0 & f0 & i1 & f1 & EF & CH & AF). exists (sought ds (x_duration cb) t), (x_looping cb), k0, k1, al, i0, f0, i1, f1.
    split; [apply feq_refl_fin, F1 |]. split; [exact EF |]. split; [exact CH |]. rewrite <- X2. exact (plays_ok p out m ds c i0 f0 i1 f1 M O' AF).
Qed.

(** ** The bones behind the output tracks *)
(** bone [b] of segment [g] is output under index [i] *)
Definition output_bone (p : tclip) (g : tsegment) (i : N) (b : tbone) : Prop :=
  exists k, nth_error (p_mapping p) (N.to_nat i) = Some k /\ nth_error (g_bones g) (N.to_nat k) = Some b.
Lemma Forall2_nth {A B} (R : A -> B -> Prop) l l' : Forall2 R l l' -> forall k, match nth_error l k, nth_error l' k with Some a, Some b => R a b | None, None => True | _, _ => False end.
Proof. induction 1 as [| a b l l' H _ IH]; intros [| k]; cbn [nth_error]; [exact I | exact I | exact H | apply IH]. Qed.
Lemma output_content p out i g k b : segment_ok p out i g -> output_bone p g k b -> exists c, nth_error out (N.to_nat k) = Some c /\ bone_holds (formats_of p) i (g_num_samples g) b c /\ k < len out.
Proof.
  intros SO (n & E1 & E2). destruct (so_holds _ _ _ _ SO) as (l & [MP _] & H). pose proof (Forall2_nth _ _ _ MP (N.to_nat k)) as Q1. pose proof (Forall2_nth _ _ _ H (N.to_nat k)) as Q2. rewrite E1 in Q1.
  destruct (nth_error l (N.to_nat k)) as [b' |]; [| destruct Q1]. rewrite E2 in Q1. injection Q1 as <-. destruct (nth_error out (N.to_nat k)) as [c |] eqn:E; [| destruct Q2]. exists c. split; [reflexivity |]. split; [exact Q2 |].
  assert (N.to_nat k < length out)%nat by (apply nth_error_Some; congruence). unfold len. lia.
Qed.
Lemma segments_nth p out gs : forall i0 j g, segments_ok p out i0 gs -> nth_error gs j = Some g -> segment_ok p out (i0 + N.of_nat j) g.
Proof.
  induction gs as [| g gs IH]; intros i0 j g' K E; [destruct j; discriminate |]. destruct K as [K1 K2], j as [| j].
  - injection E as <-. change (N.of_nat 0) with 0. rewrite N.add_0_r. exact K1.
  - replace (i0 + N.of_nat (S j)) with (i0 + 1 + N.of_nat j) by lia. apply IH; assumption.
Qed.
(** what decompress_tracks and decompress_track say about one sub-track *)
Lemma plays_sub p out rp i0 f0 i1 f1 c w ch i x : plays p out rp i0 f0 i1 f1 c -> i < len out -> nth_error out (N.to_nat i) = Some x ->
  (exists events, play_tracks w c = Ok events /\ NoDup (map fst events) /\ forall o, In (ch, i, o) events <-> tw_skip w ch i = false /\ shown (in_pose (formats_of p)) w rp (N.of_nat i0) f0 (N.of_nat i1) f1 ch i x o) /\
  (exists events, play_track w c i = Ok events /\ NoDup (map fst events) /\ forall o, In (ch, i, o) events <-> shown (alone (formats_of p)) w rp (N.of_nat i0) f0 (N.of_nat i1) f1 ch i x o).
Proof.
  intros PL Hi E. destruct (PL w) as ((ev & E1 & N1 & S1) & H2 & _). destruct (H2 i Hi) as (ev' & E2 & N2 & S2). split.
  - exists ev. split; [exact E1 |]. split; [exact N1 |]. intros o. rewrite S1, E. split; [intros (y & Y & Z); injection Y as <-; exact Z | intros Z; exists x; auto].
  - exists ev'. split; [exact E2 |]. split; [exact N2 |]. intros o. rewrite S2, E. split; [intros (_ & y & Y & Z); injection Y as <-; exact Z | intros Z; split; [reflexivity |]; exists x; auto].
Qed.
