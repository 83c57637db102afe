(** The caches of animated translations and scales. *)
From Coq Require Import Lia.
From Verif Require Import Word WordFacts Pieces Float32 Quant Interp Packing PackSpec PackingFacts DbBuild ScalarDec SubTracks SubTracksFacts
  TransDec TransSpec TransRing TransMem TransConst TransFloat TransAnim TransAnim2.
Local Open Scope N_scope.
Ltac Zify.zify_post_hook ::= idtac.

Record vsrc (version : N) (hs : bool) (m data : list N) (k : kposition) (ss : list stored) : Prop := {
  vs_stream : stream data (k_bit k) ss;
  vs_formats : padded m (k_format k) (vector_formats version ss);
  vs_ranges : hs = true -> padded m (k_range k) (vector_ranges ss);
  vs_ok : Forall (stored_ok hs) ss
}.

Lemma stored_length hs s : stored_ok hs s -> length (s_vals s) = 3%nat.
Proof. intros [_ H]. destruct H as [(_ & _ & H) | [(_ & H) | (_ & H)]]; apply in_words_len in H; exact H. Qed.
Lemma vector_range_length hs s : stored_ok hs s -> length (vector_range s) = 6%nat.
Proof.
  intros H. unfold vector_range. destruct (s_bits s =? 0).
  - rewrite (list3 0 (s_vals s) (stored_length hs s H)). reflexivity.
  - destruct H as [[H _] _]. lia.
Qed.
Lemma list6 {A} (d : A) l : length l = 6%nat -> l = [nth 0 l d; nth 1 l d; nth 2 l d] ++ [nth 3 l d; nth 4 l d; nth 5 l d].
Proof. destruct l as [| a [| b [| c [| e [| f [| g [| h l]]]]]]]; try discriminate. reflexivity. Qed.
Lemma decoded_cons hs s cl : s_bits s <> 32 -> decoded hs s cl =
  mul_add3 [normalized hs s 0; normalized hs s 1; normalized hs s 2] [clip_value cl 3; clip_value cl 4; clip_value cl 5] [clip_value cl 0; clip_value cl 1; clip_value cl 2].
Proof. intros H. unfold decoded. rewrite (proj2 (N.eqb_neq _ _) H). reflexivity. Qed.

Section Vector.
  Context (version : N) (hs : bool) (m data : list N).

  Lemma unpack_u48_ok range vals : in_words 16 3 vals -> padded m range (concat (map (fun v => [v mod 256; v / 256]) vals)) ->
    unpack_vector3_u48 m range = Ok (map (unit_value 16) vals).
  Proof.
    intros W [P B]. pose proof (in_words_len _ _ _ W) as L. change (N.to_nat 3) with 3%nat in L.
    rewrite (list3 0 vals L) in P, B |- *. unfold blen in B. cbn [map concat app length] in B.
    unfold unpack_vector3_u48. destruct (load_bytes_placed m range _ 16 P) as (r & -> & Lr); [cbn [map concat app length]; lia | unfold blen; lia |].
    assert (E : forall v, of_le_bytes [v mod 256; v / 256] = v).
    { intros v. cbn [of_le_bytes]. rewrite N.mul_0_r, N.add_0_r. rewrite (N.div_mod v 256) at 3 by lia. lia. }
    cbn [bindo map concat app firstn skipn Nat.mul Nat.add]. rewrite !E. reflexivity.
  Qed.
  Lemma unpack_u24_ok range a b c rest : padded m range ([a; b; c] ++ rest) -> unpack_vector3_u24 m range = Ok (map (unit_value 8) [a; b; c]).
  Proof.
    intros P. apply padded_app in P as [[P B] _]. unfold unpack_vector3_u24. destruct (load_bytes_placed m range _ 16 P) as (r & -> & _); [cbn; lia | unfold blen in *; cbn in B |- *; lia |].
    reflexivity.
  Qed.
  Lemma mul_add3_map (f : N -> f32) (g : N -> f32) q e0 e1 e2 m0 m1 m2 : length q = 3%nat ->
    mul_add3 (map f q) (map g [e0; e1; e2]) (map g [m0; m1; m2]) =
    [fmul_add (f (nth 0 q 0)) (g e0) (g m0); fmul_add (f (nth 1 q 0)) (g e1) (g m1); fmul_add (f (nth 2 q 0)) (g e2) (g m2)].
  Proof. intros H. rewrite (list3 0 q H) at 1. reflexivity. Qed.

  (** one sub-track *)
  Lemma unpack_vector_ok k s ss clip index cl : vsrc version hs m data k (s :: ss) -> in_words 32 6 cl -> padded m (clip + 24 * index) (word_bytes cl) ->
    exists k', unpack_vector version true hs m data clip (k_format k) (k_range k) (k_bit k) index = Ok (decoded hs s cl, k') /\ vsrc version hs m data k' ss.
  Proof.
    intros [St F R Hok] Wc Pc. inversion Hok as [| ? ? Ok_s Hok2]; subst. apply stream_cons in St as (Fs & B & W & St).
    unfold vector_formats in F. cbn [map] in F. change (format_code version s :: map (format_code version) ss) with ([format_code version s] ++ map (format_code version) ss) in F.
    apply padded_app in F as [[F1 _] F2]. change (blen [format_code version s]) with 1 in F2.
    assert (R' : hs = true -> padded m (k_range k) (vector_range s) /\ padded m (k_range k + 6) (vector_ranges ss)).
    { intros Hh. specialize (R Hh). unfold vector_ranges in R. cbn [map concat] in R. apply padded_app in R as [R1 R2].
      unfold blen in R2. rewrite (vector_range_length hs s Ok_s) in R2. split; assumption. }
    clear R. pose proof (stored_length hs s Ok_s) as L3.
    (* the clip range *)
    pose proof (in_words_len _ _ _ Wc) as L6. change (N.to_nat 6) with 6%nat in L6.
    assert (WF : Forall (fun v => v < 2 ^ 32) cl) by (destruct Wc; assumption).
    rewrite (list6 0 cl L6) in Pc, WF. unfold word_bytes in Pc. rewrite map_app, concat_app in Pc. apply padded_app in Pc as [Pm Pe]. apply Forall_app in WF as [Wm We].
    fold (word_bytes [nth 0 cl 0; nth 1 cl 0; nth 2 cl 0]) in Pm, Pe. fold (word_bytes [nth 3 cl 0; nth 4 cl 0; nth 5 cl 0]) in Pe.
    rewrite word_bytes_blen in Pe. cbn [length] in Pe. change (4 * N.of_nat 3) with 12 in Pe.
    destruct (vector_load_words m _ _ Pm Wm ltac:(cbn; lia)) as (rm & Em & _). destruct (vector_load_words m _ _ Pe We ltac:(cbn; lia)) as (re & Ee & _).
    assert (Cl : forall v, length v = 3%nat -> mul_add3 v (map f_of_bits [nth 3 cl 0; nth 4 cl 0; nth 5 cl 0] ++ re) (map f_of_bits [nth 0 cl 0; nth 1 cl 0; nth 2 cl 0] ++ rm)
      = mul_add3 v [clip_value cl 3; clip_value cl 4; clip_value cl 5] [clip_value cl 0; clip_value cl 1; clip_value cl 2]) by reflexivity.
    cbn [unpack_vector].
    assert (E8 : load8 m (k_format k) = Ok (format_code version s)).
    { rewrite <- (N.add_0_r (k_format k)). apply (load8_placed m _ _ 0 _ F1). reflexivity. }
    unfold unpack_vector. rewrite E8. cbn [bindo]. change (12 * 2) with 24.
    unfold format_code, raw_bit_rate_bits.
    destruct Ok_s as [Rg [(Z & Hhs & V3) | [(Bn & V3) | (Z & V3)]]].
    - rewrite Z. eqbs. eqbs. specialize (R' Hhs) as [R1 R2]. unfold vector_range in R1. rewrite Z in R1. rewrite (unpack_u48_ok _ _ V3 R1). cbn [bindo].
      cbn [negb]. rewrite andb_false_r. cbn [bindo]. cbv zeta. rewrite Em. cbn [bindo]. rewrite Ee. cbn [bindo]. rewrite Cl by (rewrite map_length; exact L3). eexists. split.
      + f_equal. f_equal. rewrite decoded_cons by lia. unfold normalized. rewrite Z. eqbs. rewrite (list3 0 (s_vals s) L3) at 1. reflexivity.
      + unfold stored_size in St. rewrite Z, N.mul_0_l, N.add_0_r in St. constructor; cbn [k_format k_range k_bit]; auto.
    - destruct (N.eqb_spec (s_bits s) 32) as [E | E]; [lia |]. destruct (N.eqb_spec (s_bits s) 0) as [E0 | E0]; [lia |].
      assert (En : (s_bits s =? (if 9 <=? version then 31 else 32)) = false).
      { destruct (9 <=? version); apply N.eqb_neq; lia. }
      rewrite En. unfold stored_size in *. fold (len (s_vals s)) in *.
      rewrite (unpack_bits_ok (s_bits s) data (k_bit k) (s_vals s)) by (assumption || (destruct St; assumption)). cbn [bindo].
      assert (Lv : len (s_vals s) = 3) by (unfold len; rewrite L3; reflexivity). rewrite Lv in *. rewrite mulw_small by (change (2 ^ 32) with 4294967296 in *; lia).
      rewrite addw_small by exact W. rewrite decoded_cons by exact E.
      destruct hs; cbn [andb negb].
      + destruct (R' eq_refl) as [R1 R2]. unfold vector_range in R1. rewrite (proj2 (N.eqb_neq _ _) E0) in R1.
        assert (L6r : length (s_range s) = 6%nat) by (apply in_words_len in Rg; exact Rg). rewrite (list6 0 _ L6r) in R1.
        rewrite (unpack_u24_ok _ _ _ _ _ R1). cbn [bindo]. apply padded_app in R1 as [_ R1]. change (blen [nth 0 (s_range s) 0; nth 1 (s_range s) 0; nth 2 (s_range s) 0]) with 3 in R1.
        rewrite <- (app_nil_r [nth 3 (s_range s) 0; nth 4 (s_range s) 0; nth 5 (s_range s) 0]) in R1. rewrite (unpack_u24_ok _ _ _ _ _ R1). cbn [bindo].
        cbv zeta. rewrite Em. cbn [bindo]. rewrite Ee. cbn [bindo]. rewrite mul_add3_map by exact L3. rewrite Cl by reflexivity.
        eexists. split.
        * f_equal. f_equal. unfold normalized, in_range. rewrite (proj2 (N.eqb_neq _ _) E0). reflexivity.
        * constructor; cbn [k_format k_range k_bit]; auto.
      + cbn [bindo]. cbv zeta. rewrite Em. cbn [bindo]. rewrite Ee. cbn [bindo]. rewrite Cl by (rewrite map_length; exact L3). eexists. split.
        * f_equal. f_equal. unfold normalized. rewrite (proj2 (N.eqb_neq _ _) E0). rewrite (list3 0 (s_vals s) L3) at 1. reflexivity.
        * constructor; cbn [k_format k_range k_bit]; auto. discriminate.
    - rewrite Z in *. eqbs. set (code := if 9 <=? version then 31 else 32).
      assert (En : (code =? 0) = false) by (unfold code; destruct (9 <=? version); reflexivity).
      rewrite En, N.eqb_refl. unfold stored_size in *. rewrite Z in *. fold (len (s_vals s)) in *.
      rewrite (unpack_raw_ok 3 data (k_bit k) (s_vals s)) by (assumption || (destruct St; assumption) || (left; reflexivity)). cbn [bindo negb].
      rewrite andb_false_r. cbn [bindo]. assert (Lv : len (s_vals s) = 3) by (unfold len; rewrite L3; reflexivity). rewrite Lv in *. rewrite addw_small by exact W.
      eexists. split; [f_equal; f_equal; unfold decoded; rewrite Z; reflexivity |].
      constructor; cbn [k_format k_range k_bit]; auto. intros Hh. apply R', Hh.
  Qed.

  Lemma unpack_vectors_ok clip : forall l pre (clips : list (list N)) rest k, vsrc version hs m data k (l ++ rest) -> Forall (in_words 32 6) clips ->
    length clips = length l -> padded m (clip + 24 * len pre) (vector_clip_ranges clips) ->
    exists k', unpack_animated_vector3 (length l) version true hs m data clip k (@len N pre) =
      Ok (map (fun x => decoded hs (fst x) (snd x)) (combine l clips), k') /\ vsrc version hs m data k' rest.
  Proof.
    induction l as [| s l IH]; intros pre clips rest k V Wc Hl P.
    - exists k. split; [destruct clips; reflexivity | exact V].
    - destruct clips as [| cl clips]; [discriminate |]. inversion Wc as [| ? ? W6 Wc2]; subst. cbn [length unpack_animated_vector3 combine map fst snd].
      unfold vector_clip_ranges, vector_words in P. cbn [map concat] in P. apply padded_app in P as [P1 P2]. rewrite word_bytes_blen in P2.
      destruct (unpack_vector_ok k s (l ++ rest) clip (len pre) cl V W6 P1) as (k1 & -> & V1). cbn [bindo].
      replace (len pre + 1) with (len (pre ++ [0])) by (rewrite len_app; unfold len; cbn; lia).
      destruct (IH (pre ++ [0]) clips rest k1 V1 Wc2) as (k2 & -> & V2); [cbn in Hl; lia | |].
      + destruct W6 as [W6 _]. rewrite W6 in P2. unfold vector_clip_ranges, vector_words. rewrite len_app. replace (clip + 24 * (len pre + len [0])) with (clip + 24 * len pre + 4 * 6); [exact P2 |].
        unfold len. cbn [length]. lia.
      + exists k2. split; [reflexivity | exact V2].
  Qed.

  Lemma unpack_raw_vectors_ok clip : forall l index rest k, stream data (k_bit k) (l ++ rest) -> Forall (is_raw 3) l ->
    unpack_animated_vector3 (length l) version false hs m data clip k index =
      Ok (map (fun s => map f_of_bits (s_vals s)) l, {| k_format := k_format k; k_range := k_range k; k_bit := k_bit k + stored_sizes l |}).
  Proof.
    induction l as [| s l IH]; intros index rest k St Hr.
    - cbn. rewrite N.add_0_r. destruct k; reflexivity.
    - inversion Hr as [| ? ? [Z V] Hr2]; subst. cbn [length unpack_animated_vector3 unpack_vector map]. cbn [app] in St. apply stream_cons in St as (F & B & W & St).
      unfold stored_size in *. rewrite Z in *. fold (len (s_vals s)) in *.
      rewrite (unpack_raw_ok 3 data (k_bit k) (s_vals s)) by (assumption || (destruct St; assumption) || (left; reflexivity)). cbn [bindo].
      pose proof V as [L _]. unfold len in *. rewrite L in *. rewrite addw_small by exact W. change (32 * 3) with 96 in *.
      rewrite (IH _ rest) by assumption. cbn [bindo k_format k_range k_bit]. do 3 f_equal. rewrite stored_sizes_cons. unfold stored_size. rewrite Z, L. lia.
  Qed.
End Vector.

(** ** A batch *)
Definition vector_out (c : tcontext) (x : asub) : out :=
  OMix rp_none (decoded (c_has_segments c) (x0 x) (xclip x)) (decoded (c_has_segments c) (x1 x) (xclip x)).
Record avectors (variable : bool) (c : tcontext) (p : aposition) (l : list asub) : Prop := {
  av_variable : variable = true ->
    vsrc (c_version c) (c_has_segments c) (c_mem c) (kf_data (c_kf0 c)) (a_kf0 p) (map x0 l) /\
    vsrc (c_version c) (c_has_segments c) (c_mem c) (kf_data (c_kf1 c)) (a_kf1 p) (map x1 l) /\
    padded (c_mem c) (a_clip p) (vector_clip_ranges (map xclip l)) /\ Forall (in_words 32 6) (map xclip l);
  av_full : variable = false ->
    stream (kf_data (c_kf0 c)) (k_bit (a_kf0 p)) (map x0 l) /\ stream (kf_data (c_kf1 c)) (k_bit (a_kf1 p)) (map x1 l) /\
    Forall (is_raw 3) (map x0 l) /\ Forall (is_raw 3) (map x1 l)
}.
Definition vector_source (variable : bool) (c : tcontext) (p : aposition) (outs : list out) : Prop :=
  exists l, outs = map (vector_out c) l /\ avectors variable c p l.

Lemma combine_map_same {A B C} (f : A -> B) (g : A -> C) l : combine (map f l) (map g l) = map (fun x => (f x, g x)) l.
Proof. induction l as [| a l IH]; [reflexivity |]. cbn. f_equal. exact IH. Qed.

Lemma fetch_vectors_ok variable c : forall p l, vector_source variable c p l -> l <> [] ->
  exists vs p', fetch_animated_vectors variable c (N.min (len l) 4) p = Ok (vs, p') /\ (length vs <= N.to_nat 4)%nat /\
    (length l < N.to_nat 4 -> firstn (length l) vs = l)%nat /\ (N.to_nat 4 <= length l -> vs = firstn (N.to_nat 4) l)%nat /\
    vector_source variable c p' (skipn (N.to_nat 4) l).
Proof.
  intros p outs (l & -> & H) Hne. clear Hne.
  set (chunk := firstn 4 l). set (rest := skipn 4 l).
  assert (El : l = chunk ++ rest) by (symmetry; apply firstn_skipn).
  assert (Hn : N.min (len (map (vector_out c) l)) 4 = len chunk) by (unfold len, chunk; rewrite map_length, firstn_length; lia).
  rewrite Hn. unfold fetch_animated_vectors. cbv zeta. assert (Hn2 : N.to_nat (len chunk) = length chunk) by (unfold len; lia). rewrite Hn2.
  assert (Goal : forall k0 k1, avectors variable c {| a_kf0 := k0; a_kf1 := k1; a_clip := if variable then a_clip p + len chunk * 12 * 2 else a_clip p |} rest ->
    exists vs p', Ok (map (vector_out c) chunk, {| a_kf0 := k0; a_kf1 := k1; a_clip := if variable then a_clip p + len chunk * 12 * 2 else a_clip p |}) = Ok (vs, p') /\
     (length vs <= N.to_nat 4)%nat /\
    (length (map (vector_out c) l) < N.to_nat 4 -> firstn (length (map (vector_out c) l)) vs = map (vector_out c) l)%nat /\
    (N.to_nat 4 <= length (map (vector_out c) l) -> vs = firstn (N.to_nat 4) (map (vector_out c) l))%nat /\
    vector_source variable c p' (skipn (N.to_nat 4) (map (vector_out c) l))).
  { intros k0 k1 Hr. eexists _, _. split; [reflexivity |].
    pose proof (batch_of_four (vector_out c) l (map (vector_out c) chunk) (or_intror eq_refl)) as (A & B & C).
    split; [exact A |]. split; [exact B |]. split; [exact C |].
    exists rest. split; [change (N.to_nat 4) with 4%nat; rewrite skipn_map; reflexivity | exact Hr]. }
  destruct variable.
  - destruct H as [H _]. specialize (H eq_refl) as (V0 & V1 & Pc & Wc).
    rewrite El, map_app in V0, V1, Pc, Wc. unfold vector_clip_ranges in Pc. rewrite vector_words_app in Pc.
    apply Forall_app in Wc as [Wc1 Wc2]. apply padded_app in Pc as [Pc1 Pc2]. rewrite (vector_words_blen 6 _ Wc1) in Pc2.
    unfold len in Pc2. rewrite map_length in Pc2. fold (len chunk) in Pc2.
    assert (Pc1' : padded (c_mem c) (a_clip p + 24 * len (@nil N)) (vector_clip_ranges (map xclip chunk))).
    { unfold len. cbn [length]. change (24 * N.of_nat 0) with 0. rewrite N.add_0_r. exact Pc1. }
    destruct (unpack_vectors_ok _ _ _ _ (a_clip p) (map x0 chunk) [] (map xclip chunk) _ _ V0 Wc1 ltac:(rewrite !map_length; reflexivity) Pc1') as (k0 & E0 & V0').
    destruct (unpack_vectors_ok _ _ _ _ (a_clip p) (map x1 chunk) [] (map xclip chunk) _ _ V1 Wc1 ltac:(rewrite !map_length; reflexivity) Pc1') as (k1 & E1 & V1').
    rewrite map_length in E0, E1. change (@len N []) with 0 in E0, E1. rewrite E0. cbn [bindo]. rewrite E1. cbn [bindo].
    rewrite !combine_map_same, !map_map. cbn [fst snd]. rewrite mix_map. apply Goal. constructor; [| discriminate]. intros _. cbn [a_kf0 a_kf1 a_clip].
    split; [exact V0' |]. split; [exact V1' |]. split; [| exact Wc2]. replace (len chunk * 12 * 2) with (4 * 6 * len chunk) by lia. exact Pc2.
  - destruct H as [_ H]. specialize (H eq_refl) as (S0 & S1 & W0 & W1). rewrite El, map_app in S0, S1, W0, W1.
    apply Forall_app in W0 as [W0 W0']. apply Forall_app in W1 as [W1 W1'].
    pose proof (unpack_raw_vectors_ok (c_version c) (c_has_segments c) (c_mem c) _ (a_clip p) (map x0 chunk) 0 _ _ S0 W0) as E0.
    pose proof (unpack_raw_vectors_ok (c_version c) (c_has_segments c) (c_mem c) _ (a_clip p) (map x1 chunk) 0 _ _ S1 W1) as E1.
    rewrite map_length in E0, E1. rewrite E0, E1. cbn [bindo]. rewrite !map_map, mix_map.
    replace (map (fun x => OMix rp_none (map f_of_bits (s_vals (x0 x))) (map f_of_bits (s_vals (x1 x)))) chunk) with (map (vector_out c) chunk).
    2:{ apply map_ext_in. intros x Hx. unfold vector_out, decoded. rewrite Forall_forall in W0, W1. destruct (W0 _ (in_map x0 _ _ Hx)) as [-> _].
        destruct (W1 _ (in_map x1 _ _ Hx)) as [-> _]. reflexivity. }
    apply Goal. constructor; [discriminate |]. intros _. cbn [a_kf0 a_kf1 k_bit].
    split; [apply stream_rest; exact S0 |]. split; [apply stream_rest; exact S1 |]. split; assumption.
Qed.
