(** The byte aligned parts of a transform clip are written as specified: constants, format bytes, clip ranges and segment ranges. *)
From Coq Require Import Lia.
From Flocq Require Import IEEE754.Bits.
From Verif Require Import Word WordFacts Pieces MemoryUtils MemoryFacts Float32 Quant Headers HeadersFacts Packing PackSpec PackingFacts SubTracks DbBuild
  TransDec TransSpec TransRing TransMem TransConst TransAnim TransAnim2 TransEnc TransEncSpec TransEncFacts TransEncAnim TransEncAnim2.
Local Open Scope N_scope.
Ltac Zify.zify_post_hook ::= idtac.

Lemma f_bits_lt x : f_bits x < 2 ^ 32.
Proof.
  unfold f_bits. pose proof (bits_of_binary_float_range 23 8 eq_refl eq_refl x) as H. fold (bits_of_b32 x) in H.
  change (2 ^ (23 + 8 + 1))%Z with 4294967296%Z in H. change (2 ^ 32) with 4294967296. lia.
Qed.

(** ** Constants *)
(** the words of a constant sub-track *)
Definition bone_constant (ch : channel) (n : N) (b : tbone) (ws : list N) : Prop :=
  stream_ok (b_stream b ch) /\ 0 < ts_num_samples (b_stream b ch) /\ ts_sample_size (b_stream b ch) = 4 * n /\
  in_words 32 n ws /\ sample_at (b_stream b ch) 0 (word_bytes ws).

Lemma constant_bytes ch n b ws : bone_constant ch n b ws -> exists p, get_raw_sample_ptr (b_stream b ch) 0 = Ok p /\
  load_bytes p 0 (N.to_nat (ts_sample_size (b_stream b ch))) = Ok (word_bytes ws) /\ placed p 0 (word_bytes ws) /\ 4 * n + 15 <= blen p /\ bytes_ok p.
Proof.
  intros (K & Hn & Hs & [Hl Hw] & At). destruct (get_sample_ok _ 0 K Hn) as (G1 & G2 & G3). apply placed_skip in At.
  exists (skipn (N.to_nat (0 * ts_sample_size (b_stream b ch))) (ts_data (b_stream b ch))). split; [exact G1 |]. set (p := skipn _ _) in *. clearbody p.
  assert (Len : length (word_bytes ws) = N.to_nat (ts_sample_size (b_stream b ch))) by (rewrite word_bytes_len, Hs; lia).
  destruct (load_bytes_placed p 0 (word_bytes ws) (N.to_nat (ts_sample_size (b_stream b ch))) At ltac:(lia) ltac:(lia)) as (r & E & El).
  destruct r; [| cbn [length] in El; lia]. rewrite app_nil_r in E. repeat split; auto. lia.
Qed.
Lemma constant_vectors_written ch bones mapping out : mapped bones mapping out -> forall vs acc, Forall2 (bone_constant ch 3) (constant_bones ch out) vs ->
  write_constant_vectors ch bones mapping acc = Ok (acc ++ vector_words vs).
Proof.
  induction 1 as [| i b mapping out Hb M IH]; intros vs acc F; cbn [constant_bones filter] in F.
  - inversion F; subst. cbn. rewrite app_nil_r. reflexivity.
  - cbn [write_constant_vectors]. unfold bone_at. rewrite Hb. cbn [bindo]. unfold is_written_constant.
    destruct (negb (b_default b ch) && b_constant b ch).
    + inversion F as [| ? ws ? vs' Hc F']; subst. destruct (constant_bytes ch 3 b ws Hc) as (p & E1 & E2 & _).
      rewrite E1. cbn [bindo]. rewrite E2. cbn [bindo]. rewrite (IH vs' _ F'). unfold vector_words. cbn [map concat]. rewrite app_assoc. reflexivity.
    + cbn [bindo]. apply IH, F.
Qed.
Lemma constant_full_written bones mapping out : mapped bones mapping out -> forall vs s, Forall2 (bone_constant Rotation 4) (constant_bones Rotation out) vs ->
  exists s', write_constant_rotations false bones mapping s = Ok s' /\ sw_out s' = sw_out s ++ rotation_words true vs.
Proof.
  induction 1 as [| i b mapping out Hb M IH]; intros vs s F; cbn [constant_bones filter] in F.
  - inversion F; subst. exists s. cbn. rewrite app_nil_r. split; reflexivity.
  - cbn [write_constant_rotations]. unfold bone_at. rewrite Hb. cbn [bindo]. unfold is_written_constant.
    destruct (negb (b_default b Rotation) && b_constant b Rotation).
    + inversion F as [| ? ws ? vs' Hc F']; subst. destruct (constant_bytes Rotation 4 b ws Hc) as (p & E1 & E2 & _).
      rewrite E1. cbn [bindo]. rewrite E2. cbn [bindo].
      destruct (IH vs' {| sw_x := sw_x s; sw_y := sw_y s; sw_z := sw_z s; sw_num := sw_num s; sw_out := sw_out s ++ word_bytes ws |} F') as (s' & A & B).
      exists s'. split; [exact A |]. cbn [sw_out] in B. rewrite B. unfold rotation_words. cbn [map concat]. rewrite app_assoc. reflexivity.
    + cbn [bindo]. apply IH, F.
Qed.
Lemma firstn_upd {A} (l : list A) k x : (k < length l)%nat -> firstn (k + 1) (upd l k x) = firstn k l ++ [x].
Proof. revert k. induction l as [| a l IH]; intros k H; [cbn in H; lia |]. destruct k as [| k]; [reflexivity |]. cbn [Nat.add upd firstn app]. f_equal. apply IH. cbn in H. lia. Qed.

Definition swizzled (s : swizzle) (p : list (list N)) : Prop :=
  sw_num s = len p /\ length (sw_x s) = 4%nat /\ length (sw_y s) = 4%nat /\ length (sw_z s) = 4%nat /\
  firstn (length p) (sw_x s) = column 0 0 p /\ firstn (length p) (sw_y s) = column 0 1 p /\ firstn (length p) (sw_z s) = column 0 2 p.
Lemma flush_swizzled s p : swizzled s p -> flush_swizzle s = sw_out s ++ soa_words 3 p.
Proof.
  intros (Hn & _ & _ & _ & Hx & Hy & Hz). unfold flush_swizzle. rewrite Hn. unfold len. rewrite Nnat.Nat2N.id, Hx, Hy, Hz, soa3. reflexivity.
Qed.
Lemma column_snoc c p (ws : list N) : column 0 c (p ++ [ws]) = column 0 c p ++ [nth c ws 0].
Proof. unfold column. rewrite map_app. reflexivity. Qed.
Lemma constant_soa_written bones mapping out : mapped bones mapping out -> forall vs p s, Forall2 (bone_constant Rotation 3) (constant_bones Rotation out) vs ->
  swizzled s p -> (length p < 4)%nat ->
  exists s', write_constant_rotations true bones mapping s = Ok s' /\
    (if negb (sw_num s' =? 0) then flush_swizzle s' else sw_out s') = sw_out s ++ concat (map (soa_words 3) (chunk4 (p ++ vs))).
Proof.
  induction 1 as [| i b mapping out Hb M IH]; intros vs p s F Sw Hp; cbn [constant_bones filter] in F.
  - inversion F; subst. exists s. split; [reflexivity |]. rewrite app_nil_r. rewrite (flush_swizzled s p Sw). destruct Sw as (-> & _).
    destruct p as [| a p]; [cbn; rewrite app_nil_r; reflexivity |]. rewrite len_cons. destruct (N.eqb_spec (len p + 1) 0); [lia |]. cbn [negb].
    rewrite chunk4_part by (cbn [length] in *; lia). cbn [map concat]. rewrite app_nil_r. reflexivity.
  - cbn [write_constant_rotations]. unfold bone_at. rewrite Hb. cbn [bindo]. unfold is_written_constant.
    destruct (negb (b_default b Rotation) && b_constant b Rotation); [| cbn [bindo]; apply IH; assumption].
    inversion F as [| ? ws ? vs' Hc F']; subst. destruct (constant_bytes Rotation 3 b ws Hc) as (q & E1 & _ & P & B & Bq).
    rewrite E1. cbn [bindo].
    assert (exists w, load_words 4 q = Ok (ws ++ [w])) as [w Ew].
    { destruct Hc as (_ & _ & _ & [Hl Hw] & _). destruct ws as [| a [| b' [| c [| ? ?]]]]; cbn [length] in Hl; try lia.
      pose proof (load_words_prefix 3 q [a; b'; c] P) as L3. unfold len in L3. cbn [length] in L3. specialize (L3 ltac:(lia) Hw ltac:(lia)). cbn [firstn] in L3.
      destruct (load_le_ok q 12 4 ltac:(lia)) as [w Hw4]. exists w. unfold load_words in *. cbn [N.add] in *. change (0 + 4) with 4 in *. change (4 + 4) with 8 in *. change (8 + 4) with 12 in *.
      destruct (load_le q 0 4); cbn [bindo] in *; try discriminate. destruct (load_le q 4 4); cbn [bindo] in *; try discriminate.
      destruct (load_le q 8 4); cbn [bindo] in *; try discriminate. rewrite Hw4. cbn [bindo]. injection L3 as -> -> ->. reflexivity. }
    rewrite Ew. cbn [bindo].
    assert (Hl : length ws = 3%nat) by (destruct Hc as (_ & _ & _ & [Hl _] & _); lia).
    rewrite !app_nth1 by lia. cbn [sw_num].
    set (s1 := {| sw_x := upd _ _ _; sw_y := upd _ _ _; sw_z := upd _ _ _; sw_num := sw_num s + 1; sw_out := sw_out s |}).
    assert (Sw1 : swizzled s1 (p ++ [ws])).
    { destruct Sw as (Hn & Lx & Ly & Lz & Hx & Hy & Hz). unfold swizzled, s1. cbn [sw_x sw_y sw_z sw_num]. rewrite !upd_length, Hn. unfold len. rewrite Nnat.Nat2N.id, app_length. cbn [length].
      rewrite !column_snoc, !firstn_upd by lia. rewrite Hx, Hy, Hz. repeat split; auto. lia. }
    assert (Hn1 : sw_num s1 = len p + 1) by (unfold s1; cbn; destruct Sw as (-> & _); reflexivity).
    replace (p ++ ws :: vs') with ((p ++ [ws]) ++ vs') by (rewrite <- app_assoc; reflexivity).
    change (sw_num s + 1) with (sw_num s1). rewrite Hn1. destruct (N.leb_spec 4 (len p + 1)) as [H4 | H4].
    + cbn [bindo]. rewrite (flush_swizzled s1 _ Sw1).
      destruct (IH vs' [] {| sw_x := sw_x s1; sw_y := sw_y s1; sw_z := sw_z s1; sw_num := 0; sw_out := sw_out s1 ++ soa_words 3 (p ++ [ws]) |} F') as (s2 & A & C); [| cbn; lia |].
      { destruct Sw1 as (_ & Lx & Ly & Lz & _). repeat split; assumption. }
      exists s2. split; [exact A |]. rewrite C. cbn [sw_out app].
      rewrite (chunk4_app 1 (p ++ [ws]) vs') by (rewrite app_length; cbn [length]; unfold len in H4; lia).
      rewrite map_app, concat_app. replace (chunk4 (p ++ [ws])) with [p ++ [ws]]. { cbn [map concat]. rewrite app_nil_r, app_assoc. reflexivity. }
      symmetry. destruct p as [| a1 [| a2 [| a3 [| a4 p]]]]; unfold len in H4; cbn [length] in *; try lia. reflexivity.
    + cbn [bindo]. destruct (IH vs' (p ++ [ws]) s1 F' Sw1) as (s2 & A & C); [rewrite app_length; cbn [length]; unfold len in H4; lia |].
      exists s2. split; [exact A | exact C].
Qed.

Lemma write_constants_ok junk f (has_scale : bool) bones mapping out r t s : mapped bones mapping out -> length junk = 4%nat ->
  Forall2 (bone_constant Rotation (rotation_components f)) (constant_bones Rotation out) r ->
  Forall2 (bone_constant Translation 3) (constant_bones Translation out) t ->
  (if has_scale then Forall2 (bone_constant Scale 3) (constant_bones Scale out) s else s = []) ->
  write_constant_track_data junk f has_scale bones mapping = Ok (constant_layout (rotation_full f) r t s).
Proof.
  intros M Hj Fr Ft Fs. unfold write_constant_track_data. cbv zeta.
  assert (R : exists s0, write_constant_rotations (negb (rotation_full f)) bones mapping {| sw_x := junk; sw_y := junk; sw_z := junk; sw_num := 0; sw_out := [] |} = Ok s0 /\
    (if negb (rotation_full f) && negb (sw_num s0 =? 0) then flush_swizzle s0 else sw_out s0) = rotation_words (rotation_full f) r).
  { unfold rotation_components in Fr. destruct (rotation_full f); cbn [negb andb].
    - destruct (constant_full_written bones mapping out M r {| sw_x := junk; sw_y := junk; sw_z := junk; sw_num := 0; sw_out := [] |} Fr) as (s0 & A & B). exists s0. split; [exact A | exact B].
    - destruct (constant_soa_written bones mapping out M r [] {| sw_x := junk; sw_y := junk; sw_z := junk; sw_num := 0; sw_out := [] |} Fr) as (s0 & A & B); [| cbn; lia |].
      + repeat split; assumption.
      + exists s0. split; [exact A |]. exact B. }
  destruct R as (s0 & A & B). rewrite A. cbn [bindo]. rewrite B.
  rewrite (constant_vectors_written Translation bones mapping out M t _ Ft). cbn [bindo]. unfold constant_layout.
  destruct has_scale.
  - rewrite (constant_vectors_written Scale bones mapping out M s _ Fs). rewrite app_assoc. reflexivity.
  - subst s. cbn. rewrite !app_nil_r. reflexivity.
Qed.
