(** Reading back a clip laid out as in ScalarWrite.v. *)
From Verif Require Import Word WordFacts MemoryUtils MemoryFacts Hash HashFacts Packing PackSpec PackingFacts Pieces ByteFacts RewriteFacts Float32 Quant Interp Headers TrackArray DbBuild
  LayoutSpec LayoutFacts LayoutOps LayoutBuild ScalarEnc ScalarDec ScalarSpec ScalarDecFacts ScalarBits ScalarWrite.
From Coq Require Import Lia ZifyBool ZifyN ZifyNat.
From Flocq Require Import IEEE754.Bits.
Ltac Zify.zify_post_hook ::= idtac.
Local Open Scope N_scope.

Lemma f_bits_lt x : f_bits x < 2 ^ 32.
Proof.
  unfold f_bits. pose proof (bits_of_binary_float_range 23 8 eq_refl eq_refl x) as H. change (2 ^ 32) with 4294967296. change (2 ^ (23 + 8 + 1))%Z with 4294967296%Z in H.
  unfold bits_of_b32. lia.
Qed.
Lemma f_of_bits_bits x : f_of_bits (f_bits x) = x.
Proof.
  unfold f_of_bits, f_bits. pose proof (bits_of_binary_float_range 23 8 eq_refl eq_refl x) as H.
  rewrite Z2N.id by (unfold bits_of_b32; lia). unfold b32_of_bits, bits_of_b32. exact (binary_float_of_bits_of_binary_float 23 8 eq_refl eq_refl eq_refl x).
Qed.

Lemma firstn_exact {A} (a b : list A) k : length a = k -> firstn k (a ++ b) = a.
Proof. intros <-. rewrite firstn_app, Nat.sub_diag, firstn_all. apply app_nil_r. Qed.
Lemma skipn_exact {A} (a b : list A) k : length a = k -> skipn k (a ++ b) = b.
Proof. intros <-. rewrite skipn_app, Nat.sub_diag, skipn_all. reflexivity. Qed.
Lemma floats_bytes v : forall rest, floats (length v) (float_bytes v ++ rest) = v.
Proof.
  unfold float_bytes. induction v as [|x v IH]; intros rest; [reflexivity|]. cbn [map concat length floats]. rewrite <- !app_assoc.
  assert (L : length (le_bytes 4 (f_bits x)) = 4%nat) by apply le_bytes_length.
  rewrite (firstn_exact _ _ 4 L), (skipn_exact _ _ 4 L), IH. f_equal.
  rewrite of_le_bytes_le_bytes by (apply f_bits_lt). apply f_of_bits_bits.
Qed.
Lemma load_floats_mid a v rest : (1 <= length v <= 4)%nat -> ((2 <= length v)%nat -> 16 - 4 * N.of_nat (length v) <= blen rest) ->
  load_floats (length v) (a ++ float_bytes v ++ rest) (blen a) = Ok v.
Proof.
  intros L R. unfold load_floats. set (k := match length v with 1%nat => 4%nat | _ => 16%nat end).
  assert (FB := float_bytes_len v). assert (K : (4 * length v <= k)%nat /\ (k - 4 * length v <= length rest)%nat).
  { subst k. unfold blen in *. destruct (length v) as [|[|x]]; [lia..|]. specialize (R ltac:(lia)). lia. }
  set (y := float_bytes v ++ firstn (k - 4 * length v) rest).
  assert (LY : length y = k) by (subst y; rewrite app_length, firstn_length; unfold blen in FB; lia).
  replace (a ++ float_bytes v ++ rest) with (a ++ y ++ skipn (k - 4 * length v) rest) by (subst y; rewrite <- !app_assoc, firstn_skipn; reflexivity).
  rewrite <- LY, load_mid. cbn [bindo]. subst y. rewrite floats_bytes. reflexivity.
Qed.

(** what the encoder guarantees *)
Record sound (list_name : list N) (c : scontext) : Prop := {
  so_nc : (1 <= num_sample_elements (sc_type c) <= 4)%nat;
  so_const : Forall (const_ok (num_sample_elements (sc_type c))) (sc_tracks c);
  so_range : Forall (range_ok (num_sample_elements (sc_type c))) (sc_tracks c);
  so_frames : frames_ok (num_sample_elements (sc_type c)) 0 (N.to_nat (sc_num_samples c)) (sc_tracks c);
  so_fits : total_bits c + 8 * (42 * N.of_nat (length (sc_tracks c)) + name_bytes c + blen list_name + 200) < 2 ^ 32;
  so_type : sc_type c < 256;
  so_rates : Forall (fun t => ct_constant t = false -> (1 <= ct_bit_rate t <= 24)%nat) (sc_tracks c);
  so_samples : sc_num_samples c < 2 ^ 32;
  so_names : bytes_ok list_name /\ Forall (fun t => bytes_ok (ct_name t)) (sc_tracks c)
}.

Section Read.
Context (s : ssettings) (list_name : list N) (c : scontext) (anim : list N).
Hypothesis S : sound list_name c.
Let ts := sc_tracks c.
Let nc := num_sample_elements (sc_type c).
Let n := sc_num_samples c.
Let T := N.of_nat (length ts).
Hypothesis LA : blen anim = anim_size c.
Hypothesis BA : bytes_ok anim.
Hypothesis FA : fields_seq anim 0 (all_fields nc 0 (N.to_nat n) ts).
Let m := clip_bytes s list_name c anim.
Let H_nc := so_nc _ _ S.
Let H_const := so_const _ _ S.
Let H_range := so_range _ _ S.
Let H_frames := so_frames _ _ S.
Let H_fits := so_fits _ _ S.
Let H_type := so_type _ _ S.
Let H_bounds := bounds s list_name c H_nc H_const H_range H_fits.
Let H_size := size_bound s list_name c H_nc H_const H_range H_fits.

Definition m_all : list (list N) := word (clip_size s list_name c) :: word (hash32 (concat (body s list_name c anim))) :: body s list_name c anim.
Lemma m_eq : m = concat m_all. Proof. reflexivity. Qed.

Ltac rd i v := rewrite m_eq; unfold m_all, body, head_pieces; cbn [app]; apply (read32_piece _ i v); [reflexivity|reflexivity|].

Lemma r_version : h_version m = Ok 10.
Proof. unfold h_version. rewrite m_eq. apply (load_le_piece _ 3 10 2); reflexivity. Qed.
Lemma r_type : h_track_type m = Ok (sc_type c).
Proof.
  unfold h_track_type. rewrite m_eq. unfold m_all, body, head_pieces. cbn [app]. unfold load8.
  assert (E : forall ps : list (list N), nth_error ps 5 = Some [sc_type c] -> sum_n (lens (firstn 5 ps)) = 15 -> nth_error (concat ps) (N.to_nat 15) = Some (sc_type c)).
  { intros ps A B. rewrite (split_at ps 5 _ A), <- B, <- blen_concat, blen_nat, nth_error_app2, Nat.sub_diag by lia. reflexivity. }
  match goal with |- context [nth_error (concat ?ps) _] => rewrite (E ps eq_refl eq_refl) end. reflexivity.
Qed.
Lemma T_small : T < 2 ^ 32.
Proof. pose proof H_fits as F. fold ts T in F. change (2 ^ 32) with 4294967296 in *. lia. Qed.
Lemma r_num_tracks : h_num_tracks m = Ok T.
Proof. unfold h_num_tracks. rd 6%nat T. apply T_small. Qed.
Lemma r_num_samples : h_num_samples m = Ok (h_samples c).
Proof. unfold h_num_samples. rd 7%nat (h_samples c). unfold h_samples. destruct (_ =? 0); [reflexivity|]. apply (so_samples _ _ S). Qed.
Lemma r_rate : h_sample_rate m = Ok (h_rate c).
Proof.
  unfold h_sample_rate. assert (E : read32 m 24 = Ok (f_bits (h_rate c))); [|rewrite E; cbn [bindo]; rewrite f_of_bits_bits; reflexivity].
  rd 8%nat (f_bits (h_rate c)). apply f_bits_lt.
Qed.
Lemma r_bits : T <> 0 -> n <> 0 -> h_num_bits_per_frame m = Ok (frame_bits nc ts).
Proof.
  intros TZ NZ. unfold h_num_bits_per_frame.
  assert (E : frame_bits nc ts = l_num_bits_per_frame (the_layout s list_name c)).
  { unfold the_layout. cbn [l_num_bits_per_frame]. fold nc ts n. destruct (N.eqb_spec n 0); lia. }
  rewrite E. rd 10%nat (l_num_bits_per_frame (the_layout s list_name c)). rewrite <- E.
  pose proof H_fits as F. unfold total_bits in F. fold nc ts n in F. change (2 ^ 32) with 4294967296 in *. nia.
Qed.
Lemma r_pointer i off v : nth_error m_all i = Some (word (v - 32)) -> sum_n (lens (firstn i m_all)) = off -> 32 <= v < 2 ^ 32 -> h_pointer m off = Ok v.
Proof.
  intros E O V. unfold h_pointer. rewrite m_eq. rewrite (read32_piece m_all i (v - 32) off E (eq_sym O)) by lia. cbn [bindo]. unfold scalar_header. f_equal. lia.
Qed.
Lemma ptr_bounds : 52 + T <= at_const c /\ at_const c <= at_range c /\ at_range c <= at_anim c /\ at_anim c < 2 ^ 32.
Proof.
  pose proof H_bounds as B. pose proof H_fits as F. fold ts T in B, F. change (2 ^ 32) with 4294967296 in *. unfold at_anim, at_range in *. lia.
Qed.
Lemma r_ptrs : h_pointer m 36 = Ok 52 /\ h_pointer m 40 = Ok (at_const c) /\ h_pointer m 44 = Ok (at_range c) /\ h_pointer m 48 = Ok (at_anim c).
Proof.
  pose proof ptr_bounds as P. change (2 ^ 32) with 4294967296 in *.
  split; [apply (r_pointer 11); [reflexivity|reflexivity|change (2 ^ 32) with 4294967296; lia]|].
  split; [apply (r_pointer 12); [reflexivity|reflexivity|change (2 ^ 32) with 4294967296; lia]|].
  split; [apply (r_pointer 13); [reflexivity|reflexivity|change (2 ^ 32) with 4294967296; lia]|].
  apply (r_pointer 14); [reflexivity|reflexivity|change (2 ^ 32) with 4294967296; lia].
Qed.

(** the data *)
Definition tail : list N := concat (tail_pieces s list_name c).
Lemma tail_len : 15 <= blen tail.
Proof.
  unfold tail. rewrite blen_concat. unfold tail_pieces. destruct (_ =? 0); cbn [lens map sum_n]; rewrite ?blen_zeros, ?blen_word; lia.
Qed.
Definition m_head : list N := concat (firstn 15 m_all).
Lemma m_split : m = m_head ++ b_meta c ++ zeros (at_const c - (52 + T)) ++ b_const c ++ b_range c ++ anim ++ tail.
Proof.
  rewrite m_eq. unfold m_head, m_all, body, head_pieces, tail. cbn [app firstn concat]. rewrite <- !app_assoc. cbn [app]. reflexivity.
Qed.
Lemma m_head_len : blen m_head = 52.
Proof. unfold m_head. rewrite blen_concat. reflexivity. Qed.

(** what a key frame of a track decodes to *)
Definition dec (nc : nat) (t : ctrack) (k : nat) : list f32 :=
  let xs := firstn nc (nth k (source t) []) in
  if is_raw_bit_rate (ct_bit_rate t) then xs
  else apply_range (map (fun x => fmul (f_of_N (component_value false x)) (inv_max_value (num_bits_at (ct_bit_rate t)))) xs)
         (firstn nc (snd (ct_range t))) (firstn nc (fst (ct_range t))).
Definition track_value (nc : nat) (t : ctrack) (k0 k1 : nat) (alpha : f32) : list f32 :=
  if ct_constant t then const_value t else interpolate alpha (dec nc t k0) (dec nc t k1).
Definition format_bits (t : ctrack) : N := if ct_constant t then 0 else num_bits_at (ct_bit_rate t).

Lemma format_num_bits t : (ct_constant t = false -> (1 <= ct_bit_rate t <= 24)%nat) -> num_bits_of 10 (format_of t) = Ok (format_bits t).
Proof.
  intros R. unfold num_bits_of, format_of, format_bits. change (10 =? 7) with false. cbn iota. destruct (ct_constant t); [reflexivity|]. specialize (R eq_refl).
  rewrite Nat2N.id. unfold num_bits_at. destruct (nth_error k_bit_rate_num_bits (ct_bit_rate t)) as [v|] eqn:E.
  - rewrite (nth_error_nth _ _ _ E). reflexivity.
  - apply nth_error_None in E. cbn [length k_bit_rate_num_bits] in E. lia.
Qed.
Lemma format_load i t : nth_error ts i = Some t -> load8 m (52 + N.of_nat i) = Ok (format_of t).
Proof.
  intros E. unfold load8. rewrite m_split. pose proof m_head_len as L. unfold blen in L.
  rewrite nth_error_app2 by lia. replace (N.to_nat (52 + N.of_nat i) - length m_head)%nat with i by lia.
  assert (X : nth_error (b_meta c) i = Some (format_of t)).
  { assert (Y : b_meta c = map format_of ts). { unfold b_meta, meta_chunks. fold ts. clear. induction ts as [|t l IH]; [reflexivity|]. cbn [map concat app]. rewrite IH. reflexivity. }
    rewrite Y. apply map_nth_error. exact E. }
  rewrite nth_error_app1 by (apply nth_error_Some; congruence). rewrite X. reflexivity.
Qed.

Lemma anim_split : from_pointer m (at_anim c) = anim ++ tail.
Proof.
  unfold from_pointer. rewrite m_split. rewrite !app_assoc, <- (app_assoc _ anim). apply skipn_exact. apply Nat2N.inj. rewrite N2Nat.id.
  rewrite <- !app_assoc. rewrite !app_length, !Nat2N.inj_add.
  repeat match goal with |- context [N.of_nat (length ?x)] => change (N.of_nat (length x)) with (blen x) end. rewrite blen_zeros, m_head_len, meta_len. fold ts T.
  pose proof ptr_bounds. unfold at_anim, at_range in *. lia.
Qed.

Lemma tail_bytes : bytes_ok tail.
Proof.
  unfold tail. apply bytes_concat. unfold tail_pieces. destruct (so_names _ _ S) as [BN BT].
  assert (NB : bytes_ok (name_chunk list_name)) by (apply bytes_ok_app; [exact BN | repeat constructor]).
  assert (N1 : bytes_ok (b_name s list_name)) by (unfold b_name; destruct (include_track_list_name s); [exact NB|constructor]).
  assert (N2 : bytes_ok (b_names s c)).
  { unfold b_names. destruct (include_track_names s); [|constructor]. apply bytes_concat. unfold names_chunks. apply Forall_app. split.
    - apply Forall_map, Forall_forall. intros x _. apply le_bytes_ok.
    - rewrite map_map. apply Forall_map. eapply Forall_impl; [|exact BT]. intros t X. apply bytes_ok_app; [exact X|repeat constructor]. }
  assert (N3 : bytes_ok (b_desc s c)).
  { unfold b_desc. destruct (include_track_descriptions s); [|constructor]. apply bytes_concat. unfold desc_chunks. apply Forall_map, Forall_forall. intros x _. apply bytes_floats. }
  destruct (_ =? 0); repeat match goal with |- Forall bytes_ok (_ :: _) => apply Forall_cons end; try exact (Forall_nil _); try apply bytes_zeros; try apply bytes_word; assumption.
Qed.

Lemma frame_bits_app a b : frame_bits nc (a ++ b) = frame_bits nc a + frame_bits nc b.
Proof. unfold frame_bits. rewrite map_app, sum_n_app. reflexivity. Qed.

Lemma position_fits pre t post k : ts = pre ++ t :: post -> (k < N.to_nat n)%nat ->
  frame_bits nc ts * N.of_nat k + frame_bits nc pre + track_bits nc t <= total_bits c.
Proof.
  intros E K. unfold total_bits. fold ts nc n. assert (F : frame_bits nc ts = frame_bits nc pre + (track_bits nc t + frame_bits nc post)) by (rewrite E, frame_bits_app; reflexivity).
  rewrite F. assert (N.of_nat k + 1 <= n) by lia. nia.
Qed.

Lemma sample_read pre t post k : ts = pre ++ t :: post -> ct_constant t = false -> (k < N.to_nat n)%nat ->
  unpack_sample nc (num_bits_at (ct_bit_rate t)) (anim ++ tail) (frame_bits nc ts * N.of_nat k + frame_bits nc pre) =
  Ok (if is_raw_bit_rate (ct_bit_rate t) then firstn nc (nth k (source t) [])
      else map (fun x => fmul (f_of_N (component_value false x)) (inv_max_value (num_bits_at (ct_bit_rate t)))) (firstn nc (nth k (source t) []))).
Proof.
  intros E C K. pose proof (position_fits pre t post k E K) as PF. set (p := frame_bits nc ts * N.of_nat k + frame_bits nc pre) in *.
  pose proof (H_frames k ltac:(fold n; lia)) as FK. fold nc ts in FK.
  pose proof (all_fields_frame anim nc ts (N.to_nat n) 0 0 k FA H_frames K) as A. rewrite N.add_0_l, Nat.add_0_l in A.
  pose proof (frame_fields_track anim nc k ts _ (length pre) t A FK) as B. rewrite E in B at 1.
  rewrite nth_error_app2, Nat.sub_diag in B by lia. specialize (B eq_refl).
  assert (FP : firstn (length pre) ts = pre) by (rewrite E; apply firstn_exact; reflexivity). rewrite FP in B. fold p in B. clear A.
  assert (FT : frame_ok nc k t) by (rewrite Forall_forall in FK; apply FK; rewrite E; apply in_elt).
  destruct (FT C) as (R & sm & SE & L & CO). unfold track_fields in B. rewrite C in B. unfold track_bits in PF. rewrite C in PF.
  rewrite (nth_error_nth _ _ _ SE) in *. set (nb := num_bits_at (ct_bit_rate t)) in *.
  assert (LL : length (firstn nc sm) = nc) by (rewrite firstn_length; lia). set (xs := firstn nc sm) in *. clearbody xs.
  set (raw := is_raw_bit_rate (ct_bit_rate t)) in *.
  rewrite <- (map_map (component_value raw) (fun v => (nb, v))) in B. apply fields_seq_at in B.
  pose proof H_bounds as HB. pose proof H_fits as HF. change (2 ^ 32) with 4294967296 in *. pose proof tail_len as TL.
  assert (BM : bytes_ok (anim ++ tail)) by (apply bytes_ok_app; [exact BA | apply tail_bytes]).
  assert (Fld : fields_at (anim ++ tail) p nb (map (component_value raw) xs)).
  { eapply fields_at_ext; [|exact B]. intros i Hi. symmetry. apply mbit_app_l. unfold blen in Hi. rewrite map_length, LL in Hi. rewrite LA. lia. }
  assert (BL : blen (anim ++ tail) = anim_size c + blen tail) by (rewrite blen_app, LA; reflexivity).
  assert (Hn := H_nc). fold nc in Hn. unfold unpack_sample.
  destruct raw eqn:RW.
  - assert (N32 : nb = 32). { subst raw nb. unfold is_raw_bit_rate in RW. apply Nat.eqb_eq in RW. rewrite RW. reflexivity. }
    rewrite N32 in *. change (32 =? 32) with true. cbn iota.
    rewrite (unpack_32_fields nc (anim ++ tail) p (map (component_value true) xs) BM).
    + cbn [bindo]. rewrite map_map. f_equal. etransitivity; [apply map_ext; intros x; cbn [component_value]; apply f_of_bits_bits | apply map_id].
    + intros _. rewrite BL. assert (p / 8 + 4 * N.of_nat nc <= anim_size c); [|lia].
      assert (D8 : 8 * (p / 8) <= p) by (apply N.mul_div_le; discriminate). set (q8 := p / 8) in *. clearbody q8. lia.
    + rewrite map_length. exact LL.
    + apply Forall_map. apply Forall_forall. intros x _. apply f_bits_lt.
    + exact Fld.
  - assert (NB : 1 <= nb <= 23).
    { assert (F : forallb (fun r => (1 <=? num_bits_at r) && (num_bits_at r <=? 23)) (seq 1 23) = true) by reflexivity. rewrite forallb_forall in F.
      assert (NE : ct_bit_rate t <> 24%nat) by (intros X; unfold raw, is_raw_bit_rate in RW; rewrite X in RW; discriminate RW).
      assert (IN : In (ct_bit_rate t) (seq 1 23)) by (apply in_seq; clear - R NE; lia).
      specialize (F (ct_bit_rate t) IN). fold nb in F. apply andb_prop in F. destruct F as [F1 F2]. apply N.leb_le in F1, F2. split; assumption. }
    destruct (N.eqb_spec nb 32) as [X|_]; [lia|].
    rewrite (unpack_uXX_fields nc nb (anim ++ tail) p (map (component_value false) xs) BM NB).
    + cbn [bindo]. rewrite map_map. reflexivity.
    + change (2 ^ 32) with 4294967296. lia.
    + intros _. rewrite BL. set (q := p + nb * (N.of_nat nc - 1)). assert (D8 : 8 * (q / 8) <= q) by (apply N.mul_div_le; discriminate). set (q8 := q / 8) in *. clearbody q8. subst q. nia.
    + rewrite map_length. exact LL.
    + apply Forall_map. eapply Forall_impl; [|exact CO]. intros x (v & V & W). unfold component_value. rewrite V. exact W.
    + exact Fld.
Qed.

Lemma const_split pre t post : ts = pre ++ t :: post -> ct_constant t = true ->
  exists a rest, m = a ++ float_bytes (const_value t) ++ rest /\ blen a = at_const c + blen (concat (const_chunks pre)) /\ 15 <= blen rest /\ length (const_value t) = nc.
Proof.
  intros E C. pose proof H_const as HC. fold nc ts in HC. rewrite Forall_forall in HC. destruct (HC t ltac:(rewrite E; apply in_elt) C) as (v & r & RE & LV).
  assert (B : b_const c = concat (const_chunks pre) ++ float_bytes (const_value t) ++ concat (const_chunks post)).
  { unfold b_const. fold ts. rewrite E. unfold const_chunks. rewrite map_app, concat_app. cbn [map concat]. rewrite C. reflexivity. }
  exists (m_head ++ b_meta c ++ zeros (at_const c - (52 + T)) ++ concat (const_chunks pre)), (concat (const_chunks post) ++ b_range c ++ anim ++ tail).
  split; [rewrite m_split, B, <- !app_assoc; reflexivity|]. split; [|split].
  - rewrite !blen_app, blen_zeros, m_head_len, meta_len. fold ts T. pose proof ptr_bounds. lia.
  - rewrite !blen_app. pose proof tail_len. lia.
  - unfold const_value. rewrite RE. exact LV.
Qed.
Lemma range_split pre t post : ts = pre ++ t :: post -> is_ranged t = true ->
  exists a rest, m = a ++ float_bytes (firstn nc (fst (ct_range t))) ++ float_bytes (firstn nc (snd (ct_range t))) ++ rest /\
    blen a = at_range c + blen (concat (range_chunks nc pre)) /\ 15 <= blen rest /\ length (firstn nc (fst (ct_range t))) = nc /\ length (firstn nc (snd (ct_range t))) = nc.
Proof.
  intros E C. pose proof H_range as HC. fold nc ts in HC. rewrite Forall_forall in HC. destruct (HC t ltac:(rewrite E; apply in_elt) C) as (L1 & L2).
  assert (B : b_range c = concat (range_chunks nc pre) ++ (float_bytes (firstn nc (fst (ct_range t))) ++ float_bytes (firstn nc (snd (ct_range t)))) ++ concat (range_chunks nc post)).
  { unfold b_range. fold ts nc. rewrite E. unfold range_chunks. rewrite map_app, concat_app. cbn [map concat]. rewrite C. reflexivity. }
  exists (m_head ++ b_meta c ++ zeros (at_const c - (52 + T)) ++ b_const c ++ concat (range_chunks nc pre)), (concat (range_chunks nc post) ++ anim ++ tail).
  split; [rewrite m_split, B, <- !app_assoc; reflexivity|]. split; [|split; [|split; rewrite firstn_length; lia]].
  - rewrite !blen_app, blen_zeros, m_head_len, meta_len. fold ts T. pose proof ptr_bounds. unfold at_range in *. lia.
  - rewrite !blen_app. pose proof tail_len. lia.
Qed.

Lemma value_read pre t post k0 k1 alpha : ts = pre ++ t :: post -> (k0 < N.to_nat n)%nat -> (k1 < N.to_nat n)%nat ->
  decompress_value nc (format_bits t) m (anim ++ tail) (at_const c + blen (concat (const_chunks pre))) (at_range c + blen (concat (range_chunks nc pre)))
    (frame_bits nc ts * N.of_nat k0 + frame_bits nc pre) (frame_bits nc ts * N.of_nat k1 + frame_bits nc pre) alpha = Ok (track_value nc t k0 k1 alpha).
Proof.
  intros E K0 K1. unfold decompress_value, track_value, format_bits. destruct (ct_constant t) eqn:C.
  - change (0 =? 0) with true. cbn iota. destruct (const_split pre t post E C) as (a & rest & M & LA' & R & L). rewrite M, <- LA'. rewrite <- L at 1.
    pose proof H_nc as Hn. fold nc in Hn. rewrite load_floats_mid; [reflexivity| lia | intros; lia].
  - pose proof (so_rates _ _ S) as RT. fold ts in RT. rewrite Forall_forall in RT. specialize (RT t ltac:(rewrite E; apply in_elt) C).
    pose proof (num_bits_range _ RT) as NB. destruct (N.eqb_spec (num_bits_at (ct_bit_rate t)) 0) as [X|_]; [lia|].
    rewrite (sample_read pre t post k0 E C K0), (sample_read pre t post k1 E C K1). cbn [bindo]. unfold dec. destruct (is_raw_bit_rate (ct_bit_rate t)) eqn:RW.
    + assert (N32 : num_bits_at (ct_bit_rate t) = 32) by (unfold is_raw_bit_rate in RW; apply Nat.eqb_eq in RW; rewrite RW; reflexivity). rewrite N32. reflexivity.
    + assert (N32 : num_bits_at (ct_bit_rate t) <> 32).
      { assert (F : forallb (fun r => num_bits_at r <=? 23) (seq 1 23) = true) by reflexivity. rewrite forallb_forall in F.
        assert (NE : ct_bit_rate t <> 24%nat) by (intros X; unfold is_raw_bit_rate in RW; rewrite X in RW; discriminate RW).
        assert (IN : In (ct_bit_rate t) (seq 1 23)) by (apply in_seq; clear - RT NE; lia). specialize (F _ IN). apply N.leb_le in F. lia. }
      apply N.eqb_neq in N32. rewrite N32.
      assert (RG : is_ranged t = true) by (unfold is_ranged; rewrite C, RW; reflexivity).
      destruct (range_split pre t post E RG) as (a & rest & M & LA' & R & L1 & L2). pose proof H_nc as Hn. fold nc in Hn.
      set (mn := firstn nc (fst (ct_range t))) in *. set (ex := firstn nc (snd (ct_range t))) in *. clearbody mn ex.
      assert (A1 : load_floats nc m (at_range c + blen (concat (range_chunks nc pre))) = Ok mn).
      { rewrite M, <- LA'. rewrite <- L1 at 1. apply load_floats_mid; [lia|]. intros _. rewrite blen_app. lia. }
      assert (A2 : load_floats nc m (at_range c + blen (concat (range_chunks nc pre)) + 4 * N.of_nat nc) = Ok ex).
      { rewrite M, <- LA'. replace (blen a + 4 * N.of_nat nc) with (blen (a ++ float_bytes mn)) by (rewrite blen_app, float_bytes_len, L1; reflexivity).
        rewrite app_assoc. rewrite <- L2 at 1. apply load_floats_mid; [lia|]. intros _. lia. }
      rewrite A1. cbn [bindo]. rewrite A2. reflexivity.
Qed.

Fixpoint pose (ds : dsettings) (d : dcontext) (w : writer) (k0 k1 : nat) (i : N) (l : list ctrack) : list (list f32) :=
  match l with [] => [] | t :: r => track_value nc t k0 k1 (alpha_of ds d w i) :: pose ds d w k0 k1 (i + 1) r end.

Lemma loop_read ds w d ty k0 k1 : d_tracks d = m -> known_type ds ty = true -> (k0 < N.to_nat n)%nat -> (k1 < N.to_nat n)%nat ->
  forall post pre, ts = pre ++ post ->
  decompress_loop ds w d 10 ty nc (anim ++ tail) 52 (length post) (N.of_nat (length pre))
    (at_const c + blen (concat (const_chunks pre))) (at_range c + blen (concat (range_chunks nc pre)))
    (frame_bits nc ts * N.of_nat k0 + frame_bits nc pre) (frame_bits nc ts * N.of_nat k1 + frame_bits nc pre)
  = Ok (not_skipped w (numbered (N.of_nat (length pre)) (pose ds d w k0 k1 (N.of_nat (length pre)) post))).
Proof.
  intros D KT K0 K1. induction post as [|t post IH]; intros pre E; [reflexivity|]. cbn [length decompress_loop]. rewrite D.
  assert (NT : nth_error ts (length pre) = Some t) by (rewrite E, nth_error_app2, Nat.sub_diag by lia; reflexivity).
  rewrite (format_load _ _ NT). cbn [bindo].
  pose proof (so_rates _ _ S) as RT. fold ts in RT. rewrite Forall_forall in RT. specialize (RT t ltac:(rewrite E; apply in_elt)).
  rewrite (format_num_bits t RT). cbn [bindo]. rewrite KT. cbn [negb].
  rewrite (value_read pre t post k0 k1 _ E K0 K1). cbn [bindo].
  specialize (IH (pre ++ [t])). rewrite <- app_assoc in IH. specialize (IH E).
  assert (HF := H_fits). pose proof (position_fits pre t post k0 E K0) as P0. pose proof (position_fits pre t post k1 E K1) as P1. change (2 ^ 32) with 4294967296 in *.
  assert (TB : track_bits nc t = format_bits t * N.of_nat nc) by (unfold track_bits, format_bits; destruct (ct_constant t); reflexivity).
  pose proof H_nc as Hn. fold nc in Hn.
  replace (N.of_nat (length pre) + 1) with (N.of_nat (length (pre ++ [t]))) by (rewrite app_length; cbn [length]; lia).
  replace (if format_bits t =? 0 then at_const c + blen (concat (const_chunks pre)) + 4 * N.of_nat nc else at_const c + blen (concat (const_chunks pre)))
    with (at_const c + blen (concat (const_chunks (pre ++ [t])))).
  2:{ unfold const_chunks. rewrite map_app, concat_app, blen_app. cbn [map concat]. rewrite app_nil_r. unfold format_bits. destruct (ct_constant t) eqn:C.
      - change (0 =? 0) with true. cbn iota. destruct (const_split pre t post E C) as (_ & _ & _ & _ & _ & L). rewrite float_bytes_len, L. lia.
      - pose proof (num_bits_range _ (RT eq_refl)). destruct (N.eqb_spec (num_bits_at (ct_bit_rate t)) 0); [lia|]. change (blen []) with 0. lia. }
  replace (if (format_bits t =? 0) || (format_bits t =? 32) then at_range c + blen (concat (range_chunks nc pre)) else at_range c + blen (concat (range_chunks nc pre)) + 4 * N.of_nat nc * 2)
    with (at_range c + blen (concat (range_chunks nc (pre ++ [t])))).
  2:{ unfold range_chunks. rewrite map_app, concat_app, blen_app. cbn [map concat]. rewrite app_nil_r. destruct (is_ranged t) eqn:RG.
      - destruct (range_split pre t post E RG) as (_ & _ & _ & _ & _ & L1 & L2). rewrite blen_app, !float_bytes_len, L1, L2.
        unfold is_ranged in RG. unfold format_bits. destruct (ct_constant t); [discriminate RG|]. cbn [negb andb] in RG.
        destruct (is_raw_bit_rate (ct_bit_rate t)) eqn:RW; [discriminate RG|]. specialize (RT eq_refl).
        assert (F : forallb (fun r => (1 <=? num_bits_at r) && (num_bits_at r <=? 23)) (seq 1 23) = true) by reflexivity. rewrite forallb_forall in F.
        assert (NE : ct_bit_rate t <> 24%nat) by (intros X; unfold is_raw_bit_rate in RW; rewrite X in RW; discriminate RW).
        assert (IN : In (ct_bit_rate t) (seq 1 23)) by (apply in_seq; clear - RT NE; lia). specialize (F _ IN). apply andb_prop in F. destruct F as [F1 F2]. apply N.leb_le in F1, F2.
        destruct (N.eqb_spec (num_bits_at (ct_bit_rate t)) 0); [lia|]. destruct (N.eqb_spec (num_bits_at (ct_bit_rate t)) 32); [lia|]. cbn [orb]. lia.
      - change (blen []) with 0. unfold is_ranged in RG. unfold format_bits. destruct (ct_constant t); [change (0 =? 0) with true; cbn [orb]; lia|]. cbn [negb andb] in RG.
        destruct (is_raw_bit_rate (ct_bit_rate t)) eqn:RW; [|discriminate RG]. unfold is_raw_bit_rate in RW. apply Nat.eqb_eq in RW. rewrite RW. change (num_bits_at k_highest_bit_rate) with 32. change ((32 =? 0) || (32 =? 32)) with true. cbn iota. lia. }
  assert (OFF : forall k, frame_bits nc ts * N.of_nat k + frame_bits nc pre + track_bits nc t <= total_bits c ->
    (if format_bits t =? 0 then frame_bits nc ts * N.of_nat k + frame_bits nc pre else addw 32 (frame_bits nc ts * N.of_nat k + frame_bits nc pre) (mulw 32 (format_bits t) (N.of_nat nc)))
    = frame_bits nc ts * N.of_nat k + frame_bits nc (pre ++ [t])).
  { intros k P. assert (FB : frame_bits nc [t] = track_bits nc t) by (unfold frame_bits; cbn [map sum_n]; lia). rewrite frame_bits_app, FB, TB.
    destruct (N.eqb_spec (format_bits t) 0) as [Z|Z]; [rewrite Z; lia|]. rewrite mulw_fits by (change (2 ^ 32) with 4294967296; nia).
    rewrite addw_fits by (auto; change (2 ^ 32) with 4294967296; lia). lia. }
  rewrite (OFF k0 P0), (OFF k1 P1). rewrite IH. cbn [bindo pose numbered not_skipped filter fst].
  replace (N.of_nat (length (pre ++ [t]))) with (N.of_nat (length pre) + 1) by (rewrite app_length; cbn [length]; lia).
  unfold not_skipped. cbn [numbered filter fst]. destruct (w_skip w (N.of_nat (length pre))); reflexivity.
Qed.

Theorem decompress_read ds w d k0 k1 : d_tracks d = m -> (k0 < N.to_nat n)%nat -> (k1 < N.to_nat n)%nat ->
  d_offset0 d = frame_bits nc ts * N.of_nat k0 -> d_offset1 d = frame_bits nc ts * N.of_nat k1 -> flt (d_time d) f_zero = false -> known_type ds (sc_type c) = true ->
  decompress_tracks ds d w = Ok (not_skipped w (numbered 0 (pose ds d w k0 k1 0 ts))).
Proof.
  intros D K0 K1 O0 O1 TM KT. unfold decompress_tracks. rewrite D, r_num_tracks. cbn [bindo].
  destruct (N.eqb_spec T 0) as [Z|Z].
  { assert (X : ts = []) by (apply length_zero_iff_nil; unfold T in Z; lia). rewrite X. reflexivity. }
  rewrite TM. destruct r_ptrs as (P1 & P2 & P3 & P4). rewrite P1. cbn [bindo]. rewrite P2. cbn [bindo]. rewrite P3. cbn [bindo]. rewrite P4. cbn [bindo].
  rewrite r_type. cbn [bindo]. rewrite r_version. cbn [bindo]. rewrite anim_split.
  pose proof (loop_read ds w d (sc_type c) k0 k1 D KT K0 K1 ts [] eq_refl) as L. cbn [length] in L. change (N.of_nat 0) with 0 in L.
  change (blen (concat (const_chunks []))) with 0 in L. change (blen (concat (range_chunks nc []))) with 0 in L. change (frame_bits nc []) with 0 in L. rewrite !N.add_0_r in L.
  rewrite O0, O1. replace (N.to_nat T) with (length ts) by (unfold T; lia). exact L.
Qed.
End Read.
