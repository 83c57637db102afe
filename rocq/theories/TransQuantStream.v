(** What the quantized streams contain. *)
From Coq Require Import ZArith NArith Bool Lia List.
From Verif Require Import Word WordFacts ByteFacts Pieces Float32 Quant Headers HeadersFacts Packing PackSpec PackingFacts ScalarRead TransDec TransSpec TransMem TransEnc TransEncSpec TransQuant.
Import ListNotations.
Local Open Scope N_scope.
Ltac Zify.zify_post_hook ::= idtac.

(** the contents of an allocation *)
Definition allocator_ok (junk : N -> list N) : Prop := forall n, bytes_ok (junk n) /\ blen (junk n) = n.

(** a writer of one sample, and what its first [sz] bytes are afterwards *)
Definition writes (sz : N) (w : list N -> outcome (list N)) (P : list N -> Prop) : Prop :=
  (forall d, bytes_ok d -> sz + 15 <= blen d -> exists d', w d = Ok d' /\ bytes_ok d' /\ blen d' = blen d /\ P d') /\
  (forall d d', firstn (N.to_nat sz) d = firstn (N.to_nat sz) d' -> P d -> P d').

Lemma skipn_add {A} (l : list A) a b : skipn b (skipn a l) = skipn (a + b) l.
Proof. revert l. induction a as [| a IH]; intros l; [reflexivity |]. destruct l; [destruct b; reflexivity | apply IH]. Qed.
Lemma firstn_skipn_firstn {A} (a b : list A) n k : (k <= n)%nat -> firstn n a = firstn n b -> firstn (n - k) (skipn k a) = firstn (n - k) (skipn k b).
Proof. intros L E. rewrite <- !skipn_firstn_comm, E. reflexivity. Qed.

Lemma write_samples_ok sz l Ps : 0 < sz -> Forall2 (writes sz) l Ps -> forall data k, bytes_ok data -> (k + N.of_nat (length l)) * sz + 15 <= blen data -> (k + N.of_nat (length l)) * sz < 2 ^ 32 ->
  exists data', write_samples data sz k l = Ok data' /\ bytes_ok data' /\ blen data' = blen data /\ firstn (N.to_nat (k * sz)) data' = firstn (N.to_nat (k * sz)) data /\
    forall i P, nth_error Ps i = Some P -> P (skipn (N.to_nat ((k + N.of_nat i) * sz)) data').
Proof.
  intros SZ. induction 1 as [| w P l Ps [Hw HP] F IH]; intros data k B L SM; cbn [write_samples length] in *.
  - exists data. split; [reflexivity |]. split; [exact B |]. split; [reflexivity |]. split; [reflexivity |]. intros [| i] P E; discriminate.
  - unfold write_sample. assert (KS : k * sz < 2 ^ 32) by nia. rewrite mulw_small by exact KS. set (off := N.to_nat (k * sz)) in *.
    assert (OFF : N.of_nat off = k * sz) by (unfold off; lia). assert (LS : blen (skipn off data) = blen data - k * sz) by (unfold blen; rewrite skipn_length; lia).
    destruct (Hw (skipn off data)) as (r & -> & Br & Lr & Pr); [apply bytes_ok_skipn, B | rewrite LS; nia |]. cbn [bindo].
    assert (LF : blen (firstn off data) = k * sz) by (unfold blen in *; rewrite firstn_length; nia).
    destruct (IH (firstn off data ++ r) (k + 1)) as (data' & E & B' & L' & F' & H'); [apply bytes_ok_app; [apply bytes_ok_firstn, B | exact Br] | rewrite blen_app, LF, Lr, LS; nia | nia |].
    assert (LT : blen (firstn off data ++ r) = blen data) by (rewrite blen_app, LF, Lr, LS; nia).
    exists data'. split; [exact E |]. split; [exact B' |]. split; [congruence |].
    assert (NO : (N.to_nat ((k + 1) * sz) - off = N.to_nat sz)%nat) by (unfold off; nia). assert (OL : (off <= N.to_nat ((k + 1) * sz))%nat) by (unfold off; nia).
    assert (LN : length (firstn off data) = off) by (unfold blen in LF; lia). split.
    + assert (X : firstn off (firstn (N.to_nat ((k + 1) * sz)) data') = firstn off (firstn (N.to_nat ((k + 1) * sz)) (firstn off data ++ r))) by (rewrite F'; reflexivity).
      rewrite !firstn_firstn, !Nat.min_l in X by exact OL. rewrite X. rewrite firstn_app, LN, Nat.sub_diag, firstn_O, app_nil_r. apply firstn_all2. rewrite LN. lia.
    + intros [| i] Q EQ; cbn [nth_error] in EQ.
      * injection EQ as <-. change (N.of_nat 0) with 0. rewrite N.add_0_r. fold off. apply HP with r; [| exact Pr].
        pose proof (firstn_skipn_firstn _ _ _ off OL F') as X. rewrite NO in X. rewrite X. rewrite skipn_app, skipn_all2, LN, Nat.sub_diag by (rewrite LN; lia). reflexivity.
      * specialize (H' i Q EQ). replace (k + N.of_nat (S i)) with (k + 1 + N.of_nat i) by lia. exact H'.
Qed.

(** ** Writers *)
Lemma word_bytes_ok ws : Forall (fun w => w < 2 ^ 32) ws -> bytes_ok (word_bytes ws).
Proof. induction 1 as [| w ws _ _ IH]; [constructor |]. rewrite word_bytes_cons. apply bytes_ok_app; [apply le_bytes_ok | exact IH]. Qed.
Lemma placed_firstn l d d' sz : firstn sz d = firstn sz d' -> (length l <= sz)%nat -> placed d 0 l -> placed d' 0 l.
Proof.
  intros E L P k b H. specialize (P k b H). change (N.to_nat 0 + k)%nat with k in *. assert (K : (k < length l)%nat) by (apply nth_error_Some; congruence).
  rewrite <- (nth_error_firstn d' sz k) by lia. rewrite <- E. rewrite nth_error_firstn by lia. exact P.
Qed.
Lemma store_writes sz bytes : bytes_ok bytes -> blen bytes <= sz -> writes sz (fun out => store_bytes out 0 bytes) (fun d => placed d 0 bytes).
Proof.
  intros B L. split.
  - intros d Bd Ld. assert (E : d = [] ++ firstn (length bytes) d ++ skipn (length bytes) d) by (symmetry; apply firstn_skipn).
    assert (LN : length (firstn (length bytes) d) = length bytes) by (rewrite firstn_length; unfold blen in *; lia).
    exists ([] ++ bytes ++ skipn (length bytes) d). split; [rewrite E at 1; change 0 with (blen (@nil N)) at 1; apply store_mid; congruence |].
    split; [cbn [app]; apply bytes_ok_app; [exact B | apply bytes_ok_skipn, Bd] |]. split; [cbn [app]; rewrite blen_app; unfold blen in *; rewrite skipn_length; lia |].
    exact (placed_mid [] bytes (skipn (length bytes) d)).
  - intros d d' E P. apply (placed_firstn _ d d' (N.to_nat sz) E); [unfold blen in L; lia | exact P].
Qed.
Lemma mbit_firstn d d' sz i : firstn sz d = firstn sz d' -> i < 8 * N.of_nat sz -> mbit d i = mbit d' i.
Proof.
  intros E H. unfold mbit. f_equal. assert (K : (N.to_nat (i / 8) < sz)%nat). { assert (i / 8 < N.of_nat sz) by (apply N.div_lt_upper_bound; lia). lia. }
  rewrite <- (firstn_skipn sz d), <- (firstn_skipn sz d'), E.
  destruct (Nat.lt_ge_cases (N.to_nat (i / 8)) (length (firstn sz d'))) as [C | C]; [rewrite !app_nth1 by exact C; reflexivity |].
  assert (LD : length (firstn sz d) = length (firstn sz d')) by (rewrite E; reflexivity). rewrite !firstn_length in LD. rewrite firstn_length in C.
  rewrite !skipn_all2 by lia. reflexivity.
Qed.
Lemma max_lt n v : 1 <= n <= 23 -> v <= max_value n -> v < 2 ^ n.
Proof. intros H L. rewrite QuantFacts.max_value_eq in L by lia. assert (2 ^ n <> 0) by (apply N.pow_nonzero; discriminate). lia. Qed.
Lemma pack_writes n x y z v : 1 <= n <= 23 ->
  pack_scalar_unsigned (lane 0 v) n = Ok x -> pack_scalar_unsigned (lane 1 v) n = Ok y -> pack_scalar_unsigned (lane 2 v) n = Ok z -> x < 2 ^ n -> y < 2 ^ n -> z < 2 ^ n ->
  writes 16 (pack_vector3 n v) (fun d => fields_at d 0 n [x; y; z]).
Proof.
  intros Hn X Y Z Bx By Bz. split.
  - intros d Bd Ld. unfold pack_vector3. rewrite X, Y, Z. cbn [bindo]. destruct (pack3_spec n x y z d Hn Bx By Bz Bd ltac:(lia)) as (d' & E & B & L & F). exists d'. split; [exact E |]. split; [exact B |]. split; [unfold blen; rewrite L; reflexivity | exact F].
  - intros d d' E F. apply (fields_at_ext d); [| exact F]. intros i Hi. apply (mbit_firstn d d' (N.to_nat 16) i E). unfold blen in Hi. cbn [length] in Hi. change (N.of_nat 3) with 3 in Hi. change (8 * N.of_nat (N.to_nat 16)) with 128. lia.
Qed.
Lemma pack48_writes x y z v :
  pack_scalar_unsigned (lane 0 v) 16 = Ok x -> pack_scalar_unsigned (lane 1 v) 16 = Ok y -> pack_scalar_unsigned (lane 2 v) 16 = Ok z -> x < 2 ^ 16 -> y < 2 ^ 16 -> z < 2 ^ 16 ->
  writes 16 (pack_vector3_u48 v) (fun d => placed d 0 (concat (map (le_bytes 2) [x; y; z]))).
Proof.
  intros X Y Z Bx By Bz. unfold pack_vector3_u48. rewrite X, Y, Z. cbn [bindo]. change (2 ^ 16) with 65536 in *. rewrite (proj2 (N.ltb_lt _ _) Bx), (proj2 (N.ltb_lt _ _) By), (proj2 (N.ltb_lt _ _) Bz). cbn [andb].
  replace (concat (map (le_bytes 2) [x; y; z])) with (le_bytes 2 x ++ le_bytes 2 y ++ le_bytes 2 z) by (cbn [map concat]; rewrite app_nil_r; reflexivity).
  apply store_writes; [repeat apply bytes_ok_app; apply le_bytes_ok |]. rewrite !blen_app. unfold blen. rewrite !le_bytes_length. vm_compute. discriminate.
Qed.

(** ** Streams *)
Definition lanes (n : N) (v : vec) : list N := map f_bits (firstn (N.to_nat n) v).
Lemma store_vec_eq n v : store_vec (N.to_nat n) v = word_bytes (lanes n v).
Proof. unfold store_vec, word_bytes, lanes. rewrite map_map. reflexivity. Qed.
Lemma lanes_words n v : (N.to_nat n <= length v)%nat -> in_words 32 n (lanes n v).
Proof. intros L. unfold lanes. split; [rewrite map_length, firstn_length; lia |]. apply Forall_map, Forall_forall. intros x _. apply f_bits_lt. Qed.

Lemma sample_placed t k bytes : placed (skipn (N.to_nat (k * ts_sample_size t)) (ts_data t)) 0 bytes -> sample_at t k bytes.
Proof. intros P j b H. specialize (P j b H). change (N.to_nat 0 + j)%nat with j in P. rewrite nth_error_skipn in P. exact P. Qed.
Lemma Forall2_map_in {A B C} (R : B -> C -> Prop) (f : A -> B) (g : A -> C) l : (forall x, In x l -> R (f x) (g x)) -> Forall2 R (map f l) (map g l).
Proof. induction l as [| a l IH]; intros H; [constructor |]. constructor; [apply H; left; reflexivity | apply IH; intros x Hx; apply H; right; exact Hx]. Qed.

(** writing vectors of [n] floats, [sz] bytes apart *)
Lemma write_vectors junk sz n (samples : list vec) : allocator_ok junk -> 0 < n -> 4 * n <= sz -> Forall (fun v => (N.to_nat n <= length v)%nat) samples -> N.of_nat (length samples) * sz < 2 ^ 32 ->
  exists data, write_samples (allocated junk (N.of_nat (length samples)) sz) sz 0 (map (fun v out => store_bytes out 0 (store_vec (N.to_nat n) v)) samples) = Ok data /\
    bytes_ok data /\ N.of_nat (length samples) * sz + 15 <= blen data /\
    forall k v, nth_error samples (N.to_nat k) = Some v -> placed (skipn (N.to_nat (k * sz)) data) 0 (word_bytes (lanes n v)).
Proof.
  intros J N0 LE F SM. destruct (J (N.of_nat (length samples) * sz + 15)) as [JB JL].
  destruct (write_samples_ok sz (map (fun v out => store_bytes out 0 (store_vec (N.to_nat n) v)) samples) (map (fun v d => placed d 0 (word_bytes (lanes n v))) samples)) with (data := allocated junk (N.of_nat (length samples)) sz) (k := 0) as (data & E & B & L & _ & H).
  - lia.
  - apply Forall2_map_in. intros v Hv. rewrite Forall_forall in F. specialize (F v Hv). pose proof (lanes_words n v F) as [W1 W2]. rewrite store_vec_eq.
    apply store_writes; [apply word_bytes_ok, W2 | rewrite word_bytes_blen, W1; exact LE].
  - exact JB.
  - rewrite map_length, N.add_0_l. unfold allocated. rewrite JL. apply N.le_refl.
  - rewrite map_length, N.add_0_l. exact SM.
  - exists data. split; [exact E |]. split; [exact B |]. split; [rewrite L; unfold allocated; rewrite JL; lia |].
    intros k v EV. specialize (H (N.to_nat k) (fun d => placed d 0 (word_bytes (lanes n v)))). rewrite N.add_0_l, N2Nat.id in H. apply H. exact (map_nth_error (fun v d => placed d 0 (word_bytes (lanes n v))) _ _ EV).
Qed.

(** the stream holds raw words *)
Record raw_stream (n sz : N) (samples : list vec) (t : tstream) : Prop := {
  rs_ok : stream_ok t; rs_rate : ts_rate t = 255; rs_size : ts_sample_size t = sz; rs_packed : ts_packed_size t = 4 * n; rs_num : ts_num_samples t = N.of_nat (length samples);
  rs_at : forall k v, nth_error samples (N.to_nat k) = Some v -> sample_at t k (word_bytes (lanes n v))
}.
Lemma fixed_ok junk n (samples : list vec) : allocator_ok junk -> 0 < n -> Forall (fun v => (N.to_nat n <= length v)%nat) samples -> N.of_nat (length samples) * (4 * n) < 2 ^ 32 ->
  exists t, quantize_fixed_stream junk n samples = Ok t /\ raw_stream n (4 * n) samples t.
Proof.
  intros J N0 F SM. destruct (write_vectors junk (4 * n) n samples J N0 ltac:(lia) F SM) as (data & E & B & L & H). unfold quantize_fixed_stream. cbv zeta. rewrite E. cbn [bindo].
  eexists. split; [reflexivity |]. constructor; cbn [ts_rate ts_sample_size ts_packed_size ts_num_samples]; try reflexivity; [split; [exact B | split; [exact L | exact SM]] |].
  intros k v EV. apply sample_placed. cbn [ts_sample_size ts_data]. apply H, EV.
Qed.
Lemma lanes_prefix n v m : n <= m -> exists r, lanes m v = lanes n v ++ r.
Proof.
  intros L. unfold lanes. exists (map f_bits (firstn (N.to_nat m - N.to_nat n) (skipn (N.to_nat n) v))). rewrite <- map_app. f_equal.
  replace (N.to_nat m) with (N.to_nat n + (N.to_nat m - N.to_nat n))%nat at 1 by lia. generalize (N.to_nat m - N.to_nat n)%nat as b. generalize (N.to_nat n) as a. clear. intros a. revert v. induction a as [| a IH]; intros v b; [reflexivity |].
  destruct v as [| x v]; [cbn; rewrite firstn_nil; reflexivity |]. cbn [Nat.add firstn skipn app]. f_equal. apply IH.
Qed.
Lemma placed_prefix m off a b : placed m off (a ++ b) -> placed m off a.
Proof. intros H. apply placed_app in H. apply H. Qed.
Lemma float_ok junk n (samples : list vec) : allocator_ok junk -> 0 < n <= 4 -> Forall (fun v => length v = 4%nat) samples -> N.of_nat (length samples) * 16 < 2 ^ 32 ->
  exists t, float_stream junk n samples = Ok t /\ raw_stream n 16 samples t.
Proof.
  intros J N0 F SM. destruct (write_vectors junk 16 4 samples J ltac:(lia) ltac:(lia)) as (data & E & B & L & H); [eapply Forall_impl; [| exact F]; cbv beta; intros v ->; change (N.to_nat 4) with 4%nat; lia | exact SM |].
  unfold float_stream. cbv zeta. change (N.to_nat 4) with 4%nat in E. rewrite E. cbn [bindo].
  eexists. split; [reflexivity |]. constructor; cbn [ts_rate ts_sample_size ts_packed_size ts_num_samples]; try reflexivity; [split; [exact B | split; [exact L | exact SM]] |].
  intros k v EV. apply sample_placed. cbn [ts_sample_size ts_data]. specialize (H k v EV). destruct (lanes_prefix n v 4 ltac:(lia)) as [r Er]. rewrite Er in H. unfold word_bytes in H. rewrite map_app, concat_app in H. apply placed_prefix in H. exact H.
Qed.
(** what a stream of raw words says about its samples *)
Lemma raw_sample n sz (samples : list vec) t k (v : vec) range : raw_stream n sz samples t -> n = 3 \/ n = 4 -> 4 * n <= sz -> nth_error samples (N.to_nat k) = Some v -> (N.to_nat n <= length v)%nat ->
  stream_sample t k {| s_bits := 32; s_vals := lanes n v; s_range := range |}.
Proof.
  intros R N3 LE EV LV. pose proof (lanes_words n v LV) as W. assert (K : k < ts_num_samples t) by (rewrite (rs_num _ _ _ _ R); assert (N.to_nat k < length samples)%nat by (apply nth_error_Some; congruence); lia).
  unfold stream_sample. rewrite (rs_rate _ _ _ _ R), (rs_packed _ _ _ _ R), (rs_size _ _ _ _ R). change (255 =? 255) with true. cbv iota. cbn [s_bits s_vals].
  split; [reflexivity |]. split; [destruct N3 as [-> | ->]; exact W |]. split; [exact K |]. split; [exact LE |]. split; [lia |]. apply (rs_at _ _ _ _ R), EV.
Qed.

(** *** Variable bit rates *)
From Coq Require Import Reals Lra.
From Verif Require Import Float32Facts QuantFacts.
Definition value {A} (d : A) (x : outcome A) : A := match x with Ok v => v | _ => d end.
Definition packed_lanes (n : N) (v : vec) : list N := [value 0 (pack_scalar_unsigned (lane 0 v) n); value 0 (pack_scalar_unsigned (lane 1 v) n); value 0 (pack_scalar_unsigned (lane 2 v) n)].
(** the first three components are between 0 and 1 *)
Definition unit_lanes (v : vec) : Prop := forall c, (c < 3)%nat -> ffinite (lane c v) = true /\ (0 <= FR (lane c v) <= 1)%R.
Lemma packed_lane n v c : 1 <= n <= 23 -> unit_lanes v -> (c < 3)%nat -> exists x, pack_scalar_unsigned (lane c v) n = Ok x /\ x < 2 ^ n /\ nth c (packed_lanes n v) 0 = x.
Proof.
  intros Hn V C. destruct (V c C) as [F R]. destruct (pack_range _ n Hn F R) as (x & E & B). exists x. split; [exact E |]. split; [apply max_lt; assumption |].
  destruct c as [| [| [| c]]]; [| | | lia]; cbn [packed_lanes nth]; rewrite E; reflexivity.
Qed.
Lemma packed_words n v : 1 <= n <= 23 -> unit_lanes v -> in_words n 3 (packed_lanes n v).
Proof.
  intros Hn V. split; [reflexivity |]. destruct (packed_lane n v 0 Hn V) as (x & _ & B0 & E0); [lia |]. destruct (packed_lane n v 1 Hn V) as (y & _ & B1 & E1); [lia |]. destruct (packed_lane n v 2 Hn V) as (z & _ & B2 & E2); [lia |].
  cbn [nth packed_lanes] in *. unfold packed_lanes. rewrite E0, E1, E2. repeat constructor; assumption.
Qed.
Lemma packed_writes n v : 1 <= n <= 23 -> unit_lanes v -> writes 16 (pack_vector3 n v) (fun d => fields_at d 0 n (packed_lanes n v)).
Proof.
  intros Hn V. destruct (packed_lane n v 0 Hn V) as (x & X & B0 & E0); [lia |]. destruct (packed_lane n v 1 Hn V) as (y & Y & B1 & E1); [lia |]. destruct (packed_lane n v 2 Hn V) as (z & Z & B2 & E2); [lia |].
  cbn [nth packed_lanes] in *. unfold packed_lanes. rewrite E0, E1, E2. apply pack_writes; assumption.
Qed.
Lemma packed48_writes v : unit_lanes v -> writes 16 (pack_vector3_u48 v) (fun d => placed d 0 (concat (map (le_bytes 2) (packed_lanes 16 v)))).
Proof.
  intros V. assert (Hn : 1 <= 16 <= 23) by lia. destruct (packed_lane 16 v 0 Hn V) as (x & X & B0 & E0); [lia |]. destruct (packed_lane 16 v 1 Hn V) as (y & Y & B1 & E1); [lia |]. destruct (packed_lane 16 v 2 Hn V) as (z & Z & B2 & E2); [lia |].
  cbn [nth packed_lanes] in *. unfold packed_lanes. rewrite E0, E1, E2. apply pack48_writes; assumption.
Qed.

(** what a stream of a bit rate contains: the constant of the segment, raw samples, or the packed samples *)
Definition variable_stored (rate : N) (constant : vec) (raw lossy : vec) (range : list N) : stored :=
  if rate =? 0 then {| s_bits := 0; s_vals := packed_lanes 16 constant; s_range := range |}
  else if rate =? 24 then {| s_bits := 32; s_vals := lanes 3 raw; s_range := range |}
  else {| s_bits := rate; s_vals := packed_lanes rate lossy; s_range := range |}.
Record variable_stream (rate : N) (constant : vec) (raw lossy : list vec) (t : tstream) : Prop := {
  vs_ok : stream_ok t; vs_rate : ts_rate t = rate; vs_size : ts_sample_size t = 16; vs_packed : ts_packed_size t = 12;
  vs_sample : forall k r l range, nth_error raw (N.to_nat k) = Some r -> nth_error lossy (N.to_nat k) = Some l -> stream_sample t k (variable_stored rate constant r l range)
}.
Lemma rate_bits rate : rate <= 24 -> rate <> 24 -> get_num_bits_at_bit_rate rate = Ok rate /\ nth_error Headers.k_bit_rate_num_bits (N.to_nat rate) = Some rate.
Proof.
  intros L N24. assert (H : In rate (map N.of_nat (seq 0 24))) by (apply in_map_iff; exists (N.to_nat rate); split; [lia | apply in_seq; lia]).
  cbn [seq map] in H. repeat (destruct H as [<- | H]; [split; reflexivity |]). destruct H.
Qed.
Lemma variable_ok junk rate constant (raw lossy : list vec) : allocator_ok junk -> rate <= 24 -> (rate = 0 -> unit_lanes constant) -> (length lossy <= length raw)%nat ->
  Forall (fun v => length v = 4%nat) raw -> (rate <> 0 -> rate <> 24 -> Forall unit_lanes lossy) -> 0 < N.of_nat (length lossy) -> N.of_nat (length lossy) * 16 < 2 ^ 32 ->
  exists t, quantize_variable_stream junk rate constant raw lossy = Ok t /\ variable_stream rate constant raw lossy t.
Proof.
  intros J R24 C0 LL FR FL NZ SM. unfold quantize_variable_stream, is_constant_bit_rate. cbv zeta. destruct (N.eqb_spec rate 0) as [R0 | R0].
  - destruct (J (1 * 16 + 15)) as [JB JL]. destruct (write_samples_ok 16 [pack_vector3_u48 constant] [fun d => placed d 0 (concat (map (le_bytes 2) (packed_lanes 16 constant)))]) with (data := allocated junk 1 16) (k := 0) as (data & E & B & L & _ & H).
    + lia.
    + constructor; [apply packed48_writes, C0, R0 | constructor].
    + exact JB.
    + unfold allocated. rewrite JL. cbn [length]. lia.
    + cbn [length]. change (2 ^ 32) with 4294967296. lia.
    + cbn [write_samples] in E. destruct (write_sample (allocated junk 1 16) 16 0 (pack_vector3_u48 constant)) as [d | |]; cbn [bindo] in E; try discriminate. injection E as ->. cbn [bindo].
      eexists. split; [reflexivity |]. constructor; cbn [ts_rate ts_sample_size ts_packed_size]; try reflexivity; [split; [exact B | split; [cbn [ts_num_samples ts_sample_size ts_data]; rewrite L; unfold allocated; rewrite JL; lia | reflexivity]] |].
      intros k r l range _ _. unfold variable_stored, stream_sample. cbn [ts_rate]. subst rate. change (0 =? 255) with false. change (0 =? 0) with true. cbv iota. cbn [s_bits s_vals ts_num_samples ts_sample_size].
      split; [reflexivity |]. split; [apply (packed_words 16); [lia | apply C0; reflexivity] |]. split; [lia |]. split; [lia |]. apply sample_placed. cbn [ts_sample_size ts_data]. exact (H 0%nat _ eq_refl).
  - destruct (N.eqb_spec rate k_highest_bit_rate) as [RH | RH].
    + unfold k_highest_bit_rate in RH. subst rate. change (get_num_bits_at_bit_rate 24) with (Ok 32). cbn [bindo]. rewrite (proj2 (Nat.leb_le _ _) LL).
      destruct (write_vectors junk 16 3 (firstn (length lossy) raw) J ltac:(lia) ltac:(lia)) as (data & E & B & L & H).
      { apply Forall_first. eapply Forall_impl; [| exact FR]. cbv beta. intros v ->. change (N.to_nat 3) with 3%nat. lia. }
      { rewrite firstn_length, Nat.min_l by exact LL. exact SM. }
      rewrite firstn_length, Nat.min_l in E, L by exact LL. change (N.to_nat 3) with 3%nat in E. rewrite E. cbn [bindo]. eexists. split; [reflexivity |].
      constructor; cbn [ts_rate ts_sample_size ts_packed_size]; try reflexivity; [split; [exact B | split; [exact L | exact SM]] |].
      intros k r l range ER EL. assert (K : (N.to_nat k < length lossy)%nat) by (apply nth_error_Some; congruence). unfold variable_stored, stream_sample. cbn [ts_rate]. change (24 =? 255) with false. change (24 =? 0) with false. change (24 =? 24) with true. cbv iota. cbn [s_bits s_vals ts_num_samples ts_sample_size].
      split; [reflexivity |]. split; [apply lanes_words; rewrite Forall_forall in FR; rewrite (FR r) by (eapply nth_error_In; exact ER); change (N.to_nat 3) with 3%nat; lia |].
      split; [lia |]. split; [lia |]. apply sample_placed. cbn [ts_sample_size ts_data]. apply H. rewrite nth_error_firstn by exact K. exact ER.
    + unfold k_highest_bit_rate in RH. destruct (rate_bits rate R24 RH) as [G1 G2]. rewrite G1. cbn [bindo]. specialize (FL R0 RH). assert (Hn : 1 <= rate <= 23) by lia.
      destruct (J (N.of_nat (length lossy) * 16 + 15)) as [JB JL].
      destruct (write_samples_ok 16 (map (pack_vector3 rate) lossy) (map (fun v d => fields_at d 0 rate (packed_lanes rate v)) lossy)) with (data := allocated junk (N.of_nat (length lossy)) 16) (k := 0) as (data & E & B & L & _ & H).
      * lia.
      * apply Forall2_map_in. intros v Hv. rewrite Forall_forall in FL. apply packed_writes; [exact Hn | apply FL, Hv].
      * exact JB.
      * rewrite map_length, N.add_0_l. unfold allocated. rewrite JL. apply N.le_refl.
      * rewrite map_length, N.add_0_l. exact SM.
      * rewrite E. cbn [bindo]. eexists. split; [reflexivity |].
        constructor; cbn [ts_rate ts_sample_size ts_packed_size]; try reflexivity; [split; [exact B | split; [cbn [ts_num_samples ts_sample_size ts_data]; rewrite L; unfold allocated; rewrite JL; apply N.le_refl | exact SM]] |].
        intros k r l range ER EL. assert (K : (N.to_nat k < length lossy)%nat) by (apply nth_error_Some; congruence). unfold variable_stored, stream_sample. cbn [ts_rate].
        rewrite (proj2 (N.eqb_neq rate 255)), (proj2 (N.eqb_neq rate 0)), (proj2 (N.eqb_neq rate 24)) by lia. cbn [s_bits s_vals ts_num_samples ts_sample_size ts_data].
        split; [exact Hn |]. split; [exact G2 |]. split; [apply packed_words; [exact Hn |]; rewrite Forall_forall in FL; apply FL; eapply nth_error_In; exact EL |]. split; [lia |]. split; [lia |].
        specialize (H (N.to_nat k) (fun d => fields_at d 0 rate (packed_lanes rate l))). rewrite N.add_0_l, N2Nat.id in H.
        refine (fields_at_shift _ _ 0 _ _ _ _ (H _)); [| exact (map_nth_error (fun v d => fields_at d 0 rate (packed_lanes rate v)) _ _ EL)].
        intros j _. rewrite mbit_skipn. f_equal. lia.
Qed.
