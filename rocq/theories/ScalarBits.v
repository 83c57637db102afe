(** Writing bit fields one after the other in the middle of a buffer; the animated values of scalar tracks. *)
From Verif Require Import Word WordFacts MemoryUtils MemoryFacts Packing PackSpec PackingFacts Pieces ByteFacts Float32 Interp ScalarEnc LayoutBuild.
From Coq Require Import Lia ZifyBool ZifyN ZifyNat.
Ltac Zify.zify_post_hook ::= idtac.
Local Open Scope N_scope.

Lemma bytes_ok_app_inv (a b : list N) : bytes_ok (a ++ b) -> bytes_ok a /\ bytes_ok b.
Proof. unfold bytes_ok. rewrite Forall_app. auto. Qed.
Lemma bytes_eq a b : bytes_ok a -> bytes_ok b -> length a = length b -> (forall i, i < 8 * blen a -> mbit a i = mbit b i) -> a = b.
Proof.
  intros A B L H. apply (nth_ext a b 0 0 L). intros n Hn. rewrite <- (Nat2N.id n). apply mbit_bytes; auto.
  intros j Hj. apply H. unfold blen. lia.
Qed.

Lemma changed_mid a z c m' p n : bytes_ok (a ++ z ++ c) -> only_changed (a ++ z ++ c) m' (8 * blen a + p) n -> p + n <= 8 * blen z ->
  exists z', m' = a ++ z' ++ c /\ only_changed z z' p n.
Proof.
  intros B (L & B' & S) Hp. rewrite !app_length in L.
  set (x := firstn (length a) m'). set (y := skipn (length a) m'). set (z' := firstn (length z) y). set (w := skipn (length z) y).
  assert (E : m' = x ++ z' ++ w) by (subst x y z' w; rewrite !firstn_skipn; reflexivity).
  assert (Lx : length x = length a) by (subst x; rewrite firstn_length; lia).
  assert (Ly : length y = (length z + length c)%nat) by (subst y; rewrite skipn_length; lia).
  assert (Lz : length z' = length z) by (subst z'; rewrite firstn_length; lia).
  assert (Lw : length w = length c) by (subst w; rewrite skipn_length; lia).
  clearbody x y z' w. subst m'. apply bytes_ok_app_inv in B'. destruct B' as [Bx B']. apply bytes_ok_app_inv in B'. destruct B' as [Bz Bw].
  apply bytes_ok_app_inv in B. destruct B as [Ba B]. apply bytes_ok_app_inv in B. destruct B as [Bz0 Bc].
  assert (blen x = blen a) as Hx by (unfold blen; lia). assert (blen z' = blen z) as Hz by (unfold blen; lia).
  assert (x = a) as ->.
  { apply bytes_eq; auto. intros i Hi. rewrite Hx in Hi. assert (I : i < 8 * blen a + p) by lia. specialize (S i (or_introl I)).
    rewrite !mbit_app_l in S by (try rewrite Hx; lia). exact S. }
  assert (w = c) as ->.
  { apply bytes_eq; auto. intros i Hi. assert (I : 8 * blen a + p + n <= 8 * blen a + (8 * blen z + i)) by lia. specialize (S _ (or_intror I)).
    rewrite !(mbit_app_r a) in S by lia. replace (8 * blen a + (8 * blen z + i) - 8 * blen a) with (8 * blen z + i) in S by lia.
    rewrite !mbit_app_r in S by lia. rewrite Hz in S. replace (8 * blen z + i - 8 * blen z) with i in S by lia. exact S. }
  exists z'. split; [reflexivity|]. split; [exact Lz|]. split; [exact Bz|]. intros i Hi.
  destruct (N.lt_ge_cases i (8 * blen z)) as [I|I].
  - specialize (S (8 * blen a + i)). rewrite !(mbit_app_r a) in S by lia. replace (8 * blen a + i - 8 * blen a) with i in S by lia.
    rewrite !mbit_app_l in S by lia. apply S. lia.
  - unfold mbit. rewrite !nth_overflow; [reflexivity | |]; unfold blen in *.
    + assert (8 * N.of_nat (length z) / 8 <= i / 8) as Q by (apply N.div_le_mono; lia).
      rewrite N.mul_comm, N.div_mul in Q by discriminate. lia.
    + assert (8 * N.of_nat (length z) / 8 <= i / 8) as Q by (apply N.div_le_mono; lia).
      rewrite N.mul_comm, N.div_mul in Q by discriminate. lia.
Qed.

(** consecutive fields of any widths *)
Fixpoint fields_seq (m : list N) (p : N) (fs : list (N * N)) : Prop :=
  match fs with [] => True | (n, v) :: r => field_at m p n v /\ fields_seq m (p + n) r end.
Definition bits_of (fs : list (N * N)) : N := sum_n (map fst fs).
Definition field_ok (f : N * N) : Prop := 1 <= fst f <= 32 /\ snd f < 2 ^ fst f.

Fixpoint emit_fields (m : list N) (pos : N) (fs : list (N * N)) : outcome (list N) :=
  match fs with [] => Ok m | (n, v) :: r => bindo (write_component m pos n v) (fun m => emit_fields m (pos + n) r) end.

Lemma bits_of_app a b : bits_of (a ++ b) = bits_of a + bits_of b.
Proof. unfold bits_of. rewrite map_app, sum_n_app. reflexivity. Qed.
Lemma fields_seq_app m a : forall p b, fields_seq m p (a ++ b) <-> fields_seq m p a /\ fields_seq m (p + bits_of a) b.
Proof.
  induction a as [|[n v] a IH]; intros p b; cbn [app fields_seq].
  - change (bits_of []) with 0. rewrite N.add_0_r. tauto.
  - rewrite IH. unfold bits_of. cbn [map fst sum_n]. rewrite N.add_assoc. tauto.
Qed.
Lemma fields_seq_at m n vs : forall p, fields_seq m p (map (fun v => (n, v)) vs) -> fields_at m p n vs.
Proof. induction vs as [|v vs IH]; intros p H; [exact I|]. cbn [map fields_seq] in H. destruct H as [A B]. split; [exact A | apply IH, B]. Qed.
Lemma fields_seq_ext m m' fs : forall p, (forall i, p <= i < p + bits_of fs -> mbit m i = mbit m' i) -> fields_seq m p fs -> fields_seq m' p fs.
Proof.
  induction fs as [|[n v] fs IH]; intros p H F; [exact I|]. cbn [fields_seq] in *. destruct F as [F1 F2].
  assert (B : bits_of ((n, v) :: fs) = n + bits_of fs) by reflexivity. rewrite B in H. split.
  - eapply field_at_ext; [|exact F1]. intros i Hi. apply H. lia.
  - eapply IH; [|exact F2]. intros i Hi. apply H. lia.
Qed.
Lemma emit_fields_app fs : forall m p gs, emit_fields m p (fs ++ gs) = bindo (emit_fields m p fs) (fun m => emit_fields m (p + bits_of fs) gs).
Proof.
  induction fs as [|[n v] fs IH]; intros m p gs; cbn [app emit_fields].
  - cbn [bindo]. change (bits_of []) with 0. rewrite N.add_0_r. reflexivity.
  - assert (B : bits_of ((n, v) :: fs) = n + bits_of fs) by reflexivity. rewrite B, N.add_assoc.
    destruct (write_component m p n v); cbn [bindo]; [apply IH|reflexivity|reflexivity].
Qed.

Lemma emit_fields_spec a c fs : forall z p, bytes_ok (a ++ z ++ c) -> Forall field_ok fs -> p + bits_of fs <= 8 * blen z ->
  exists z', emit_fields (a ++ z ++ c) (8 * blen a + p) fs = Ok (a ++ z' ++ c) /\ only_changed z z' p (bits_of fs) /\ fields_seq z' p fs.
Proof.
  induction fs as [|[n v] fs IH]; intros z p B F L; cbn [emit_fields].
  - exists z. split; [reflexivity|]. split; [|exact I]. split; [reflexivity|]. split; [|auto].
    apply bytes_ok_app_inv in B. destruct B as [_ B]. apply bytes_ok_app_inv in B. apply B.
  - inversion F as [|? ? [F1 F1'] F2]; subst. cbn [fst snd] in *. assert (BB : bits_of ((n, v) :: fs) = n + bits_of fs) by reflexivity. rewrite BB in *.
    destruct (write_component_spec (a ++ z ++ c) (8 * blen a + p) n v B F1 F1') as (m1 & E1 & O1 & G1); [rewrite !blen_app; lia|].
    rewrite E1. cbn [bindo]. pose proof O1 as (_ & B1 & _).
    destruct (changed_mid a z c m1 p n B O1 ltac:(lia)) as (z1 & -> & C1).
    destruct (IH z1 (p + n) B1 F2) as (z2 & E2 & C2 & G2). { destruct C1 as (L1 & _). unfold blen in *. lia. }
    exists z2. rewrite N.add_assoc in E2. split; [exact E2|].
    destruct C1 as (L1 & B1z & S1), C2 as (L2 & B2z & S2). split; [|split; [|exact G2]].
    + split; [congruence|]. split; [exact B2z|]. intros i Hi. rewrite S2 by lia. apply S1. lia.
    + intros j Hj. rewrite S2 by lia. specialize (G1 j Hj). rewrite <- N.add_assoc in G1.
      rewrite (mbit_app_r a) in G1 by lia. replace (8 * blen a + (p + j) - 8 * blen a) with (p + j) in G1 by lia.
      rewrite mbit_app_l in G1; [exact G1|]. unfold blen in *. lia.
Qed.

(** the value of a component, as an integer *)
Definition component_value (raw : bool) (x : f32) : N := if raw then f_bits x else match f_to_u32 x with Ok v => v | _ => 0 end.
Definition component_ok (raw : bool) (nb : N) (x : f32) : Prop :=
  if raw then nb = 32 /\ f_bits x < 2 ^ 32 else exists v, f_to_u32 x = Ok v /\ v < 2 ^ nb.

Lemma raw_component m p x : f_bits x < 2 ^ 32 -> write_raw_component m p (f_bits x) = write_component m p 32 (f_bits x).
Proof.
  intros H. unfold write_component, write_raw_component, scalar_be_bytes. change (subw 32 32 32) with 0. rewrite shl32c_ok by reflexivity. cbn [bindo].
  rewrite shlw32_0 by exact H. reflexivity.
Qed.

Lemma put_components_none raw nb base xs : forall off, put_components raw nb base xs None off = Ok (None, off + nb * N.of_nat (length xs)).
Proof.
  induction xs as [|x xs IH]; intros off; cbn [put_components put_component bindo length]; [do 2 f_equal; lia|]. rewrite IH. do 2 f_equal. lia.
Qed.
Lemma put_components_some raw nb base xs : Forall (component_ok raw nb) xs -> forall m off,
  put_components raw nb base xs (Some m) off =
  bindo (emit_fields m (8 * base + off) (map (fun x => (nb, component_value raw x)) xs)) (fun m' => Ok (Some m', off + nb * N.of_nat (length xs))).
Proof.
  induction 1 as [|x xs X F IH]; intros m off; cbn [put_components put_component map emit_fields length].
  - cbn [bindo]. do 2 f_equal. lia.
  - assert (E : (if raw then bindo (write_raw_component m (8 * base + off) (f_bits x)) (fun m' => Ok (Some m'))
       else bindo (f_to_u32 x) (fun v => bindo (write_component m (8 * base + off) nb v) (fun m' => Ok (Some m'))))
       = bindo (write_component m (8 * base + off) nb (component_value raw x)) (fun m' => Ok (Some m'))).
    { unfold component_ok, component_value in *. destruct raw.
      - destruct X as [-> X]. rewrite raw_component by exact X. reflexivity.
      - destruct X as (v & -> & _). cbn [bindo]. reflexivity. }
    rewrite E. destruct (write_component m (8 * base + off) nb (component_value raw x)) as [m1| |]; cbn [bindo]; [|reflexivity|reflexivity].
    rewrite IH, N.add_assoc. destruct (emit_fields m1 _ _); cbn [bindo]; [|reflexivity|reflexivity]. do 2 f_equal. lia.
Qed.

(** * One frame, all the frames *)
Definition source (t : ctrack) : list (list f32) := if is_raw_bit_rate (ct_bit_rate t) then ct_ref t else ct_mut t.
Definition track_bits (nc : nat) (t : ctrack) : N := if ct_constant t then 0 else num_bits_at (ct_bit_rate t) * N.of_nat nc.
Definition frame_bits (nc : nat) (ts : list ctrack) : N := sum_n (map (track_bits nc) ts).
Definition track_fields (nc : nat) (k : nat) (t : ctrack) : list (N * N) :=
  if ct_constant t then []
  else map (fun x => (num_bits_at (ct_bit_rate t), component_value (is_raw_bit_rate (ct_bit_rate t)) x)) (firstn nc (nth k (source t) [])).
Definition frame_fields (nc k : nat) (ts : list ctrack) : list (N * N) := concat (map (track_fields nc k) ts).
Definition all_fields (nc : nat) (k count : nat) (ts : list ctrack) : list (N * N) := concat (map (fun k => frame_fields nc k ts) (seq k count)).

(** what is needed to write frame k of a track *)
Definition frame_ok (nc k : nat) (t : ctrack) : Prop :=
  ct_constant t = false -> (1 <= ct_bit_rate t <= 24)%nat /\
  exists s, nth_error (source t) k = Some s /\ (nc <= length s)%nat /\
    Forall (component_ok (is_raw_bit_rate (ct_bit_rate t)) (num_bits_at (ct_bit_rate t))) (firstn nc s).

Lemma num_bits_range r : (1 <= r <= 24)%nat -> 1 <= num_bits_at r <= 32.
Proof.
  intros R. assert (F : forallb (fun r => (1 <=? num_bits_at r) && (num_bits_at r <=? 32)) (seq 1 24) = true) by reflexivity.
  rewrite forallb_forall in F. specialize (F r (proj2 (in_seq 24 1 r) ltac:(lia))). lia.
Qed.
Lemma track_fields_bits nc k t : frame_ok nc k t -> bits_of (track_fields nc k t) = track_bits nc t /\ Forall field_ok (track_fields nc k t).
Proof.
  intros F. unfold track_fields, track_bits. destruct (ct_constant t) eqn:C; [split; [reflexivity|constructor]|].
  destruct (F C) as (R & s & E & L & G). rewrite (nth_error_nth _ _ _ E).
  assert (LL : length (firstn nc s) = nc) by (rewrite firstn_length; lia). set (l := firstn nc s) in *. set (nb := num_bits_at (ct_bit_rate t)) in *.
  assert (NB : 1 <= nb <= 32).
  { apply num_bits_range. exact R. }
  split.
  - unfold bits_of. rewrite map_map. cbn [fst]. rewrite <- LL. clear. induction l as [|x l IH]; cbn [map sum_n length]; lia.
  - rewrite Forall_map. eapply Forall_impl; [|exact G]. intros x X. unfold field_ok. cbn [fst snd]. split; [exact NB|].
    unfold component_ok, component_value in *. destruct (is_raw_bit_rate (ct_bit_rate t)).
    + destruct X as [-> X]. exact X.
    + destruct X as (v & -> & X). exact X.
Qed.
Lemma frame_fields_bits nc k ts : Forall (frame_ok nc k) ts -> bits_of (frame_fields nc k ts) = frame_bits nc ts /\ Forall field_ok (frame_fields nc k ts).
Proof.
  induction 1 as [|t ts T F IH]; [split; [reflexivity|constructor]|]. unfold frame_fields, frame_bits in *. cbn [map concat sum_n].
  destruct (track_fields_bits nc k t T) as [A B], IH as [C D]. split; [rewrite bits_of_app; lia|]. apply Forall_app. auto.
Qed.
Definition frames_ok (nc k count : nat) (ts : list ctrack) : Prop := forall j, (k <= j < k + count)%nat -> Forall (frame_ok nc j) ts.
Lemma all_fields_bits nc ts : forall count k, frames_ok nc k count ts ->
  bits_of (all_fields nc k count ts) = frame_bits nc ts * N.of_nat count /\ Forall field_ok (all_fields nc k count ts).
Proof.
  induction count as [|count IH]; intros k F; unfold all_fields in *; cbn [seq map concat].
  - split; [change (bits_of []) with 0; lia | constructor].
  - destruct (frame_fields_bits nc k ts (F k ltac:(lia))) as [A B].
    destruct (IH (S k)) as [C D]; [intros j Hj; apply F; lia|]. split; [rewrite bits_of_app, C; lia|]. apply Forall_app. auto.
Qed.

Lemma put_frame_spec nc base k ts : Forall (frame_ok nc k) ts -> forall buf off,
  put_frame nc base k ts buf off =
  match buf with
  | None => Ok (None, off + frame_bits nc ts)
  | Some m => bindo (emit_fields m (8 * base + off) (frame_fields nc k ts)) (fun m => Ok (Some m, off + frame_bits nc ts))
  end.
Proof.
  induction 1 as [|t ts T F IH]; intros buf off; cbn [put_frame].
  - change (frame_bits nc []) with 0. rewrite N.add_0_r. destruct buf; reflexivity.
  - assert (FB : frame_bits nc (t :: ts) = track_bits nc t + frame_bits nc ts) by reflexivity.
    assert (FF : frame_fields nc k (t :: ts) = track_fields nc k t ++ frame_fields nc k ts) by reflexivity.
    rewrite FB, FF. pose proof (track_fields_bits nc k t T) as [TB _]. unfold frame_ok in T. unfold track_bits, track_fields in *. destruct (ct_constant t) eqn:C.
    + rewrite IH. cbn [app]. rewrite N.add_0_l. reflexivity.
    + destruct (T eq_refl) as (R & s & E & L & G). unfold source in *. set (raw := is_raw_bit_rate (ct_bit_rate t)) in *. rewrite E.
      rewrite (nth_error_nth _ _ _ E) in *.
      assert (LL : length (firstn nc s) = nc) by (rewrite firstn_length; lia).
      destruct buf as [m|].
      * rewrite put_components_some by exact G. rewrite emit_fields_app, TB, LL.
        destruct (emit_fields m (8 * base + off) _) as [m1| |]; cbn [bindo]; [|reflexivity|reflexivity].
        rewrite IH, !N.add_assoc. reflexivity.
      * rewrite put_components_none. cbn [bindo]. rewrite IH, LL. do 2 f_equal. lia.
Qed.
Lemma put_frames_spec nc base ts : forall count k buf off, frames_ok nc k count ts ->
  put_frames nc base k count ts buf off =
  match buf with
  | None => Ok (None, off + frame_bits nc ts * N.of_nat count)
  | Some m => bindo (emit_fields m (8 * base + off) (all_fields nc k count ts)) (fun m => Ok (Some m, off + frame_bits nc ts * N.of_nat count))
  end.
Proof.
  induction count as [|count IH]; intros k buf off F; cbn [put_frames].
  - change (N.of_nat 0) with 0. rewrite N.mul_0_r, N.add_0_r. destruct buf; reflexivity.
  - rewrite put_frame_spec by (apply F; lia). assert (F' : frames_ok nc (S k) count ts) by (intros j Hj; apply F; lia).
    destruct (frame_fields_bits nc k ts (F k ltac:(lia))) as [A _].
    replace (off + frame_bits nc ts * N.of_nat (S count)) with (off + frame_bits nc ts + frame_bits nc ts * N.of_nat count) by lia.
    destruct buf as [m|]; cbn [bindo].
    + change (all_fields nc k (S count) ts) with (frame_fields nc k ts ++ all_fields nc (S k) count ts). rewrite emit_fields_app, A.
      destruct (emit_fields m _ _) as [m1| |]; cbn [bindo]; [|reflexivity|reflexivity]. rewrite (IH _ _ _ F'), N.add_assoc. reflexivity.
    + rewrite (IH _ _ _ F'). reflexivity.
Qed.

(** reading the fields of track i of frame k *)
Lemma all_fields_frame z nc ts : forall count k p j, fields_seq z p (all_fields nc k count ts) -> frames_ok nc k count ts -> (j < count)%nat ->
  fields_seq z (p + frame_bits nc ts * N.of_nat j) (frame_fields nc (k + j) ts).
Proof.
  induction count as [|count IH]; intros k p j S F Hj; [lia|].
  change (all_fields nc k (Datatypes.S count) ts) with (frame_fields nc k ts ++ all_fields nc (Datatypes.S k) count ts) in S.
  apply fields_seq_app in S. destruct S as [S1 S2]. destruct (frame_fields_bits nc k ts (F k ltac:(lia))) as [A _]. rewrite A in S2.
  destruct j as [|j]; [rewrite Nat.add_0_r; change (N.of_nat 0) with 0; rewrite N.mul_0_r, N.add_0_r; exact S1|].
  replace (k + Datatypes.S j)%nat with (Datatypes.S k + j)%nat by lia.
  replace (p + frame_bits nc ts * N.of_nat (Datatypes.S j)) with (p + frame_bits nc ts + frame_bits nc ts * N.of_nat j) by lia.
  apply IH; auto; [|lia]. intros i Hi. apply F. lia.
Qed.
Lemma frame_fields_track z nc k : forall ts p i t, fields_seq z p (frame_fields nc k ts) -> Forall (frame_ok nc k) ts -> nth_error ts i = Some t ->
  fields_seq z (p + frame_bits nc (firstn i ts)) (track_fields nc k t).
Proof.
  induction ts as [|t0 ts IH]; intros p i t S F E; [destruct i; discriminate E|]. inversion F as [|? ? F1 F2]; subst.
  change (frame_fields nc k (t0 :: ts)) with (track_fields nc k t0 ++ frame_fields nc k ts) in S. apply fields_seq_app in S. destruct S as [S1 S2].
  destruct (track_fields_bits nc k t0 F1) as [A _]. rewrite A in S2. destruct i as [|i]; cbn [nth_error] in E.
  - injection E as <-. cbn [firstn]. change (frame_bits nc []) with 0. rewrite N.add_0_r. exact S1.
  - cbn [firstn]. change (frame_bits nc (t0 :: firstn i ts)) with (track_bits nc t0 + frame_bits nc (firstn i ts)). rewrite N.add_assoc. apply IH; assumption.
Qed.
