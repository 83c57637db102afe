(** The animated sub-tracks are read back from their layout. *)
From Coq Require Import Lia.
From Verif Require Import Word WordFacts Pieces Float32 Quant Interp Packing PackSpec PackingFacts DbBuild ScalarDec SubTracks SubTracksFacts
  TransDec TransSpec TransRing TransMem TransConst TransFloat.
Local Open Scope N_scope.
Ltac Zify.zify_post_hook ::= idtac.

Ltac eqbs := change (0 =? 0) with true; change (0 =? 32) with false; change (32 =? 32) with true; change (32 =? 0) with false; cbn [orb]; cbv iota.

(** ** One sample of the bit stream *)
Lemma div8_le a b c : a + 8 * b <= 8 * c -> a / 8 + b <= c.
Proof.
  intros H. pose proof (N.mul_div_le a 8 ltac:(lia)) as M. set (q := a / 8) in *. clearbody q. lia.
Qed.
Lemma unpack_raw_ok nc data bit vals : bytes_ok data -> in_words 32 (N.of_nat nc) vals -> (nc = 3 \/ nc = 4)%nat ->
  fields_at data bit 32 vals -> bit + 32 * len vals + 120 <= 8 * blen data ->
  unpack_sample nc 32 data bit = Ok (map f_of_bits vals).
Proof.
  intros Hd [Hl Hv] Hnc F B. unfold unpack_sample. cbn [N.eqb Pos.eqb].
  rewrite (unpack_32_fields nc data bit vals); [reflexivity | assumption | | lia | assumption | assumption].
  intros _. unfold len in B. rewrite <- N.add_assoc. apply div8_le. lia.
Qed.
Lemma unpack_bits_ok n data bit vals : bytes_ok data -> 1 <= n <= 23 -> in_words n 3 vals ->
  fields_at data bit n vals -> bit + n * len vals + 120 <= 8 * blen data -> bit + n * len vals < 2 ^ 32 ->
  unpack_sample 3 n data bit = Ok (map (unit_value n) vals).
Proof.
  intros Hd Hn [Hl Hv] F B Hw. unfold unpack_sample. destruct (N.eqb_spec n 32); [lia |]. unfold len in *. rewrite Hl in *.
  rewrite (unpack_uXX_fields 3 n data bit vals); [reflexivity | assumption | assumption | exact Hw | | lia | assumption | assumption].
  intros _. apply div8_le. change (N.of_nat 3 - 1) with 2. lia.
Qed.

(** the samples of a key frame from some bit on *)
Record stream (data : list N) (bit : N) (l : list stored) : Prop := {
  st_bytes : bytes_ok data;
  st_at : stored_at data bit l;
  st_word : bit + stored_sizes l < 2 ^ 32;
  st_pad : bit + stored_sizes l + 120 <= 8 * blen data
}.
Lemma stored_sizes_app a b : stored_sizes (a ++ b) = stored_sizes a + stored_sizes b.
Proof. induction a as [| s a IH]; [reflexivity |]. cbn [app stored_sizes fold_right]. fold (stored_sizes (a ++ b)) (stored_sizes a). rewrite IH. lia. Qed.
Lemma stored_sizes_cons s l : stored_sizes (s :: l) = stored_size s + stored_sizes l.
Proof. reflexivity. Qed.
Lemma stream_cons data bit s l : stream data bit (s :: l) ->
  fields_at data bit (s_bits s) (s_vals s) /\ bit + stored_size s + 120 <= 8 * blen data /\ bit + stored_size s < 2 ^ 32 /\ stream data (bit + stored_size s) l.
Proof.
  intros [A [B1 B2] C D]. rewrite stored_sizes_cons in *. repeat split; auto; lia.
Qed.
Lemma stream_rest data a : forall bit b, stream data bit (a ++ b) -> stream data (bit + stored_sizes a) b.
Proof.
  induction a as [| s a IH]; intros bit b H; cbn [app] in H.
  - unfold stored_sizes. cbn. rewrite N.add_0_r. exact H.
  - apply stream_cons in H as (_ & _ & _ & H). apply IH in H. rewrite stored_sizes_cons, N.add_assoc. exact H.
Qed.
Lemma stream_first data a : forall bit b, stream data bit (a ++ b) -> stream data bit a.
Proof.
  intros bit b [A B C D]. rewrite stored_sizes_app in *. constructor; auto; try lia.
  clear C D. revert bit B. induction a as [| s a IH]; intros bit B; [exact I |]. destruct B as [B1 B2]. split; [exact B1 |]. apply IH, B2.
Qed.

Definition is_raw (ncomp : N) (s : stored) : Prop := s_bits s = 32 /\ in_words 32 ncomp (s_vals s).

(** ** Rotations of a variable format: a group *)
Definition raw_lanes (s : stored) : list f32 :=
  if s_bits s =? 0 then map (unit_value 16) (s_vals s)
  else if s_bits s =? 32 then map f_of_bits (s_vals s) else map (unit_value (s_bits s)) (s_vals s).
Definition sample_of (s : stored) : usample :=
  {| u_lanes := raw_lanes s; u_ignore_segment := (s_bits s =? 0) || (s_bits s =? 32); u_ignore_clip := s_bits s =? 32 |}.

Definition range_rows (chunk : list stored) : list N := concat (map (fun c => pad4 (column 0 c (map rotation_range chunk))) (seq 0 6)).

Lemma pad4_length l : (length l <= 4)%nat -> length (pad4 l) = 4%nat.
Proof. intros H. unfold pad4. rewrite app_length, repeat_length. lia. Qed.
Lemma rows_nth (rows : list (list N)) : Forall (fun r => length r = 4%nat) rows -> forall r i, (r < length rows)%nat -> (i < 4)%nat ->
  nth_error (concat rows) (4 * r + i) = nth_error (nth r rows []) i.
Proof.
  induction 1 as [| row rows Hr _ IH]; intros r i Hl Hi; [cbn in Hl; lia |]. cbn [concat].
  destruct r as [| r].
  - rewrite nth_error_app1 by lia. reflexivity.
  - rewrite nth_error_app2 by lia. rewrite Hr. replace (4 * S r + i - 4)%nat with (4 * r + i)%nat by lia. apply IH; [cbn in Hl; lia | exact Hi].
Qed.
Lemma range_rows_length chunk : (length chunk <= 4)%nat -> length (range_rows chunk) = 24%nat.
Proof.
  intros H. unfold range_rows. cbn [seq map concat]. rewrite !app_length. rewrite !pad4_length by (rewrite column_length, map_length; exact H). reflexivity.
Qed.
Lemma range_rows_nth chunk r i s : (length chunk <= 4)%nat -> (r < 6)%nat -> nth_error chunk i = Some s ->
  nth_error (range_rows chunk) (4 * r + i) = Some (nth r (rotation_range s) 0).
Proof.
  intros H Hr Hs. assert (Hi : (i < length chunk)%nat) by (apply nth_error_Some; congruence).
  unfold range_rows. rewrite rows_nth; [| | rewrite map_length, seq_length; exact Hr | lia].
  - rewrite (nth_indep _ [] (pad4 (column 0 0 (map rotation_range chunk)))) by (rewrite map_length, seq_length; exact Hr).
    rewrite (map_nth (fun c => pad4 (column 0 c (map rotation_range chunk)))). rewrite seq_nth by exact Hr. rewrite Nat.add_0_l.
    unfold pad4. rewrite nth_error_app1 by (rewrite column_length, map_length; exact Hi).
    unfold column. rewrite !nth_error_map, Hs. reflexivity.
  - apply Forall_forall. intros row Hin. apply in_map_iff in Hin as (c & <- & _). apply pad4_length. rewrite column_length, map_length. exact H.
Qed.

Lemma hi_lo v : N.lor (N.shiftl (v / 256) 8) (v mod 256) = v.
Proof.
  apply N.bits_inj. intros i. change 256 with (2 ^ 8). rewrite <- N.shiftr_div_pow2, N.lor_spec.
  destruct (N.lt_ge_cases i 8).
  - rewrite N.shiftl_spec_low, N.mod_pow2_bits_low by assumption. reflexivity.
  - rewrite N.shiftl_spec_high', N.mod_pow2_bits_high, orb_false_r by assumption. rewrite N.shiftr_spec'. f_equal. lia.
Qed.

Section Group.
  Context (version : N) (hs : bool) (m data : list N).

  (** one sub-track of the group *)
  Lemma unpack_quat_ok chunk fmt range bit i s rest :
    (length chunk <= 4)%nat -> placed m fmt (pad4 (map (format_code version) chunk)) ->
    (hs = true -> placed m range (range_rows chunk)) -> nth_error chunk (N.to_nat i) = Some s -> stored_ok hs s ->
    stream data bit (s :: rest) ->
    unpack_quat version quatf_drop_w_variable m data fmt range bit i = Ok (sample_of s, bit + stored_size s).
  Proof.
    intros Hc Pf Pr Hs Ok_s St. apply stream_cons in St as (F & B & W & St). unfold unpack_quat.
    assert (Hi : (N.to_nat i < length chunk)%nat) by (apply nth_error_Some; congruence).
    rewrite (load8_placed m fmt _ i (format_code version s) Pf).
    2:{ unfold pad4. rewrite nth_error_app1 by (rewrite map_length; exact Hi). rewrite nth_error_map, Hs. reflexivity. }
    cbn [bindo]. unfold format_code, raw_bit_rate_bits, sample_of, raw_lanes, stored_size.
    destruct Ok_s as [Rg [(Z & Hhs & V3) | [(Bn & V3) | (Z & V3)]]].
    - rewrite Z. cbn [N.eqb Pos.eqb orb]. specialize (Pr Hhs).
      assert (Row : forall r, (r < 6)%nat -> load8 m (range + (4 * N.of_nat r + i)) = Ok (nth r (rotation_range s) 0)).
      { intros r Hr. apply (load8_placed m range (range_rows chunk)); [exact Pr |].
        replace (N.to_nat (4 * N.of_nat r + i)) with (4 * r + N.to_nat i)%nat by lia. apply range_rows_nth; assumption. }
      pose proof (in_words_len _ _ _ V3) as L3. change (N.to_nat 3) with 3%nat in L3.
      assert (Rr : rotation_range s = [nth 0 (s_vals s) 0 / 256; nth 0 (s_vals s) 0 mod 256; nth 1 (s_vals s) 0 / 256; nth 1 (s_vals s) 0 mod 256;
                                       nth 2 (s_vals s) 0 / 256; nth 2 (s_vals s) 0 mod 256]).
      { unfold rotation_range. rewrite Z. cbn [N.eqb]. rewrite (list3 0 (s_vals s) L3) at 1. reflexivity. }
      rewrite Rr in Row. unfold constant_component.
      replace (range + i + 0) with (range + (4 * N.of_nat 0 + i)) by lia. rewrite (Row 0%nat) by lia. cbn [bindo nth].
      replace (range + (4 * N.of_nat 0 + i) + 4) with (range + (4 * N.of_nat 1 + i)) by lia. rewrite (Row 1%nat) by lia. cbn [bindo nth].
      replace (range + i + 8) with (range + (4 * N.of_nat 2 + i)) by lia. rewrite (Row 2%nat) by lia. cbn [bindo nth].
      replace (range + (4 * N.of_nat 2 + i) + 4) with (range + (4 * N.of_nat 3 + i)) by lia. rewrite (Row 3%nat) by lia. cbn [bindo nth].
      replace (range + i + 16) with (range + (4 * N.of_nat 4 + i)) by lia. rewrite (Row 4%nat) by lia. cbn [bindo nth].
      replace (range + (4 * N.of_nat 4 + i) + 4) with (range + (4 * N.of_nat 5 + i)) by lia. rewrite (Row 5%nat) by lia. cbn [bindo nth].
      rewrite !hi_lo. rewrite (list3 0 (s_vals s) L3) at 4. cbn [map]. unfold unit_value. rewrite N.mul_0_l, N.add_0_r. reflexivity.
    - destruct (N.eqb_spec (s_bits s) 32); [lia |]. destruct (N.eqb_spec (s_bits s) 0); [lia |].
      assert (En : (s_bits s =? (if 9 <=? version then 31 else 32)) = false).
      { destruct (9 <=? version); apply N.eqb_neq; lia. }
      rewrite En. unfold stored_size in *. fold (len (s_vals s)) in *.
      rewrite (unpack_bits_ok (s_bits s) data bit (s_vals s)) by (assumption || (destruct St; assumption)). cbn [bindo orb].
      pose proof V3 as [L3 _]. unfold len in *. rewrite L3 in *. rewrite mulw_small by (change (2 ^ 32) with 4294967296 in *; lia).
      rewrite addw_small by exact W. reflexivity.
    - rewrite Z in *. change (32 =? 32) with true. change (32 =? 0) with false. cbv iota.
      set (code := if 9 <=? version then 31 else 32).
      assert (En : (code =? 0) = false) by (unfold code; destruct (9 <=? version); reflexivity).
      rewrite En, N.eqb_refl. unfold stored_size in *. rewrite Z in *. fold (len (s_vals s)) in *.
      rewrite (unpack_raw_ok 3 data bit (s_vals s)) by (assumption || (destruct St; assumption) || (left; reflexivity)). cbn [bindo orb].
      pose proof V3 as [L3 _]. unfold len in *. rewrite L3 in *. rewrite addw_small by exact W. reflexivity.
  Qed.

  Lemma unpack_quats_ok chunk fmt range : (length chunk <= 4)%nat -> placed m fmt (pad4 (map (format_code version) chunk)) ->
    (hs = true -> placed m range (range_rows chunk)) -> Forall (stored_ok hs) chunk ->
    forall l pre bit rest, chunk = pre ++ l -> stream data bit (l ++ rest) ->
    unpack_quats (length l) version quatf_drop_w_variable m data fmt range bit (len pre) = Ok (map sample_of l, bit + stored_sizes l).
  Proof.
    intros Hc Pf Pr Hok. induction l as [| s l IH]; intros pre bit rest E St.
    - cbn. rewrite N.add_0_r. reflexivity.
    - cbn [unpack_quats length map]. cbn [app] in St.
      assert (Hs : nth_error chunk (N.to_nat (len pre)) = Some s).
      { subst chunk. unfold len. rewrite Nnat.Nat2N.id, nth_error_app2, Nat.sub_diag by lia. reflexivity. }
      rewrite (unpack_quat_ok chunk fmt range bit (len pre) s (l ++ rest)); auto.
      2:{ rewrite Forall_forall in Hok. apply Hok. apply nth_error_In in Hs. exact Hs. }
      cbn [bindo]. apply stream_cons in St as (_ & _ & _ & St).
      replace (len pre + 1) with (len (pre ++ [s])) by (rewrite len_app; unfold len; cbn; lia).
      rewrite (IH (pre ++ [s]) _ rest); [| subst; rewrite <- app_assoc; reflexivity | exact St].
      cbn [bindo]. rewrite stored_sizes_cons, N.add_assoc. reflexivity.
  Qed.

  (** the segment ranges of the group *)
  Lemma segment_range_ok chunk range : (length chunk <= 4)%nat -> padded m range (range_rows chunk) ->
    exists rs, unpack_segment_range_data m range = Ok rs /\
      forall r i s, (r < 6)%nat -> nth_error chunk i = Some s -> nth (4 * r + i) rs f_zero = unit_value 8 (nth r (rotation_range s) 0).
  Proof.
    intros Hc [P B]. pose proof (range_rows_length chunk Hc) as L. unfold blen in B. rewrite L in B.
    assert (P1 : placed m range (firstn 16 (range_rows chunk))).
    { intros k b H. apply P. rewrite nth_error_firstn in H; [exact H |].
      assert (nth_error (firstn 16 (range_rows chunk)) k <> None) as Hn by congruence. apply nth_error_Some in Hn. rewrite firstn_length in Hn. lia. }
    assert (P2 : placed m (range + 16) (skipn 16 (range_rows chunk))).
    { intros k b H. rewrite nth_error_skipn in H. apply P in H. replace (N.to_nat (range + 16) + k)%nat with (N.to_nat range + (16 + k))%nat by lia. exact H. }
    unfold unpack_segment_range_data.
    destruct (load_bytes_placed m range (firstn 16 (range_rows chunk)) 16 P1) as (r1 & -> & L1).
    { rewrite firstn_length. lia. } { unfold blen. lia. }
    destruct r1; [| rewrite firstn_length, L in L1; cbn [length] in L1; lia]. cbn [bindo].
    destruct (load_bytes_placed m (range + 16) (skipn 16 (range_rows chunk)) 16 P2) as (r2 & -> & L2).
    { rewrite skipn_length. lia. } { unfold blen. lia. }
    cbn [bindo]. rewrite app_nil_r, app_assoc, firstn_skipn. eexists. split; [reflexivity |].
    intros r i s Hr Hs. pose proof (range_rows_nth chunk r i s Hc Hr Hs) as Hn.
    assert (Hlt : (4 * r + i < length (range_rows chunk))%nat) by (apply nth_error_Some; congruence).
    rewrite map_app, app_nth1 by (rewrite map_length; exact Hlt).
    rewrite (nth_indep _ f_zero (unit_value 8 0)) by (rewrite map_length; exact Hlt).
    unfold unit_value at 1. rewrite (map_nth (fun v => fmul (f_of_N v) (inv_max_value 8))).
    rewrite (nth_error_nth _ _ 0 Hn). reflexivity.
  Qed.

  (** the clip ranges of the group *)
  Lemma clip_range_ok (clips : list (list N)) at_ : (0 < length clips <= 4)%nat -> padded m at_ (soa_words 6 clips) -> Forall (in_words 32 6) clips ->
    exists rs, load_clip_range4 m at_ (len clips) = Ok rs /\
      forall r i cl, (r < 6)%nat -> nth_error clips i = Some cl -> lane i (nth r rs []) = clip_value cl r.
  Proof.
    intros Hc P Hw. unfold soa_words in P. cbn [seq map concat] in P. rewrite app_nil_r in P.
    assert (W : forall c, (c < 6)%nat -> Forall (fun v => v < 2 ^ 32) (column 0 c clips)) by (intros c Hlt; apply (column_words 32 6); [exact Hw | lia]).
    assert (L : forall c, (0 < length (column 0%N c clips) <= 4)%nat) by (intros c; rewrite column_length; exact Hc).
    assert (B : forall c, blen (word_bytes (column 0 c clips)) = 4 * len clips) by (intros c; rewrite word_bytes_blen, column_length; reflexivity).
    repeat match type of P with padded _ _ (_ ++ _) => let P0 := fresh "P0" in apply padded_app in P as [P0 P]; rewrite B in P end.
    unfold load_clip_range4.
    destruct (vector_load_words m _ _ P0 (W 0%nat ltac:(lia)) (L _)) as (r0 & E0 & _).
    destruct (vector_load_words m _ _ P1 (W 1%nat ltac:(lia)) (L _)) as (r1 & E1 & _).
    destruct (vector_load_words m _ _ P2 (W 2%nat ltac:(lia)) (L _)) as (r2 & E2 & _).
    destruct (vector_load_words m _ _ P3 (W 3%nat ltac:(lia)) (L _)) as (r3 & E3 & _).
    destruct (vector_load_words m _ _ P4 (W 4%nat ltac:(lia)) (L _)) as (r4 & E4 & _).
    destruct (vector_load_words m _ _ P (W 5%nat ltac:(lia)) (L _)) as (r5 & E5 & _).
    cbv zeta. set (n := len clips) in *.
    replace (at_ + 4 * n * 0) with at_ by lia. rewrite E0. cbn [bindo].
    replace (at_ + 4 * n * 1) with (at_ + 4 * n) by lia. rewrite E1. cbn [bindo].
    replace (at_ + 4 * n * 2) with (at_ + 4 * n + 4 * n) by lia. rewrite E2. cbn [bindo].
    replace (at_ + 4 * n * 3) with (at_ + 4 * n + 4 * n + 4 * n) by lia. rewrite E3. cbn [bindo].
    replace (at_ + 4 * n * 4) with (at_ + 4 * n + 4 * n + 4 * n + 4 * n) by lia. rewrite E4. cbn [bindo].
    replace (at_ + 4 * n * 5) with (at_ + 4 * n + 4 * n + 4 * n + 4 * n + 4 * n) by lia. rewrite E5. cbn [bindo].
    eexists. split; [reflexivity |]. intros r i cl Hr Hi.
    assert (Hlt : (i < length clips)%nat) by (apply nth_error_Some; congruence).
    assert (X : forall c r, lane i (map f_of_bits (column 0 c clips) ++ r) = clip_value cl c).
    { intros c rr. rewrite lane_app_l by (rewrite map_length, column_length; exact Hlt). rewrite lane_words by (rewrite column_length; exact Hlt).
      rewrite column_nth by exact Hlt. rewrite (nth_error_nth _ _ [] Hi). reflexivity. }
    destruct r as [| [| [| [| [| [| r]]]]]]; cbn [nth]; try apply X. lia.
  Qed.

  (** a lane: segment range, then clip range *)
  Lemma raw_lanes_length s : stored_ok hs s -> length (raw_lanes s) = 3%nat.
  Proof.
    intros [_ H]. unfold raw_lanes.
    assert (length (s_vals s) = 3)%nat.
    { destruct H as [(_ & _ & H) | [(_ & H) | (_ & H)]]; apply in_words_len in H; exact H. }
    destruct (s_bits s =? 0), (s_bits s =? 32); rewrite map_length; assumption.
  Qed.
  Lemma in_words_nth w n l k : in_words w n l -> (k < N.to_nat n)%nat -> nth k l 0 < 2 ^ w.
  Proof. intros [L F] H. rewrite Forall_forall in F. apply F, nth_In. lia. Qed.

  Lemma remap_lanes s cl (g : nat -> f32) (h : nat -> f32) : stored_ok hs s ->
    (hs = true -> forall r, (r < 6)%nat -> g r = unit_value 8 (nth r (rotation_range s) 0)) ->
    (forall r, (r < 6)%nat -> h r = clip_value cl r) ->
    let ign := (s_bits s =? 0) || (s_bits s =? 32) in
    let seg c := if hs then remap ign (lane c (raw_lanes s)) (g (3 + c)%nat) (g c) else lane c (raw_lanes s) in
    map (fun c => remap (s_bits s =? 32) (seg c) (h (3 + c)%nat) (h c)) [0; 1; 2]%nat = decoded_in_group hs s cl.
  Proof.
    intros Ok_s Hg Hh ign seg. unfold decoded_in_group, decoded.
    pose proof (raw_lanes_length s Ok_s) as L3.
    assert (Lane : forall (f : N -> f32) (v : list N) c, length v = 3%nat -> (c < 3)%nat -> lane c (map f v) = f (nth c v 0)).
    { intros f v c Hl Hc. unfold lane. rewrite (nth_indep _ f_zero (f 0)) by (rewrite map_length; lia). apply map_nth. }
    destruct Ok_s as [Rg [(Z & Hhs & V3) | [(Bn & V3) | (Z & V3)]]]; pose proof (in_words_len _ _ _ V3) as Lv; change (N.to_nat 3) with 3%nat in Lv.
    - rewrite Z. eqbs. apply map_ext_in. intros c Hc. assert (c < 3)%nat as Hc3 by (cbn in Hc; lia).
      unfold seg, ign, raw_lanes, normalized, remap. rewrite Hhs, Z. eqbs. rewrite !Hh by lia.
      rewrite (Lane (unit_value 16)) by assumption. rewrite mul_one_add_zero, unit16_positive_zero by (apply (in_words_nth 16 3); [exact V3 | exact Hc3]).
      reflexivity.
    - destruct (N.eqb_spec (s_bits s) 32) as [E | E]; [lia |]. apply map_ext_in. intros c Hc. assert (c < 3)%nat as Hc3 by (cbn in Hc; lia).
      unfold seg, ign, raw_lanes, normalized, remap, in_range.
      destruct (N.eqb_spec (s_bits s) 0) as [E0 | E0]; [lia |]. rewrite (proj2 (N.eqb_neq (s_bits s) 32) E). cbn [orb]. rewrite !Hh by lia.
      rewrite (Lane (unit_value (s_bits s))) by assumption.
      destruct hs; [| reflexivity]. rewrite !Hg by (reflexivity || lia). unfold rotation_range. rewrite (proj2 (N.eqb_neq (s_bits s) 0) E0). reflexivity.
    - rewrite Z. eqbs. rewrite (list3 0 (s_vals s) Lv) at 1. cbn [map].
      assert (Hl : forall c, (c < 3)%nat -> remap true (seg c) (h (3 + c)%nat) (h c) = no_negative_zero (f_of_bits (nth c (s_vals s) 0))).
      { intros c Hc. unfold seg, ign, raw_lanes, remap. rewrite Z. eqbs. rewrite (Lane f_of_bits) by assumption.
        destruct hs; rewrite !mul_one_add_zero, ?no_negative_zero_idem; reflexivity. }
      rewrite !Hl by lia. reflexivity.
  Qed.
End Group.
