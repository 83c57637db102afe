(** A concrete transform clip: it meets the hypotheses of the theorems (C27, C34-C36, C40-C42). *)
From Coq Require Import Lia Permutation Reals.
From Verif Require Import Prop_Float Word Float32 Float32Facts Quant Interp InterpFacts Headers PackSpec ScalarDec ScalarExamples TransMeta TransMetaSpec TransDec TransSpec TransRing TransMem TransEnc TransEncSpec TransEncAnim2 TransEncBytes TransEncBytes2 TransEncBytes3
  TransClipSpec TransFile TransFileSizes TransFileFacts TransFilePack TransFilePlay Strip Segment SeekSpec TransSeek TransPlaySpec TransTop.
Import ListNotations.
Local Open Scope N_scope.

(** * Deciding that streams contain a track *)
Definition in_words_b (w n : N) (l : list N) : bool := (N.of_nat (length l) =? n) && forallb (fun v => v <? 2 ^ w) l.
Lemma in_words_ok w n l : in_words_b w n l = true -> in_words w n l.
Proof. unfold in_words_b. intros H. apply andb_prop in H as [A B]. split; [apply N.eqb_eq, A |]. apply Forall_forall. intros x I. apply N.ltb_lt. exact (proj1 (forallb_forall _ _) B x I). Qed.
Definition placed_b (m : list N) (off : N) (l : list N) : bool := if list_eq_dec N.eq_dec (firstn (length l) (skipn (N.to_nat off) m)) l then true else false.
Lemma placed_ok m off l : placed_b m off l = true -> placed m off l.
Proof.
  unfold placed_b. destruct (list_eq_dec _ _ _) as [E |]; [intros _ | discriminate]. intros k b H. assert (K : (k < length l)%nat) by (apply nth_error_Some; congruence).
  rewrite <- E in H. rewrite TransFileSegs.nth_error_firstn' in H by exact K. rewrite TransFileSegs.nth_error_skipn' in H. exact H.
Qed.
Definition field_b (m : list N) (p n v : N) : bool := forallb (fun j => Bool.eqb (mbit m (p + N.of_nat j)) (N.testbit v (n - 1 - N.of_nat j))) (seq 0 (N.to_nat n)).
Lemma field_ok m p n v : field_b m p n v = true -> field_at m p n v.
Proof.
  intros H j Hj. pose proof (proj1 (forallb_forall _ _) H (N.to_nat j)) as Q. cbv beta in Q. rewrite Nnat.N2Nat.id in Q. apply Bool.eqb_prop, Q. apply in_seq. lia.
Qed.
Fixpoint fields_b (m : list N) (p n : N) (vs : list N) : bool := match vs with [] => true | v :: t => field_b m p n v && fields_b m (p + n) n t end.
Lemma fields_ok m n : forall vs p, fields_b m p n vs = true -> fields_at m p n vs.
Proof. induction vs as [| v t IH]; intros p H; [exact I |]. cbn in H. apply andb_prop in H as [A B]. split; [apply field_ok, A | apply IH, B]. Qed.
Definition bytes_b (l : list N) : bool := forallb (fun b => b <? 256) l.
Lemma bytes_b_ok l : bytes_b l = true -> bytes_ok l.
Proof. intros H. apply Forall_forall. intros x I. apply N.ltb_lt. exact (proj1 (forallb_forall _ _) H x I). Qed.
Definition stream_b (t : tstream) : bool :=
  bytes_b (ts_data t) && (ts_num_samples t * ts_sample_size t + 15 <=? blen (ts_data t)) && (ts_num_samples t * ts_sample_size t <? 2 ^ 32).
Lemma stream_b_ok t : stream_b t = true -> stream_ok t.
Proof. unfold stream_b. intros H. apply andb_prop in H as [H C]. apply andb_prop in H as [A B]. split; [apply bytes_b_ok, A |]. split; [apply N.leb_le, B | apply N.ltb_lt, C]. Qed.
Definition sample_b (t : tstream) (k : N) (x : stored) : bool :=
  let at_ := fun bytes => placed_b (ts_data t) (k * ts_sample_size t) bytes in
  if ts_rate t =? 255 then
    (s_bits x =? 32) && in_words_b 32 (if ts_packed_size t =? 16 then 4 else 3) (s_vals x) && (k <? ts_num_samples t) && (ts_packed_size t <=? ts_sample_size t) &&
    ((ts_packed_size t =? 16) || (ts_packed_size t =? 12)) && at_ (word_bytes (s_vals x))
  else if ts_rate t =? 0 then
    (s_bits x =? 0) && in_words_b 16 3 (s_vals x) && (0 <? ts_num_samples t) && (16 <=? ts_sample_size t) && placed_b (ts_data t) 0 (concat (map (le_bytes 2) (s_vals x)))
  else if ts_rate t =? 24 then
    (s_bits x =? 32) && in_words_b 32 3 (s_vals x) && (k <? ts_num_samples t) && (16 <=? ts_sample_size t) && at_ (word_bytes (s_vals x))
  else
    (1 <=? s_bits x) && (s_bits x <=? 23) && (match nth_error k_bit_rate_num_bits (N.to_nat (ts_rate t)) with Some b => b =? s_bits x | None => false end) &&
    in_words_b (s_bits x) 3 (s_vals x) && (k <? ts_num_samples t) && (16 <=? ts_sample_size t) && fields_b (ts_data t) (8 * (k * ts_sample_size t)) (s_bits x) (s_vals x).
Lemma sample_b_ok t k x : sample_b t k x = true -> stream_sample t k x.
Proof.
  unfold sample_b, stream_sample. cbv zeta. destruct (ts_rate t =? 255); [| destruct (ts_rate t =? 0); [| destruct (ts_rate t =? 24)]]; intros H;
    repeat match goal with H : _ && _ = true |- _ => apply andb_prop in H as [H ?] end;
    repeat match goal with
    | H : _ =? _ = true |- _ => apply N.eqb_eq in H
    | H : _ <? _ = true |- _ => apply N.ltb_lt in H
    | H : _ <=? _ = true |- _ => apply N.leb_le in H
    | H : in_words_b _ _ _ = true |- _ => apply in_words_ok in H
    | H : placed_b _ _ _ = true |- _ => apply placed_ok in H
    | H : fields_b _ _ _ _ = true |- _ => apply fields_ok in H
    | H : _ || _ = true |- _ => apply Bool.orb_true_iff in H; destruct H
    end; repeat match goal with |- _ /\ _ => split end; try assumption; auto.
  destruct (nth_error _ _); [| discriminate]. match goal with H : _ =? _ = true |- _ => apply N.eqb_eq in H; rewrite H end. reflexivity.
Qed.
Definition words_eqb (a b : list N) : bool := if list_eq_dec N.eq_dec a b then true else false.
Lemma words_eqb_ok a b : words_eqb a b = true -> a = b. Proof. unfold words_eqb. destruct (list_eq_dec _ _ _); [auto | discriminate]. Qed.
Definition packs_b (l : list f32) (r : list N) : bool := match pack_vector3_u24 l with Ok x => words_eqb x r | _ => false end.
Lemma packs_ok l r : packs_b l r = true -> pack_vector3_u24 l = Ok r.
Proof. unfold packs_b. destruct (pack_vector3_u24 l); try discriminate. intros H. f_equal. apply words_eqb_ok, H. Qed.
Definition channel_b (f : formats) (g n : N) (b : tbone) (c : content) (ch : channel) : bool :=
  let t := b_stream b ch in
  Bool.eqb (b_default b ch) (ct_default c ch) && Bool.eqb (b_constant b ch) (ct_constant c ch) && (negb (ct_default c ch) || ct_constant c ch) && (ts_packed_size t =? 4 * components f ch) &&
  (if ct_default c ch then true
   else if ct_constant c ch then
     stream_b t && (0 <? ts_num_samples t) && (ts_sample_size t =? 4 * components f ch) && in_words_b 32 (components f ch) (ct_words c ch) && placed_b (ts_data t) 0 (word_bytes (ct_words c ch))
   else
     Bool.eqb (is_bit_rate_variable t) (variable f ch) && stream_b t && forallb (fun k => sample_b t (N.of_nat k) (ct_sample c g (N.of_nat k) ch)) (seq 0 (N.to_nat n)) &&
     (negb (variable f ch && fm_has_segments f) || (ts_rate t =? 0) ||
      forallb (fun k => packs_b (b_segment_min b ch) (firstn 3 (s_range (ct_sample c g (N.of_nat k) ch))) && packs_b (b_segment_extent b ch) (skipn 3 (s_range (ct_sample c g (N.of_nat k) ch)))) (seq 0 (N.to_nat n))) &&
     (fm_has_segments f || negb (ts_rate t =? 0)) &&
     (length (b_clip_min b ch) =? 4)%nat && (length (b_clip_extent b ch) =? 4)%nat && words_eqb (clip_words ch b) (ct_clip c ch)).
Definition bone_b (f : formats) (g n : N) (b : tbone) (c : content) : bool :=
  channel_b f g n b c Rotation && channel_b f g n b c Translation && channel_b f g n b c Scale && (fm_has_scale f || ct_default c Scale).
Ltac ands := repeat match goal with H : _ && _ = true |- _ => apply andb_prop in H as [H ?] end.
Lemma bone_b_ok f g n b c : (forall ch k, in_words 8 6 (s_range (ct_sample c g k ch))) -> bone_b f g n b c = true -> bone_holds f g n b c.
Proof.
  intros RW. unfold bone_b. intros H. ands.
  assert (CH : forall ch, channel_b f g n b c ch = true) by (intros []; assumption).
  assert (NC : forall ch, ct_constant c ch = false -> ct_default c ch = false).
  { intros ch E. pose proof (CH ch) as Q. unfold channel_b in Q. ands. destruct (ct_default c ch); [| reflexivity]. rewrite E in *. discriminate. }
  assert (AN : forall ch, ct_constant c ch = false -> Bool.eqb (is_bit_rate_variable (b_stream b ch)) (variable f ch) && stream_b (b_stream b ch) && forallb (fun k => sample_b (b_stream b ch) (N.of_nat k) (ct_sample c g (N.of_nat k) ch)) (seq 0 (N.to_nat n)) &&
     (negb (variable f ch && fm_has_segments f) || (ts_rate (b_stream b ch) =? 0) ||
      forallb (fun k => packs_b (b_segment_min b ch) (firstn 3 (s_range (ct_sample c g (N.of_nat k) ch))) && packs_b (b_segment_extent b ch) (skipn 3 (s_range (ct_sample c g (N.of_nat k) ch)))) (seq 0 (N.to_nat n))) &&
     (fm_has_segments f || negb (ts_rate (b_stream b ch) =? 0)) &&
     (length (b_clip_min b ch) =? 4)%nat && (length (b_clip_extent b ch) =? 4)%nat && words_eqb (clip_words ch b) (ct_clip c ch) = true).
  { intros ch E. pose proof (CH ch) as Q. unfold channel_b in Q. cbv zeta in Q. rewrite (NC ch E), E in Q. apply andb_prop in Q as [_ Q]. exact Q. }
  assert (SE : forall k, k < n -> In (N.to_nat k) (seq 0 (N.to_nat n))) by (intros k Hk; apply in_seq; lia).
  constructor.
  - intros ch. pose proof (CH ch) as Q. unfold channel_b in Q. ands. apply Bool.eqb_prop. assumption.
  - intros ch. pose proof (CH ch) as Q. unfold channel_b in Q. ands. apply Bool.eqb_prop. assumption.
  - intros ch E. destruct (ct_constant c ch) eqn:E1; [reflexivity |]. rewrite (NC ch E1) in E. discriminate.
  - intros E. rewrite E in *. assumption.
  - intros ch. pose proof (CH ch) as Q. unfold channel_b in Q. ands. apply N.eqb_eq. assumption.
  - intros ch E1 E2 _. pose proof (CH ch) as Q. unfold channel_b in Q. cbv zeta in Q. rewrite E1, E2 in Q. apply andb_prop in Q as [_ Q]. ands.
    split; [apply stream_b_ok; assumption |]. split; [apply N.ltb_lt; assumption |]. split; [apply N.eqb_eq; assumption |]. split; [apply in_words_ok; assumption |]. apply placed_ok. assumption.
  - intros ch E. pose proof (AN ch E) as Q. ands. apply Bool.eqb_prop. assumption.
  - intros ch k E Hk. pose proof (AN ch E) as Q. ands. split; [apply stream_b_ok; assumption |]. apply sample_b_ok.
    match goal with H : forallb (fun k => sample_b _ _ _) _ = true |- _ => pose proof (proj1 (forallb_forall _ _) H _ (SE k Hk)) as Z end. cbv beta in Z. rewrite Nnat.N2Nat.id in Z. exact Z.
  - exact RW.
  - intros ch k E V S Hk. split; [apply RW |]. intros NZ. pose proof (AN ch E) as Q. ands.
    match goal with H : _ || _ || _ = true |- _ => rename H into Z end. rewrite V, S, (proj2 (N.eqb_neq _ _) NZ) in Z. cbn [negb andb orb] in Z.
    pose proof (proj1 (forallb_forall _ _) Z _ (SE k Hk)) as Y. cbv beta in Y. rewrite Nnat.N2Nat.id in Y. ands. split; apply packs_ok; assumption.
  - intros ch E S. pose proof (AN ch E) as Q. ands. match goal with H : fm_has_segments f || _ = true |- _ => rewrite S in H; cbn in H; apply Bool.negb_true_iff, N.eqb_neq in H; exact H end.
  - intros ch E. pose proof (AN ch E) as Q. ands. split; [split; apply Nat.eqb_eq; assumption |]. apply words_eqb_ok. assumption.
Qed.

(** * The clip: six key frames at 30 Hz in two segments, three bones; bone 0 rotates, bone 1 moves, bone 2 is scaled; the tracks are
    output in the order 2, 0, 1.  When it is stripped, the key frame in the middle of the first segment is gone *)
(** the bytes of a sample *)
Definition ex_block (rate : N) (vals : list N) : list N :=
  if rate =? 24 then word_bytes vals ++ [0; 0; 0; 0]
  else if rate =? 0 then concat (map (le_bytes 2) vals) ++ repeat 0 10
  else rev (le_bytes 16 (N.shiftl (fold_left (fun a v => N.shiftl a rate + v) vals 0) (128 - 3 * rate))).
Definition ex_stream (rate : N) (samples : list (list N)) : tstream :=
  {| ts_rate := rate; ts_sample_size := 16; ts_packed_size := 12; ts_num_samples := N.of_nat (length samples); ts_data := concat (map (ex_block rate) samples) ++ repeat 0 15 |}.
Definition ex_constant (vals : list N) : tstream :=
  {| ts_rate := 255; ts_sample_size := 12; ts_packed_size := 12; ts_num_samples := 1; ts_data := word_bytes vals ++ repeat 0 15 |}.
Definition ex_default : tstream := {| ts_rate := 255; ts_sample_size := 12; ts_packed_size := 12; ts_num_samples := 1; ts_data := repeat 0 27 |}.
(** the bit rates and the quantized samples of the animated sub-track of bone [b] in segment [g] *)
Definition ex_rate (b g : N) : N := match b, g with 0, 0 => 24 | 0, _ => 5 | 1, 0 => 7 | 1, _ => 0 | _, 0 => 0 | _, _ => 19 end.
Definition ex_vals (b g k : N) : list N :=
  match ex_rate b g with
  | 24 => [0x3F000000 + k; 0x80000000; 0xBE800000 + 16 * k]
  | 5 => [k; 31; 7 + k]
  | 7 => [127 - k; 3 * k; 64]
  | 19 => [1000 * k; 0x7FFFF; 12345 + k]
  | _ => [513 + b; 40000; 65535]
  end.
Definition ex_bits (rate : N) : N := if rate =? 24 then 32 else rate.
Definition ex_range : list N := [0; 255; 0; 255; 0; 255].
Definition ex_stored (b g k : N) : stored := {| s_bits := ex_bits (ex_rate b g); s_vals := ex_vals b g k; s_range := ex_range |}.
Definition ex_channel (b : N) : channel := match b with 0 => Rotation | 1 => Translation | _ => Scale end.
Definition ch_eqb (a b : channel) : bool := match a, b with Rotation, Rotation | Translation, Translation | Scale, Scale => true | _, _ => false end.
(** bone 0 has a constant translation, bone 1 a constant rotation; everything else that is not animated is default *)
Definition ex_has_constant (b : N) (ch : channel) : bool := match b, ch with 0, Translation => true | 1, Rotation => true | _, _ => false end.
Definition ex_words (b : N) : list N := [0x3F800000 + b; 0x40000000; 0x80000000].
Definition ex_min : list f32 := [f_zero; f_of_N 1; f_zero; f_zero].
Definition ex_extent : list f32 := [f_of_N 1; f_zero; f_of_N 1; f_zero].
Definition ex_bone (g b : N) : tbone := {|
  b_stream := fun ch => if ch_eqb ch (ex_channel b) then ex_stream (ex_rate b g) (map (fun k => ex_vals b g (N.of_nat k)) (seq 0 3))
                        else if ex_has_constant b ch then ex_constant (ex_words b) else ex_default;
  b_default := fun ch => negb (ch_eqb ch (ex_channel b)) && negb (ex_has_constant b ch);
  b_constant := fun ch => negb (ch_eqb ch (ex_channel b));
  b_output_index := match b with 0 => 1 | 1 => 2 | _ => 0 end;
  b_clip_min := fun _ => ex_extent; b_clip_extent := fun _ => ex_min; b_segment_min := fun _ => ex_min; b_segment_extent := fun _ => ex_extent |}.
Definition ex_content (b : N) : content := {|
  ct_default := fun ch => negb (ch_eqb ch (ex_channel b)) && negb (ex_has_constant b ch);
  ct_constant := fun ch => negb (ch_eqb ch (ex_channel b));
  ct_words := fun _ => ex_words b;
  ct_clip := fun _ => [0x3F800000; 0; 0x3F800000; 0; 0x3F800000; 0];
  ct_sample := fun g k _ => ex_stored b g k |}.
Definition ex_out : list content := map ex_content [2; 0; 1].
Definition ex_segment (g start hard : N) : tsegment := {| g_bones := map (ex_bone g) [0; 1; 2]; g_num_samples := 3; g_start := start; g_hard := hard |}.
Definition ex_tclip (stripped : bool) : tclip := {|
  p_segments := [ex_segment 0 0 0xA0000000; ex_segment 1 3 0xE0000000]; p_mapping := [2; 0; 1];
  p_rotation := quatf_drop_w_variable; p_translation := true; p_scale := true; p_has_scale := true; p_stripped := stripped;
  p_num_samples := 6; p_sample_rate := f_of_N 30; p_default_scale := 1; p_trivial_defaults := 0; p_wrap := 0 |}.
Definition ex_ttracks : list ttrack :=
  map (fun b => {| tt_name := [98; 48 + b]; tt_parent := if b =? 0 then 0xFFFFFFFF else b - 1; tt_description := repeat f_zero 12 |}) [0; 1; 2].

Lemma ex_holds stripped g : g < 2 -> Forall2 (bone_holds (formats_of (ex_tclip stripped)) g 3) (map (ex_bone g) [2; 0; 1]) ex_out.
Proof.
  intros G. assert (RW : forall b ch k, in_words 8 6 (s_range (ct_sample (ex_content b) g k ch))) by (intros; apply in_words_ok; reflexivity).
  assert (C : g = 0 \/ g = 1) by lia. unfold ex_out. cbn [map]. repeat first [apply Forall2_nil | apply Forall2_cons]; (apply bone_b_ok; [intros; apply RW |]); destruct C as [-> | ->], stripped; vm_compute; reflexivity.
Qed.
Lemma ex_outputs g : outputs (map (ex_bone g) [0; 1; 2]) [2; 0; 1] (map (ex_bone g) [2; 0; 1]).
Proof.
  split; [repeat constructor |]. change (filter is_output (map (ex_bone g) [0; 1; 2])) with (map (ex_bone g) [0; 1; 2]). apply Permutation_map.
  change [2; 0; 1] with ([2] ++ [0; 1]). change [0; 1; 2] with ([0; 1] ++ [2]). apply Permutation_app_comm.
Qed.
Lemma ex_segment_ok stripped g start hard : g < 2 -> hard = 0xA0000000 \/ hard = 0xE0000000 -> segment_ok (ex_tclip stripped) ex_out g (ex_segment g start hard).
Proof.
  intros G HD. assert (C : g = 0 \/ g = 1) by lia. constructor.
  - cbn. lia.
  - exists (map (ex_bone g) [2; 0; 1]). split; [apply ex_outputs | apply ex_holds, G].
  - destruct C as [-> | ->], stripped, HD as [-> | ->]; vm_compute; reflexivity.
  - destruct C as [-> | ->], stripped; vm_compute; reflexivity.
  - intros _. cbn [ex_segment g_num_samples g_hard]. split; [discriminate |]. split; [destruct HD as [-> | ->]; reflexivity |]. intros k Hk.
    assert (Z : forallb (fun i => negb (N.testbit hard (31 - N.of_nat i))) (seq 3 29) = true) by (destruct HD as [-> | ->]; vm_compute; reflexivity).
    pose proof (proj1 (forallb_forall _ _) Z (N.to_nat k)) as Q. cbv beta in Q. rewrite Nnat.N2Nat.id in Q. apply Bool.negb_true_iff, Q, in_seq. lia.
Qed.
Theorem ex_clip_input stripped error : bytes_ok error -> blen error < 1000 -> clip_input [97] ex_ttracks error (ex_tclip stripped) ex_out.
Proof.
  intros BE LE. constructor.
  - discriminate.
  - reflexivity.
  - split; [apply ex_segment_ok; [reflexivity | left; reflexivity] |]. split; [apply ex_segment_ok; [reflexivity | right; reflexivity] |]. exact I.
  - eexists _, _. split; [reflexivity |]. split; [reflexivity |]. split; [intros _; discriminate |].
    assert (Z : clip_end (ex_tclip stripped) ex_out (g_bones (ex_segment 0 0 0xA0000000)) < 1000) by (destruct stripped; vm_compute; reflexivity).
    assert (Y : output_names_size ex_ttracks (p_mapping (ex_tclip stripped)) = 6) by reflexivity. rewrite Y. change (blen [97]) with 1. change (N.of_nat (length (p_mapping (ex_tclip stripped)))) with 3.
    change (2 ^ 32 - 512) with 4294966784. change (2 ^ 32) with 4294967296. lia.
  - repeat split; discriminate.
  - constructor.
    + split; [discriminate | reflexivity].
    + reflexivity.
    + exact Prop_Float.sane30.
    + right. exists 3, 5. repeat split; try discriminate. 
    + intros _. repeat constructor.
  - split; [repeat constructor |]. repeat constructor; cbn; intuition discriminate.
  - repeat constructor.
  - reflexivity.
  - split; [repeat constructor |]. split; [repeat constructor | exact BE].
Qed.
