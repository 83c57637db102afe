(** What a transform clip contains, independently of how it is written, and what it means for the streams of the compressor
    to contain it. *)
From Verif Require Import Word Float32 Quant Headers TransDec TransSpec TransMem TransAnim TransAnim2 TransPose TransEnc TransEncSpec TransEncAnim2 TransEncBytes TransEncBytes2 TransEncBytes3.
Local Open Scope N_scope.

(** One output track: per kind of sub-track, whether it is default, whether it is constant, its constant sample, its clip
    range, and its quantized sample in key frame [k] of segment [g]. *)
Record content := {
  ct_default : channel -> bool;
  ct_constant : channel -> bool;
  ct_words : channel -> list N;
  ct_clip : channel -> list N;
  ct_sample : N -> N -> channel -> stored
}.
Definition ct_animated (ch : channel) (l : list content) : list content := filter (fun c => negb (ct_constant c ch)) l.
Definition ct_constants (ch : channel) (l : list content) : list content := filter (fun c => negb (ct_default c ch) && ct_constant c ch) l.
(** the sub-track, seen from two key frames *)
Definition sub_of (g0 k0 g1 k1 : N) (ch : channel) (c : content) : sub :=
  if ct_default c ch then SDefault
  else if ct_constant c ch then SConst (ct_words c ch)
  else SAnim {| x0 := ct_sample c g0 k0 ch; x1 := ct_sample c g1 k1 ch; xclip := ct_clip c ch |}.
Definition clip_subs (l : list content) (g0 k0 g1 k1 : N) (ch : channel) : list sub := map (sub_of g0 k0 g1 k1 ch) l.

(** The formats of a clip *)
Record formats := { fm_rotation : rotation_format; fm_translation : bool; fm_scale : bool; fm_has_scale : bool; fm_has_segments : bool }.
Definition variable (f : formats) (ch : channel) : bool :=
  match ch with Rotation => rotation_variable (fm_rotation f) | Translation => fm_translation f | Scale => fm_scale f end.
Definition components (f : formats) (ch : channel) : N := match ch with Rotation => rotation_components (fm_rotation f) | _ => 3 end.

(** the streams of segment [g], which has [n] samples, contain the track [c] *)
Record bone_holds (f : formats) (g n : N) (b : tbone) (c : content) : Prop := {
  bh_default : forall ch, b_default b ch = ct_default c ch;
  bh_constant : forall ch, b_constant b ch = ct_constant c ch;
  bh_default_constant : forall ch, ct_default c ch = true -> ct_constant c ch = true;
  bh_no_scale : fm_has_scale f = false -> ct_default c Scale = true;
  bh_packed : forall ch, ts_packed_size (b_stream b ch) = 4 * components f ch;
  bh_words : forall ch, ct_default c ch = false -> ct_constant c ch = true -> g = 0 -> bone_constant ch (components f ch) b (ct_words c ch);
  bh_variable : forall ch, ct_constant c ch = false -> is_bit_rate_variable (b_stream b ch) = variable f ch;
  bh_sample : forall ch k, ct_constant c ch = false -> k < n -> bone_sample ch k b (ct_sample c g k ch);
  bh_range_words : forall ch k, in_words 8 6 (s_range (ct_sample c g k ch));
  bh_range : forall ch k, ct_constant c ch = false -> variable f ch = true -> fm_has_segments f = true -> k < n -> bone_range ch b (ct_sample c g k ch);
  bh_one_segment : forall ch, ct_constant c ch = false -> fm_has_segments f = false -> ts_rate (b_stream b ch) <> 0;
  bh_clip : forall ch, ct_constant c ch = false -> has_clip ch b /\ clip_words ch b = ct_clip c ch
}.
(** the output tracks [out] are what segment [g] contains *)
Definition segment_holds (f : formats) (g n : N) (bones : list tbone) (mapping : list N) (out : list content) : Prop :=
  exists l, mapped bones mapping l /\ Forall2 (bone_holds f g n) l out.

(** the samples of one key frame, in the order they are written *)
Definition samples (out : list content) (g k : N) (ch : channel) : list stored := map (fun c => ct_sample c g k ch) (ct_animated ch out).
Definition key_frame_samples (f : formats) (out : list content) (g k : N) : list stored :=
  samples out g k Rotation ++ samples out g k Translation ++ samples out g k Scale.
(** the number of key frames that are kept before key frame [k] *)
Definition kept_before (kept : N -> bool) (k : N) : N := N.of_nat (length (filter kept (sample_indices k))).
