(** Vocabulary of playing back a transform clip (C34-C36, C40, C41). *)
From Coq Require Import Reals.
From Verif Require Import Word Float32 Float32Facts Interp InterpFacts ScalarDec Segment SeekSpec TransDec TransSpec TransClipSpec TransFile TransFileFacts TransSeek.
Local Open Scope N_scope.

(** the time line of a clip: how its key frames are split in segments, and which of them a stripped clip keeps *)
Definition sizes_of (p : tclip) : list N := map g_num_samples (p_segments p).
Record clip_timing (p : tclip) : Prop := {
  ti_samples : 1 <= p_num_samples p < 2 ^ 22 - 2;
  ti_rate : ffinite (p_sample_rate p) = true;
  ti_sane : sane (FR (p_sample_rate p));
  ti_segments : sizes_of p = [p_num_samples p] \/
    exists ideal max, 2 <= ideal /\ ideal <= max /\ 2 * ideal <= max + 1 /\ max <= 32 /\ max < p_num_samples p /\
      split_samples_per_segment (p_num_samples p) ideal max = Ok (sizes_of p) /\ map g_start (p_segments p) = segment_offsets 0 (sizes_of p);
  ti_ends : p_stripped p = true -> Forall (fun g => present (g_hard g) 0 = true /\ present (g_hard g) (g_num_samples g - 1) = true) (p_segments p)
}.

(** key frame [k] of the clip is key frame [f] of segment [i] *)
Definition in_segment (p : tclip) (k : N) (i : nat) (g : tsegment) (f : N) : Prop :=
  nth_error (p_segments p) i = Some g /\ start_of (sizes_of p) i + f = k /\ f < g_num_samples g.

(** the key frames [c0] of segment [i0] and [c1] of segment [i1] and the alpha [a] stand for the key frames [k0], [k1] and the alpha
    [al]: they are the same, unless key frames were stripped: then they are the closest ones that are left on both sides *)
Definition chosen (p : tclip) (k0 k1 : N) (al : f32) (i0 : nat) (c0 : N) (i1 : nat) (c1 : N) (a : f32) : Prop :=
  exists g0 f0 g1 f1, in_segment p k0 i0 g0 f0 /\ in_segment p k1 i1 g1 f1 /\ c0 < g_num_samples g0 /\ c1 < g_num_samples g1 /\
    if p_stripped p then
      last_available (present (g_hard g0)) f0 c0 /\ first_available (present (g_hard g1)) f1 c1 /\
      alpha_consistent al k0 (start_of (sizes_of p) i0 + c0) (start_of (sizes_of p) i1 + c1) a
    else c0 = f0 /\ c1 = f1 /\ a = al.

(** the time that is sought: clamped to the clip when the settings say so, and otherwise within the clip *)
Definition sought (ds : dsettings) (duration t : f32) : f32 := if clamp_sample_time ds then fclamp t f_zero duration else t.
Definition time_ok (ds : dsettings) (duration t : f32) : Prop :=
  clamp_sample_time ds = true \/ (ffinite t = true /\ (0 <= FR t <= FR duration)%R).
(** the looping policy a context starts with *)
Definition first_policy (ds : dsettings) (p : tclip) : looping_policy :=
  if is_wrapping_supported ds then (if p_wrap p =? 0 then lp_clamp else lp_wrap) else lp_clamp.

(** ** What is written *)
(** the components of a sample: a rotation that is unpacked with three others loses the sign of its zeros when it is raw *)
Definition in_pose (f : formats) (ch : channel) (s : stored) (clip : list N) : list f32 :=
  match ch with
  | Rotation => if rotation_variable (fm_rotation f) then decoded_in_group (fm_has_segments f) s clip else decoded (fm_has_segments f) s clip
  | _ => decoded (fm_has_segments f) s clip
  end.
Definition alone (f : formats) (ch : channel) (s : stored) (clip : list N) : list f32 := decoded (fm_has_segments f) s clip.
Definition policy_of (w : twriter) (rp : rounding_policy) (i : N) : rounding_policy := if tw_per_track_rounding w then tw_rounding w rp i else rp_none.
(** what the writer gets for a kind of sub-track of track [i]: its default value, its constant sample, or the samples of two key frames
    to interpolate under a rounding policy.  [value]: how samples are decoded *)
Definition shown (value : channel -> stored -> list N -> list f32) (w : twriter) (rp : rounding_policy) (g0 k0 g1 k1 : N) (ch : channel) (i : N) (c : content) (o : out) : Prop :=
  if ct_default c ch then tw_skip_default w ch = false /\ o = ODefault
  else if ct_constant c ch then o = OConst (map f_of_bits (ct_words c ch))
  else o = OMix (policy_of w rp i) (value ch (ct_sample c g0 k0 ch) (ct_clip c ch)) (value ch (ct_sample c g1 k1 ch) (ct_clip c ch)).
(** decompress_tracks: every sub-track the writer does not skip, once *)
Definition pose_shown (w : twriter) (rp : rounding_policy) (f : formats) (clip : list content) (g0 k0 g1 k1 : N) (events : list event) : Prop :=
  NoDup (map fst events) /\
  forall ch i o, In (ch, i, o) events <->
    exists c, nth_error clip (N.to_nat i) = Some c /\ tw_skip w ch i = false /\ shown (in_pose f) w rp g0 k0 g1 k1 ch i c o.
(** decompress_track: the sub-tracks of one track, once each; the writer is not asked what to skip *)
Definition track_shown (w : twriter) (rp : rounding_policy) (f : formats) (clip : list content) (i : N) (g0 k0 g1 k1 : N) (events : list event) : Prop :=
  NoDup (map fst events) /\
  forall ch j o, In (ch, j, o) events <-> j = i /\ exists c, nth_error clip (N.to_nat i) = Some c /\ shown (alone f) w rp g0 k0 g1 k1 ch i c o.

(** ** Calls *)
(** a context is used: seek and set_looping_policy, in any order.  As compressed: None *)
Inductive tcall := call_seek (t : f32) (rp : rounding_policy) | call_looping (policy : option looping_policy) | call_relocated.
Definition tdo (ds : dsettings) (m : list N) (c : pcontext) (x : tcall) : outcome pcontext :=
  match x with
  | call_seek t rp => tseek ds c t rp
  | call_looping policy => tset_looping_policy ds c policy
  | call_relocated => bindo (trelocated c m None) (fun '(_, c) => Ok c)
  end.
Fixpoint tdo_all (ds : dsettings) (m : list N) (c : pcontext) (l : list tcall) : outcome pcontext :=
  match l with [] => Ok c | x :: l => bindo (tdo ds m c x) (fun c => tdo_all ds m c l) end.
