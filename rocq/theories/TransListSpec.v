(** What the compression of transform tracks keeps of them before quantization (C44), independently of how it is done. *)
From Coq Require Import ZArith NArith Bool Reals List Permutation.
From Verif Require Import Word Float32 Float32Facts InterpFacts Segment Strip SeekSpec TransMeta TransPlaySpec TransMetaSpec TransDec TransFile TransQuant TransQuantSpec TransQuantRange TransQuantSub TransQuantClip TransList.
Import ListNotations.
Local Open Scope N_scope.

(** sample [x] of a track as it is compressed: rotations are normalized, unless they are and the format is raw; formats that drop w use
    whichever of the two opposite quaternions has a positive w (0xBF800000 is -1) *)
Definition positive_w (v : vec) : vec := if fge (component 3 v) f_zero then v else map (fun x => fmul x (f_of_bits 0xBF800000)) v.
Definition prepared_sample (R : rtm) (s : lsettings) (ch : channel) (x : qvv) : vec :=
  match ch with
  | Rotation =>
      let r := if rotation_full (l_rotation s) && quat_is_normalized R (v_rotation x) then v_rotation x else quat_normalize R (v_rotation x) in
      if rotation_full (l_rotation s) then r else positive_w r
  | _ => part ch x
  end.
(** the first [n] samples *)
Definition prepared_samples (R : rtm) (s : lsettings) (n : N) (y : qtrack) (ch : channel) : list vec := map (prepared_sample R s ch) (firstn (N.to_nat n) (y_samples y)).
(** what a decompressor makes of a rotation whose w was dropped *)
Definition viewed (R : rtm) (s : lsettings) (ch : channel) (v : vec) : vec :=
  match ch with Rotation => if rotation_full (l_rotation s) then v else quat_normalize R (quat_from_positive_w R v) | _ => v end.

(** what becomes of a sub-track *)
Inductive fate := Animated | Held (v : vec) | Defaulted (v : vec).
Definition collapsed (a : fate) : option vec := match a with Animated => None | Held v | Defaulted v => Some v end.
Definition before (a b : channel) : bool := match a, b with Rotation, Translation | Rotation, Scale | Translation, Scale => true | _, _ => false end.
(** the transform of sample [k] when the sub-tracks before [ch] (rotation, translation, scale) have become what they become *)
Definition transform_at (R : rtm) (s : lsettings) (x : channel -> list vec) (fates : channel -> fate) (ch : channel) (k : N) : qvv :=
  let get c := viewed R s c (match (if before c ch then collapsed (fates c) else None) with Some v => v | None => nth (N.to_nat k) (x c) [] end) in
  Qvv (get Rotation) (get Translation) (get Scale).
(** the components that matter: w of vectors is ignored *)
Definition width (ch : channel) : nat := match ch with Rotation => 4 | _ => 3 end.
(** [v] can replace every sample of a sub-track of transform [i]: the error is never above the precision; formats that are not compressed
    have no tolerance *)
Definition can_replace (R : rtm) (M : metric) (s : lsettings) (i n : N) (x : channel -> list vec) (fates : channel -> fate) (ch : channel) (v : vec) : Prop :=
  if l_raw s ch then forall k c, k < n -> (c < width ch)%nat -> feq (component c (nth (N.to_nat k) (x ch) [])) (component c v) = true
  else forall k, k < n -> let t := transform_at R s x fates ch k in fgt (m_error M i k t (with_part ch t v)) (m_precision M i) = false.
(** a sub-track whose first sample can replace all the others is held; if the default value can too, and w is the same when the format is not
    compressed, it is dropped *)
Definition fate_ok (R : rtm) (M : metric) (s : lsettings) (i n : N) (default : qvv) (x : channel -> list vec) (fates : channel -> fate) (ch : channel) : Prop :=
  let first := nth 0 (x ch) [] in
  let d := part ch default in
  let dropped := can_replace R M s i n x fates ch d /\ (l_raw s ch = true -> feq (component 3 first) (component 3 d) = true) in
  match fates ch with
  | Animated => ~ can_replace R M s i n x fates ch (viewed R s ch first)
  | Held v => v = first /\ can_replace R M s i n x fates ch (viewed R s ch first) /\ ~ dropped
  | Defaulted v => v = d /\ can_replace R M s i n x fates ch (viewed R s ch first) /\ dropped
  end.

(** the number of samples and the looping policy: the last sample is dropped when it can be replaced by the first one *)
Definition wraps (R : rtm) (M : metric) (s : lsettings) (lp : Interp.looping_policy) (n : N) (ts : list qtrack) : Prop :=
  l_optimize_loops s = true /\ lp = Interp.lp_clamp /\ ~ (forall ch, l_raw s ch = true) /\ 2 <= n /\ ts <> [] /\
  forall i y, nth_error ts i = Some y ->
    let initial k := let x := nth k (y_samples y) (Qvv [] [] []) in
      Qvv (if rotation_full (l_rotation s) && quat_is_normalized R (v_rotation x) then v_rotation x else quat_normalize R (v_rotation x)) (v_translation x) (v_scale x) in
    fgt (m_loop_error M (N.of_nat i) (initial 0%nat) (initial (N.to_nat n - 1)%nat)) (m_precision M (N.of_nat i)) = false.

(** the input *)
Definition sample_ok (x : qvv) : Prop := forall ch, length (part ch x) = 4%nat.
Definition small (c : nat) (v : vec) : Prop := ffinite (component c v) = true /\ (Rabs (FR (component c v)) <= 10000000000)%R.
(** quat_normalize gives four components, at most 1e10 when finite *)
Definition rtm_ok (R : rtm) : Prop := forall v, length v = 4%nat -> length (quat_normalize R v) = 4%nat /\ forall c, (c < 4)%nat -> ffinite (component c (quat_normalize R v)) = true -> small c (quat_normalize R v).
Record list_input (R : rtm) (s : lsettings) (n : N) (rate : f32) (ts : list qtrack) : Prop := {
  in_rtm : rtm_ok R;
  in_samples : 1 <= n < 2 ^ 22 - 2;
  in_count : Forall (fun y => N.of_nat (length (y_samples y)) = n) ts;
  in_vectors : Forall (fun y => Forall sample_ok (y_samples y) /\ sample_ok (y_default y)) ts;
  in_small : forall y x ch c, In y ts -> In x (y_samples y) -> (c < width ch)%nat -> ffinite (component c (part ch x)) = true -> small c (part ch x);
  in_rate : ffinite rate = true /\ InterpFacts.sane (FR rate);
  in_outputs : let l := filter (fun o => negb (o =? 0xFFFFFFFF)) (map y_output_index ts) in l <> [] /\ Permutation l (map N.of_nat (seq 0 (length l)));
  in_size : (N.of_nat (length ts) + 1) * (n + 1) < 2 ^ 22
}.

(** ** The clip *)
(** what the file says of the clip, and how it is split: in segments of 16 to 31 samples, unless nothing is compressed *)
Record clip_of (s : lsettings) (additive1 : bool) (n : N) (wrapped : bool) (stripped : bool) (hard : N -> N) (rate : f32) (p : tclip) : Prop := {
  co_formats : p_rotation p = l_rotation s /\ p_translation p = l_translation s /\ p_scale p = l_scale s;
  co_samples : p_num_samples p = n;
  co_rate : p_sample_rate p = rate;
  co_default_scale : p_default_scale p = if additive1 then 0 else 1;
  co_stripped : p_stripped p = stripped;
  co_kept : forall i g, nth_error (p_segments p) i = Some g -> g_hard g = hard (N.of_nat i);
  co_wrap : p_wrap p = if wrapped then 1 else 0;
  co_whole : (n <= 31 \/ forall ch, l_variable s ch = false) -> sizes_of p = [n];
  co_split : 31 < n -> (exists ch, l_variable s ch = true) -> (2 <= length (sizes_of p))%nat /\ Forall (fun k => 1 <= k <= 31) (sizes_of p) /\ sumN (sizes_of p) = n
}.
(** every rotation is finite once it is normalized; the translations and the scales are finite *)
Definition finite_samples (R : rtm) (s : lsettings) (ts : list qtrack) : Prop :=
  forall y x, In y ts -> In x (y_samples y) ->
    let q := v_rotation x in
    (forall c, (c < 4)%nat -> ffinite (component c (if rotation_full (l_rotation s) && quat_is_normalized R q then q else quat_normalize R q)) = true) /\
    (forall c, (c < 3)%nat -> ffinite (component c (v_translation x)) = true /\ ffinite (component c (v_scale x)) = true).
(** the rest of the input: one description per track, names, and what fits *)
Record described (list_name : list N) (tracks : list ttrack) (error : list N) (ts : list qtrack) : Prop := {
  de_count : length tracks = length ts;
  de_descriptions : Forall (fun t => length (tt_description t) = 12%nat) tracks;
  de_names : bytes_ok list_name /\ Forall (fun t => bytes_ok (tt_name t)) tracks /\ bytes_ok error;
  de_text : blen list_name + blen error + sumN (map (fun t => blen (tt_name t)) tracks) < 2 ^ 30
}.
(** the key frames that are kept when some are stripped: the first and the last one of each segment are *)
Definition stripping_ok (p : tclip) : Prop :=
  p_stripped p = true -> Forall (fun g => g_num_samples g <= 32 /\ g_hard g < 2 ^ 32 /\ (forall k, g_num_samples g <= k < 32 -> N.testbit (g_hard g) (31 - k) = false) /\
    present (g_hard g) 0 = true /\ present (g_hard g) (g_num_samples g - 1) = true) (p_segments p).
