(** What range reduction and quantization keep of the samples of a transform clip (C43), independently of how it is done.
    A sample is a vector; [clip]: the samples of the sub-track in the clip; [segment]: those of the segment the sample is in. *)
From Coq Require Import ZArith NArith Reals List.
From Verif Require Import Word Float32 Float32Facts.
Import ListNotations.
Local Open Scope R_scope.

Definition component (c : nat) (v : list f32) : f32 := nth c v f_zero.
(** component [c] is finite, and at most [A] *)
Definition at_most (A : R) (c : nat) (l : list (list f32)) : Prop := forall v, In v l -> ffinite (component c v) = true /\ Rabs (FR (component c v)) <= A.
(** the values of component [c] are at most [W] apart *)
Definition apart (W : R) (c : nat) (l : list (list f32)) : Prop := forall a b, In a l -> In b l -> FR (component c a) - FR (component c b) <= W.
(** what binary32 arithmetic adds to the error *)
Definition rounding (W A : R) : R := W / IZR (2 ^ 20) + A / IZR (2 ^ 24) + / IZR (2 ^ 28).
(** [y] is [x] but for an error of [half] steps when the range of the values is [range W Ws] wide: the clip is [W] wide, the segment [Ws] *)
Definition near (clip segment : list (list f32)) (steps : Z) (range : R -> R -> R) (x y : list f32) : Prop :=
  length y = 3%nat /\
  forall c A W Ws, (c < 3)%nat -> at_most A c clip -> A <= 10000000000 -> apart W c clip -> apart Ws c segment ->
    ffinite (component c y) = true /\ Rabs (FR (component c y) - FR (component c x)) <= range W Ws / (2 * IZR steps) + rounding W A.
(** what is played back of a sample.  [rate]: the bit rate of the sub-track in the segment, if its format is variable: 24 is raw, at 0 one
    sample, the first, stands for the whole segment; [segmented]: the clip has several segments; [lossy] is the sample, [raw] that of the raw clip *)
Definition kept_sample (rate : option N) (segmented : bool) (comps : nat) (clip segment : list (list f32)) (raw lossy y : list f32) : Prop :=
  match rate with
  | None => y = firstn comps lossy
  | Some 24%N => y = firstn 3 raw
  | Some 0%N => near clip segment 65535 (fun W _ => W) (nth 0 segment []) y
  | Some n => near clip segment (2 ^ Z.of_N n - 1) (fun W Ws => if segmented then Ws + W / 80 else W) lossy y
  end.
