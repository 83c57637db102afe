(** Specification vocabulary of C13-C16: what the theorems of Prop_Seek.v mean, independent of the proofs. *)
From Coq Require Import ZArith NArith Reals List Bool.
From Verif Require Import Word Float32 Float32Facts Strip.
Import ListNotations.
Local Open Scope N_scope.

(** first sample of segment [i] when the segments have these sizes *)
Fixpoint sumN (l : list N) : N := match l with [] => 0 | x :: t => x + sumN t end.
Definition start_of (sizes : list N) (i : nat) : N := sumN (firstn i sizes).

(** the tracks of class [c], in increasing order *)
Definition tracks_of (c : N) (types : list N) : list N :=
  map N.of_nat (filter (fun i => nth i types 3 =? c) (seq 0 (length types))).

(** key frame [f] of a segment is in the bit set [m]: the first key frame is the most significant bit *)
Definition present (m f : N) : bool := N.testbit m (31 - f).
(** the key frames of a bit set in storage (increasing) order *)
Definition stored_frames (m : N) : list N := filter (present m) (map N.of_nat (seq 0 32)).
(** the fields fit their types *)
Definition samples_ok (s : segment_samples) : Prop :=
  clip_indices s < 2 ^ 32 /\ medium_metadata s < 2 ^ 64 /\ low_metadata s < 2 ^ 64.

(** [c] is the last available key frame at or before [k] / the first at or after *)
Definition last_available (avail : N -> bool) (k c : N) : Prop :=
  c <= k /\ avail c = true /\ forall j, c < j <= k -> avail j = false.
Definition first_available (avail : N -> bool) (k c : N) : Prop :=
  k <= c /\ avail c = true /\ forall j, k <= j < c -> avail j = false.

(** key frame [f] of the segment is stored in source [src] at position [r]: the r-th key frame (in increasing order)
    of that source's bit set is f, and the source's offset is the one in the metadata *)
Definition source_indices (s : segment_samples) (src : source) : N :=
  match src with from_clip => clip_indices s | from_medium _ => medium_metadata s mod 2 ^ 32 | from_low _ => low_metadata s mod 2 ^ 32 end.
Definition source_offset_ok (s : segment_samples) (src : source) : Prop :=
  match src with from_clip => True | from_medium o => o = medium_metadata s / 2 ^ 32 | from_low o => o = low_metadata s / 2 ^ 32 end.
Definition found_in (s : segment_samples) (f : N) (src : source) (r : N) : Prop :=
  source_offset_ok s src /\ nth_error (stored_frames (source_indices s src)) (N.to_nat r) = Some f.

(** the pairs of key frames the time to key frame search returns (C09) *)
Definition neighbours (n k0 k1 : N) : Prop :=
  k0 < n /\ k1 < n /\ (k1 = k0 + 1 \/ (k0 = n - 1 /\ k1 = n - 1) \/ (k0 = n - 1 /\ k1 = 0) \/ (k0 = 0 /\ k1 = 0)).

(** the new alpha [a] between the key frames c0 and c1 that replaces [al] between k0 and its successor:
    (position - c0) / (c1 - c0) with the roundings of binary32, position = k0 + al *)
Definition alpha_consistent (al : f32) (k0 c0 c1 : N) (a : f32) : Prop :=
  (ffinite a = true /\ 0 <= FR a <= 1 /\
  (c0 = c1 -> FR a = 0) /\
  ((c0 < c1)%N -> FR a = rnd (rnd (rnd (FR al + IZR (Z.of_N k0)) - IZR (Z.of_N c0)) / IZR (Z.of_N (c1 - c0)))) /\
  ((c1 < c0)%N -> FR a = rnd (rnd (FR al + IZR (Z.of_N k0)) - IZR (Z.of_N c0))))%R.
