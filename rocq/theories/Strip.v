(** Model of the key frame lookup of seek() for clips whose key frames are stripped or moved to a database.
    decompression/impl/decompression.transform.h:271-372 (one segment) and :412-500 (several segments). *)
From Verif Require Import Word BitManip Float32 Interp Segment.
Local Open Scope N_scope.

(** the sample indices of a segment in the clip and the 64-bit metadata of its two database tiers
    (offset in bulk data << 32 | sample indices; 0 when not streamed in), core/impl/compressed_headers.h *)
Record segment_samples := { clip_indices : N; medium_metadata : N; low_metadata : N }.

(** decompression.transform.h:301-302, :434-441 *)
Definition available_indices (s : segment_samples) : N :=
  N.lor (N.lor (clip_indices s) (wrapw 32 (medium_metadata s))) (wrapw 32 (low_metadata s)).

(** decompression.transform.h:307-308, :446-447.  A shift by more than 31 is undefined *)
Definition closest_before (indices key_frame : N) : outcome N :=
  if 31 <? key_frame then UB
  else Ok (subw 32 31 (count_trailing_zeros (N.land indices (shlw 32 0xFFFFFFFF (31 - key_frame))))).

(** decompression.transform.h:311-312, :450-451 *)
Definition closest_after (indices key_frame : N) : outcome N :=
  if 31 <? key_frame then UB
  else Ok (count_leading_zeros (N.land indices (N.shiftr 0xFFFFFFFF key_frame))).

(** decompression.transform.h:357-358, :495-496 *)
Definition stored_rank (indices key_frame : N) : outcome N :=
  if 31 <? key_frame then UB
  else Ok (count_set_bits32 (and_not (N.shiftr 0xFFFFFFFF key_frame) indices)).

Inductive source := from_clip | from_medium (offset : N) | from_low (offset : N).

(** decompression.transform.h:319-358, :463-496: which buffer holds the key frame and at which rank *)
Definition locate (s : segment_samples) (key_frame : N) : outcome (source * N) :=
  if 31 <? key_frame then UB
  else
    let bit := N.shiftl 1 (31 - key_frame) in
    if negb (N.land (medium_metadata s) bit =? 0) then
      bindo (stored_rank (wrapw 32 (medium_metadata s)) key_frame) (fun r => Ok (from_medium (N.shiftr (medium_metadata s) 32), r))
    else if negb (N.land (low_metadata s) bit =? 0) then
      bindo (stored_rank (wrapw 32 (low_metadata s)) key_frame) (fun r => Ok (from_low (N.shiftr (low_metadata s) 32), r))
    else bindo (stored_rank (clip_indices s) key_frame) (fun r => Ok (from_clip, r)).

(** decompression.transform.h:271-372: one segment, from the key frames and alpha chosen for the requested time to the
    key frames that are sampled, the new alpha and where their data lives *)
Definition seek_stripped_single (s : segment_samples) (key_frame0 key_frame1 : N) (alpha : f32)
  : outcome (N * N * f32 * (source * N) * (source * N)) :=
  let sample_index := fadd alpha (f_of_N key_frame0) in
  bindo (closest_before (available_indices s) key_frame0) (fun k0 =>
  bindo (closest_after (available_indices s) key_frame1) (fun k1 =>
  bindo (locate s k0) (fun l0 =>
  bindo (locate s k1) (fun l1 =>
  Ok (k0, k1, find_linear_interpolation_alpha sample_index k0 k1 rp_none, l0, l1))))).

(** decompression.transform.h:412-500: several segments; [segs] are the per segment samples, [starts] the start indices *)
Definition segment_at (segs : list segment_samples) (i : N) : outcome segment_samples :=
  match nth_error segs (N.to_nat i) with Some s => Ok s | None => UB end.
Definition seek_stripped_multi (wrapping : bool) (num_samples : N) (segs : list segment_samples) (starts : list N)
  (key_frame0 key_frame1 : N) (alpha : f32) : outcome (N * N * f32 * (N * source * N) * (N * source * N)) :=
  bindo (find_segments wrapping num_samples (N.of_nat (length segs)) starts key_frame0 key_frame1) (fun '(s0, f0, s1, f1) =>
  bindo (segment_at segs s0) (fun g0 =>
  bindo (segment_at segs s1) (fun g1 =>
  let sample_index := fadd alpha (f_of_N key_frame0) in
  bindo (closest_before (available_indices g0) f0) (fun k0 =>
  bindo (closest_after (available_indices g1) f1) (fun k1 =>
  bindo (start_at starts s0) (fun b0 =>
  bindo (start_at starts s1) (fun b1 =>
  let clip_key_frame0 := addw 32 b0 k0 in
  let clip_key_frame1 := addw 32 b1 k1 in
  bindo (locate g0 k0) (fun '(src0, r0) =>
  bindo (locate g1 k1) (fun '(src1, r1) =>
  Ok (clip_key_frame0, clip_key_frame1, find_linear_interpolation_alpha sample_index clip_key_frame0 clip_key_frame1 rp_none,
      (s0, src0, r0), (s1, src1, r1))))))))))).
