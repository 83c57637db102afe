(** Model of segmenting and of the segment search done when seeking.
    compression/impl/segment.transform.h, write_segment_data.h, decompression/impl/decompression.transform.h. *)
From Verif Require Import Word.

(** segment.transform.h:108-117, one pass of the for loop over the segments before the last one:
    each takes one sample from the last segment until it is empty *)
Fixpoint distribute (segs : list N) (left : N) : list N * N :=
  match segs with
  | [] => ([], left)
  | s :: t =>
      if left =? 0 then (s :: t, left)
      else let '(t', left') := distribute t (left - 1) in (addw 32 s 1 :: t', left')
  end.

(** segment.transform.h:106-118, the while loop *)
Fixpoint rebalance (fuel : nat) (segs : list N) (left : N) : outcome (list N) :=
  if left =? 0 then Ok segs
  else match fuel with
       | O => NoFuel
       | S f => let '(segs', left') := distribute segs left in rebalance f segs' left'
       end.

(** segment.transform.h:65-128 split_samples_per_segment: the sizes of the out_num_segments first entries;
    the empty list when no segmenting is done.  ideal_num_samples = 0 divides by zero. *)
Definition split_samples_per_segment (num_samples ideal max : N) : outcome (list N) :=
  if num_samples <=? max then Ok []
  else if ideal =? 0 then UB
  else
    let num_estimated_segments := subw 32 (addw 32 num_samples ideal) 1 / ideal in
    let max_num_samples := mulw 32 num_estimated_segments ideal in
    let last_segment_index := num_estimated_segments - 1 in
    let num_last_segment_samples := subw 32 ideal (subw 32 max_num_samples num_samples) in
    let slack_per_segment := subw 32 max ideal in
    let total_slack_present := mulw 32 last_segment_index slack_per_segment in
    let segs := repeat ideal (N.to_nat last_segment_index) in
    if num_last_segment_samples <=? total_slack_present
    then rebalance (N.to_nat num_last_segment_samples) segs num_last_segment_samples
    else Ok (segs ++ [num_last_segment_samples]).

(** segment.transform.h:158-240 segment_streams: clip_sample_offset of each segment (running sum) *)
Fixpoint segment_offsets (start : N) (sizes : list N) : list N :=
  match sizes with [] => [] | s :: t => start :: segment_offsets (addw 32 start s) t end.

(** write_segment_data.h:48-65 write_segment_start_indices: the start indices then a sentinel *)
Definition segment_start_indices (sizes : list N) : list N := segment_offsets 0 sizes ++ [0xFFFFFFFF].

(** reading segment_start_indices[i]: past the sentinel is out of bounds *)
Definition start_at (starts : list N) (i : N) : outcome N :=
  match nth_error starts (N.to_nat i) with Some v => Ok v | None => UB end.

(** decompression.transform.h:390-407: the search loop over at most 4 entries; segment 0 twice when nothing is found.
    [wrapping] is decompression_settings::is_wrapping_supported() *)
Fixpoint search_segments (n : nat) (wrapping : bool) (starts : list N) (i key_frame0 key_frame1 : N) : outcome (N * N) :=
  match n with
  | O => Ok (0, 0)
  | S n' =>
      bindo (start_at starts i) (fun s =>
      if key_frame0 <? s then
        Ok (subw 32 i 1,
            if wrapping && (key_frame1 =? 0) then 0 else if key_frame1 <? s then subw 32 i 1 else i)
      else search_segments n' wrapping starts (i + 1) key_frame0 key_frame1)
  end.

(** decompression.transform.h:372-409: multi-segment clips; returns (segment0, frame in it, segment1, frame in it) *)
Definition find_segments (wrapping : bool) (num_samples num_segments : N) (starts : list N) (key_frame0 key_frame1 : N)
  : outcome (N * N * N * N) :=
  let approx_num_samples_per_segment := num_samples / num_segments in
  if approx_num_samples_per_segment =? 0 then UB   (* division by zero below *)
  else
    let approx_segment_index := key_frame0 / approx_num_samples_per_segment in
    let start_segment_index := if 0 <? approx_segment_index then approx_segment_index - 1 else 0 in
    bindo (search_segments 4 wrapping starts start_segment_index key_frame0 key_frame1) (fun '(s0, s1) =>
    bindo (start_at starts s0) (fun b0 =>
    bindo (start_at starts s1) (fun b1 =>
    Ok (s0, subw 32 key_frame0 b0, s1, subw 32 key_frame1 b1)))).
