(** Model of the key frame stripping order and of key frame stripping (model only).
    compression/impl/quantize.transform.h:1559-1806 (find_contributing_error, sort_contributing_error),
    compression/impl/keyframe_stripping.h:43-144 (strip_keyframes),
    core/impl/compressed_headers.h:339-364 (keyframe_stripping_metadata_t).

    Simplification: the error metric is a parameter.  [err start last] is the worst error over the key frames strictly
    between the two retained key frames [start] and [last] when they are interpolated, and whether every track is within
    its precision (quantize.transform.h:1683-1735). *)
From Coq Require Import Permutation Sorted.
From Verif Require Import Word MemoryUtils Float32 Bitset.
Local Open Scope N_scope.

(** keyframe_stripping_metadata_t, compressed_headers.h:339-364 *)
Record keyframe := { kf_index : N; kf_segment : N; kf_strip : N; kf_error : f32; kf_trivial : bool }.
Definition kf_default : keyframe := {| kf_index := 0; kf_segment := 0; kf_strip := 0; kf_error := f_zero; kf_trivial := false |}.
Definition k_none : N := 0xFFFFFFFF.   (* ~0U *)

(** quantize.transform.h:1650-1657: the two while loops looking for the retained neighbours *)
Fixpoint retained_before (fuel : nat) (retained : list N) (i : N) : outcome N :=
  match fuel with
  | O => NoFuel
  | S f => bindo (bitset_test retained i) (fun b => if b then Ok i else retained_before f retained (subw 32 i 1))
  end.
Fixpoint retained_after (fuel : nat) (retained : list N) (i : N) : outcome N :=
  match fuel with
  | O => NoFuel
  | S f => bindo (bitset_test retained i) (fun b => if b then Ok i else retained_after f retained (addw 32 i 1))
  end.

(** quantize.transform.h:1643-1744: the loop over the candidate frames of one iteration *)
Fixpoint find_best (num : nat) (err : N -> N -> f32 * bool) (segment_index iteration_count : N) (retained : list N)
  (frame_index : N) (best : keyframe) : outcome keyframe :=
  match num with
  | O => Ok best
  | S num' =>
      bindo (bitset_test retained frame_index) (fun b =>
      if b then
        bindo (retained_before 33 retained (frame_index - 1)) (fun start =>
        bindo (retained_after 33 retained (frame_index + 1)) (fun last =>
        let e := err start last in
        find_best num' err segment_index iteration_count retained (frame_index + 1)
          (if flt (fst e) (kf_error best)
           then {| kf_index := frame_index; kf_segment := segment_index; kf_strip := iteration_count - 1; kf_error := fst e; kf_trivial := snd e |}
           else best)))
      else find_best num' err segment_index iteration_count retained (frame_index + 1) best)
  end.

(** quantize.transform.h:1634-1754: remove one frame per iteration.  Storing at keyframe_index ~0U (no candidate had an
    error below infinity) is out of bounds. *)
Fixpoint removal_loop (num : nat) (err : N -> N -> f32 * bool) (num_frames segment_index iteration_count : N)
  (retained : list N) (errors : list keyframe) : outcome (list keyframe) :=
  match num with
  | O => Ok errors
  | S num' =>
      bindo (find_best (N.to_nat (num_frames - 2)) err segment_index iteration_count retained 1
               {| kf_index := k_none; kf_segment := segment_index; kf_strip := k_none; kf_error := f_inf; kf_trivial := false |}) (fun best =>
      if kf_index best <? N.of_nat (length errors) then
        bindo (bitset_set retained (kf_index best) false) (fun retained' =>
        removal_loop num' err num_frames segment_index (iteration_count + 1) retained' (upd errors (N.to_nat (kf_index best)) best))
      else UB)
  end.

(** quantize.transform.h:1559-1754: the error of every frame, before the final sort.  The array has 32 entries. *)
Definition find_contributing_error (err : N -> N -> f32 * bool) (num_frames segment_index : N) : outcome (list keyframe) :=
  if (num_frames =? 0) || (32 <? num_frames) then UB
  else
    let boundary i := {| kf_index := i; kf_segment := segment_index; kf_strip := k_none; kf_error := f_inf; kf_trivial := false |} in
    let errors := upd (upd (repeat kf_default 32) 0 (boundary 0)) (N.to_nat (num_frames - 1)) (boundary (num_frames - 1)) in
    bindo (removal_loop (N.to_nat (num_frames - 2)) err num_frames segment_index 1 [0xFFFFFFFF] errors) (fun errors' =>
    Ok (firstn (N.to_nat num_frames) errors')).

(** std::sort by stripping index, quantize.transform.h:1757-1758.  The first and the last frame of a segment have the same
    key: any sorted permutation is a possible result. *)
Definition sorted_by_strip (l l' : list keyframe) : Prop :=
  Permutation l l' /\ StronglySorted (fun a b => kf_strip a <= kf_strip b) l'.

(** What the clip level sort reads of a segment: num_samples, clip_sample_offset, contributing_error (sorted) *)
Record seg_errors := { se_num_samples : N; se_offset : N; se_errors : list keyframe }.

(** quantize.transform.h:1780-1794: the best candidate over the segments *)
Fixpoint best_segment (segs : list seg_errors) (stripped : list N) (segment_index : N) (best : keyframe) : outcome keyframe :=
  match segs, stripped with
  | sg :: segs', c :: stripped' =>
      if se_num_samples sg <=? c then best_segment segs' stripped' (segment_index + 1) best
      else match nth_error (se_errors sg) (N.to_nat c) with
           | None => UB
           | Some e => best_segment segs' stripped' (segment_index + 1) (if fle (kf_error e) (kf_error best) then e else best)
           end
  | _, _ => Ok best
  end.

(** quantize.transform.h:1776-1803 *)
Fixpoint clip_sort_loop (num : nat) (segs : list seg_errors) (stripped : list N) (stripping_index : N) : outcome (list keyframe) :=
  match num with
  | O => Ok []
  | S num' =>
      bindo (best_segment segs stripped 0 {| kf_index := k_none; kf_segment := 0; kf_strip := k_none; kf_error := f_inf; kf_trivial := false |}) (fun best =>
      match nth_error segs (N.to_nat (kf_segment best)), nth_error stripped (N.to_nat (kf_segment best)) with
      | Some sg, Some c =>
          bindo (clip_sort_loop num' segs (upd stripped (N.to_nat (kf_segment best)) (addw 32 c 1)) (stripping_index + 1)) (fun rest =>
          Ok ({| kf_index := addw 32 (kf_index best) (se_offset sg); kf_segment := kf_segment best; kf_strip := stripping_index;
                 kf_error := kf_error best; kf_trivial := kf_trivial best |} :: rest))
      | _, _ => UB
      end)
  end.
(** sort_contributing_error, quantize.transform.h:1761-1806 *)
Definition sort_contributing_error (num_samples : N) (segs : list seg_errors) : outcome (list keyframe) :=
  clip_sort_loop (N.to_nat num_samples) segs (repeat 0 (length segs)) 0.

(** * strip_keyframes, keyframe_stripping.h:43-144 *)
(** compression_keyframe_stripping_settings, compression_settings.h *)
Record strip_settings := { ss_proportion : f32; ss_threshold : f32; ss_trivial : bool }.
(** compression_settings.impl.h:90-93 *)
Definition strip_is_enabled (s : strip_settings) : bool := fgt (ss_proportion s) f_zero || fgt (ss_threshold s) f_zero || ss_trivial s.

(** What stripping uses of a segment: num_samples, clip_sample_offset, animated_pose_bit_size, hard_keyframes *)
Record strip_seg := { st_num_samples : N; st_offset : N; st_pose_bits : N; st_hard : list N; st_data_size : N }.

(** keyframe_stripping.h:79-84 and :92-96: count while [p] holds, up to num_movable *)
Fixpoint count_while (fuel : nat) (p : keyframe -> bool) (order : list keyframe) (i num_movable : N) : outcome N :=
  if i <? num_movable then
    match fuel with
    | O => NoFuel
    | S f => match nth_error order (N.to_nat i) with
             | None => UB
             | Some k => if p k then count_while f p order (i + 1) num_movable else Ok i
             end
    end
  else Ok i.

(** keyframe_stripping.h:106-113 *)
Fixpoint bits_saved (segs : list strip_seg) (order : list keyframe) (acc : N) : outcome N :=
  match order with
  | [] => Ok acc
  | k :: rest => match nth_error segs (N.to_nat (kf_segment k)) with
                 | None => UB
                 | Some sg => bits_saved segs rest (addw 32 acc (st_pose_bits sg))
                 end
  end.

(** keyframe_stripping.h:124-138: the animated data size is align_to(num_bits, 8) / 8 *)
Fixpoint strip_loop (order : list keyframe) (segs : list strip_seg) : outcome (list strip_seg) :=
  match order with
  | [] => Ok segs
  | k :: rest =>
      match nth_error segs (N.to_nat (kf_segment k)) with
      | None => UB
      | Some sg =>
          bindo (bitset_set (st_hard sg) (subw 32 (kf_index k) (st_offset sg)) false) (fun hard' =>
          let bits := mulw 32 (st_pose_bits sg) (bitset_count_set_bits hard') in
          strip_loop rest (upd segs (N.to_nat (kf_segment k))
            {| st_num_samples := st_num_samples sg; st_offset := st_offset sg; st_pose_bits := st_pose_bits sg; st_hard := hard';
               st_data_size := align_to 32 bits 8 / 8 |}))
      end
  end.

(** keyframe_stripping.h:60-61 *)
Fixpoint init_hard (segs : list strip_seg) : outcome (list strip_seg) :=
  match segs with
  | [] => Ok []
  | sg :: rest =>
      bindo (bitset_set_range (st_hard sg) 0 (st_num_samples sg) true) (fun hard' =>
      bindo (init_hard rest) (fun rest' =>
      Ok ({| st_num_samples := st_num_samples sg; st_offset := st_offset sg; st_pose_bits := st_pose_bits sg; st_hard := hard'; st_data_size := st_data_size sg |} :: rest')))
  end.

(** keyframe_stripping.h:43-144: the segments with their retained key frames, and the number of key frames stripped.
    The size of a stripped segment header is 4 bytes more than a segment header (compressed_headers.h:171-197). *)
Definition strip_keyframes (s : strip_settings) (num_keyframes : N) (order : list keyframe) (segs : list strip_seg)
  : outcome (list strip_seg * N) :=
  if negb (strip_is_enabled s) then Ok (segs, 0)
  else
    bindo (init_hard segs) (fun segs1 =>
    let num_segments := N.of_nat (length segs) in
    let num_movable := if 2 <=? num_keyframes then subw 32 num_keyframes (mulw 32 num_segments 2) else 0 in
    let fuel := S (length order) in
    bindo (if ss_trivial s then count_while fuel kf_trivial order 0 num_movable else Ok 0) (fun n0 =>
    bindo (count_while fuel (fun k => negb (fgt (kf_error k) (ss_threshold s))) order n0 num_movable) (fun n1 =>
    bindo (f_to_u32 (fmul (ss_proportion s) (f_of_N num_keyframes))) (fun p =>
    let n2 := N.max n1 (N.min num_movable p) in
    bindo (bits_saved segs1 (firstn (N.to_nat n2) order) 0) (fun bits =>
    let n3 := if bits / 8 <=? mulw 32 num_segments 4 then 0 else n2 in
    bindo (strip_loop (firstn (N.to_nat n3) order) segs1) (fun segs2 => Ok (segs2, n3))))))).
