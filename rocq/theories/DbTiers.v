(** Model of the assignment of key frames to database tiers (model only).
    compression/impl/compress.database.impl.h:46-58, :69-195, :197-355, :1298-1319. *)
From Coq Require Import Permutation Sorted.
From Verif Require Import Word Float32 StripOrder.
Local Open Scope N_scope.

(** What the assignment reads of a compressed clip: header.num_samples, the start and the pose size of each segment, the
    animated data of each segment, and the key frames in stripping order.
    frame_assignment_context, compress.database.impl.h:90-160: [dc_order] is None for a clip older than v02_01_99_2, the
    table built there (:119-157) is never stored in clip_error.keyframe_metadata, which stays null. *)
Record db_clip := { dc_num_samples : N; dc_starts : list N; dc_pose_bits : list N; dc_data : list (list N); dc_order : option (list keyframe) }.
Definition dc_num_segments (c : db_clip) : N := N.of_nat (length (dc_pose_bits c)).

(** frame_tier_mapping, compress.database.impl.h:47-58.  [fm_data] is None for the null pointer of a default mapping. *)
Record frame_mapping := { fm_data : option (list N); fm_tracks : N; fm_segment : N; fm_clip_frame : N; fm_segment_frame : N; fm_bits : N; fm_error : f32 }.

Inductive quality_tier := highest_importance | medium_importance | lowest_importance.
Definition is_highest (t : quality_tier) : bool := match t with highest_importance => true | _ => false end.

(** calculate_num_frames :197-211 *)
Fixpoint calculate_num_frames (clips : list db_clip) (acc : N) : N :=
  match clips with [] => acc | c :: rest => calculate_num_frames rest (addw 32 acc (dc_num_samples c)) end.
(** calculate_num_movable_frames :213-234 *)
Fixpoint calculate_num_movable_frames (clips : list db_clip) (acc : N) : N :=
  match clips with
  | [] => acc
  | c :: rest => calculate_num_movable_frames rest
      (if 2 <=? dc_num_samples c then addw 32 acc (subw 32 (dc_num_samples c) (mulw 32 (dc_num_segments c) 2)) else acc)
  end.

(** assign_frames_to_tier :256-300: the best candidate over the clips *)
Fixpoint best_frame (highest : bool) (clips : list db_clip) (assigned : list N) (list_index : N) (best : frame_mapping) : outcome frame_mapping :=
  match clips, assigned with
  | c :: clips', a :: assigned' =>
      if dc_num_samples c <=? a then best_frame highest clips' assigned' (list_index + 1) best
      else
        match dc_order c with
        | None => UB   (* reads keyframe_metadata[...] of a null pointer *)
        | Some order =>
            match nth_error order (N.to_nat a) with
            | None => UB
            | Some k =>
                if flt (kf_error k) (fm_error best) || highest then
                  match nth_error (dc_starts c) (N.to_nat (kf_segment k)), nth_error (dc_pose_bits c) (N.to_nat (kf_segment k)),
                        nth_error (dc_data c) (N.to_nat (kf_segment k)) with
                  | Some start, Some bits, Some data =>
                      best_frame highest clips' assigned' (list_index + 1)
                        {| fm_data := Some data; fm_tracks := list_index; fm_segment := kf_segment k; fm_clip_frame := kf_index k;
                           fm_segment_frame := subw 32 (kf_index k) start; fm_bits := bits; fm_error := kf_error k |}
                  | _, _, _ => UB
                  end
                else best_frame highest clips' assigned' (list_index + 1) best
            end
        end
  | _, _ => Ok best
  end.

Definition no_mapping : frame_mapping :=
  {| fm_data := None; fm_tracks := 0; fm_segment := 0; fm_clip_frame := 0; fm_segment_frame := 0; fm_bits := 0; fm_error := f_inf |}.

(** the loop of assign_frames_to_tier :254-309 *)
Fixpoint assign_loop (num : nat) (highest : bool) (clips : list db_clip) (assigned : list N) : outcome (list frame_mapping * list N) :=
  match num with
  | O => Ok ([], assigned)
  | S num' =>
      bindo (best_frame highest clips assigned 0 no_mapping) (fun best =>
      match nth_error assigned (N.to_nat (fm_tracks best)) with
      | None => UB
      | Some a =>
          bindo (assign_loop num' highest clips (upd assigned (N.to_nat (fm_tracks best)) (addw 32 a 1))) (fun r =>
          Ok (best :: fst r, snd r))
      end)
  end.

(** the sort predicate :312-331 *)
Definition frame_lt (a b : frame_mapping) : bool :=
  (fm_tracks a <? fm_tracks b) ||
  ((fm_tracks a =? fm_tracks b) &&
   ((fm_segment a <? fm_segment b) ||
    ((fm_segment a =? fm_segment b) && (fm_segment_frame a <? fm_segment_frame b)))).
(** std::sort :333, modelled as an insertion sort: for distinct keys there is only one sorted result *)
Fixpoint insert_frame (x : frame_mapping) (l : list frame_mapping) : list frame_mapping :=
  match l with [] => [x] | y :: t => if frame_lt y x then y :: insert_frame x t else x :: l end.
Definition sort_frames (l : list frame_mapping) : list frame_mapping := fold_right insert_frame [] l.

(** assign_frames_to_tiers :336-355: (high, medium, low) *)
Definition assign_frames_to_tiers (clips : list db_clip) (num_high num_medium num_low : N)
  : outcome (list frame_mapping * list frame_mapping * list frame_mapping) :=
  bindo (assign_loop (N.to_nat num_low) false clips (repeat 0 (length clips))) (fun r1 =>
  bindo (assign_loop (N.to_nat num_medium) false clips (snd r1)) (fun r2 =>
  bindo (assign_loop (N.to_nat num_high) true clips (snd r2)) (fun r3 =>
  Ok (sort_frames (fst r3), sort_frames (fst r2), sort_frames (fst r1))))).

(** build_database :1298-1319, after the validation of the arguments *)
Definition build_tiers (low_proportion medium_proportion : f32) (clips : list db_clip)
  : outcome (list frame_mapping * list frame_mapping * list frame_mapping) :=
  let num_frames := calculate_num_frames clips 0 in
  let num_movable := calculate_num_movable_frames clips 0 in
  bindo (f_to_u32 (fmul low_proportion (f_of_N num_frames))) (fun l =>
  let num_low := N.min num_movable l in
  bindo (f_to_u32 (fmul medium_proportion (f_of_N num_frames))) (fun m =>
  let num_medium := N.min (subw 32 num_movable num_low) m in
  let num_high := subw 32 (subw 32 num_frames num_medium) num_low in
  assign_frames_to_tiers clips num_high num_medium num_low)).
