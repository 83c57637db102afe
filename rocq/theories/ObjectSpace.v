(** Model of the conversion to object space and of the measure of the error of transforms (model only):
    compression/transform_error_metrics.h:289-310, :312-333 (qvvf_transform_error_metric::local_to_object_space, _no_scale), :415-437 (the same of
    the matrix metric); compression/impl/track_error.impl.h:219-387 (calculate_transform_track_error).
    [V] is the type of the transforms of the error metric, [mul] its product (qvv_mul then qvv_normalize, or matrix_mul). *)
From Verif Require Import Word Float32 Interp TrackArray TrackError.
Local Open Scope N_scope.

Definition store {V} (mem : list V) (i : N) (v : V) : list V := firstn (N.to_nat i) mem ++ v :: skipn (S (N.to_nat i)) mem.
(** one round of the loop: [local] and [mem] hold the transforms in local and object space, an index outside is undefined *)
Definition to_object_space {V} (mul : V -> V -> V) (parents : list N) (local mem : list V) (transform_index : N) : outcome (list V) :=
  match nth_error parents (N.to_nat transform_index), nth_error local (N.to_nat transform_index), nth_error mem (N.to_nat transform_index) with
  | Some parent, Some l, Some _ =>
      if parent =? k_invalid_track_index then Ok (store mem transform_index l)
      else match nth_error mem (N.to_nat parent) with
           | Some p => Ok (store mem transform_index (mul l p))
           | None => UB
           end
  | _, _, _ => UB
  end.
Fixpoint local_to_object_space {V} (mul : V -> V -> V) (parents : list N) (local : list V) (dirty : list N) (mem : list V) : outcome (list V) :=
  match dirty with
  | [] => Ok mem
  | i :: rest => bindo (to_object_space mul parents local mem i) (fun mem => local_to_object_space mul parents local rest mem)
  end.

(** calculate_transform_track_error without an additive base and without conversion (or with a conversion that is part of [raw] and [lossy]).
    [raw] and [lossy]: the poses adapter.sample_tracks0, sample_tracks1 and remap_output give at a time, as functions of the time;
    [calc]: calculate_error with the shell distance; [raw_mem], [lossy_mem]: raw_object_pose, lossy_object_pose as allocated. *)
Definition self_indices (n : nat) : list N := map N.of_nat (seq 0 n).
(** :358-375 *)
Fixpoint measure_bones {V} (calc : V -> V -> f32 -> f32) (shells : list f32) (time : f32) (i : N) (raws lossys : list V) (result : track_error) {struct raws} : outcome track_error :=
  match raws, lossys, shells with
  | r :: raws, l :: lossys, d :: shells =>
      let error := calc r l d in
      measure_bones calc shells time (i + 1) raws lossys (if fgt error (te_error result) then {| te_index := i; te_error := error; te_time := time |} else result)
  | [], _, _ => Ok result
  | _, _, _ => UB
  end.
(** :319-376 *)
Fixpoint measure_poses {V} (mul : V -> V -> V) (calc : V -> V -> f32 -> f32) (parents : list N) (shells : list f32) (rate duration : f32) (raw lossy : f32 -> list V)
  (k : N) (count : nat) (raw_mem lossy_mem : list V) (result : track_error) : outcome track_error :=
  match count with
  | O => Ok result
  | S count =>
      let time := fmin (fdiv (f_of_N k) rate) duration in
      bindo (local_to_object_space mul parents (raw time) (self_indices (length parents)) raw_mem) (fun raw_mem =>
      bindo (local_to_object_space mul parents (lossy time) (self_indices (length parents)) lossy_mem) (fun lossy_mem =>
      bindo (measure_bones calc shells time 0 raw_mem lossy_mem result) (fun result =>
      measure_poses mul calc parents shells rate duration raw lossy (k + 1) count raw_mem lossy_mem result)))
  end.
Definition calculate_transform_track_error {V} (mul : V -> V -> V) (calc : V -> V -> f32 -> f32) (parents : list N) (shells : list f32) (n : N) (rate duration : f32) (raw lossy : f32 -> list V)
  (raw_mem lossy_mem : list V) : outcome track_error :=
  if n =? 0 then Ok te_none
  else if N.of_nat (length parents) =? 0 then Ok te_none
  else measure_poses mul calc parents shells rate duration raw lossy 0 (N.to_nat n) raw_mem lossy_mem te_start.
