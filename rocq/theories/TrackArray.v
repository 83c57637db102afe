(** Model of track array validation and of the output index mapping (model only).
    compression/impl/track_array.impl.h, compression/impl/track.impl.h, core/impl/track_desc.impl.h,
    compression/impl/track_list_context.h. *)
From Verif Require Import Word Float32.
Local Open Scope N_scope.

(** core/track_types.h:46 *)
Definition k_invalid_track_index : N := 0xFFFFFFFF.

(** What track_array::is_valid looks at in a track.  [default_finite]/[default_normalized] are the results of
    rtm::qvv_is_finite / rtm::quat_is_normalized on the default value of a transform track; [transform] is the category
    (the two double precision categories do not exist as types in this version). *)
Record track := {
  has_data : bool;            (* m_data != nullptr *)
  track_type : N;             (* track_type8 *)
  num_samples : N;
  sample_rate : f32;
  transform : bool;           (* track_category8::transformf, else scalarf *)
  precision : f32;
  shell_distance : f32;
  default_finite : bool;
  default_normalized : bool;
  output_index : N;
  parent_index : N
}.

(** track_desc.impl.h:44-67 *)
Definition desc_is_valid (t : track) : bool :=
  if transform t then
    negb (flt (precision t) f_zero || negb (ffinite (precision t))) &&
    negb (flt (shell_distance t) f_zero || negb (ffinite (shell_distance t))) &&
    default_finite t && default_normalized t
  else negb (flt (precision t) f_zero || negb (ffinite (precision t))).

(** track.impl.h:167-186 *)
Definition track_is_valid (t : track) : bool :=
  if negb (has_data t) then true
  else if num_samples t =? 0xFFFFFFFF then false
  else if fle (sample_rate t) f_zero || negb (ffinite (sample_rate t)) then false
  else desc_is_valid t.

(** track_array.impl.h:137-163: the first loop.  Type, sample count and rate are the ones of the first track
    (track_array.impl.h:82-113 get_track_type/get_num_samples_per_track/get_sample_rate) *)
Fixpoint check_tracks (n ty ns : N) (rate : f32) (ts : list track) : bool :=
  match ts with
  | [] => true
  | t :: rest =>
      if negb (track_type t =? ty) then false
      else if negb (num_samples t =? ns) then false
      else if negb (feq (sample_rate t) rate) then false
      else if negb (track_is_valid t) then false
      else if transform t && negb (parent_index t =? k_invalid_track_index) && (n <=? parent_index t) then false
      else check_tracks n ty ns rate rest
  end.

(** track_array.impl.h:166-187: range and duplicate check; returns the number of outputs *)
Fixpoint check_outputs (n : N) (ts : list track) (num_outputs : N) : option N :=
  match ts with
  | [] => Some num_outputs
  | t :: rest =>
      if negb (output_index t =? k_invalid_track_index) && (n <=? output_index t) then None
      else if negb (output_index t =? k_invalid_track_index) then
        if existsb (fun t2 => output_index t =? output_index t2) rest then None
        else check_outputs n rest (num_outputs + 1)
      else check_outputs n rest num_outputs
  end.

(** track_array.impl.h:189-205: every output index below [num_outputs] is used *)
Fixpoint check_contiguous (k : nat) (o : N) (ts : list track) : bool :=
  match k with
  | O => true
  | S k' => existsb (fun t => o =? output_index t) ts && check_contiguous k' (o + 1) ts
  end.

(** track_array::is_valid, track_array.impl.h:137-208: true when no error is reported *)
Definition track_array_is_valid (ts : list track) : bool :=
  let n := N.of_nat (length ts) in
  (match ts with
   | [] => true
   | t0 :: _ => check_tracks n (track_type t0) (num_samples t0) (sample_rate t0) ts
   end) &&
  match check_outputs n ts 0 with
  | None => false
  | Some num_outputs => check_contiguous (N.to_nat num_outputs) 0 ts
  end.

(** track_list_context.h:210-232 create_output_track_mapping.  A cell that was never written is [None]. *)
Definition num_output_tracks (ts : list track) : N :=
  fold_left (fun acc t => if output_index t =? k_invalid_track_index then subw 32 acc 1 else acc) ts (N.of_nat (length ts)).
Fixpoint fill_mapping (ts : list track) (track_idx : N) (m : list (option N)) : outcome (list (option N)) :=
  match ts with
  | [] => Ok m
  | t :: rest =>
      if negb (output_index t =? k_invalid_track_index) then
        if output_index t <? N.of_nat (length m)
        then fill_mapping rest (track_idx + 1) (upd m (N.to_nat (output_index t)) (Some track_idx))
        else UB
      else fill_mapping rest (track_idx + 1) m
  end.
Definition create_output_track_mapping (ts : list track) : outcome (list (option N)) :=
  fill_mapping ts 0 (repeat None (N.to_nat (num_output_tracks ts))).
