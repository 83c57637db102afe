(** Model of the pre-processing of scalar track arrays (model only): compression/impl/pre_process.impl.h:183-261 (pre_process_track_list),
    :46-98 (pre_process_optimize_looping), :106-156 (pre_process_sanitize_constant_tracks); compression/impl/pre_process.scalar.h:44-73
    (pre_process_optimize_looping_scalar), :75-107 (pre_process_sanitize_constant_tracks_scalar).  The actions on transform tracks are not
    modelled; normalize_rotations, ensure_quat_w_positive and sanitize_default_tracks do nothing to scalar tracks. *)
From Verif Require Import Word Float32 Interp TrackArray ScalarEnc.
Local Open Scope N_scope.

(** pre_process_settings_t, pre_process.h:101-119: the actions that do something to scalar tracks, the precision policy, and whether
    additive_format is none *)
Record pp_settings := { pp_optimize_looping : bool; pp_sanitize_constant : bool; pp_lossy : bool; pp_additive : bool }.
Definition with_samples (t : strack) (l : list (list f32)) : strack := {| st_track := st_track t; st_name := st_name t; st_samples := l |}.

(** pre_process.scalar.h:54-66: every track is tested, up to the first that does not loop *)
Fixpoint ends_match (last : nat) (ts : list strack) : outcome bool :=
  match ts with
  | [] => Ok true
  | t :: rest =>
      match nth_error (st_samples t) 0, nth_error (st_samples t) last with
      | Some f, Some l => if negb (all_near_equal (promote f) (promote l) (precision (st_track t))) then Ok false else ends_match last rest
      | _, _ => UB
      end
  end.
(** :68-72 track_[last_sample_index] = track_[0] *)
Fixpoint write_sample (k : nat) (v : list f32) (l : list (list f32)) : outcome (list (list f32)) :=
  match l, k with
  | [], _ => UB
  | _ :: r, O => Ok (v :: r)
  | x :: r, S k => bindo (write_sample k v r) (fun r => Ok (x :: r))
  end.
Fixpoint match_ends (last : nat) (ts : list strack) : outcome (list strack) :=
  match ts with
  | [] => Ok []
  | t :: rest =>
      match nth_error (st_samples t) 0 with
      | Some f => bindo (write_sample last f (st_samples t)) (fun l => bindo (match_ends last rest) (fun rest => Ok (with_samples t l :: rest)))
      | None => UB
      end
  end.
(** pre_process.impl.h:46-98, pre_process.scalar.h:44-73; the number of samples is that of the first track *)
Definition pre_process_optimize_looping (s : pp_settings) (lp : looping_policy) (ts : list strack) : outcome (list strack) :=
  if negb (pp_lossy s) then Ok ts
  else match lp with
  | lp_wrap => Ok ts
  | lp_clamp =>
      if list_num_samples ts <=? 1 then Ok ts
      else let last := N.to_nat (list_num_samples ts - 1) in
        bindo (ends_match last ts) (fun is_looping => if is_looping : bool then match_ends last ts else Ok ts)
  end.

(** pre_process.scalar.h:75-107.  [st_samples] has the num_samples of the track.  The minimum starts at the first sample, the maximum at the
    last one, and the loop starts at the second one: the first sample is not part of the maximum (unless it is the only one). *)
Definition sanitize_constant_track (t : strack) : outcome strack :=
  match st_samples t with
  | [] => UB
  | first :: rest =>
      let mn := fold_left (fun m s => map2 fmin m s) (map promote rest) (promote first) in
      let mx := fold_left (fun m s => map2 fmax m s) (map promote rest) (promote (last (st_samples t) [])) in
      if forallb (fun e => fle e (precision (st_track t))) (map2 fsub mx mn)
      then Ok (with_samples t (first :: map (fun _ => first) rest))
      else Ok t
  end.
Fixpoint sanitize_constant_tracks (ts : list strack) : outcome (list strack) :=
  match ts with
  | [] => Ok []
  | t :: rest => bindo (sanitize_constant_track t) (fun t => bindo (sanitize_constant_tracks rest) (fun rest => Ok (t :: rest)))
  end.
Definition pre_process_sanitize_constant (s : pp_settings) (ts : list strack) : outcome (list strack) :=
  if negb (pp_lossy s) then Ok ts else sanitize_constant_tracks ts.

(** pre_process_track_list, pre_process.impl.h:183-261: whether there is no error, and the track list *)
Definition pre_process_track_list (s : pp_settings) (lp : looping_policy) (ts : list strack) : outcome (bool * list strack) :=
  match ts with
  | [] => Ok (true, ts)
  | _ =>
      if list_num_samples ts =? 0 then Ok (true, ts)
      else if pp_additive s then Ok (false, ts)
      else
        bindo (if pp_optimize_looping s then pre_process_optimize_looping s lp ts else Ok ts) (fun ts =>
        bindo (if pp_sanitize_constant s then pre_process_sanitize_constant s ts else Ok ts) (fun ts => Ok (true, ts)))
  end.
