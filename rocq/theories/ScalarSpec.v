(** Specification vocabulary for the scalar codec. *)
From Verif Require Import Word Float32 Float32Facts Interp InterpFacts TrackArray ScalarEnc ScalarDec.
From Coq Require Import Reals.
Local Open Scope N_scope.

(** values numbered from [i] *)
Fixpoint numbered (i : N) (vals : list (list f32)) : list (N * list f32) :=
  match vals with [] => [] | v :: rest => (i, v) :: numbered (i + 1) rest end.
(** those a writer does not skip *)
Definition not_skipped (w : writer) (l : list (N * list f32)) : list (N * list f32) := filter (fun p => negb (w_skip w (fst p))) l.
Definition same_rounding (w w' : writer) : Prop := forall p i, w_rounding w p i = w_rounding w' p i.

(** What a user does with a context: initialize with a clip, then any calls *)
Inductive call := c_initialize (m : list N) | c_relocated (m : list N) | c_looping (p : option looping_policy) | c_seek (t : f32) (p : rounding_policy).
Definition do_call (ds : dsettings) (c : dcontext) (x : call) : outcome dcontext :=
  match x with
  | c_initialize m => initialize ds c m
  | c_relocated m => bindo (relocated c m) (fun '(_, c) => Ok c)
  | c_looping p => set_looping_policy ds c p
  | c_seek t p => seek ds c t p
  end.
Fixpoint do_calls (ds : dsettings) (c : dcontext) (l : list call) : outcome dcontext :=
  match l with [] => Ok c | x :: rest => bindo (do_call ds c x) (fun c => do_calls ds c rest) end.

Definition is_looping_call (x : call) : Prop := match x with c_looping _ => True | _ => False end.
Definition is_seek_call (x : call) : Prop := match x with c_seek _ _ => True | _ => False end.
(** two contexts no decompression tells apart *)
Definition same_pose (ds : dsettings) (c c' : dcontext) : Prop :=
  forall w, decompress_tracks ds c w = decompress_tracks ds c' w /\ forall i, decompress_track ds c i w = decompress_track ds c' i w.

(** The scalar track lists the round trip theorems are about: what track_array::is_valid accepts, with the samples there and
    finite, one to 2^22 - 3 of them, a sample rate in 2^-100 .. 2^100, and a compressed size in bits that fits in 32 bits (the
    code computes the size of the animated data in bits in a uint32_t). *)
Definition sum_of {A} (f : A -> N) (l : list A) : N := fold_right (fun x a => f x + a) 0 l.
Record scalar_list (list_name : list N) (ts : list strack) : Prop := {
  sl_valid : track_array_is_valid (map st_track ts) = true;
  sl_tracks : Forall (fun t =>
    has_data (st_track t) = true /\ transform (st_track t) = false /\ track_type (st_track t) <= 4 /\
    N.of_nat (length (st_samples t)) = num_samples (st_track t) /\ 1 <= num_samples (st_track t) < 2 ^ 22 - 2 /\
    sane (FR (sample_rate (st_track t))) /\ bytes_ok (st_name t)) ts;
  sl_values : Forall (fun t => Forall (fun v => length v = num_sample_elements (track_type (st_track t)) /\ Forall (fun x => ffinite x = true) v) (st_samples t)) ts;
  sl_name : bytes_ok list_name;
  sl_size : N.of_nat (length ts) * (128 * list_num_samples ts + 336) + 8 * (sum_of (fun t => N.of_nat (length (st_name t))) ts + N.of_nat (length list_name) + 200) < 2 ^ 32
}.

(** One frame of playback: initialize with a clip (whatever the context was used for before), seek, decompress every track *)
Definition play (ds : dsettings) (w : writer) (c0 : dcontext) (m : list N) (t : f32) (p : rounding_policy) : outcome (list (N * list f32)) :=
  bindo (initialize ds c0 m) (fun c => bindo (seek ds c t p) (fun c => decompress_tracks ds c w)).
(** the float distance of every component is at most the precision *)
Definition within (p : f32) (x y : list f32) : Prop := Forall2 (fun a b => fle (fabs (fsub a b)) p = true) x y.
(** a writer that does not ask for another policy than nearest for a track *)
Definition keeps_nearest (w : writer) : Prop :=
  forall i, w_rounding w rp_nearest i = rp_nearest \/ w_rounding w rp_nearest i = rp_none \/ w_rounding w rp_nearest i = rp_per_track.
(** the clip loops: asked for, given as clamping, and the last sample of every track is within its precision of the first *)
Definition looping (s : ssettings) (lp : looping_policy) (ts : list strack) : Prop :=
  optimize_loops s = true /\ lp = lp_clamp /\ 2 <= list_num_samples ts /\
  Forall (fun t => within (precision (st_track t)) (hd [] (st_samples t)) (last (st_samples t) [])) ts.

(** Histories of calls on clips made by compress_track_list.  [cur]: the clip the context plays. *)
Definition compressed (m : list N) : Prop :=
  exists s list_name lp ts, scalar_list list_name ts /\ compress_scalar s list_name lp ts = Ok (Some m).
(** without clamping the caller answers for the time; a clamping clip is the shortest *)
Definition legal (ds : dsettings) (cur : list N) (t : f32) : Prop :=
  clamp_sample_time ds = true \/
  exists d, finite_duration cur lp_clamp = Ok d /\ ffinite t = true /\ (0 <= FR t <= FR d)%R.
Fixpoint legal_calls (ds : dsettings) (cur : list N) (l : list call) : Prop :=
  match l with
  | [] => True
  | c_initialize m :: rest => compressed m /\ legal_calls ds m rest
  | c_relocated m :: rest => m = cur /\ legal_calls ds cur rest
  | c_looping _ :: rest => legal_calls ds cur rest
  | c_seek t _ :: rest => legal ds cur t /\ legal_calls ds cur rest
  end.

(** what a C string holds: the bytes before the first zero *)
Fixpoint c_str (name : list N) : list N := match name with [] => [] | x :: r => if x =? 0 then [] else x :: c_str r end.
