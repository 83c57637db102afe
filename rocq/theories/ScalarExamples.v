(** Concrete scalar clips, computed by the model. *)
From Verif Require Import Word Float32 Interp TrackArray ScalarEnc ScalarDec ScalarSpec.
Import ListNotations.
Local Open Scope N_scope.

Definition ex_desc (ty n out : N) (p : f32) : track :=
  {| has_data := true; track_type := ty; num_samples := n; sample_rate := f_of_N 30; transform := false; precision := p;
     shell_distance := f_zero; default_finite := true; default_normalized := true; output_index := out; parent_index := k_invalid_track_index |}.
Definition f (bits : N) : f32 := f_of_bits bits.
Definition f_0_001 : f32 := f 0x3A83126F.
(** three tracks of one component: one constant, one raw (its precision cannot be reached), one quantized, in another output order *)
Definition ex_tracks : list strack :=
  [ {| st_track := ex_desc 0 3 1 f_0_001; st_name := [97]; st_samples := [[f_of_N 2]; [f 0x40000001]; [f_of_N 2]] |};
    {| st_track := ex_desc 0 3 2 f_zero; st_name := []; st_samples := [[f 0x3DCCCCCD]; [f 0x3F8CCCCD]; [f 0x40000000]] |};
    {| st_track := ex_desc 0 3 0 f_0_001; st_name := [98; 99]; st_samples := [[f_of_N 1]; [f 0x3E4CCCCD]; [f_of_N 4]] |} ].
Definition ex_settings : ssettings := {| optimize_loops := true; include_track_list_name := true; include_track_names := true; include_track_descriptions := true |}.
Definition ex_clip : list N := match compress_scalar ex_settings [107] lp_clamp ex_tracks with Ok (Some m) => m | _ => [] end.
Definition ex_ds : dsettings := {| clamp_sample_time := true; is_wrapping_supported := true; is_per_track_rounding_supported := true; is_track_type_supported := fun _ => true |}.
Definition ex_writer : writer := {| w_rounding := fun p _ => p; w_skip := fun _ => false |}.
Definition ex_skip : writer := {| w_rounding := fun p _ => p; w_skip := fun i => i =? 1 |}.
Definition show (l : list (N * list f32)) : list (N * list N) := map (fun p => (fst p, map f_bits (snd p))) l.
Definition run (ds : dsettings) (l : list call) (w : writer) : outcome (list (N * list N)) :=
  bindo (do_calls ds fresh_context l) (fun c => bindo (decompress_tracks ds c w) (fun o => Ok (show o))).
Definition run1 (ds : dsettings) (l : list call) (w : writer) (i : N) : outcome (list (N * list N)) :=
  bindo (do_calls ds fresh_context l) (fun c => bindo (decompress_track ds c i w) (fun o => Ok (show o))).
Definition two_30th : f32 := fdiv (f_of_N 2) (f_of_N 30).
