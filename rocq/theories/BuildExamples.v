(** A concrete case that meets the hypotheses of C22 and C25: the clips of C21, built into a database. *)
From Coq Require Import ZArith NArith Reals List Bool Lia Lra.
From Flocq Require Import Core.
From Verif Require Import Word Float32 Float32Facts FloatOrder SeekSpec Strip DbTiers TierSpec Prop_Strip Prop_Tiers DbStream DbBuild ClipRewrite BuildSpec Prop_Build.
Import ListNotations.
Local Open Scope N_scope.

(** The clips of C21, with their bytes: two segments of 4 sub-tracks, and one segment of one sub-track. *)
Definition sat_bytes : list N := map (fun i => N.of_nat (i * 37 mod 251)) (seq 0 160).
Definition sat_files : list clip_file :=
  [ {| cf_hash := 1001; cf_transforms := {| tr_variable_sub_tracks := 4; tr_num_segments := 2 |}; cf_bytes := sat_bytes;
       cf_headers := [{| sh_pose_bits := 100; sh_data := 0 |}; {| sh_pose_bits := 80; sh_data := 92 |}]; cf_base := 8; cf_tail := 15 |};
    {| cf_hash := 1002; cf_transforms := {| tr_variable_sub_tracks := 1; tr_num_segments := 1 |}; cf_bytes := [8; 0; 0; 0; 77];
       cf_headers := [{| sh_pose_bits := 8; sh_data := 0 |}]; cf_base := 0; cf_tail := 15 |} ].
Definition with_data (c : db_clip) (d : list (list N)) : db_clip :=
  {| dc_num_samples := dc_num_samples c; dc_starts := dc_starts c; dc_pose_bits := dc_pose_bits c; dc_data := d; dc_order := dc_order c |}.
Definition no_clip : db_clip := {| dc_num_samples := 0; dc_starts := []; dc_pose_bits := []; dc_data := []; dc_order := None |}.
Definition sat_clip0 : db_clip := with_data (nth 0 sat_clips no_clip) [skipn 28 sat_bytes; skipn 120 sat_bytes].
Definition sat_clip1 : db_clip := with_data (nth 1 sat_clips no_clip) [[77]].
Definition sat_db_clips : list db_clip := [sat_clip0; sat_clip1].
Definition third : f32 := f_of_bits 0x3EAAAAAB.
Definition eighth : f32 := f_of_bits 0x3E000000.
Example C25_sat_input : input_ok [[5; 4]; [1]] sat_db_clips sat_files 4096 third eighth.
Proof.
  split; [reflexivity|]. split.
  { intros [|[|[|i]]] z c K1 K2; cbn [nth_error sat_db_clips] in K1, K2; [| |discriminate K1|discriminate K1]; injection K1 as <-; injection K2 as <-.
    - destruct (C21_sat_hyps 0 [5; 4] (nth 0 sat_clips no_clip) eq_refl eq_refl) as (A1 & A2 & A3 & A4 & A5 & A6 & A7 & A8 & A9).
      repeat (split; [assumption || reflexivity|]); assumption.
    - destruct (C21_sat_hyps 1 [1] (nth 1 sat_clips no_clip) eq_refl eq_refl) as (A1 & A2 & A3 & A4 & A5 & A6 & A7 & A8 & A9).
      repeat (split; [assumption || reflexivity|]); assumption. }
  split; [reflexivity|]. split.
  { intros [|[|[|i]]] z c f K1 K2 K3; cbn [nth_error sat_files sat_db_clips] in K1, K2, K3; [| |discriminate K1|discriminate K1]; injection K1 as <-; injection K2 as <-; injection K3 as <-.
    - split; [vm_compute; reflexivity|]. split; [vm_compute; repeat constructor|]. split; [reflexivity|]. split; [vm_compute; reflexivity|].
      intros [|[|[|s]]] h n K1 K2; cbn [nth_error cf_headers] in K1, K2; [| |discriminate K2|discriminate K2]; injection K1 as <-; injection K2 as <-.
      + split; [vm_compute; repeat split; congruence|]. split; [vm_compute; congruence|]. split; reflexivity.
      + split; [vm_compute; repeat split; congruence|]. split; [vm_compute; congruence|]. split; reflexivity.
    - split; [vm_compute; reflexivity|]. split; [vm_compute; repeat constructor|]. split; [reflexivity|]. split; [vm_compute; reflexivity|].
      intros [|[|s]] h n K1 K2; cbn [nth_error cf_headers] in K1, K2; [|discriminate K2|discriminate K2]; injection K1 as <-; injection K2 as <-.
      split; [vm_compute; repeat split; congruence|]. split; [vm_compute; congruence|]. split; reflexivity. }
  split; [vm_compute; reflexivity|]. split; [vm_compute; congruence|].
  assert (R3 : ffinite third = true /\ (0 <= FR third <= 1)%R). { split; [vm_compute; reflexivity|]. unfold FR. vm_compute. lra. }
  assert (R8 : ffinite eighth = true /\ (0 <= FR eighth <= 1)%R). { split; [vm_compute; reflexivity|]. unfold FR. vm_compute. lra. }
  split; [exact R3|]. split; [exact R8|]. vm_compute. congruence.
Qed.
Definition sat_run : option (list N * list (N * N) * (list N * list (N * N)) * list N) :=
  match build_tiers third eighth sat_db_clips with
  | Ok (high, medium, low) =>
      match build_bulk_data 4096 medium (jobs_of sat_files medium) true, build_bulk_data 4096 low (jobs_of sat_files low) false,
            rewrite_clip high 0 {| tr_variable_sub_tracks := 4; tr_num_segments := 2 |} sat_bytes [{| sh_pose_bits := 100; sh_data := 0 |}; {| sh_pose_bits := 80; sh_data := 92 |}] 8 15 with
      | Ok mm, Ok ml, Ok (m, outs) => Some (mm, write_database_chunk_descriptions 4096 medium (jobs_of sat_files medium),
                                      (ml, write_database_chunk_descriptions 4096 low (jobs_of sat_files low)), map st_sample_indices outs)
      | _, _, _ => None
      end
  | _ => None
  end.
(** both tiers fit in one chunk; the clip keeps key frames 0, 2, 4 of its first segment and 0, 3 of its second *)
Example C22_sat_run : match sat_run with Some (mm, dm, (ml, dl), outs) => Some (blen mm, dm, blen ml, dl, map stored_frames outs) | None => None end =
  Some (100, [(97, 0)], 122, [(122, 0)], [[0; 2; 4]; [0; 3]]).
Proof. vm_compute. reflexivity. Qed.
Example C22_sat_fits : match build_tiers third eighth sat_db_clips with
  | Ok (_, medium, low) => (bulk_size 4096 (jobs_of sat_files medium) 0 12, bulk_size 4096 (jobs_of sat_files low) 0 12, length medium, length low) | _ => (0, 0, 0%nat, 0%nat) end =
  (97, 122, 1%nat, 3%nat).
Proof. vm_compute. reflexivity. Qed.
