(** C18, C27: decompression of scalar clips.  The vocabulary is in ScalarSpec.v: [do_calls] runs a history of API calls on
    a decompression context, what a decompression hands to the writer is the list of (track index, value), in order. *)
From Coq Require Import NArith List Bool.
From Verif Require Import Word Float32 Interp ScalarEnc ScalarDec ScalarSpec ScalarDecFacts ScalarSeekFacts ScalarExamples.
Import ListNotations.
Local Open Scope N_scope.

(** Whatever the buffer and the history of calls on the context: if decompress_tracks with one writer succeeds, there is
    one value per track such that decompress_tracks, with any writer that rounds in the same way, hands it every value it
    does not skip, in order, and decompress_track(i) hands the value of track i, whether it is skipped or not (nothing
    when i is not a track). *)
Theorem C18_random_access_is_bulk : forall ds history c w out,
  do_calls ds fresh_context history = Ok c -> decompress_tracks ds c w = Ok out ->
  exists vals, forall w', same_rounding w w' ->
    decompress_tracks ds c w' = Ok (not_skipped w' (numbered 0 vals)) /\
    forall i, decompress_track ds c i w' = Ok (match nth_error vals (N.to_nat i) with Some v => [(i, v)] | None => [] end).
Proof.
  intros ds history c w out H E. apply random_access with (out := out); [|exact E].
  exact (offsets_calls ds history _ _ offsets_fresh H).
Qed.
Print Assumptions C18_random_access_is_bulk.

(** Skipping tracks does not disturb the others *)
Theorem C18_skips_do_not_disturb : forall ds history c w w' out,
  do_calls ds fresh_context history = Ok c -> decompress_tracks ds c w = Ok out -> same_rounding w w' ->
  exists out', decompress_tracks ds c w' = Ok out' /\
    forall i v, w_skip w i = false -> w_skip w' i = false -> (In (i, v) out <-> In (i, v) out').
Proof.
  intros ds history c w w' out H E R. destruct (C18_random_access_is_bulk ds history c w out H E) as (vals & V).
  destruct (V w' R) as [A _]. destruct (V w (fun _ _ => eq_refl)) as [B _]. rewrite E in B. injection B as ->.
  eexists. split; [exact A|]. intros i v S S'. unfold not_skipped. rewrite !filter_In. cbn [fst]. rewrite S, S'. tauto.
Qed.
Print Assumptions C18_skips_do_not_disturb.

(** the hypotheses are met: three tracks, one of each kind, sought between two key frames; the second writer skips one *)
Example C18_example :
  let h := [c_initialize ex_clip; c_seek (fdiv (f_of_N 1) (f_of_N 20)) rp_none] in
  run ex_ds h ex_writer = Ok [(0, [1074161254]); (1, [1073741824]); (2, [1069966950])] /\
  run ex_ds h ex_skip = Ok [(0, [1074161254]); (2, [1069966950])] /\
  run1 ex_ds h ex_skip 1 = Ok [(1, [1073741824])] /\ run1 ex_ds h ex_skip 3 = Ok [].
Proof. vm_compute. repeat split; reflexivity. Qed.

(** Once a context has been initialized with a clip and its looping policy set, the pose after a seek does not depend on
    what was done before the initialization nor on the seeks in between. *)
Theorem C27_seeks_do_not_matter : forall ds before m loops seeks t p c,
  clamp_sample_time ds = true -> Forall is_looping_call loops -> Forall is_seek_call seeks ->
  do_calls ds fresh_context (before ++ c_initialize m :: loops ++ seeks ++ [c_seek t p]) = Ok c -> fle f_zero (d_duration c) = true ->
  exists c', do_calls ds fresh_context (c_initialize m :: loops ++ [c_seek t p]) = Ok c' /\ same_pose ds c c'.
Proof. intros ds before m loops seeks t p c C. apply history_irrelevant. exact C. Qed.
Print Assumptions C27_seeks_do_not_matter.

(** What the code does not do: a seek that repeats the previous request does nothing, even if the looping policy changed in
    between.  The same calls without the first seek give another pose. *)
Theorem C27_looping_change_is_missed_refuted : exists ds m t p w,
  clamp_sample_time ds = true /\
  run ds [c_initialize m; c_seek t p; c_looping (Some lp_wrap); c_seek t p] w = Ok [(0, [1082130432]); (1, [1073741824]); (2, [1073741824])] /\
  run ds [c_initialize m; c_looping (Some lp_wrap); c_seek t p] w = Ok [(0, [1065354035]); (1, [1073741824]); (2, [1036831949])].
Proof. exists ex_ds, ex_clip, two_30th, rp_ceil, ex_writer. vm_compute. repeat split; reflexivity. Qed.
Print Assumptions C27_looping_change_is_missed_refuted.

Example C27_example :
  let h := [c_initialize ex_clip; c_seek two_30th rp_floor] ++ c_initialize ex_clip :: [c_looping (Some lp_wrap)] ++
    [c_seek f_zero rp_none; c_seek two_30th rp_ceil; c_seek two_30th rp_none] ++ [c_seek two_30th rp_ceil] in
  bindo (do_calls ex_ds fresh_context h) (fun c => Ok (fle f_zero (d_duration c))) = Ok true /\
  run ex_ds h ex_writer = Ok [(0, [1065354035]); (1, [1073741824]); (2, [1036831949])].
Proof. vm_compute. split; reflexivity. Qed.
