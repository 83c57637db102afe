(** Vocabulary for the metadata of transform clips: what compression is given, and what comes back. *)
From Verif Require Import Word Headers Pieces TrackArray ScalarEnc ScalarDec TransMeta.
Import ListNotations.
Local Open Scope N_scope.

(** the names of the tracks that are output, in bytes *)
Definition output_names_size (tracks : list ttrack) (mapping : list N) : N :=
  sum_n (map (fun i => match nth_error tracks (N.to_nat i) with Some t => blen (tt_name t) | None => 0 end) mapping).
(** [mapping] lists the input tracks in output order, [prefix] is the clip up to its metadata and everything fits a 32 bit size *)
Record transform_clip (list_name : list N) (tracks : list ttrack) (mapping error prefix : list N) : Prop := {
  tc_mapping : Forall (fun i => i < N.of_nat (length tracks)) mapping;
  tc_unique : NoDup mapping;
  tc_descriptions : Forall (fun t => length (tt_description t) = 12%nat) tracks;
  tc_count : N.of_nat (length tracks) < 2 ^ 32;
  tc_header : 32 <= blen prefix;
  tc_bytes : bytes_ok prefix;
  tc_num_tracks : h_num_tracks prefix = Ok (N.of_nat (length mapping));
  tc_version : h_version prefix = Ok version_latest;
  tc_fits : blen prefix + blen list_name + blen error + output_names_size tracks mapping + 57 * N.of_nat (length mapping) < 2 ^ 32 - 512
}.
(** the output index of a parent: its place among the output tracks, or the invalid index when it is not output (or is none) *)
Definition output_parent (mapping : list N) (parent p : N) : Prop :=
  (exists k, nth_error mapping k = Some parent /\ p = N.of_nat k) \/ (~ In parent mapping /\ p = k_invalid_track_index).
