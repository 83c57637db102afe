(** C28: the optional metadata.  Models: ScalarEnc.v, ScalarMeta.v, TransMeta.v; vocabulary: ScalarSpec.v, TransMetaSpec.v. *)
From Verif Require Import Word Float32 Float32Facts Interp InterpFacts TrackArray TrackSpec Headers
  ScalarEnc ScalarDec ScalarSpec ScalarExamples ScalarTrackFacts ScalarLink ScalarMeta ScalarMetaFacts Prop_ScalarCodec DbBuild TransMeta TransMetaSpec TransMetaFacts.
From Coq Require Import Lia ZifyBool ZifyN ZifyNat.
Ltac Zify.zify_post_hook ::= idtac.
Import ListNotations.
Local Open Scope N_scope.

(** Scalar clips: whatever the flags, the name and the description of every output track are the ones given, when included. *)
Theorem C28_scalar_track_metadata : forall s list_name lp ts, scalar_list list_name ts ->
  exists m, compress_scalar s list_name lp ts = Ok (Some m) /\
  forall t, In t ts -> output_index (st_track t) <> k_invalid_track_index ->
    bindo (get_track_name m (output_index (st_track t))) (read_string m) = Ok (if include_track_names s then c_str (st_name t) else []) /\
    get_scalar_description m (output_index (st_track t)) = Ok (if include_track_descriptions s then Some (precision (st_track t)) else None) /\
    get_parent_track_index m (output_index (st_track t)) = Ok k_invalid_track_index.
Proof.
  intros s list_name lp ts W. destruct (compress_ok s list_name lp ts W) as (out & anim & (_ & OT & _) & S & LA & _ & _ & E). eexists. split; [exact E|].
  intros t I OI. pose proof (OT t I OI) as NT. pose proof (both_track s list_name _ anim S LA _ _ NT) as B. rewrite N2Nat.id in B.
  destruct (ctrack_sound s list_name lp ts W t I) as (_ & _ & _ & CN & CP & _). rewrite <- (ctrack_eq s list_name lp ts W t I) in CN, CP. rewrite CN, CP in B. exact B.
Qed.
Print Assumptions C28_scalar_track_metadata.

(** The name of the list comes back when the names of the tracks are included too.  Without them get_name gives the empty
    string; with them and without the name of the list it gives a null pointer, which cannot be read. *)
Theorem C28_scalar_list_name : forall s list_name lp ts, scalar_list list_name ts -> outputs (map st_track ts) <> [] ->
  exists m, compress_scalar s list_name lp ts = Ok (Some m) /\
  bindo (get_name m) (read_string m) =
    if include_track_names s then (if include_track_list_name s then Ok (c_str list_name) else UB) else Ok [].
Proof.
  intros s list_name lp ts W NE. destruct (compress_ok s list_name lp ts W) as (out & anim & (OL & _) & S & LA & _ & _ & E). eexists. split; [exact E|].
  apply both_list_name; [assumption|assumption|]. cbn [context_of sc_tracks]. intros Z. rewrite Z in OL. destruct (outputs _); [congruence|discriminate OL].
Qed.
Print Assumptions C28_scalar_list_name.

(** so the flags are not independent: *)
Definition with_flags (a b : bool) : ssettings := {| optimize_loops := false; include_track_list_name := a; include_track_names := b; include_track_descriptions := false |}.
Definition name_of (s : ssettings) : outcome (option (list N)) :=
  bindo (compress_scalar s [107] lp_clamp ex_tracks) (fun o => match o with
  | Some m => bindo (get_name m) (fun p => match p with p_null => Ok None | _ => bindo (read_string m p) (fun x => Ok (Some x)) end)
  | None => UB end).
Theorem C28_list_name_flag_refuted : name_of (with_flags true false) = Ok (Some []) /\ name_of (with_flags false true) = Ok None /\
  name_of (with_flags true true) = Ok (Some [107]).
Proof. split; [|split]; vm_compute; reflexivity. Qed.
Print Assumptions C28_list_name_flag_refuted.

(** the hypotheses are met: ex_scalar_list, and the metadata of its first track *)
Example C28_sat : bindo (get_track_name ex_clip 1) (read_string ex_clip) = Ok [97] /\
  bindo (get_scalar_description ex_clip 1) (fun d => Ok (match d with Some p => Some (f_bits p) | None => None end)) = Ok (Some 0x3A83126F).
Proof. split; vm_compute; reflexivity. Qed.

(** Transform clips: whatever the flags, output track j has the name, parent and description of the input track it is made of;
    the parent is given as an output index.  The descriptions bring the parents along. *)
Theorem C28_transform_metadata : forall f list_name tracks mapping error prefix, transform_clip list_name tracks mapping error prefix ->
  exists m, add_metadata f list_name tracks mapping error prefix = Ok m /\
  forall j i t, nth_error mapping j = Some i -> nth_error tracks (N.to_nat i) = Some t ->
    bindo (get_track_name m (N.of_nat j)) (read_string m) = Ok (if f_names f then c_str (tt_name t) else []) /\
    exists p, output_parent mapping (tt_parent t) p /\
      get_parent_track_index m (N.of_nat j) = Ok (if f_parents f || f_descriptions f then p else k_invalid_track_index) /\
      get_transform_description m (N.of_nat j) = Ok (if f_descriptions f then Some (p, tt_description t) else None).
Proof. intros f ln tracks mapping error prefix W. destruct (got_all f _ _ _ _ _ W) as (m & E & H & _). exists m. split; [exact E|exact H]. Qed.
Print Assumptions C28_transform_metadata.

(** and the name of the list and the contributing errors *)
Theorem C28_transform_list_name : forall f list_name tracks mapping error prefix, transform_clip list_name tracks mapping error prefix -> mapping <> [] ->
  exists m, add_metadata f list_name tracks mapping error prefix = Ok m /\
  bindo (get_name m) (read_string m) = if f_names f then (if f_list_name f then Ok (c_str list_name) else UB) else Ok [].
Proof. intros f ln tracks mapping error prefix W NE. destruct (got_all f _ _ _ _ _ W) as (m & E & _ & H & _). exists m. split; [exact E|exact (H NE)]. Qed.
Print Assumptions C28_transform_list_name.
Theorem C28_contributing_error_stored : forall f list_name tracks mapping error prefix, transform_clip list_name tracks mapping error prefix -> f_error f = true -> error <> [] ->
  exists m h o, add_metadata f list_name tracks mapping error prefix = Ok m /\ metadata_header m = Ok h /\ read32 m (h + 16) = Ok o /\ load_bytes m o (length error) = Ok error.
Proof. intros f ln tracks mapping error prefix W FE NE. destruct (got_all f _ _ _ _ _ W) as (m & E & _ & _ & H). destruct (H FE NE) as (h & o & A & B & C). exists m, h, o. auto. Qed.
Print Assumptions C28_contributing_error_stored.

(** three tracks of which the first and the last are output, in reverse order; the parent of the last is the first, the parent of
    the first is the middle one *)
Definition ex_desc (k : N) : list f32 := repeat (f_of_bits k) 12.
Definition ex_ttracks : list ttrack := [{| tt_name := [97; 98]; tt_parent := 1; tt_description := ex_desc 0x3F800000 |};
  {| tt_name := []; tt_parent := k_invalid_track_index; tt_description := ex_desc 0 |}; {| tt_name := [99]; tt_parent := 0; tt_description := ex_desc 0x40000000 |}].
Definition ex_prefix : list N := repeat 0 12 ++ [10; 0; 0; 0; 2; 0; 0; 0] ++ repeat 0 13.
Example C28_transform_sat : transform_clip [107; 107] ex_ttracks [2; 0] [1; 2; 3] ex_prefix.
Proof.
  constructor; try (vm_compute; reflexivity); try (vm_compute; congruence).
  - repeat constructor.
  - constructor; [intros [C|[]]; discriminate C|]. constructor; [intros []|constructor].
  - repeat constructor.
  - unfold bytes_ok, ex_prefix. apply Forall_forall. intros x H. vm_compute in H. decompose [or] H; subst; try reflexivity; contradiction.
Qed.
Example C28_transform_runs :
  bindo (add_metadata {| f_list_name := true; f_names := true; f_parents := false; f_descriptions := true; f_error := true |} [107; 107] ex_ttracks [2; 0] [1; 2; 3] ex_prefix) (fun m =>
  bindo (get_track_name m 1) (fun p => bindo (read_string m p) (fun n =>
  bindo (get_parent_track_index m 0) (fun a => bindo (get_parent_track_index m 1) (fun b => Ok (n, a, b)))))) = Ok ([97; 98], 1, k_invalid_track_index).
Proof. vm_compute. reflexivity. Qed.
