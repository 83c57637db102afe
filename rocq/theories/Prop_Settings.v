(** C30: the validation of the settings.  Model: Settings.v. *)
From Coq Require Import ZArith NArith Reals List Bool Permutation Lia Lra ZifyBool ZifyN ZifyNat.
From Flocq Require Import Core.
From Verif Require Import Word WordFacts Float32 Float32Facts Headers HeadersFacts StripSpec TierSpec DbTiers DbTiersFacts Prop_Tiers DbBuild DbLayout
  ScalarEnc ScalarDec ScalarExamples ScalarMeta TransMeta Settings SettingsFacts.
Ltac Zify.zify_post_hook ::= idtac.
Import ListNotations.
Local Open Scope N_scope.

(** Database settings are accepted exactly when the chunk size is a multiple of 4 KB, at least 4 KB, and the proportions are
    numbers in [0, 1] whose sum, rounded to a float, is between 1e-5 and 1 + 1e-5 (as floats). *)
Theorem C30_database_settings : forall s, max_chunk_size s < 2 ^ 32 -> (db_settings_is_valid s = None <->
  4096 <= max_chunk_size s /\ max_chunk_size s mod 4096 = 0 /\
  ffinite (medium_proportion s) = true /\ (0 <= FR (medium_proportion s) <= 1)%R /\
  ffinite (low_proportion s) = true /\ (0 <= FR (low_proportion s) <= 1)%R /\
  (FR (f_of_bits 0x3727C5AC) <= rnd (FR (low_proportion s) + FR (medium_proportion s)) <= rnd (1 + FR (f_of_bits 0x3727C5AC)))%R).
Proof. exact db_settings_spec. Qed.
Print Assumptions C30_database_settings.

(** In exact arithmetic: sums from 0.00001 to 1 are accepted, sums below 0.0000099999 or above 1.0000102 are refused. *)
Theorem C30_database_sum : forall s, max_chunk_size s < 2 ^ 32 -> 4096 <= max_chunk_size s -> max_chunk_size s mod 4096 = 0 ->
  ffinite (medium_proportion s) = true -> (0 <= FR (medium_proportion s) <= 1)%R -> ffinite (low_proportion s) = true -> (0 <= FR (low_proportion s) <= 1)%R ->
  let sum := (FR (low_proportion s) + FR (medium_proportion s))%R in
  ((1 / 100000 <= sum <= 1)%R -> db_settings_is_valid s = None) /\
  ((sum < 99999 / 10000000000 \/ 10000102 / 10000000 < sum)%R -> db_settings_is_valid s = Some e_sum).
Proof.
  intros s S32 B M FM RM FL RL sum. destruct eps_R as [_ EE]. destruct one_eps_R as (_ & OE & OV). split.
  - intros [H1 H2]. apply (db_settings_spec s S32). repeat (split; [assumption|]). unfold sum_ok. fold sum. split.
    + apply rnd_ge_f; [apply FR_f32|]. rewrite EE. lra.
    + rewrite <- OE. apply rnd_le_f; [apply FR_f32|]. rewrite OV. lra.
  - intros H. unfold db_settings_is_valid. change (4 * 1024) with 4096. replace (max_chunk_size s <? 4096) with false by lia.
    pose proof (proj2 (multiple_of_4096 _ S32) M) as ML. rewrite ML, N.eqb_refl. cbn [negb]. assert (UM := proj2 (unit_spec _) (conj FM RM)). assert (UL := proj2 (unit_spec _) (conj FL RL)). rewrite UM, UL. cbv zeta.
    destruct (_ || _) eqn:Q; [reflexivity|]. exfalso. apply (sum_spec _ _ UL UM) in Q. destruct Q as [Q1 Q2]. fold sum in Q1, Q2. destruct H as [H|H].
    + assert (L : (rnd sum <= IZR 10995115 * bpow radix2 (-40))%R).
      { apply rnd_le_f; [apply f32_Z; lia|]. change (bpow radix2 (-40)) with (/ 1099511627776)%R. lra. }
      rewrite EE in Q1. change (bpow radix2 (-40)) with (/ 1099511627776)%R in L. lra.
    + assert (L : (IZR 8388693 * bpow radix2 (-23) <= rnd sum)%R).
      { apply rnd_ge_f; [apply f32_Z; lia|]. change (bpow radix2 (-23)) with (/ 8388608)%R. lra. }
      rewrite <- OE, OV in Q2. change (bpow radix2 (-23)) with (/ 8388608)%R in L. lra.
Qed.
Print Assumptions C30_database_sum.

(** Whatever the accepted proportions, building a database moves no more key frames than can be moved. *)
Theorem C30_accepted_proportions : forall s sizes clips, max_chunk_size s < 2 ^ 32 -> db_settings_is_valid s = None -> length clips = length sizes ->
  (forall i z c, nth_error sizes i = Some z -> nth_error clips i = Some c -> clip_ok z c) -> total_frames sizes <= 2 ^ 24 ->
  exists high medium low, build_tiers (low_proportion s) (medium_proportion s) clips = Ok (high, medium, low) /\
    N.of_nat (length low) + N.of_nat (length medium) <= total_movable sizes /\
    N.of_nat (length high) + N.of_nat (length medium) + N.of_nat (length low) = total_frames sizes.
Proof.
  intros s sizes clips S32 V LEN CL T. apply (db_settings_spec s S32) in V as (_ & _ & FM & RM & FL & RL & _).
  destruct (C21_tiers_partition sizes clips _ _ LEN CL FL RL FM RM T) as (h & m & l & B & P & _ & _ & L1 & L2 & _). exists h, m, l. split; [exact B|]. split; [lia|].
  apply Permutation_length in P. rewrite map_length, !app_length in P. rewrite (all_frames_length sizes clips) in P by assumption. lia.
Qed.
Print Assumptions C30_accepted_proportions.

(** Keyframe stripping and compression settings *)
Theorem C30_stripping_settings : forall s, strip_is_valid s = None <->
  ffinite (proportion s) = true /\ (0 <= FR (proportion s) <= 1)%R /\ ffinite (threshold s) = true /\ (0 <= FR (threshold s))%R.
Proof. exact strip_spec. Qed.
Print Assumptions C30_stripping_settings.
Theorem C30_compression_settings : forall s, csettings_is_valid s = None <->
  has_error_metric s = true /\ strip_is_valid (keyframe_stripping s) = None /\
  ~ (enable_database_support s = true /\
     ((0 < FR (proportion (keyframe_stripping s)))%R \/ (0 < FR (threshold (keyframe_stripping s)))%R \/ strip_trivial (keyframe_stripping s) = true)).
Proof.
  intros s. unfold csettings_is_valid. destruct (has_error_metric s); cbn [negb]; [|split; [discriminate|intros (? & _); discriminate]].
  destruct (strip_is_valid (keyframe_stripping s)) eqn:V; [split; [discriminate|intros (_ & ? & _); discriminate]|]. pose proof (enabled_spec _ V) as E.
  destruct (strip_is_enabled (keyframe_stripping s)), (enable_database_support s); cbn [andb]; split; try discriminate; try tauto; intros _; repeat split; try tauto;
    intros [C1 C2]; try discriminate C1. apply E in C2. discriminate C2.
Qed.
Print Assumptions C30_compression_settings.

(** What compression makes of its settings.  It refuses invalid ones and full precision with a contributing error, asked for or
    needed by a database or by stripping; otherwise it goes on with settings that pass the same validation, segments of at most
    32 samples when it needs the contributing error, descriptions with parents, and it writes the contributing error exactly when
    it was asked for or is needed by a database. *)
Definition full_precision (s : csettings) : Prop := rotations s <> quatf_drop_w_variable /\ translations s = vector3f_full /\ scales s = vector3f_full.
Definition error_needed (s : csettings) : Prop :=
  f_error (metadata s) = true \/ enable_database_support s = true \/ strip_is_enabled (keyframe_stripping s) = true.
Lemma raw_spec s : negb (is_rotation_format_variable (rotations s)) && negb (is_vector_format_variable (translations s)) && negb (is_vector_format_variable (scales s)) = true <-> full_precision s.
Proof. unfold full_precision. destruct (rotations s), (translations s), (scales s); cbn; split; intros H; try discriminate H; try (repeat split; discriminate); try reflexivity; destruct H as (A & B & C); congruence. Qed.
Theorem C30_refused_settings : forall s, (exists e, prepare_settings s = inl e) <-> csettings_is_valid s <> None \/ (full_precision s /\ error_needed s).
Proof.
  intros s. unfold prepare_settings. destruct (csettings_is_valid s) as [e|]; [split; [intros _; left; discriminate|intros _; eexists; reflexivity]|].
  pose proof (raw_spec s) as R. set (raw := negb _ && _ && _) in *. clearbody raw. unfold error_needed.
  destruct (enable_database_support s), (strip_is_enabled (keyframe_stripping s)), (f_error (metadata s)) eqn:FE, raw; cbn [with_error f_error andb]; rewrite ?FE; cbn [andb max_num_samples];
    split; intros H; try (eexists; reflexivity); try (destruct H as [? H]; discriminate H); try (right; split; [apply R; reflexivity|tauto]);
    try (destruct H as [H|[H _]]; [congruence|apply R in H; discriminate H]); destruct H as [H|[_ [H|[H|H]]]]; congruence.
Qed.
Print Assumptions C30_refused_settings.
Theorem C30_prepared_settings : forall s s' seg remove, prepare_settings s = inr (s', seg, remove) ->
  csettings_is_valid s' = None /\ segmenting_is_valid seg = None /\
  (f_error (metadata s') = true <-> error_needed s) /\ (error_needed s -> max_num_samples seg <= 32) /\
  (full_precision s <-> max_num_samples seg = 0xFFFFFFFF) /\
  (f_error (written_flags s' remove) = true <-> f_error (metadata s) = true \/ enable_database_support s = true) /\
  f_list_name (written_flags s' remove) = f_list_name (metadata s) /\ f_names (written_flags s' remove) = f_names (metadata s) /\
  f_descriptions (written_flags s' remove) = f_descriptions (metadata s) /\ f_parents (written_flags s' remove) = f_descriptions (metadata s) || f_parents (metadata s) /\
  (rotations s', translations s', scales s', keyframe_stripping s') = (rotations s, translations s, scales s, keyframe_stripping s).
Proof.
  intros s s' seg remove. unfold prepare_settings. destruct (csettings_is_valid s) as [e|] eqn:V; [discriminate|].
  pose proof (raw_spec s) as R. set (raw := negb _ && _ && _) in *. clearbody raw. unfold error_needed.
  assert (VV : forall m, csettings_is_valid (with_metadata_flags s m) = None) by (intros m; exact V).
  destruct (enable_database_support s) eqn:DB, (strip_is_enabled (keyframe_stripping s)) eqn:SE, (f_error (metadata s)) eqn:FE, raw; cbn [with_error f_error andb max_num_samples negb]; rewrite ?FE; cbn [andb negb max_num_samples];
    intros H; try discriminate H; injection H as <- <- <-; (split; [apply VV|]); (split; [reflexivity|]);
    unfold written_flags, with_error, effective_flags; cbn [with_metadata_flags metadata f_error f_list_name f_names f_parents f_descriptions max_num_samples rotations translations scales keyframe_stripping]; rewrite ?FE;
    repeat split; try tauto; try discriminate; try (intros; lia); try (intros H; apply R in H; discriminate H); try (intros _; apply R; reflexivity); try (intros [C|[C|C]]; congruence); try (intros [C|C]; congruence); apply (proj1 R eq_refl).
Qed.
Print Assumptions C30_prepared_settings.
Definition with_metric (s : csettings) : csettings := {| rotations := rotations s; translations := translations s; scales := scales s; has_error_metric := true;
  enable_database_support := enable_database_support s; c_optimize_loops := c_optimize_loops s; keyframe_stripping := keyframe_stripping s; metadata := metadata s |}.
Example C30_raw_and_default : (exists x, prepare_settings (with_metric raw_settings) = inr x) /\ (exists x, prepare_settings (with_metric default_settings) = inr x) /\ csettings_is_valid default_settings = Some e_no_metric.
Proof. split; [eexists; vm_compute; reflexivity|split; [eexists; vm_compute; reflexivity|reflexivity]]. Qed.
(** 1 MB, 0 and 0.5: the default database settings; NaN and 5000 bytes are refused *)
Example C30_database_sat : db_settings_is_valid {| max_chunk_size := 1048576; medium_proportion := f_zero; low_proportion := f_half |} = None /\
  db_settings_is_valid {| max_chunk_size := 1048576; medium_proportion := f_of_bits 0x7FC00000; low_proportion := f_half |} = Some e_medium_proportion /\
  db_settings_is_valid {| max_chunk_size := 5000; medium_proportion := f_zero; low_proportion := f_half |} = Some e_chunk_not_multiple.
Proof. split; [|split]; vm_compute; reflexivity. Qed.

(** build_database goes on exactly when its settings are valid, it is given at least one clip, every clip is an aligned buffer
    with the right tag, version and algorithm, bits 8 (database) and 10 (stripped) of its flags clear and bit 31 (metadata) set,
    with a contributing error in its metadata, and there are samples. *)
Definition usable_clip (p : option (N * list N)) : Prop :=
  exists addr m misc size o, p = Some (addr, m) /\ tracks_is_valid addr m false = Ok None /\ h_misc m = Ok misc /\
    N.testbit misc 8 = false /\ N.testbit misc 10 = false /\ N.testbit misc 31 = true /\
    read32 m 0 = Ok size /\ read32 m (subw 64 size 20 + 16) = Ok o /\ o <> 0xFFFFFFFF.
Lemma flag_spec f misc k : hget f misc = b2n (negb (N.land misc (shlw 32 1 k) =? 0)) -> k < 32 -> (hget f misc =? 0) = negb (N.testbit misc k).
Proof.
  intros E K. rewrite E. pose proof (testbit_b2n_flag misc k 0 K) as T. rewrite N.eqb_refl in T. cbn [andb] in T. set (b := negb (N.land misc (shlw 32 1 k) =? 0)) in *. clearbody b.
  rewrite <- T. destruct b; reflexivity.
Qed.
Lemma has_metadata_bit misc : misc < 2 ^ 32 -> (get_has_metadata misc =? 0) = negb (N.testbit misc 31).
Proof.
  intros H. pose proof (N.testbit_spec' misc 31) as T. unfold get_has_metadata. rewrite N.shiftr_div_pow2. assert (Q : misc / 2 ^ 31 < 2) by (apply N.div_lt_upper_bound; [discriminate|exact H]).
  rewrite N.mod_small in T by exact Q. set (q := misc / 2 ^ 31) in *. clearbody q. destruct (N.testbit misc 31); cbn [N.b2n] in T; rewrite <- T; reflexivity.
Qed.
Lemma check_clip_spec p : match p with Some (_, m) => bytes_ok m | None => True end -> (check_clip p = Ok None <-> usable_clip p).
Proof.
  intros BY. destruct p as [[addr m]|]; cbn [check_clip]; [|split; [discriminate|intros (? & ? & ? & ? & ? & H & _); discriminate H]]. split.
  - destruct (tracks_is_valid addr m false) as [[e|]| |] eqn:TV; cbn [bindo]; try discriminate. unfold h_misc. destruct (read32 m 28) as [misc| |] eqn:HM; cbn [bindo]; try discriminate.
    assert (ML : misc < 2 ^ 32). { apply (load_le_lt m 28 4); assumption. }
    change (get_has_database misc) with (hget HasDatabase misc). rewrite (flag_spec HasDatabase misc 8 eq_refl ltac:(lia)). rewrite negb_involutive. destruct (N.testbit misc 8) eqn:B8; [discriminate|].
    change (get_has_stripped_keyframes misc) with (hget HasStrippedKeyframes misc). rewrite (flag_spec HasStrippedKeyframes misc 10 eq_refl ltac:(lia)). rewrite negb_involutive. destruct (N.testbit misc 10) eqn:B10; [discriminate|].
    rewrite (has_metadata_bit misc ML). destruct (N.testbit misc 31) eqn:B31; cbn [negb]; [|discriminate]. unfold metadata_header, h_size.
    destruct (read32 m 0) as [size| |] eqn:HS; cbn [bindo]; try discriminate. destruct (read32 m (subw 64 size 20 + 16)) as [o| |] eqn:HO; cbn [bindo]; try discriminate.
    unfold ptr_is_valid. rewrite negb_involutive. destruct (N.eqb_spec o invalid_ptr) as [E|E]; [discriminate|]. intros _. exists addr, m, misc, size, o. repeat split; auto.
  - intros (addr' & m' & misc & size & o & E & TV & HM & B8 & B10 & B31 & HS & HO & NO). injection E as <- <-. rewrite TV. cbn [bindo]. rewrite HM. cbn [bindo].
    assert (ML : misc < 2 ^ 32). { apply (load_le_lt m 28 4); assumption. }
    change (get_has_database misc) with (hget HasDatabase misc). rewrite (flag_spec HasDatabase misc 8 eq_refl ltac:(lia)), B8. cbn [negb].
    change (get_has_stripped_keyframes misc) with (hget HasStrippedKeyframes misc). rewrite (flag_spec HasStrippedKeyframes misc 10 eq_refl ltac:(lia)), B10. cbn [negb].
    rewrite (has_metadata_bit misc ML), B31. cbn [negb]. unfold metadata_header, h_size. rewrite HS. cbn [bindo]. rewrite HO. cbn [bindo]. unfold ptr_is_valid. rewrite negb_involutive.
    destruct (N.eqb_spec o invalid_ptr) as [C|C]; [elim NO; exact C|reflexivity].
Qed.
Theorem C30_build_database_arguments : forall s l, Forall (fun p => match p with Some (_, m) => bytes_ok m | None => True end) l ->
  (check_build s l = Ok None <-> db_settings_is_valid s = None /\ l <> [] /\ Forall usable_clip l /\ exists n, sum_frames l 0 = Ok n /\ n <> 0).
Proof.
  intros s l BY. unfold check_build. destruct (db_settings_is_valid s); [split; [discriminate|intros (? & _); discriminate]|].
  assert (CC : check_clips l = Ok None <-> Forall usable_clip l).
  { induction l as [|p r IH]; [split; [constructor|reflexivity]|]. inversion BY as [|? ? B1 B2]; subst. specialize (IH B2). pose proof (check_clip_spec p B1) as CP. cbn [check_clips]. split.
    - destruct (check_clip p) as [[e|]| |]; cbn [bindo]; try discriminate. intros H. constructor; [apply CP; reflexivity|apply IH; exact H].
    - intros F. inversion F as [|? ? F1 F2]; subst. rewrite (proj2 CP F1). cbn [bindo]. apply IH. exact F2. }
  destruct l as [|p r]; [cbn; split; [discriminate|intros (_ & ? & _); congruence]|]. replace (N.of_nat (length (p :: r)) =? 0) with false by (cbn [length]; lia). split.
  - destruct (check_clips (p :: r)) as [[e|]| |]; cbn [bindo]; try discriminate. destruct (sum_frames (p :: r) 0) as [n| |]; cbn [bindo]; try discriminate.
    destruct (N.eqb_spec n 0) as [E|E]; [discriminate|]. intros _. split; [reflexivity|]. split; [discriminate|]. split; [apply CC; reflexivity|]. exists n. auto.
  - intros (_ & _ & F & n & SF & NZ). rewrite (proj2 CC F). cbn [bindo]. rewrite SF. cbn [bindo]. destruct (N.eqb_spec n 0); [contradiction|reflexivity].
Qed.
Print Assumptions C30_build_database_arguments.

(** Refuted: "a clip without contributing errors is refused".  Scalar clips never set the contributing error offset, so it is zero,
    which passes for an offset, and nothing checks the type of the tracks: build_database goes on with a scalar clip. *)
Theorem C30_scalar_clip_refuted :
  check_build {| max_chunk_size := 1048576; medium_proportion := f_zero; low_proportion := f_half |} [Some (16, ex_clip)] = Ok None /\ load8 ex_clip 15 = Ok 0.
Proof. split; vm_compute; reflexivity. Qed.
Print Assumptions C30_scalar_clip_refuted.
