(** Facts about the validation of the settings. *)
From Coq Require Import ZArith NArith Reals List Bool Lia Lra ZifyBool ZifyN ZifyNat.
From Flocq Require Import Core.
From Verif Require Import Word WordFacts MemoryUtils MemoryFacts Float32 Float32Facts Headers HeadersFacts DbBuild DbLayout ScalarDec ScalarMeta TransMeta Settings.
Ltac Zify.zify_post_hook ::= idtac.
Import ListNotations.
Local Open Scope N_scope.

Lemma multiple_of_4096 x : x < 2 ^ 32 -> (align_to 32 x 4096 = x <-> x mod 4096 = 0).
Proof.
  intros H. change (2 ^ 32) with 4294967296 in H.
  assert (E : align_to 32 x 4096 = (4096 * ((x + 4095) / 4096)) mod 4294967296).
  { unfold align_to. change (subw 64 4096 1) with 4095. rewrite addw_small by (change (2 ^ 64) with 18446744073709551616; lia).
    rewrite (land_not_low (x + 4095) 12) by (change (2 ^ 64) with 18446744073709551616; lia). change (2 ^ 12) with 4096. reflexivity. }
  rewrite E. clear E. set (q := (x + 4095) / 4096). pose proof (N.div_mod (x + 4095) 4096 ltac:(discriminate)) as D. pose proof (N.mod_lt (x + 4095) 4096 ltac:(discriminate)) as M. fold q in D.
  set (r := (x + 4095) mod 4096) in *. clearbody q r. split.
  - intros E. assert (C : 4096 * q < 4294967296 \/ 4096 * q = 4294967296) by lia. destruct C as [C|C].
    + rewrite N.mod_small in E by exact C. rewrite <- E, N.mul_comm. apply N.mod_mul. discriminate.
    + rewrite C in E. change (4294967296 mod 4294967296) with 0 in E. rewrite <- E. reflexivity.
  - intros E. apply N.div_exact in E; [|discriminate]. set (k := x / 4096) in *. clearbody k. rewrite N.mod_small by lia. lia.
Qed.
Lemma unit_spec x : out_of_unit x = false <-> ffinite x = true /\ (0 <= FR x <= 1)%R.
Proof.
  unfold out_of_unit, fgt. destruct (ffinite x) eqn:F; cbn [negb orb]; [|split; [discriminate|intros [? _]; discriminate]].
  rewrite orb_false_iff, (flt_Rf x f_zero F f_zero_fin), (flt_Rf f_one x f_one_fin F), f_zero_R, f_one_R. tauto.
Qed.
Lemma eps_R : ffinite f_epsilon = true /\ FR f_epsilon = (10995116 / 1099511627776)%R.
Proof. split; [reflexivity|]. unfold FR, f_epsilon. vm_compute. lra. Qed.
Lemma one_eps_R : ffinite (fadd f_one f_epsilon) = true /\ FR (fadd f_one f_epsilon) = rnd (1 + FR f_epsilon) /\ FR (fadd f_one f_epsilon) = (1 + 84 / 8388608)%R.
Proof.
  destruct eps_R as [F E]. destruct (fadd_R f_one f_epsilon f_one_fin F) as [A B].
  - rewrite f_one_R, E. unfold fbig. rewrite Rabs_pos_eq by lra. change (bpow radix2 127) with (IZR (2 ^ 127)). apply Rle_trans with 2%R; [lra|]. apply IZR_le. lia.
  - split; [exact A|]. rewrite f_one_R in B. split; [exact B|]. unfold FR, f_epsilon. vm_compute. lra.
Qed.
Definition sum_ok (l m : f32) : Prop := (FR f_epsilon <= rnd (FR l + FR m) <= rnd (1 + FR f_epsilon))%R.
Lemma sum_spec l m : out_of_unit l = false -> out_of_unit m = false ->
  (flt (fadd l m) f_epsilon || fgt (fadd l m) (fadd f_one f_epsilon) = false <-> sum_ok l m).
Proof.
  intros L M. apply unit_spec in L as [FL RL]. apply unit_spec in M as [FM RM]. destruct (fadd_R l m FL FM) as [A B].
  - unfold fbig. rewrite Rabs_pos_eq by lra. change (bpow radix2 127) with (IZR (2 ^ 127)). apply Rle_trans with 2%R; [lra|]. apply IZR_le. lia.
  - destruct eps_R as [FE _]. destruct one_eps_R as (FO & EO & _). unfold fgt, sum_ok. rewrite orb_false_iff, (flt_Rf _ _ A FE), (flt_Rf _ _ FO A), EO, B. tauto.
Qed.
Lemma db_settings_spec s : max_chunk_size s < 2 ^ 32 -> (db_settings_is_valid s = None <->
  4096 <= max_chunk_size s /\ max_chunk_size s mod 4096 = 0 /\ ffinite (medium_proportion s) = true /\ (0 <= FR (medium_proportion s) <= 1)%R /\
  ffinite (low_proportion s) = true /\ (0 <= FR (low_proportion s) <= 1)%R /\ sum_ok (low_proportion s) (medium_proportion s)).
Proof.
  intros H. unfold db_settings_is_valid. change (4 * 1024) with 4096. destruct (N.ltb_spec (max_chunk_size s) 4096) as [L|L]; [split; [discriminate|lia]|].
  pose proof (multiple_of_4096 _ H) as MU. destruct (N.eqb_spec (align_to 32 (max_chunk_size s) 4096) (max_chunk_size s)) as [E|E]; cbn [negb]; [|split; [discriminate|tauto]].
  destruct (out_of_unit (medium_proportion s)) eqn:M; [split; [discriminate|]; intros (_ & _ & A & B & _); rewrite (proj2 (unit_spec _) (conj A B)) in M; discriminate|].
  destruct (out_of_unit (low_proportion s)) eqn:Lo; [split; [discriminate|]; intros (_ & _ & _ & _ & A & B & _); rewrite (proj2 (unit_spec _) (conj A B)) in Lo; discriminate|].
  pose proof (sum_spec _ _ Lo M) as SS. apply unit_spec in M, Lo. cbv zeta. destruct (_ || _); split; try discriminate; [|tauto|tauto].
  intros (_ & _ & _ & _ & _ & _ & S). apply SS in S. discriminate.
Qed.
Lemma strip_spec s : strip_is_valid s = None <-> ffinite (proportion s) = true /\ (0 <= FR (proportion s) <= 1)%R /\ ffinite (threshold s) = true /\ (0 <= FR (threshold s))%R.
Proof.
  unfold strip_is_valid. destruct (out_of_unit (proportion s)) eqn:P.
  - split; [discriminate|]. intros (A & B & _). rewrite (proj2 (unit_spec _) (conj A B)) in P. discriminate.
  - apply unit_spec in P. destruct (ffinite (threshold s)) eqn:F; cbn [negb orb]; [|split; [discriminate|intros (_ & _ & ? & _); discriminate]].
    destruct (flt (threshold s) f_zero) eqn:T.
    + apply (flt_R _ _ F f_zero_fin) in T. rewrite f_zero_R in T. split; [discriminate|]. intros (_ & _ & _ & C). lra.
    + apply (flt_Rf _ _ F f_zero_fin) in T. rewrite f_zero_R in T. tauto.
Qed.
Lemma enabled_spec s : strip_is_valid s = None -> (strip_is_enabled s = true <-> (0 < FR (proportion s))%R \/ (0 < FR (threshold s))%R \/ strip_trivial s = true).
Proof.
  intros V. apply strip_spec in V as (A & _ & B & _). unfold strip_is_enabled, fgt. rewrite !orb_true_iff, (flt_R _ _ f_zero_fin A), (flt_R _ _ f_zero_fin B), f_zero_R. tauto.
Qed.
