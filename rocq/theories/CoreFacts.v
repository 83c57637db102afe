(** Bundled statements for the core utilities (used by Prop_Core.v). *)
From Coq Require Import Lia ZifyBool ZifyNat ZifyN.
From Verif Require Export MemoryFacts BitManipFacts BitsetFacts BitSpec.
Open Scope N_scope.

Lemma cast_unsigned_spec w v : is_static_cast_safe_unsigned w v = true <-> v < 2 ^ w.
Proof.
  unfold is_static_cast_safe_unsigned, wrapw. rewrite N.eqb_eq. split; intros H.
  - rewrite <- H. apply N.mod_lt. apply N.pow_nonzero. discriminate.
  - apply N.mod_small; exact H.
Qed.

Lemma cast_to_unsigned_spec w z : is_static_cast_safe_to_unsigned w z = true <-> (0 <= z < 2 ^ Z.of_N w)%Z.
Proof.
  unfold is_static_cast_safe_to_unsigned. rewrite andb_true_iff, Z.leb_le, Z.eqb_eq.
  assert (P : (0 < 2 ^ Z.of_N w)%Z) by (apply Z.pow_pos_nonneg; lia).
  split.
  - intros [H1 H2]. pose proof (Z.mod_pos_bound z _ P). lia.
  - intros H. split; [lia|]. apply Z.mod_small; exact H.
Qed.

Lemma count_bits_all v :
  (v < 2 ^ 8 -> count_set_bits8 v = num_set_bits 8 v) /\
  (v < 2 ^ 16 -> count_set_bits16 v = num_set_bits 16 v) /\
  (v < 2 ^ 32 -> count_set_bits32 v = num_set_bits 32 v) /\
  (v < 2 ^ 64 -> count_set_bits64 v = num_set_bits 64 v).
Proof.
  repeat split; [apply count_set_bits8_spec|apply count_set_bits16_spec|apply count_set_bits32_spec|apply count_set_bits64_spec].
Qed.

Lemma clz_all v : v < 2 ^ 32 ->
  (v = 0 -> count_leading_zeros v = 32 /\ count_trailing_zeros v = 32) /\
  (v <> 0 -> (exists i, i < 32 /\ is_msb v i /\ count_leading_zeros v = 31 - i) /\
             (exists i, i < 32 /\ is_lsb v i /\ count_trailing_zeros v = i)).
Proof.
  intros Hv. split.
  - intros ->. split; [apply count_leading_zeros_0|apply count_trailing_zeros_0].
  - intros Hn. split.
    + exists (N.log2 v). assert (M : is_msb v (N.log2 v)) by (apply is_msb_log2; exact Hn).
      assert (B : N.log2 v < 32) by (apply N.log2_lt_pow2; lia).
      split; [exact B|]. split; [exact M|]. apply count_leading_zeros_spec; assumption.
    + destruct (lsb_exists v Hn) as [i Hi].
      assert (B : i < 32).
      { destruct (N.lt_ge_cases i 32) as [L|L]; [exact L|]. destruct Hi as [Hi _].
        rewrite (testbit_high v 32 Hv i L) in Hi. discriminate. }
      exists i. split; [exact B|]. split; [exact Hi|]. apply count_trailing_zeros_spec; assumption.
Qed.

Lemma byte_swap_all v :
  (v < 2 ^ 16 -> le_bytes 2 (byte_swap16 v) = rev (le_bytes 2 v) /\ byte_swap16 (byte_swap16 v) = v /\ byte_swap16 v < 2 ^ 16) /\
  (v < 2 ^ 32 -> le_bytes 4 (byte_swap32 v) = rev (le_bytes 4 v) /\ byte_swap32 (byte_swap32 v) = v /\ byte_swap32 v < 2 ^ 32) /\
  (v < 2 ^ 64 -> le_bytes 8 (byte_swap64 v) = rev (le_bytes 8 v) /\ byte_swap64 (byte_swap64 v) = v /\ byte_swap64 v < 2 ^ 64).
Proof.
  repeat split; intros.
  all: first [apply le_bytes_byte_swap16|apply le_bytes_byte_swap32|apply le_bytes_byte_swap64
             |apply byte_swap16_involutive|apply byte_swap32_involutive|apply byte_swap64_involutive
             |apply byte_swap16_lt|apply byte_swap32_lt|apply byte_swap64_lt]; assumption.
Qed.
