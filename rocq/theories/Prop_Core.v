(** C01-C04: core utilities.  Property theorems only. *)
From Verif Require Import CoreFacts.
Open Scope N_scope.

(** C01.  For a [w]-bit integral type and an alignment 2^k: [align_to] is the least multiple of the
    alignment that is not below the value, whenever the intermediate sum does not overflow. *)
Theorem C01_align_to_least_multiple : forall w v k,
  w <= 64 -> k <= w -> k < 64 -> v + (2 ^ k - 1) < 2 ^ w ->
  let r := align_to w v (2 ^ k) in
  v <= r /\ r mod 2 ^ k = 0 /\ r < v + 2 ^ k /\ (forall m, v <= m -> m mod 2 ^ k = 0 -> r <= m).
Proof. exact align_to_spec. Qed.
Print Assumptions C01_align_to_least_multiple.

Example C01_sat : 32 <= 64 /\ 4 <= 32 /\ 4 < 64 /\ 37 + (2 ^ 4 - 1) < 2 ^ 32 /\ align_to 32 37 16 = 48.
Proof. repeat split; reflexivity || discriminate. Qed.

Theorem C01_padding : forall s k, k < 64 -> s + (2 ^ k - 1) < 2 ^ 64 ->
  get_required_padding s (2 ^ k) < 2 ^ k /\ s + get_required_padding s (2 ^ k) = align_to 64 s (2 ^ k).
Proof. exact get_required_padding_spec. Qed.
Print Assumptions C01_padding.

Theorem C01_is_aligned_to : forall v k, k < 64 -> is_aligned_to v (2 ^ k) = true <-> v mod 2 ^ k = 0.
Proof. exact is_aligned_to_spec. Qed.
Print Assumptions C01_is_aligned_to.

Theorem C01_is_power_of_two : forall v, v < 2 ^ 64 -> is_power_of_two v = true <-> exists k, v = 2 ^ k.
Proof. exact is_power_of_two_spec. Qed.
Print Assumptions C01_is_power_of_two.

(** The "unsafe cast" assertion is exact: it accepts precisely the representable values. *)
Theorem C01_checked_casts : forall w,
  (forall v, is_static_cast_safe_unsigned w v = true <-> v < 2 ^ w) /\
  (forall z, is_static_cast_safe_to_unsigned w z = true <-> (0 <= z < 2 ^ Z.of_N w)%Z).
Proof. intros w; split; [exact (cast_unsigned_spec w)|exact (cast_to_unsigned_spec w)]. Qed.
Print Assumptions C01_checked_casts.

(** C02.  The copied bits, the untouched bits, the length of the buffer; the model makes an access
    outside either buffer [UB], so [Ok] also says that no such access happens, and that the loop ends. *)
Theorem C02_memcpy_bits : forall dest dbo src sbo n,
  bytes_ok dest -> bytes_ok src -> dbo + n <= 8 * blen dest -> sbo + n <= 8 * blen src ->
  exists dest', memcpy_bits dest dbo src sbo n = Ok dest' /\
    length dest' = length dest /\ bytes_ok dest' /\
    forall i, mbit dest' i = if (dbo <=? i) && (i <? dbo + n) then mbit src (sbo + (i - dbo)) else mbit dest i.
Proof. exact memcpy_bits_spec. Qed.
Print Assumptions C02_memcpy_bits.

Example C02_sat : bytes_ok [0xAA; 0x55; 0xF0] /\ bytes_ok [0x12; 0x34; 0x56] /\
  5 + 13 <= 8 * blen [0xAA; 0x55; 0xF0] /\ 3 + 13 <= 8 * blen [0x12; 0x34; 0x56] /\
  memcpy_bits [0xAA; 0x55; 0xF0] 5 [0x12; 0x34; 0x56] 3 13 = Ok [172; 141; 48].
Proof. unfold bytes_ok. split; [|split; [|split; [|split]]]; try (vm_compute; congruence); repeat (apply Forall_cons; [reflexivity|]); apply Forall_nil. Qed.

(** ... and conversely a request that does not fit is the out of bounds outcome (never a silent result). *)
Theorem C02_memcpy_bits_bounds_needed : forall dest dbo src sbo n,
  bytes_ok dest -> bytes_ok src -> n <> 0 ->
  8 * blen dest < dbo + n \/ 8 * blen src < sbo + n -> memcpy_bits dest dbo src sbo n = UB.
Proof. exact memcpy_bits_oob. Qed.
Print Assumptions C02_memcpy_bits_bounds_needed.

(** C03. *)
Theorem C03_count_set_bits : forall v,
  (v < 2 ^ 8 -> count_set_bits8 v = num_set_bits 8 v) /\
  (v < 2 ^ 16 -> count_set_bits16 v = num_set_bits 16 v) /\
  (v < 2 ^ 32 -> count_set_bits32 v = num_set_bits 32 v) /\
  (v < 2 ^ 64 -> count_set_bits64 v = num_set_bits 64 v).
Proof. exact count_bits_all. Qed.
Print Assumptions C03_count_set_bits.

Theorem C03_leading_trailing_zeros : forall v, v < 2 ^ 32 ->
  (v = 0 -> count_leading_zeros v = 32 /\ count_trailing_zeros v = 32) /\
  (v <> 0 -> (exists i, i < 32 /\ is_msb v i /\ count_leading_zeros v = 31 - i) /\
             (exists i, i < 32 /\ is_lsb v i /\ count_trailing_zeros v = i)).
Proof. exact clz_all. Qed.
Print Assumptions C03_leading_trailing_zeros.

Theorem C03_rotate_bits_left : forall v n i, v < 2 ^ 32 -> n < 32 -> i < 32 ->
  N.testbit (rotate_bits_left v n) ((i + n) mod 32) = N.testbit v i.
Proof. exact rotate_bits_left_spec. Qed.
Print Assumptions C03_rotate_bits_left.

Theorem C03_and_not : forall a b i, a < 2 ^ 32 -> b < 2 ^ 32 ->
  N.testbit (and_not a b) i = negb (N.testbit a i) && N.testbit b i.
Proof. exact testbit_and_not. Qed.
Print Assumptions C03_and_not.

Theorem C03_byte_swap : forall v,
  (v < 2 ^ 16 -> le_bytes 2 (byte_swap16 v) = rev (le_bytes 2 v) /\ byte_swap16 (byte_swap16 v) = v /\ byte_swap16 v < 2 ^ 16) /\
  (v < 2 ^ 32 -> le_bytes 4 (byte_swap32 v) = rev (le_bytes 4 v) /\ byte_swap32 (byte_swap32 v) = v /\ byte_swap32 v < 2 ^ 32) /\
  (v < 2 ^ 64 -> le_bytes 8 (byte_swap64 v) = rev (le_bytes 8 v) /\ byte_swap64 (byte_swap64 v) = v /\ byte_swap64 v < 2 ^ 64).
Proof. exact byte_swap_all. Qed.
Print Assumptions C03_byte_swap.

Example C03_sat : 0x80000100 < 2 ^ 32 /\ 0x80000100 <> 0 /\ count_leading_zeros 0x80000100 = 0 /\
  count_trailing_zeros 0x80000100 = 8 /\ count_set_bits32 0x80000100 = 2 /\
  rotate_bits_left 0x80000100 4 = 0x1008 /\ byte_swap32 0x12345678 = 0x78563412.
Proof. repeat split; discriminate || reflexivity. Qed.

(** C04.  Every history of operations within bounds runs to completion, and what [bitset_test] and
    [bitset_count_set_bits] then report is the abstract set [set_run ops] (functions from indices to
    booleans; see BitsetFacts.v) applied to what the words initially contained. *)
Theorem C04_bitset_histories : forall ops num_bits b,
  num_bits <= 2 ^ 32 - 1 - 31 ->
  let size := bitset_size_from_num_bits num_bits in
  words_ok b -> blen b = size -> Forall (op_ok size) ops ->
  exists b', bs_run b ops = Ok b' /\ blen b' = size /\
    (forall j, j < 32 * size -> bitset_test b' j = Ok (set_run ops (bmem b) j)) /\
    (forall j, 32 * size <= j -> bitset_test b' j = UB) /\
    bitset_count_set_bits b' = card (N.to_nat (32 * size)) (set_run ops (bmem b)).
Proof. exact bitset_history. Qed.
Print Assumptions C04_bitset_histories.

(** the description always covers the requested bits with less than one word of slack *)
Theorem C04_bitset_size : forall n, n <= 2 ^ 32 - 1 - 31 ->
  n <= 32 * bitset_size_from_num_bits n /\ 32 * bitset_size_from_num_bits n < n + 32 /\
  bitset_num_bits (bitset_size_from_num_bits n) = 32 * bitset_size_from_num_bits n.
Proof. exact bitset_size_spec. Qed.
Print Assumptions C04_bitset_size.

Example C04_sat :
  let ops := [OpReset false; OpSet 3 true; OpSetRange 30 5 true; OpSet 32 false; OpRemoveAll [0; 0x20000000]] in
  words_ok [0x1; 0x2] /\ blen [0x1; 0x2] = bitset_size_from_num_bits 40 /\ Forall (op_ok 2) ops /\
  bs_run [0x1; 0x2] ops = Ok [0x10000003; 0x40000000].
Proof.
  unfold words_ok. split; [repeat (apply Forall_cons; [reflexivity|]); apply Forall_nil|].
  split; [reflexivity|]. split; [|reflexivity].
  repeat (apply Forall_cons; [unfold op_ok, words_ok; try split; try reflexivity; try discriminate|]); try apply Forall_nil.
Qed.
