(** C05 (hashing), C06 (packed header word), C07 (integer packing).  Property theorems only. *)
From Verif Require Import HashFacts HeadersFacts PackingFacts.
Open Scope N_scope.

(** C05.  Two buffers of the same length that differ at exactly one position hash differently. *)
Theorem C05_single_byte_corruption_detected : forall a b i,
  bytes_ok a -> bytes_ok b ->
  length a = length b -> (i < length a)%nat -> nth i a 0 <> nth i b 0 -> (forall j, j <> i -> nth j a 0 = nth j b 0) ->
  hash32 a <> hash32 b /\ hash64 a <> hash64 b.
Proof. intros a b i Ha Hb L Hi D S. exact (hash_detects a b i Ha Hb (conj L (conj Hi (conj D S)))). Qed.
Print Assumptions C05_single_byte_corruption_detected.

Example C05_sat : let a := [1; 2; 3; 4] in let b := [1; 2; 7; 4] in
  length a = length b /\ (2 < length a)%nat /\ nth 2 a 0 <> nth 2 b 0 /\ (forall j, j <> 2%nat -> nth j a 0 = nth j b 0) /\
  hash32 a = 1463068797 /\ hash32 b = 3879634313.
Proof.
  cbn zeta. split; [reflexivity|]. split; [repeat constructor|]. split; [discriminate|]. split; [|vm_compute; auto].
  intros [|[|[|[|[|j]]]]] H; reflexivity || congruence.
Qed.

(** incremental hashing, and equal suffixes never hide a difference *)
Theorem C05_hash_is_incremental : forall a b,
  hash32 (a ++ b) = fnv1a_update 32 16777619 (hash32 a) b /\ hash64 (a ++ b) = fnv1a_update 64 1099511628211 (hash64 a) b.
Proof. exact hash_incremental. Qed.
Print Assumptions C05_hash_is_incremental.

Theorem C05_common_suffix : forall a b suf, bytes_ok suf ->
  (hash32 (a ++ suf) = hash32 (b ++ suf) <-> hash32 a = hash32 b) /\
  (hash64 (a ++ suf) = hash64 (b ++ suf) <-> hash64 a = hash64 b).
Proof. exact hash_suffix. Qed.
Print Assumptions C05_common_suffix.

Theorem C05_hash_combine_injective : forall a b c, a < 2 ^ 32 -> b < 2 ^ 32 -> c < 2 ^ 32 ->
  (hash_combine32 a c = hash_combine32 b c -> a = b) /\ (hash_combine32 c a = hash_combine32 c b -> a = b).
Proof. exact hash_combine_inj. Qed.
Print Assumptions C05_hash_combine_injective.

(** C06.  After any history of header writes, every field reads back the last value written to it, or the
    value the word held initially. *)
Theorem C06_header_fields_independent : forall ws misc,
  misc < 2 ^ 32 -> Forall (fun fv => snd fv < hcard (fst fv)) ws ->
  hrun misc ws < 2 ^ 32 /\ forall g, hget g (hrun misc ws) = last_written g (hget g misc) ws.
Proof. exact hrun_spec. Qed.
Print Assumptions C06_header_fields_independent.

Theorem C06_header_unused_bits_untouched : forall f misc v i,
  misc < 2 ^ 32 -> v < hcard f -> 11 <= i < 30 -> N.testbit (hset f misc v) i = N.testbit misc i.
Proof. exact hset_other_bits. Qed.
Print Assumptions C06_header_unused_bits_untouched.

Theorem C06_database_header_flag : forall misc v, misc < 2 ^ 16 -> v < 2 ->
  get_is_bulk_data_inline (set_is_bulk_data_inline misc v) = v /\ set_is_bulk_data_inline misc v < 2 ^ 16 /\
  forall i, 1 <= i -> N.testbit (set_is_bulk_data_inline misc v) i = N.testbit misc i.
Proof. exact bulk_inline_roundtrip. Qed.
Print Assumptions C06_database_header_flag.

Example C06_sat : let ws := [(HasScale, 1); (RotationFormat, 2); (HasMetadata, 1); (HasScale, 0); (IsWrapOptimized, 1)] in
  Forall (fun fv => snd fv < hcard (fst fv)) ws /\ hrun 0 ws = 0xC0000020 /\ hget RotationFormat (hrun 0 ws) = 2 /\ hget HasScale (hrun 0 ws) = 0.
Proof. cbn zeta. split; [repeat (apply Forall_cons; [reflexivity|]); apply Forall_nil|]. vm_compute. auto. Qed.

(** C07.  Packing on n bits, copying to any bit offset of any buffer, and unpacking there returns the same
    integers; no other bit of the buffer changes.  [unpack_uXX k n buf p] is the integer part of
    unpack_vector{k}_uXX_unsafe.  The only requirement on the buffer is that the last 4-byte load fits. *)
Theorem C07_vector2_roundtrip : forall n x y scratch dest p,
  1 <= n <= 23 -> x < 2 ^ n -> y < 2 ^ n -> bytes_ok scratch -> 16 <= blen scratch -> bytes_ok dest ->
  p + n * 2 < 2 ^ 32 -> (p + n) / 8 + 4 <= blen dest ->
  exists packed d', pack_vector2_uXX x y n scratch = Ok packed /\ memcpy_bits dest p packed 0 (n * 2) = Ok d' /\
    only_changed dest d' p (n * 2) /\ unpack_uXX 2 n d' p = Ok [x; y].
Proof. exact pack2_roundtrip. Qed.
Print Assumptions C07_vector2_roundtrip.

Theorem C07_vector3_roundtrip : forall n x y z scratch dest p,
  1 <= n <= 23 -> x < 2 ^ n -> y < 2 ^ n -> z < 2 ^ n -> bytes_ok scratch -> 16 <= blen scratch -> bytes_ok dest ->
  p + n * 3 < 2 ^ 32 -> (p + n * 2) / 8 + 4 <= blen dest ->
  exists packed d', pack_vector3_uXX x y z n scratch = Ok packed /\ memcpy_bits dest p packed 0 (n * 3) = Ok d' /\
    only_changed dest d' p (n * 3) /\ unpack_uXX 3 n d' p = Ok [x; y; z].
Proof. exact pack3_roundtrip. Qed.
Print Assumptions C07_vector3_roundtrip.

Theorem C07_vector4_roundtrip : forall n x y z w scratch dest p,
  1 <= n <= 23 -> x < 2 ^ n -> y < 2 ^ n -> z < 2 ^ n -> w < 2 ^ n -> bytes_ok scratch -> 16 <= blen scratch -> bytes_ok dest ->
  p + n * 4 < 2 ^ 32 -> (p + n * 3) / 8 + 4 <= blen dest ->
  exists packed d', pack_vector4_uXX x y z w n scratch = Ok packed /\ memcpy_bits dest p packed 0 (n * 4) = Ok d' /\
    only_changed dest d' p (n * 4) /\ unpack_uXX 4 n d' p = Ok [x; y; z; w].
Proof. exact pack4_roundtrip. Qed.
Print Assumptions C07_vector4_roundtrip.

Theorem C07_scalar_roundtrip : forall n v dest p,
  1 <= n <= 23 -> v < 2 ^ n -> bytes_ok dest -> p + n < 2 ^ 32 -> p / 8 + 4 <= blen dest ->
  exists d', write_component dest p n v = Ok d' /\ only_changed dest d' p n /\ unpack_uXX 1 n d' p = Ok [v].
Proof. exact scalar_roundtrip. Qed.
Print Assumptions C07_scalar_roundtrip.

(** raw 32-bit components (any number of them) are restored bit for bit *)
Theorem C07_raw_roundtrip : forall vs dest p,
  Forall (fun v => v < 2 ^ 32) vs -> vs <> [] -> bytes_ok dest -> p / 8 + 4 * (blen vs - 1) + 8 <= blen dest ->
  exists d', write_raw dest p vs = Ok d' /\ only_changed dest d' p (32 * blen vs) /\ unpack_32 (length vs) d' p = Ok vs.
Proof. exact raw_roundtrip. Qed.
Print Assumptions C07_raw_roundtrip.

(** why zero bits must never reach the unpackers: at a byte boundary the shift is by 32 *)
Theorem C07_zero_bits_is_undefined : forall m p, p mod 8 = 0 -> unpack_component_uXX 0 m p = UB.
Proof. exact unpack_zero_bits_ub. Qed.
Print Assumptions C07_zero_bits_is_undefined.

Example C07_sat : exists d', bindo (pack_vector3_uXX 0x5ABCDE 0x123456 0x7FFFFF 23 (repeat 0xEE 16))
    (fun packed => memcpy_bits (repeat 0x55 16) 13 packed 0 69) = Ok d' /\
  unpack_uXX 3 23 d' 13 = Ok [0x5ABCDE; 0x123456; 0x7FFFFF] /\ (13 + 23 * 2) / 8 + 4 <= blen (repeat 0x55 16).
Proof. eexists. split; [vm_compute; reflexivity|]. split; [vm_compute; reflexivity|vm_compute; discriminate]. Qed.
