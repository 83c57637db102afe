(** Specification vocabulary for the writer of transform clips. *)
From Verif Require Import Word Float32 Quant Headers PackSpec TransDec TransSpec TransMem TransEnc.
Local Open Scope N_scope.

(** the bones that are output, in output order *)
Definition mapped (bones : list tbone) (mapping : list N) (out : list tbone) : Prop :=
  Forall2 (fun i b => nth_error bones (N.to_nat i) = Some b) mapping out.
Definition animated_bones (ch : channel) (l : list tbone) : list tbone := filter (fun b => negb (b_constant b ch)) l.
Definition constant_bones (ch : channel) (l : list tbone) : list tbone := filter (fun b => negb (b_default b ch) && b_constant b ch) l.

(** sample [k] of a stream: where its first byte is, and the sample it is *)
Definition sample_at (t : tstream) (k : N) (bytes : list N) : Prop := placed (ts_data t) (k * ts_sample_size t) bytes.
Definition stream_ok (t : tstream) : Prop :=
  bytes_ok (ts_data t) /\ ts_num_samples t * ts_sample_size t + 15 <= blen (ts_data t) /\ ts_num_samples t * ts_sample_size t < 2 ^ 32.
(** the quantized sample that a stream contains at index [k]:
    - a stream that is not variable contains the raw words (three or four);
    - a stream of bit rate zero contains one sample of three 16 bit words;
    - a stream of the highest bit rate contains three raw words;
    - any other contains three components of as many bits as the bit rate tells, most significant bit first. *)
Definition stream_sample (t : tstream) (k : N) (x : stored) : Prop :=
  if ts_rate t =? 255 then
    s_bits x = 32 /\ in_words 32 (if ts_packed_size t =? 16 then 4 else 3) (s_vals x) /\
    k < ts_num_samples t /\ ts_packed_size t <= ts_sample_size t /\ (ts_packed_size t = 16 \/ ts_packed_size t = 12) /\
    sample_at t k (word_bytes (s_vals x))
  else if ts_rate t =? 0 then
    s_bits x = 0 /\ in_words 16 3 (s_vals x) /\ 0 < ts_num_samples t /\ 16 <= ts_sample_size t /\
    sample_at t 0 (concat (map (le_bytes 2) (s_vals x)))
  else if ts_rate t =? 24 then
    s_bits x = 32 /\ in_words 32 3 (s_vals x) /\ k < ts_num_samples t /\ 16 <= ts_sample_size t /\
    sample_at t k (word_bytes (s_vals x))
  else
    1 <= s_bits x <= 23 /\ nth_error k_bit_rate_num_bits (N.to_nat (ts_rate t)) = Some (s_bits x) /\
    in_words (s_bits x) 3 (s_vals x) /\ k < ts_num_samples t /\ 16 <= ts_sample_size t /\
    fields_at (ts_data t) (8 * (k * ts_sample_size t)) (s_bits x) (s_vals x).
