(** Model of the floating point environment around the decompression calls (model only):
    core/floating_point_exceptions.h:39-150, decompression/impl/decompression.scalar.h:213-482, 484-706,
    decompression/impl/decompression.transform.h:1525-1738, 1754-2051, compression/impl/compress.impl.h:58, 85 (SSE2 builds).
    The environment is the MXCSR register: bits 0-5 are the sticky exception flags, bits 7-12 the exception mask (a set bit
    silences the exception), the others control denormals and rounding. *)
From Coq Require Import NArith List Bool.
From Verif Require Import Word Float32 Headers DbBuild ScalarDec SubTracks TransDec TransEnc TransFile TransSeek.
Import ListNotations.
Local Open Scope N_scope.

(** xmmintrin.h: _MM_EXCEPT_MASK, _MM_MASK_MASK, _MM_GET_EXCEPTION_MASK, _MM_SET_EXCEPTION_MASK, _MM_SET_EXCEPTION_STATE *)
Definition flags_mask : N := 0x3F.
Definition mask_mask : N := 0x1F80.
Definition get_exception_mask (csr : N) : N := N.land csr mask_mask.
Definition set_exception_mask (csr mask : N) : N := N.lor (N.ldiff csr mask_mask) mask.
Definition set_exception_state (csr state : N) : N := N.lor (N.ldiff csr flags_mask) state.
(** an instruction raises the flags [raised]: those that are not silenced trap (SIGFPE), which is UB here *)
Definition traps (csr raised : N) : bool := negb (N.ldiff raised (N.shiftr csr 7) =? 0).
Definition raise (csr raised : N) : outcome N := if traps csr raised then UB else Ok (N.lor csr raised).

(** enable_fp_exceptions, :53-67; disable_fp_exceptions, :72-83; restore_fp_exceptions, :88-99: (the register, the saved mask) *)
Definition enable_fp_exceptions (csr : N) : N * N :=
  let csr := set_exception_state csr 0 in
  (set_exception_mask csr (N.ldiff mask_mask (N.lor (N.lor 0x80 0x200) 0x400)), get_exception_mask csr).
Definition disable_fp_exceptions (csr : N) : N * N := (set_exception_mask csr mask_mask, get_exception_mask csr).
Definition restore_fp_exceptions (csr saved : N) : N := set_exception_mask (set_exception_state csr 0) saved.

(** the work between the two calls: it raises the flags [raised], whatever they are.  Simplification: the writer, which the work
    calls, does not change the environment itself *)
Definition guarded {A} (disable : bool) (work : outcome A) (raised csr : N) (restores : bool) : outcome (A * N) :=
  let '(inside, saved) := if disable then disable_fp_exceptions csr else (csr, 0) in
  bindo work (fun v => bindo (raise inside raised) (fun after =>
  Ok (v, if disable && restores then restore_fp_exceptions after saved else after))).

(** decompress_tracks_v0 and decompress_track_v0 of scalar clips: the early returns come before the environment is touched *)
Definition scalar_tracks_fp (disable : bool) (ds : dsettings) (c : dcontext) (w : writer) (raised csr : N) :=
  bindo (h_num_tracks (d_tracks c)) (fun n =>
  if n =? 0 then Ok ([], csr) else if flt (d_time c) f_zero then Ok ([], csr)
  else guarded disable (ScalarDec.decompress_tracks ds c w) raised csr true).
Definition scalar_track_fp (disable : bool) (ds : dsettings) (c : dcontext) (i : N) (w : writer) (raised csr : N) :=
  bindo (h_num_tracks (d_tracks c)) (fun n =>
  if n =? 0 then Ok ([], csr) else if flt (d_time c) f_zero then Ok ([], csr) else if n <=? i then Ok ([], csr)
  else guarded disable (ScalarDec.decompress_track ds c i w) raised csr true).

(** decompress_tracks_v0 of transform clips *)
Definition transform_tracks_fp (disable : bool) (w : twriter) (c : pcontext) (raised csr : N) : outcome (list event * N) :=
  bindo (h_num_tracks (x_tracks c)) (fun n =>
  if n =? 0 then Ok ([], csr) else if flt (x_time c) f_zero then Ok ([], csr)
  else guarded disable (bindo (tcontext_of c) (decompress_tracks w)) raised csr true).
(** combined_sub_track_type, decompression.transform.h:1800-1824 *)
Definition combined_type (c : tcontext) (i : N) : outcome N :=
  let n := num_sub_track_entries (c_num_tracks c) in
  let entries k := read_entries (N.to_nat n) (c_mem c) (c_types c + 4 * (k * n)) in
  bindo (entries 0) (fun re => bindo (sub_track_type re i) (fun rt =>
  bindo (entries 1) (fun te => bindo (sub_track_type te i) (fun tt =>
  bindo (entries (if c_has_scale c then 2 else 0)) (fun se => bindo (sub_track_type se i) (fun st =>
  Ok (N.lor (N.lor rt tt) (if c_has_scale c then st else 0)))))))).
(** decompress_track_v0 of transform clips: the return at :1854 skips the restoration at :2048 *)
Definition transform_track_fp (disable : bool) (w : twriter) (c : pcontext) (i raised csr : N) : outcome (list event * N) :=
  bindo (h_num_tracks (x_tracks c)) (fun n =>
  if n =? 0 then Ok ([], csr) else if flt (x_time c) f_zero then Ok ([], csr) else if n <=? i then Ok ([], csr)
  else
    bindo (bindo (tcontext_of c) (fun t => combined_type t i)) (fun kind =>
    guarded disable (bindo (tcontext_of c) (fun t => decompress_track w t i)) raised csr (negb (kind =? 0)))).

(** scope_disable_fp_exceptions, :131-155, around compress_track_list and the others: the destructor always restores *)
Definition scoped_disable {A} (work : outcome A) (raised csr : N) : outcome (A * N) := guarded true work raised csr true.
(** scope_enable_fp_exceptions, :104-126 *)
Definition scoped_enable {A} (work : outcome A) (raised csr : N) : outcome (A * N) :=
  let '(inside, saved) := enable_fp_exceptions csr in
  bindo work (fun v => bindo (raise inside raised) (fun after => Ok (v, restore_fp_exceptions after saved))).
