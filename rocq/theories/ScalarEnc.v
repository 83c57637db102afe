(** Model of scalar track compression (model only): compression/impl/compress.scalar.impl.h, track_list_context.h,
    optimize_looping.scalar.h, track_range_impl.h, compact.scalar.h, normalize.scalar.h, quantize.scalar.h,
    write_track_data_impl.h and the scalar part of write_track_metadata.h.
    A vector4f is the list of its four lanes; lanes are independent in every rtm function used. *)
From Verif Require Import Word MemoryUtils Hash Float32 Quant Interp Packing Headers TrackArray DbBuild.
Local Open Scope N_scope.

(** A scalar track: what track_array::is_valid sees of it ([TrackArray.track]), its name (bytes, without the terminator) and
    its samples, each with as many floats as the type has components. *)
Record strack := { st_track : track; st_name : list N; st_samples : list (list f32) }.

(** compression_settings: optimize_loops and metadata, compression_settings.h *)
Record ssettings := {
  optimize_loops : bool;
  include_track_list_name : bool;
  include_track_names : bool;
  include_track_descriptions : bool
}.

(** get_track_num_sample_elements, core/track_types.h:192-220, for the types that exist; get_sample_size is 4 bytes per
    component *)
Definition num_sample_elements (ty : N) : nat :=
  match ty with 0 => 1%nat | 1 => 2%nat | 2 => 3%nat | 3 => 4%nat | 4 => 4%nat | 12 => 12%nat | _ => 0%nat end.

(** vector_load1/2/3 and vector_load: the missing lanes are zero *)
Definition promote (v : list f32) : list f32 := v ++ repeat f_zero (4 - length v).
(** copy_and_promote_track_list, track_list_context.h:115-208: only the lanes in use are tested *)
Definition are_samples_valid (ts : list strack) : bool :=
  forallb (fun t => forallb (fun s => forallb ffinite s) (st_samples t)) ts.

(** one component wise binary operation *)
Fixpoint map2 {A B C} (f : A -> B -> C) (a : list A) (b : list B) : list C :=
  match a, b with x :: a', y :: b' => f x y :: map2 f a' b' | _, _ => [] end.

(** rtm::vector_all_near_equal(lhs, rhs, threshold): every |lhs - rhs| <= threshold *)
Definition all_near_equal (a b : list f32) (threshold : f32) : bool :=
  forallb (fun d => fle (fabs d) threshold) (map2 fsub a b).

(** optimize_looping, optimize_looping.scalar.h:45-110.  [tracks]: the precision and the promoted samples of every track. *)
Fixpoint is_wrapping (last : nat) (tracks : list (f32 * list (list f32))) : outcome bool :=
  match tracks with
  | [] => Ok true
  | (precision, samples) :: rest =>
      match nth_error samples 0, nth_error samples last with
      | Some f, Some l => if negb (all_near_equal f l precision) then Ok false else is_wrapping last rest
      | _, _ => UB
      end
  end.
Definition optimize_looping (s : ssettings) (lp : looping_policy) (num_samples : N) (tracks : list (f32 * list (list f32)))
  : outcome (looping_policy * N * list (f32 * list (list f32))) :=
  if negb (optimize_loops s) then Ok (lp, num_samples, tracks)
  else match lp with
  | lp_wrap => Ok (lp, num_samples, tracks)
  | lp_clamp =>
      if num_samples <=? 1 then Ok (lp, num_samples, tracks)
      else match tracks with
      | [] => Ok (lp, num_samples, tracks)
      | _ =>
          bindo (is_wrapping (N.to_nat (num_samples - 1)) tracks) (fun w =>
          if w : bool then Ok (lp_wrap, num_samples - 1, map (fun t => (fst t, firstn (N.to_nat (num_samples - 1)) (snd t))) tracks)
          else Ok (lp, num_samples, tracks))
      end
  end.

(** 1e10F and 0.000000001F *)
Definition f_1e10 : f32 := f_of_bits 0x501502F9.
Definition f_1em9 : f32 := f_of_bits 0x3089705F.
Definition fneg (x : f32) : f32 := f_of_bits (N.lxor (f_bits x) 0x80000000).

(** extract_scalarf_range, track_range_impl.h:44-63; the range is (min, extent), track_range.h:60 *)
Definition extract_range (samples : list (list f32)) : list f32 * list f32 :=
  let mn := fold_left (fun m s => map2 fmin m s) samples (repeat f_1e10 4) in
  let mx := fold_left (fun m s => map2 fmax m s) samples (repeat (fneg f_1e10) 4) in
  (mn, map2 fsub mx mn).

(** scalarf_range::is_constant, track_range.h:69 *)
Definition range_is_constant (range : list f32 * list f32) (threshold : f32) : bool :=
  forallb (fun e => flt (fabs e) threshold) (snd range).

(** normalize_scalarf_track, normalize.scalar.h:44-76 *)
Definition normalize_lane (v mn extent : f32) : f32 :=
  let n := fmin (fdiv (fsub v mn) extent) f_one in
  if flt extent f_1em9 then f_zero else n.
Fixpoint normalize_sample (s mn extent : list f32) : list f32 :=
  match s, mn, extent with
  | v :: s', m :: mn', e :: extent' => normalize_lane v m e :: normalize_sample s' mn' extent'
  | _, _, _ => []
  end.

(** variable_bit_rates.h:42-66 *)
Definition k_bit_rate_num_bits_v0 : list N := [0; 3; 4; 5; 6; 7; 8; 9; 10; 11; 12; 13; 14; 15; 16; 17; 18; 19; 32].
Definition k_bit_rate_num_bits : list N :=
  [0; 1; 2; 3; 4; 5; 6; 7; 8; 9; 10; 11; 12; 13; 14; 15; 16; 17; 18; 19; 20; 21; 22; 23; 32].
Definition k_highest_bit_rate : nat := 24.
Definition num_bits_at (bit_rate : nat) : N := nth bit_rate k_bit_rate_num_bits 0.
Definition is_raw_bit_rate (bit_rate : nat) : bool := Nat.eqb bit_rate k_highest_bit_rate.

(** pack_vector4_uXX and decay_vector4_uXX, quantize.scalar.h:46-82, one lane *)
Definition pack_lane (n : N) (x : f32) : f32 := fround_symmetric (fmul x (f_of_N (max_value n))).
Definition decay_lane (n : N) (x : f32) : f32 := fmul (pack_lane n x) (inv_max_value n).

(** the error test of one sample, quantize.scalar.h:116-132.  vector_load1 leaves the precision of the lanes y, z and w at
    zero; the lanes the type does not have are masked *)
Definition precision_lanes (precision : f32) : list f32 := [precision; f_zero; f_zero; f_zero].
Definition decayed_sample (n : N) (range : list f32 * list f32) (normalized : list f32) : list f32 :=
  map2 (fun de mn => fadd de mn) (map2 (fun x e => fmul (decay_lane n x) e) normalized (snd range)) (fst range).
Definition masked_delta (nc : nat) (raw decayed : list f32) : list f32 :=
  firstn nc (map2 (fun r d => fabs (fsub r d)) raw decayed) ++ repeat f_zero (4 - nc).
Definition sample_ok (nc : nat) (n : N) (range : list f32 * list f32) (precision : f32) (raw normalized : list f32) : bool :=
  forallb (fun b => b) (map2 fle (masked_delta nc (promote raw) (decayed_sample n range normalized)) (precision_lanes precision)).
(** the samples of the mutable track, by index, against the reference ones: the reference may hold one more *)
Definition rate_ok (nc : nat) (n : N) (range : list f32 * list f32) (precision : f32) (ref normalized : list (list f32)) : bool :=
  forallb (fun b => b) (map2 (sample_ok nc n range precision) ref normalized).

(** the search of the bit rate, quantize.scalar.h:107-140: from 23 down, stopping at the first that is not accurate enough *)
Fixpoint find_bit_rate (ok : N -> bool) (bit_rate : nat) (best : nat) : nat :=
  match bit_rate with
  | O => best
  | S b => if ok (num_bits_at bit_rate) then find_bit_rate ok b bit_rate else best
  end.

(** What the context knows of a track once quantized: quantize_scalarf_track, quantize.scalar.h:84-160 *)
Record ctrack := {
  ct_precision : f32;
  ct_name : list N;
  ct_ref : list (list f32);       (* the reference samples, as supplied *)
  ct_mut : list (list f32);       (* the mutable track, four lanes *)
  ct_range : list f32 * list f32;
  ct_constant : bool;
  ct_bit_rate : nat
}.
Definition quantize_track (nc : nat) (name : list N) (ref : list (list f32)) (t : f32 * list (list f32)) : ctrack :=
  let precision := fst t in
  let range := extract_range (snd t) in
  if range_is_constant range precision then
    (* the bit rate of a constant track is never set nor used *)
    {| ct_precision := precision; ct_name := name; ct_ref := ref; ct_mut := snd t; ct_range := range; ct_constant := true; ct_bit_rate := 255 |}
  else
    let normalized := map (fun s => normalize_sample s (fst range) (snd range)) (snd t) in
    let best := find_bit_rate (fun n => rate_ok nc n range precision ref normalized) 23 k_highest_bit_rate in
    {| ct_precision := precision; ct_name := name; ct_ref := ref;
       ct_mut := if is_raw_bit_rate best then ref (* memcpy of the reference; the other lanes keep their normalized value and are never read *)
                 else map (map (pack_lane (num_bits_at best))) normalized;
       ct_range := range; ct_constant := false; ct_bit_rate := best |}.

(** memcpy of floats *)
Definition float_bytes (v : list f32) : list N := concat (map (fun x => le_bytes 4 (f_bits x)) v).

(** A write at [off]; the first pass is done without a buffer to measure *)
Definition put (buf : option (list N)) (off : N) (l : list N) : outcome (option (list N)) :=
  match buf with None => Ok None | Some m => bindo (store_bytes m off l) (fun m' => Ok (Some m')) end.

(** write_track_metadata, write_track_data_impl.h:46-64; tracks are in output order from here on *)
Fixpoint write_track_metadata (ts : list ctrack) (buf : option (list N)) (off : N) : outcome (option (list N) * N) :=
  match ts with
  | [] => Ok (buf, off)
  | t :: rest =>
      bindo (put buf off [if ct_constant t then 0 else N.of_nat (ct_bit_rate t)]) (fun buf =>
      write_track_metadata rest buf (off + 1))
  end.

(** write_track_constant_values, write_track_data_impl.h:66-90 *)
Fixpoint write_track_constant_values (ts : list ctrack) (buf : option (list N)) (off : N) : outcome (option (list N) * N) :=
  match ts with
  | [] => Ok (buf, off)
  | t :: rest =>
      if negb (ct_constant t) then write_track_constant_values rest buf off
      else match nth_error (ct_ref t) 0 with
      | None => UB
      | Some s =>
          bindo (put buf off (float_bytes s)) (fun buf =>
          write_track_constant_values rest buf (off + blen (float_bytes s)))
      end
  end.

(** write_track_range_values, write_track_data_impl.h:92-130 *)
Fixpoint write_track_range_values (nc : nat) (ts : list ctrack) (buf : option (list N)) (off : N) : outcome (option (list N) * N) :=
  match ts with
  | [] => Ok (buf, off)
  | t :: rest =>
      if ct_constant t then write_track_range_values nc rest buf off
      else if is_raw_bit_rate (ct_bit_rate t) then write_track_range_values nc rest buf off
      else
        let element_size := 4 * N.of_nat nc in
        bindo (put buf off (float_bytes (firstn nc (fst (ct_range t))))) (fun buf =>
        bindo (put buf (off + element_size) (float_bytes (firstn nc (snd (ct_range t))))) (fun buf =>
        write_track_range_values nc rest buf (off + element_size + element_size)))
  end.

(** write_track_animated_values, write_track_data_impl.h:132-195.  [base] is the address of animated_values: memcpy_bits
    splits its bit offset in bytes and bits, so that the bytes of the base can be added to it. *)
Definition put_component (raw : bool) (num_bits : N) (base : N) (buf : option (list N)) (off : N) (x : f32) : outcome (option (list N)) :=
  match buf with
  | None => Ok None
  | Some m =>
      if raw then bindo (write_raw_component m (8 * base + off) (f_bits x)) (fun m' => Ok (Some m'))
      else bindo (f_to_u32 x) (fun v => bindo (write_component m (8 * base + off) num_bits v) (fun m' => Ok (Some m')))
  end.
Fixpoint put_components (raw : bool) (num_bits : N) (base : N) (xs : list f32) (buf : option (list N)) (off : N) : outcome (option (list N) * N) :=
  match xs with
  | [] => Ok (buf, off)
  | x :: rest =>
      bindo (put_component raw num_bits base buf off x) (fun buf =>
      put_components raw num_bits base rest buf (off + num_bits))
  end.
Fixpoint put_frame (nc : nat) (base : N) (k : nat) (ts : list ctrack) (buf : option (list N)) (off : N) : outcome (option (list N) * N) :=
  match ts with
  | [] => Ok (buf, off)
  | t :: rest =>
      if ct_constant t then put_frame nc base k rest buf off
      else
        let raw := is_raw_bit_rate (ct_bit_rate t) in
        match nth_error (if raw then ct_ref t else ct_mut t) k with
        | None => UB
        | Some s =>
            bindo (put_components raw (num_bits_at (ct_bit_rate t)) base (firstn nc s) buf off) (fun '(buf, off) =>
            put_frame nc base k rest buf off)
        end
  end.
Fixpoint put_frames (nc : nat) (base : N) (k count : nat) (ts : list ctrack) (buf : option (list N)) (off : N) : outcome (option (list N) * N) :=
  match count with
  | O => Ok (buf, off)
  | S c => bindo (put_frame nc base k ts buf off) (fun '(buf, off) => put_frames nc base (S k) c ts buf off)
  end.
Definition write_track_animated_values (nc : nat) (num_samples : N) (ts : list ctrack) (buf : option (list N)) (base : N) : outcome (option (list N) * N) :=
  put_frames nc base 0 (N.to_nat num_samples) ts buf 0.

(** write_track_list_name, write_track_metadata.h:46-62 *)
Definition write_track_list_name (name : list N) (buf : option (list N)) (off : N) : outcome (option (list N) * N) :=
  bindo (put buf off (name ++ [0])) (fun buf => Ok (buf, off + (blen name + 1))).
(** write_track_names, write_track_metadata.h:64-104: the offsets, relative to the first one, then the names *)
Fixpoint put_name_offsets (names : list (list N)) (offset : N) (buf : option (list N)) (off : N) : outcome (option (list N) * N) :=
  match names with
  | [] => Ok (buf, off)
  | n :: rest =>
      bindo (put buf off (le_bytes 4 offset)) (fun buf =>
      put_name_offsets rest (addw 32 offset (blen n + 1)) buf (off + 4))
  end.
Fixpoint put_names (names : list (list N)) (buf : option (list N)) (off : N) : outcome (option (list N) * N) :=
  match names with
  | [] => Ok (buf, off)
  | n :: rest => bindo (put buf off (n ++ [0])) (fun buf => put_names rest buf (off + (blen n + 1)))
  end.
Definition write_track_names (names : list (list N)) (buf : option (list N)) (off : N) : outcome (option (list N) * N) :=
  bindo (put_name_offsets names (mulw 32 4 (N.of_nat (length names))) buf off) (fun '(buf, off) => put_names names buf off).
(** write_track_descriptions, write_track_metadata.h:144-194, scalar tracks: the precision *)
Fixpoint write_track_descriptions (precisions : list f32) (buf : option (list N)) (off : N) : outcome (option (list N) * N) :=
  match precisions with
  | [] => Ok (buf, off)
  | p :: rest => bindo (put buf off (float_bytes [p])) (fun buf => write_track_descriptions rest buf (off + 4))
  end.

(** the returned size: safe_static_cast<uint32_t>(output_buffer - output_buffer_start) *)
Definition size_of (o : outcome (option (list N) * N)) (start : N) : outcome N := bindo o (fun '(_, e) => Ok (wrapw 32 (e - start))).
Definition written (o : outcome (option (list N) * N)) : outcome (list N) :=
  bindo o (fun '(b, _) => match b with Some m => Ok m | None => UB end).
Definition when (c : bool) (o : outcome N) : outcome N := if c then o else Ok 0.

(** the tracks in output order: context.track_output_indices *)
Fixpoint in_output_order (ts : list ctrack) (mapping : list (option N)) : outcome (list ctrack) :=
  match mapping with
  | [] => Ok []
  | Some i :: rest =>
      match nth_error ts (N.to_nat i) with
      | Some t => bindo (in_output_order ts rest) (fun l => Ok (t :: l))
      | None => UB
      end
  | None :: _ => UB
  end.

(** the context once the tracks are quantized, compress.scalar.impl.h:74-94, track_list_context.h:233-261 *)
Record scontext := { sc_tracks : list ctrack; sc_looping : looping_policy; sc_num_samples : N; sc_sample_rate : f32; sc_type : N }.
Fixpoint quantize_tracks (nc : nat) (ts : list strack) (lossy : list (f32 * list (list f32))) : list ctrack :=
  match ts, lossy with
  | t :: ts', l :: lossy' => quantize_track nc (st_name t) (st_samples t) l :: quantize_tracks nc ts' lossy'
  | _, _ => []
  end.
Definition list_type (ts : list strack) : N := match ts with t :: _ => track_type (st_track t) | [] => 0 end.
Definition list_num_samples (ts : list strack) : N := match ts with t :: _ => num_samples (st_track t) | [] => 0 end.
Definition list_sample_rate (ts : list strack) : f32 := match ts with t :: _ => sample_rate (st_track t) | [] => f_zero end.
Definition promoted (ts : list strack) : list (f32 * list (list f32)) :=
  map (fun t => (precision (st_track t), map promote (st_samples t))) ts.
Definition prepare (s : ssettings) (lp : looping_policy) (ts : list strack) : outcome scontext :=
  let ty := list_type ts in
  let nc := num_sample_elements ty in
  bindo (create_output_track_mapping (map st_track ts)) (fun mapping =>
  bindo (optimize_looping s lp (list_num_samples ts) (promoted ts)) (fun '(lp, n, lossy) =>
  bindo (in_output_order (quantize_tracks nc ts lossy) mapping) (fun out =>
  Ok {| sc_tracks := out; sc_looping := lp; sc_num_samples := n; sc_sample_rate := list_sample_rate ts; sc_type := ty |}))).

(** sizeof(raw_buffer_header) + sizeof(tracks_header): the scalar_tracks_header, 20 bytes, starts at 32 *)
Definition scalar_header : N := 32.
Definition sizeof_headers : N := 52.
Definition sizeof_metadata_header : N := 20.
Definition invalid_ptr : N := 4294967295.

(** The sizes and offsets of compress.scalar.impl.h:96-143, :171-195.  All are uint32_t. *)
Record slayout := {
  l_num_bits_per_frame : N; l_constants : N; l_ranges : N; l_animated : N; l_metadata : N; l_metadata_size : N; l_size : N
}.
Definition layout (s : ssettings) (list_name : list N) (c : scontext) : outcome slayout :=
  let ts := sc_tracks c in
  let nc := num_sample_elements (sc_type c) in
  bindo (size_of (write_track_metadata ts None 0) 0) (fun per_track_metadata_size =>
  bindo (size_of (write_track_constant_values ts None 0) 0) (fun constant_values_size =>
  bindo (size_of (write_track_range_values nc ts None 0) 0) (fun range_values_size =>
  bindo (size_of (write_track_animated_values nc (sc_num_samples c) ts None 0) 0) (fun animated_num_bits =>
  let animated_values_size := addw 32 animated_num_bits 7 / 8 in
  let num_bits_per_frame := if sc_num_samples c =? 0 then 0 else animated_num_bits / sc_num_samples c in
  let b := addw 32 sizeof_headers per_track_metadata_size in
  let constants := align_to 32 b 4 in
  let ranges := addw 32 constants constant_values_size in
  let animated := addw 32 ranges range_values_size in
  let b := addw 32 animated animated_values_size in
  let metadata_start := align_to 32 b 4 in
  bindo (when (include_track_list_name s) (size_of (write_track_list_name list_name None 0) 0)) (fun list_name_size =>
  bindo (when (include_track_names s) (size_of (write_track_names (map ct_name ts) None 0) 0)) (fun names_size =>
  bindo (when (include_track_descriptions s) (size_of (write_track_descriptions (map ct_precision ts) None 0) 0)) (fun descriptions_size =>
  let metadata_size := list_name_size in
  let metadata_size := align_to 32 metadata_size 4 in
  let metadata_size := addw 32 metadata_size names_size in
  let metadata_size := align_to 32 metadata_size 4 in
  let metadata_size := addw 32 metadata_size descriptions_size in
  let size := if negb (metadata_size =? 0)
              then addw 32 (align_to 32 (addw 32 (align_to 32 b 4) metadata_size) 4) sizeof_metadata_header
              else addw 32 b 15 in
  Ok {| l_num_bits_per_frame := num_bits_per_frame; l_constants := constants; l_ranges := ranges; l_animated := animated;
        l_metadata := metadata_start; l_metadata_size := metadata_size; l_size := size |}))))))).

(** the optional metadata, compress.scalar.impl.h:213-253 *)
Definition write_optional_metadata (s : ssettings) (list_name : list N) (ts : list ctrack) (l : slayout) (m : list N) : outcome (list N) :=
  if l_metadata_size l =? 0 then Ok m
  else
    let h := subw 64 (l_size l) sizeof_metadata_header in
    let offset := l_metadata l in
    bindo (if include_track_list_name s then
             bindo (write32 m h offset) (fun m =>
             bindo (write_track_list_name list_name (Some m) offset) (fun '(b, e) => match b with Some m => Ok (m, addw 32 offset (wrapw 32 (e - offset))) | None => UB end))
           else bindo (write32 m h invalid_ptr) (fun m => Ok (m, offset))) (fun '(m, offset) =>
    bindo (if include_track_names s then
             let offset := align_to 32 offset 4 in
             bindo (write32 m (h + 4) offset) (fun m =>
             bindo (write_track_names (map ct_name ts) (Some m) offset) (fun '(b, e) => match b with Some m => Ok (m, addw 32 offset (wrapw 32 (e - offset))) | None => UB end))
           else bindo (write32 m (h + 4) invalid_ptr) (fun m => Ok (m, offset))) (fun '(m, offset) =>
    bindo (write32 m (h + 8) invalid_ptr) (fun m =>
    if include_track_descriptions s then
      let offset := align_to 32 offset 4 in
      bindo (write32 m (h + 12) offset) (fun m =>
      written (write_track_descriptions (map ct_precision ts) (Some m) offset))
    else write32 m (h + 12) invalid_ptr))).

(** buffer_tag32::compressed_tracks, compressed_tracks_version16::latest *)
Definition tag_compressed_tracks : N := 2886839313.
Definition version_latest : N := 10.

(** writing the buffer, compress.scalar.impl.h:145-257 *)
Definition write_buffer (s : ssettings) (list_name : list N) (c : scontext) (l : slayout) : outcome (list N) :=
  let ts := sc_tracks c in
  let nc := num_sample_elements (sc_type c) in
  let num_tracks := N.of_nat (length ts) in
  let m := repeat 0 (N.to_nat (l_size l)) in
  bindo (write32 m 8 tag_compressed_tracks) (fun m =>
  bindo (store_bytes m 12 (le_bytes 2 version_latest)) (fun m =>
  bindo (store_bytes m 14 [0]) (fun m =>
  bindo (store_bytes m 15 [sc_type c]) (fun m =>
  bindo (write32 m 16 num_tracks) (fun m =>
  bindo (write32 m 20 (if num_tracks =? 0 then 0 else sc_num_samples c)) (fun m =>
  bindo (write32 m 24 (f_bits (if num_tracks =? 0 then f_zero else sc_sample_rate c))) (fun m =>
  bindo (read32 m 28) (fun misc =>
  bindo (write32 m 28 (set_has_metadata (set_is_wrap_optimized misc (match sc_looping c with lp_wrap => 1 | lp_clamp => 0 end))
                         (b2n (negb (l_metadata_size l =? 0))))) (fun m =>
  bindo (write32 m 32 (l_num_bits_per_frame l)) (fun m =>
  bindo (write32 m 36 (sizeof_headers - scalar_header)) (fun m =>
  bindo (write32 m 40 (l_constants l - scalar_header)) (fun m =>
  bindo (write32 m 44 (l_ranges l - scalar_header)) (fun m =>
  bindo (write32 m 48 (l_animated l - scalar_header)) (fun m =>
  bindo (written (write_track_metadata ts (Some m) sizeof_headers)) (fun m =>
  bindo (written (write_track_constant_values ts (Some m) (l_constants l))) (fun m =>
  bindo (written (write_track_range_values nc ts (Some m) (l_ranges l))) (fun m =>
  bindo (written (write_track_animated_values nc (sc_num_samples c) ts (Some m) (l_animated l))) (fun m =>
  bindo (write_optional_metadata s list_name ts l m) (fun m =>
  bindo (write32 m 0 (l_size l)) (fun m =>
  bindo (load_bytes m 8 (N.to_nat (subw 64 (l_size l) 8))) (fun content =>
  write32 m 4 (hash32 content)))))))))))))))))))))).

(** compress_track_list, compress.impl.h:48-66, for scalar track lists; None is an error result *)
Definition compress_scalar (s : ssettings) (list_name : list N) (lp : looping_policy) (ts : list strack) : outcome (option (list N)) :=
  if negb (track_array_is_valid (map st_track ts)) then Ok None
  else if negb (are_samples_valid ts) then Ok None
  else
    bindo (prepare s lp ts) (fun c =>
    bindo (layout s list_name c) (fun l =>
    bindo (write_buffer s list_name c l) (fun m => Ok (Some m)))).
