(** Model of the packed sub-track types: how they are written and how decompression walks them.
    compression/impl/write_sub_track_types.h, decompression/impl/decompression.transform.h.
    Types: 0 default, 1 constant, 2 animated. *)
From Verif Require Import Word BitManip.

(** write_sub_track_types.h:44-79 (rotations; :81-116 translations and :121-157 scales are the same loop):
    one entry of 16 sub-tracks per 32-bit word, the first sub-track in the most significant bits *)
Fixpoint pack_types_loop (types : list N) (output_index packed_entry_size packed_entry : N) : list N :=
  match types with
  | [] => if negb (packed_entry_size =? 0) then [packed_entry] else []
  | packed_type :: rest =>
      let full := packed_entry_size =? 16 in
      let size := if full then 0 else packed_entry_size in
      let entry := if full then 0 else packed_entry in
      let packed_index := output_index mod 16 in
      let entry' := N.lor entry (shlw 32 packed_type ((15 - packed_index) * 2)) in
      (if full then [packed_entry] else []) ++ pack_types_loop rest (output_index + 1) (size + 1) entry'
  end.
Definition write_packed_sub_track_types (types : list N) : list N := pack_types_loop types 0 0 0.

(** The while loop that handles four sub-tracks at a time, decompression.transform.h:609-671 (default),
    :698-745 (constant), :770-876 (animated).  [hi] is 0x80 for default/animated, 0x40 for constant; the four tests
    are hi, hi>>2, hi>>4, hi>>6 in the top byte.  The result lists the track indices handed to the writer, in order. *)
Definition group_bit (packed_group hi shift : N) : bool :=
  negb (N.land packed_group (N.shiftl (N.shiftr hi shift) 24) =? 0).
Fixpoint walk_groups (fuel : nat) (hi packed_entry curr_entry_track_index : N) : outcome (list N) :=
  if packed_entry =? 0 then Ok []
  else match fuel with
       | O => NoFuel
       | S f =>
           let packed_group := packed_entry in
           let i := curr_entry_track_index in
           bindo (walk_groups f hi (shlw 32 packed_entry 8) (i + 4)) (fun rest =>
           Ok ((if N.land packed_group (N.shiftl (N.lor (N.lor hi (N.shiftr hi 2)) (N.lor (N.shiftr hi 4) (N.shiftr hi 6))) 24) =? 0
                then []
                else (if group_bit packed_group hi 0 then [i + 0] else []) ++
                     (if group_bit packed_group hi 2 then [i + 1] else []) ++
                     (if group_bit packed_group hi 4 then [i + 2] else []) ++
                     (if group_bit packed_group hi 6 then [i + 3] else [])) ++ rest))
       end.

(** decompression.transform.h:598-602 *)
Definition default_mask (entry entry_padding_mask : N) : N :=
  N.land (N.land (subw 32 (notw 32 entry) 0x55555555) 0xAAAAAAAA) entry_padding_mask.

(** decompression.transform.h:586-672 unpack_default_rotation_sub_tracks (and :894.., :1219.. for translation/scale) *)
Fixpoint default_tracks_loop (entries : list N) (padding_mask track_index : N) : outcome (list N) :=
  match entries with
  | [] => Ok []
  | e :: rest =>
      bindo (walk_groups 5 0x80 (default_mask e (match rest with [] => padding_mask | _ => 0xFFFFFFFF end)) track_index) (fun l =>
      bindo (default_tracks_loop rest padding_mask (track_index + 16)) (fun l' => Ok (l ++ l')))
  end.

(** decompression.transform.h:684-746: the constant sub-tracks *)
Fixpoint constant_tracks_loop (entries : list N) (track_index : N) : outcome (list N) :=
  match entries with
  | [] => Ok []
  | e :: rest =>
      bindo (walk_groups 5 0x40 (and_not (notw 32 0x55555555) e) track_index) (fun l =>
      bindo (constant_tracks_loop rest (track_index + 16)) (fun l' => Ok (l ++ l')))
  end.

(** decompression.transform.h:759-878: the animated sub-tracks *)
Fixpoint animated_tracks_loop (entries : list N) (track_index : N) : outcome (list N) :=
  match entries with
  | [] => Ok []
  | e :: rest =>
      bindo (walk_groups 5 0x80 (and_not (notw 32 0xAAAAAAAA) e) track_index) (fun l =>
      bindo (animated_tracks_loop rest (track_index + 16)) (fun l' => Ok (l ++ l')))
  end.

(** decompression.transform.h:1552-1560 *)
Definition num_sub_track_entries (num_tracks : N) : N := (num_tracks + 16 - 1) / 16.
Definition default_padding_mask (num_tracks : N) : N :=
  let num_padded_sub_tracks := num_sub_track_entries num_tracks * 16 - num_tracks in
  if negb (num_padded_sub_tracks =? 0) then notw 32 (N.shiftr 0xFFFFFFFF ((16 - num_padded_sub_tracks) * 2)) else 0xFFFFFFFF.

Definition default_tracks (num_tracks : N) (entries : list N) : outcome (list N) :=
  default_tracks_loop entries (default_padding_mask num_tracks) 0.
Definition constant_tracks (entries : list N) : outcome (list N) := constant_tracks_loop entries 0.
Definition animated_tracks (entries : list N) : outcome (list N) := animated_tracks_loop entries 0.

(** decompress_track, decompression.transform.h:1811-1819: the type of one sub-track *)
Definition sub_track_type (entries : list N) (track_index : N) : outcome N :=
  match nth_error entries (N.to_nat (track_index / 16)) with
  | None => UB
  | Some e => Ok (N.land (N.shiftr e ((15 - track_index mod 16) * 2)) 0x3)
  end.

(** decompress_track, decompression.transform.h:1864-1891: how many constant ([mask] 0x55555555) or animated
    (0xAAAAAAAA) sub-tracks precede the one we want *)
Definition track_padding_mask (track_index : N) : N :=
  let last_entry_index := track_index / 16 in
  let num_padded_sub_tracks := (last_entry_index + 1) * 16 - track_index in
  if negb (num_padded_sub_tracks =? 0) then N.shiftr 0xFFFFFFFF ((16 - num_padded_sub_tracks) * 2) else 0.
Fixpoint count_before_loop (entries : list N) (mask padding_mask last_entry_index entry_index : N) (n : nat) (acc : N) : outcome N :=
  match n with
  | O => Ok acc
  | S n' =>
      match nth_error entries (N.to_nat entry_index) with
      | None => UB
      | Some e =>
          let entry_padding_mask := if entry_index =? last_entry_index then padding_mask else 0 in
          let t := and_not entry_padding_mask e in
          count_before_loop entries mask padding_mask last_entry_index (entry_index + 1) n' (addw 32 acc (count_set_bits32 (N.land t mask)))
      end
  end.
Definition count_before (entries : list N) (mask track_index : N) : outcome N :=
  let last_entry_index := track_index / 16 in
  count_before_loop entries mask (track_padding_mask track_index) last_entry_index 0 (N.to_nat (last_entry_index + 1)) 0.
