(** The search for the bit rates of a segment: includes/acl/compression/impl/quantize.transform.h:869-1520 (ACL's "variable" formats).
    Simplifications:
    - what the two error functions return (quantize.transform.h:674-867) is a parameter: a value for each stop condition, bit rates of the
      transforms and transform. They are taken to be functions of those (the pose caches and the bit rate database they use are not modelled).
      Nothing is assumed about their values, which come from the error metric of the user;
    - the arrays are lists with one entry per transform; reading past their end, which the chains of a hierarchy never do, gives constant rates;
    - [segment_context_has_scale], the normalization flags and the formats are parameters; printf's are left out;
    - the loops whose number of steps is not bounded by a counter take fuel. *)
From Coq Require Import ZArith NArith Bool List.
From Verif Require Import Word Float32 Headers.
Import ListNotations.
Local Open Scope N_scope.

(** transform_bit_rates, core/impl/variable_bit_rates.h:65-70 *)
Record brates := { b_rotation : N; b_translation : N; b_scale : N }.
(** k_invalid_bit_rate, core/impl/variable_bit_rates.h:48 *)
Definition k_invalid_bit_rate : N := 255.
Definition no_rates : brates := {| b_rotation := k_invalid_bit_rate; b_translation := k_invalid_bit_rate; b_scale := k_invalid_bit_rate |}.
Definition brates_at (l : list brates) (b : nat) : brates := nth b l no_rates.

(** what the search reads of the quantization context: quantize.transform.h:86-198 *)
Record search := {
  r_local : nat -> brates -> f32;                   (* calculate_max_error_at_bit_rate_local, :674-765; it reads the bit rates of its transform only *)
  r_object : bool -> list brates -> nat -> f32;     (* calculate_max_error_at_bit_rate_object, :767-867; true: until_end_of_segment *)
  r_threshold : nat -> f32;                         (* shell_metadata_per_transform[].precision *)
  r_has_scale : bool;                               (* has_scale *)
  r_level : N;                                      (* compression_level, compression/compression_level.h:44-58: lowest 0 ... high 3, highest 4 *)
  r_rotation_full : bool;                           (* rotation_format == quatf_full *)
  r_order : list nat;                               (* raw_clip.sorted_transforms_parent_first *)
  r_chain : nat -> list nat }.                      (* calculate_bone_chain_indices, :1100-1109: root first, the transform last *)

(** initialize_bone_bit_rates, :1111-1140: for each transform, whether each of its three sub-tracks is animated *)
Definition initial_rate (variable constant normalized : bool) : N :=
  if variable && negb constant then (if normalized then 0 else k_lowest_bit_rate) else k_invalid_bit_rate.

(** the tables k_local_bit_rate_permutations_[1-3]_dof, transform_bit_rate_permutations.h:43-, :73-, :703-.
    They were compared, with a script, to what is defined here: every combination of rates, the smallest number of bits first, in
    lexicographic order among those of the same number of bits. *)
Definition rate_bits (r : N) : N := nth (N.to_nat r) k_bit_rate_num_bits 0.
Definition bits_of (l : list N) : N := fold_right (fun r n => rate_bits r + n) 0 l.
Definition all_rates : list N := map N.of_nat (seq 0 25).
Fixpoint combinations (d : nat) : list (list N) :=
  match d with O => [[]] | S d => flat_map (fun r => map (cons r) (combinations d)) all_rates end.
Definition rate_permutations (d : nat) : list (list N) :=
  flat_map (fun s => filter (fun l => bits_of l =? N.of_nat s) (combinations d)) (seq 0 (32 * d + 1)).

(** :914-917: the number of degrees of freedom *)
Definition is_variable (r : N) : bool := negb (r =? k_invalid_bit_rate).
Definition num_dof (r : brates) : nat :=
  ((if is_variable (b_rotation r) then 1 else 0) + (if is_variable (b_translation r) then 1 else 0) + (if is_variable (b_scale r) then 1 else 0))%nat.
(** :928-949: a permutation is consumed by the sub-tracks that are variable; the rates, and the number of bits *)
Definition take_rate (r : N) (p : list N) : N * list N :=
  if is_variable r then (match p with x :: p => (x, p) | [] => (r, []) end) else (r, p).
Definition desired_rates (init : brates) (p : list N) : brates :=
  let '(r, p) := take_rate (b_rotation init) p in
  let '(t, p) := take_rate (b_translation init) p in
  let '(s, _) := take_rate (b_scale init) p in
  {| b_rotation := r; b_translation := t; b_scale := s |}.
Definition counted_bits (r : N) : N := if is_variable r then rate_bits r else 0.
Definition transform_size (r : brates) : N := counted_bits (b_rotation r) + counted_bits (b_translation r) + counted_bits (b_scale r).
(** :951-958 *)
Definition needs_segment_range (init r : brates) : bool :=
  ((b_rotation init =? k_lowest_bit_rate) && (b_rotation r =? 0)) || ((b_translation init =? k_lowest_bit_rate) && (b_translation r =? 0)) ||
  ((b_scale init =? k_lowest_bit_rate) && (b_scale r =? 0)).

(** :924-981, the loop over the permutations, one transform *)
Fixpoint local_search (e : search) (bone : nat) (init : brates) (perms : list (list N)) (best : brates) (best_error : f32) (prev : N) (good : bool) : brates :=
  match perms with
  | [] => best
  | p :: perms =>
      let d := desired_rates init p in let size := transform_size d in
      if needs_segment_range init d then local_search e bone init perms best best_error prev good
      else if good && negb (size =? prev) then best
      else let error := r_local e bone d in
        if flt error best_error then local_search e bone init perms d error size (flt error (r_threshold e bone))
        else local_search e bone init perms best best_error size good
  end.
(** 1.0E10F *)
Definition f_1e10 : f32 := f_of_Z 10000000000.
(** calculate_local_space_bit_rates, :885-988, one transform *)
Definition local_rates (e : search) (rates : list brates) (bone : nat) : list brates :=
  let init := brates_at rates bone in
  if (num_dof init =? 0)%nat then rates
  else upd rates bone (local_search e bone init (rate_permutations (num_dof init)) init f_1e10 0xFFFFFFFF false).
Definition calculate_local_space_bit_rates (e : search) (rates : list brates) : list brates :=
  fold_left (local_rates e) (seq 0 (length rates)) rates.

(** increment_and_clamp_bit_rate, :991-995 *)
Definition increment_and_clamp (r k : N) : N := if k_highest_bit_rate <=? r then r else N.min (r + k) k_highest_bit_rate.

(** increase_bone_bit_rate, :997-1050: the best rates and their error; the three loops, innermost first, over the increments that are left *)
Section Increase.
  Context (e : search) (rates : list brates) (bone : nat) (init : brates) (num : N).
  Fixpoint scale_increments (ki kt : N) (ks : list N) (best : brates) (best_error : f32) : brates * f32 :=
    match ks with
    | [] => (best, best_error)
    | k :: ks =>
        let s := increment_and_clamp (b_scale init) k in
        if negb (ki + kt + k =? num) then (if k_highest_bit_rate <=? s then (best, best_error) else scale_increments ki kt ks best best_error)
        else
          let r := {| b_rotation := increment_and_clamp (b_rotation init) ki; b_translation := increment_and_clamp (b_translation init) kt; b_scale := s |} in
          let error := r_object e false (upd rates bone r) bone in
          let '(best, best_error) := if flt error best_error then (r, error) else (best, best_error) in
          if k_highest_bit_rate <=? s then (best, best_error) else scale_increments ki kt ks best best_error
    end.
  Definition increments (n : N) : list N := map N.of_nat (seq 0 (N.to_nat n + 1)).
  Fixpoint translation_increments (ki : N) (kts : list N) (best : brates) (best_error : f32) : brates * f32 :=
    match kts with
    | [] => (best, best_error)
    | kt :: kts =>
        let '(best, best_error) := scale_increments ki kt (increments (if r_has_scale e then num else 0)) best best_error in
        if k_highest_bit_rate <=? increment_and_clamp (b_translation init) kt then (best, best_error) else translation_increments ki kts best best_error
    end.
  Fixpoint rotation_increments (kis : list N) (best : brates) (best_error : f32) : brates * f32 :=
    match kis with
    | [] => (best, best_error)
    | ki :: kis =>
        let '(best, best_error) := translation_increments ki (increments num) best best_error in
        if k_highest_bit_rate <=? increment_and_clamp (b_rotation init) ki then (best, best_error) else rotation_increments kis best best_error
    end.
End Increase.
Definition increase_bone_bit_rate (e : search) (rates : list brates) (bone : nat) (num : N) (old_error : f32) : brates * f32 :=
  let init := brates_at rates bone in rotation_increments e rates bone init num (increments num) init old_error.

(** std::next_permutation: the next permutation in lexicographic order; None when it returns false *)
Fixpoint swap_last (x : N) (l : list N) : option (N * list N) :=
  match l with
  | [] => None
  | y :: l => match swap_last x l with
              | Some (z, l) => Some (z, y :: l)
              | None => if x <? y then Some (y, x :: l) else None
              end
  end.
Fixpoint next_permutation (l : list N) : option (list N) :=
  match l with
  | [] => None
  | x :: l => match next_permutation l with
              | Some l => Some (x :: l)
              | None => match swap_last x l with Some (y, l) => Some (y :: rev l) | None => None end
              end
  end.

Definition brates_eqb (a b : brates) : bool := (b_rotation a =? b_rotation b) && (b_translation a =? b_translation b) && (b_scale a =? b_scale b).
(** :1062-1077: the rates of a permutation of the increments; whether one of them differs *)
Fixpoint permutation_rates (e : search) (rates : list brates) (old_error : f32) (chain : list nat) (perm : list N) (pr : list brates) (valid : bool) : list brates * bool :=
  match chain, perm with
  | c :: chain, k :: perm =>
      if k =? 0 then permutation_rates e rates old_error chain perm pr valid
      else let b := fst (increase_bone_bit_rate e rates c k old_error) in
        permutation_rates e rates old_error chain perm (upd pr c b) (valid || negb (brates_eqb b (brates_at pr c)))
  | _, _ => (pr, valid)
  end.
(** calculate_bone_permutation_error, :1052-1098: the best error and best_bit_rates *)
Fixpoint permutation_loop (fuel : nat) (e : search) (rates : list brates) (bone : nat) (old_error : f32) (perm : list N) (best_error : f32) (best_rates : list brates)
    : outcome (f32 * list brates) :=
  match fuel with
  | O => NoFuel
  | S fuel =>
      let next best_error best_rates := match next_permutation perm with
        | Some perm => permutation_loop fuel e rates bone old_error perm best_error best_rates
        | None => Ok (best_error, best_rates)
        end in
      let '(pr, valid) := permutation_rates e rates old_error (r_chain e bone) perm rates false in
      if negb valid then next best_error best_rates
      else let error := r_object e false pr bone in
        if flt error best_error then (if flt error (r_threshold e bone) then Ok (error, pr) else next error pr)
        else next best_error best_rates
  end.

(** the arrays the loops of :1241-1377 update: error, best_error, best_bit_rates and best_permutation_bit_rates *)
Record climbing := { k_error : f32; k_best_error : f32; k_best : list brates; k_buffer : list brates }.
(** one of the six attempts, :1258-1269 and its copies; the pattern is what is stored at the end of the array of increments *)
Definition attempt (fuel : nat) (e : search) (rates : list brates) (bone : nat) (original : f32) (pattern : list N) (k : climbing) : outcome (bool * climbing) :=
  let n := length (r_chain e bone) in
  bindo (permutation_loop fuel e rates bone original (repeat 0 (n - length pattern) ++ pattern) original (k_buffer k)) (fun '(error, buffer) =>
    if flt error (k_best_error k) then Ok (flt error (r_threshold e bone), {| k_error := error; k_best_error := error; k_best := buffer; k_buffer := buffer |})
    else Ok (false, {| k_error := error; k_best_error := k_best_error k; k_best := k_best k; k_buffer := buffer |})).
(** the attempts that are made at a level, :1258-1350 *)
Definition patterns (level : N) (n : nat) : list (list N) :=
  [[1]] ++
  (if 3 <=? level then [[2]] ++ (if 1 <? N.of_nat n then [[1; 1]] else []) else []) ++
  (if 4 <=? level then [[3]] ++ (if 1 <? N.of_nat n then [[2; 1]] ++ (if 2 <? N.of_nat n then [[1; 1; 1]] else []) else []) else []).
Fixpoint attempts (fuel : nat) (e : search) (rates : list brates) (bone : nat) (original : f32) (l : list (list N)) (k : climbing) : outcome (bool * climbing) :=
  match l with
  | [] => Ok (false, k)
  | p :: l => bindo (attempt fuel e rates bone original p k) (fun '(finished, k) => if finished then Ok (true, k) else attempts fuel e rates bone original l k)
  end.
(** the loop of :1250-1377: the rates of the context and the rest *)
Fixpoint climb (fuel : nat) (e : search) (rates : list brates) (bone : nat) (k : climbing) : outcome (list brates * climbing) :=
  if negb (fge (k_error k) (r_threshold e bone)) then Ok (rates, k)
  else match fuel with
  | O => NoFuel
  | S fuel' =>
      let original := k_error k in
      bindo (attempts fuel e rates bone original (patterns (r_level e) (length (r_chain e bone)))
        {| k_error := original; k_best_error := original; k_best := k_best k; k_buffer := k_buffer k |}) (fun '(finished, k) =>
      if finished then Ok (rates, k)
      else if fge (k_best_error k) original then Ok (rates, k)
      else climb fuel' e (if flt (k_best_error k) original then k_best k else rates) bone
             {| k_error := k_best_error k; k_best_error := k_best_error k; k_best := k_best k; k_buffer := k_buffer k |})
  end.

(** :1425-1439: std::min_element, the first of the smallest, and the rate that is raised *)
Definition smallest_rate (r : brates) : N := N.min (b_rotation r) (N.min (b_translation r) (b_scale r)).
Definition raise (r : brates) : brates :=
  let translation := {| b_rotation := b_rotation r; b_translation := b_translation r + 1; b_scale := b_scale r |} in
  if (b_rotation r =? b_translation r) && (b_translation r <? k_highest_bit_rate) && (k_highest_bit_rate <=? b_scale r) then translation
  else if b_rotation r =? smallest_rate r then {| b_rotation := b_rotation r + 1; b_translation := b_translation r; b_scale := b_scale r |}
  else if b_translation r =? smallest_rate r then translation
  else {| b_rotation := b_rotation r; b_translation := b_translation r; b_scale := b_scale r + 1 |}.
(** :1416-1464, the inner loop: whether it was maxed out, the best rates of the transform of the chain, their error *)
Fixpoint widen_bone (fuel : nat) (e : search) (rates : list brates) (bone c : nat) (error : f32) (best : brates) (best_error : f32) : outcome (bool * brates * f32) :=
  if negb (fge error (r_threshold e bone)) then Ok (false, best, best_error)
  else if k_highest_bit_rate <=? smallest_rate (brates_at rates c) then Ok (true, best, best_error)
  else match fuel with
  | O => NoFuel
  | S fuel =>
      let r := raise (brates_at rates c) in let rates := upd rates c r in
      let error := r_object e true rates bone in
      if flt error best_error then widen_bone fuel e rates bone c error r error else widen_bone fuel e rates bone c error best best_error
  end.
(** :1406-1469, from child to parent: the rates, the error, and how many were maxed out *)
Fixpoint widen_chain (fuel : nat) (e : search) (rates : list brates) (bone : nat) (chain : list nat) (error : f32) (maxed : nat) : outcome (list brates * f32 * nat) :=
  match chain with
  | [] => Ok (rates, error, maxed)
  | c :: chain =>
      bindo (widen_bone fuel e rates bone c error (brates_at rates c) error) (fun '(out, best, best_error) =>
        let rates := upd rates c best in let maxed := if out : bool then S maxed else maxed in
        if flt best_error (r_threshold e bone) then Ok (rates, best_error, maxed) else widen_chain fuel e rates bone chain best_error maxed)
  end.
(** the loop of :1403-1475 *)
Fixpoint widen (fuel : nat) (e : search) (rates : list brates) (bone : nat) (error : f32) : outcome (list brates * f32) :=
  if negb (fge error (r_threshold e bone)) then Ok (rates, error)
  else match fuel with
  | O => NoFuel
  | S fuel' =>
      bindo (widen_chain fuel e rates bone (rev (r_chain e bone)) error 0) (fun '(rates, error, maxed) =>
        if (maxed =? length (r_chain e bone))%nat then Ok (rates, error) else widen fuel' e rates bone error)
  end.
(** :1485-1500 *)
Definition max_out (r : brates) : brates :=
  {| b_rotation := N.max (b_rotation r) k_highest_bit_rate; b_translation := N.max (b_translation r) k_highest_bit_rate; b_scale := N.max (b_scale r) k_highest_bit_rate |}.
Fixpoint max_out_chain (e : search) (rates : list brates) (bone : nat) (chain : list nat) : list brates :=
  match chain with
  | [] => rates
  | c :: chain =>
      let rates := upd rates c (max_out (brates_at rates c)) in
      if flt (r_object e true rates bone) (r_threshold e bone) then rates else max_out_chain e rates bone chain
  end.

(** the body of the loop over the transforms, :1236-1502; best_bit_rates and best_permutation_bit_rates are kept from a transform to the next *)
Definition optimize_bone (fuel : nat) (e : search) (bone : nat) (rates best buffer : list brates) : outcome (list brates * list brates * list brates) :=
  let initial := r_object e false rates bone in
  if flt initial (r_threshold e bone) then Ok (rates, best, buffer)
  else bindo (climb fuel e rates bone {| k_error := initial; k_best_error := initial; k_best := best; k_buffer := buffer |}) (fun '(rates, k) =>
    let rates := if flt (k_error k) initial then k_best k else rates in
    bindo (widen fuel e rates bone (r_object e true rates bone)) (fun '(rates, error) =>
      Ok (if fge error (r_threshold e bone) && r_rotation_full e then max_out_chain e rates bone (rev (r_chain e bone)) else rates, k_best k, k_buffer k))).
Fixpoint optimize_bones (fuel : nat) (e : search) (order : list nat) (rates best buffer : list brates) : outcome (list brates) :=
  match order with
  | [] => Ok rates
  | b :: order => bindo (optimize_bone fuel e b rates best buffer) (fun '(rates, best, buffer) => optimize_bones fuel e order rates best buffer)
  end.
(** find_optimal_bit_rates, :1174-1525; [buffer] is what the memory of best_permutation_bit_rates holds when it is allocated *)
Definition find_optimal_bit_rates (fuel : nat) (e : search) (initial buffer : list brates) : outcome (list brates) :=
  let rates := calculate_local_space_bit_rates e initial in
  optimize_bones fuel e (r_order e) rates rates buffer.
