(** C47: the search for bit rates. Model: RateSearch.v.
    Vocabulary: [rate_at], [allowed], [starts], [chains_ok], [errors_ok], [searched] below; [find_optimal_bit_rates] returns the bit rates of
    the transforms of a segment, three for each; 255 stands for a sub-track that has none. *)
From Coq Require Import ZArith NArith Bool List Lia.
From Verif Require Import Word WordFacts Float32 Headers RateSearch RateOrder RateFacts RateLocal RateEnds.
From Verif Require Import ScalarLanes Quant Interp SeekSpec TransMeta TransDec TransSpec TransEnc TransClipSpec TransFile TransSeek TransPlaySpec TransTop TransExample TransQuant TransQuantStream TransQuantSpec TrackArray TransList TransListSpec Prop_Trans Prop_Quant Prop_List.
Import ListNotations.
Local Open Scope N_scope.
Ltac Zify.zify_post_hook ::= idtac.

Definition rate_at (r : brates) (ch : channel) : N := match ch with Rotation => b_rotation r | Translation => b_translation r | Scale => b_scale r end.
(** the rates that can be chosen for a transform: none where it has none, otherwise the one it starts with up to 24 *)
Definition allowed (start r : brates) : Prop := forall ch,
  (rate_at start ch = 255 -> rate_at r ch = 255) /\ (rate_at start ch <> 255 -> rate_at start ch <= rate_at r ch <= 24).
(** the rates the search starts with: 255 for sub-tracks that are not animated, 0 for the others in clips that are split and 1 in those that are not *)
Definition starts (l : list brates) : Prop := forall b ch, (b < length l)%nat -> let r := rate_at (nth b l no_rates) ch in r = 0 \/ r = 1 \/ r = 255.
(** in a hierarchy no transform is its own ancestor *)
Definition chains_ok (e : search) (n : nat) : Prop := forall b, In b (r_order e) -> NoDup (r_chain e b) /\ forall c, In c (r_chain e b) -> (c < n)%nat.
(** what the error metric says of the transforms is never NaN, and neither are their precisions *)
Definition errors_ok (e : search) : Prop := forall b, In b (r_order e) -> fnan (r_threshold e b) = false /\ forall l, fnan (r_object e true l b) = false.

Lemma allowed_from s r : brates_from s r <-> brates_ok s /\ allowed s r.
Proof.
  unfold brates_from, rate_from, brates_ok, rate_ok, allowed. split.
  - intros (A & B & C). split; [lia |]. intros [| |]; cbn [rate_at]; lia.
  - intros [O A]. pose proof (A Rotation) as A1. pose proof (A Translation) as A2. pose proof (A Scale) as A3. cbn [rate_at] in *. lia.
Qed.
Lemma starts_initial l : starts l -> Forall brates_initial l.
Proof.
  intros S. apply Forall_forall. intros r Ir. apply (In_nth _ _ no_rates) in Ir as (b & L & <-). split; [exact (S b Rotation L) |]. split; [exact (S b Translation L) | exact (S b Scale L)].
Qed.
Lemma from_allowed l l' b : rates_from l l' -> allowed (nth b l no_rates) (nth b l' no_rates).
Proof. intros H. exact (proj2 (proj1 (allowed_from _ _) (rates_from_at _ _ b H))). Qed.
Lemma initial_all_ok l : Forall brates_initial l -> Forall brates_ok l.
Proof. intros H. eapply Forall_impl; [| exact H]. apply initial_legal. Qed.

(** Whatever the error metric says, NaN included, the bit rates that come out can be written: from the one the sub-track starts with up to
    24, none for those that have none. No rate is below that of the search in local space. *)
Theorem C47_found_rates_are_allowed : forall fuel e l buffer r, starts l -> find_optimal_bit_rates fuel e l buffer = Ok r ->
  length r = length l /\ (forall b, allowed (nth b l no_rates) (nth b r no_rates)) /\
  forall b, allowed (nth b (calculate_local_space_bit_rates e l) no_rates) (nth b r no_rates).
Proof.
  intros fuel e l buffer r S H. apply starts_initial in S. unfold find_optimal_bit_rates in H. cbv zeta in H. pose proof (local_space_from e l S) as L.
  apply optimize_bones_from in H; [| eapply rates_from_ok, L]. pose proof (rates_from_trans _ _ _ L H) as R. split; [eapply rates_from_length, R |]. split; intros b; apply from_allowed; assumption.
Qed.
Print Assumptions C47_found_rates_are_allowed.

(** In local space, when some rates bring the error of a transform below its precision, those that are chosen do, no others that do take
    fewer bits, and of those that take as many none has a smaller error. *)
Theorem C47_local_search_is_optimal : forall e l b, starts l -> (b < length l)%nat -> fle (r_threshold e b) f_1e10 = true ->
  let start := nth b l no_rates in let best := nth b (calculate_local_space_bit_rates e l) no_rates in
  start <> no_rates -> (exists r, allowed start r /\ flt (r_local e b r) (r_threshold e b) = true) ->
  allowed start best /\ flt (r_local e b best) (r_threshold e b) = true /\
  forall r, allowed start r -> flt (r_local e b r) (r_threshold e b) = true ->
    transform_size best <= transform_size r /\ (transform_size r = transform_size best -> flt (r_local e b r) (r_local e b best) = false).
Proof.
  intros e l b SL LT T start best NN (r0 & A0 & P0). apply starts_initial in SL. pose proof (initial_all_ok l SL) as OK. split; [apply from_allowed, local_space_from, SL |].
  assert (I : brates_initial start) by (rewrite Forall_forall in SL; apply SL, nth_In, LT).
  assert (ND : num_dof start <> 0%nat).
  { clear - NN I. destruct start as [x y z]. unfold brates_initial, initial_ok in I. cbn [b_rotation b_translation b_scale] in I. destruct I as (X & Y & Z). unfold num_dof, is_variable, k_invalid_bit_rate. cbn [b_rotation b_translation b_scale].
    destruct X as [-> | [-> | ->]], Y as [-> | [-> | ->]], Z as [-> | [-> | ->]]; cbn; try discriminate. exfalso. apply NN. reflexivity. }
  assert (BE : best = local_search e b start (rate_permutations (num_dof start)) start f_1e10 0xFFFFFFFF false).
  { subst best. unfold calculate_local_space_bit_rates. change (nth b ?x no_rates) with (brates_at x b).
    assert (NO : forall q rates, ~ In b q -> brates_at (fold_left (local_rates e) q rates) b = brates_at rates b) by (intros q; induction q as [| c q IH]; intros rates NI; cbn [fold_left]; [reflexivity |]; rewrite IH by (intros Q; apply NI; right; exact Q); apply local_rates_other; intros ->; apply NI; left; reflexivity).
    assert (LE : forall q rates, length (fold_left (local_rates e) q rates) = length rates) by (intros q; induction q as [| c q IH]; intros rates; cbn [fold_left]; [reflexivity |]; rewrite IH; unfold local_rates; destruct (_ =? _)%nat; [reflexivity | apply upd_length]).
    assert (SEQ : seq 0 (length l) = seq 0 b ++ b :: seq (S b) (length l - S b)) by (replace (length l) with (b + S (length l - S b))%nat at 1 by lia; rewrite seq_app; reflexivity). rewrite SEQ.
    rewrite fold_left_app. cbn [fold_left]. rewrite NO by (rewrite in_seq; lia). set (l1 := fold_left (local_rates e) (seq 0 b) l).
    assert (B1 : brates_at l1 b = start) by (unfold l1; rewrite NO by (rewrite in_seq; lia); reflexivity). unfold local_rates. rewrite B1. apply Nat.eqb_neq in ND. rewrite ND.
    apply at_upd_same. unfold l1. rewrite LE. exact LT. }
  clearbody best. destruct (search_smallest e b start I (rate_permutations (num_dof start)) (permutations_usable start) (permutations_sorted _) start f_1e10 0xFFFFFFFF T) as [H1 H2].
  - destruct (desires_all start r0 I) as (p & D & N); [apply allowed_from; split; [apply initial_legal, I | exact A0] |]. destruct D as (D1 & D2 & D3). exists p. split; [apply permutations_in; auto |].
    unfold ofs, passes, local_error. rewrite <- D3. auto.
  - rewrite <- BE in H1, H2. split; [exact H1 |]. intros r A P. destruct (desires_all start r I) as (p & D & N); [apply allowed_from; split; [apply initial_legal, I | exact A] |]. pose proof (desires_size _ _ _ I D) as SZ. destruct D as (D1 & D2 & D3).
    specialize (H2 p). unfold ofs, passes, local_error in H2. rewrite <- D3, <- SZ in H2. apply H2; [apply permutations_in; auto | exact N | exact P].
Qed.
Print Assumptions C47_local_search_is_optimal.

(** The search ends when no error is NaN, with rates that depend neither on the fuel of the model nor on what the memory it allocates held. *)
Theorem C47_the_search_ends : forall e l, starts l -> chains_ok e (length l) -> errors_ok e ->
  exists r fuel0, forall fuel buffer, (fuel0 <= fuel)%nat -> find_optimal_bit_rates fuel e l buffer = Ok r.
Proof.
  intros e l S CH ER. apply starts_initial in S. pose proof (rates_from_ok _ _ (local_space_from e l S)) as OK. unfold find_optimal_bit_rates. cbv zeta. set (l1 := calculate_local_space_bit_rates e l) in *.
  set (f0 := bones_fuel e (length l1) (r_order e)).
  destruct (optimize_bones_end e f0 (r_order e) l1 l1 [] ltac:(apply Forall_forall; intros b B; split; [exact (ER b B) | exact (proj1 (CH b B))]) OK ltac:(lia)) as [r E].
  exists r, f0. intros fuel buffer F. apply (optimize_bones_buffer e fuel (r_order e) l1 l1 [] buffer r OK). revert E. apply (more_fuel (fun f => optimize_bones f e (r_order e) l1 l1 [])); [intros n; apply optimize_bones_more | exact F].
Qed.
Print Assumptions C47_the_search_ends.
Theorem C47_memory_does_not_matter : forall fuel e l buffer buffer' r, starts l -> find_optimal_bit_rates fuel e l buffer = Ok r -> find_optimal_bit_rates fuel e l buffer' = Ok r.
Proof.
  intros fuel e l b b' r S. apply starts_initial in S. unfold find_optimal_bit_rates. cbv zeta. apply optimize_bones_buffer. eapply rates_from_ok, local_space_from, S.
Qed.
Print Assumptions C47_memory_does_not_matter.

(** With full precision rotations, the transform that is dealt with last is left below its precision (as one of the two scans of its key
    frames sees it), or every sub-track of its chain is at the highest rate. *)
Theorem C47_precision_or_highest_rates : forall fuel e l buffer r order b, starts l -> chains_ok e (length l) -> errors_ok e -> r_rotation_full e = true -> r_order e = order ++ [b] ->
  find_optimal_bit_rates fuel e l buffer = Ok r ->
  (exists scan, flt (r_object e scan r b) (r_threshold e b) = true) \/ forall c ch, In c (r_chain e b) -> 24 <= rate_at (nth c r no_rates) ch.
Proof.
  intros fuel e l buffer r order b S CH ER RF EO. apply starts_initial in S. pose proof (local_space_from e l S) as L. unfold find_optimal_bit_rates. cbv zeta. set (l1 := calculate_local_space_bit_rates e l) in *. clearbody l1.
  assert (Ib : In b (r_order e)) by (rewrite EO; apply in_or_app; right; left; reflexivity). rewrite EO. pose proof (rates_from_ok _ _ L) as OK. pose proof (rates_from_length _ _ L) as LL. clear L.
  assert (LC : forall c, In c (r_chain e b) -> (c < length l1)%nat) by (intros c C; rewrite LL; apply (CH b Ib), C). specialize (ER b Ib). clear - OK LC ER RF. generalize l1 at 2 as best. revert l1 buffer OK LC.
  induction order as [| a order IH]; intros l1 buffer OK LC best; cbn [app optimize_bones].
  - destruct (optimize_bone _ _ _ _ _ _) as [[[r1 b1] f1] | |] eqn:E; cbn [bindo]; [| discriminate | discriminate]. intros [= <-]. apply optimize_bone_post in E; [| exact OK | exact ER | exact RF | exact LC].
    destruct E as [E | E]; [left; exact E | right]. intros c ch C. specialize (E c C). unfold at_most_24 in E. change (nth c r1 no_rates) with (brates_at r1 c). destruct ch; cbn [rate_at]; lia.
  - destruct (optimize_bone _ _ _ _ _ _) as [[[r1 b1] f1] | |] eqn:E; cbn [bindo]; [| discriminate | discriminate]. apply optimize_bone_from in E; [| exact OK].
    apply IH; [eapply rates_from_ok, E |]. intros c C. rewrite (rates_from_length _ _ E). apply LC, C.
Qed.
Print Assumptions C47_precision_or_highest_rates.

(** * With C44 *)
(** initialize_bone_bit_rates, quantize.transform.h:1111-1140, for the clip [p] whose sub-tracks become [fates] *)
Definition animated (f : fate) : bool := match f with Animated => true | _ => false end.
Definition initial_rates (p : tclip) (fates : nat -> channel -> fate) (n : nat) : list brates :=
  map (fun b => let r ch := initial_rate (p_variable p ch) (negb (animated (fates b ch))) (1 <? num_segments p) in
    {| b_rotation := r Rotation; b_translation := r Translation; b_scale := r Scale |}) (seq 0 n).
(** the rates of each segment are what a search finds, however its memory is filled; transforms that do not exist are given 1 *)
Definition searched (p : tclip) (fates : nat -> channel -> fate) (n : nat) (es : N -> search) (rates : N -> N -> channel -> N) : Prop :=
  forall g, g < num_segments p -> exists fuel buffer r, find_optimal_bit_rates fuel (es g) (initial_rates p fates n) buffer = Ok r /\
    forall b ch, rates g (N.of_nat b) ch = if (b <? n)%nat then rate_at (nth b r no_rates) ch else 1.

Lemma initial_starts p fates n : starts (initial_rates p fates n).
Proof.
  intros b ch L. unfold initial_rates in *. rewrite map_length, seq_length in L. cbv zeta.
  erewrite nth_indep by (rewrite map_length, seq_length; exact L). rewrite (map_nth (fun b => {| b_rotation := _; b_translation := _; b_scale := _ |}) (seq 0 n) 0%nat), seq_nth by exact L.
  destruct ch; cbn [rate_at b_rotation b_translation b_scale]; unfold initial_rate, k_lowest_bit_rate, k_invalid_bit_rate; destruct (_ && _); try destruct (1 <? _); auto.
Qed.
Lemma initial_nth p fates n b ch : (b < n)%nat -> rate_at (nth b (initial_rates p fates n) no_rates) ch = initial_rate (p_variable p ch) (negb (animated (fates b ch))) (1 <? num_segments p).
Proof.
  intros L. unfold initial_rates. erewrite nth_indep by (rewrite map_length, seq_length; exact L). rewrite (map_nth (fun b => {| b_rotation := _; b_translation := _; b_scale := _ |}) (seq 0 n) 0%nat), seq_nth by exact L.
  destruct ch; reflexivity.
Qed.
(** The rates the search finds are those C44 and C45 ask for. *)
Theorem C47_searched_rates_are_legal : forall p fates n es rates, searched p fates n es rates -> rates_legal p rates fates.
Proof.
  intros p fates n es rates S g b ch G A V. destruct (S g G) as (fuel & buffer & r & F & R). rewrite R. destruct (Nat.ltb_spec b n) as [L | L]; [| split; [lia | discriminate]].
  destruct (C47_found_rates_are_allowed _ _ _ _ _ (initial_starts p fates n) F) as (_ & AL & _). specialize (AL b ch). rewrite initial_nth, V, A in AL by exact L. cbn [animated negb] in AL. unfold initial_rate in AL. cbn [andb negb] in AL.
  unfold k_lowest_bit_rate in AL. destruct (N.ltb_spec 1 (num_segments p)) as [Q | Q]; destruct AL as [_ AL]; specialize (AL ltac:(discriminate)); lia.
Qed.
Print Assumptions C47_searched_rates_are_legal.
Theorem C47_rates_are_found : forall p fates n es, (forall g, chains_ok (es g) n /\ errors_ok (es g)) -> exists rates, searched p fates n es rates.
Proof.
  intros p fates n es H.
  assert (LN : length (initial_rates p fates n) = n) by (unfold initial_rates; rewrite map_length, seq_length; reflexivity).
  assert (E : forall k, exists rs : list (list brates), length rs = k /\ forall g, (g < k)%nat -> exists fuel, find_optimal_bit_rates fuel (es (N.of_nat g)) (initial_rates p fates n) [] = Ok (nth g rs [])).
  { induction k as [| k (rs & L & IH)]; [exists []; split; [reflexivity | intros g G; lia] |].
    destruct (H (N.of_nat k)) as [CH ER]. rewrite <- LN in CH. destruct (C47_the_search_ends (es (N.of_nat k)) (initial_rates p fates n) (initial_starts p fates n) CH ER) as (r & f0 & F).
    exists (rs ++ [r]). rewrite app_length. cbn [length]. split; [lia |]. intros g G. destruct (Nat.eq_dec g k) as [-> | NE].
    - exists f0. rewrite app_nth2 by lia. rewrite L, Nat.sub_diag. cbn [nth]. apply F. lia.
    - rewrite app_nth1 by lia. apply IH. lia. }
  destruct (E (N.to_nat (num_segments p))) as (rs & L & F). exists (fun g b ch => if (N.to_nat b <? n)%nat then rate_at (nth (N.to_nat b) (nth (N.to_nat g) rs []) no_rates) ch else 1).
  intros g G. destruct (F (N.to_nat g) ltac:(lia)) as [fuel Q]. rewrite N2Nat.id in Q. exists fuel, [], (nth (N.to_nat g) rs []). split; [exact Q |]. intros b ch. rewrite Nat2N.id. reflexivity.
Qed.
Print Assumptions C47_rates_are_found.

(** and there is only one way to find them: no memory they depend on is left as it was allocated *)
Theorem C47_found_rates_are_unique : forall p fates n es rates rates', searched p fates n es rates -> searched p fates n es rates' ->
  forall g b ch, g < num_segments p -> rates g (N.of_nat b) ch = rates' g (N.of_nat b) ch.
Proof.
  intros p fates n es rates rates' S S' g b ch G. destruct (S g G) as (f & bu & r & F & R). destruct (S' g G) as (f' & bu' & r' & F' & R'). rewrite R, R'.
  assert (E : r = r'); [| rewrite E; reflexivity]. pose proof (initial_starts p fates n) as I. apply (C47_memory_does_not_matter _ _ _ _ [] _ I) in F, F'.
  assert (M : forall k r, find_optimal_bit_rates k (es g) (initial_rates p fates n) [] = Ok r -> find_optimal_bit_rates (Datatypes.S k) (es g) (initial_rates p fates n) [] = Ok r) by (intros k x; apply optimize_bones_more).
  pose proof (more_fuel (fun k => find_optimal_bit_rates k (es g) (initial_rates p fates n) []) r (fun k => M k r) f (f + f')%nat ltac:(lia) F) as D.
  pose proof (more_fuel (fun k => find_optimal_bit_rates k (es g) (initial_rates p fates n) []) r' (fun k => M k r') f' (f + f')%nat ltac:(lia) F') as D'. cbn beta in D, D'. congruence.
Qed.
Print Assumptions C47_found_rates_are_unique.

(** Compression with the rates the search finds, segment after segment, succeeds and plays back the tracks, for every error metric that
    does not say NaN: C44 without its bit rates. *)
Theorem C47_tracks_come_back : forall R M s additive1 stripped hard lp n rate ts list_name tracks error,
  list_input R s n rate ts -> finite_samples R s ts -> described list_name tracks error ts ->
  exists p n' wrapped fates,
    clip_of s additive1 n' wrapped stripped hard rate p /\ loops R M s lp n ts n' wrapped /\
    (forall i y, nth_error ts i = Some y -> forall ch, fate_ok R M s (N.of_nat i) n' (y_default y) (prepared_samples R s n' y) (fates i) ch) /\
    forall es, (forall g, chains_ok (es g) (length ts) /\ errors_ok (es g)) ->
    exists rates, searched p fates (length ts) es rates /\
    forall junk j f, stripping_ok p -> (forall g i ch, allocator_ok (junk g i ch)) -> junks_ok j ->
    exists m, compress_list R M s additive1 stripped hard rates junk j f list_name tracks error lp rate ts = Ok (Some m) /\
    forall ds c0 h t rp, Forall (legal ds p) (h ++ [call_seek t rp]) ->
      exists c time lp k0 k1 al i0 f0 i1 f1, used ds c0 m (h ++ [call_seek t rp]) = Ok c /\
        feq time (sought ds (x_duration c) t) = true /\
        find_linear_interpolation_samples_with_sample_rate n' rate time rp lp = Ok (k0, k1, al) /\
        chosen p k0 k1 al i0 f0 i1 f1 (x_alpha c) /\ plays_tracks p rates ts (prepared_samples R s n') fates rp i0 f0 i1 f1 c.
Proof.
  intros R M s additive1 stripped hard lp n rate ts list_name tracks error I FIN DE.
  destruct (C44_tracks_come_back R M s additive1 stripped hard lp n rate ts list_name tracks error I FIN DE) as (p & n' & wr & fates & H1 & H2 & H3 & _ & H4). exists p, n', wr, fates. repeat (split; [assumption |]).
  intros es E. destruct (C47_rates_are_found p fates (length ts) es E) as (rates & SR). exists rates. split; [exact SR |]. intros junk j f ST AL J. exact (H4 rates junk j f ST (C47_searched_rates_are_legal _ _ _ _ _ SR) AL J).
Qed.
Print Assumptions C47_tracks_come_back.

(** * Examples, and what does not hold *)
(** one transform that has no scale, in a clip that is not split; its precision is 1/100 *)
Definition ex_start : list brates := [{| b_rotation := 1; b_translation := 1; b_scale := 255 |}].
Definition ex_precision : f32 := ex_value 1 100.
(** an error that gets smaller with every bit *)
Definition ex_rate_error (k : N) (r : brates) : f32 := fdiv f_one (f_of_N (1 + b_rotation r * b_translation r * k)).
Definition ex_search (k : N) (f : bool -> list brates -> nat -> f32) : search := {|
  r_local := fun _ => ex_rate_error k; r_object := f; r_threshold := fun _ => ex_precision; r_has_scale := false; r_level := 4; r_rotation_full := true;
  r_order := [0%nat]; r_chain := fun b => [b] |}.
(** in object space, the error of the transform itself *)
Definition ex_object (k : N) (_ : bool) (l : list brates) (b : nat) : f32 := ex_rate_error k (nth b l no_rates).
Lemma ex_starts : starts ex_start.
Proof. intros [| b] ch L; cbn [length ex_start] in L; [| lia]. destruct ch; cbn; auto. Qed.
Lemma ex_chains k f : chains_ok (ex_search k f) 1.
Proof. intros b [<- | []]. cbn [ex_search r_chain]. split; [repeat constructor; intros [] | intros c [<- | []]; lia]. Qed.
(** in local space 10 and 10 is the smallest that is below 1/100; in object space, where the error is four times as large, the search raises
    them to 20 and 20 *)
Example C47_example_local : calculate_local_space_bit_rates (ex_search 1 (ex_object 1)) ex_start = [{| b_rotation := 10; b_translation := 10; b_scale := 255 |}].
Proof. vm_compute. reflexivity. Qed.
Example C47_example_object : find_optimal_bit_rates 100 (ex_search 1 (fun _ l b => fmul (f_of_N 4) (ex_rate_error 1 (nth b l no_rates)))) ex_start [] = Ok [{| b_rotation := 20; b_translation := 20; b_scale := 255 |}].
Proof. vm_compute. reflexivity. Qed.
(** Without the hypothesis on the errors the search may not end: here the error is 1 with the rates found in local space, above the precision,
    and NaN with all others; the third phase tries to raise the rates, puts them back since the error is not smaller, does not count the
    transform as maxed out since the error is not above the precision, and starts again, for ever. *)
Definition ex_nan : f32 := fdiv f_zero f_zero.
Definition ex_found : list brates := [{| b_rotation := 10; b_translation := 10; b_scale := 255 |}].
Definition ex_nan_error (_ : bool) (l : list brates) (b : nat) : f32 := if brates_eqb (nth b l no_rates) (nth 0 ex_found no_rates) then f_one else ex_nan.
Definition ex_nan_search : search := ex_search 1 ex_nan_error.
Lemma ex_nan_other s l b : brates_eqb (nth b l no_rates) (nth 0 ex_found no_rates) = false -> r_object ex_nan_search s l b = ex_nan.
Proof. intros H. cbn [ex_nan_search ex_search r_object]. unfold ex_nan_error. rewrite H. reflexivity. Qed.
Lemma ex_nan_found s : r_object ex_nan_search s ex_found 0 = f_one.
Proof.
  cbn [ex_nan_search ex_search r_object]. unfold ex_nan_error. assert (H : brates_eqb (nth 0 ex_found no_rates) (nth 0 ex_found no_rates) = true) by reflexivity. rewrite H. reflexivity.
Qed.
Lemma ex_widen_forever fuel : widen fuel ex_nan_search ex_found 0 f_one = NoFuel.
Proof.
  assert (T : fge f_one (r_threshold ex_nan_search 0) = true) by (vm_compute; reflexivity). assert (N : fge ex_nan (r_threshold ex_nan_search 0) = false) by (vm_compute; reflexivity).
  assert (L : flt ex_nan f_one = false) by (vm_compute; reflexivity). assert (F : flt f_one (r_threshold ex_nan_search 0) = false) by (vm_compute; reflexivity).
  assert (B : forall fuel, widen_bone (S fuel) ex_nan_search ex_found 0 0 f_one (brates_at ex_found 0) f_one = Ok (false, brates_at ex_found 0, f_one)).
  { intros f. cbn [widen_bone]. rewrite T. cbn [negb]. change (k_highest_bit_rate <=? smallest_rate (brates_at ex_found 0)) with false. cbv iota zeta.
    rewrite ex_nan_other by reflexivity. rewrite L. destruct f; cbn [widen_bone]; rewrite N; reflexivity. }
  induction fuel as [| fuel IH]; cbn [widen]; rewrite T; cbn [negb]; [reflexivity |]. change (rev (r_chain ex_nan_search 0)) with [0%nat]. cbn [widen_chain]. rewrite B. cbn [bindo]. rewrite F. cbn [bindo].
  rewrite upd_same. change ((0 =? length (r_chain ex_nan_search 0))%nat) with false. cbv iota. exact IH.
Qed.
Definition ex_climbing : climbing := {| k_error := f_one; k_best_error := f_one; k_best := ex_found; k_buffer := [] |}.
Lemma ex_climb : match climb 20 ex_nan_search ex_found 0 ex_climbing with Ok (rr, k) => forallb (fun ab => brates_eqb (fst ab) (snd ab)) (combine rr ex_found) && (length rr =? 1)%nat && negb (flt (k_error k) f_one) | _ => false end = true.
Proof. vm_compute. reflexivity. Qed.
Lemma ex_climbs fuel rr k : climb fuel ex_nan_search ex_found 0 ex_climbing = Ok (rr, k) -> rr = ex_found /\ flt (k_error k) f_one = false.
Proof.
  intros C. pose proof ex_climb as Q. generalize dependent ex_climbing. intros k0 C Q. destruct (climb 20 ex_nan_search ex_found 0 k0) as [[rr' k'] | |] eqn:C2; try discriminate Q.
  pose proof (more_fuel (fun f => climb f ex_nan_search ex_found 0 k0) _ (fun n => climb_more _ _ n _ _ _) fuel (fuel + 20) ltac:(lia) C) as D.
  pose proof (more_fuel (fun f => climb f ex_nan_search ex_found 0 k0) _ (fun n => climb_more _ _ n _ _ _) 20%nat (fuel + 20) ltac:(lia) C2) as D2. cbn beta in D, D2. rewrite D in D2.
  assert (E1 : rr = rr') by congruence. assert (E2 : k = k') by congruence. subst rr' k'. clear D D2 C C2.
  apply andb_prop in Q as [Q Q3]. apply andb_prop in Q as [Q1 Q2]. apply negb_true_iff in Q3. split; [| exact Q3]. apply Nat.eqb_eq in Q2. destruct rr as [| x [|]]; try discriminate Q2. cbn [combine ex_found forallb fst snd] in Q1. rewrite andb_true_r in Q1.
  destruct x as [x1 x2 x3]. unfold brates_eqb in Q1. cbn [b_rotation b_translation b_scale] in Q1. apply andb_prop in Q1 as [Q1 A3]. apply andb_prop in Q1 as [A1 A2]. apply N.eqb_eq in A1, A2, A3. subst. reflexivity.
Qed.
Lemma ex_bone_forever fuel r : optimize_bone fuel ex_nan_search 0 ex_found ex_found [] <> Ok r.
Proof.
  unfold optimize_bone. rewrite ex_nan_found. assert (F : flt f_one (r_threshold ex_nan_search 0) = false) by (vm_compute; reflexivity). rewrite F. fold ex_climbing.
  destruct (climb fuel ex_nan_search ex_found 0 ex_climbing) as [[rr k] | |] eqn:C; cbn [bindo]; [| discriminate | discriminate]. apply ex_climbs in C as [-> C]. rewrite C, ex_nan_found, ex_widen_forever. cbn [bindo]. discriminate.
Qed.
Lemma ex_local : calculate_local_space_bit_rates ex_nan_search ex_start = ex_found.
Proof. vm_compute. reflexivity. Qed.
Theorem C47_the_search_may_not_end : forall fuel buffer r, find_optimal_bit_rates fuel ex_nan_search ex_start buffer <> Ok r.
Proof.
  intros fuel buffer r H. apply (C47_memory_does_not_matter fuel _ _ buffer [] r ex_starts) in H. unfold find_optimal_bit_rates in H. cbv zeta in H. rewrite ex_local in H. cbn [ex_nan_search ex_search r_order optimize_bones] in H. fold ex_nan_search in H.
  pose proof (ex_bone_forever fuel) as B. match type of H with bindo ?X _ = _ => change X with (optimize_bone fuel ex_nan_search 0 ex_found ex_found []) in H end.
  generalize dependent (optimize_bone fuel ex_nan_search 0 ex_found ex_found []). intros [x | |] H B; [exact (B x eq_refl) | discriminate | discriminate].
Qed.
Print Assumptions C47_the_search_may_not_end.
Theorem C47_the_search_ends_refuted : ~ forall e l, starts l -> chains_ok e (length l) -> exists fuel buffer r, find_optimal_bit_rates fuel e l buffer = Ok r.
Proof. intros H. destruct (H ex_nan_search ex_start ex_starts (ex_chains 1 _)) as (fuel & buffer & r & E). exact (C47_the_search_may_not_end _ _ _ E). Qed.
Print Assumptions C47_the_search_ends_refuted.

(** the two transforms of C44's example, the first the parent of the second: an error that is 0 once the rates of the chain add up to 22, else 1 *)
Definition ex_steps : search := {|
  r_local := fun _ r => if 20 <=? sum3 r mod 255 then f_zero else f_one;
  r_object := fun _ l b => if 22 <=? total (firstn (S b) l) mod 255 then f_zero else f_one;
  r_threshold := fun _ => ex_precision; r_has_scale := true; r_level := 3; r_rotation_full := false;
  r_order := [0%nat; 1%nat]; r_chain := fun b => seq 0 (S b) |}.
Lemma ex_steps_ok : chains_ok ex_steps 2 /\ errors_ok ex_steps.
Proof.
  split.
  - intros b I. cbn [ex_steps r_order r_chain In] in *. split; [apply seq_NoDup |]. intros c C. apply in_seq in C. lia.
  - intros b _. cbn [ex_steps r_threshold r_object]. split; [vm_compute; reflexivity |]. intros l. destruct (_ <=? _); reflexivity.
Qed.
(** 20 is enough for each in local space; two more for the first in object space, found by the attempt that raises by 2 *)
Example C47_example_chain : find_optimal_bit_rates 700 ex_steps [{| b_rotation := 1; b_translation := 255; b_scale := 255 |}; {| b_rotation := 255; b_translation := 1; b_scale := 255 |}] [] =
  Ok [{| b_rotation := 22; b_translation := 255; b_scale := 255 |}; {| b_rotation := 255; b_translation := 20; b_scale := 255 |}].
Proof. vm_compute. reflexivity. Qed.
(** C44's tracks, compressed with the rates this search finds *)
Example C47_example : exists p fates rates m, searched p fates 2 (fun _ => ex_steps) rates /\
  compress_list ex_R ex_M ex_ls false false (fun _ => 0) rates ex_allocator ex_junks ex_flags [97] ex_names ex_error lp_clamp ex_list_rate ex_list = Ok (Some m).
Proof.
  destruct (C47_tracks_come_back ex_R ex_M ex_ls false false (fun _ => 0) lp_clamp 4 ex_list_rate ex_list [97] ex_names ex_error ex_list_input ex_list_finite ex_described) as (p & n' & w & fates & CO & LO & FO & H).
  destruct (H (fun _ => ex_steps) (fun _ => ex_steps_ok)) as (rates & SR & C). destruct (C ex_allocator ex_junks ex_flags) as (m & E & _).
  - intros Q. rewrite (co_stripped _ _ _ _ _ _ _ _ CO) in Q. discriminate Q.
  - exact ex_allocator_ok.
  - exact ex_junks_ok.
  - exists p, fates, rates, m. split; [exact SR | exact E].
Qed.
