(** The metadata of transform clips: where the sections lie and what the getters read. *)
From Verif Require Import Word WordFacts MemoryUtils Float32 Float32Facts Interp TrackArray Headers HeadersFacts Hash Pieces LayoutSpec LayoutFacts LayoutOps LayoutBuild ByteFacts DbBuild
  ScalarEnc ScalarDec ScalarSpec ScalarBits ScalarWrite ScalarRead ScalarMeta ScalarMetaFacts TransMeta TransMetaSpec.
From Coq Require Import Lia ZifyBool ZifyN ZifyNat.
Ltac Zify.zify_post_hook ::= idtac.
Import ListNotations.
Local Open Scope N_scope.

Lemma up4_mono x y : x <= y -> up4 x <= up4 y.
Proof. intros H. unfold up4. apply N.mul_le_mono_l, N.div_le_mono; lia. Qed.
Lemma zeros_split k a : a <= k -> zeros k = zeros a ++ zeros (k - a).
Proof. intros H. unfold zeros. rewrite <- repeat_app. f_equal. lia. Qed.

Definition pad_of (on first : bool) (offset : N) : N := if on then (if first then 0 else up4 offset - offset) else 0.
Definition body_of (on : bool) (chunks : list (list N)) : list N := if on then concat chunks else [].
Lemma section_step on first w chunks a k H0 H1 offset h :
  (forall b o, w b o = emit chunks b o) -> blen a = offset -> h = offset + k + blen H0 -> pad_of on first offset + blen (body_of on chunks) <= k -> h < 2 ^ 32 - 64 ->
  put_section on first w (a ++ zeros k ++ H0 ++ zeros 4 ++ H1) h offset =
    Ok ((a ++ zeros (pad_of on first offset) ++ body_of on chunks) ++ zeros (k - pad_of on first offset - blen (body_of on chunks)) ++ H0 ++ word (opt on (offset + pad_of on first offset)) ++ H1,
        offset + pad_of on first offset + blen (body_of on chunks)).
Proof.
  intros W LA Hh Hk B. change (2 ^ 32 - 64) with 4294967232 in B. unfold put_section. destruct on.
  - assert (AL : (if first then offset else align_to 32 offset 4) = offset + pad_of true first offset).
    { unfold pad_of. destruct first; [lia|]. rewrite align_up4 by (change (2 ^ 32) with 4294967296; lia). pose proof (up4_bounds offset). lia. }
    rewrite AL. cbn [opt]. unfold body_of in *. set (pad := pad_of true first offset) in *. clearbody pad. set (B1 := concat chunks) in *.
    assert (E : a ++ zeros k ++ H0 ++ zeros 4 ++ H1 = concat [a ++ zeros pad; zeros (blen B1); zeros (k - pad - blen B1); H0; zeros 4; H1]).
    { cbn [concat]. rewrite app_nil_r. rewrite (zeros_split k pad) by lia. rewrite (zeros_split (k - pad) (blen B1)) by lia. rewrite <- !app_assoc. reflexivity. }
    rewrite E. match goal with |- context [write32 (concat ?ps) ?o ?v] => rewrite (write32_piece ps 4 (zeros 4) o v eq_refl) end; [| |reflexivity]. 2:{ cbn [firstn lens map sum_n]. rewrite !blen_app, !blen_zeros. lia. }
    cbn [bindo upd]. rewrite W. match goal with |- context [emit ?l (Some (concat ?ps)) ?o] => rewrite (emit_piece l ps 1 (zeros (blen B1)) o eq_refl) end; [| |unfold B1, zeros; rewrite repeat_length; apply blen_nat]. 2:{ cbn [firstn lens map sum_n]. rewrite blen_app, blen_zeros. lia. }
    cbn [bindo upd]. fold B1. f_equal. f_equal.
    + cbn [concat]. rewrite app_nil_r, <- !app_assoc. reflexivity.
    + unfold wrapw. replace (offset + pad + blen B1 - (offset + pad)) with (blen B1) by lia. rewrite N.mod_small by (change (2 ^ 32) with 4294967296; lia).
      apply addw_fits; [auto|change (2 ^ 32) with 4294967296; lia].
  - cbn [pad_of body_of opt]. change (zeros 0) with (@nil N). change (blen []) with 0. cbn [app]. rewrite app_nil_r, !N.sub_0_r, !N.add_0_r.
    assert (E : a ++ zeros k ++ H0 ++ zeros 4 ++ H1 = concat [a; zeros k; H0; zeros 4; H1]) by (cbn [concat]; rewrite app_nil_r; reflexivity).
    rewrite E. match goal with |- context [write32 (concat ?ps) ?o ?v] => rewrite (write32_piece ps 3 (zeros 4) o v eq_refl) end; [| |reflexivity]. 2:{ cbn [firstn lens map sum_n]. rewrite !blen_zeros. lia. }
    cbn [bindo upd concat]. rewrite app_nil_r. reflexivity.
Qed.

Lemma opt_lt b o : o < 2 ^ 32 - 64 -> opt b o < 2 ^ 32.
Proof. unfold opt, invalid_ptr. change (2 ^ 32) with 4294967296. destruct b; lia. Qed.
Lemma opt_ok b o : o < 2 ^ 32 - 64 -> ptr_is_valid (opt b o) = b.
Proof. unfold ptr_is_valid, opt, invalid_ptr. change (2 ^ 32) with 4294967296. destruct b; lia. Qed.
Lemma pad_first on o : pad_of on true o = 0.
Proof. destruct on; reflexivity. Qed.
Section Sections.
Context (on1 on2 on3 on4 on5 : bool) (c1 c2 c3 c4 c5 : list (list N)) (s : N).
Context (w1 w2 w3 w4 w5 : option (list N) -> N -> outcome (option (list N) * N)).
Hypothesis W1 : forall b o, w1 b o = emit c1 b o.
Hypothesis W2 : forall b o, w2 b o = emit c2 b o.
Hypothesis W3 : forall b o, w3 b o = emit c3 b o.
Hypothesis W4 : forall b o, w4 b o = emit c4 b o.
Hypothesis W5 : forall b o, w5 b o = emit c5 b o.
Let b1 := body_of on1 c1.
Let b2 := body_of on2 c2.
Let b3 := body_of on3 c3.
Let b4 := body_of on4 c4.
Let b5 := body_of on5 c5.
Definition meta_total : N := up4 (up4 (up4 (up4 (blen b1) + blen b2) + blen b3) + blen b4) + blen b5.
Definition total_size : N := if meta_total =? 0 then s + 15 else up4 (up4 s + meta_total) + 20.
Definition s_header : N := total_size - 20.
Definition s1 := up4 s.
Definition e1 := s1 + blen b1.
Definition s2 := e1 + pad_of on2 false e1.
Definition e2 := s2 + blen b2.
Definition s3 := e2 + pad_of on3 false e2.
Definition e3 := s3 + blen b3.
Definition s4 := e3 + pad_of on4 false e3.
Definition e4 := s4 + blen b4.
Definition s5 := e4 + pad_of on5 false e4.
Definition e5 := s5 + blen b5.
Hypothesis NZ : meta_total <> 0.
Hypothesis FIT : total_size < 2 ^ 32 - 64.
Lemma pad_le on o : o + pad_of on false o <= up4 o.
Proof. unfold pad_of. pose proof (up4_bounds o). destruct on; lia. Qed.
Lemma ends : e5 <= s_header /\ s_header + 20 = total_size.
Proof.
  unfold s_header, total_size. replace (meta_total =? 0) with false by lia. split; [|lia]. rewrite N.add_sub.
  assert (U : forall x, up4 (s1 + x) = s1 + up4 x) by (intros x; apply up4_add).
  set (M2 := up4 (blen b1) + blen b2). set (M3 := up4 M2 + blen b3). set (M4 := up4 M3 + blen b4).
  assert (A2 : e2 <= s1 + M2). { unfold e2, s2, e1. pose proof (pad_le on2 (s1 + blen b1)) as P. rewrite U in P. unfold M2. lia. }
  assert (A3 : e3 <= s1 + M3). { unfold e3, s3. pose proof (pad_le on3 e2) as P. pose proof (up4_mono _ _ A2) as Q. rewrite U in Q. unfold M3. lia. }
  assert (A4 : e4 <= s1 + M4). { unfold e4, s4. pose proof (pad_le on4 e3) as P. pose proof (up4_mono _ _ A3) as Q. rewrite U in Q. unfold M4. lia. }
  assert (A5 : e5 <= s1 + (up4 M4 + blen b5)). { unfold e5, s5. pose proof (pad_le on5 e4) as P. pose proof (up4_mono _ _ A4) as Q. rewrite U in Q. lia. }
  fold s1. rewrite U. unfold meta_total. fold M2. fold M3. fold M4. pose proof (up4_bounds (up4 M4 + blen b5)). lia.
Qed.
Definition meta_tail : list N :=
  (zeros (s1 - s) ++ b1 ++ zeros (pad_of on2 false e1) ++ b2 ++ zeros (pad_of on3 false e2) ++ b3 ++ zeros (pad_of on4 false e3) ++ b4 ++ zeros (pad_of on5 false e4) ++ b5) ++
  zeros (s_header - e5) ++ word (opt on1 s1) ++ word (opt on2 s2) ++ word (opt on3 s3) ++ word (opt on4 s4) ++ word (opt on5 s5).
Lemma s_bounds : s <= s1 <= s + 3 /\ s1 <= e1 /\ e1 <= s2 /\ s2 <= e2 /\ e2 <= s3 /\ s3 <= e3 /\ e3 <= s4 /\ s4 <= e4 /\ e4 <= s5 /\ s5 <= e5 /\ e5 <= s_header /\ s_header + 20 < 2 ^ 32 - 64.
Proof.
  pose proof ends as [E1 E2]. pose proof (up4_bounds s). unfold e5, s5, e4, s4, e3, s3, e2, s2, e1, s1 in *. rewrite <- E2 in FIT. repeat split; try lia.
Qed.
Lemma sections_written A : blen A = s ->
  bindo (put_section on1 true w1 (A ++ zeros (total_size - s)) s_header (up4 s)) (fun '(m, offset) =>
  bindo (put_section on2 false w2 m (s_header + 4) offset) (fun '(m, offset) =>
  bindo (put_section on3 false w3 m (s_header + 8) offset) (fun '(m, offset) =>
  bindo (put_section on4 false w4 m (s_header + 12) offset) (fun '(m, offset) =>
  bindo (put_section on5 false w5 m (s_header + 16) offset) (fun '(m, offset) => Ok m))))) = Ok (A ++ meta_tail).
Proof.
  intros LA. pose proof ends as [_ T]. pose proof s_bounds as (B0 & B1 & B2 & B3 & B4 & B5 & B6 & B7 & B8 & B9 & B10 & F). change (2 ^ 32 - 64) with 4294967232 in F. fold s1.
  assert (P1 : pad_of on1 true s1 = 0) by apply pad_first.
  assert (E : A ++ zeros (total_size - s) = (A ++ zeros (s1 - s)) ++ zeros (s_header - s1) ++ [] ++ zeros 4 ++ zeros 16).
  { cbn [app]. rewrite (zeros_split (total_size - s) (s1 - s)) by lia. rewrite (zeros_split (total_size - s - (s1 - s)) (s_header - s1)) by lia.
    replace (total_size - s - (s1 - s) - (s_header - s1)) with 20 by lia. change (zeros 20) with (zeros 4 ++ zeros 16). rewrite <- !app_assoc. reflexivity. }
  rewrite E. clear E.
  rewrite (section_step on1 true w1 c1 (A ++ zeros (s1 - s)) (s_header - s1) [] (zeros 16) s1 s_header W1);
    [|rewrite blen_app, blen_zeros; lia|change (blen []) with 0; lia|rewrite P1; fold b1; unfold e1 in *; lia|change (2 ^ 32 - 64) with 4294967232; lia].
  cbn [bindo]. rewrite P1. fold b1. rewrite !N.add_0_r, N.sub_0_r. fold e1. change (zeros 0) with (@nil N). cbn [app].
  replace (s_header - s1 - blen b1) with (s_header - e1) by (unfold e1 in *; lia). change (zeros 16) with (zeros 4 ++ zeros 12).
  set (X1 := (A ++ zeros (s1 - s)) ++ b1). assert (L1 : blen X1 = e1) by (unfold X1; rewrite !blen_app, blen_zeros; unfold e1; lia).
  rewrite (section_step on2 false w2 c2 X1 (s_header - e1) (word (opt on1 s1)) (zeros 12) e1 (s_header + 4) W2);
    [|exact L1|rewrite blen_word; lia|fold b2; unfold e2, s2 in *; lia|change (2 ^ 32 - 64) with 4294967232; lia].
  cbn [bindo]. fold b2. fold s2. fold e2. set (X2 := X1 ++ zeros (pad_of on2 false e1) ++ b2).
  assert (L2 : blen X2 = e2) by (unfold X2; rewrite !blen_app, blen_zeros; unfold e2, s2; lia).
  replace (s_header - e1 - pad_of on2 false e1 - blen b2) with (s_header - e2) by (unfold e2, s2 in *; lia). change (zeros 12) with (zeros 4 ++ zeros 8).
  rewrite (app_assoc (word (opt on1 s1))).
  rewrite (section_step on3 false w3 c3 X2 (s_header - e2) (word (opt on1 s1) ++ word (opt on2 s2)) (zeros 8) e2 (s_header + 8) W3);
    [|exact L2|rewrite blen_app, !blen_word; lia|fold b3; unfold e3, s3 in *; lia|change (2 ^ 32 - 64) with 4294967232; lia].
  cbn [bindo]. fold b3. fold s3. fold e3. set (X3 := X2 ++ zeros (pad_of on3 false e2) ++ b3).
  assert (L3 : blen X3 = e3) by (unfold X3; rewrite !blen_app, blen_zeros; unfold e3, s3; lia).
  replace (s_header - e2 - pad_of on3 false e2 - blen b3) with (s_header - e3) by (unfold e3, s3 in *; lia). change (zeros 8) with (zeros 4 ++ zeros 4).
  rewrite (app_assoc (word (opt on1 s1) ++ word (opt on2 s2)) (word _)).
  rewrite (section_step on4 false w4 c4 X3 (s_header - e3) ((word (opt on1 s1) ++ word (opt on2 s2)) ++ word (opt on3 s3)) (zeros 4) e3 (s_header + 12) W4);
    [|exact L3|rewrite !blen_app, !blen_word; lia|fold b4; unfold e4, s4 in *; lia|change (2 ^ 32 - 64) with 4294967232; lia].
  cbn [bindo]. fold b4. fold s4. fold e4. set (X4 := X3 ++ zeros (pad_of on4 false e3) ++ b4).
  assert (L4 : blen X4 = e4) by (unfold X4; rewrite !blen_app, blen_zeros; unfold e4, s4; lia).
  replace (s_header - e3 - pad_of on4 false e3 - blen b4) with (s_header - e4) by (unfold e4, s4 in *; lia).
  rewrite (app_assoc ((word (opt on1 s1) ++ word (opt on2 s2)) ++ word _) (word _)). rewrite <- (app_nil_r (zeros 4)).
  rewrite (section_step on5 false w5 c5 X4 (s_header - e4) (((word (opt on1 s1) ++ word (opt on2 s2)) ++ word (opt on3 s3)) ++ word (opt on4 s4)) [] e4 (s_header + 16) W5);
    [|exact L4|rewrite !blen_app, !blen_word; lia|fold b5; unfold e5, s5 in *; lia|change (2 ^ 32 - 64) with 4294967232; lia].
  cbn [bindo]. fold b5. fold s5. fold e5. replace (s_header - e4 - pad_of on5 false e4 - blen b5) with (s_header - e5) by (unfold e5, s5 in *; lia).
  f_equal. unfold meta_tail, X4, X3, X2, X1. rewrite ?app_nil_r, <- !app_assoc. reflexivity.
Qed.
Lemma tail_len : s + blen meta_tail = total_size.
Proof.
  pose proof ends as [_ T]. pose proof s_bounds as (B0 & B1 & B2 & B3 & B4 & B5 & B6 & B7 & B8 & B9 & B10 & F). unfold meta_tail. rewrite !blen_app, !blen_word, !blen_zeros.
  unfold e5, s5, e4, s4, e3, s3, e2, s2, e1 in *. lia.
Qed.
(** a section: where it starts is in the header, and its content is there *)
Definition section_at (m : list N) (h : N) (on : bool) (b : list N) : Prop :=
  exists a rest, m = a ++ b ++ rest /\ blen a + blen b < 2 ^ 32 - 64 /\ read32 m h = Ok (opt on (blen a)).
(** where the sections are: in order *)
Lemma sections_order A : blen A = s -> let m := A ++ meta_tail in
  read32 m s_header = Ok (opt on1 s1) /\ read32 m (s_header + 4) = Ok (opt on2 s2) /\ read32 m (s_header + 8) = Ok (opt on3 s3) /\ read32 m (s_header + 12) = Ok (opt on4 s4) /\ read32 m (s_header + 16) = Ok (opt on5 s5) /\
  s1 + blen b1 <= s2 /\ s2 + blen b2 <= s3 /\ s3 + blen b3 <= s4 /\ s4 + blen b4 <= s5 /\ s5 <= blen m /\ s5 < 2 ^ 32 - 64.
Proof.
  intros LA m. pose proof ends as [_ T]. pose proof s_bounds as (B0 & B1 & B2 & B3 & B4 & B5 & B6 & B7 & B8 & B9 & B10 & F). change (2 ^ 32 - 64) with 4294967232 in F.
  assert (OS : forall b o, o <= s_header -> opt b o < 2 ^ 32) by (intros b o Ho; apply opt_lt; change (2 ^ 32 - 64) with 4294967232; lia).
  set (B := zeros (s1 - s) ++ b1 ++ zeros (pad_of on2 false e1) ++ b2 ++ zeros (pad_of on3 false e2) ++ b3 ++ zeros (pad_of on4 false e3) ++ b4 ++ zeros (pad_of on5 false e4) ++ b5).
  assert (LB : s + blen B = e5).
  { unfold B. rewrite !blen_app, !blen_zeros. unfold e5, s5, e4, s4, e3, s3, e2, s2, e1 in *. lia. }
  assert (M : m = concat [A ++ B ++ zeros (s_header - e5); word (opt on1 s1); word (opt on2 s2); word (opt on3 s3); word (opt on4 s4); word (opt on5 s5)]).
  { unfold m, meta_tail. fold B. cbn [concat]. rewrite app_nil_r, <- !app_assoc. reflexivity. }
  assert (LF : blen (A ++ B ++ zeros (s_header - e5)) = s_header) by (rewrite !blen_app, blen_zeros; lia).
  assert (LM : s5 <= blen m). { rewrite M. cbn [concat]. rewrite blen_app, LF. lia. }
  rewrite M at 1 2 3 4 5. set (Z := A ++ B ++ zeros (s_header - e5)) in *. clearbody Z.
  split; [apply (read32_piece _ 1); [reflexivity|cbn [firstn lens map sum_n]; lia|apply OS; lia] |].
  split; [apply (read32_piece _ 2); [reflexivity|cbn [firstn lens map sum_n]; rewrite !blen_word; lia|apply OS; lia] |].
  split; [apply (read32_piece _ 3); [reflexivity|cbn [firstn lens map sum_n]; rewrite !blen_word; lia|apply OS; lia] |].
  split; [apply (read32_piece _ 4); [reflexivity|cbn [firstn lens map sum_n]; rewrite !blen_word; lia|apply OS; lia] |].
  split; [apply (read32_piece _ 5); [reflexivity|cbn [firstn lens map sum_n]; rewrite !blen_word; lia|apply OS; lia] |].
  change (2 ^ 32 - 64) with 4294967232. fold e1. fold e2. fold e3. fold e4. repeat split; try exact LM; lia.
Qed.
Lemma sections_found A : blen A = s -> let m := A ++ meta_tail in
  section_at m s_header on1 b1 /\ section_at m (s_header + 4) on2 b2 /\ section_at m (s_header + 8) on3 b3 /\ section_at m (s_header + 12) on4 b4 /\ section_at m (s_header + 16) on5 b5.
Proof.
  intros LA m. pose proof ends as [_ T]. pose proof s_bounds as (B0 & B1 & B2 & B3 & B4 & B5 & B6 & B7 & B8 & B9 & B10 & F). change (2 ^ 32 - 64) with 4294967232 in F.
  assert (OS : forall b o, o <= s_header -> opt b o < 2 ^ 32) by (intros b o Ho; apply opt_lt; change (2 ^ 32 - 64) with 4294967232; lia).
  set (B := zeros (s1 - s) ++ b1 ++ zeros (pad_of on2 false e1) ++ b2 ++ zeros (pad_of on3 false e2) ++ b3 ++ zeros (pad_of on4 false e3) ++ b4 ++ zeros (pad_of on5 false e4) ++ b5).
  assert (LB : s + blen B = e5).
  { unfold B. rewrite !blen_app, !blen_zeros. unfold e5, s5, e4, s4, e3, s3, e2, s2, e1 in *. lia. }
  assert (M : m = concat [A ++ B ++ zeros (s_header - e5); word (opt on1 s1); word (opt on2 s2); word (opt on3 s3); word (opt on4 s4); word (opt on5 s5)]).
  { unfold m, meta_tail. fold B. cbn [concat]. rewrite app_nil_r, <- !app_assoc. reflexivity. }
  assert (LF : blen (A ++ B ++ zeros (s_header - e5)) = s_header) by (rewrite !blen_app, blen_zeros; lia).
  assert (R : read32 m s_header = Ok (opt on1 s1) /\ read32 m (s_header + 4) = Ok (opt on2 s2) /\ read32 m (s_header + 8) = Ok (opt on3 s3) /\ read32 m (s_header + 12) = Ok (opt on4 s4) /\ read32 m (s_header + 16) = Ok (opt on5 s5)).
  { rewrite M. set (Z := A ++ B ++ zeros (s_header - e5)) in *. clearbody Z. split; [|split; [|split; [|split]]].
    - apply (read32_piece _ 1); [reflexivity|cbn [firstn lens map sum_n]; lia|apply OS; lia].
    - apply (read32_piece _ 2); [reflexivity|cbn [firstn lens map sum_n]; rewrite !blen_word; lia|apply OS; lia].
    - apply (read32_piece _ 3); [reflexivity|cbn [firstn lens map sum_n]; rewrite !blen_word; lia|apply OS; lia].
    - apply (read32_piece _ 4); [reflexivity|cbn [firstn lens map sum_n]; rewrite !blen_word; lia|apply OS; lia].
    - apply (read32_piece _ 5); [reflexivity|cbn [firstn lens map sum_n]; rewrite !blen_word; lia|apply OS; lia]. }
  destruct R as (R1 & R2 & R3 & R4 & R5).
  assert (LA' : blen A = s) by exact LA.
  split; [|split; [|split; [|split]]].
  - exists (A ++ zeros (s1 - s)). eexists. split; [unfold m, meta_tail; rewrite <- !app_assoc; reflexivity|].
    replace (blen (A ++ zeros (s1 - s))) with s1 by (rewrite blen_app, blen_zeros; lia). split; [fold e1; change (2 ^ 32 - 64) with 4294967232; lia|exact R1].
  - exists (A ++ zeros (s1 - s) ++ b1 ++ zeros (pad_of on2 false e1)). eexists. split; [unfold m, meta_tail; rewrite <- !app_assoc; reflexivity|].
    match goal with |- context [blen ?x + _] => replace (blen x) with s2 by (rewrite !blen_app, !blen_zeros; unfold s2, e1 in *; lia) end. split; [fold e2; change (2 ^ 32 - 64) with 4294967232; lia|exact R2].
  - exists (A ++ zeros (s1 - s) ++ b1 ++ zeros (pad_of on2 false e1) ++ b2 ++ zeros (pad_of on3 false e2)). eexists. split; [unfold m, meta_tail; rewrite <- !app_assoc; reflexivity|].
    match goal with |- context [blen ?x + _] => replace (blen x) with s3 by (rewrite !blen_app, !blen_zeros; unfold s3, e2, s2, e1 in *; lia) end. split; [fold e3; change (2 ^ 32 - 64) with 4294967232; lia|exact R3].
  - exists (A ++ zeros (s1 - s) ++ b1 ++ zeros (pad_of on2 false e1) ++ b2 ++ zeros (pad_of on3 false e2) ++ b3 ++ zeros (pad_of on4 false e3)). eexists. split; [unfold m, meta_tail; rewrite <- !app_assoc; reflexivity|].
    match goal with |- context [blen ?x + _] => replace (blen x) with s4 by (rewrite !blen_app, !blen_zeros; unfold s4, e3, s3, e2, s2, e1 in *; lia) end. split; [fold e4; change (2 ^ 32 - 64) with 4294967232; lia|exact R4].
  - exists (A ++ zeros (s1 - s) ++ b1 ++ zeros (pad_of on2 false e1) ++ b2 ++ zeros (pad_of on3 false e2) ++ b3 ++ zeros (pad_of on4 false e3) ++ b4 ++ zeros (pad_of on5 false e4)). eexists.
    split; [unfold m, meta_tail; rewrite <- !app_assoc; reflexivity|].
    match goal with |- context [blen ?x + _] => replace (blen x) with s5 by (rewrite !blen_app, !blen_zeros; unfold s5, e4, s4, e3, s3, e2, s2, e1 in *; lia) end. split; [fold e5; change (2 ^ 32 - 64) with 4294967232; lia|exact R5].
Qed.
End Sections.

(** * The writers *)
Definition parent_words (mapping : list N) (ts : list ttrack) : list N := map (fun t => find_output_index mapping (tt_parent t)) ts.
Lemma write_parents_emit mapping ts : forall b o, write_parents mapping ts b o = emit (map word (parent_words mapping ts)) b o.
Proof.
  induction ts as [|t r IH]; intros b o; [reflexivity|]. cbn [write_parents parent_words map emit]. change (blen (word _)) with 4. unfold word at 1.
  destruct (put b o _); cbn [bindo]; [apply IH|reflexivity|reflexivity].
Qed.
Definition desc_bytes (ts : list ttrack) : list (list N) := map (fun t => float_bytes (tt_description t)) ts.
Definition desc_sized (t : ttrack) : Prop := length (tt_description t) = 12%nat.
Lemma write_descriptions_emit ts : Forall desc_sized ts -> forall b o, write_descriptions ts b o = emit (desc_bytes ts) b o.
Proof.
  induction 1 as [|t r D _ IH]; intros b o; [reflexivity|]. cbn [write_descriptions desc_bytes map emit].
  assert (L : blen (float_bytes (tt_description t)) = 48) by (rewrite float_bytes_len, D; reflexivity). rewrite L.
  destruct (put b o _); cbn [bindo]; [apply IH|reflexivity|reflexivity].
Qed.
Lemma write_error_emit error b o : write_error error b o = emit [error] b o.
Proof. reflexivity. Qed.
Lemma size_emit w chunks : (forall b o, w b o = emit chunks b o) -> blen (concat chunks) < 2 ^ 32 -> size_of (w None 0) 0 = Ok (blen (concat chunks)).
Proof.
  intros W F. unfold size_of. rewrite W, emit_none. cbn [bindo]. rewrite N.add_0_l, N.sub_0_r. unfold wrapw. rewrite N.mod_small by exact F. reflexivity.
Qed.
Lemma when_emit on w chunks : (forall b o, w b o = emit chunks b o) -> blen (concat chunks) < 2 ^ 32 -> when on (size_of (w None 0) 0) = Ok (blen (body_of on chunks)).
Proof. intros W F. unfold when, body_of. destruct on; [apply size_emit; assumption|reflexivity]. Qed.
Lemma body_le on chunks : blen (body_of on chunks) <= blen (concat chunks).
Proof. unfold body_of. destruct on; [lia|]. change (blen []) with 0. lia. Qed.

Lemma cut (l : list N) k : k <= blen l -> exists a b, l = a ++ b /\ blen a = k.
Proof.
  intros H. exists (firstn (N.to_nat k) l), (skipn (N.to_nat k) l). split; [symmetry; apply firstn_skipn|]. unfold blen in *. rewrite firstn_length. lia.
Qed.
Lemma split_prefix p : 32 <= blen p -> exists p0 p1 p2 v q nt r pm rest,
  p = concat [p0; p1; p2; v; q; nt; r; pm; rest] /\ blen p0 = 4 /\ blen p1 = 4 /\ blen p2 = 4 /\ blen v = 2 /\ blen q = 2 /\ blen nt = 4 /\ blen r = 8 /\ blen pm = 4.
Proof.
  intros H. destruct (cut p 4 ltac:(lia)) as (p0 & t0 & -> & L0). rewrite blen_app in H. destruct (cut t0 4 ltac:(lia)) as (p1 & t1 & -> & L1). rewrite blen_app in H.
  destruct (cut t1 4 ltac:(lia)) as (p2 & t2 & -> & L2). rewrite blen_app in H. destruct (cut t2 2 ltac:(lia)) as (v & t3 & -> & L3). rewrite blen_app in H.
  destruct (cut t3 2 ltac:(lia)) as (q & t4 & -> & L4). rewrite blen_app in H. destruct (cut t4 4 ltac:(lia)) as (nt & t5 & -> & L5). rewrite blen_app in H.
  destruct (cut t5 8 ltac:(lia)) as (r & t6 & -> & L6). rewrite blen_app in H. destruct (cut t6 4 ltac:(lia)) as (pm & rest & -> & L7).
  exists p0, p1, p2, v, q, nt, r, pm, rest. cbn [concat]. rewrite app_nil_r. auto 10.
Qed.
Lemma load_le_at ps i p off n : nth_error ps i = Some p -> off = sum_n (lens (firstn i ps)) -> blen p = N.of_nat n -> load_le (concat ps) off n = Ok (of_le_bytes p).
Proof. intros E O L. unfold load_le. rewrite (load_piece ps i p off n E O) by (unfold blen in L; lia). reflexivity. Qed.
Lemma has_set misc b : misc < 2 ^ 32 -> set_has_metadata misc (b2n b) < 2 ^ 32 /\ negb (get_has_metadata (set_has_metadata misc (b2n b)) =? 0) = b.
Proof.
  intros F. destruct (hrun_spec [(HasMetadata, b2n b)] misc F) as [A B].
  - constructor; [|constructor]. cbn. destruct b; reflexivity.
  - split; [exact A|]. specialize (B HasMetadata). cbn [hrun fold_left hset hget fst snd] in B.
    replace (get_has_metadata (set_has_metadata misc (b2n b))) with (b2n b) by (symmetry; exact B). destruct b; reflexivity.
Qed.

(** * The clip *)
Section Clip.
Context (f : tflags) (list_name : list N) (tracks : list ttrack) (mapping : list N) (error prefix : list N) (ts : list ttrack).
Hypothesis OT : output_tracks tracks mapping = Ok ts.
Hypothesis D : Forall desc_sized ts.
Let names := map tt_name ts.
Let g := effective_flags f.
Let c1 := [name_chunk list_name].
Let c2 := names_chunks names.
Let c3 := map word (parent_words mapping ts).
Let c4 := desc_bytes ts.
Let c5 := [error].
Let s := blen prefix.
Let mt := meta_total (f_list_name g) (f_names g) (f_parents g) (f_descriptions g) (f_error g) c1 c2 c3 c4 c5.
Let tsz := total_size (f_list_name g) (f_names g) (f_parents g) (f_descriptions g) (f_error g) c1 c2 c3 c4 c5 s.
Let tail := meta_tail (f_list_name g) (f_names g) (f_parents g) (f_descriptions g) (f_error g) c1 c2 c3 c4 c5 s.
Hypothesis FIT : s + blen (concat c1) + blen (concat c2) + blen (concat c3) + blen (concat c4) + blen (concat c5) < 2 ^ 32 - 256.
Hypothesis BIG : 32 <= s.
Hypothesis BYTES : bytes_ok prefix.
Lemma mt_bound : mt <= blen (concat c1) + blen (concat c2) + blen (concat c3) + blen (concat c4) + blen (concat c5) + 12.
Proof.
  unfold mt, meta_total.
  pose proof (body_le (f_list_name g) c1). pose proof (body_le (f_names g) c2). pose proof (body_le (f_parents g) c3). pose proof (body_le (f_descriptions g) c4). pose proof (body_le (f_error g) c5).
  set (x1 := blen (body_of (f_list_name g) c1)) in *. set (x2 := blen (body_of (f_names g) c2)) in *. set (x3 := blen (body_of (f_parents g) c3)) in *. set (x4 := blen (body_of (f_descriptions g) c4)) in *.
  set (x5 := blen (body_of (f_error g) c5)) in *. clearbody x1 x2 x3 x4 x5.
  pose proof (up4_bounds x1). pose proof (up4_bounds (up4 x1 + x2)). pose proof (up4_bounds (up4 (up4 x1 + x2) + x3)). pose proof (up4_bounds (up4 (up4 (up4 x1 + x2) + x3) + x4)). lia.
Qed.
Lemma tsz_bound : s + 15 <= tsz /\ tsz < 2 ^ 32 - 64.
Proof.
  pose proof mt_bound as MB. change (2 ^ 32 - 256) with 4294967040 in FIT. change (2 ^ 32 - 64) with 4294967232. unfold tsz, total_size. fold mt. destruct (mt =? 0); [lia|].
  pose proof (up4_bounds s). pose proof (up4_bounds (up4 s + mt)). lia.
Qed.
Lemma clip_made : exists m A, add_metadata f list_name tracks mapping error prefix = Ok m /\ blen A = s /\
  m = A ++ (if mt =? 0 then zeros 15 else tail) /\ h_size m = Ok tsz /\ has_metadata m = Ok (negb (mt =? 0)) /\
  h_num_tracks m = h_num_tracks prefix /\ h_version m = h_version prefix /\
  exists hash p0 p1 x pm rest, prefix = p0 ++ p1 ++ x ++ pm ++ rest /\ blen p0 = 4 /\ blen p1 = 4 /\ blen x = 20 /\ blen pm = 4 /\
    A = word tsz ++ word hash ++ x ++ word (set_has_metadata (of_le_bytes pm) (b2n (negb (mt =? 0)))) ++ rest.
Proof.
  pose proof tsz_bound as [SB1 SB2]. pose proof mt_bound as MB. change (2 ^ 32 - 256) with 4294967040 in FIT. change (2 ^ 32 - 64) with 4294967232 in SB2.
  unfold add_metadata. fold g. rewrite OT. cbn [bindo]. fold names.
  rewrite (when_emit (f_list_name g) (write_track_list_name list_name) c1) by (first [apply write_name_emit|change (2 ^ 32) with 4294967296; lia]). cbn [bindo].
  rewrite (when_emit (f_names g) (write_track_names names) c2) by (first [apply write_names_emit|change (2 ^ 32) with 4294967296; lia]). cbn [bindo].
  rewrite (when_emit (f_parents g) (write_parents mapping ts) c3) by (first [apply write_parents_emit|change (2 ^ 32) with 4294967296; lia]). cbn [bindo].
  rewrite (when_emit (f_descriptions g) (write_descriptions ts) c4) by (first [apply write_descriptions_emit; exact D|change (2 ^ 32) with 4294967296; lia]). cbn [bindo].
  rewrite (when_emit (f_error g) (write_error error) c5) by (first [apply write_error_emit|change (2 ^ 32) with 4294967296; lia]). cbn [bindo].
  assert (ME : addw 32 (align_to 32 (addw 32 (align_to 32 (addw 32 (align_to 32 (addw 32 (align_to 32 (blen (body_of (f_list_name g) c1)) 4) (blen (body_of (f_names g) c2))) 4)
     (blen (body_of (f_parents g) c3))) 4) (blen (body_of (f_descriptions g) c4))) 4) (blen (body_of (f_error g) c5)) = mt).
  { unfold mt, meta_total. fold mt.
    pose proof (body_le (f_list_name g) c1) as Y1. pose proof (body_le (f_names g) c2) as Y2. pose proof (body_le (f_parents g) c3) as Y3. pose proof (body_le (f_descriptions g) c4) as Y4. pose proof (body_le (f_error g) c5) as Y5.
    set (x1 := blen (body_of (f_list_name g) c1)) in *. set (x2 := blen (body_of (f_names g) c2)) in *. set (x3 := blen (body_of (f_parents g) c3)) in *. set (x4 := blen (body_of (f_descriptions g) c4)) in *.
    set (x5 := blen (body_of (f_error g) c5)) in *. clearbody x1 x2 x3 x4 x5. clear MB SB1 SB2.
    pose proof (up4_bounds x1). pose proof (up4_bounds (up4 x1 + x2)). pose proof (up4_bounds (up4 (up4 x1 + x2) + x3)). pose proof (up4_bounds (up4 (up4 (up4 x1 + x2) + x3) + x4)).
    rewrite (align_up4 x1) by (change (2 ^ 32) with 4294967296; lia). rewrite (addw_fits 32 (up4 x1)) by (first [change (2 ^ 32) with 4294967296; lia|auto]).
    rewrite (align_up4 (up4 x1 + x2)) by (change (2 ^ 32) with 4294967296; lia). rewrite (addw_fits 32 (up4 (up4 x1 + x2))) by (first [change (2 ^ 32) with 4294967296; lia|auto]).
    rewrite (align_up4 (up4 (up4 x1 + x2) + x3)) by (change (2 ^ 32) with 4294967296; lia). rewrite (addw_fits 32 (up4 (up4 (up4 x1 + x2) + x3))) by (first [change (2 ^ 32) with 4294967296; lia|auto]).
    rewrite (align_up4 (up4 (up4 (up4 x1 + x2) + x3) + x4)) by (change (2 ^ 32) with 4294967296; lia). apply addw_fits; [auto|change (2 ^ 32) with 4294967296; lia]. }
  cbn zeta. rewrite ME. clear ME. fold s.
  rewrite (align_up4 s) by (change (2 ^ 32) with 4294967296; lia). pose proof (up4_bounds s) as US. pose proof (up4_bounds (up4 s + mt)) as US2.
  assert (SE : (if negb (mt =? 0) then addw 32 (align_to 32 (addw 32 (up4 s) mt) 4) 20 else addw 32 s 15) = tsz).
  { unfold tsz, total_size. fold mt. destruct (mt =? 0); cbn [negb].
    - apply addw_fits; [auto|change (2 ^ 32) with 4294967296; lia].
    - rewrite (addw_fits 32 (up4 s)) by (first [change (2 ^ 32) with 4294967296; lia|auto]). rewrite align_up4 by (change (2 ^ 32) with 4294967296; lia).
      apply addw_fits; [auto|change (2 ^ 32) with 4294967296; lia]. }
  rewrite SE. clear SE. change (repeat 0 (N.to_nat (tsz - s))) with (zeros (tsz - s)).
  destruct (split_prefix prefix BIG) as (p0 & p1 & p2 & v & q & nt & r & pm & rest & EP & L0 & L1 & L2 & L3 & L4 & L5 & L6 & L7).
  assert (LS : 32 + blen rest = s) by (unfold s; rewrite EP, blen_concat; cbn [lens map sum_n]; lia).
  assert (E1 : prefix ++ zeros (tsz - s) = concat [p0; p1; p2; v; q; nt; r; pm; rest; zeros (tsz - s)]) by (rewrite EP at 1; cbn [concat]; rewrite ?app_nil_r, <- !app_assoc; reflexivity).
  rewrite E1. unfold read32. rewrite (load_le_at _ 7 pm) by (first [reflexivity|cbn [firstn lens map sum_n]; lia|exact L7]). cbn [bindo].
  assert (BM : bytes_ok pm). { unfold bytes_ok in *. rewrite EP in BYTES. cbn [concat] in BYTES. repeat (apply Forall_app in BYTES as [? BYTES]). assumption. }
  assert (MF : of_le_bytes pm < 2 ^ 32). { pose proof (of_le_bytes_lt pm BM) as Q. rewrite L7 in Q. exact Q. }
  set (misc := set_has_metadata (of_le_bytes pm) (b2n (negb (mt =? 0)))). destruct (has_set (of_le_bytes pm) (negb (mt =? 0)) MF) as [H1 H2]. fold misc in H1, H2.
  rewrite (write32_piece _ 7 pm 28 misc) by (first [reflexivity|cbn [firstn lens map sum_n]; lia|unfold blen in L7; lia]). cbn [bindo upd]. change (le_bytes 4 misc) with (word misc).
  set (tl := if mt =? 0 then zeros 15 else tail).
  assert (SEC : (if mt =? 0 then Ok (concat [p0; p1; p2; v; q; nt; r; word misc; rest; zeros (tsz - s)]) else
     bindo (put_section (f_list_name g) true (write_track_list_name list_name) (concat [p0; p1; p2; v; q; nt; r; word misc; rest; zeros (tsz - s)]) (subw 64 tsz 20) (up4 s)) (fun '(m, offset) =>
     bindo (put_section (f_names g) false (write_track_names names) m (subw 64 tsz 20 + 4) offset) (fun '(m, offset) =>
     bindo (put_section (f_parents g) false (write_parents mapping ts) m (subw 64 tsz 20 + 8) offset) (fun '(m, offset) =>
     bindo (put_section (f_descriptions g) false (write_descriptions ts) m (subw 64 tsz 20 + 12) offset) (fun '(m, offset) =>
     bindo (put_section (f_error g) false (write_error error) m (subw 64 tsz 20 + 16) offset) (fun '(m, offset) => Ok m)))))) =
     Ok (concat [p0; p1; p2; v; q; nt; r; word misc; rest; tl]) /\ s + blen tl = tsz).
  { unfold tl. destruct (N.eqb_spec mt 0) as [Z|Z].
    - split; [|unfold tsz, total_size; fold mt; rewrite Z; reflexivity]. replace (tsz - s) with 15; [reflexivity|]. unfold tsz, total_size. fold mt. rewrite Z. change (0 =? 0) with true. cbn iota. lia.
    - rewrite subw_ge by (change (2 ^ 64) with 18446744073709551616; lia). split; [|eapply (tail_len _ _ _ _ _ _ _ _ _ _ _ (write_track_list_name list_name) (write_track_names names) (write_parents mapping ts) (write_descriptions ts) (write_error error));
        try (change (2 ^ 32 - 64) with 4294967232); first [exact Z|exact SB2|apply write_name_emit|apply write_names_emit|apply write_parents_emit|apply write_descriptions_emit; exact D|apply write_error_emit]].
      assert (E2 : forall z, concat [p0; p1; p2; v; q; nt; r; word misc; rest; z] = concat [p0; p1; p2; v; q; nt; r; word misc; rest] ++ z) by (intros z; cbn [concat]; rewrite ?app_nil_r, <- ?app_assoc; reflexivity).
      rewrite !E2. apply sections_written;
        try (change (2 ^ 32 - 64) with 4294967232); try first [exact Z|exact SB2|apply write_name_emit|apply write_names_emit|apply write_parents_emit|apply write_descriptions_emit; exact D|apply write_error_emit].
      rewrite blen_concat. cbn [lens map sum_n]. rewrite blen_word. lia. }
  destruct SEC as [SEC TL]. rewrite SEC. clear SEC. cbn [bindo].
  rewrite (write32_piece _ 0 p0 0 tsz) by (first [reflexivity|unfold blen in L0; lia]). cbn [bindo upd]. change (le_bytes 4 tsz) with (word tsz).
  match goal with |- context [load_bytes ?x ?o ?n] => destruct (load_bytes x o n) as [content| |] eqn:LB end.
  2,3: exfalso; unfold load_bytes in LB; rewrite blen_concat in LB; cbn [lens map sum_n] in LB; rewrite !blen_word, subw_ge in LB by (change (2 ^ 64) with 18446744073709551616; lia);
    match type of LB with (if ?b then _ else _) = _ => destruct b eqn:Q; [discriminate LB|clear LB] end; apply N.leb_gt in Q; rewrite N2Nat.id in Q; lia.
  clear LB. cbn [bindo]. rewrite (write32_piece _ 1 p1 4 (hash32 content)) by (first [reflexivity|cbn [firstn lens map sum_n]; rewrite blen_word; reflexivity|unfold blen in L1; lia]).
  cbn [upd]. change (le_bytes 4 (hash32 content)) with (word (hash32 content)).
  eexists. exists (concat [word tsz; word (hash32 content); p2; v; q; nt; r; word misc; rest]). split; [reflexivity|].
  split; [rewrite blen_concat; cbn [lens map sum_n]; rewrite !blen_word; lia|]. split; [cbn [concat]; rewrite ?app_nil_r, <- ?app_assoc; reflexivity|].
  split; [|split; [|split; [|split]]].
  - unfold h_size. apply (read32_piece _ 0); [reflexivity|reflexivity|change (2 ^ 32) with 4294967296; lia].
  - unfold has_metadata, h_misc. rewrite (read32_piece _ 7 misc) by (first [reflexivity|exact H1|cbn [firstn lens map sum_n]; rewrite !blen_word; lia]). cbn [bindo]. rewrite H2. reflexivity.
  - unfold h_num_tracks, read32. rewrite EP. rewrite (load_le_at _ 5 nt) by (first [reflexivity|exact L5|cbn [firstn lens map sum_n]; rewrite !blen_word; lia]).
    rewrite (load_le_at _ 5 nt) by (first [reflexivity|exact L5|cbn [firstn lens map sum_n]; lia]). reflexivity.
  - unfold h_version. rewrite EP. rewrite (load_le_at _ 3 v) by (first [reflexivity|exact L3|cbn [firstn lens map sum_n]; rewrite !blen_word; lia]).
    rewrite (load_le_at _ 3 v) by (first [reflexivity|exact L3|cbn [firstn lens map sum_n]; lia]). reflexivity.
  - exists (hash32 content), p0, p1, (p2 ++ v ++ q ++ nt ++ r), pm, rest. split; [rewrite EP; cbn [concat]; rewrite ?app_nil_r, <- ?app_assoc; reflexivity|].
    split; [exact L0|]. split; [exact L1|]. split; [rewrite !blen_app; lia|]. split; [exact L7|]. fold misc. cbn [concat]. rewrite ?app_nil_r, <- ?app_assoc. reflexivity.
Qed.
End Clip.

(** * Reading it back *)
Lemma read_floats_words l : forall n a rest k, (k + n <= length l)%nat -> read_floats (a ++ concat (map word (map f_bits l)) ++ rest) (blen a + 4 * N.of_nat k) n = Ok (firstn n (skipn k l)).
Proof.
  induction n as [|n IH]; intros a rest k H; [reflexivity|]. cbn [read_floats].
  destruct (nth_error l k) as [x|] eqn:X; [|apply nth_error_None in X; lia].
  rewrite (words_read a (map f_bits l) rest k (f_bits x)); [|apply map_nth_error; exact X|apply f_bits_lt]. cbn [bindo].
  replace (blen a + 4 * N.of_nat k + 4) with (blen a + 4 * N.of_nat (S k)) by lia. rewrite IH by lia. cbn [bindo]. rewrite f_of_bits_bits. f_equal.
  clear - X. revert k X. induction l as [|y r IHl]; intros [|k] X; try discriminate X; cbn [nth_error skipn] in *.
  - injection X as ->. reflexivity.
  - rewrite (IHl k X). reflexivity.
Qed.
Lemma float_words l : float_bytes l = concat (map word (map f_bits l)).
Proof. unfold float_bytes. rewrite map_map. reflexivity. Qed.
Lemma desc_bytes_words ts : concat (desc_bytes ts) = concat (map word (map f_bits (concat (map tt_description ts)))).
Proof. unfold desc_bytes. induction ts as [|t r IH]; [reflexivity|]. cbn [map concat]. rewrite !map_app, concat_app, <- IH, <- float_words. reflexivity. Qed.
Lemma desc_cut : forall ts j t, Forall desc_sized ts -> nth_error ts j = Some t ->
  exists rest, skipn (12 * j) (concat (map tt_description ts)) = tt_description t ++ rest.
Proof.
  induction ts as [|x r IH]; intros [|j] t F E; try discriminate E; inversion F; subst; cbn [nth_error map concat] in *.
  - injection E as ->. exists (concat (map tt_description r)). reflexivity.
  - destruct (IH j t) as (rest & R); [assumption|assumption|]. exists rest. rewrite <- R. rewrite skipn_app. rewrite skipn_all2 by (unfold desc_sized in *; lia). cbn [app].
    f_equal. unfold desc_sized in *. lia.
Qed.
Lemma desc_len ts : Forall desc_sized ts -> blen (concat (desc_bytes ts)) = 48 * N.of_nat (length ts) /\ length (concat (map tt_description ts)) = (12 * length ts)%nat.
Proof.
  induction 1 as [|t r D _ [IH1 IH2]]; [split; reflexivity|]. unfold desc_bytes in *. cbn [map concat length]. rewrite blen_app, app_length, IH1, IH2, float_bytes_len, D. split; lia.
Qed.
Lemma parent_words_len mapping ts : blen (concat (map word (parent_words mapping ts))) = 4 * N.of_nat (length ts).
Proof. unfold parent_words. induction ts as [|t r IH]; [reflexivity|]. cbn [map concat length]. rewrite blen_app, blen_word, IH. lia. Qed.
Lemma names_len names : blen (concat (names_chunks names)) = 4 * N.of_nat (length names) + sum_n (map (fun n => blen n + 1) names).
Proof.
  unfold names_chunks. rewrite concat_app, blen_app. f_equal.
  - pose proof (words_before (name_offsets names (mulw 32 4 (N.of_nat (length names)))) (length names) ltac:(rewrite name_offsets_length; lia)) as WB.
    rewrite firstn_all2 in WB by (rewrite map_length, name_offsets_length; lia). exact WB.
  - induction names as [|n r IH]; [reflexivity|]. cbn [map concat sum_n]. rewrite blen_app, IH. unfold name_chunk. rewrite blen_app. change (blen [0]) with 1. lia.
Qed.
Lemma find_from_spec mapping x : forall o, output_parent mapping x (find_output_from mapping o x - o) /\ In x mapping /\ o <= find_output_from mapping o x \/ ~ In x mapping /\ find_output_from mapping o x = k_invalid_track_index.
Proof.
  induction mapping as [|i r IH]; intros o; cbn [find_output_from].
  - right. split; [intros []|reflexivity].
  - destruct (N.eqb_spec i x) as [->|NE].
    + left. split; [|split; [left; reflexivity|lia]]. left. exists 0%nat. split; [reflexivity|lia].
    + destruct (IH (o + 1)) as [(P & I & L)|(NI & E)].
      * left. split; [|split; [right; exact I|lia]]. left. destruct P as [(k & K1 & K2)|(NI & _)]; [|contradiction]. exists (S k). split; [exact K1|lia].
      * right. split; [|exact E]. intros [C|C]; contradiction.
Qed.
Lemma find_spec mapping x : Forall (fun i => i < k_invalid_track_index) mapping -> output_parent mapping x (find_output_index mapping x).
Proof.
  intros F. unfold find_output_index. destruct (N.eqb_spec x k_invalid_track_index) as [->|NE].
  - right. split; [|reflexivity]. intros I. rewrite Forall_forall in F. specialize (F _ I). lia.
  - destruct (find_from_spec mapping x 0) as [(P & _ & _)|(NI & E)]; [rewrite N.sub_0_r in P; exact P|]. right. split; assumption.
Qed.
Lemma find_lt mapping x : N.of_nat (length mapping) < 2 ^ 32 -> find_output_index mapping x < 2 ^ 32.
Proof.
  intros F. unfold find_output_index. destruct (x =? k_invalid_track_index); [reflexivity|]. destruct (find_from_spec mapping x 0) as [(P & I & _)|(_ & ->)]; [|reflexivity].
  rewrite N.sub_0_r in P. destruct P as [(k & K1 & ->)|(NI & _)]; [|contradiction]. assert (X : (k < length mapping)%nat) by (apply nth_error_Some; congruence). lia.
Qed.
Lemma firstn_join {A} (l : list A) : forall a b, firstn a l ++ firstn b (skipn a l) = firstn (a + b) l.
Proof. induction l as [|x r IH]; intros [|a] b; cbn [firstn skipn app Nat.add]; rewrite ?firstn_nil; try reflexivity. rewrite IH. reflexivity. Qed.
Lemma output_tracks_nth : forall mapping tracks ts, output_tracks tracks mapping = Ok ts -> length ts = length mapping /\
  forall j i, nth_error mapping j = Some i -> nth_error ts j = nth_error tracks (N.to_nat i).
Proof.
  induction mapping as [|x r IH]; intros tracks ts E; cbn [output_tracks] in E.
  - injection E as <-. split; [reflexivity|]. intros [|j] i H; discriminate H.
  - destruct (nth_error tracks (N.to_nat x)) as [t|] eqn:T; [|discriminate E]. destruct (output_tracks tracks r) as [l| |] eqn:R; try discriminate E. injection E as <-.
    destruct (IH tracks l R) as [L H]. split; [cbn [length]; lia|]. intros [|j] i J; cbn [nth_error] in *; [injection J as <-; symmetry; exact T|apply H; exact J].
Qed.
Lemma output_tracks_ok : forall mapping tracks, Forall (fun i => i < N.of_nat (length tracks)) mapping -> exists ts, output_tracks tracks mapping = Ok ts.
Proof.
  induction mapping as [|x r IH]; intros tracks F; [eexists; reflexivity|]. inversion F as [|? ? X R]; subst. destruct (IH tracks R) as (l & E). cbn [output_tracks].
  destruct (nth_error tracks (N.to_nat x)) as [t|] eqn:T; [|apply nth_error_None in T; lia]. rewrite E. eexists. reflexivity.
Qed.
Lemma output_tracks_names : forall mapping tracks ts, output_tracks tracks mapping = Ok ts ->
  sum_n (map (fun n => blen n + 1) (map tt_name ts)) = output_names_size tracks mapping + N.of_nat (length mapping).
Proof.
  unfold output_names_size. induction mapping as [|x r IH]; intros tracks ts E; cbn [output_tracks] in E; [injection E as <-; reflexivity|].
  destruct (nth_error tracks (N.to_nat x)) as [t|] eqn:T; [|discriminate E]. destruct (output_tracks tracks r) as [l| |] eqn:R; try discriminate E. injection E as <-.
  cbn [map sum_n length]. rewrite T, (IH _ _ R). lia.
Qed.
Lemma output_tracks_forall (P : ttrack -> Prop) : forall mapping tracks ts, Forall P tracks -> output_tracks tracks mapping = Ok ts -> Forall P ts.
Proof.
  induction mapping as [|x r IH]; intros tracks ts F E; cbn [output_tracks] in E; [injection E as <-; constructor|].
  destruct (nth_error tracks (N.to_nat x)) as [t|] eqn:T; [|discriminate E]. destruct (output_tracks tracks r) as [l| |] eqn:R; try discriminate E. injection E as <-.
  constructor; [|apply (IH tracks); assumption]. rewrite Forall_forall in F. apply F. apply nth_error_In in T. exact T.
Qed.

Section Got.
Context (f : tflags) (list_name : list N) (tracks : list ttrack) (mapping error prefix : list N).
Hypothesis W : transform_clip list_name tracks mapping error prefix.
Let g := effective_flags f.
Definition got (m : list N) (h : N) (ts : list ttrack) : Prop :=
  section_at m h (f_list_name g) (body_of (f_list_name g) [name_chunk list_name]) /\ section_at m (h + 4) (f_names g) (body_of (f_names g) (names_chunks (map tt_name ts))) /\
  section_at m (h + 8) (f_parents g) (body_of (f_parents g) (map word (parent_words mapping ts))) /\ section_at m (h + 12) (f_descriptions g) (body_of (f_descriptions g) (desc_bytes ts)) /\
  section_at m (h + 16) (f_error g) (body_of (f_error g) [error]).
Lemma clip_got : exists m ts, add_metadata f list_name tracks mapping error prefix = Ok m /\ output_tracks tracks mapping = Ok ts /\
  h_num_tracks m = Ok (N.of_nat (length mapping)) /\ h_version m = Ok version_latest /\
  ((has_metadata m = Ok true /\ exists h, metadata_header m = Ok h /\ got m h ts) \/
   (has_metadata m = Ok false /\ f_list_name g = false /\ (f_error g = true -> error = []) /\ (mapping <> [] -> f_names g = false /\ f_parents g = false /\ f_descriptions g = false))).
Proof.
  destruct (output_tracks_ok mapping tracks (tc_mapping _ _ _ _ _ W)) as (ts & OT). pose proof (output_tracks_forall _ _ _ _ (tc_descriptions _ _ _ _ _ W) OT) as D.
  destruct (output_tracks_nth _ _ _ OT) as [LT _]. pose proof (output_tracks_names _ _ _ OT) as NS. pose proof (desc_len ts D) as [DL _].
  pose proof (tc_fits _ _ _ _ _ W) as FT. change (2 ^ 32 - 512) with 4294966784 in FT.
  assert (FIT : blen prefix + blen (concat [name_chunk list_name]) + blen (concat (names_chunks (map tt_name ts))) + blen (concat (map word (parent_words mapping ts))) + blen (concat (desc_bytes ts)) + blen (concat [error]) < 2 ^ 32 - 256).
  { rewrite names_len, parent_words_len, DL, NS, map_length, LT. cbn [concat]. rewrite !app_nil_r. unfold name_chunk. rewrite blen_app. change (blen [0]) with 1. change (2 ^ 32 - 256) with 4294967040. lia. }
  destruct (clip_made f list_name tracks mapping error prefix ts OT D FIT (tc_header _ _ _ _ _ W) (tc_bytes _ _ _ _ _ W)) as (m & A & EM & LA & MA & HS & HM & HN & HV & _).
  pose proof (tsz_bound f list_name mapping error prefix ts FIT (tc_header _ _ _ _ _ W)) as [_ TB]. fold g in MA, HS, HM, TB.
  exists m, ts. split; [exact EM|]. split; [exact OT|]. split; [rewrite HN; apply (tc_num_tracks _ _ _ _ _ W)|]. split; [rewrite HV; apply (tc_version _ _ _ _ _ W)|].
  match type of HM with context [?x =? 0] => destruct (N.eqb_spec x 0) as [Z|Z] end.
  - right. split; [exact HM|]. unfold meta_total in Z.
    assert (Q : blen (body_of (f_list_name g) [name_chunk list_name]) = 0 /\ blen (body_of (f_names g) (names_chunks (map tt_name ts))) = 0 /\ blen (body_of (f_parents g) (map word (parent_words mapping ts))) = 0 /\
      blen (body_of (f_descriptions g) (desc_bytes ts)) = 0 /\ blen (body_of (f_error g) [error]) = 0).
    { match type of Z with up4 (up4 (up4 (up4 ?x1 + ?x2) + ?x3) + ?x4) + ?x5 = 0 =>
        pose proof (up4_bounds x1); pose proof (up4_bounds (up4 x1 + x2)); pose proof (up4_bounds (up4 (up4 x1 + x2) + x3)); pose proof (up4_bounds (up4 (up4 (up4 x1 + x2) + x3) + x4)) end. lia. }
    destruct Q as (Q1 & Q2 & Q3 & Q4 & Q5). unfold body_of in Q1, Q2, Q3, Q4, Q5. split; [|split].
    + destruct (f_list_name g); [|reflexivity]. cbn [concat] in Q1. rewrite app_nil_r in Q1. unfold name_chunk in Q1. rewrite blen_app in Q1. change (blen [0]) with 1 in Q1. lia.
    + intros E. rewrite E in Q5. cbn [concat] in Q5. rewrite app_nil_r in Q5. destruct error; [reflexivity|discriminate Q5].
    + intros NE. assert (0 < N.of_nat (length ts)) by (destruct mapping; [congruence|cbn [length] in LT; lia]). split; [|split].
      * destruct (f_names g); [|reflexivity]. rewrite names_len, map_length in Q2. lia.
      * destruct (f_parents g); [|reflexivity]. rewrite parent_words_len in Q3. lia.
      * destruct (f_descriptions g); [|reflexivity]. rewrite DL in Q4. lia.
  - left. split; [exact HM|].
    pose proof (ends (f_list_name g) (f_names g) (f_parents g) (f_descriptions g) (f_error g) [name_chunk list_name] (names_chunks (map tt_name ts)) (map word (parent_words mapping ts)) (desc_bytes ts) [error] (blen prefix)
      (write_track_list_name list_name) (write_track_names (map tt_name ts)) (write_parents mapping ts) (write_descriptions ts) (write_error error) (write_name_emit _) (write_names_emit _) (write_parents_emit _ _) (write_descriptions_emit _ D) (write_error_emit _)) as EN.
    destruct EN as [_ EN]; [first [exact Z|exact TB]..|]. idtac.
    eexists. split.
    + unfold metadata_header. rewrite HS. cbn [bindo]. rewrite subw_ge by (change (2 ^ 64) with 18446744073709551616; change (2 ^ 32 - 64) with 4294967232 in TB; lia). reflexivity.
    + unfold got. rewrite MA. eapply (sections_found _ _ _ _ _ _ _ _ _ _ _ (write_track_list_name list_name) (write_track_names (map tt_name ts)) (write_parents mapping ts) (write_descriptions ts) (write_error error) (write_name_emit _) (write_names_emit _) (write_parents_emit _ _) (write_descriptions_emit _ D) (write_error_emit _)); [exact Z|exact TB|exact LA].
Qed.
(** the entries of the metadata are in order when there are any *)
Lemma clip_order m ts : output_tracks tracks mapping = Ok ts -> add_metadata f list_name tracks mapping error prefix = Ok m -> has_metadata m = Ok true ->
  exists h x1 x2 x3 x4 x5, metadata_header m = Ok h /\ read32 m h = Ok (opt (f_list_name g) x1) /\ read32 m (h + 4) = Ok (opt (f_names g) x2) /\ read32 m (h + 8) = Ok (opt (f_parents g) x3) /\
    read32 m (h + 12) = Ok (opt (f_descriptions g) x4) /\ read32 m (h + 16) = Ok (opt (f_error g) x5) /\
    x1 + blen (body_of (f_list_name g) [name_chunk list_name]) <= x2 /\ x2 + blen (body_of (f_names g) (names_chunks (map tt_name ts))) <= x3 /\ x3 + blen (body_of (f_parents g) (map word (parent_words mapping ts))) <= x4 /\ x4 + blen (body_of (f_descriptions g) (desc_bytes ts)) <= x5 /\ x5 <= blen m /\ x5 < 2 ^ 32 - 64.
Proof.
  intros OT E HT. pose proof (output_tracks_forall _ _ _ _ (tc_descriptions _ _ _ _ _ W) OT) as D.
  destruct (output_tracks_nth _ _ _ OT) as [LT _]. pose proof (output_tracks_names _ _ _ OT) as NS. pose proof (desc_len ts D) as [DL _].
  pose proof (tc_fits _ _ _ _ _ W) as FT. change (2 ^ 32 - 512) with 4294966784 in FT.
  assert (FIT : blen prefix + blen (concat [name_chunk list_name]) + blen (concat (names_chunks (map tt_name ts))) + blen (concat (map word (parent_words mapping ts))) + blen (concat (desc_bytes ts)) + blen (concat [error]) < 2 ^ 32 - 256).
  { rewrite names_len, parent_words_len, DL, NS, map_length, LT. cbn [concat]. rewrite !app_nil_r. unfold name_chunk. rewrite blen_app. change (blen [0]) with 1. change (2 ^ 32 - 256) with 4294967040. lia. }
  destruct (clip_made f list_name tracks mapping error prefix ts OT D FIT (tc_header _ _ _ _ _ W) (tc_bytes _ _ _ _ _ W)) as (m' & A & EM & LA & MA & HS & HM & _). rewrite E in EM. injection EM as <-.
  pose proof (tsz_bound f list_name mapping error prefix ts FIT (tc_header _ _ _ _ _ W)) as [_ TB]. fold g in MA, HS, HM, TB. rewrite HT in HM.
  match type of HM with context [?x =? 0] => destruct (N.eqb_spec x 0) as [Z|Z] end; [discriminate HM|].
  pose proof (ends (f_list_name g) (f_names g) (f_parents g) (f_descriptions g) (f_error g) [name_chunk list_name] (names_chunks (map tt_name ts)) (map word (parent_words mapping ts)) (desc_bytes ts) [error] (blen prefix)
      (write_track_list_name list_name) (write_track_names (map tt_name ts)) (write_parents mapping ts) (write_descriptions ts) (write_error error) (write_name_emit _) (write_names_emit _) (write_parents_emit _ _) (write_descriptions_emit _ D) (write_error_emit _)) as EN.
  destruct EN as [_ EN]; [first [exact Z|exact TB]..|].
  pose proof (sections_order (f_list_name g) (f_names g) (f_parents g) (f_descriptions g) (f_error g) [name_chunk list_name] (names_chunks (map tt_name ts)) (map word (parent_words mapping ts)) (desc_bytes ts) [error] (blen prefix)
      (write_track_list_name list_name) (write_track_names (map tt_name ts)) (write_parents mapping ts) (write_descriptions ts) (write_error error) (write_name_emit _) (write_names_emit _) (write_parents_emit _ _) (write_descriptions_emit _ D) (write_error_emit _) Z TB A LA) as SO. cbv zeta in SO. rewrite <- MA in SO.
  eexists. eexists. eexists. eexists. eexists. eexists. split; [| exact SO].
  unfold metadata_header. rewrite HS. cbn [bindo]. rewrite subw_ge by (change (2 ^ 64) with 18446744073709551616; change (2 ^ 32 - 64) with 4294967232 in TB; lia). reflexivity.
Qed.
Lemma sec_word m h on b : section_at m h on b -> exists a rest, m = a ++ b ++ rest /\ blen a + blen b < 2 ^ 32 - 64 /\ read32 m h = Ok (opt on (blen a)) /\ ptr_is_valid (opt on (blen a)) = on.
Proof. intros (a & rest & E & F & R). exists a, rest. split; [exact E|]. split; [exact F|]. split; [exact R|]. apply opt_ok. change (2 ^ 32 - 64) with 4294967232 in *. lia. Qed.
(** what is read in a buffer that has these sections *)
Definition sections_in (m : list N) (ts : list ttrack) : Prop :=
  (has_metadata m = Ok true /\ exists h, metadata_header m = Ok h /\ got m h ts) \/
  (has_metadata m = Ok false /\ f_list_name g = false /\ (f_error g = true -> error = []) /\ (mapping <> [] -> f_names g = false /\ f_parents g = false /\ f_descriptions g = false)).
Lemma got_means m ts : output_tracks tracks mapping = Ok ts -> h_num_tracks m = Ok (N.of_nat (length mapping)) -> h_version m = Ok version_latest -> sections_in m ts ->
  (forall j i t, nth_error mapping j = Some i -> nth_error tracks (N.to_nat i) = Some t ->
    bindo (get_track_name m (N.of_nat j)) (read_string m) = Ok (if f_names f then c_str (tt_name t) else []) /\
    exists p, output_parent mapping (tt_parent t) p /\
      get_parent_track_index m (N.of_nat j) = Ok (if f_parents f || f_descriptions f then p else k_invalid_track_index) /\
      get_transform_description m (N.of_nat j) = Ok (if f_descriptions f then Some (p, tt_description t) else None)) /\
  (mapping <> [] -> bindo (get_name m) (read_string m) = if f_names f then (if f_list_name f then Ok (c_str list_name) else UB) else Ok []) /\
  (f_error f = true -> error <> [] -> exists h o, metadata_header m = Ok h /\ read32 m (h + 16) = Ok o /\ load_bytes m o (length error) = Ok error).
Proof.
  intros OT HN HV CASES. destruct (output_tracks_nth _ _ _ OT) as [LT NT].
  pose proof (output_tracks_forall _ _ _ _ (tc_descriptions _ _ _ _ _ W) OT) as D. pose proof (output_tracks_names _ _ _ OT) as NS. pose proof (tc_count _ _ _ _ _ W) as CNT.
  assert (ML : N.of_nat (length mapping) < 2 ^ 32). { pose proof (tc_fits _ _ _ _ _ W) as FT. change (2 ^ 32 - 512) with 4294966784 in FT. change (2 ^ 32) with 4294967296. lia. }
  assert (MI : Forall (fun i => i < k_invalid_track_index) mapping).
  { eapply Forall_impl; [|apply (tc_mapping _ _ _ _ _ W)]. intros i Hi. unfold k_invalid_track_index. change (2 ^ 32) with 4294967296 in CNT. cbn beta in Hi. lia. }
  destruct CASES as [(HM & h & MH & G1 & G2 & G3 & G4 & G5)|(HM & F1 & F5 & FO)].
  - destruct (sec_word _ _ _ _ G1) as (a1 & r1 & E1 & B1 & R1 & V1). destruct (sec_word _ _ _ _ G2) as (a2 & r2 & E2 & B2 & R2 & V2). destruct (sec_word _ _ _ _ G3) as (a3 & r3 & E3 & B3 & R3 & V3).
    destruct (sec_word _ _ _ _ G4) as (a4 & r4 & E4 & B4 & R4 & V4). destruct (sec_word _ _ _ _ G5) as (a5 & r5 & E5 & B5 & R5 & V5). clear G1 G2 G3 G4 G5.
    split; [|split].
    + intros j i t J T. assert (JL : (j < length mapping)%nat) by (apply nth_error_Some; congruence). pose proof (NT j i J) as NJ. rewrite T in NJ.
      assert (JB : (N.of_nat (length mapping) <=? N.of_nat j) = false) by lia. split.
      * unfold get_track_name. rewrite HM. cbn [bindo negb]. rewrite HN. cbn [bindo]. rewrite JB, MH. cbn [bindo]. rewrite R2. cbn [bindo]. rewrite V2. change (f_names g) with (f_names f) in *. destruct (f_names f); cbn [negb]; [|reflexivity].
        cbn [opt body_of] in *. destruct (names_read a2 (map tt_name ts) r2 j (tt_name t)) as (o & Q1 & Q2); [apply map_nth_error; exact NJ| |].
        { rewrite names_len in B2. rewrite map_length in *. change (2 ^ 32 - 64) with 4294967232 in B2. change (2 ^ 32) with 4294967296. lia. }
        rewrite <- E2 in Q1, Q2. rewrite Q1. cbn [bindo]. exact Q2.
      * exists (find_output_index mapping (tt_parent t)). split; [apply find_spec; exact MI|].
        assert (FL : find_output_index mapping (tt_parent t) < 2 ^ 32) by (apply find_lt; exact ML).
        assert (PR : f_parents g = true -> read32 m (blen a3 + 4 * N.of_nat j) = Ok (find_output_index mapping (tt_parent t))).
        { intros FP. rewrite FP in E3. cbn [body_of] in E3. rewrite E3. apply words_read; [|exact FL]. unfold parent_words. exact (map_nth_error (fun t => find_output_index mapping (tt_parent t)) _ _ NJ). }
        change (f_parents g) with (f_descriptions f || f_parents f) in *. change (f_descriptions g) with (f_descriptions f) in *. rewrite (orb_comm (f_parents f)). split.
        -- unfold get_parent_track_index. rewrite HM. cbn [bindo negb]. rewrite HN. cbn [bindo]. rewrite JB, MH. cbn [bindo]. rewrite R3. cbn [bindo]. rewrite V3.
           destruct (f_descriptions f || f_parents f); cbn [negb]; [|reflexivity]. cbn [opt]. apply PR. reflexivity.
        -- unfold get_transform_description. rewrite HM. cbn [bindo negb]. rewrite HN. cbn [bindo]. rewrite JB, MH. cbn [bindo]. rewrite R4. cbn [bindo]. rewrite V4.
           destruct (f_descriptions f) eqn:FD; cbn [negb]; [|reflexivity]. cbn [orb] in *. rewrite R3. cbn [bindo]. rewrite V3. cbn [negb]. rewrite HV. cbn [bindo opt].
           change (8 <=? version_latest) with true. change (9 <=? version_latest) with true. change (version_latest <? 9) with false. cbn iota zeta. rewrite (PR eq_refl). cbn [bindo].
           cbn [body_of] in E4. destruct (desc_cut ts j t D NJ) as (rest & CUT). destruct (desc_len ts D) as [_ DL]. assert (TD : length (tt_description t) = 12%nat) by (rewrite Forall_forall in D; apply D; apply nth_error_In in NJ; exact NJ).
           rewrite E4 at 1. rewrite desc_bytes_words. replace (blen a4 + N.of_nat j * (20 + 40 - 12)) with (blen a4 + 4 * N.of_nat (12 * j)) by lia.
           rewrite (read_floats_words _ 2 a4 r4 (12 * j)) by lia. cbn [bindo]. rewrite E4 at 1. rewrite desc_bytes_words. replace (blen a4 + 4 * N.of_nat (12 * j) + 8) with (blen a4 + 4 * N.of_nat (12 * j + 2)) by lia.
           rewrite (read_floats_words _ 10 a4 r4 (12 * j + 2)) by lia. cbn [bindo]. do 3 f_equal. rewrite <- (skipn_twice _ 2 (12 * j)), CUT. rewrite (firstn_join _ 2 10). cbn [Nat.add].
           rewrite firstn_app, TD, Nat.sub_diag, firstn_all2 by lia. cbn [firstn]. apply app_nil_r.
    + intros _. unfold get_name. rewrite HM. cbn [bindo negb]. rewrite MH. cbn [bindo]. rewrite R2. cbn [bindo]. rewrite V2. change (f_names g) with (f_names f). destruct (f_names f); cbn [negb]; [|reflexivity].
      rewrite R1. cbn [bindo]. unfold safe_add_to. rewrite V1. change (f_list_name g) with (f_list_name f) in *. destruct (f_list_name f); [|reflexivity]. cbn [opt body_of concat] in *. rewrite app_nil_r in E1.
      rewrite E1. apply read_at. reflexivity.
    + intros FE _. exists h, (blen a5). split; [exact MH|]. change (f_error g) with (f_error f) in *. rewrite FE in *. cbn [opt body_of concat] in *. split; [exact R5|]. rewrite app_nil_r in E5. rewrite E5. apply load_mid.
  - split; [|split].
    + intros j i t J T. destruct FO as (F2 & F3 & F4); [intros ->; destruct j; discriminate J|]. change (f_names g) with (f_names f) in *. change (f_parents g) with (f_descriptions f || f_parents f) in *. change (f_descriptions g) with (f_descriptions f) in *.
      rewrite F2, F4 in *. cbn [orb] in F3. rewrite F3. cbn [orb]. split; [|exists (find_output_index mapping (tt_parent t)); split; [apply find_spec; exact MI|split]].
      * unfold get_track_name. rewrite HM. reflexivity.
      * unfold get_parent_track_index. rewrite HM. reflexivity.
      * unfold get_transform_description. rewrite HM. reflexivity.
    + intros NE. destruct (FO NE) as (F2 & _). change (f_names g) with (f_names f) in F2. rewrite F2. unfold get_name. rewrite HM. reflexivity.
    + intros FE NE. elim NE. apply F5. exact FE.
Qed.
Lemma got_all : exists m, add_metadata f list_name tracks mapping error prefix = Ok m /\
  (forall j i t, nth_error mapping j = Some i -> nth_error tracks (N.to_nat i) = Some t ->
    bindo (get_track_name m (N.of_nat j)) (read_string m) = Ok (if f_names f then c_str (tt_name t) else []) /\
    exists p, output_parent mapping (tt_parent t) p /\
      get_parent_track_index m (N.of_nat j) = Ok (if f_parents f || f_descriptions f then p else k_invalid_track_index) /\
      get_transform_description m (N.of_nat j) = Ok (if f_descriptions f then Some (p, tt_description t) else None)) /\
  (mapping <> [] -> bindo (get_name m) (read_string m) = if f_names f then (if f_list_name f then Ok (c_str list_name) else UB) else Ok []) /\
  (f_error f = true -> error <> [] -> exists h o, metadata_header m = Ok h /\ read32 m (h + 16) = Ok o /\ load_bytes m o (length error) = Ok error).
Proof. destruct clip_got as (m & ts & EM & OT & HN & HV & CASES). exists m. split; [exact EM|]. exact (got_means m ts OT HN HV CASES). Qed.
End Got.
