(** What the scalar encoder guarantees about one track. *)
From Coq Require Import ZArith NArith Bool Reals Lra Lia List.
From Flocq Require Import Core IEEE754.Binary IEEE754.Bits IEEE754.BinarySingleNaN.
From Verif Require Import Word Float32 Float32Facts FloatOrder Quant QuantFacts TrackArray Interp ScalarEnc ScalarDec ScalarBits ScalarWrite ScalarRead ScalarLanes.
Import ListNotations.
Local Open Scope R_scope.
Notation at_ j l := (nth j l f_zero).

Lemma map2_length {A B C} (f : A -> B -> C) : forall a b, length (map2 f a b) = Nat.min (length a) (length b).
Proof. induction a as [|x a IH]; intros [|y b]; cbn [map2 length Nat.min]; auto. Qed.
Lemma map2_nth {A B C} (f : A -> B -> C) da db dc : forall a b j, (j < length a)%nat -> (j < length b)%nat -> nth j (map2 f a b) dc = f (nth j a da) (nth j b db).
Proof.
  induction a as [|x a IH]; intros [|y b] [|j] H H'; cbn [map2 length nth] in *; try lia; [reflexivity|]. apply IH; lia.
Qed.
Lemma Forall_nth_fin (l : list f32) j : Forall (fun x => ffinite x = true) l -> ffinite (at_ j l) = true.
Proof. intros F. destruct (nth_in_or_default j l f_zero) as [H| ->]; [exact (proj1 (Forall_forall _ _) F _ H)|reflexivity]. Qed.
Lemma nth_firstn_lt {A} (l : list A) d : forall k j, (j < k)%nat -> nth j (firstn k l) d = nth j l d.
Proof. induction l as [|x l IH]; intros [|k] [|j] H; cbn [firstn nth]; auto; try lia. apply IH. lia. Qed.

(** a four lane vector of finite floats *)
Definition vec4 (s : list f32) : Prop := length s = 4%nat /\ Forall (fun x => ffinite x = true) s.
Lemma vec4_nth s : length s = 4%nat -> (forall j, (j < 4)%nat -> ffinite (at_ j s) = true) -> vec4 s.
Proof.
  intros L H. split; [exact L|]. apply Forall_forall. intros x I. apply (In_nth s x f_zero) in I. destruct I as (j & B & <-). apply H. lia.
Qed.

Lemma map2_vec4 (f : f32 -> f32 -> f32) a b : (forall x y, ffinite x = true -> ffinite y = true -> ffinite (f x y) = true) -> vec4 a -> vec4 b -> vec4 (map2 f a b).
Proof.
  intros Hf [LA FA] [LB FB]. apply vec4_nth; [rewrite map2_length, LA, LB; reflexivity|]. intros j Hj.
  rewrite (map2_nth f f_zero f_zero f_zero) by lia. apply Hf; apply Forall_nth_fin; assumption.
Qed.
Lemma fold_min : forall l m, vec4 m -> Forall vec4 l ->
  let r := fold_left (fun m s => map2 fmin m s) l m in
  vec4 r /\ (forall j, (j < 4)%nat -> FR (at_ j r) <= FR (at_ j m)) /\ (forall s j, In s l -> (j < 4)%nat -> FR (at_ j r) <= FR (at_ j s)).
Proof.
  induction l as [|s l IH]; intros m M F; cbn [fold_left].
  - split; [exact M|]. split; [intros; lra|]. intros s j [].
  - inversion F as [|? ? S F']; subst. assert (V : vec4 (map2 fmin m s)) by (apply map2_vec4; auto; intros; apply fmin_R; auto).
    destruct (IH (map2 fmin m s) V F') as (A & B & C). cbv zeta. split; [exact A|].
    assert (Q : forall j, (j < 4)%nat -> FR (at_ j (map2 fmin m s)) = Rmin (FR (at_ j m)) (FR (at_ j s))).
    { intros j Hj. destruct M as [LM FM], S as [LS FS]. rewrite (map2_nth fmin f_zero f_zero f_zero) by lia. apply fmin_R; apply Forall_nth_fin; assumption. }
    split.
    + intros j Hj. eapply Rle_trans; [apply B; exact Hj|]. rewrite Q by exact Hj. apply Rmin_l.
    + intros s' j [<-|I] Hj; [|apply C; assumption]. eapply Rle_trans; [apply B; exact Hj|]. rewrite Q by exact Hj. apply Rmin_r.
Qed.
Lemma fold_max : forall l m, vec4 m -> Forall vec4 l ->
  let r := fold_left (fun m s => map2 fmax m s) l m in
  vec4 r /\ (forall j, (j < 4)%nat -> FR (at_ j m) <= FR (at_ j r)) /\ (forall s j, In s l -> (j < 4)%nat -> FR (at_ j s) <= FR (at_ j r)).
Proof.
  induction l as [|s l IH]; intros m M F; cbn [fold_left].
  - split; [exact M|]. split; [intros; lra|]. intros s j [].
  - inversion F as [|? ? S F']; subst. assert (V : vec4 (map2 fmax m s)) by (apply map2_vec4; auto; intros; apply fmax_R; auto).
    destruct (IH (map2 fmax m s) V F') as (A & B & C). cbv zeta. split; [exact A|].
    assert (Q : forall j, (j < 4)%nat -> FR (at_ j (map2 fmax m s)) = Rmax (FR (at_ j m)) (FR (at_ j s))).
    { intros j Hj. destruct M as [LM FM], S as [LS FS]. rewrite (map2_nth fmax f_zero f_zero f_zero) by lia. apply fmax_R; apply Forall_nth_fin; assumption. }
    split.
    + intros j Hj. eapply Rle_trans; [|apply B; exact Hj]. rewrite Q by exact Hj. apply Rmax_l.
    + intros s' j [<-|I] Hj; [|apply C; assumption]. eapply Rle_trans; [|apply B; exact Hj]. rewrite Q by exact Hj. apply Rmax_r.
Qed.
Lemma extract_range_spec l : Forall vec4 l -> exists mn mx, extract_range l = (mn, map2 fsub mx mn) /\ vec4 mn /\ vec4 mx /\
  forall s j, In s l -> (j < 4)%nat -> FR (at_ j mn) <= FR (at_ j s) <= FR (at_ j mx).
Proof.
  intros F. unfold extract_range.
  assert (A : vec4 (repeat f_1e10 4)) by (split; [reflexivity|]; repeat constructor).
  assert (B : vec4 (repeat (fneg f_1e10) 4)) by (split; [reflexivity|]; repeat constructor).
  destruct (fold_min l _ A F) as (MN & _ & M1). destruct (fold_max l _ B F) as (MX & _ & M2). cbv zeta in *.
  eexists _, _. split; [reflexivity|]. split; [exact MN|]. split; [exact MX|]. intros s j I Hj. split; [apply M1|apply M2]; assumption.
Qed.

Lemma promote_vec4 nc s : (length s = nc)%nat -> (nc <= 4)%nat -> Forall (fun x => ffinite x = true) s -> vec4 (promote s).
Proof.
  intros L H F. unfold promote. split; [rewrite app_length, repeat_length; lia|]. apply Forall_app. split; [exact F|].
  apply Forall_forall. intros x I. apply repeat_spec in I. subst. reflexivity.
Qed.
Lemma promote_nth s j : at_ j (promote s) = at_ j s.
Proof.
  unfold promote. destruct (Nat.lt_ge_cases j (length s)) as [H|H]; [apply app_nth1; exact H|].
  rewrite app_nth2 by exact H. rewrite (nth_overflow s) by exact H.
  destruct (nth_in_or_default (j - length s) (repeat f_zero (4 - length s)) f_zero) as [I|I]; [|exact I]. apply repeat_spec in I. exact I.
Qed.

(** the error test, lane by lane *)
Definition near (p x y : f32) : Prop := fle (fabs (fsub x y)) p = true.

Lemma find_bit_rate_spec ok : forall b best, (b <= 23)%nat ->
  find_bit_rate ok b best = best \/ ((1 <= find_bit_rate ok b best <= b)%nat /\ ok (num_bits_at (find_bit_rate ok b best)) = true).
Proof.
  induction b as [|b IH]; intros best H; cbn [find_bit_rate]; [left; reflexivity|].
  destruct (ok (num_bits_at (S b))) eqn:E; [|left; reflexivity]. right.
  destruct (IH (S b)) as [Q|[Q1 Q2]]; [lia|rewrite Q; split; [lia|exact E]|split; [lia|exact Q2]].
Qed.
Lemma num_bits_small b : (1 <= b <= 23)%nat -> num_bits_at b = N.of_nat b.
Proof. intros H. do 24 (destruct b as [|b]; [lia || reflexivity|]). lia. Qed.

Section Track.
Context (nc : nat) (p : f32) (name : list N) (ref : list (list f32)) (n : nat).
Hypothesis Hnc : (1 <= nc <= 4)%nat.
Hypothesis Hp : ffinite p = true /\ 0 <= FR p.
Hypothesis Href : Forall (fun s => length s = nc /\ Forall (fun x => ffinite x = true) s) ref.
Hypothesis Hn : (1 <= n <= length ref)%nat.
Let lossy := firstn n (map promote ref).
Let t := quantize_track nc name ref (p, lossy).

Lemma lossy_vec4 : Forall vec4 lossy.
Proof.
  unfold lossy. apply Forall_forall. intros s I. apply (In_nth _ _ []) in I. destruct I as (k & B & <-).
  rewrite firstn_length, map_length in B. rewrite nth_firstn_lt by lia.
  rewrite (nth_indep _ [] (promote [])) by (rewrite map_length; lia). rewrite map_nth.
  assert (R := proj1 (Forall_forall _ _) Href (nth k ref []) ltac:(apply nth_In; lia)). destruct R as [L F]. apply (promote_vec4 nc); auto; lia.
Qed.
Lemma lossy_len : length lossy = n.
Proof. unfold lossy. rewrite firstn_length, map_length. lia. Qed.
Lemma lossy_nth k : (k < n)%nat -> nth k lossy [] = promote (nth k ref []).
Proof.
  intros H. unfold lossy. rewrite nth_firstn_lt by exact H.
  rewrite (nth_indep _ [] (promote [])) by (rewrite map_length; lia). apply map_nth.
Qed.
Lemma lossy_in k : (k < n)%nat -> In (promote (nth k ref [])) lossy.
Proof. intros H. rewrite <- lossy_nth by exact H. apply nth_In. rewrite lossy_len. exact H. Qed.
Lemma ref_fin k j : (k < n)%nat -> ffinite (at_ j (nth k ref [])) = true.
Proof. intros H. apply Forall_nth_fin. refine (proj2 (proj1 (Forall_forall _ _) Href (nth k ref []) _)). apply nth_In. lia. Qed.
Lemma ref_len k : (k < n)%nat -> length (nth k ref []) = nc.
Proof. intros H. refine (proj1 (proj1 (Forall_forall _ _) Href (nth k ref []) _)). apply nth_In. lia. Qed.

(** what key frame k of the track decodes to *)
Definition key_value (k : nat) : list f32 := if ct_constant t then const_value t else dec nc t k.

Definition track_sound : Prop :=
  const_ok nc t /\ range_ok nc t /\ (ct_constant t = false -> (1 <= ct_bit_rate t <= 24)%nat) /\
  ct_name t = name /\ ct_precision t = p /\
  forall k, (k < n)%nat -> frame_ok nc k t /\ length (key_value k) = nc /\
    (forall j, (j < nc)%nat -> ffinite (at_ j (key_value k)) = true /\ near p (at_ j (nth k ref [])) (at_ j (key_value k))).

Lemma exact_near x : ffinite x = true -> near p x x.
Proof.
  intros F. apply near_intro; auto; [apply Hp|]. rewrite Rminus_diag_eq, rnd_0, Rabs_R0 by reflexivity. apply Hp.
Qed.

Theorem quantize_track_sound : track_sound.
Proof.
  destruct (extract_range_spec lossy lossy_vec4) as (mn & mx & ER & MN & MX & B).
  destruct Hp as [PF P0].
  assert (EX : exists r0 rest, ref = r0 :: rest).
  { clear - Hn. destruct ref; [cbn in Hn; lia|eauto]. }
  destruct (range_is_constant (mn, map2 fsub mx mn) p) eqn:C.
  - (* constant *)
    assert (ET : t = {| ct_precision := p; ct_name := name; ct_ref := ref; ct_mut := lossy; ct_range := (mn, map2 fsub mx mn); ct_constant := true; ct_bit_rate := 255 |}).
    { unfold t, quantize_track. cbn [fst snd]. rewrite ER, C. reflexivity. }
    unfold track_sound, key_value. rewrite ET. cbn [ct_constant ct_bit_rate ct_name ct_precision].
    destruct EX as (r0 & rest & EX).
    assert (L0 : length r0 = nc) by (rewrite <- (ref_len 0) by lia; rewrite EX; reflexivity).
    repeat split; try discriminate.
    + intros _. exists r0, rest. cbn [ct_ref]. auto.
    + unfold const_value. cbn [ct_ref]. rewrite EX. exact L0.
    + unfold const_value. cbn [ct_ref]. assert (E0 : hd [] ref = nth 0 ref []) by (rewrite EX; reflexivity). rewrite E0. apply ref_fin. lia.
    + unfold const_value. cbn [ct_ref]. assert (E0 : hd [] ref = nth 0 ref []) by (rewrite EX; reflexivity). rewrite E0.
      unfold range_is_constant in C. cbn [snd] in C. rewrite forallb_forall in C.
      assert (LT : flt (fabs (fsub (at_ j mx) (at_ j mn))) p = true).
      { apply C. rewrite <- (map2_nth fsub f_zero f_zero f_zero) by (destruct MN, MX; lia).
        apply nth_In. rewrite map2_length. destruct MN, MX. lia. }
      destruct (flt_abs_back _ _ PF LT) as [SF SB]. destruct (fsub_back _ _ SF) as (_ & _ & SE). rewrite SE in SB.
      assert (B0 := B _ j (lossy_in 0 ltac:(lia)) ltac:(lia)). assert (Bk := B _ j (lossy_in k H) ltac:(lia)). rewrite promote_nth in B0, Bk.
      apply near_intro; [apply ref_fin; exact H|apply ref_fin; lia|exact PF|].
      eapply Rle_trans; [apply (rnd_abs _ (FR (at_ j mx) - FR (at_ j mn)))|].
      * apply Rabs_le. lra.
      * eapply Rle_trans; [apply Rle_abs|]. lra.
  - pose (normalized := map (fun s => normalize_sample s mn (map2 fsub mx mn)) lossy).
    pose (best := find_bit_rate (fun nb => rate_ok nc nb (mn, map2 fsub mx mn) p ref normalized) 23 k_highest_bit_rate).
    assert (ET : t = {| ct_precision := p; ct_name := name; ct_ref := ref;
       ct_mut := if is_raw_bit_rate best then ref else map (map (pack_lane (num_bits_at best))) normalized;
       ct_range := (mn, map2 fsub mx mn); ct_constant := false; ct_bit_rate := best |}).
    { unfold t, quantize_track. cbn [fst snd]. rewrite ER, C. reflexivity. }
    destruct (find_bit_rate_spec (fun nb => rate_ok nc nb (mn, map2 fsub mx mn) p ref normalized) 23 k_highest_bit_rate ltac:(lia)) as [Q|[Q1 Q2]]; [fold best in Q|fold best in Q1, Q2].
    + (* raw *)
      unfold track_sound, key_value. rewrite ET. rewrite Q. cbn [ct_constant ct_bit_rate ct_name ct_precision].
      repeat split; try discriminate; try lia; try (apply Nat.leb_le; reflexivity).
      * unfold source. cbn [ct_bit_rate ct_ref ct_mut]. change (is_raw_bit_rate k_highest_bit_rate) with true. cbv iota.
        exists (nth k ref []). split; [apply nth_error_nth'; lia|]. rewrite ref_len by exact H. split; [lia|].
        apply Forall_forall. intros x _. split; [reflexivity|apply f_bits_lt].
      * unfold dec, source. cbn [ct_bit_rate ct_ref ct_mut]. change (is_raw_bit_rate k_highest_bit_rate) with true. cbv iota.
        rewrite firstn_length, ref_len by exact H. lia.
      * unfold dec, source. cbn [ct_bit_rate ct_ref ct_mut]. change (is_raw_bit_rate k_highest_bit_rate) with true. cbv iota.
        rewrite nth_firstn_lt by assumption. apply ref_fin. exact H.
      * unfold dec, source. cbn [ct_bit_rate ct_ref ct_mut]. change (is_raw_bit_rate k_highest_bit_rate) with true. cbv iota.
        rewrite nth_firstn_lt by assumption. apply exact_near, ref_fin. exact H.
    + (* quantized *)
      assert (NR : is_raw_bit_rate best = false) by (unfold is_raw_bit_rate; apply Nat.eqb_neq; unfold k_highest_bit_rate; lia).
      assert (NB : (1 <= num_bits_at best <= 23)%N) by (rewrite num_bits_small by exact Q1; lia).
      set (nb := num_bits_at best) in *.
      destruct MN as [LMN FMN], MX as [LMX FMX].
      assert (LE : length (map2 fsub mx mn) = 4%nat) by (rewrite map2_length, LMN, LMX; reflexivity).
      assert (NL : forall s, length s = 4%nat -> length (normalize_sample s mn (map2 fsub mx mn)) = 4%nat).
      { intros s Ls. destruct s as [|s0 [|s1 [|s2 [|s3 [|]]]]]; try discriminate Ls. destruct mn as [|m0 [|m1 [|m2 [|m3 [|]]]]]; try discriminate LMN.
        destruct mx as [|x0 [|x1 [|x2 [|x3 [|]]]]]; try discriminate LMX. reflexivity. }
      assert (NN : forall s j, length s = 4%nat -> (j < 4)%nat -> at_ j (normalize_sample s mn (map2 fsub mx mn)) = normalize_lane (at_ j s) (at_ j mn) (fsub (at_ j mx) (at_ j mn))).
      { intros s j Ls Hj. destruct s as [|s0 [|s1 [|s2 [|s3 [|]]]]]; try discriminate Ls. destruct mn as [|m0 [|m1 [|m2 [|m3 [|]]]]]; try discriminate LMN.
        destruct mx as [|x0 [|x1 [|x2 [|x3 [|]]]]]; try discriminate LMX. do 4 (destruct j as [|j]; [reflexivity|]). lia. }
      (* the test that was passed *)
      assert (OK : forall k j, (k < n)%nat -> (j < nc)%nat ->
        near p (at_ j (nth k ref [])) (fadd (fmul (decay_lane nb (normalize_lane (at_ j (nth k ref [])) (at_ j mn) (fsub (at_ j mx) (at_ j mn)))) (fsub (at_ j mx) (at_ j mn))) (at_ j mn))).
      { intros k j Hk Hj. unfold rate_ok in Q2. rewrite forallb_forall in Q2.
        assert (LNm : length normalized = n) by (unfold normalized; rewrite map_length; apply lossy_len).
        assert (SO : sample_ok nc nb (mn, map2 fsub mx mn) p (nth k ref []) (nth k normalized []) = true).
        { apply Q2. rewrite <- (map2_nth (sample_ok nc nb (mn, map2 fsub mx mn) p) [] [] true) by lia. apply nth_In. rewrite map2_length. lia. }
        assert (EN : nth k normalized [] = normalize_sample (promote (nth k ref [])) mn (map2 fsub mx mn)).
        { unfold normalized. rewrite (nth_indep _ [] (normalize_sample [] mn (map2 fsub mx mn))) by (rewrite map_length, lossy_len; exact Hk).
          rewrite (map_nth (fun s => normalize_sample s mn (map2 fsub mx mn))). rewrite lossy_nth by exact Hk. reflexivity. }
        assert (LP : length (promote (nth k ref [])) = 4%nat) by (unfold promote; rewrite app_length, repeat_length, ref_len by exact Hk; lia).
        unfold sample_ok in SO. rewrite forallb_forall in SO.
        set (dl := masked_delta nc (promote (nth k ref [])) (decayed_sample nb (mn, map2 fsub mx mn) (nth k normalized []))) in SO.
        assert (LD : length (decayed_sample nb (mn, map2 fsub mx mn) (nth k normalized [])) = 4%nat).
        { unfold decayed_sample. rewrite EN. cbn [fst snd]. rewrite !map2_length, NL, LMN, LMX by exact LP. reflexivity. }
        assert (LDL : length dl = 4%nat).
        { unfold dl, masked_delta. rewrite app_length, firstn_length, map2_length, LP, LD, repeat_length. change (Nat.min 4 4) with 4%nat. lia. }
        assert (T : fle (at_ j dl) (at_ j (precision_lanes p)) = true).
        { apply SO. rewrite <- (map2_nth fle f_zero f_zero true) by (cbn [precision_lanes length]; lia). apply nth_In. rewrite map2_length. cbn [precision_lanes length]. lia. }
        assert (EJ : at_ j dl = fabs (fsub (at_ j (nth k ref [])) (fadd (fmul (decay_lane nb (normalize_lane (at_ j (nth k ref [])) (at_ j mn) (fsub (at_ j mx) (at_ j mn)))) (fsub (at_ j mx) (at_ j mn))) (at_ j mn)))).
        { unfold dl, masked_delta. rewrite app_nth1 by (rewrite firstn_length, map2_length, LP, LD; change (Nat.min 4 4) with 4%nat; lia).
          rewrite nth_firstn_lt by exact Hj. rewrite (map2_nth _ f_zero f_zero f_zero) by lia. rewrite promote_nth. do 2 f_equal.
          unfold decayed_sample. cbn [fst snd]. rewrite EN. rewrite (map2_nth _ f_zero f_zero f_zero); [|rewrite map2_length, NL, LE by exact LP; cbn; lia|lia].
          f_equal. rewrite (map2_nth _ f_zero f_zero f_zero) by (rewrite ?NL, ?LE by exact LP; lia).
          rewrite NN by (exact LP || lia). rewrite promote_nth. rewrite (map2_nth _ f_zero f_zero f_zero) by lia. reflexivity. }
        unfold near. rewrite <- EJ. eapply fle_trans; [exact T|].
        destruct j as [|j]; [apply fle_refl; unfold is_num; destruct p; try reflexivity; discriminate PF|].
        assert (Z : at_ (S j) (precision_lanes p) = f_zero) by (do 3 (destruct j as [|j]; [reflexivity|]); lia). rewrite Z.
        apply fle_R; [reflexivity|exact PF|]. rewrite f_zero_R. exact P0. }
      (* hence normalized values are in 0..1 *)
      assert (NO : forall k j, (k < n)%nat -> (j < nc)%nat ->
        ffinite (normalize_lane (at_ j (nth k ref [])) (at_ j mn) (fsub (at_ j mx) (at_ j mn))) = true /\
        0 <= FR (normalize_lane (at_ j (nth k ref [])) (at_ j mn) (fsub (at_ j mx) (at_ j mn))) <= 1).
      { intros k j Hk Hj. destruct (near_elim _ _ _ PF (OK k j Hk Hj)) as (_ & DF & _). apply fadd_back in DF. destruct DF as [DF _].
        apply fmul_back in DF. destruct DF as [_ DF]. apply normalize_lane_spec; auto; try (apply Forall_nth_fin; assumption); [apply ref_fin; exact Hk|].
        rewrite <- (promote_nth (nth k ref []) j). apply B; [apply lossy_in; exact Hk|lia]. }
      assert (MK : forall k, (k < n)%nat -> nth k (map (map (pack_lane nb)) normalized) [] = map (pack_lane nb) (normalize_sample (promote (nth k ref [])) mn (map2 fsub mx mn))).
      { intros k Hk. unfold normalized. rewrite (nth_indep _ [] (map (pack_lane nb) (normalize_sample [] mn (map2 fsub mx mn)))) by (rewrite !map_length, lossy_len; exact Hk).
        rewrite map_map. rewrite (map_nth (fun s => map (pack_lane nb) (normalize_sample s mn (map2 fsub mx mn)))). rewrite lossy_nth by exact Hk. reflexivity. }
      assert (LP : forall k, (k < n)%nat -> length (promote (nth k ref [])) = 4%nat) by (intros k Hk; unfold promote; rewrite app_length, repeat_length, ref_len by exact Hk; lia).
      assert (PJ : forall k j, (k < n)%nat -> (j < nc)%nat -> at_ j (map (pack_lane nb) (normalize_sample (promote (nth k ref [])) mn (map2 fsub mx mn))) = pack_lane nb (normalize_lane (at_ j (nth k ref [])) (at_ j mn) (fsub (at_ j mx) (at_ j mn)))).
      { intros k j Hk Hj. rewrite (nth_indep _ f_zero (pack_lane nb f_zero)) by (rewrite map_length, NL by (apply LP; exact Hk); lia). rewrite map_nth.
        rewrite NN by ((apply LP; exact Hk) || lia). rewrite promote_nth. reflexivity. }
      unfold track_sound, key_value. rewrite ET. cbn [ct_constant ct_bit_rate ct_name ct_precision].
      assert (DK : forall k j, (k < n)%nat -> (j < nc)%nat ->
        at_ j (dec nc {| ct_precision := p; ct_name := name; ct_ref := ref; ct_mut := if is_raw_bit_rate best then ref else map (map (pack_lane nb)) normalized;
           ct_range := (mn, map2 fsub mx mn); ct_constant := false; ct_bit_rate := best |} k)
        = fadd (fmul (decay_lane nb (normalize_lane (at_ j (nth k ref [])) (at_ j mn) (fsub (at_ j mx) (at_ j mn)))) (fsub (at_ j mx) (at_ j mn))) (at_ j mn)).
      { intros k j Hk Hj. unfold dec, source. cbn [ct_bit_rate ct_ref ct_mut ct_range fst snd]. rewrite NR. fold nb. rewrite MK by exact Hk. unfold apply_range.
        set (xs := firstn nc (map (pack_lane nb) (normalize_sample (promote (nth k ref [])) mn (map2 fsub mx mn)))).
        assert (LX : length xs = nc) by (unfold xs; rewrite firstn_length, map_length, NL by (apply LP; exact Hk); lia).
        assert (L1 : length (firstn nc (map2 fsub mx mn)) = nc) by (rewrite firstn_length, LE; lia).
        assert (L2 : length (firstn nc mn) = nc) by (rewrite firstn_length, LMN; lia).
        rewrite (map2_nth _ f_zero f_zero f_zero); [|rewrite map2_length, map_length; lia|lia].
        rewrite (map2_nth _ f_zero f_zero f_zero) by (rewrite ?map_length; lia).
        rewrite !nth_firstn_lt by exact Hj. rewrite (map2_nth _ f_zero f_zero f_zero) by lia.
        rewrite (nth_indep _ f_zero (fmul (f_of_N (component_value false f_zero)) (inv_max_value nb))) by (rewrite map_length; lia).
        rewrite (map_nth (fun x => fmul (f_of_N (component_value false x)) (inv_max_value nb))).
        unfold xs. rewrite nth_firstn_lt by exact Hj. rewrite PJ by assumption.
        destruct (NO k j Hk Hj) as [N1 N2]. destruct (pack_lane_spec nb _ NB N1 N2) as (v & V1 & V2 & V3).
        unfold component_value. rewrite V1. unfold decay_lane. rewrite V3. reflexivity. }
      repeat split; try discriminate; try lia; try (cbn [ct_bit_rate]; lia); try (apply Nat.leb_le; reflexivity).
      * cbn [ct_range fst snd]. lia.
      * cbn [ct_range fst snd]. lia.
      * unfold source. cbn [ct_bit_rate ct_ref ct_mut]. rewrite NR. fold nb.
        exists (nth k (map (map (pack_lane nb)) normalized) []). split; [apply nth_error_nth'; unfold normalized; rewrite !map_length, lossy_len; exact H|].
        rewrite MK by exact H. rewrite map_length, NL by (apply LP; exact H). split; [lia|].
        apply Forall_forall. intros x I. apply (In_nth _ _ f_zero) in I. destruct I as (j & Bj & <-).
        rewrite firstn_length, map_length, NL in Bj by (apply LP; exact H). rewrite nth_firstn_lt by lia. rewrite PJ by (exact H || lia).
        destruct (NO k j H ltac:(lia)) as [N1 N2]. destruct (pack_lane_spec nb _ NB N1 N2) as (v & V1 & V2 & V3). exists v. split; [exact V1|].
        rewrite max_value_eq in V2 by lia. assert (2 ^ nb <> 0)%N by (apply N.pow_nonzero; discriminate). lia.
      * unfold dec, source. cbn [ct_bit_rate ct_ref ct_mut ct_range fst snd]. rewrite NR. fold nb. rewrite MK by exact H. unfold apply_range.
        rewrite !map2_length, map_length, !firstn_length, map_length, NL, LE, LMN by (apply LP; exact H). lia.
      * rewrite DK by assumption. exact (proj1 (proj2 (near_elim _ _ _ PF (OK k j H H0)))).
      * rewrite DK by assumption. exact (OK k j H H0).
Qed.
End Track.
