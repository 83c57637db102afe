(** The key frames of a tier in the memory the streamer filled, and the clip that goes with them. *)
From Coq Require Import Lia Reals Permutation Sorted.
From Verif Require Import Word WordFacts Pieces MemoryUtils MemoryFacts Float32 Float32Facts Interp Headers Packing PackSpec PackingFacts DbTiers DbBuild DbStream Bitset ClipRewrite StripSpec StripOrder SeekSpec SeekFacts Strip StreamSpec DbStreamFacts Prop_Stream TierSpec Prop_Tiers BuildSpec ByteFacts RewriteFacts DbEndFacts Prop_Build.
From Verif Require Import ScalarEnc ScalarDec ScalarWrite ScalarMeta
  LayoutFacts SubTracks TransDec TransSpec TransRing TransMem TransAnim TransClipSpec TransClip TransEncSpec TransEncAnim2 TransSeek TransEnc TransFile TransFileSizes TransFileBytes TransFileFacts TransFileSegs TransFilePack TransFilePlay TransFilePlay2 Segment TransPlaySpec TransTop
  TransView TransViewPlay TransBind BindSpec TransBindMem TransBindSrc TransBindParts TransBindFill TransBindFill2 TransBindView.
Import ListNotations.
Local Open Scope N_scope.
Ltac Zify.zify_post_hook ::= idtac.

Lemma same_bits (m m' : list N) i : nth (N.to_nat (i / 8)) m 0 = nth (N.to_nat (i / 8)) m' 0 -> mbit m i = mbit m' i.
Proof. unfold mbit. intros ->. reflexivity. Qed.
Lemma data_bytes_of frames bits : Forall (fun f => fm_bits f = bits) frames -> data_bytes frames = (N.of_nat (length frames) * bits + 7) / 8.
Proof.
  intros F. unfold data_bytes. do 2 f_equal. induction F as [| x l E F IH]; [reflexivity |]. cbn [map length]. unfold sumN in *. cbn [fold_right] in *. rewrite IH, E. lia.
Qed.
Lemma bytes_hold x : x <= 8 * ((x + 7) / 8).
Proof. pose proof (N.div_mod (x + 7) 8 ltac:(discriminate)) as E. pose proof (N.mod_lt (x + 7) 8 ltac:(discriminate)) as L. lia. Qed.

Section Tier.
  Context (sizes : list (list N)) (clips : list db_clip) (files : list clip_file) (max : N) (pl pm : f32) (high medium low : list frame_mapping) (mm : list N) (cm : list chunk) (ml : list N) (cl : list chunk).
  Hypothesis IO : input_ok sizes clips files max pl pm.
  Hypothesis B : build_tiers pl pm clips = Ok (high, medium, low).
  Hypothesis T1 : tier_stored max medium (jobs_of files medium) mm cm.
  Hypothesis T2 : tier_stored max low (jobs_of files low) ml cl.
  Notation db := {| db_max_chunk_size := max; db_medium := cm; db_low := cl |}.
  Hypothesis W : well_formed db.
  Context (sh : bool) (n0 n1 : nat) (s : system).
  Hypothesis Z0 : streamer_size n0.
  Hypothesis Z1 : streamer_size n1.
  Hypothesis RE : reachable db sh n0 n1 s.

  Definition the_tier (t : DbStream.quality_tier) : list frame_mapping := match t with DbStream.Medium => medium | _ => low end.
  Definition the_bytes (t : DbStream.quality_tier) : list N := match t with DbStream.Medium => mm | _ => ml end.

  Lemma tier_found t c i file h z n : streamable t -> nth_error files c = Some file -> nth_error (cf_headers file) i = Some h -> nth_error sizes c = Some z -> nth_error z i = Some n ->
    let w := tier_metadata (rt s t) (header_of files c i) in
    tier_word (db_chunks db t) (header_of files c i) w /\
    (w = 0 -> stored_frames (w mod 2 ^ 32) = []) /\ (w <> 0 -> stored_frames (w mod 2 ^ 32) = kept (the_tier t) (N.of_nat c) (N.of_nat i)) /\ w < 2 ^ 64 /\
    forall buf, blen buf = blen (the_bytes t) -> (forall b, bm_resident (mem s t) b = true -> nth (N.to_nat b) buf 0 = nth (N.to_nat b) (the_bytes t) 0) ->
      forall r k, nth_error (stored_frames (w mod 2 ^ 32)) (N.to_nat r) = Some k ->
        k < n /\ 8 * (w / 2 ^ 32) + (r + 1) * sh_pose_bits h + 120 <= 8 * blen buf /\
        forall b, b < sh_pose_bits h -> mbit buf (8 * (w / 2 ^ 32) + r * sh_pose_bits h + b) = mbit (cf_bytes file) (8 * BuildSpec.animated_at (cf_transforms file) h + k * sh_pose_bits h + b).
  Proof.
    intros ST KF KH KZ KN w. assert (SL : (i < length (cf_headers file))%nat) by (apply nth_error_Some; congruence).
    destruct (C25_streamed_words _ _ _ _ _ _ _ _ _ _ _ _ _ _ _ _ _ _ _ _ t IO B T1 T2 W Z0 Z1 RE ST KF SL) as (TW & _). fold w in TW. split; [exact TW |].
    destruct (tiers_facts _ _ _ _ _ _ _ _ _ IO B) as (_ & TF). pose proof IO as (LEN & CL & LF & FO & RT & MX & _).
    assert (TI : the_tier t = high \/ the_tier t = medium \/ the_tier t = low) by (destruct t; auto). destruct (TF _ TI) as (S1 & M1 & K1).
    assert (TS : tier_stored max (the_tier t) (jobs_of files (the_tier t)) (the_bytes t) (db_chunks db t)) by (destruct t; [exfalso; apply ST; reflexivity | exact T1 | exact T2]).
    destruct (tier_word_facts sizes clips files max LEN CL LF FO RT (the_tier t) S1 M1 K1 (the_bytes t) (db_chunks db t) c i file h w TS KF KH TW) as (A1 & A2 & A3 & A4).
    split; [exact A2 |]. split; [intros NZ; apply A3; destruct TW as [Q | Q]; [congruence | exact Q] |]. split; [exact A1 |].
    intros buf LB RB r k KR. destruct (N.eq_dec w 0) as [Zw | NZ]; [rewrite (A2 Zw) in KR; destruct (N.to_nat r); discriminate KR |].
    destruct TW as [Q | Q]; [congruence |]. pose proof (A3 Q) as SF. destruct TS as (_ & [(_ & _ & TE) | (TN & BD)]); [rewrite TE in Q; exfalso; apply NZ; rewrite Q; reflexivity |].
    destruct (word_place sizes clips files max LEN CL LF FO RT (the_tier t) S1 M1 K1 (the_bytes t) (db_chunks db t) c i file h TN BD KF KH) as (sg & E & I1 & I2 & _ & (cc & ch & kk & C1 & C2 & C3 & C4 & C5 & C6) & _).
    fold (header_of files c i) in E, C3. destruct (seg_metadata_parts sg I1 I2) as (P1 & P2 & P3). rewrite <- E, <- Q in P1, P2, P3.
    destruct (segment_frames sizes clips files max LEN CL LF FO RT (the_tier t) S1 M1 K1 c i file h z n KF KH KZ KN) as (N32 & SI & MX' & FF & LN).
    set (fr := filter (DbBuild.in_segment (N.of_nat c) (N.of_nat i)) (the_tier t)) in *.
    assert (DB : data_bytes fr = (N.of_nat (length fr) * sh_pose_bits h + 7) / 8) by (apply data_bytes_of; eapply Forall_impl; [| exact FF]; intros a (X & _); exact X).
    assert (KR' := KR). rewrite SF in KR'. unfold kept in KR'. fold fr in KR'.
    assert (LR : (N.to_nat r < length fr)%nat). { assert (X : (N.to_nat r < length (map fm_segment_frame fr))%nat) by (apply nth_error_Some; congruence). rewrite map_length in X. exact X. }
    assert (Hk : k < n). { apply nth_error_In, in_map_iff in KR' as (x & <- & Ix). exact (proj1 (proj2 (proj1 (Forall_forall _ _) FF x Ix))). }
    pose proof (bytes_hold (N.of_nat (length fr) * sh_pose_bits h)) as BH. rewrite <- DB in BH.
    assert (RP : (r + 1) * sh_pose_bits h <= N.of_nat (length fr) * sh_pose_bits h) by (apply N.mul_le_mono_r; clear - LR; lia).
    rewrite P3. set (so := cs_samples_offset sg) in *. set (DD := data_bytes fr) in *. set (ps := sh_pose_bits h) in *.
    assert (TOT : (r + 1) * ps <= 8 * DD) by (clear - BH RP; lia). split; [exact Hk |]. split; [rewrite LB; clear - TOT C6; lia |].
    rewrite N.mul_add_distr_r, N.mul_1_l in TOT.
    assert (CA : chunk_at db t (N.of_nat cc) ch) by (unfold chunk_at; rewrite Nat2N.id; exact C1).
    destruct (C23_visible_iff_resident db sh n0 n1 s t (N.of_nat cc) ch sg W Z0 Z1 RE ST CA (nth_error_In _ _ C2) I2 I1) as [(V1 & _) | (_ & V2)].
    2:{ unfold visible_metadata in V2. rewrite C3 in V2. fold w in V2. congruence. }
    intros b Hb. rewrite (same_bits buf (the_bytes t)).
    - specialize (A4 (N.to_nat r) k b KR Hb). rewrite N2Nat.id, P3 in A4. exact A4.
    - apply RB. apply V1. set (x := 8 * so + r * ps + b). assert (XL : 8 * so <= x < 8 * (so + DD)) by (unfold x; clear - Hb TOT; lia). clearbody x.
      pose proof (N.div_mod x 8 ltac:(discriminate)) as DM. pose proof (N.mod_lt x 8 ltac:(discriminate)) as ML. set (q := x / 8) in *. set (rr := x mod 8) in *. clearbody q rr. clear - XL DM ML C4 C5. lia.
  Qed.
End Tier.
