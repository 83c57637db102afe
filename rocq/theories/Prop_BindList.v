(** C46: the whole list of clips of a database is bound. *)
From Coq Require Import Lia Reals.
From Verif Require Import Word WordFacts Float32 DbTiers DbBuild DbStream SeekSpec Strip Segment StreamSpec BuildSpec ClipRewrite ScalarDec ScalarMeta TransMeta TransSpec TransClipSpec TransFile TransFileFacts TransBind BindSpec TransBindClip Prop_Bind.
Import ListNotations.
Local Open Scope N_scope.
Ltac Zify.zify_post_hook ::= idtac.

Lemma clip_header_next files k file : nth_error files k = Some file -> clip_header_of files (S k) = clip_header_of files k + (8 + 16 * N.of_nat (length (cf_headers file))).
Proof.
  unfold clip_header_of, runtime_size. revert files. induction k as [| k IH]; intros [| f files] E; cbn [nth_error] in E; try discriminate E.
  - injection E as ->. rewrite firstn_cons, firstn_O. cbn [map]. unfold sumN. cbn [fold_right firstn map]. lia.
  - specialize (IH _ E). rewrite (firstn_cons (S k)), (firstn_cons k). cbn [map]. unfold sumN in *. cbn [fold_right]. lia.
Qed.
Lemma read_segments_length m : forall n o l, read_segments m o n = Ok l -> length l = n.
Proof.
  induction n as [| n IH]; intros o l E; cbn [read_segments] in E; [injection E as <-; reflexivity |].
  destruct (read32 m o) as [x0 | |]; cbn [bindo] in E; [| discriminate E | discriminate E]. destruct (read32 m (o + 4)) as [x1 | |]; cbn [bindo] in E; [| discriminate E | discriminate E].
  destruct (read32 m (o + 8)) as [x2 | |]; cbn [bindo] in E; [| discriminate E | discriminate E]. destruct (read32 m (o + 12)) as [x3 | |]; cbn [bindo] in E; [| discriminate E | discriminate E].
  destruct (read_segments m (o + 16) n) as [r | |] eqn:ER; cbn [bindo] in E; [| discriminate E | discriminate E].
  injection E as <-. cbn [length]. f_equal. exact (IH _ _ ER).
Qed.

(** A database is built from a list of clips: every clip is rewritten, each as by itself, the runtime header of each being where the database has it *)
Theorem C46_every_clip_is_bound : forall sizes clips files max low_proportion medium_proportion high medium low medium_bytes medium_chunks low_bytes low_chunks srcs,
  built_database sizes clips files max low_proportion medium_proportion high medium low medium_bytes medium_chunks low_bytes low_chunks ->
  length srcs = length files ->
  (forall c src, nth_error srcs c = Some src -> exists f list_name tracks error p out, clip_to_bind sizes files c f list_name tracks error p out src) ->
  exists ms, bind_clips high 0 0 srcs = Ok ms /\ length ms = length srcs /\
    forall c src m, nth_error srcs c = Some src -> nth_error ms c = Some m -> bind_clip high (N.of_nat c) (clip_header_of files c) src = Ok m.
Proof.
  intros sizes clips files max lp mp high medium low mb mc lb lc srcs BD LEN ALL.
  assert (RT : runtime_size (map (fun f => length (cf_headers f)) files) < 2 ^ 32) by (pose proof (bd_input _ _ _ _ _ _ _ _ _ _ _ _ _ BD) as (_ & _ & _ & _ & RT & _); exact RT).
  assert (G : forall rest k, length rest = (length files - k)%nat -> (k <= length files)%nat -> (forall c src, nth_error rest c = Some src -> nth_error srcs (k + c) = Some src) ->
    exists ms, bind_clips high (N.of_nat k) (clip_header_of files k) rest = Ok ms /\ length ms = length rest /\
      forall c src m, nth_error rest c = Some src -> nth_error ms c = Some m -> bind_clip high (N.of_nat (k + c)) (clip_header_of files (k + c)) src = Ok m).
  { induction rest as [| src rest IH]; intros k L K H.
    - exists []. split; [reflexivity |]. split; [reflexivity |]. intros [| c] s m E; discriminate E.
    - cbn [length] in L. pose proof (H 0%nat src eq_refl) as E0. rewrite Nat.add_0_r in E0. destruct (ALL _ _ E0) as (f & ln & tracks & error & p & out & CB).
      destruct (C46_bound_clip_plays _ _ _ _ _ _ _ _ _ _ _ _ _ _ _ _ _ _ _ _ _ BD CB) as (m & EB & _).
      destruct (cb_file _ _ _ _ _ _ _ _ _ _ CB) as (file & KF & (n & Fv & o & rw & _ & E1 & _ & _ & E4 & _ & _ & E7) & _).
      assert (LN : N.of_nat (length (cf_headers file)) = n). { rewrite E7, map_length, (read_segments_length _ _ _ _ E4). lia. }
      pose proof (clip_header_next files k file KF) as NX. pose proof (clip_header_lt files (S k) RT) as LT. rewrite LN in NX.
      destruct (IH (S k)) as (ms & EM & LM & HM).
      { clear - L. lia. } { clear - L. lia. }
      { intros c s E. replace (S k + c)%nat with (k + S c)%nat by lia. apply H. exact E. }
      exists (m :: ms). split.
      + cbn [bind_clips]. change transform_header with 32. rewrite E1. cbn [bindo]. rewrite EB. cbn [bindo].
        replace (N.of_nat k + 1) with (N.of_nat (S k)) by lia.
        replace (addw 32 (addw 32 (clip_header_of files k) 8) (mulw 32 16 n)) with (clip_header_of files (S k)); [rewrite EM; reflexivity |].
        rewrite NX. change (2 ^ 32) with 4294967296 in LT. assert (16 * n < 4294967296) by (clear - NX LT; lia). assert (clip_header_of files k + 8 < 4294967296) by (clear - NX LT; lia).
        unfold addw, mulw, wrapw. change (2 ^ 32) with 4294967296. rewrite (N.mod_small (16 * n)), (N.mod_small (clip_header_of files k + 8)) by assumption. rewrite N.mod_small by (clear - NX LT; lia). clear; lia.
      + split; [cbn [length]; f_equal; exact LM |]. intros [| c] s m' E E'; cbn [nth_error] in E, E'.
        * injection E as <-. injection E' as <-. rewrite Nat.add_0_r. exact EB.
        * replace (k + S c)%nat with (S k + c)%nat by lia. exact (HM c s m' E E'). }
  destruct (G srcs 0%nat) as (ms & E & L & H); [lia | lia | intros c s K; exact K |]. exists ms. split; [exact E |]. split; [exact L |]. intros c s m K K'. exact (H c s m K K').
Qed.
Print Assumptions C46_every_clip_is_bound.

(** A concrete case: the database of the clip of C41 *)
From Verif Require Import TransTop TransExample Prop_Trans Prop_BindStreams.
Example C46_list_example : exists m, bind_clips bx_high 0 0 [bx_src] = Ok [m] /\ bind_clip bx_high 0 0 bx_src = Ok m.
Proof.
  destruct bx_built as (mb & mc & lb & lc & BD & _). destruct (C46_every_clip_is_bound _ _ _ _ _ _ _ _ _ _ _ _ _ [bx_src] BD eq_refl) as (ms & E & L & H).
  { intros [| c] src K; [injection K as <-; do 6 eexists; exact bx_bind | destruct c; discriminate K]. }
  destruct ms as [| m [| m' ms]]; try discriminate L. exists m. split; [exact E |]. exact (H 0%nat bx_src m eq_refl eq_refl).
Qed.
