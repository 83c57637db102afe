(** Compressing the same sources twice gives the same bytes, whatever memory contained. *)
From Coq Require Import Lia Permutation.
From Verif Require Import Word WordFacts Float32 Quant Segment SeekSpec Strip TransMeta TransMetaSpec TransDec TransRing TransEnc TransEncSpec TransEncBytes2
  TransClipSpec TransFile TransFileSizes TransFileFacts TransFilePack TransPlaySpec TransTop TransQuant TransQuantStream TransQuantSub TransQuantTop TransQuantClip TransSame.
Import ListNotations.
Local Open Scope N_scope.
Ltac Zify.zify_post_hook ::= idtac.

(** the constant sub-tracks of the bones are those of the sources *)
Lemma quantize_bone_constant junk q start n rates o b : quantize_bone junk q start n rates o = Ok b -> b_constant b = o_constant o.
Proof.
  unfold quantize_bone. destruct (quantized (junk Rotation) _ _ _ _ _ _) as [r | |]; try discriminate. cbn [bindo]. destruct (quantized (junk Translation) _ _ _ _ _ _) as [t | |]; try discriminate. cbn [bindo].
  destruct (quantized (junk Scale) _ _ _ _ _ _) as [s | |]; try discriminate. cbn [bindo]. intros E. injection E as <-. reflexivity.
Qed.
Lemma quantize_bones_constant junk q start n rates l : forall i bs, quantize_bones junk q start n rates i l = Ok bs -> map b_constant bs = map o_constant l.
Proof.
  induction l as [| o l IH]; intros i bs E; cbn [quantize_bones] in E; [injection E as <-; reflexivity |].
  destruct (quantize_bone (junk i) q start n (rates i) o) as [b | |] eqn:E1; try discriminate. cbn [bindo] in E. destruct (quantize_bones junk q start n rates (i + 1) l) as [bs' | |] eqn:E2; try discriminate. injection E as <-.
  cbn [map]. rewrite (quantize_bone_constant _ _ _ _ _ _ _ E1), (IH _ _ E2). reflexivity.
Qed.
Lemma quantize_first junk q rates l n t bss : quantize_segments junk q rates l 0 0 (n :: t) = Ok bss -> exists bs bss', bss = bs :: bss' /\ map b_constant bs = map o_constant l.
Proof.
  cbn [quantize_segments]. destruct (quantize_bones _ _ _ _ _ _ _) as [bs | |] eqn:E1; try discriminate. cbn [bindo]. destruct (quantize_segments _ _ _ _ _ _ _) as [bss' | |]; try discriminate. cbn [bindo]. intros E. injection E as <-.
  exists bs, bss'. split; [reflexivity |]. apply (quantize_bones_constant _ _ _ _ _ _ _ _ E1).
Qed.
Lemma ranges_size_constant f bs bs' : map b_constant bs = map b_constant bs' -> ranges_size f bs = ranges_size f bs'.
Proof.
  intros E. unfold ranges_size. f_equal. revert bs' E. induction bs as [| b bs IH]; intros [| b' bs'] E; try discriminate; [reflexivity |]. cbn [map] in E. injection E as E1 E2.
  unfold total in *. cbn [fold_right]. rewrite E1, (IH bs' E2). reflexivity.
Qed.

Lemma set_bones_shape gs : forall bss bss', length bss = length gs -> length bss' = length gs ->
  Forall2 same_shape (map (fun '(g, bs) => set_bones g bs) (combine gs bss)) (map (fun '(g, bs) => set_bones g bs) (combine gs bss')).
Proof.
  induction gs as [| g gs IH]; intros [| b bss] [| b' bss'] L L'; try discriminate; [constructor |]. cbn [combine map]. constructor; [repeat split |]. apply IH; cbn in *; lia.
Qed.

Theorem sources_same junk junk' j j' f list_name tracks error rates l p : sources_input list_name tracks error rates l p ->
  (forall g i ch, allocator_ok (junk g i ch)) -> (forall g i ch, allocator_ok (junk' g i ch)) -> junks_ok j -> junks_ok j' ->
  compress_sources junk' j' f list_name tracks error rates l p = compress_sources junk j f list_name tracks error rates l p.
Proof.
  intros I A A' (J1 & J2 & J3) (J1' & J2' & J3'). unfold compress_sources.
  destruct (quantized_input junk list_name tracks error rates l p I A) as (bss & E & L & CI). destruct (quantized_input junk' list_name tracks error rates l p I A') as (bss' & E' & L' & CI').
  rewrite E, E'. cbn [bindo]. unfold compress_transforms. change (p_mapping (with_bones p bss')) with (p_mapping (with_bones p bss)). f_equal.
  destruct (ci_first _ _ _ _ _ CI) as (g0 & b0 & E0 & Eb & PK & CE & _). destruct (ci_first _ _ _ _ _ CI') as (g0' & b0' & E0' & Eb' & PK' & CE' & _).
  set (P := with_bones p bss) in *. set (P' := with_bones p bss') in *. set (out := contents rates l p) in *.
  assert (SG : exists rest, p_segments P = g0 :: rest). { destruct (p_segments P) as [| g t]; [discriminate |]. injection E0 as ->. eauto. } destruct SG as (rest & SG).
  assert (SG' : exists rest, p_segments P' = g0' :: rest). { destruct (p_segments P') as [| g t]; [discriminate |]. injection E0' as ->. eauto. } destruct SG' as (rest' & SG').
  assert (K : clip_ok P out g0 rest b0). { constructor; try assumption; [apply (ci_segments _ _ _ _ _ CI) | apply (ci_small _ _ _ _ _ CI)]. }
  assert (K' : clip_ok P' out g0' rest' b0'). { constructor; try assumption; [apply (ci_segments _ _ _ _ _ CI') | apply (ci_small _ _ _ _ _ CI')]. }
  assert (FB : forall bs0 g r, length bs0 = length (p_segments p) -> p_segments (with_bones p bs0) = g :: r -> exists b bs1, bs0 = b :: bs1 /\ g_bones g = b).
  { intros bs0 g r Lb H. cbn [with_bones p_segments] in H. destruct (p_segments p) as [| x xs]; [destruct bs0; discriminate |]. destruct bs0 as [| b bs1]; [discriminate |]. cbn [combine map] in H. injection H as <- _. eauto. }
  destruct (FB bss g0 rest L SG) as (b & bs1 & X1 & X2). destruct (FB bss' g0' rest' L' SG') as (b' & bs1' & X1' & X2').
  assert (RS : ranges_size (formats_of P) (g_bones g0') = ranges_size (formats_of P) (g_bones g0)).
  { apply ranges_size_constant. rewrite X2, X2'. destruct (sizes_of p) as [| n t] eqn:ES. { cbn [quantize_segments] in E. injection E as E. congruence. }
    destruct (quantize_first _ _ _ _ _ _ _ E) as (c & cs & Y1 & Y2). destruct (quantize_first _ _ _ _ _ _ _ E') as (c' & cs' & Y1' & Y2'). congruence. }
  exact (pack_same P out (p_segments P') g0 g0' rest rest' b0 b0' K K' (set_bones_shape _ _ _ L L') RS _ _ _ _ _ _ J1 J2 J3 J1' J2' J3').
Qed.
