(** Facts about the writer of transform clips. *)
From Coq Require Import Lia.
From Verif Require Import Word WordFacts Pieces MemoryUtils MemoryFacts Float32 Quant Headers HeadersFacts Packing PackSpec PackingFacts SubTracks
  TransDec TransSpec TransRing TransMem TransConst TransAnim TransEnc TransEncSpec.
Local Open Scope N_scope.
Ltac Zify.zify_post_hook ::= idtac.

(** ** Groups *)
Lemma chunk4_cons4 {A} (a b c d : A) l : chunk4 (a :: b :: c :: d :: l) = [a; b; c; d] :: chunk4 l.
Proof. reflexivity. Qed.
Section Groups.
  Context {S : Type} (bones : list tbone) (filt : N -> outcome bool) (entry : N -> N -> S -> outcome S) (flush : N -> S -> outcome S).
  Context (keep : tbone -> bool) (ent : N -> tbone -> S -> outcome S).
  Hypothesis filt_ok : forall i b, nth_error bones (N.to_nat i) = Some b -> filt i = Ok (keep b).
  Hypothesis entry_ok : forall gs i b s, nth_error bones (N.to_nat i) = Some b -> entry gs i s = ent gs b s.

  Fixpoint entries (gs : N) (l : list tbone) (s : S) : outcome S :=
    match l with [] => Ok s | b :: t => bindo (ent gs b s) (entries (gs + 1) t) end.
  Fixpoint groups (l : list (list tbone)) (s : S) : outcome S :=
    match l with [] => Ok s | c :: t => bindo (entries 0 c s) (fun s => bindo (flush (len c) s) (groups t)) end.

  Lemma entries_snoc l : forall gs b s, entries gs (l ++ [b]) s = bindo (entries gs l s) (ent (gs + len l) b).
  Proof.
    induction l as [| a l IH]; intros gs b s; cbn [app entries].
    - cbn [bindo]. unfold len. cbn [length]. rewrite N.add_0_r. destruct (ent gs b s); reflexivity.
    - destruct (ent gs a s) as [s' | |]; cbn [bindo]; try reflexivity. rewrite IH, len_cons. destruct (entries (gs + 1) l s'); cbn [bindo]; try reflexivity.
      f_equal. lia.
  Qed.
  Lemma groups_small p s : (length p < 4)%nat -> groups (chunk4 p) s = bindo (entries 0 p s) (fun s' => if len p =? 0 then Ok s' else flush (len p) s').
  Proof.
    intros H. destruct p as [| a [| b [| c [| d p]]]]; cbn [length] in H; [reflexivity | | | | lia];
      cbn [chunk4 groups]; unfold len; cbn [length N.of_nat N.eqb]; cbn; repeat (destruct (ent _ _ _); cbn [bindo]; try reflexivity);
      destruct (flush _ _); reflexivity.
  Qed.
  Lemma groups_four p l s : length p = 4%nat -> groups (chunk4 (p ++ l)) s = bindo (entries 0 p s) (fun s' => bindo (flush 4 s') (groups (chunk4 l))).
  Proof. intros H. destruct p as [| a [| b [| c [| d [| e p]]]]]; cbn [length] in H; try lia. reflexivity. Qed.

  Lemma group_loop_pending mapping : forall out p s, mapped bones mapping out -> (length p < 4)%nat ->
    bindo (entries 0 p s) (group_loop filt entry flush mapping (len p)) = groups (chunk4 (p ++ filter keep out)) s.
  Proof.
    induction mapping as [| i mapping IH]; intros out p s M Hp; inversion M as [| ? b ? out' Hb Hr]; subst.
    - cbn [filter]. rewrite app_nil_r, groups_small by exact Hp. destruct (entries 0 p s); reflexivity.
    - cbn [filter].
      assert (E : bindo (entries 0 p s) (group_loop filt entry flush (i :: mapping) (len p)) =
        if keep b then bindo (entries 0 (p ++ [b]) s) (fun s' => if len (p ++ [b]) =? 4 then bindo (flush (len (p ++ [b])) s') (group_loop filt entry flush mapping 0)
                                                                 else group_loop filt entry flush mapping (len (p ++ [b])) s')
        else bindo (entries 0 p s) (group_loop filt entry flush mapping (len p))).
      { rewrite entries_snoc. destruct (entries 0 p s) as [s1 | |]; cbn [bindo]; [| destruct (keep b); reflexivity | destruct (keep b); reflexivity].
        cbn [group_loop]. rewrite (filt_ok i b Hb). cbn [bindo]. destruct (keep b); cbn [bindo fst snd].
        - rewrite (entry_ok _ i b _ Hb), N.add_0_l. replace (len (p ++ [b])) with (len p + 1) by (rewrite len_app; reflexivity).
          destruct (ent (len p) b s1) as [s2 | |]; reflexivity.
        - destruct (N.eqb_spec (len p) 4) as [H4 | _]; [unfold len in H4; lia | reflexivity]. }
      rewrite E. destruct (keep b); [| apply IH; assumption].
      replace (p ++ b :: filter keep out') with ((p ++ [b]) ++ filter keep out') by (rewrite <- app_assoc; reflexivity).
      destruct (N.eqb_spec (len (p ++ [b])) 4) as [H4 | H4].
      + rewrite groups_four by (unfold len in H4; lia). rewrite H4. destruct (entries 0 (p ++ [b]) s) as [s1 | |]; cbn [bindo]; try reflexivity.
        destruct (flush 4 s1) as [s2 | |]; cbn [bindo]; try reflexivity. exact (IH out' [] s2 Hr ltac:(cbn; lia)).
      + apply IH; [exact Hr |]. rewrite app_length in *. cbn [length] in *. unfold len in H4. rewrite app_length in H4. cbn [length] in H4. lia.
  Qed.
  Lemma group_loop_spec mapping out s : mapped bones mapping out -> group_loop filt entry flush mapping 0 s = groups (chunk4 (filter keep out)) s.
  Proof. intros M. exact (group_loop_pending mapping out [] s M ltac:(cbn; lia)). Qed.
End Groups.
