(** Reading and writing fields of a buffer. *)
From Coq Require Import Lia.
From Verif Require Import Word WordFacts MemoryUtils MemoryFacts DbBuild.
Local Open Scope N_scope.
Ltac Zify.zify_post_hook ::= idtac.

(** [m'] is [m] but for the bits [lo, hi) *)
Definition same_but (lo hi : N) (m m' : list N) : Prop :=
  length m' = length m /\ bytes_ok m' /\ forall i, (i < lo \/ hi <= i) -> mbit m' i = mbit m i.

Lemma mbit_bytes (a b : list N) i : (forall j, j < 8 -> mbit a (8 * i + j) = mbit b (8 * i + j)) -> bytes_ok a -> bytes_ok b ->
  nth (N.to_nat i) a 0 = nth (N.to_nat i) b 0.
Proof.
  intros H A B. apply N.bits_inj. intros k. pose proof (bytes_ok_nth a (N.to_nat i) A) as LA. pose proof (bytes_ok_nth b (N.to_nat i) B) as LB.
  destruct (N.lt_ge_cases k 8) as [L|L].
  - specialize (H (7 - k) ltac:(lia)). unfold mbit in H.
    assert (D : (8 * i + (7 - k)) / 8 = i). { symmetry. apply (N.div_unique _ 8 i (7 - k)); lia. }
    assert (R : (8 * i + (7 - k)) mod 8 = 7 - k). { symmetry. apply (N.mod_unique _ 8 i (7 - k)); lia. }
    rewrite D, R in H. replace (7 - (7 - k)) with k in H by lia. exact H.
  - rewrite (testbit_high _ 8 LA k L), (testbit_high _ 8 LB k L). reflexivity.
Qed.

Lemma load_bytes_same m m' off n : bytes_ok m -> bytes_ok m' -> length m' = length m ->
  (forall i, 8 * off <= i < 8 * (off + N.of_nat n) -> mbit m' i = mbit m i) -> load_bytes m' off n = load_bytes m off n.
Proof.
  intros B B' L H. unfold load_bytes, blen. rewrite L. destruct (N.leb_spec (off + N.of_nat n) (N.of_nat (length m))) as [K|K]; auto. f_equal.
  apply (nth_ext _ _ 0 0).
  - rewrite !firstn_length, !skipn_length, L. reflexivity.
  - intros k KL. rewrite firstn_length, skipn_length, L in KL. rewrite !nth_firstn_lt by lia. rewrite !nth_skipn.
    replace (N.to_nat off + k)%nat with (N.to_nat (off + N.of_nat k)) by lia. apply mbit_bytes; auto. intros j J. apply H. lia.
Qed.
Lemma load_le_same m m' off n lo hi : bytes_ok m -> same_but lo hi m m' -> (8 * (off + N.of_nat n) <= lo \/ hi <= 8 * off) ->
  load_le m' off n = load_le m off n.
Proof.
  intros B (L & B' & S) D. unfold load_le. rewrite (load_bytes_same m m' off n B B' L); auto. intros i I. apply S. lia.
Qed.

Lemma store_bytes_ok m off l : bytes_ok m -> bytes_ok l -> off + blen l <= blen m ->
  exists m', store_bytes m off l = Ok m' /\ same_but (8 * off) (8 * (off + blen l)) m m' /\ load_bytes m' off (length l) = Ok l.
Proof.
  intros B BL LE. unfold store_bytes. destruct (N.leb_spec (off + blen l) (blen m)) as [K|K]; [|lia]. eexists. split; [reflexivity|].
  unfold blen in *. assert (LL : length (firstn (N.to_nat off) m) = N.to_nat off) by (rewrite firstn_length; lia).
  assert (LEN : length (firstn (N.to_nat off) m ++ l ++ skipn (N.to_nat off + length l) m) = length m) by (rewrite !app_length, LL, skipn_length; lia).
  split.
  - split; auto. split; [apply bytes_ok_app; [apply bytes_ok_firstn; auto|]; apply bytes_ok_app; auto; apply bytes_ok_skipn; auto|].
    intros i I. unfold mbit. f_equal.
    assert (DI : i / 8 < off \/ off + N.of_nat (length l) <= i / 8).
    { destruct I as [I|I]; [left; apply N.div_lt_upper_bound; lia | right; apply N.div_le_lower_bound; lia]. }
    set (q := i / 8) in *. clearbody q. destruct DI as [DI|DI].
    + rewrite app_nth1 by lia. apply nth_firstn_lt. lia.
    + rewrite app_nth2 by lia. rewrite app_nth2 by lia. rewrite nth_skipn. f_equal. lia.
  - unfold load_bytes, blen. rewrite LEN. destruct (N.leb_spec (off + N.of_nat (length l)) (N.of_nat (length m))); [|lia]. f_equal.
    rewrite skipn_app, LL, Nat.sub_diag. rewrite skipn_all2 by lia. cbn [skipn app]. rewrite firstn_app, Nat.sub_diag, firstn_all. cbn [firstn]. apply app_nil_r.
Qed.

Lemma write32_ok m off v : bytes_ok m -> off + 4 <= blen m -> v < 2 ^ 32 ->
  exists m', write32 m off v = Ok m' /\ same_but (8 * off) (8 * (off + 4)) m m' /\ read32 m' off = Ok v.
Proof.
  intros B L V. destruct (store_bytes_ok m off (le_bytes 4 v) B (le_bytes_ok 4 v)) as (m' & A & S & R).
  { unfold blen at 1. rewrite le_bytes_length. exact L. }
  unfold blen in S at 1. rewrite le_bytes_length in S, R. exists m'. split; auto. split; auto. unfold read32, load_le. rewrite R. cbn [bindo].
  rewrite of_le_bytes_le_bytes; auto.
Qed.
Lemma write32_oob m off v : blen m < off + 4 -> write32 m off v = UB.
Proof. intros L. unfold write32, store_bytes. unfold blen at 1. rewrite le_bytes_length. change (N.of_nat 4) with 4. destruct (N.leb_spec (off + 4) (blen m)); [lia | reflexivity]. Qed.

Lemma same_but_refl lo hi m : bytes_ok m -> same_but lo hi m m.
Proof. intros B. split; auto. Qed.
Lemma same_but_trans lo hi a b c : same_but lo hi a b -> same_but lo hi b c -> same_but lo hi a c.
Proof. intros (L1 & B1 & S1) (L2 & B2 & S2). split; [congruence|]. split; auto. intros i I. rewrite S2, S1; auto. Qed.
Lemma same_but_weaken lo hi lo' hi' a b : same_but lo hi a b -> lo' <= lo -> hi <= hi' -> same_but lo' hi' a b.
Proof. intros (L1 & B1 & S1) A B. split; auto. split; auto. intros i I. apply S1. lia. Qed.
Lemma same_but_blen lo hi a b : same_but lo hi a b -> blen b = blen a.
Proof. intros (L & _). unfold blen. rewrite L. reflexivity. Qed.
Lemma same_but_ok lo hi a b : same_but lo hi a b -> bytes_ok b.
Proof. intros (_ & B & _). exact B. Qed.
Lemma read32_same m m' off lo hi : bytes_ok m -> same_but lo hi m m' -> (8 * (off + 4) <= lo \/ hi <= 8 * off) -> read32 m' off = read32 m off.
Proof. intros B S D. apply (load_le_same m m' off 4 lo hi); auto. Qed.
Lemma read32_bound m off v : read32 m off = Ok v -> off + 4 <= blen m.
Proof.
  intros H. destruct (N.lt_ge_cases (blen m) (off + 4)) as [L|L]; auto. unfold read32 in H. rewrite load_le_oob in H by exact L. discriminate H.
Qed.
Lemma memcpy_bits_ok dest dbo src sbo n : bytes_ok dest -> bytes_ok src -> dbo + n <= 8 * blen dest -> sbo + n <= 8 * blen src ->
  exists dest', memcpy_bits dest dbo src sbo n = Ok dest' /\ same_but dbo (dbo + n) dest dest' /\
    forall i, i < n -> mbit dest' (dbo + i) = mbit src (sbo + i).
Proof.
  intros A B C D. destruct (memcpy_bits_spec dest dbo src sbo n A B C D) as (d & E & L & O & S). exists d. split; auto. split.
  - split; auto. split; auto. intros i I. rewrite S. destruct (N.leb_spec dbo i); destruct (N.ltb_spec i (dbo + n)); cbn [andb]; auto; lia.
  - intros i I. rewrite S. destruct (N.leb_spec dbo (dbo + i)); [|lia]. destruct (N.ltb_spec (dbo + i) (dbo + n)); [|lia]. cbn [andb]. f_equal. lia.
Qed.
