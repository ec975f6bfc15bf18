(** The layout of the segments. *)
From Coq Require Import Arith NArith ZArith Bool List Lia Sorted ZifyBool ZifyNat ZifyN.
From Verif Require Import Outcome PoolModel PoolProof PoolProof2 PoolProof3 PoolProof4 PoolProof5 PoolProof6 PoolSpec PoolProof7 PoolProof8.
Import ListNotations.
Local Open Scope N_scope.
Ltac Zify.zify_post_hook ::= Z.div_mod_to_equations.

Section Layout.
Variables (st : pool) (ch : heap) (L : N -> list N).
Hypothesis G : Good st ch L.
Hypothesis Se : settled ch.
Hypothesis Sh : Shape (mapped st) ch.

Lemma chunk_size b c : ch b = Some c -> size_in st b = c_size c.
Proof.
  intros C. destruct (header_ok _ _ _ _ _ G C (Se _ _ C)) as (_ & E & M & _). unfold size_in. rewrite E. destruct (c_prev c); cbn [b2n]; lia.
Qed.
Lemma chunk_free b c : ch b = Some c -> ending (c_kind c) = false -> is_free st b <-> c_kind c = Free.
Proof.
  intros C E. unfold is_free. rewrite (chunk_size _ _ C). destruct (i_nx _ _ _ _ _ G _ _ C E) as (d & D & P).
  destruct (header_ok _ _ _ _ _ G D (Se _ _ D)) as (_ & Ed & M & _). rewrite Ed, P.
  pose proof (Se _ _ C) as Q. destruct (c_kind c); cbn in *; try discriminate; try tauto; split; intros; try congruence; try lia.
Qed.
Lemma chunk_laid_size b c : ch b = Some c -> 32 <= size_in st b <-> ending (c_kind c) = false.
Proof. intros C. rewrite (chunk_size _ _ C). pose proof (i_sz _ _ _ _ _ G _ _ C) as Z. destruct (ending (c_kind c)); split; intros; try lia; congruence. Qed.

(** from every chunk of a segment the headers lead to its end *)
Lemma chunk_tiles n : forall s l b c, (N.to_nat (s + l - b) < n)%nat -> In (s, l) (mapped st) -> s + 32 <= b -> b <= s + l - 64 -> ch b = Some c -> exists bs, tiles st b (s + l - 64) bs.
Proof.
  induction n as [|n IH]; intros s l b c Ln I B1 B2 C; [lia|].
  destruct (h_in _ _ Sh _ _ C) as (s' & l' & I' & B1' & B2'). destruct (h_fi _ _ Sh _ _ I') as [L' _]. destruct (h_fi _ _ Sh _ _ I) as [L0 _].
  assert (s' = s /\ l' = l) as [-> ->].
  { destruct (h_aw _ _ Sh _ _ _ _ I I') as [[-> ->]|Q]; [auto|]. pose proof (i_sz _ _ _ _ _ G _ _ C) as Z. destruct (ending (c_kind c)); lia. }
  destruct (ending (c_kind c)) eqn:E; rewrite ?E in B2'; [subst b; exists []; constructor|].
  pose proof (proj2 (chunk_laid_size _ _ C) E) as S. destruct (i_nx _ _ _ _ _ G _ _ C E) as (d & D & _). rewrite <- (chunk_size _ _ C) in D, B2'.
  destruct (IH s l (b + size_in st b) d ltac:(lia) I ltac:(lia) ltac:(lia) D) as (bs & T). exists (b :: bs). now constructor.
Qed.
Lemma layout_exists s l : In (s, l) (mapped st) -> exists bs, layout st s l bs.
Proof.
  intros I. destruct (h_fi _ _ Sh _ _ I) as (L0 & c & C & _). destruct (chunk_tiles _ s l (s + 32) c (Nat.lt_succ_diag_r _) I ltac:(lia) ltac:(lia) C) as (bs & T). exists bs. now split.
Qed.
(** the blocks are chunks *)
Lemma tiles_chunks b e bs : tiles st b e bs -> forall c, ch b = Some c -> forall x, In x bs -> exists d, ch x = Some d /\ ending (c_kind d) = false.
Proof.
  induction 1 as [e|b e bs S T IH]; intros c C x X; [destruct X|]. pose proof (proj1 (chunk_laid_size _ _ C) S) as E. destruct X as [<-|X]; [eauto|].
  destruct (i_nx _ _ _ _ _ G _ _ C E) as (d & D & _). rewrite <- (chunk_size _ _ C) in D. exact (IH d D x X).
Qed.
Lemma laid_chunk b : laid st b -> exists c, ch b = Some c /\ ending (c_kind c) = false.
Proof.
  intros (s & l & bs & (I & T) & B). destruct (h_fi _ _ Sh _ _ I) as (_ & c & C & _). exact (tiles_chunks _ _ _ T c C b B).
Qed.
Lemma tiles_cover b e bs : tiles st b e bs -> forall c x d, ch b = Some c -> ch x = Some d -> ending (c_kind d) = false -> b <= x -> x < e -> In x bs.
Proof.
  induction 1 as [e|b e bs S T IH]; intros c x d C X E B1 B2; [lia|]. destruct (N.eq_dec x b) as [->|Nx]; [now left|right].
  pose proof (proj1 (chunk_laid_size _ _ C) S) as Eb. destruct (i_nx _ _ _ _ _ G _ _ C Eb) as (f & F & _).
  pose proof (i_dj _ _ _ _ _ G _ _ _ _ C X ltac:(lia)) as D. unfold extent in D. rewrite Eb in D. rewrite <- (chunk_size _ _ C) in F, D. exact (IH f x d F X E D B2).
Qed.
Lemma chunk_laid b c : ch b = Some c -> ending (c_kind c) = false -> laid st b.
Proof.
  intros C E. destruct (h_in _ _ Sh _ _ C) as (s & l & I & B1 & B2). rewrite E in B2. destruct (layout_exists s l I) as (bs & T). exists s, l, bs. split; [exact T|]. destruct T as [_ T].
  destruct (h_fi _ _ Sh _ _ I) as (_ & c0 & C0 & _). apply (tiles_cover _ _ _ T c0 b c C0 C E); [lia|]. pose proof (i_sz _ _ _ _ _ G _ _ C) as Z. rewrite E in Z. lia.
Qed.
Lemma tiles_no_two b e bs : tiles st b e bs -> forall c, ch b = Some c -> no_two_free st bs.
Proof.
  induction 1 as [e|b e bs S T IH]; intros c C; [constructor|]. pose proof (proj1 (chunk_laid_size _ _ C) S) as Eb. destruct (i_nx _ _ _ _ _ G _ _ C Eb) as (f & F & _). rewrite <- (chunk_size _ _ C) in F.
  specialize (IH f F). inversion T as [e0 Q1 Q2|b0 e0 l0 S0 T0 Q1 Q2]; subst; [constructor|]. constructor; [|exact IH].
  intros [F1 F2]. apply (chunk_free _ _ C Eb) in F1. pose proof (proj1 (chunk_laid_size _ _ F) S0) as Ef. apply (chunk_free _ _ F Ef) in F2.
  rewrite (chunk_size _ _ C) in F. exact (i_co _ _ _ _ _ G _ _ _ C F1 F F2).
Qed.
Lemma layout_no_two s l bs : layout st s l bs -> no_two_free st bs.
Proof. intros (I & T). destruct (h_fi _ _ Sh _ _ I) as (_ & c & C & _). exact (tiles_no_two _ _ _ T c C). Qed.
End Layout.

Section Program.
Variables (k : nat) (st : pool) (v : view) (ch : heap) (L : N -> list N).
Hypothesis H : J k st v ch L.
Let G : Good st ch L := j_good _ _ _ _ _ H.
Let Se : settled ch := j_settled _ _ _ _ _ H.
Let Sh : Shape (mapped st) ch := j_shape _ _ _ _ _ H.
Lemma laid_free_or_live b : laid st b -> (is_free st b /\ live v b = None) \/ (~ is_free st b /\ exists n, live v b = Some n /\ n + 24 <= size_in st b).
Proof.
  intros B. destruct (laid_chunk st ch L G Se Sh b B) as (c & C & E). pose proof (chunk_free st ch L G Se _ _ C E) as F. destruct (live v b) as [n|] eqn:V.
  - right. destruct (j_live _ _ _ _ _ H _ _ V) as (s & Hs & Ls). apply held_used in Hs as (pv & Hs). rewrite C in Hs. injection Hs as ->. rewrite F. split; [discriminate|]. exists n. split; [reflexivity|]. now rewrite (chunk_size st ch L G Se _ _ C).
  - left. split; [|reflexivity]. apply F. pose proof (Se _ _ C) as Q. destruct c as [s kd pv]. destruct kd; cbn in *; try discriminate; try tauto.
    exfalso. apply (j_held _ _ _ _ _ H b s); [apply held_used; eauto|exact V].
Qed.
Lemma live_laid b n : live v b = Some n -> laid st b.
Proof. intros V. destruct (j_live _ _ _ _ _ H _ _ V) as (s & Hs & _). apply held_used in Hs as (pv & Hs). exact (chunk_laid st ch L G Se Sh _ _ Hs eq_refl). Qed.
Lemma all_free s l : (forall b, live v b = None) -> In (s, l) (mapped st) -> layout st s l [s + 32] /\ is_free st (s + 32) /\ size_in st (s + 32) + 96 = l.
Proof.
  intros V I. destruct (layout_exists st ch L G Se Sh s l I) as (bs & T). pose proof (layout_no_two st ch L G Se Sh _ _ _ T) as Nt.
  assert (forall b, In b bs -> is_free st b) as F.
  { intros b B. destruct (laid_free_or_live b) as [[? _]|(_ & n & Q & _)]; [now exists s, l, bs|assumption|]. rewrite V in Q. discriminate. }
  destruct (h_fi _ _ Sh _ _ I) as (L0 & _). destruct T as [_ T]. inversion T as [e Q1 Q2|b e l0 S0 T0 Q1 Q2]; subst; [lia|].
  inversion T0 as [e Q1 Q2|b e l1 S1 T1 Q1 Q2]; subst.
  - split; [split; assumption|]. split; [apply F; now left|]. lia.
  - exfalso. inversion Nt as [| |x y z Q W]; subst. apply Q. split; apply F; cbn; auto.
Qed.
End Program.
