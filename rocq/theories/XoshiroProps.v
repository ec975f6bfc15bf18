(** Properties of the state of GetPseudoRandomValue (wizard/random.c 779-794):
    C26, the part about the state. *)
From Coq Require Import NArith Arith List Lia Bool ZifyBool ZifyN.
From Verif Require Import Base BaseLemmas RandomModel.
Local Open Scope N_scope.

Definition words (s : N * N * N * N) : Prop :=
  let '(s0, s1, s2, s3) := s in word 64 s0 /\ word 64 s1 /\ word 64 s2 /\ word 64 s3.

(** the inverse of a step *)
Definition previous (s : N * N * N * N) : N * N * N * N :=
  let '(a, b, c, d) := s in
  let d := rotr 64 d 45 in
  let s0 := N.lxor a d in
  let x := N.lxor b c in
  let s1 := N.lxor (N.lxor x (wshl 64 x 17)) (N.lxor (wshl 64 x 34) (wshl 64 x 51)) in
  let s2 := N.lxor (N.lxor b s1) s0 in
  (s0, s1, s2, N.lxor d s1).

Lemma words_next s : words s -> words (xoshiro_next s).
Proof.
  destruct s as [[[a b] c] d]. intros (A & B & C & D). unfold words, xoshiro_next.
  repeat split; auto using word_lxor, word_wshl, word_rotl.
Qed.
Lemma words_previous s : words s -> words (previous s).
Proof.
  destruct s as [[[a b] c] d]. intros (A & B & C & D). unfold words, previous.
  repeat split; auto 10 using word_lxor, word_wshl, word_rotr.
Qed.

Lemma wshl_lxor x y k : wshl 64 (N.lxor x y) k = N.lxor (wshl 64 x k) (wshl 64 y k).
Proof.
  apply N.bits_inj. intros n. rewrite N.lxor_spec, !wshl_testbit, N.lxor_spec.
  destruct (n <? 64), (k <=? n), (N.testbit x (n - k)), (N.testbit y (n - k)); reflexivity.
Qed.
Lemma wshl_wshl x j k : wshl 64 (wshl 64 x j) k = wshl 64 x (j + k).
Proof.
  apply N.bits_inj. intros n. rewrite !wshl_testbit.
  destruct (N.ltb_spec n 64), (N.leb_spec k n), (N.leb_spec (j + k) n), (N.ltb_spec (n - k) 64), (N.leb_spec j (n - k)); cbn [andb]; try lia; try reflexivity.
  f_equal. lia.
Qed.
Lemma wshl_out x k : 64 <= k -> wshl 64 x k = 0.
Proof.
  intros H. apply N.bits_inj. intros n. rewrite wshl_testbit, N.bits_0.
  destruct (N.ltb_spec n 64), (N.leb_spec k n); cbn [andb]; try lia; reflexivity.
Qed.

Ltac xor_ring := apply N.bits_inj; intros ?n; rewrite ?N.lxor_spec, ?N.bits_0;
  repeat match goal with |- context [N.testbit ?x ?n] => generalize (N.testbit x n); intro end;
  repeat match goal with b : bool |- _ => destruct b end; reflexivity.

Lemma unshift x : word 64 x ->
  let y := N.lxor x (wshl 64 x 17) in
  N.lxor (N.lxor y (wshl 64 y 17)) (N.lxor (wshl 64 y 34) (wshl 64 y 51)) = x.
Proof.
  intros H. cbv zeta. rewrite !wshl_lxor, !wshl_wshl. change (17 + 17) with 34. change (17 + 34) with 51. change (34 + 17) with 51.
  rewrite ?(wshl_out x (17 + 51)), ?(wshl_out x (51 + 17)) by lia. xor_ring.
Qed.
Lemma reshift x : word 64 x ->
  let y := N.lxor (N.lxor x (wshl 64 x 17)) (N.lxor (wshl 64 x 34) (wshl 64 x 51)) in
  N.lxor y (wshl 64 y 17) = x.
Proof.
  intros H. cbv zeta. rewrite !wshl_lxor, !wshl_wshl. change (17 + 17) with 34. change (17 + 34) with 51. change (34 + 17) with 51.
  rewrite ?(wshl_out x (17 + 51)), ?(wshl_out x (51 + 17)) by lia. xor_ring.
Qed.

(** C26: each step is a bijection of the 256-bit states *)
Theorem xoshiro_previous : forall s, words s -> previous (xoshiro_next s) = s /\ xoshiro_next (previous s) = s.
Proof.
  intros [[[a b] c] d] (A & B & C & D). split.
  - unfold xoshiro_next, previous. rewrite rotr_rotl by (auto using word_lxor; lia).
    replace (N.lxor (N.lxor b (N.lxor c a)) (N.lxor (N.lxor c a) (wshl 64 b 17))) with (N.lxor b (wshl 64 b 17)) by xor_ring.
    rewrite (unshift b B). repeat match goal with |- (_, _) = (_, _) => f_equal end; xor_ring.
  - unfold previous, xoshiro_next. set (d' := rotr 64 d 45). set (x := N.lxor b c).
    set (s1 := N.lxor (N.lxor x (wshl 64 x 17)) (N.lxor (wshl 64 x 34) (wshl 64 x 51))).
    assert (S : N.lxor s1 (wshl 64 s1 17) = x) by (apply reshift; unfold x; auto using word_lxor).
    replace (N.lxor (N.lxor d' s1) s1) with d' by xor_ring.
    replace (rotl 64 d' 45) with d by (symmetry; apply rotl_rotr; [exact D | lia]).
    replace (N.lxor (N.lxor (N.lxor (N.lxor b s1) (N.lxor a d')) (N.lxor a d')) (wshl 64 s1 17)) with (N.lxor b (N.lxor s1 (wshl 64 s1 17))) by xor_ring.
    rewrite S. unfold x. repeat match goal with |- (_, _) = (_, _) => f_equal end; xor_ring.
Qed.

Theorem xoshiro_injective : forall s t, words s -> words t -> xoshiro_next s = xoshiro_next t -> s = t.
Proof.
  intros s t S T E. rewrite <- (proj1 (xoshiro_previous s S)), <- (proj1 (xoshiro_previous t T)). now rewrite E.
Qed.

(** the only state a step keeps is the all-zero one *)
Theorem xoshiro_fixed : forall s, words s -> (xoshiro_next s = s <-> s = (0, 0, 0, 0)).
Proof.
  intros [[[a b] c] d] (A & B & C & D). split; [|now intros ->]. unfold xoshiro_next. intros E. injection E as E0 E1 E2 E3.
  assert (d = b) as -> by (apply N.lxor_eq; rewrite <- (N.lxor_0_r 0), <- (N.lxor_nilpotent a); rewrite <- E0 at 1; xor_ring).
  rewrite N.lxor_nilpotent in E3. change (rotl 64 0 45) with 0 in E3. subst b.
  rewrite N.lxor_0_l in E1. apply N.lxor_eq in E1. subst c. rewrite N.lxor_nilpotent in E2. change (wshl 64 0 17) with 0 in E2. rewrite N.lxor_0_l in E2. now subst a.
Qed.

(** so a generator with a non-zero seed never runs into it *)
Fixpoint steps (n : nat) (s : N * N * N * N) : N * N * N * N :=
  match n with O => s | S n => steps n (xoshiro_next s) end.
Theorem xoshiro_never_zero : forall n s, words s -> s <> (0, 0, 0, 0) -> steps n s <> (0, 0, 0, 0).
Proof.
  induction n as [|n IH]; intros s W NZ; [exact NZ|]. cbn [steps]. apply IH; [now apply words_next|].
  intros E. apply NZ. apply xoshiro_injective; [exact W | repeat split; apply word_0 | exact E].
Qed.

Example xoshiro_ex :
  let s := (0x76e15d3efefdcbbf, 0xc5004e441c522fb3, 0x77710069854ee241, 0x39109bb02acbe635) in
  words s /\ previous (xoshiro_next s) = s /\ xoshiro_next s <> s /\ xoshiro_value s < 2 ^ 53.
Proof. cbv zeta. repeat split; try reflexivity. vm_compute. discriminate. Qed.

Print Assumptions xoshiro_previous.
Print Assumptions xoshiro_injective.
Print Assumptions xoshiro_fixed.
Print Assumptions xoshiro_never_zero.
