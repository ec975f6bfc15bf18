(** Packed little-endian words: bitwise operators act byte by byte. *)
From Coq Require Import Arith NArith List Lia Bool ZArith.
From Coq Require Import ZifyBool ZifyNat ZifyN.
From Verif Require Import Base BaseLemmas.
Import ListNotations.
Local Open Scope N_scope.
Ltac Zify.zify_post_hook ::= Z.div_mod_to_equations.

Lemma testbit_cons a x n : a < 256 ->
  N.testbit (a + 256 * x) n = if n <? 8 then N.testbit a n else N.testbit x (n - 8).
Proof.
  intros Ha. change 256 with (2 ^ 8). rewrite <- lor_add_disjoint by exact Ha.
  rewrite N.lor_spec. destruct (N.ltb_spec n 8).
  - rewrite N.shiftl_spec_low by assumption. apply orb_false_r.
  - rewrite N.shiftl_spec_high' by assumption.
    rewrite (testbit_high 8 a) by (auto). reflexivity.
Qed.

Section BitOp.
  Variable op : N -> N -> N.
  Variable bop : bool -> bool -> bool.
  Hypothesis op_spec : forall x y n, N.testbit (op x y) n = bop (N.testbit x n) (N.testbit y n).
  Hypothesis op_byte : forall x y, x < 256 -> y < 256 -> op x y < 256.
  Hypothesis op_0 : op 0 0 = 0.

  Lemma op_cons a b x y : a < 256 -> b < 256 ->
    op (a + 256 * x) (b + 256 * y) = op a b + 256 * op x y.
  Proof.
    intros. apply N.bits_inj. intros n. rewrite op_spec, !testbit_cons by auto.
    destruct (n <? 8); now rewrite op_spec.
  Qed.

  Lemma op_le_val l m : bytes l -> bytes m -> length l = length m ->
    op (le_val l) (le_val m) = le_val (map2 op l m).
  Proof.
    intros Hl. revert m. induction Hl; destruct m; cbn [length]; intros Hm E; try discriminate.
    - apply op_0.
    - inversion Hm; subst. cbn [le_val map2]. rewrite op_cons, IHHl by auto. reflexivity.
  Qed.
End BitOp.

Lemma lxor_le_val l m : bytes l -> bytes m -> length l = length m ->
  N.lxor (le_val l) (le_val m) = le_val (xor_list l m).
Proof.
  apply (op_le_val N.lxor xorb N.lxor_spec); [|reflexivity].
  intros. apply word8, word_lxor; now apply word8.
Qed.

Lemma lor_le_val l m : bytes l -> bytes m -> length l = length m ->
  N.lor (le_val l) (le_val m) = le_val (map2 N.lor l m).
Proof.
  apply (op_le_val N.lor orb N.lor_spec); [|reflexivity].
  intros. apply word8, word_lor; now apply word8.
Qed.

Lemma land_le_val l m : bytes l -> bytes m -> length l = length m ->
  N.land (le_val l) (le_val m) = le_val (map2 N.land l m).
Proof.
  apply (op_le_val N.land andb N.land_spec); [|reflexivity].
  intros. apply word8, word_land_l; now apply word8.
Qed.

Lemma land_255 x : N.land x 0xff = x mod 256.
Proof. change 0xff with (N.ones 8). now rewrite N.land_ones. Qed.

Lemma land_byte_255 x : x < 256 -> N.land x 0xff = x.
Proof. intros. rewrite land_255. now apply N.mod_small. Qed.

Lemma shiftr_8j x j : N.shiftr x (8 * j) = x / 256 ^ j.
Proof. rewrite N.shiftr_div_pow2, N.pow_mul_r. reflexivity. Qed.

Lemma byte_le_val l j : bytes l ->
  N.land (N.shiftr (le_val l) (8 * N.of_nat j)) 0xff = get l j.
Proof.
  intros Hl. rewrite land_255, shiftr_8j. unfold get. revert j.
  induction Hl; intros j.
  - cbn [le_val]. rewrite N.div_0_l by (apply N.pow_nonzero; lia). destruct j; reflexivity.
  - cbn [le_val]. destruct j; cbn [nth].
    + cbn [N.of_nat N.pow]. rewrite N.div_1_r, N.mul_comm, N.mod_add by lia. now apply N.mod_small.
    + rewrite pow256_succ. rewrite <- N.div_div by (try apply N.pow_nonzero; lia).
      replace ((x + 256 * le_val l) / 256) with (le_val l) by lia. apply IHHl.
Qed.

Ltac bytes_tac := unfold bytes; repeat (apply Forall_cons || apply Forall_nil); try assumption; try lia.

(** the four-byte case, in arithmetic form *)
Lemma le_val4 a b c d : le_val [a; b; c; d] = a + 256 * b + 65536 * c + 16777216 * d.
Proof. cbn [le_val]. lia. Qed.

Lemma load4 a b c d : a < 256 -> b < 256 -> c < 256 -> d < 256 ->
  N.lor (N.lor (N.lor a (N.shiftl b 8)) (N.shiftl c 16)) (N.shiftl d 24) = le_val [a; b; c; d].
Proof.
  intros. rewrite (lor_add_disjoint a b 8) by exact H.
  change (2 ^ 8) with 256.
  rewrite (lor_add_disjoint (a + 256 * b) c 16) by (unfold word; change (2 ^ 16) with 65536; lia).
  change (2 ^ 16) with 65536.
  rewrite (lor_add_disjoint (a + 256 * b + 65536 * c) d 24)
    by (unfold word; change (2 ^ 24) with 16777216; lia).
  change (2 ^ 24) with 16777216. rewrite le_val4. lia.
Qed.

Lemma le_val4_word a b c d : a < 256 -> b < 256 -> c < 256 -> d < 256 ->
  word 32 (le_val [a; b; c; d]).
Proof. intros. rewrite le_val4. unfold word. change (2 ^ 32) with 4294967296. lia. Qed.

Lemma le_val_list_word l : bytes l -> length l = 4%nat -> word 32 (le_val l).
Proof. intros H E. pose proof (le_val_bound l H) as B. rewrite E in B. exact B. Qed.

Lemma word_le_bytes4 x : word 32 x -> le_val (le_bytes 4 x) = x.
Proof. intros. rewrite le_val_le_bytes. now apply N.mod_small. Qed.
