(** CRC-64: properties C20 and C21. *)
From Coq Require Import NArith List Lia Bool Arith ZifyBool ZifyNat ZifyN.
From Verif Require Import Base BaseLemmas PackLemmas MdProof Crc64Model Crc64Spec.
Import ListNotations.
Local Open Scope N_scope.

Ltac xor_solve := apply N.bits_inj; intros ?n; rewrite !N.lxor_spec;
  repeat match goal with |- context [N.testbit ?x ?n] => destruct (N.testbit x n) end; reflexivity.

(** ** the shift register *)

Lemma land1 x : negb (N.land x 1 =? 0) = N.testbit x 0.
Proof.
  change 1 with (N.ones 1). rewrite N.land_ones. change (2 ^ 1) with 2.
  rewrite <- N.bit0_mod. now destruct (N.testbit x 0).
Qed.

Definition P64 : N := 0xd800000000000000.

Lemma crc_shift_eq x : crc_shift x = N.lxor (N.shiftr x 1) (if N.testbit x 0 then P64 else 0).
Proof. unfold crc_shift. rewrite land1. destruct (N.testbit x 0); [reflexivity | now rewrite N.lxor_0_r]. Qed.

Lemma crc_shift_lxor x y : crc_shift (N.lxor x y) = N.lxor (crc_shift x) (crc_shift y).
Proof.
  rewrite !crc_shift_eq, N.shiftr_lxor, N.lxor_spec. apply N.bits_inj. intros n.
  rewrite !N.lxor_spec. destruct (N.testbit x 0), (N.testbit y 0); cbn [xorb]; rewrite ?N.bits_0;
    destruct (N.testbit (N.shiftr x 1) n), (N.testbit (N.shiftr y 1) n), (N.testbit P64 n); reflexivity.
Qed.

Lemma iter_shift_lxor k : forall x y,
  iter k crc_shift (N.lxor x y) = N.lxor (iter k crc_shift x) (iter k crc_shift y).
Proof. induction k as [|k IH]; intros x y; cbn [iter]; [reflexivity | rewrite crc_shift_lxor; apply IH]. Qed.

Lemma crc_shift_double v : crc_shift (2 * v) = v.
Proof.
  rewrite crc_shift_eq. replace (N.testbit (2 * v) 0) with false.
  - rewrite N.lxor_0_r, N.shiftr_div_pow2. change (2 ^ 1) with 2. rewrite N.mul_comm, N.div_mul; lia.
  - now rewrite N.testbit_even_0.
Qed.

Lemma iter_shift_pow k : forall v, iter k crc_shift (v * 2 ^ N.of_nat k) = v.
Proof.
  induction k as [|k IH]; intros v; cbn [iter]; [cbn; lia|].
  rewrite Nat2N.inj_succ, N.pow_succ_r'.
  replace (v * (2 * 2 ^ N.of_nat k)) with (2 * (v * 2 ^ N.of_nat k)) by lia.
  rewrite crc_shift_double. apply IH.
Qed.

Lemma word_crc_shift x : word 64 x -> word 64 (crc_shift x).
Proof.
  intros H. rewrite crc_shift_eq. apply word_lxor; [now apply word_shiftr|].
  destruct (N.testbit x 0); [reflexivity | apply word_0].
Qed.

Lemma word_iter_shift k : forall x, word 64 x -> word 64 (iter k crc_shift x).
Proof. induction k as [|k IH]; intros x H; cbn [iter]; [exact H | apply IH, word_crc_shift, H]. Qed.

Lemma crc_shift_0 x : word 64 x -> crc_shift x = 0 -> x = 0.
Proof.
  intros H E. rewrite crc_shift_eq in E.
  assert (B : N.testbit x 0 = false).
  { destruct (N.testbit x 0) eqn:T; [|reflexivity].
    apply (f_equal (fun z => N.testbit z 63)) in E.
    rewrite N.lxor_spec, N.shiftr_spec in E by lia.
    rewrite (testbit_high 64 x (63 + 1) H) in E by lia. vm_compute in E. discriminate. }
  rewrite B, N.lxor_0_r in E. rewrite N.shiftr_div_pow2 in E. change (2 ^ 1) with 2 in E.
  pose proof (N.div_mod x 2 ltac:(discriminate)) as D.
  rewrite E, <- N.bit0_mod, B in D. exact D.
Qed.

Lemma iter_shift_0 k : forall x, word 64 x -> iter k crc_shift x = 0 -> x = 0.
Proof.
  induction k as [|k IH]; intros x H E; cbn [iter] in E; [exact E|].
  apply IH in E; [now apply crc_shift_0 | now apply word_crc_shift].
Qed.

Lemma iter_shift_inj k x y : word 64 x -> word 64 y ->
  iter k crc_shift x = iter k crc_shift y -> x = y.
Proof.
  intros Hx Hy E. apply N.lxor_eq. apply (iter_shift_0 k).
  - now apply word_lxor.
  - rewrite iter_shift_lxor, E. apply N.lxor_nilpotent.
Qed.

(** the bit-serial register *)
Definition crc_bit (s : N) (b : bool) : N := crc_shift (N.lxor s (N.b2n b)).
Definition crc_bits (s : N) (l : list bool) : N := fold_left crc_bit l s.

(** value of a bit string, least significant bit first *)
Fixpoint lval (l : list bool) : N := match l with [] => 0 | b :: t => N.b2n b + 2 * lval t end.

Lemma lval_bound l : lval l < 2 ^ N.of_nat (length l).
Proof.
  induction l as [|b l IH]; [reflexivity|]. cbn [lval length].
  rewrite Nat2N.inj_succ, N.pow_succ_r'. destruct b; cbn [N.b2n]; lia.
Qed.

Lemma lxor_b2n_double b v : N.b2n b + 2 * v = N.lxor (N.b2n b) (2 * v).
Proof.
  rewrite N.add_comm. apply N.bits_inj. intros n. rewrite N.lxor_spec.
  destruct (N.eq_dec n 0) as [->|Hn].
  - rewrite N.testbit_0_r, N.testbit_even_0, N.b2n_bit0. now destruct b.
  - replace n with (N.succ (N.pred n)) by lia.
    rewrite N.testbit_succ_r, N.testbit_even_succ by lia.
    replace (N.testbit (N.b2n b) (N.succ (N.pred n))) with false; [now destruct (N.testbit v _)|].
    destruct b; [|reflexivity]. symmetry. apply (testbit_high 1); [reflexivity | lia].
Qed.

Lemma crc_bits_iter l : forall s,
  crc_bits s l = iter (length l) crc_shift (N.lxor s (lval l)).
Proof.
  induction l as [|b l IH]; intros s; cbn [crc_bits fold_left length iter lval].
  - now rewrite N.lxor_0_r.
  - fold (crc_bits (crc_bit s b) l). rewrite IH. f_equal. unfold crc_bit.
    rewrite lxor_b2n_double, <- N.lxor_assoc, (crc_shift_lxor _ (2 * lval l)), crc_shift_double. reflexivity.
Qed.

Lemma crc_bits_app s l m : crc_bits s (l ++ m) = crc_bits (crc_bits s l) m.
Proof. apply fold_left_app. Qed.

Lemma word_b2n b : word 64 (N.b2n b).
Proof. destruct b; reflexivity. Qed.

Lemma word_crc_bits l : forall s, word 64 s -> word 64 (crc_bits s l).
Proof.
  induction l as [|b l IH]; intros s H; [exact H|]. cbn [crc_bits fold_left]. apply IH.
  apply word_crc_shift, word_lxor; [exact H | apply word_b2n].
Qed.

(** ** the table *)

Definition crc_table : list N := map (fun i => iter 8 crc_shift (N.of_nat i)) (seq 0 256).

Lemma tab_crc_table b : b < 256 -> tab crc_table b = iter 8 crc_shift b.
Proof.
  intros H. unfold tab, crc_table.
  rewrite (nth_indep _ 0 (iter 8 crc_shift (N.of_nat 0))) by (rewrite map_length, seq_length; lia).
  rewrite (map_nth (fun i => iter 8 crc_shift (N.of_nat i))), seq_nth by lia. f_equal. lia.
Qed.

Lemma low_bits_S k x : low_bits (S k) x = N.testbit x 0 :: low_bits k (x / 2).
Proof.
  unfold low_bits. cbn [seq map]. f_equal. rewrite <- seq_shift, map_map. apply map_ext. intros i.
  rewrite Nat2N.inj_succ. symmetry. apply N.div2_bits.
Qed.

Lemma lval_low_bits k : forall x, lval (low_bits k x) = x mod 2 ^ N.of_nat k.
Proof.
  induction k as [|k IH]; intros x; [cbn; now rewrite N.mod_1_r|].
  rewrite low_bits_S. cbn [lval]. rewrite IH, Nat2N.inj_succ, N.pow_succ_r'.
  rewrite N.mod_mul_r by (try lia; apply pow2_nz). now rewrite N.bit0_mod.
Qed.

Lemma low_bits_length k x : length (low_bits k x) = k.
Proof. unfold low_bits. now rewrite map_length, seq_length. Qed.

Lemma crc_byte_bits s b : word 64 s -> b < 256 ->
  crc_byte crc_table s b = crc_bits s (low_bits 8 b).
Proof.
  intros Hs Hb. rewrite crc_bits_iter, low_bits_length, lval_low_bits.
  change (2 ^ N.of_nat 8) with 256. rewrite (N.mod_small b) by exact Hb.
  unfold crc_byte. rewrite land_255, tab_crc_table by (apply N.mod_lt; lia).
  set (x := N.lxor s b).
  assert (E : N.shiftr s 8 = x / 256).
  { unfold x. change 256 with (2 ^ 8). rewrite <- N.shiftr_div_pow2, N.shiftr_lxor.
    rewrite (N.shiftr_div_pow2 b), (N.div_small b) by exact Hb. now rewrite N.lxor_0_r. }
  rewrite E.
  assert (D : x = N.lxor (x / 256 * 2 ^ N.of_nat 8) (x mod 256)).
  { rewrite (N.div_mod x 256) at 1 by lia.
    change (2 ^ N.of_nat 8) with (2 ^ 8).
    rewrite <- N.shiftl_mul_pow2.
    rewrite N.lxor_comm. rewrite N.lxor_lor.
    - rewrite lor_add_disjoint; [change (2 ^ 8) with 256; lia | apply word8, N.mod_lt; lia].
    - apply N.bits_inj_0. intros n. rewrite N.land_spec.
      destruct (N.lt_ge_cases n 8) as [L|L].
      + rewrite N.shiftl_spec_low by exact L. apply andb_false_r.
      + rewrite (testbit_high 8); [reflexivity | apply word8, N.mod_lt; lia | exact L]. }
  rewrite D at 3. rewrite iter_shift_lxor, iter_shift_pow. reflexivity.
Qed.

Lemma fold_crc_byte m : forall s, word 64 s -> bytes m ->
  fold_left (crc_byte crc_table) m s = crc_bits s (message_bits m).
Proof.
  induction m as [|b m IH]; intros s Hs Hm; [reflexivity|]. inversion_clear Hm.
  cbn [fold_left message_bits flat_map]. fold (message_bits m). rewrite crc_bits_app.
  rewrite crc_byte_bits by assumption. apply IH; [now apply word_crc_bits | assumption].
Qed.

(** ** polynomial remainder *)

Lemma poly_fold l : forall a, fold_left (fun a b => 2 * a + N.b2n b) l a = a * 2 ^ N.of_nat (length l) + poly l.
Proof.
  unfold poly. induction l as [|b l IH]; intros a; cbn [fold_left length]; [cbn; lia|].
  rewrite (IH (2 * a + N.b2n b)), (IH (2 * 0 + N.b2n b)).
  rewrite Nat2N.inj_succ, N.pow_succ_r'. destruct b; cbn [N.b2n]; nia.
Qed.

Lemma poly_snoc l b : poly (l ++ [b]) = 2 * poly l + N.b2n b.
Proof. unfold poly. now rewrite fold_left_app. Qed.

Lemma poly_cons b l : poly (b :: l) = N.b2n b * 2 ^ N.of_nat (length l) + poly l.
Proof. unfold poly at 1. cbn [fold_left]. rewrite poly_fold. reflexivity. Qed.

Lemma poly_bound l : poly l < 2 ^ N.of_nat (length l).
Proof.
  induction l as [|b l IH]; [reflexivity|]. rewrite poly_cons. cbn [length].
  rewrite Nat2N.inj_succ, N.pow_succ_r'. destruct b; cbn [N.b2n]; lia.
Qed.

Lemma low_bits_snoc k x : low_bits (S k) x = low_bits k x ++ [N.testbit x (N.of_nat k)].
Proof. unfold low_bits. rewrite seq_S, map_app. reflexivity. Qed.

Lemma low_bits_lxor k x y : low_bits k (N.lxor x y) = map2 xorb (low_bits k x) (low_bits k y).
Proof.
  unfold low_bits. induction (seq 0 k) as [|i l IH]; [reflexivity|].
  cbn [map map2]. rewrite N.lxor_spec. now f_equal.
Qed.

Lemma poly_map2_xorb l : forall m, length l = length m ->
  poly (map2 xorb l m) = N.lxor (poly l) (poly m).
Proof.
  induction l as [|a l IH]; intros [|b m] H; try discriminate; [reflexivity|].
  cbn [map2]. rewrite !poly_cons. rewrite map2_length. injection H as H. rewrite IH by exact H.
  rewrite <- H. rewrite Nat.min_id.
  assert (A : forall c p, p < 2 ^ N.of_nat (length l) ->
            N.b2n c * 2 ^ N.of_nat (length l) + p = N.lxor (N.shiftl (N.b2n c) (N.of_nat (length l))) p).
  { intros c p Hp. rewrite N.lxor_comm, N.lxor_lor.
    - rewrite lor_add_disjoint by exact Hp. lia.
    - apply N.bits_inj_0. intros n. rewrite N.land_spec.
      destruct (N.lt_ge_cases n (N.of_nat (length l))) as [L|L].
      + rewrite N.shiftl_spec_low by exact L. apply andb_false_r.
      + rewrite (testbit_high (N.of_nat (length l)) p); [reflexivity | exact Hp | exact L]. }
  pose proof (poly_bound l). pose proof (poly_bound m) as Bm. rewrite <- H in Bm.
  rewrite !A; try assumption.
  2:{ change (word (N.of_nat (length l)) (N.lxor (poly l) (poly m))). now apply word_lxor. }
  replace (N.b2n (xorb a b)) with (N.lxor (N.b2n a) (N.b2n b)) by (now destruct a, b).
  rewrite N.shiftl_lxor. rewrite !N.lxor_assoc. f_equal.
  rewrite <- !N.lxor_assoc. f_equal. apply N.lxor_comm.
Qed.

Lemma pmul_double a b : pmul (2 * a) b = 2 * pmul a b.
Proof. now destruct a. Qed.

Lemma pmul_succ_double a b : pmul (2 * a + 1) b = N.lxor b (2 * pmul a b).
Proof. destruct a; [cbn; now rewrite N.lxor_0_r | reflexivity]. Qed.

Lemma double_lxor x y : 2 * N.lxor x y = N.lxor (2 * x) (2 * y).
Proof.
  rewrite !(N.mul_comm 2). change 2 with (2 ^ 1). rewrite <- !N.shiftl_mul_pow2. apply N.shiftl_lxor.
Qed.

(** the register shifted by a zero bit: 2 R(s), or 2 R(s) + G when the high
    coefficient was one *)
Lemma poly_shift s : word 64 s ->
  poly (low_bits 64 (crc_shift s)) =
  N.lxor (2 * poly (low_bits 64 s)) (if N.testbit s 0 then G64 else 0).
Proof.
  intros Hs. rewrite crc_shift_eq, low_bits_lxor, poly_map2_xorb by (now rewrite !low_bits_length).
  assert (A : poly (low_bits 64 (N.shiftr s 1)) + N.b2n (N.testbit s 0) * 2 ^ 64 = 2 * poly (low_bits 64 s)).
  { rewrite (low_bits_S 63 s), (low_bits_snoc 63 (N.shiftr s 1)).
    rewrite poly_snoc, poly_cons, low_bits_length.
    rewrite N.shiftr_spec by lia. rewrite (testbit_high 64 s) by (try assumption; cbn; lia).
    rewrite N.shiftr_div_pow2. change (2 ^ 1) with 2. change (2 ^ N.of_nat 63) with (2 ^ 63).
    change (2 ^ 64) with (2 * 2 ^ 63). cbn [N.b2n]. lia. }
  destruct (N.testbit s 0).
  - replace (poly (low_bits 64 P64)) with (N.lxor (2 ^ 64) G64) by (vm_compute; reflexivity).
    rewrite <- A. rewrite <- N.lxor_assoc. f_equal.
    pose proof (poly_bound (low_bits 64 (N.shiftr s 1))) as B. rewrite low_bits_length in B.
    change (N.of_nat 64) with 64 in B. revert B. generalize (poly (low_bits 64 (N.shiftr s 1))).
    intros p B. cbn [N.b2n]. change (1 * 2 ^ 64) with (2 ^ 64 * 1).
    rewrite <- (lor_add_disjoint p 1 64) by exact B. change (N.shiftl 1 64) with (2 ^ 64).
    rewrite N.lxor_lor; [reflexivity|].
    apply N.bits_inj_0. intros n. rewrite N.land_spec.
    destruct (N.lt_ge_cases n 64) as [L|L].
    + rewrite N.pow2_bits_false by lia. apply andb_false_r.
    + rewrite (testbit_high 64 p); [reflexivity | exact B | exact L].
  - replace (poly (low_bits 64 0)) with 0 by (vm_compute; reflexivity).
    rewrite !N.lxor_0_r. cbn [N.b2n] in A. lia.
Qed.

Lemma poly_b2n b : poly (low_bits 64 (N.b2n b)) = N.b2n b * 2 ^ 63.
Proof. destruct b; vm_compute; reflexivity. Qed.

Lemma crc_bits_remainder l :
  exists q, poly l * 2 ^ 64 = N.lxor (pmul q G64) (poly (low_bits 64 (crc_bits 0 l))).
Proof.
  induction l as [|b l [q IH]] using rev_ind; [exists 0; vm_compute; reflexivity|].
  rewrite crc_bits_app. cbn [crc_bits fold_left]. fold (crc_bits 0 l).
  set (s := crc_bits 0 l) in *. assert (Hs : word 64 s) by (apply word_crc_bits, word_0).
  clearbody s. unfold crc_bit.
  assert (Hx : word 64 (N.lxor s (N.b2n b))) by (apply word_lxor; [exact Hs | apply word_b2n]).
  rewrite poly_shift by exact Hx.
  rewrite low_bits_lxor, poly_map2_xorb by (now rewrite !low_bits_length).
  rewrite poly_b2n, poly_snoc.
  assert (E : (2 * poly l + N.b2n b) * 2 ^ 64
              = N.lxor (2 * (poly l * 2 ^ 64)) (2 * (N.b2n b * 2 ^ 63))).
  { replace (2 * (N.b2n b * 2 ^ 63)) with (N.b2n b * 2 ^ 64) by (now destruct b).
    rewrite (N.add_comm (2 * _)), lxor_b2n_double, N.lxor_comm.
    rewrite !N.mul_assoc, <- !N.shiftl_mul_pow2. apply N.shiftl_lxor. }
  rewrite E, IH. destruct (N.testbit (N.lxor s (N.b2n b)) 0).
  - exists (2 * q + 1). rewrite pmul_succ_double, !double_lxor.
    xor_solve.
  - exists (2 * q). rewrite pmul_double, !double_lxor, N.lxor_0_r, N.lxor_assoc. reflexivity.
Qed.

(** ** the remainder is unique, so [is_crc64] determines the checksum *)

Lemma pmul_pos_log2 p : forall b, 0 < b -> pmul_pos p b <> 0 /\
  N.log2 (pmul_pos p b) = N.log2 (Npos p) + N.log2 b.
Proof.
  induction p as [p IH|p IH|]; intros b Hb; cbn [pmul_pos].
  - destruct (IH b Hb) as [N1 L1].
    assert (L2 : N.log2 (2 * pmul_pos p b) = N.succ (N.log2 (pmul_pos p b))) by (apply N.log2_double; lia).
    assert (L3 : N.log2 (N.lxor b (2 * pmul_pos p b)) = N.log2 (2 * pmul_pos p b)).
    { apply N.log2_bits_unique.
      - rewrite N.lxor_spec, N.bit_log2 by lia. rewrite N.bits_above_log2 by lia. reflexivity.
      - intros m Hm. rewrite N.lxor_spec, !N.bits_above_log2 by lia. reflexivity. }
    split.
    + intros Z. rewrite Z in L3. change (N.log2 0) with 0 in L3. lia.
    + rewrite L3, L2, L1. change (N.pos p~1) with (2 * N.pos p + 1).
      rewrite N.log2_succ_double by lia. lia.
  - destruct (IH b Hb) as [N1 L1]. split; [lia|].
    rewrite N.log2_double by lia. rewrite L1. change (N.pos p~0) with (2 * N.pos p).
    rewrite N.log2_double by lia. lia.
  - split; [lia|]. cbn. reflexivity.
Qed.

Lemma pmul_lxor_l b : forall x y, pmul (N.lxor x y) b = N.lxor (pmul x b) (pmul y b).
Proof.
  assert (H : forall k x y, x < 2 ^ N.of_nat k -> y < 2 ^ N.of_nat k ->
            pmul (N.lxor x y) b = N.lxor (pmul x b) (pmul y b)).
  { induction k as [|k IH]; intros x y Hx Hy.
    - change (2 ^ N.of_nat 0) with 1 in *. replace x with 0 by lia. replace y with 0 by lia. reflexivity.
    - rewrite Nat2N.inj_succ, N.pow_succ_r' in Hx, Hy.
      assert (D : forall z, z = 2 * (z / 2) + N.b2n (N.testbit z 0)).
      { intros z. rewrite N.bit0_mod. apply N.div_mod. lia. }
      assert (Q : forall z, z < 2 * 2 ^ N.of_nat k -> z / 2 < 2 ^ N.of_nat k)
        by (intros z Hz; apply N.div_lt_upper_bound; lia).
      assert (S : forall z c, pmul (2 * z + N.b2n c) b = N.lxor (if c then b else 0) (2 * pmul z b)).
      { intros z c. destruct c; cbn [N.b2n]; [apply pmul_succ_double|].
        rewrite N.add_0_r, pmul_double, N.lxor_0_l. reflexivity. }
      assert (E : N.lxor x y = 2 * N.lxor (x / 2) (y / 2) + N.b2n (xorb (N.testbit x 0) (N.testbit y 0))).
      { rewrite (D (N.lxor x y)), N.lxor_spec. do 2 f_equal.
        rewrite <- !N.div2_div. now rewrite !N.div2_spec, N.shiftr_lxor. }
      rewrite E, S. rewrite IH by (now apply Q). rewrite (D x) at 3. rewrite (D y) at 3. rewrite !S.
      rewrite double_lxor.
      destruct (N.testbit x 0), (N.testbit y 0); cbn [xorb]; rewrite ?N.lxor_0_l.
      + rewrite (N.lxor_comm b (2 * pmul (x / 2) b)), N.lxor_assoc, <- (N.lxor_assoc b b), N.lxor_nilpotent, N.lxor_0_l. reflexivity.
      + now rewrite N.lxor_assoc.
      + rewrite <- !N.lxor_assoc. f_equal. apply N.lxor_comm.
      + reflexivity. }
  intros x y. destruct (N.eq_dec (N.max x y) 0) as [Z|NZ].
  - apply (H 0%nat); cbn; lia.
  - apply (H (N.to_nat (N.succ (N.log2 (N.max x y))))); rewrite N2Nat.id;
      pose proof (N.log2_spec (N.max x y) ltac:(lia)); lia.
Qed.

Lemma remainder_unique m g r r' : 0 < g -> is_remainder m g r -> is_remainder m g r' -> r = r'.
Proof.
  intros Hg (B & q & E) (B' & q' & E').
  assert (X : pmul (N.lxor q q') g = N.lxor r r').
  { rewrite pmul_lxor_l. rewrite E in E'.
    apply (f_equal (fun z => N.lxor (N.lxor z (pmul q' g)) r)) in E'.
    rewrite <- (N.lxor_assoc (N.lxor (pmul q g) r) (pmul q' g) r) in E' || idtac.
    apply N.bits_inj. intros n. apply (f_equal (fun z => N.testbit z n)) in E'.
    rewrite !N.lxor_spec in *.
    destruct (N.testbit (pmul q g) n), (N.testbit (pmul q' g) n), (N.testbit r n), (N.testbit r' n); 
      cbn in *; congruence. }
  assert (W : N.lxor r r' < 2 ^ N.log2 g) by (apply (word_lxor (N.log2 g)); assumption).
  rewrite <- X in W. destruct (N.lxor q q') as [|p] eqn:Eq.
  - cbn in X. symmetry in X. now apply N.lxor_eq in X.
  - cbn [pmul] in W. destruct (pmul_pos_log2 p g Hg) as [NZ L].
    assert (C : 2 ^ N.log2 g <= pmul_pos p g); [|lia].
    apply N.le_trans with (2 ^ N.log2 (pmul_pos p g)).
    + apply N.pow_le_mono_r; lia.
    + apply N.log2_spec. lia.
Qed.

Lemma poly_inj l : forall m, length l = length m -> poly l = poly m -> l = m.
Proof.
  induction l as [|a l IH]; intros [|b m] H E; try discriminate; [reflexivity|].
  injection H as H. rewrite !poly_cons, <- H in E.
  pose proof (poly_bound l). pose proof (poly_bound m) as Bm. rewrite <- H in Bm.
  destruct a, b; cbn [N.b2n] in E; try lia; f_equal; apply IH; (exact H || lia).
Qed.

Theorem crc64_unique m c c' : is_crc64 m c -> is_crc64 m c' -> c = c'.
Proof.
  intros [B R] [B' R'].
  assert (E : poly (low_bits 64 c) = poly (low_bits 64 c')) by (eapply remainder_unique; [|exact R|exact R']; reflexivity).
  apply poly_inj in E; [|now rewrite !low_bits_length].
  apply (f_equal lval) in E. rewrite !lval_low_bits in E.
  change (N.of_nat 64) with 64 in E. rewrite !N.mod_small in E by assumption. exact E.
Qed.

(** ** runs of the code *)

Definition UpdateCRC64All (st : CRC64Info) (ms : list (list N)) : CRC64Info := fold_left UpdateCRC64 ms st.

Lemma UpdateCRC64All_eq ms : forall st, crc_xor (UpdateCRC64All st ms) = crc_xor st /\
  crc (UpdateCRC64All st ms) = fold_left (crc_byte (crc_xor st)) (concat ms) (crc st).
Proof.
  induction ms as [|m ms IH]; intros st; cbn [UpdateCRC64All fold_left concat]; [auto|].
  fold (UpdateCRC64All (UpdateCRC64 st m) ms). destruct (IH (UpdateCRC64 st m)) as [E1 E2].
  rewrite fold_left_app, E1, E2. auto.
Qed.

Lemma crc_run st ms : Forall bytes ms ->
  crc (UpdateCRC64All (InitializeCRC64 st) ms) = crc_bits 0 (message_bits (concat ms)).
Proof.
  intros H. destruct (UpdateCRC64All_eq ms (InitializeCRC64 st)) as [_ ->].
  cbn [InitializeCRC64 crc crc_xor]. fold crc_table. apply fold_crc_byte; [apply word_0 | now apply bytes_concat].
Qed.

Lemma FinalizeCRC64_be st : FinalizeCRC64 st = be_bytes 8 (crc st).
Proof.
  unfold FinalizeCRC64, be_bytes, wrap. rewrite !N.shiftr_div_pow2.
  cbn [le_bytes rev app]. change (2 ^ 8) with 256. rewrite !N.div_div by lia.
  change (2 ^ 0) with 1. rewrite N.div_1_r. reflexivity.
Qed.

(** C20: the digest is the big-endian CRC of the concatenated message *)
Theorem CRC64_stream st ms c : Forall bytes ms ->
  is_crc64 (concat ms) c <->
  c < 2 ^ 64 /\ FinalizeCRC64 (UpdateCRC64All (InitializeCRC64 st) ms) = be_bytes 8 c.
Proof.
  intros H. rewrite FinalizeCRC64_be, crc_run by exact H.
  set (s := crc_bits 0 (message_bits (concat ms))).
  assert (Hs : word 64 s) by apply word_crc_bits, word_0.
  assert (R : is_crc64 (concat ms) s).
  { split; [exact Hs|]. split; [|apply crc_bits_remainder].
    pose proof (poly_bound (low_bits 64 s)) as B. rewrite low_bits_length in B. exact B. }
  split.
  - intros C. split; [apply C|]. now rewrite (crc64_unique _ _ _ C R).
  - intros [B E]. apply (f_equal be_val) in E. rewrite !be_val_be_bytes in E.
    change (256 ^ N.of_nat 8) with (2 ^ 64) in E. rewrite !N.mod_small in E by assumption. now subst c.
Qed.

Theorem GetStringInfoCRC_is_crc64 junk m : bytes m -> is_crc64 m (GetStringInfoCRC junk m).
Proof.
  intros H. pose proof (crc_run (mkCRC64Info 0 junk) [m] (Forall_cons _ H (Forall_nil _))) as E.
  cbn [UpdateCRC64All fold_left concat] in E. rewrite app_nil_r in E. unfold GetStringInfoCRC. rewrite E.
  split; [apply word_crc_bits, word_0|]. split; [|apply crc_bits_remainder].
  match goal with |- poly (low_bits 64 ?s) < _ => pose proof (poly_bound (low_bits 64 s)) as B end.
  rewrite low_bits_length in B. exact B.
Qed.

(** ** bursts *)

Lemma lval_inj l : forall m, length l = length m -> lval l = lval m -> l = m.
Proof.
  induction l as [|a l IH]; intros [|b m] H E; try discriminate; [reflexivity|].
  injection H as H. cbn [lval] in E.
  assert (D : a = b /\ lval l = lval m) by (destruct a, b; cbn [N.b2n] in E; split; (reflexivity || lia)).
  destruct D as [-> D]. f_equal. now apply IH.
Qed.

Lemma crc_bits_inj_state l s s' : word 64 s -> word 64 s' -> crc_bits s l = crc_bits s' l -> s = s'.
Proof.
  revert s s'. induction l as [|b l IH]; intros s s' H H' E; [exact E|].
  cbn [crc_bits fold_left] in E. apply IH in E;
    [|apply word_crc_shift, word_lxor; [assumption | apply word_b2n]..].
  unfold crc_bit in E. apply (iter_shift_inj 1) in E;
    [|apply word_lxor; [assumption | apply word_b2n]..].
  apply (f_equal (fun z => N.lxor z (N.b2n b))) in E.
  now rewrite !N.lxor_assoc, N.lxor_nilpotent, !N.lxor_0_r in E.
Qed.

(** C21: messages whose bit strings differ only within 64 consecutive bits *)
Theorem CRC64_burst st1 st2 m1 m2 A X Y B :
  bytes m1 -> bytes m2 ->
  message_bits m1 = A ++ X ++ B -> message_bits m2 = A ++ Y ++ B ->
  length X = length Y -> (length X <= 64)%nat -> m1 <> m2 ->
  FinalizeCRC64 (UpdateCRC64 (InitializeCRC64 st1) m1) <> FinalizeCRC64 (UpdateCRC64 (InitializeCRC64 st2) m2).
Proof.
  intros H1 H2 E1 E2 HL H64 Hne E. apply Hne. clear Hne.
  pose proof (crc_run st1 [m1] (Forall_cons _ H1 (Forall_nil _))) as R1.
  pose proof (crc_run st2 [m2] (Forall_cons _ H2 (Forall_nil _))) as R2.
  cbn [UpdateCRC64All fold_left concat] in R1, R2. rewrite app_nil_r in R1, R2.
  rewrite !FinalizeCRC64_be, R1, R2 in E. apply (f_equal be_val) in E. rewrite !be_val_be_bytes in E.
  change (256 ^ N.of_nat 8) with (2 ^ 64) in E.
  rewrite !N.mod_small in E by (apply (word_crc_bits _ 0), word_0).
  assert (W : word 64 (crc_bits 0 A)) by apply word_crc_bits, word_0.
  rewrite E1, E2, !crc_bits_app in E.
  apply crc_bits_inj_state in E; [|now apply word_crc_bits..].
  rewrite (crc_bits_iter X), (crc_bits_iter Y), <- HL in E.
  assert (WX : forall Z, length Z = length X -> word 64 (N.lxor (crc_bits 0 A) (lval Z))).
  { intros Z HZ. apply word_lxor; [exact W|].
    apply N.lt_le_trans with (2 ^ N.of_nat (length Z)); [apply lval_bound | apply N.pow_le_mono_r; lia]. }
  apply iter_shift_inj in E; [|now apply WX..].
  apply (f_equal (fun z => N.lxor (crc_bits 0 A) z)) in E.
  rewrite <- !N.lxor_assoc, N.lxor_nilpotent, !N.lxor_0_l in E.
  apply lval_inj in E; [|exact HL]. subst Y. rewrite <- E2 in E1. clear - E1 H1 H2.
  revert m2 H2 E1. induction H1 as [|a m1 Ha H1 IH]; intros m2 H2 E.
  - destruct H2; [reflexivity | discriminate].
  - destruct H2 as [|b m2 Hb H2]; [discriminate|].
    change (low_bits 8 a ++ message_bits m1 = low_bits 8 b ++ message_bits m2) in E.
    assert (C : low_bits 8 a = low_bits 8 b /\ message_bits m1 = message_bits m2).
    { split; [apply (f_equal (firstn 8)) in E | apply (f_equal (skipn 8)) in E]; exact E. }
    destruct C as [C1 C2]. apply (f_equal lval) in C1. rewrite !lval_low_bits in C1.
    change (2 ^ N.of_nat 8) with 256 in C1. rewrite !N.mod_small in C1 by assumption.
    f_equal; [exact C1 | now apply IH].
Qed.

(** the byte form: a window of 8 bytes *)
Theorem CRC64_burst_bytes st1 st2 a x y b : bytes (a ++ x ++ b) -> bytes y ->
  length x = length y -> (length x <= 8)%nat -> x <> y ->
  FinalizeCRC64 (UpdateCRC64 (InitializeCRC64 st1) (a ++ x ++ b)) <>
  FinalizeCRC64 (UpdateCRC64 (InitializeCRC64 st2) (a ++ y ++ b)).
Proof.
  intros H1 Hy HL H8 Hne.
  assert (LB : forall z, length (message_bits z) = (8 * length z)%nat).
  { induction z as [|c z IH]; [reflexivity|]. cbn [message_bits flat_map length].
    rewrite app_length, low_bits_length. fold (message_bits z). lia. }
  apply bytes_app in H1 as [Ba H1]. apply bytes_app in H1 as [Bx Bb].
  apply (CRC64_burst st1 st2 _ _ (message_bits a) (message_bits x) (message_bits y) (message_bits b)).
  - apply bytes_app; split; [assumption | apply bytes_app; now split].
  - apply bytes_app; split; [assumption | apply bytes_app; now split].
  - unfold message_bits. now rewrite !flat_map_app.
  - unfold message_bits. now rewrite !flat_map_app.
  - rewrite !LB. lia.
  - rewrite LB. lia.
  - intros E. apply Hne. apply app_inv_head in E. now apply app_inv_tail in E.
Qed.

(** the window cannot be larger: adding the generator itself goes unnoticed *)
Theorem CRC64_burst_sharp :
  let z := InitializeCRC64 (mkCRC64Info 0 []) in
  FinalizeCRC64 (UpdateCRC64 z [0; 0; 0; 0; 0; 0; 0; 0; 0]) =
  FinalizeCRC64 (UpdateCRC64 z [1; 0; 0; 0; 0; 0; 0; 0xb0; 1]).
Proof. vm_compute. reflexivity. Qed.

(** the test value of ISO 3309 CRC-64: "IHATEMATH" *)
Example crc64_case :
  FinalizeCRC64 (UpdateCRC64All (InitializeCRC64 (mkCRC64Info 7 [1; 2]))
    [[0x49; 0x48; 0x41]; []; [0x54; 0x45; 0x4d; 0x41; 0x54; 0x48]]) =
  be_bytes 8 0xe3dcadd69b01add1.
Proof. vm_compute. reflexivity. Qed.

Example crc64_burst_case :
  FinalizeCRC64 (UpdateCRC64 (InitializeCRC64 (mkCRC64Info 0 [])) ([1; 2] ++ [3; 4] ++ [5])) <>
  FinalizeCRC64 (UpdateCRC64 (InitializeCRC64 (mkCRC64Info 0 [])) ([1; 2] ++ [4; 4] ++ [5])).
Proof.
  apply CRC64_burst_bytes; [|repeat constructor|reflexivity|cbn; lia|discriminate].
  repeat constructor.
Qed.

Print Assumptions CRC64_stream.
Print Assumptions crc64_unique.
Print Assumptions GetStringInfoCRC_is_crc64.
Print Assumptions CRC64_burst.
Print Assumptions CRC64_burst_bytes.
