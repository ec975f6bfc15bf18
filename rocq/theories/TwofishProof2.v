(** wizard/twofish.c computes Twofish for 128-, 192- and 256-bit keys. *)
From Coq Require Import Arith NArith List Lia.
From Verif Require Import Base BaseLemmas PackLemmas Mem32 TwofishModel TwofishSpec TwofishProof.
Import ListNotations.
Local Open Scope N_scope.

(** ** Tables *)
Lemma q0_perm x : x < 256 -> tab q0 x = perm0 x /\ perm0 x < 256.
Proof.
  intros H.
  assert (forallb (fun x => (tab q0 x =? perm0 x) && (perm0 x <? 256))%bool (map N.of_nat (seq 0 256)) = true) as E
    by (vm_compute; reflexivity).
  rewrite forallb_forall in E. specialize (E x).
  rewrite Bool.andb_true_iff, N.eqb_eq, N.ltb_lt in E. apply E.
  apply in_map_iff. exists (N.to_nat x). split; [lia|]. apply in_seq. lia.
Qed.
Lemma q1_perm x : x < 256 -> tab q1 x = perm1 x /\ perm1 x < 256.
Proof.
  intros H.
  assert (forallb (fun x => (tab q1 x =? perm1 x) && (perm1 x <? 256))%bool (map N.of_nat (seq 0 256)) = true) as E
    by (vm_compute; reflexivity).
  rewrite forallb_forall in E. specialize (E x).
  rewrite Bool.andb_true_iff, N.eqb_eq, N.ltb_lt in E. apply E.
  apply in_map_iff. exists (N.to_nat x). split; [lia|]. apply in_seq. lia.
Qed.
Lemma sbox_table_perm x : x < 256 ->
  tab sbox_table (2 * x) = perm0 x /\ tab sbox_table (2 * x + 1) = perm1 x.
Proof.
  intros H.
  assert (forallb (fun x => (tab sbox_table (2 * x) =? tab q0 x) && (tab sbox_table (2 * x + 1) =? tab q1 x))%bool (map N.of_nat (seq 0 256)) = true) as E
    by (vm_compute; reflexivity).
  rewrite forallb_forall in E. specialize (E x).
  rewrite Bool.andb_true_iff, !N.eqb_eq in E.
  destruct E as [E1 E2]. { apply in_map_iff. exists (N.to_nat x). split; [lia|]. apply in_seq. lia. }
  rewrite E1, E2. split; [now apply q0_perm|now apply q1_perm].
Qed.

Definition column (j : nat) (y : N) : list N := map (fun row => gmul 0x169 (nth j row 0) y) MDS.
Lemma mds_column x : x < 256 ->
  tab mds0 x = le_val (column 0 (perm1 x)) /\ tab mds1 x = le_val (column 1 (perm0 x)) /\
  tab mds2 x = le_val (column 2 (perm1 x)) /\ tab mds3 x = le_val (column 3 (perm0 x)).
Proof.
  intros H.
  assert (forallb (fun x => ((tab mds0 x =? le_val (column 0 (tab q1 x))) && (tab mds1 x =? le_val (column 1 (tab q0 x)))
     && (tab mds2 x =? le_val (column 2 (tab q1 x))) && (tab mds3 x =? le_val (column 3 (tab q0 x))))%bool)
     (map N.of_nat (seq 0 256)) = true) as E
    by (vm_compute; reflexivity).
  rewrite forallb_forall in E. specialize (E x).
  rewrite !Bool.andb_true_iff, !N.eqb_eq in E.
  destruct E as [[[E1 E2] E3] E4]. { apply in_map_iff. exists (N.to_nat x). split; [lia|]. apply in_seq. lia. }
  destruct (q0_perm x H) as [<- _]. destruct (q1_perm x H) as [<- _]. auto.
Qed.

(** ** Field arithmetic *)
Lemma byte_lxor x y : x < 256 -> y < 256 -> N.lxor x y < 256.
Proof. intros. apply word8, word_lxor; now apply word8. Qed.
Definition modulus (m : N) : Prop := 256 <= m < 512.
Lemma dbl_byte m x : modulus m -> x < 256 -> dbl m x < 256.
Proof.
  intros [Hm1 Hm2] Hx. unfold dbl. destruct (N.leb_spec 256 (2 * x)) as [G|G]; [|exact G].
  apply word8, word_testbit. intros n Hn. rewrite N.lxor_spec.
  assert (forall y, 256 <= y < 512 -> N.testbit y n = (n =? 8)) as E.
  { intros y Hy. destruct (N.eqb_spec n 8) as [->|].
    - apply N.testbit_true. change (2 ^ 8) with 256.
      replace (y / 256) with 1; [reflexivity|]. apply (N.div_unique y 256 1 (y - 256)); lia.
    - apply (testbit_high 9); [unfold word; change (2 ^ 9) with 512; lia|lia]. }
  rewrite !E by lia. apply Bool.xorb_nilpotent.
Qed.
Lemma dbl_lxor m x y : modulus m -> x < 256 -> y < 256 -> dbl m (N.lxor x y) = N.lxor (dbl m x) (dbl m y).
Proof.
  intros Hm Hx Hy.
  assert (forall z, z < 256 -> dbl m z = if N.testbit z 7 then N.lxor (2 * z) m else 2 * z) as D.
  { intros z Hz. unfold dbl.
    assert (N.testbit z 7 = (256 <=? 2 * z)) as ->; [|reflexivity].
    destruct (N.leb_spec 256 (2 * z)).
    - apply N.testbit_true. change (2 ^ 7) with 128. replace (z / 128) with 1; [reflexivity|].
      apply (N.div_unique z 128 1 (z - 128)); lia.
    - apply (testbit_high 7); [unfold word; change (2 ^ 7) with 128; lia|lia]. }
  rewrite !D by (auto; apply word8, word_lxor; now apply word8).
  rewrite N.lxor_spec.
  assert (2 * N.lxor x y = N.lxor (2 * x) (2 * y)) as E.
  { replace (2 * N.lxor x y) with (N.shiftl (N.lxor x y) 1) by (rewrite N.shiftl_mul_pow2; lia).
    rewrite N.shiftl_lxor. rewrite !N.shiftl_mul_pow2. f_equal; lia. }
  destruct (N.testbit x 7), (N.testbit y 7); cbn [xorb]; rewrite E.
  all: apply N.bits_inj; intros n; rewrite !N.lxor_spec;
    destruct (N.testbit (2 * x) n), (N.testbit (2 * y) n), (N.testbit m n); reflexivity.
Qed.
Lemma iter_dbl_byte m n : modulus m -> forall x, x < 256 -> iter n (dbl m) x < 256.
Proof. intros Hm. induction n; intros x Hx; cbn [iter]; auto using dbl_byte. Qed.
Lemma iter_dbl_lxor m n : modulus m -> forall x y, x < 256 -> y < 256 ->
  iter n (dbl m) (N.lxor x y) = N.lxor (iter n (dbl m) x) (iter n (dbl m) y).
Proof. intros Hm. induction n; intros x y Hx Hy; cbn [iter]; auto. rewrite dbl_lxor by auto. auto using dbl_byte. Qed.
Lemma iter_add {A} n k (f : A -> A) x : iter (n + k) f x = iter n f (iter k f x).
Proof. revert x. induction k; intros x; [now rewrite Nat.add_0_r|]. rewrite Nat.add_succ_r. cbn [iter]. apply IHk. Qed.
Lemma iter_dbl_0 m n : iter n (dbl m) 0 = 0.
Proof. induction n; cbn [iter]; auto. Qed.

Lemma gmul_byte m x y : modulus m -> x < 256 -> gmul m x y < 256.
Proof.
  intros Hm Hx. unfold gmul. generalize (seq 0 8). induction l as [|i l IH]; cbn [fold_right]; [lia|].
  destruct (N.testbit _ _); auto. apply byte_lxor; auto using iter_dbl_byte.
Qed.

(** a byte is the sum of its bits *)
Lemma bits_sum x : x < 256 ->
  fold_right (fun i acc => if N.testbit x (N.of_nat i) then N.lxor (iter i (dbl 0x14d) 1) acc else acc) 0 (seq 0 8) = x.
Proof.
  intros H.
  assert (forallb (fun x => fold_right (fun i acc => if N.testbit x (N.of_nat i) then N.lxor (iter i (dbl 0x14d) 1) acc else acc) 0 (seq 0 8) =? x)
     (map N.of_nat (seq 0 256)) = true) as E
    by (vm_compute; reflexivity).
  rewrite forallb_forall in E. specialize (E x). rewrite N.eqb_eq in E. apply E.
  apply in_map_iff. exists (N.to_nat x). split; [lia|]. apply in_seq. lia.
Qed.

Lemma mod14d : modulus 0x14d.
Proof. split; reflexivity || discriminate. Qed.
Lemma mod169 : modulus 0x169.
Proof. split; reflexivity || discriminate. Qed.

Lemma iter_dbl_gmul n x : x < 256 -> iter n (dbl 0x14d) x = gmul 0x14d (iter n (dbl 0x14d) 1) x.
Proof.
  intros Hx. rewrite <- (bits_sum x Hx) at 1. unfold gmul.
  generalize (seq 0 8). intros l.
  assert (forall l, fold_right (fun i acc => if N.testbit x (N.of_nat i) then N.lxor (iter i (dbl 0x14d) 1) acc else acc) 0 l < 256) as B.
  { clear l. induction l as [|i l IH]; cbn [fold_right]; [lia|].
    destruct (N.testbit _ _); auto. apply byte_lxor; auto.
    apply iter_dbl_byte; [apply mod14d|lia]. }
  induction l as [|i l IH]; cbn [fold_right]; [apply iter_dbl_0|].
  destruct (N.testbit x (N.of_nat i)); auto.
  rewrite iter_dbl_lxor; [|apply mod14d|apply iter_dbl_byte; [apply mod14d|lia]|apply B].
  rewrite IH. f_equal. rewrite <- !iter_add. f_equal. lia.
Qed.

(** the logarithm tables *)
Lemma exponent_step i : (i < 491)%nat ->
  nth (S i) exponent_to_polynomial 0 = dbl 0x14d (nth i exponent_to_polynomial 0).
Proof.
  intros H.
  assert (forallb (fun p => N.eqb (snd p) (dbl 0x14d (fst p))) (combine exponent_to_polynomial (tl exponent_to_polynomial)) = true) as E
    by (vm_compute; reflexivity).
  rewrite forallb_forall in E.
  specialize (E (nth i exponent_to_polynomial 0, nth (S i) exponent_to_polynomial 0)). cbn [fst snd] in E.
  apply N.eqb_eq, E.
  replace (nth (S i) exponent_to_polynomial 0) with (nth i (tl exponent_to_polynomial) 0) by reflexivity.
  assert (forall (l m : list N) i, (i < length l)%nat -> (i < length m)%nat -> In (nth i l 0, nth i m 0) (combine l m)) as I.
  { clear. induction l; intros m i Hl Hm; cbn [length] in *; [lia|]. destruct m; cbn [length] in *; [lia|].
    destruct i; cbn [nth combine]; [now left|right; apply IHl; lia]. }
  apply I; [change (length exponent_to_polynomial) with 492%nat|change (length (tl exponent_to_polynomial)) with 491%nat]; lia.
Qed.
Lemma exponent_iter n : forall i, (i + n < 492)%nat ->
  nth (i + n) exponent_to_polynomial 0 = iter n (dbl 0x14d) (nth i exponent_to_polynomial 0).
Proof.
  induction n; intros i H; [now rewrite Nat.add_0_r|]. rewrite Nat.add_succ_r. change (S (i + n)) with (S i + n)%nat.
  rewrite IHn by lia. cbn [iter]. now rewrite exponent_step by lia.
Qed.
Lemma logarithm x : 1 <= x < 256 ->
  tab polynomial_to_exponent (x - 1) < 255 /\
  tab exponent_to_polynomial (tab polynomial_to_exponent (x - 1)) = x.
Proof.
  intros H.
  assert (forallb (fun x => (tab polynomial_to_exponent x <? 255) && (tab exponent_to_polynomial (tab polynomial_to_exponent x) =? x + 1))%bool (map N.of_nat (seq 0 255)) = true) as E
    by (vm_compute; reflexivity).
  rewrite forallb_forall in E. specialize (E (x - 1)).
  rewrite Bool.andb_true_iff, N.eqb_eq, N.ltb_lt in E.
  destruct E as [E1 E2]; [|split; [exact E1|rewrite E2; lia]].
  apply in_map_iff. exists (N.to_nat (x - 1)). split; [lia|]. apply in_seq. lia.
Qed.

(** looking up log x + w multiplies by the w-th power of the generator *)
Definition power (w : N) : N := iter (N.to_nat w) (dbl 0x14d) 1.
Lemma log_mul x w : 1 <= x < 256 -> w <= 237 ->
  tab exponent_to_polynomial (tab polynomial_to_exponent (x - 1) + w) = gmul 0x14d (power w) x.
Proof.
  intros Hx Hw. destruct (logarithm x Hx) as [B E]. unfold power. rewrite <- iter_dbl_gmul by lia.
  unfold tab at 1. rewrite N2Nat.inj_add, exponent_iter by lia. f_equal. exact E.
Qed.

Definition quad_list (q : quad) : list N := let '(a, b, c, d) := q in [a; b; c; d].

Lemma gmul_0_r m x : gmul m x 0 = 0.
Proof. unfold gmul. generalize (seq 0 8). induction l; cbn [fold_right]; auto. Qed.

Lemma Sbox_step ck i e0 e1 e2 e3 s : get ck i < 256 -> e0 <= 237 -> e1 <= 237 -> e2 <= 237 -> e3 <= 237 ->
  quad_list (Sbox ck i (e0, e1, e2, e3) s) =
  xor_list (quad_list s) [gmul 0x14d (power e0) (get ck i); gmul 0x14d (power e1) (get ck i);
                          gmul 0x14d (power e2) (get ck i); gmul 0x14d (power e3) (get ck i)].
Proof.
  intros. destruct s as [[[a b] c] d]. unfold Sbox. destruct (N.eqb_spec (get ck i) 0) as [->|].
  - rewrite !gmul_0_r. cbn [quad_list xor_list map2]. now rewrite !N.lxor_0_r.
  - cbn [quad_list]. rewrite !log_mul by lia. reflexivity.
Qed.

Lemma powers_are_RS :
  map (fun e => let '(w, x, y, z) := e in [power w; power x; power y; power z]) rs_exponents =
  map (fun i => map (fun row => nth i row 0) RS) (seq 0 8).
Proof. vm_compute. reflexivity. Qed.
Lemma exponents_small :
  Forall (fun e => let '(w, x, y, z) := e in w <= 237 /\ x <= 237 /\ y <= 237 /\ z <= 237) rs_exponents.
Proof. unfold rs_exponents. repeat constructor; discriminate. Qed.

Lemma sbox_group_step ck base n l s : bytes ck ->
  Forall (fun e => let '(w, x, y, z) := e in w <= 237 /\ x <= 237 /\ y <= 237 /\ z <= 237) l ->
  quad_list (fold_left (fun s ie => Sbox ck (base + fst ie) (snd ie) s) (combine (seq n (length l)) l) s) =
  fold_left (fun acc p => xor_list acc (map (fun c => gmul 0x14d c (snd p)) (fst p)))
    (combine (map (fun e => let '(w, x, y, z) := e in [power w; power x; power y; power z]) l)
             (map (fun i => get ck (base + i)) (seq n (length l)))) (quad_list s).
Proof.
  intros Hck. revert n s. induction l as [|[[[w x] y] z] l IH]; intros n s Hl; [reflexivity|].
  inversion Hl as [|? ? He Hl']; subst. destruct He as [? [? [? ?]]].
  cbn [length seq combine map fold_left fst snd]. rewrite IH by auto.
  rewrite Sbox_step by (auto using get_byte). reflexivity.
Qed.

Lemma sbox_group_spec ck base : bytes ck -> (base + 8 <= length ck)%nat ->
  quad_list (sbox_group ck base) = mat_vec 0x14d RS (slice ck base 8).
Proof.
  intros Hck L. unfold sbox_group. change (seq 0 8) with (seq 0 (length rs_exponents)).
  rewrite (sbox_group_step ck base 0 rs_exponents (0, 0, 0, 0) Hck exponents_small).
  rewrite powers_are_RS. change (length rs_exponents) with 8%nat.
  assert (map (fun i => get ck (base + i)) (seq 0 8) = slice ck base 8) as E.
  { unfold slice. remember (firstn base ck) as a eqn:Ea. remember (skipn base ck) as b eqn:Eb.
    assert (ck = a ++ b) as Eck by (subst; symmetry; apply firstn_skipn).
    assert (length a = base) as La by (subst a; rewrite firstn_length; lia).
    assert (8 <= length b)%nat as Lb by (subst b; rewrite skipn_length; lia).
    rewrite Eck. clear Ea Eb Eck L. subst base. unfold get.
    rewrite (map_ext_in _ (fun i => nth i b 0)) by (intros; apply app_nth2_plus).
    do 8 (destruct b as [|? b]; [cbn [length] in Lb; lia|]). reflexivity. }
  rewrite E. 
  assert (exists b0 b1 b2 b3 b4 b5 b6 b7, slice ck base 8 = [b0;b1;b2;b3;b4;b5;b6;b7]) as (b0&b1&b2&b3&b4&b5&b6&b7&->).
  { assert (length (slice ck base 8) = 8%nat) as Ls by (unfold slice; rewrite firstn_length, skipn_length; lia).
    destruct (slice ck base 8) as [|? [|? [|? [|? [|? [|? [|? [|? [|]]]]]]]]]; try discriminate. repeat eexists. }
  unfold mat_vec, dot, RS. cbn [seq map nth combine fold_left fold_right fst snd quad_list xor_list map2].
  rewrite !N.lxor_0_l, !N.lxor_0_r, !N.lxor_assoc. reflexivity.
Qed.

(** ** The function h *)
Definition byte4 (l : list N) : Prop := exists a b c d, l = [a; b; c; d] /\ a < 256 /\ b < 256 /\ c < 256 /\ d < 256.

Lemma column_bytes j y : bytes (column j y) /\ length (column j y) = 4%nat.
Proof.
  split; [|reflexivity]. unfold column. apply Forall_forall. intros v Hv.
  apply in_map_iff in Hv as (row & <- & Hr). apply gmul_byte; [apply mod169|].
  repeat (destruct Hr as [<-|Hr]; [do 4 (destruct j as [|j]; [reflexivity|]); destruct j; reflexivity|]). destruct Hr.
Qed.

Lemma mds_columns y0 y1 y2 y3 :
  le_val (mat_vec 0x169 MDS [y0; y1; y2; y3]) =
  N.lxor (N.lxor (N.lxor (le_val (column 0 y0)) (le_val (column 1 y1))) (le_val (column 2 y2))) (le_val (column 3 y3)).
Proof.
  destruct (column_bytes 0 y0) as [B0 L0]. destruct (column_bytes 1 y1) as [B1 L1].
  destruct (column_bytes 2 y2) as [B2 L2]. destruct (column_bytes 3 y3) as [B3 L3].
  rewrite lxor_le_val by (auto; congruence).
  rewrite lxor_le_val by (auto using bytes_xor_list; rewrite ?xor_list_length; congruence).
  rewrite lxor_le_val by (auto using bytes_xor_list; rewrite ?xor_list_length; rewrite ?xor_list_length; congruence).
  f_equal. unfold mat_vec, column, dot, MDS.
  cbn [map nth combine fold_right fst snd xor_list map2]. rewrite !N.lxor_0_r, !N.lxor_assoc. reflexivity.
Qed.

Lemma mds_final z0 z1 z2 z3 : z0 < 256 -> z1 < 256 -> z2 < 256 -> z3 < 256 ->
  le_val (mat_vec 0x169 MDS [perm1 z0; perm0 z1; perm1 z2; perm0 z3]) =
  N.lxor (N.lxor (N.lxor (tab mds0 z0) (tab mds1 z1)) (tab mds2 z2)) (tab mds3 z3).
Proof.
  intros H0 H1 H2 H3. rewrite mds_columns.
  destruct (mds_column z0 H0) as (-> & _). destruct (mds_column z1 H1) as (_ & -> & _).
  destruct (mds_column z2 H2) as (_ & _ & -> & _). destruct (mds_column z3 H3) as (_ & _ & _ & ->). reflexivity.
Qed.

Lemma perm0_byte x : x < 256 -> perm0 x < 256.
Proof. intros. now apply q0_perm. Qed.
Lemma perm1_byte x : x < 256 -> perm1 x < 256.
Proof. intros. now apply q1_perm. Qed.
Lemma q0_byte x : x < 256 -> tab q0 x < 256.
Proof. intros. destruct (q0_perm x) as [-> ?]; auto. Qed.
Lemma q1_byte x : x < 256 -> tab q1 x < 256.
Proof. intros. destruct (q1_perm x) as [-> ?]; auto. Qed.
Lemma q0_eq x : x < 256 -> perm0 x = tab q0 x.
Proof. intros. now destruct (q0_perm x). Qed.
Lemma q1_eq x : x < 256 -> perm1 x = tab q1 x.
Proof. intros. now destruct (q1_perm x). Qed.
#[local] Hint Resolve byte_lxor perm0_byte perm1_byte q0_byte q1_byte : b8.

Lemma h2 x0 x1 x2 x3 a0 a1 a2 a3 b0 b1 b2 b3 :
  bytes [x0; x1; x2; x3] -> bytes [a0; a1; a2; a3] -> bytes [b0; b1; b2; b3] ->
  h [x0; x1; x2; x3] [[a0; a1; a2; a3]; [b0; b1; b2; b3]] =
  N.lxor (N.lxor (N.lxor
    (tab mds0 (N.lxor (tab q0 (N.lxor (perm0 x0) b0)) a0))
    (tab mds1 (N.lxor (tab q0 (N.lxor (perm1 x1) b1)) a1)))
    (tab mds2 (N.lxor (tab q1 (N.lxor (perm0 x2) b2)) a2)))
    (tab mds3 (N.lxor (tab q1 (N.lxor (perm1 x3) b3)) a3)).
Proof.
  intros Hx Ha Hb.
  repeat match goal with H : bytes (_ :: _) |- _ => inversion H; clear H; subst
                       | H : Forall _ (_ :: _) |- _ => inversion H; clear H; subst end.
  unfold h. cbn [length Nat.eqb Nat.leb]. unfold layer. cbn [get nth xor_list map2]. unfold get; cbn [nth].
  rewrite mds_final by auto 12 with b8.
  rewrite !q0_eq, !q1_eq by auto 12 with b8. reflexivity.
Qed.
Lemma h3 x0 x1 x2 x3 a0 a1 a2 a3 b0 b1 b2 b3 c0 c1 c2 c3 :
  bytes [x0; x1; x2; x3] -> bytes [a0; a1; a2; a3] -> bytes [b0; b1; b2; b3] -> bytes [c0; c1; c2; c3] ->
  h [x0; x1; x2; x3] [[a0; a1; a2; a3]; [b0; b1; b2; b3]; [c0; c1; c2; c3]] =
  N.lxor (N.lxor (N.lxor
    (tab mds0 (N.lxor (tab q0 (N.lxor (tab q0 (N.lxor (perm1 x0) c0)) b0)) a0))
    (tab mds1 (N.lxor (tab q0 (N.lxor (tab q1 (N.lxor (perm1 x1) c1)) b1)) a1)))
    (tab mds2 (N.lxor (tab q1 (N.lxor (tab q0 (N.lxor (perm0 x2) c2)) b2)) a2)))
    (tab mds3 (N.lxor (tab q1 (N.lxor (tab q1 (N.lxor (perm0 x3) c3)) b3)) a3)).
Proof.
  intros Hx Ha Hb Hc.
  repeat match goal with H : bytes (_ :: _) |- _ => inversion H; clear H; subst
                       | H : Forall _ (_ :: _) |- _ => inversion H; clear H; subst end.
  unfold h. cbn [length Nat.eqb Nat.leb]. unfold layer. cbn [get nth xor_list map2]. unfold get; cbn [nth].
  rewrite mds_final by auto 16 with b8.
  rewrite !q0_eq, !q1_eq by auto 16 with b8. reflexivity.
Qed.
Lemma h4 x0 x1 x2 x3 a0 a1 a2 a3 b0 b1 b2 b3 c0 c1 c2 c3 d0 d1 d2 d3 :
  bytes [x0; x1; x2; x3] -> bytes [a0; a1; a2; a3] -> bytes [b0; b1; b2; b3] -> bytes [c0; c1; c2; c3] -> bytes [d0; d1; d2; d3] ->
  h [x0; x1; x2; x3] [[a0; a1; a2; a3]; [b0; b1; b2; b3]; [c0; c1; c2; c3]; [d0; d1; d2; d3]] =
  N.lxor (N.lxor (N.lxor
    (tab mds0 (N.lxor (tab q0 (N.lxor (tab q0 (N.lxor (tab q1 (N.lxor (perm1 x0) d0)) c0)) b0)) a0))
    (tab mds1 (N.lxor (tab q0 (N.lxor (tab q1 (N.lxor (tab q1 (N.lxor (perm0 x1) d1)) c1)) b1)) a1)))
    (tab mds2 (N.lxor (tab q1 (N.lxor (tab q0 (N.lxor (tab q0 (N.lxor (perm0 x2) d2)) c2)) b2)) a2)))
    (tab mds3 (N.lxor (tab q1 (N.lxor (tab q1 (N.lxor (tab q0 (N.lxor (perm1 x3) d3)) c3)) b3)) a3)).
Proof.
  intros Hx Ha Hb Hc Hd.
  repeat match goal with H : bytes (_ :: _) |- _ => inversion H; clear H; subst
                       | H : Forall _ (_ :: _) |- _ => inversion H; clear H; subst end.
  unfold h. cbn [length Nat.eqb Nat.leb]. unfold layer. cbn [get nth xor_list map2]. unfold get; cbn [nth].
  rewrite mds_final by auto 20 with b8.
  rewrite !q0_eq, !q1_eq by auto 20 with b8. reflexivity.
Qed.
