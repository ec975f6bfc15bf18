(** Lemmas about words, bytes and lists. *)
From Coq Require Import NArith List Lia Bool ZArith.
From Coq Require Import ZifyBool ZifyNat ZifyN.
From Verif Require Import Base.
Import ListNotations.
Local Open Scope N_scope.
Ltac Zify.zify_post_hook ::= Z.div_mod_to_equations.

(** ** Words *)

Lemma pow2_pos w : 0 < 2 ^ w.
Proof. apply N.neq_0_lt_0, N.pow_nonzero; lia. Qed.

Lemma pow2_nz w : 2 ^ w <> 0.
Proof. apply N.pow_nonzero; lia. Qed.

Lemma word_wrap w x : word w (wrap w x).
Proof. apply N.mod_lt, pow2_nz. Qed.

Lemma wrap_small w x : word w x -> wrap w x = x.
Proof. apply N.mod_small. Qed.

Lemma word_0 w : word w 0.
Proof. apply pow2_pos. Qed.

Lemma word_wadd w x y : word w (wadd w x y).
Proof. apply word_wrap. Qed.
Lemma word_wsub w x y : word w (wsub w x y).
Proof. apply word_wrap. Qed.
Lemma word_wmul w x y : word w (wmul w x y).
Proof. apply word_wrap. Qed.
Lemma word_wshl w x y : word w (wshl w x y).
Proof. apply word_wrap. Qed.

Lemma testbit_high w x n : word w x -> w <= n -> N.testbit x n = false.
Proof.
  unfold word. intros H Hn. destruct (N.eq_dec x 0) as [->|Hx]. apply N.bits_0.
  apply N.bits_above_log2. apply N.log2_lt_pow2; [lia|].
  eapply N.lt_le_trans; [exact H|]. apply N.pow_le_mono_r; lia.
Qed.

Lemma word_testbit w x : (forall n, w <= n -> N.testbit x n = false) -> word w x.
Proof.
  intros H. unfold word.
  destruct (N.lt_ge_cases x (2 ^ w)) as [|Hge]; [assumption|].
  exfalso. assert (x <> 0) by (pose proof (pow2_pos w); lia).
  assert (w <= N.log2 x) by (apply N.log2_le_pow2; lia).
  pose proof (N.bit_log2 x H0) as Hb. rewrite H in Hb by assumption. discriminate.
Qed.

Lemma word_lxor w x y : word w x -> word w y -> word w (N.lxor x y).
Proof.
  intros. apply word_testbit; intros. rewrite N.lxor_spec.
  rewrite !(testbit_high w) by assumption. reflexivity.
Qed.
Lemma word_lor w x y : word w x -> word w y -> word w (N.lor x y).
Proof.
  intros. apply word_testbit; intros. rewrite N.lor_spec.
  rewrite !(testbit_high w) by assumption. reflexivity.
Qed.
Lemma word_land_l w x y : word w x -> word w (N.land x y).
Proof.
  intros. apply word_testbit; intros. rewrite N.land_spec.
  rewrite (testbit_high w x) by assumption. reflexivity.
Qed.
Lemma word_land_r w x y : word w y -> word w (N.land x y).
Proof. intros. rewrite N.land_comm. now apply word_land_l. Qed.
Lemma word_shiftr w x n : word w x -> word w (N.shiftr x n).
Proof.
  intros. apply word_testbit; intros. rewrite N.shiftr_spec'.
  apply (testbit_high w); [assumption|lia].
Qed.
Lemma word_ones w : word w (N.ones w).
Proof. unfold word. rewrite N.ones_equiv. pose proof (pow2_pos w). lia. Qed.
Lemma word_wnot w x : word w x -> word w (wnot w x).
Proof. intros. apply word_lxor; auto using word_ones. Qed.
Lemma word_rotl w x n : word w x -> word w (rotl w x n).
Proof. intros. apply word_lor; auto using word_wshl, word_shiftr. Qed.
Lemma word_rotr w x n : word w x -> word w (rotr w x n).
Proof. intros. apply word_lor; auto using word_wshl, word_shiftr. Qed.
Lemma word_mono w v x : w <= v -> word w x -> word v x.
Proof.
  unfold word; intros. eapply N.lt_le_trans; [eassumption|].
  apply N.pow_le_mono_r; lia.
Qed.

Lemma wrap_testbit w x n : N.testbit (wrap w x) n = (n <? w) && N.testbit x n.
Proof.
  unfold wrap. destruct (N.ltb_spec n w).
  - now rewrite N.mod_pow2_bits_low.
  - now rewrite N.mod_pow2_bits_high.
Qed.

Lemma wnot_testbit w x n : n < w -> N.testbit (wnot w x) n = negb (N.testbit x n).
Proof.
  intros. unfold wnot. rewrite N.lxor_spec, N.ones_spec_low by assumption.
  now destruct (N.testbit x n).
Qed.

Lemma wshl_testbit w x k n :
  N.testbit (wshl w x k) n = (n <? w) && (k <=? n) && N.testbit x (n - k).
Proof.
  unfold wshl. rewrite wrap_testbit. destruct (N.leb_spec k n).
  - rewrite N.shiftl_spec_high' by assumption. now rewrite andb_true_r.
  - rewrite N.shiftl_spec_low by assumption. now rewrite andb_false_r.
Qed.

Lemma rotl_testbit w x k n : word w x -> k < w -> n < w ->
  N.testbit (rotl w x k) n = N.testbit x (if n <? k then n + (w - k) else n - k).
Proof.
  intros Hx Hk Hn. unfold rotl. rewrite N.lor_spec, wshl_testbit, N.shiftr_spec'.
  destruct (N.ltb_spec n w); [|lia]. cbn [andb].
  destruct (N.leb_spec k n), (N.ltb_spec n k); try lia; cbn [andb].
  - rewrite (testbit_high w x (n + (w - k))) by (auto; lia). now rewrite orb_false_r.
  - reflexivity.
Qed.

Lemma rotr_testbit w x k n : word w x -> k <= w -> n < w ->
  N.testbit (rotr w x k) n = N.testbit x (if n <? w - k then n + k else n - (w - k)).
Proof.
  intros Hx Hk Hn. unfold rotr. rewrite N.lor_spec, wshl_testbit, N.shiftr_spec'.
  destruct (N.ltb_spec n w); [|lia]. cbn [andb].
  destruct (N.leb_spec (w - k) n), (N.ltb_spec n (w - k)); try lia; cbn [andb].
  - rewrite (testbit_high w x (n + k)) by (auto; lia). reflexivity.
  - now rewrite orb_false_r.
Qed.

Lemma word_ext w x y : word w x -> word w y ->
  (forall n, n < w -> N.testbit x n = N.testbit y n) -> x = y.
Proof.
  intros Hx Hy H. apply N.bits_inj. intros n. destruct (N.lt_ge_cases n w); auto.
  now rewrite !(testbit_high w).
Qed.

Lemma rotr_rotl w x k : word w x -> k < w -> rotr w (rotl w x k) k = x.
Proof.
  intros. apply (word_ext w); auto using word_rotl, word_rotr. intros n Hn.
  rewrite rotr_testbit by (auto using word_rotl; lia).
  destruct (N.ltb_spec n (w - k)); rewrite rotl_testbit by (auto; lia);
    [destruct (N.ltb_spec (n + k) k) | destruct (N.ltb_spec (n - (w - k)) k)];
    try lia; f_equal; lia.
Qed.

Lemma rotl_rotr w x k : word w x -> k < w -> rotl w (rotr w x k) k = x.
Proof.
  intros. apply (word_ext w); auto using word_rotl, word_rotr. intros n Hn.
  rewrite rotl_testbit by (auto using word_rotr; lia).
  destruct (N.ltb_spec n k); rewrite rotr_testbit by (auto; lia).
  - destruct (N.ltb_spec (n + (w - k)) (w - k)); try lia; f_equal; lia.
  - destruct (N.ltb_spec (n - k) (w - k)); try lia; f_equal; lia.
Qed.

Lemma wsub_wadd w x y : word w x -> word w y -> wsub w (wadd w x y) y = x.
Proof.
  unfold word, wsub, wadd, wrap. intros.
  pose proof (pow2_nz w). rewrite <- (N.mod_small x (2 ^ w)) at 2 by assumption.
  set (m := 2 ^ w) in *.
  pose proof (N.div_mod (x + y) m H1). pose proof (N.mod_lt (x + y) m H1).
  destruct (N.lt_ge_cases (x + y) m) as [Hl|Hl].
  - rewrite (N.mod_small (x + y)) by assumption.
    replace (m + (x + y) - y) with (x + 1 * m) by lia. now rewrite N.mod_add.
  - replace ((x + y) mod m) with (x + y - m).
    2:{ apply (N.mod_unique _ _ 1); lia. }
    f_equal. lia.
Qed.

Lemma wadd_wsub w x y : word w x -> word w y -> wadd w (wsub w x y) y = x.
Proof.
  unfold word, wsub, wadd, wrap. intros.
  pose proof (pow2_nz w). set (m := 2 ^ w) in *.
  rewrite N.add_mod_idemp_l by assumption.
  replace (m + x - y + y) with (x + 1 * m) by lia.
  rewrite N.mod_add by assumption. now apply N.mod_small.
Qed.

Lemma wadd_comm w x y : wadd w x y = wadd w y x.
Proof. unfold wadd. now rewrite N.add_comm. Qed.

Lemma wadd_assoc w x y z : wadd w x (wadd w y z) = wadd w (wadd w x y) z.
Proof.
  unfold wadd, wrap. pose proof (pow2_nz w).
  rewrite N.add_mod_idemp_r, N.add_mod_idemp_l by assumption. now rewrite N.add_assoc.
Qed.

Lemma lxor_cancel_r x y : N.lxor (N.lxor x y) y = x.
Proof. now rewrite N.lxor_assoc, N.lxor_nilpotent, N.lxor_0_r. Qed.
Lemma lxor_cancel_l x y : N.lxor x (N.lxor x y) = y.
Proof. now rewrite <- N.lxor_assoc, N.lxor_nilpotent, N.lxor_0_l. Qed.

(** disjoint or is addition *)
Lemma lor_add_disjoint x y n : word n x -> N.lor x (N.shiftl y n) = x + 2 ^ n * y.
Proof.
  intros H. assert (N.land x (N.shiftl y n) = 0) as Hd.
  { apply N.bits_inj. intros i. rewrite N.land_spec, N.bits_0.
    destruct (N.lt_ge_cases i n).
    - rewrite N.shiftl_spec_low by assumption. apply andb_false_r.
    - rewrite (testbit_high n) by assumption. reflexivity. }
  assert (forall a b, N.land a b = 0 -> N.lor a b = a + b) as A.
  { intros a b Hab. rewrite <- N.lxor_lor by assumption. now rewrite N.add_nocarry_lxor. }
  rewrite A by assumption. now rewrite N.shiftl_mul_pow2, N.mul_comm.
Qed.

(** ** Lists *)

Lemma map2_length {A B C} (f : A -> B -> C) l m :
  length (map2 f l m) = Nat.min (length l) (length m).
Proof. revert m; induction l; destruct m; cbn; auto. Qed.

Lemma xor_list_length l m : length l = length m -> length (xor_list l m) = length l.
Proof. unfold xor_list. rewrite map2_length. lia. Qed.

Lemma xor_list_comm l m : xor_list l m = xor_list m l.
Proof.
  unfold xor_list. revert m; induction l; destruct m; cbn; auto.
  now rewrite IHl, N.lxor_comm.
Qed.

Lemma xor_list_cancel l m : length l = length m -> xor_list (xor_list l m) m = l.
Proof.
  unfold xor_list. revert m; induction l; destruct m; cbn; intros; try discriminate; auto.
  rewrite IHl, lxor_cancel_r; auto.
Qed.

Lemma word8 x : x < 256 <-> word 8 x.
Proof. reflexivity. Qed.

Lemma bytes_xor_list l m : bytes l -> bytes m -> bytes (xor_list l m).
Proof.
  unfold bytes, xor_list. intros Hl; revert m; induction Hl; destruct m; cbn; intros Hm; auto.
  inversion Hm; subst. constructor; auto. apply word8, word_lxor; now apply word8.
Qed.

Lemma bytes_app l m : bytes (l ++ m) <-> bytes l /\ bytes m.
Proof. unfold bytes. now rewrite Forall_app. Qed.

Lemma upd_length {A} (l : list A) i x : length (upd l i x) = length l.
Proof. revert i; induction l; destruct i; cbn; auto. Qed.

Lemma nth_upd {A} (l : list A) i j x d :
  (i < length l)%nat -> nth j (upd l i x) d = if Nat.eqb j i then x else nth j l d.
Proof.
  revert i j; induction l; destruct i, j; cbn; intros; auto; try lia. apply IHl. lia.
Qed.

Lemma firstn_map2 {A B C} (f : A -> B -> C) n l m :
  firstn n (map2 f l m) = map2 f (firstn n l) (firstn n m).
Proof. revert l m; induction n; destruct l, m; cbn; auto. now rewrite IHn. Qed.

Lemma map2_app {A B C} (f : A -> B -> C) l1 l2 m1 m2 : length l1 = length m1 ->
  map2 f (l1 ++ l2) (m1 ++ m2) = map2 f l1 m1 ++ map2 f l2 m2.
Proof.
  revert m1; induction l1; destruct m1; cbn; intros; try discriminate; auto.
  now rewrite IHl1 by lia.
Qed.

Lemma forallb_seqN (n : nat) (P : N -> bool) :
  forallb P (map N.of_nat (seq 0 n)) = true ->
  forall x, x < N.of_nat n -> P x = true.
Proof.
  intros H x Hx. rewrite forallb_forall in H. apply H.
  apply in_map_iff. exists (N.to_nat x). split; [lia|]. apply in_seq. lia.
Qed.

(** ** Byte order *)

Lemma le_bytes_length n x : length (le_bytes n x) = n.
Proof. revert x; induction n; cbn; auto. Qed.

Lemma le_bytes_bytes n x : bytes (le_bytes n x).
Proof.
  revert x; induction n; cbn; intros; constructor; auto.
  - apply N.mod_lt. lia.
  - apply IHn.
Qed.

Lemma be_bytes_length n x : length (be_bytes n x) = n.
Proof. unfold be_bytes. now rewrite rev_length, le_bytes_length. Qed.

Lemma be_bytes_bytes n x : bytes (be_bytes n x).
Proof. apply Forall_rev, le_bytes_bytes. Qed.

Lemma pow256_succ n : 256 ^ N.of_nat (S n) = 256 * 256 ^ N.of_nat n.
Proof. rewrite Nat2N.inj_succ, N.pow_succ_r'. reflexivity. Qed.

Lemma le_val_bound l : bytes l -> le_val l < 256 ^ N.of_nat (length l).
Proof.
  induction 1 as [|b l Hb Hl IH]; [cbn; lia|].
  cbn [le_val length]. rewrite pow256_succ. cbn [length]. nia.
Qed.

Lemma le_val_le_bytes n x : le_val (le_bytes n x) = x mod 256 ^ N.of_nat n.
Proof.
  revert x; induction n; intros.
  - cbn. now rewrite N.mod_1_r.
  - cbn [le_bytes le_val]. rewrite IHn, pow256_succ.
    rewrite N.mod_mul_r by (try apply N.pow_nonzero; lia). lia.
Qed.

Lemma le_bytes_le_val l : bytes l -> le_bytes (length l) (le_val l) = l.
Proof.
  induction 1; auto. cbn [length le_val le_bytes].
  assert ((x + 256 * le_val l) mod 256 = x) as ->.
  { rewrite N.mul_comm, N.mod_add by lia. now apply N.mod_small. }
  assert ((x + 256 * le_val l) / 256 = le_val l) as ->.
  { rewrite N.mul_comm, N.div_add, N.div_small by lia. lia. }
  now rewrite IHForall.
Qed.

Lemma be_val_le_val l : be_val l = le_val (rev l).
Proof.
  unfold be_val. rewrite <- fold_left_rev_right. induction (rev l); [reflexivity|].
  cbn [fold_right le_val]. rewrite IHl0. lia.
Qed.

Lemma be_val_be_bytes n x : be_val (be_bytes n x) = x mod 256 ^ N.of_nat n.
Proof. rewrite be_val_le_val. unfold be_bytes. now rewrite rev_involutive, le_val_le_bytes. Qed.

Lemma be_bytes_be_val l : bytes l -> be_bytes (length l) (be_val l) = l.
Proof.
  intros. rewrite be_val_le_val. unfold be_bytes. rewrite <- (rev_length l).
  rewrite le_bytes_le_val, rev_involutive; auto. now apply Forall_rev.
Qed.

Lemma le_val_inj l m : bytes l -> bytes m -> length l = length m ->
  le_val l = le_val m -> l = m.
Proof.
  intros. rewrite <- (le_bytes_le_val l), <- (le_bytes_le_val m) by assumption. congruence.
Qed.

Lemma be_val_inj l m : bytes l -> bytes m -> length l = length m ->
  be_val l = be_val m -> l = m.
Proof.
  intros. rewrite <- (be_bytes_be_val l), <- (be_bytes_be_val m) by assumption. congruence.
Qed.

Lemma get_byte l i : bytes l -> get l i < 256.
Proof.
  intros. unfold get. destruct (Nat.lt_ge_cases i (length l)).
  - eapply Forall_forall in H; [exact H|]. now apply nth_In.
  - rewrite nth_overflow by assumption. lia.
Qed.

Lemma get_word w l i : words w l -> word w (get l i).
Proof.
  intros. unfold get. destruct (Nat.lt_ge_cases i (length l)).
  - eapply Forall_forall in H; [exact H|]. now apply nth_In.
  - rewrite nth_overflow by assumption. apply word_0.
Qed.

(** ** Blocks *)

Lemma chunks_fuel_mono {A} n (l : list A) f : (0 < n)%nat -> (length l <= f)%nat ->
  chunks_fuel f n l = chunks n l.
Proof.
  intros Hn. unfold chunks. remember (length l) as k. revert l f Heqk.
  induction k as [k IH] using lt_wf_ind. intros l f Hk Hf.
  destruct l as [|a l]; [destruct f, k; reflexivity|].
  destruct f; [cbn in *; lia|]. destruct k; [cbn in *; lia|].
  cbn [chunks_fuel]. f_equal.
  assert (length (skipn n (a :: l)) < S k)%nat by (rewrite skipn_length; cbn [length] in *; lia).
  rewrite (IH (length (skipn n (a :: l))) H (skipn n (a :: l)) f eq_refl) by lia.
  symmetry. apply (IH (length (skipn n (a :: l))) H (skipn n (a :: l)) k eq_refl). lia.
Qed.

Lemma chunks_nil {A} n : @chunks A n [] = [].
Proof. reflexivity. Qed.

Lemma chunks_cons {A} n (b l : list A) : (0 < n)%nat -> length b = n ->
  chunks n (b ++ l) = b :: chunks n l.
Proof.
  intros Hn Hb. unfold chunks at 1. destruct (b ++ l) eqn:E.
  { destruct b; cbn in *; [lia|discriminate]. }
  cbn [length chunks_fuel]. rewrite <- E.
  rewrite firstn_app, <- Hb, firstn_all, Nat.sub_diag. cbn. rewrite app_nil_r. f_equal.
  rewrite skipn_app, skipn_all, Nat.sub_diag. cbn.
  apply chunks_fuel_mono; [lia|].
  assert (length (a :: l0) = length (b ++ l)) by (f_equal; auto).
  rewrite app_length in H. cbn in H. lia.
Qed.

Lemma chunks_last {A} n (l : list A) : (0 < n)%nat -> (0 < length l <= n)%nat ->
  chunks n l = [l].
Proof.
  intros Hn Hl. unfold chunks. destruct l; cbn [length] in *; [lia|].
  cbn [chunks_fuel]. rewrite firstn_all2 by (cbn; lia). f_equal.
  rewrite skipn_all2 by (cbn; lia). destruct (length l); reflexivity.
Qed.

Lemma chunks_app {A} n k (b l : list A) : (0 < n)%nat -> length b = (k * n)%nat ->
  chunks n (b ++ l) = chunks n b ++ chunks n l.
Proof.
  intros Hn. revert b. induction k; intros b Hb.
  - destruct b; [reflexivity|cbn in *; lia].
  - rewrite <- (firstn_skipn n b), <- app_assoc.
    assert (length (firstn n b) = n) by (rewrite firstn_length; cbn [length Nat.mul] in *; lia).
    assert (length (skipn n b) = (k * n)%nat) by (rewrite skipn_length; cbn [length] in *; lia).
    rewrite (chunks_cons n (firstn n b) (skipn n b ++ l)) by auto.
    rewrite (chunks_cons n (firstn n b) (skipn n b)) by auto.
    cbn [app]. f_equal. now apply IHk.
Qed.

Lemma concat_chunks {A} n (l : list A) : (0 < n)%nat -> concat (chunks n l) = l.
Proof.
  intros Hn. remember (length l) as k. revert l Heqk.
  induction k as [k IH] using lt_wf_ind. intros l Hk.
  destruct (Nat.le_gt_cases (length l) n).
  - destruct l; [reflexivity|]. rewrite chunks_last by (cbn in *; lia). cbn. now rewrite app_nil_r.
  - rewrite <- (firstn_skipn n l) at 1. rewrite chunks_cons by (auto; rewrite firstn_length; lia).
    cbn. rewrite (IH (length (skipn n l))); auto. apply firstn_skipn.
    rewrite skipn_length. lia.
Qed.
