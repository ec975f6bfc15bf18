(** Proofs about UTF-16 texts and attributes. *)
From Coq Require Import NArith ZArith Bool Arith Lia List ZifyBool ZifyNat ZifyN.
From Verif Require Import Base Outcome XmlModel XmlSpec XmlProof XmlProof3 Utf16Model.
Import ListNotations.

(** UTF-16 (RFC 2781, section 2.1): the code units of a character *)
Definition scalar (c : N) : Prop := (0 < c < 55296 \/ 57344 <= c < 1114112)%N.
Definition units (c : N) : list N :=
  if (c <? 65536)%N then [c] else [(55296 + (c - 65536) / 1024)%N; (56320 + (c - 65536) mod 1024)%N].
(** their bytes, the high byte first or last *)
Definition unit_bytes (big : bool) (u : N) : list N := if big then [(u / 256)%N; (u mod 256)%N] else [(u mod 256)%N; (u / 256)%N].
Definition utf16 (big : bool) (l : list N) : list N := flat_map (fun c => flat_map (unit_bytes big) (units c)) l.
Definition mark (big : bool) : list N := unit_bytes big 65279.

Lemma lor_high x y : (x < 2 ^ 24 -> y < 256 -> N.lor (N.shiftl x 8) y = x * 256 + y)%N.
Proof.
  intros _ Y. rewrite N.shiftl_mul_pow2. change (2 ^ 8)%N with 256%N.
  rewrite <- N.lxor_lor, <- N.add_nocarry_lxor; try reflexivity;
  apply N.bits_inj; intros n; rewrite N.land_spec, N.bits_0;
  (destruct (N.ltb_spec n 8) as [A|A];
   [change 256%N with (2 ^ 8)%N; rewrite N.mul_pow2_bits_low by exact A; reflexivity|]);
  (replace (N.testbit y n) with false; [apply andb_false_r|]; symmetry; destruct (N.eq_dec y 0) as [->|]; [apply N.bits_0|];
   apply N.bits_above_log2, N.log2_lt_pow2; [lia|]; eapply N.lt_le_trans; [exact Y|]; change 256%N with (2 ^ 8)%N; apply N.pow_le_mono_r; lia).
Qed.
Lemma unit_back big u : (u < 65536)%N -> match unit_bytes big u with [x; y] => unit_of big x y = u | _ => False end.
Proof. intros H. unfold unit_bytes, unit_of. destruct big; rewrite lor_high; lia. Qed.
Lemma lor_ten x y : (y < 1024 -> N.lor (N.shiftl x 10) y = x * 1024 + y)%N.
Proof.
  intros Y. rewrite N.shiftl_mul_pow2. change (2 ^ 10)%N with 1024%N.
  rewrite <- N.lxor_lor, <- N.add_nocarry_lxor; try reflexivity;
  apply N.bits_inj; intros n; rewrite N.land_spec, N.bits_0;
  (destruct (N.ltb_spec n 10) as [A|A];
   [change 1024%N with (2 ^ 10)%N; rewrite N.mul_pow2_bits_low by exact A; reflexivity|]);
  (replace (N.testbit y n) with false; [apply andb_false_r|]; symmetry; destruct (N.eq_dec y 0) as [->|]; [apply N.bits_0|];
   apply N.bits_above_log2, N.log2_lt_pow2; [lia|]; eapply N.lt_le_trans; [exact Y|]; change 1024%N with (2 ^ 10)%N; apply N.pow_le_mono_r; lia).
Qed.
Lemma low_ten x : N.land x 1023 = (x mod 1024)%N.
Proof. change 1023%N with (N.ones 10). rewrite N.land_ones. reflexivity. Qed.
Lemma pair_back c : (65536 <= c < 1114112)%N -> pair_of (55296 + (c - 65536) / 1024) (56320 + (c - 65536) mod 1024) = c.
Proof. intros H. unfold pair_of. rewrite !low_ten, lor_ten by lia. lia. Qed.

(** a character takes at most four bytes *)
Lemma char_bytes_short c : (c < 1114112)%N -> length (char_bytes (Z.of_N c)) <= 4.
Proof.
  intros H. unfold char_bytes. destruct (Z.ltb_spec (Z.of_N c) 128); [cbn; lia|].
  rewrite N2Z.id. unfold utf8_of. cbn [length]. rewrite map_length, rev_length, seq_length.
  assert (N.size c <= 21)%N; [|lia].
  destruct (N.eq_dec c 0) as [->|]; [cbn; lia|]. rewrite N.size_log2 by assumption.
  assert (N.log2 c < 21)%N; [|lia]. apply N.log2_lt_pow2; [lia|]. change (2 ^ 21)%N with 2097152%N. lia.
Qed.
Section U.
Variable P : nat.
Hypothesis HP : 4 <= P.
Lemma emit_ok c out extent alloc : (c < 1114112)%N -> extent <= alloc ->
  exists extent' alloc', emit P c out extent alloc = Ok (out ++ char_bytes (Z.of_N c), extent', alloc') /\ extent' <= alloc'.
Proof.
  intros C A. unfold emit. pose proof (char_bytes_short c C) as S.
  destruct (Nat.ltb_spec extent (length out + P)) as [G|G].
  - replace (_ <=? _) with true by (symmetry; apply Nat.leb_le; lia). eexists _, _. split; [reflexivity|]. lia.
  - replace (_ <=? _) with true by (symmetry; apply Nat.leb_le; lia). eexists _, _. split; [reflexivity|]. lia.
Qed.
Lemma convert_utf16 big l : Forall scalar l -> forall out extent alloc, extent <= alloc ->
  convert_units P big (utf16 big l) out extent alloc = Ok (out ++ flat_map (fun c => char_bytes (Z.of_N c)) l).
Proof.
  induction 1 as [|c l C L IH]; intros out extent alloc E; [cbn; now rewrite app_nil_r|].
  cbn [utf16 flat_map]. fold (utf16 big l). unfold units. destruct (N.ltb_spec c 65536) as [A|A].
  - cbn [flat_map]. rewrite app_nil_r. pose proof (unit_back big c A) as B.
    destruct (unit_bytes big c) as [|x [|y [|]]]; try contradiction. cbn [app convert_units]. rewrite B.
    assert (surrogate c = false) as -> by (unfold surrogate, scalar in *; lia).
    destruct (emit_ok c out extent alloc ltac:(unfold scalar in C; lia) E) as (e & a & -> & E'). cbn [bind].
    rewrite IH by exact E'. now rewrite app_assoc.
  - cbn [flat_map]. rewrite app_nil_r.
    remember (55296 + (c - 65536) / 1024)%N as h eqn:H. remember (56320 + (c - 65536) mod 1024)%N as g eqn:G.
    assert (c < 1114112)%N as C' by (unfold scalar in C; lia).
    pose proof (unit_back big h ltac:(lia)) as B. pose proof (unit_back big g ltac:(lia)) as B'.
    destruct (unit_bytes big h) as [|x [|y [|]]]; try contradiction. destruct (unit_bytes big g) as [|x' [|y' [|]]]; try contradiction.
    cbn [app convert_units]. rewrite B, B'. assert (surrogate h = true) as -> by (unfold surrogate; lia).
    rewrite H, G, pair_back by lia.
    destruct (emit_ok c out extent alloc C' E) as (e & a & -> & E'). cbn [bind].
    rewrite IH by exact E'. now rewrite app_assoc.
Qed.
(** nothing is ever written behind the block, whatever the bytes *)
Lemma convert_in_block big n : forall p, length p <= n -> Forall (fun c => (c < 256)%N) p -> forall out extent alloc, extent <= alloc ->
  exists out', convert_units P big p out extent alloc = Ok out'.
Proof.
  induction n as [|n IH]; intros p K B out extent alloc E; [destruct p; [|cbn in K; lia]; now exists out|].
  destruct p as [|x [|y p]]; try (now exists out).
  inversion B as [|? ? X B1]; subst. inversion B1 as [|? ? Y B2]; subst. cbn [length] in K. cbn [convert_units].
  assert (forall x y, x < 256 -> y < 256 -> unit_of big x y < 65536)%N as U.
  { intros. unfold unit_of. destruct big; rewrite lor_high; lia. }
  pose proof (U x y X Y) as C. destruct (surrogate (unit_of big x y)).
  - assert (exists out', (let* r := emit P (unit_of big x y) out extent alloc in Ok (fst (fst r))) = Ok out') as G.
    { destruct (emit_ok (unit_of big x y) out extent alloc ltac:(lia) E) as (e & a & -> & _). cbn [bind]. eauto. }
    destruct p as [|x' [|y' p]]; [exact G|exact G|].
    inversion B2 as [|? ? X' B3]; subst. inversion B3 as [|? ? Y' B4]; subst.
    assert (pair_of (unit_of big x y) (unit_of big x' y') < 1114112)%N as D.
    { unfold pair_of. rewrite !low_ten, lor_ten; lia. }
    destruct (emit_ok _ out extent alloc D E) as (e & a & -> & E'). cbn [bind]. apply IH; [cbn [length] in K; lia|assumption|exact E'].
  - destruct (emit_ok (unit_of big x y) out extent alloc ltac:(lia) E) as (e & a & -> & E'). cbn [bind]. apply IH; [lia|assumption|exact E'].
Qed.
End U.
Lemma code_points_app : forall n s s' l l', length s <= n -> code_points (length s) s = Some l -> code_points (length s') s' = Some l' ->
  code_points (length (s ++ s')) (s ++ s') = Some (l ++ l').
Proof.
  induction n as [|n IH]; intros s s' l l' K H H'.
  { destruct s; [|cbn in K; lia]. injection H as <-. exact H'. }
  destruct s as [|c s]; [injection H as <-; exact H'|]. cbn [length] in *. cbn [app length code_points] in *.
  assert (forall m v, m <= length s -> option_map (cons v) (code_points (length s) (skipn m s)) = Some l ->
          option_map (cons v) (code_points (length (s ++ s')) (skipn m (s ++ s'))) = Some (l ++ l')) as G.
  { intros m v M E. destruct (code_points (length s) (skipn m s)) as [r|] eqn:R; [|discriminate]. injection E as <-.
    assert (code_points (length (skipn m s)) (skipn m s) = Some r) as R'.
    { clear - R. revert R. generalize (skipn m s) as t. intros t. generalize (length s). intros k. revert t r.
      induction k as [|k IHk]; intros t r R; [destruct t; [exact R|discriminate]|].
      destruct t as [|d t]; [exact R|]. cbn [code_points length] in *.
      assert (forall m v, option_map (cons v) (code_points k (skipn m t)) = Some r -> option_map (cons v) (code_points (length t) (skipn m t)) = Some r) as W.
      { intros m0 v E. destruct (code_points k (skipn m0 t)) as [q|] eqn:Q; [|discriminate]. apply IHk in Q.
        rewrite (code_points_more _ _ _ (length t) Q) by (rewrite skipn_length; lia). exact E. }
      destruct (d <? 128)%N; [now apply (W 0)|].
      destruct t as [|x [|y [|z t]]]; [discriminate| | |];
      repeat match goal with R : (if ?b then _ else _) = Some _ |- _ => destruct b end; try discriminate; first [now apply (W 1)|now apply (W 2)|now apply (W 3)]. }
    assert (code_points (length (skipn m s ++ s')) (skipn m s ++ s') = Some (r ++ l')) as Q.
    { apply (IH (skipn m s)); [rewrite skipn_length; lia|exact R'|exact H']. }
    rewrite skipn_app. replace (m - length s) with 0 by lia. cbn [skipn].
    rewrite (code_points_more _ _ _ (length (s ++ s')) Q) by (rewrite !app_length, skipn_length; lia). reflexivity. }
  destruct (c <? 128)%N; [now apply (G 0); [lia|]|].
  destruct s as [|x [|y [|z s]]]; [discriminate| | |]; cbn [app];
  repeat match goal with R : (if ?b then _ else _) = Some _ |- _ => destruct b eqn:?B end; try discriminate;
  destruct s' as [|x' [|y' s']]; cbn [app] in *; rewrite ?B, ?B0, ?B1; 
  first [now apply (G 1); [cbn; lia|]|now apply (G 2); [cbn; lia|]|now apply (G 3); [cbn; lia|]|idtac].
Qed.
