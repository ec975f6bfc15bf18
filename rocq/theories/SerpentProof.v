(** Serpent: each macro is the S-box of the paper on every bit column, hence the
    straight-line code is the bitslice cipher; inversion. *)
From Coq Require Import Arith NArith List Lia Bool.
From Coq Require Import ZifyBool ZifyNat ZifyN.
From Verif Require Import Base BaseLemmas PackLemmas Mem32 SerpentModel SerpentSpec.
Import ListNotations.
Local Open Scope N_scope.

(** ** Words from bits *)
Lemma word_of_aux (f : N -> bool) k n : N.testbit (fold_right (fun (i : nat) (acc : N) => if f (N.of_nat i) then N.setbit acc (N.of_nat i) else acc) 0 (seq 0 k)) n
  = (n <? N.of_nat k) && f n.
Proof.
  assert (G : forall s, N.testbit (fold_right (fun (i : nat) (acc : N) => if f (N.of_nat i) then N.setbit acc (N.of_nat i) else acc) 0 (seq s k)) n
    = (N.of_nat s <=? n) && (n <? N.of_nat (s + k)) && f n).
  { induction k as [|k IH]; intros s; cbn [seq fold_right].
    - rewrite N.bits_0. destruct (N.leb_spec (N.of_nat s) n), (N.ltb_spec n (N.of_nat (s + 0))); try reflexivity. lia.
    - destruct (N.eqb_spec n (N.of_nat s)) as [->|Hn].
      + assert (E1 : (N.of_nat s <=? N.of_nat s) = true) by lia.
        assert (E2 : (N.of_nat s <? N.of_nat (s + S k)) = true) by lia.
        assert (E3 : (N.of_nat (S s) <=? N.of_nat s) = false) by lia.
        rewrite E1, E2. cbn [andb].
        destruct (f (N.of_nat s)).
        * rewrite N.setbit_eqb, N.eqb_refl. reflexivity.
        * rewrite IH, E3. reflexivity.
      + assert (E : forall acc, N.testbit (if f (N.of_nat s) then N.setbit acc (N.of_nat s) else acc) n = N.testbit acc n).
        { intros acc. destruct (f (N.of_nat s)); [|reflexivity].
          rewrite N.setbit_eqb. destruct (N.eqb_spec (N.of_nat s) n); [congruence|reflexivity]. }
        rewrite E, IH. replace (s + S k)%nat with (S s + k)%nat by lia.
        f_equal. f_equal. destruct (N.leb_spec (N.of_nat (S s)) n), (N.leb_spec (N.of_nat s) n); try reflexivity; lia. }
  rewrite G. cbn [N.of_nat Nat.add]. destruct n; reflexivity.
Qed.
Lemma word_of_testbit f n : n < 32 -> N.testbit (word_of f) n = f n.
Proof.
  intros H. unfold word_of. rewrite word_of_aux. change (N.of_nat 32) with 32.
  destruct (N.ltb_spec n 32); [reflexivity|lia].
Qed.
Lemma word_of_word f : word 32 (word_of f).
Proof.
  apply word_testbit. intros n H. unfold word_of. rewrite word_of_aux. change (N.of_nat 32) with 32.
  destruct (N.ltb_spec n 32); [lia|reflexivity].
Qed.
#[global] Opaque word_of.

(** ** The S-box macros *)
Ltac words_ := repeat first [assumption | apply word_wnot | apply word_lxor | apply word_lor | apply word_land_l].
Ltac sbox_word :=
  match goal with |- ?L = word_of ?f =>
    let H := fresh in
    apply (word_ext 32); [words_ | apply word_of_word |
      intros n Hn; rewrite word_of_testbit by exact Hn;
      unfold column;
      repeat (rewrite ?N.lxor_spec, ?N.land_spec, ?N.lor_spec, ?(wnot_testbit 32) by exact Hn);
      repeat match goal with |- context [N.testbit ?v n] =>
        is_var v; destruct (N.testbit v n) end;
      reflexivity] end.

Lemma Encipher_sbox0 a b c d e : word 32 a -> word 32 b -> word 32 c -> word 32 d ->
  forall x0 x1 x2 x3, S_box 0 (a, b, c, d) = (x0, x1, x2, x3) ->
  exists z, EncipherSbox0 word_ops a b c d e = (x3, x1, x0, x2, z).
Proof.
  intros Ha Hb Hc Hd x0 x1 x2 x3 E. unfold S_box, substitute in E.
  cbn [S_box Nat.modulo Nat.divmod Nat.sub snd fst nth S_tables] in E. injection E as <- <- <- <-.
  unfold EncipherSbox0. cbn [xor_ and_ or_ not_ word_ops]. cbv zeta.
  eexists. repeat match goal with |- (_, _) = (_, _) => refine (f_equal2 pair _ _) end; try reflexivity.
  all: sbox_word.
Qed.

Lemma Encipher_sbox1 a b c d e : word 32 a -> word 32 b -> word 32 c -> word 32 d ->
  forall x0 x1 x2 x3, S_box 1 (a, b, c, d) = (x0, x1, x2, x3) ->
  exists z, EncipherSbox1 word_ops a b c d e = (x3, z, x1, x2, x0).
Proof.
  intros Ha Hb Hc Hd x0 x1 x2 x3 E. unfold S_box, substitute in E.
  cbn [S_box Nat.modulo Nat.divmod Nat.sub snd fst nth S_tables] in E. injection E as <- <- <- <-.
  unfold EncipherSbox1. cbn [xor_ and_ or_ not_ word_ops]. cbv zeta.
  eexists. repeat match goal with |- (_, _) = (_, _) => refine (f_equal2 pair _ _) end; try reflexivity.
  all: sbox_word.
Qed.

Lemma Encipher_sbox2 a b c d e : word 32 a -> word 32 b -> word 32 c -> word 32 d ->
  forall x0 x1 x2 x3, S_box 2 (a, b, c, d) = (x0, x1, x2, x3) ->
  exists z, EncipherSbox2 word_ops a b c d e = (x2, x1, z, x3, x0).
Proof.
  intros Ha Hb Hc Hd x0 x1 x2 x3 E. unfold S_box, substitute in E.
  cbn [S_box Nat.modulo Nat.divmod Nat.sub snd fst nth S_tables] in E. injection E as <- <- <- <-.
  unfold EncipherSbox2. cbn [xor_ and_ or_ not_ word_ops]. cbv zeta.
  eexists. repeat match goal with |- (_, _) = (_, _) => refine (f_equal2 pair _ _) end; try reflexivity.
  all: sbox_word.
Qed.

Lemma Encipher_sbox3 a b c d e : word 32 a -> word 32 b -> word 32 c -> word 32 d ->
  forall x0 x1 x2 x3, S_box 3 (a, b, c, d) = (x0, x1, x2, x3) ->
  exists z, EncipherSbox3 word_ops a b c d e = (x3, x2, z, x0, x1).
Proof.
  intros Ha Hb Hc Hd x0 x1 x2 x3 E. unfold S_box, substitute in E.
  cbn [S_box Nat.modulo Nat.divmod Nat.sub snd fst nth S_tables] in E. injection E as <- <- <- <-.
  unfold EncipherSbox3. cbn [xor_ and_ or_ not_ word_ops]. cbv zeta.
  eexists. repeat match goal with |- (_, _) = (_, _) => refine (f_equal2 pair _ _) end; try reflexivity.
  all: sbox_word.
Qed.

Lemma Encipher_sbox4 a b c d e : word 32 a -> word 32 b -> word 32 c -> word 32 d ->
  forall x0 x1 x2 x3, S_box 4 (a, b, c, d) = (x0, x1, x2, x3) ->
  exists z, EncipherSbox4 word_ops a b c d e = (z, x0, x1, x2, x3).
Proof.
  intros Ha Hb Hc Hd x0 x1 x2 x3 E. unfold S_box, substitute in E.
  cbn [S_box Nat.modulo Nat.divmod Nat.sub snd fst nth S_tables] in E. injection E as <- <- <- <-.
  unfold EncipherSbox4. cbn [xor_ and_ or_ not_ word_ops]. cbv zeta.
  eexists. repeat match goal with |- (_, _) = (_, _) => refine (f_equal2 pair _ _) end; try reflexivity.
  all: sbox_word.
Qed.

Lemma Encipher_sbox5 a b c d e : word 32 a -> word 32 b -> word 32 c -> word 32 d ->
  forall x0 x1 x2 x3, S_box 5 (a, b, c, d) = (x0, x1, x2, x3) ->
  exists z, EncipherSbox5 word_ops a b c d e = (x1, x2, z, x3, x0).
Proof.
  intros Ha Hb Hc Hd x0 x1 x2 x3 E. unfold S_box, substitute in E.
  cbn [S_box Nat.modulo Nat.divmod Nat.sub snd fst nth S_tables] in E. injection E as <- <- <- <-.
  unfold EncipherSbox5. cbn [xor_ and_ or_ not_ word_ops]. cbv zeta.
  eexists. repeat match goal with |- (_, _) = (_, _) => refine (f_equal2 pair _ _) end; try reflexivity.
  all: sbox_word.
Qed.

Lemma Encipher_sbox6 a b c d e : word 32 a -> word 32 b -> word 32 c -> word 32 d ->
  forall x0 x1 x2 x3, S_box 6 (a, b, c, d) = (x0, x1, x2, x3) ->
  exists z, EncipherSbox6 word_ops a b c d e = (z, x2, x0, x3, x1).
Proof.
  intros Ha Hb Hc Hd x0 x1 x2 x3 E. unfold S_box, substitute in E.
  cbn [S_box Nat.modulo Nat.divmod Nat.sub snd fst nth S_tables] in E. injection E as <- <- <- <-.
  unfold EncipherSbox6. cbn [xor_ and_ or_ not_ word_ops]. cbv zeta.
  eexists. repeat match goal with |- (_, _) = (_, _) => refine (f_equal2 pair _ _) end; try reflexivity.
  all: sbox_word.
Qed.

Lemma Encipher_sbox7 a b c d e : word 32 a -> word 32 b -> word 32 c -> word 32 d ->
  forall x0 x1 x2 x3, S_box 7 (a, b, c, d) = (x0, x1, x2, x3) ->
  exists z, EncipherSbox7 word_ops a b c d e = (x3, z, x1, x2, x0).
Proof.
  intros Ha Hb Hc Hd x0 x1 x2 x3 E. unfold S_box, substitute in E.
  cbn [S_box Nat.modulo Nat.divmod Nat.sub snd fst nth S_tables] in E. injection E as <- <- <- <-.
  unfold EncipherSbox7. cbn [xor_ and_ or_ not_ word_ops]. cbv zeta.
  eexists. repeat match goal with |- (_, _) = (_, _) => refine (f_equal2 pair _ _) end; try reflexivity.
  all: sbox_word.
Qed.

Lemma Decipher_sbox0 a b c d e : word 32 a -> word 32 b -> word 32 c -> word 32 d ->
  forall x0 x1 x2 x3, S_inv 0 (a, b, c, d) = (x0, x1, x2, x3) ->
  exists z, DecipherSbox0 word_ops a b c d e = (x3, x2, x0, z, x1).
Proof.
  intros Ha Hb Hc Hd x0 x1 x2 x3 E. unfold S_inv, substitute in E.
  cbn [S_inv Nat.modulo Nat.divmod Nat.sub snd fst nth S_tables] in E. injection E as <- <- <- <-.
  unfold DecipherSbox0. cbn [xor_ and_ or_ not_ word_ops]. cbv zeta.
  eexists. repeat match goal with |- (_, _) = (_, _) => refine (f_equal2 pair _ _) end; try reflexivity.
  all: sbox_word.
Qed.

Lemma Decipher_sbox1 a b c d e : word 32 a -> word 32 b -> word 32 c -> word 32 d ->
  forall x0 x1 x2 x3, S_inv 1 (a, b, c, d) = (x0, x1, x2, x3) ->
  exists z, DecipherSbox1 word_ops a b c d e = (z, x1, x2, x3, x0).
Proof.
  intros Ha Hb Hc Hd x0 x1 x2 x3 E. unfold S_inv, substitute in E.
  cbn [S_inv Nat.modulo Nat.divmod Nat.sub snd fst nth S_tables] in E. injection E as <- <- <- <-.
  unfold DecipherSbox1. cbn [xor_ and_ or_ not_ word_ops]. cbv zeta.
  eexists. repeat match goal with |- (_, _) = (_, _) => refine (f_equal2 pair _ _) end; try reflexivity.
  all: sbox_word.
Qed.

Lemma Decipher_sbox2 a b c d e : word 32 a -> word 32 b -> word 32 c -> word 32 d ->
  forall x0 x1 x2 x3, S_inv 2 (a, b, c, d) = (x0, x1, x2, x3) ->
  exists z, DecipherSbox2 word_ops a b c d e = (z, x0, x3, x2, x1).
Proof.
  intros Ha Hb Hc Hd x0 x1 x2 x3 E. unfold S_inv, substitute in E.
  cbn [S_inv Nat.modulo Nat.divmod Nat.sub snd fst nth S_tables] in E. injection E as <- <- <- <-.
  unfold DecipherSbox2. cbn [xor_ and_ or_ not_ word_ops]. cbv zeta.
  eexists. repeat match goal with |- (_, _) = (_, _) => refine (f_equal2 pair _ _) end; try reflexivity.
  all: sbox_word.
Qed.

Lemma Decipher_sbox3 a b c d e : word 32 a -> word 32 b -> word 32 c -> word 32 d ->
  forall x0 x1 x2 x3, S_inv 3 (a, b, c, d) = (x0, x1, x2, x3) ->
  exists z, DecipherSbox3 word_ops a b c d e = (x1, z, x0, x3, x2).
Proof.
  intros Ha Hb Hc Hd x0 x1 x2 x3 E. unfold S_inv, substitute in E.
  cbn [S_inv Nat.modulo Nat.divmod Nat.sub snd fst nth S_tables] in E. injection E as <- <- <- <-.
  unfold DecipherSbox3. cbn [xor_ and_ or_ not_ word_ops]. cbv zeta.
  eexists. repeat match goal with |- (_, _) = (_, _) => refine (f_equal2 pair _ _) end; try reflexivity.
  all: sbox_word.
Qed.

Lemma Decipher_sbox4 a b c d e : word 32 a -> word 32 b -> word 32 c -> word 32 d ->
  forall x0 x1 x2 x3, S_inv 4 (a, b, c, d) = (x0, x1, x2, x3) ->
  exists z, DecipherSbox4 word_ops a b c d e = (x0, z, x1, x3, x2).
Proof.
  intros Ha Hb Hc Hd x0 x1 x2 x3 E. unfold S_inv, substitute in E.
  cbn [S_inv Nat.modulo Nat.divmod Nat.sub snd fst nth S_tables] in E. injection E as <- <- <- <-.
  unfold DecipherSbox4. cbn [xor_ and_ or_ not_ word_ops]. cbv zeta.
  eexists. repeat match goal with |- (_, _) = (_, _) => refine (f_equal2 pair _ _) end; try reflexivity.
  all: sbox_word.
Qed.

Lemma Decipher_sbox5 a b c d e : word 32 a -> word 32 b -> word 32 c -> word 32 d ->
  forall x0 x1 x2 x3, S_inv 5 (a, b, c, d) = (x0, x1, x2, x3) ->
  exists z, DecipherSbox5 word_ops a b c d e = (x2, x0, x3, z, x1).
Proof.
  intros Ha Hb Hc Hd x0 x1 x2 x3 E. unfold S_inv, substitute in E.
  cbn [S_inv Nat.modulo Nat.divmod Nat.sub snd fst nth S_tables] in E. injection E as <- <- <- <-.
  unfold DecipherSbox5. cbn [xor_ and_ or_ not_ word_ops]. cbv zeta.
  eexists. repeat match goal with |- (_, _) = (_, _) => refine (f_equal2 pair _ _) end; try reflexivity.
  all: sbox_word.
Qed.

Lemma Decipher_sbox6 a b c d e : word 32 a -> word 32 b -> word 32 c -> word 32 d ->
  forall x0 x1 x2 x3, S_inv 6 (a, b, c, d) = (x0, x1, x2, x3) ->
  exists z, DecipherSbox6 word_ops a b c d e = (x3, z, x0, x2, x1).
Proof.
  intros Ha Hb Hc Hd x0 x1 x2 x3 E. unfold S_inv, substitute in E.
  cbn [S_inv Nat.modulo Nat.divmod Nat.sub snd fst nth S_tables] in E. injection E as <- <- <- <-.
  unfold DecipherSbox6. cbn [xor_ and_ or_ not_ word_ops]. cbv zeta.
  eexists. repeat match goal with |- (_, _) = (_, _) => refine (f_equal2 pair _ _) end; try reflexivity.
  all: sbox_word.
Qed.

Lemma Decipher_sbox7 a b c d e : word 32 a -> word 32 b -> word 32 c -> word 32 d ->
  forall x0 x1 x2 x3, S_inv 7 (a, b, c, d) = (x0, x1, x2, x3) ->
  exists z, DecipherSbox7 word_ops a b c d e = (x2, x0, z, x1, x3).
Proof.
  intros Ha Hb Hc Hd x0 x1 x2 x3 E. unfold S_inv, substitute in E.
  cbn [S_inv Nat.modulo Nat.divmod Nat.sub snd fst nth S_tables] in E. injection E as <- <- <- <-.
  unfold DecipherSbox7. cbn [xor_ and_ or_ not_ word_ops]. cbv zeta.
  eexists. repeat match goal with |- (_, _) = (_, _) => refine (f_equal2 pair _ _) end; try reflexivity.
  all: sbox_word.
Qed.

Lemma substitute_words t X x0 x1 x2 x3 : substitute t X = (x0, x1, x2, x3) ->
  word 32 x0 /\ word 32 x1 /\ word 32 x2 /\ word 32 x3.
Proof. unfold substitute. intros E. injection E as <- <- <- <-. repeat split; apply word_of_word. Qed.

Definition block_words (X : block) : Prop :=
  let '(a, b, c, d) := X in word 32 a /\ word 32 b /\ word 32 c /\ word 32 d.

Lemma S_box_words i X : block_words (S_box i X).
Proof. unfold S_box, substitute, block_words. repeat split; apply word_of_word. Qed.
Lemma S_inv_words i X : block_words (S_inv i X).
Proof. unfold S_inv, substitute, block_words. repeat split; apply word_of_word. Qed.
Lemma mix_words K i X : words 32 K -> block_words X -> block_words (mix K i X).
Proof.
  intros HK. destruct X as [[[a b] c] d]. cbn [block_words mix]. intros (? & ? & ? & ?).
  repeat split; apply word_lxor; auto; now apply get_word.
Qed.
Lemma LT_words X : block_words X -> block_words (LT X).
Proof.
  destruct X as [[[a b] c] d]. cbn [block_words LT]. intros (? & ? & ? & ?).
  repeat split; repeat first [assumption | apply word_wshl | apply word_rotl | apply word_lxor].
Qed.

(** inverse of LT *)
Definition LT_inv (X : block) : block :=
  let '(X0, X1, X2, X3) := X in
  let X2 := rotr 32 X2 22 in
  let X0 := rotr 32 X0 5 in
  let X2 := N.lxor X2 (N.lxor X3 (wshl 32 X1 7)) in
  let X0 := N.lxor X0 (N.lxor X1 X3) in
  let X3 := rotr 32 X3 7 in
  let X1 := rotr 32 X1 1 in
  let X3 := N.lxor X3 (N.lxor X2 (wshl 32 X0 3)) in
  let X1 := N.lxor X1 (N.lxor X0 X2) in
  let X2 := rotr 32 X2 3 in
  let X0 := rotr 32 X0 13 in
  (X0, X1, X2, X3).
Lemma LT_inv_words X : block_words X -> block_words (LT_inv X).
Proof.
  destruct X as [[[a b] c] d]. cbn [block_words LT_inv]. intros (? & ? & ? & ?).
  repeat split; repeat first [assumption | apply word_wshl | apply word_rotr | apply word_lxor].
Qed.
Ltac w32 := repeat first [assumption | apply word_wshl | apply word_rotl | apply word_rotr | apply word_lxor].
Lemma LT_inv_LT X : block_words X -> LT_inv (LT X) = X.
Proof.
  destruct X as [[[a b] c] d]. cbn [block_words LT_inv LT]. intros (Ha & Hb & Hc & Hd).
  rewrite !(rotr_rotl 32) by (w32 || reflexivity).
  set (a1 := rotl 32 a 13). set (c1 := rotl 32 c 3).
  set (b1 := rotl 32 (N.lxor b (N.lxor a1 c1)) 1).
  set (d1 := rotl 32 (N.lxor d (N.lxor c1 (wshl 32 a1 3))) 7).
  rewrite !lxor_cancel_r. subst a1 c1. rewrite ?lxor_cancel_r.
  rewrite !(rotr_rotl 32) by (w32 || reflexivity). reflexivity.
Qed.
Lemma LT_LT_inv X : block_words X -> LT (LT_inv X) = X.
Proof.
  destruct X as [[[a b] c] d]. cbn [block_words LT_inv LT]. intros (Ha & Hb & Hc & Hd).
  rewrite !(rotl_rotr 32) by (w32 || reflexivity).
  set (a1 := N.lxor (rotr 32 a 5) (N.lxor b d)).
  set (c1 := N.lxor (rotr 32 c 22) (N.lxor d (wshl 32 b 7))).
  rewrite !lxor_cancel_r.
  rewrite !(rotl_rotr 32) by (w32 || reflexivity).
  subst a1 c1. rewrite ?lxor_cancel_r.
  rewrite !(rotl_rotr 32) by (w32 || reflexivity). reflexivity.
Qed.

Lemma nibble_testbit b0 b1 b2 b3 :
  N.testbit (nibble b0 b1 b2 b3) 0 = b0 /\ N.testbit (nibble b0 b1 b2 b3) 1 = b1 /\
  N.testbit (nibble b0 b1 b2 b3) 2 = b2 /\ N.testbit (nibble b0 b1 b2 b3) 3 = b3.
Proof. destruct b0, b1, b2, b3; repeat split; reflexivity. Qed.
Lemma nibble_lt b0 b1 b2 b3 : nibble b0 b1 b2 b3 < 16.
Proof. destruct b0, b1, b2, b3; reflexivity. Qed.
Lemma nibble_of v : v < 16 ->
  nibble (N.testbit v 0) (N.testbit v 1) (N.testbit v 2) (N.testbit v 3) = v.
Proof.
  intros H.
  assert (G : forallb (fun v => nibble (N.testbit v 0) (N.testbit v 1) (N.testbit v 2) (N.testbit v 3) =? v)
                (map N.of_nat (seq 0 16)) = true) by reflexivity.
  rewrite forallb_forall in G. apply N.eqb_eq, G, in_map_iff.
  exists (N.to_nat v). rewrite N2Nat.id. split; [reflexivity|]. apply in_seq. lia.
Qed.
Lemma substitute_inverse t t' X : block_words X ->
  (forall v, v < 16 -> tab t v < 16 /\ tab t' (tab t v) = v) ->
  substitute t' (substitute t X) = X.
Proof.
  intros HX Ht. destruct X as [[[a b] c] d]. destruct HX as (Ha & Hb & Hc & Hd).
  assert (C : forall n, n < 32 -> tab t' (column (substitute t (a, b, c, d)) n) = column (a, b, c, d) n).
  { intros n Hn. unfold substitute. unfold column at 1. rewrite !word_of_testbit by exact Hn.
    destruct (Ht (column (a, b, c, d) n)) as [H1 H2].
    { unfold column. apply nibble_lt. }
    rewrite nibble_of by exact H1. exact H2. }
  unfold substitute at 1.
  repeat apply f_equal2; apply (word_ext 32); auto using word_of_word; intros n Hn;
    rewrite word_of_testbit, C by exact Hn; unfold column; apply nibble_testbit.
Qed.
Lemma S_tables_ok i : forall v, v < 16 ->
  let t := nth (i mod 8) S_tables [] in
  (tab t v < 16 /\ tab (inverse_table t) (tab t v) = v) /\
  (tab (inverse_table t) v < 16 /\ tab t (tab (inverse_table t) v) = v).
Proof.
  intros v Hv. cbv zeta.
  assert (G : forallb (fun t => forallb (fun v => (tab t v <? 16) && (tab (inverse_table t) (tab t v) =? v) &&
     (tab (inverse_table t) v <? 16) && (tab t (tab (inverse_table t) v) =? v)) (map N.of_nat (seq 0 16))) S_tables = true)
    by reflexivity.
  rewrite forallb_forall in G. specialize (G (nth (i mod 8) S_tables [])).
  rewrite forallb_forall in G.
  assert (G' := G (nth_In S_tables [] (Nat.mod_upper_bound i 8 ltac:(discriminate))
                  : In (nth (i mod 8) S_tables []) S_tables) v).
  clear G. rewrite !andb_true_iff in G'.
  destruct G' as [[[H1 H2] H3] H4].
  - apply in_map_iff. exists (N.to_nat v). rewrite N2Nat.id. split; [reflexivity|]. apply in_seq. lia.
  - apply N.ltb_lt in H1, H3. apply N.eqb_eq in H2, H4. auto.
Qed.
Lemma S_inv_S i X : block_words X -> S_inv i (S_box i X) = X.
Proof. intros H. apply substitute_inverse; auto. intros v Hv. now apply S_tables_ok. Qed.
Lemma S_S_inv i X : block_words X -> S_box i (S_inv i X) = X.
Proof. intros H. apply substitute_inverse; auto. intros v Hv. now apply (S_tables_ok i v Hv). Qed.
Lemma mix_mix K i X : mix K i (mix K i X) = X.
Proof. destruct X as [[[a b] c] d]. cbn [mix]. now rewrite !lxor_cancel_r. Qed.

(** the inverse cipher *)
Definition R_inv (K : list N) (i : nat) (X : block) : block := mix K i (S_inv i (LT_inv X)).
Definition decrypt_words (K : list N) (X : block) : block :=
  fold_left (fun X i => R_inv K i X) (rev (seq 0 31)) (mix K 31 (S_inv 31 (mix K 32 X))).

Lemma R_inv_R K i X : words 32 K -> block_words X -> R_inv K i (R K i X) = X.
Proof.
  intros HK HX. unfold R_inv, R. assert (HM := mix_words K i X HK HX).
  rewrite LT_inv_LT by apply S_box_words. rewrite S_inv_S by exact HM. apply mix_mix.
Qed.
Lemma R_R_inv K i X : words 32 K -> block_words X -> R K i (R_inv K i X) = X.
Proof.
  intros HK HX. unfold R_inv, R. rewrite mix_mix.
  rewrite S_S_inv by now apply LT_inv_words. now apply LT_LT_inv.
Qed.
Lemma R_words K i X : block_words (R K i X).
Proof. apply LT_words, S_box_words. Qed.
Lemma R_inv_words K i X : words 32 K -> block_words (R_inv K i X).
Proof. intros. apply mix_words; auto. apply S_inv_words. Qed.

Lemma fold_inverse {A} (P : A -> Prop) (f g : A -> nat -> A) l :
  (forall x i, P x -> g (f x i) i = x) -> (forall x i, P x -> P (f x i)) ->
  forall x, P x -> fold_left g (rev l) (fold_left f l x) = x.
Proof.
  intros H1 H2. induction l as [|i l IH]; intros x Hx; [reflexivity|].
  cbn [rev fold_left]. rewrite fold_left_app. cbn [fold_left]. rewrite IH by now apply H2. now apply H1.
Qed.
Lemma fold_keeps {A} (P : A -> Prop) (f : A -> nat -> A) l :
  (forall x i, P x -> P (f x i)) -> forall x, P x -> P (fold_left f l x).
Proof. intros H. induction l as [|i l IH]; intros x Hx; [exact Hx|]. cbn [fold_left]. apply IH, H, Hx. Qed.

Lemma decrypt_encrypt_words K X : words 32 K -> block_words X -> decrypt_words K (encrypt_words K X) = X.
Proof.
  intros HK HX. unfold decrypt_words, encrypt_words.
  assert (HF : block_words (fold_left (fun X i => R K i X) (seq 0 31) X)).
  { apply fold_keeps; auto. intros. apply R_words. }
  rewrite mix_mix. rewrite S_inv_S by now apply mix_words. rewrite mix_mix.
  apply (fold_inverse block_words); auto.
  - intros. now apply R_inv_R.
  - intros. apply R_words.
Qed.
Lemma encrypt_decrypt_words K X : words 32 K -> block_words X -> encrypt_words K (decrypt_words K X) = X.
Proof.
  intros HK HX. unfold decrypt_words, encrypt_words.
  rewrite <- (rev_involutive (seq 0 31)) at 1.
  assert (H1 : block_words (mix K 31 (S_inv 31 (mix K 32 X)))) by (apply mix_words; auto; apply S_inv_words).
  rewrite (fold_inverse block_words (fun X i => R_inv K i X) (fun X i => R K i X) (rev (seq 0 31))); auto.
  - rewrite mix_mix. rewrite S_S_inv by now apply mix_words. apply mix_mix.
  - intros. now apply R_R_inv.
  - intros. now apply R_inv_words.
Qed.
Lemma encrypt_words_words K X : words 32 K -> block_words (encrypt_words K X).
Proof. intros. apply mix_words; auto. apply S_box_words. Qed.
Lemma decrypt_words_words K X : words 32 K -> block_words (decrypt_words K X).
Proof.
  intros. unfold decrypt_words. apply (fold_keeps block_words).
  - intros. now apply R_inv_words.
  - apply mix_words; auto. apply S_inv_words.
Qed.

(** ** The straight-line code *)
Lemma EncipherK_eq K a b c d e i y0 y1 y2 y3 : mix K i (LT (a, b, c, d)) = (y0, y1, y2, y3) ->
  exists z, EncipherK K a b c d e i = (y0, y1, y2, y3, z).
Proof.
  cbn [mix LT]. intros E. injection E as <- <- <- <-. eexists. unfold EncipherK, RotateLeft.
  rewrite !(Nat.add_0_r (4 * i)). cbv zeta.
  set (a1 := rotl 32 a 13). set (c1 := rotl 32 c 3).
  rewrite !N.lxor_assoc. reflexivity.
Qed.
Lemma MixKey_mix K a b c d i : MixKey K a b c d i = mix K i (a, b, c, d).
Proof. unfold MixKey, mix. now rewrite !(Nat.add_0_r (4 * i)). Qed.


Lemma DecipherK_eq K a b c d e i y0 y1 y2 y3 : LT_inv (mix K i (a, b, c, d)) = (y0, y1, y2, y3) ->
  exists z, DecipherK K a b c d e i = (y0, y1, y2, y3, z).
Proof.
  intros E. unfold DecipherK. rewrite MixKey_mix. destruct (mix K i (a, b, c, d)) as [[[a0 b0] c0] d0].
  eexists. unfold RotateRight. cbv zeta.
  replace (N.lxor (N.lxor (rotr 32 a0 5) d0) b0) with (N.lxor (rotr 32 a0 5) (N.lxor b0 d0)).
  2: { apply N.bits_inj; intros n; rewrite !N.lxor_spec.
       now destruct (N.testbit (rotr 32 a0 5) n), (N.testbit b0 n), (N.testbit d0 n). }
  rewrite (N.lxor_assoc (rotr 32 c0 22)).
  transitivity (let '(y0, y1, y2, y3) := LT_inv (a0, b0, c0, d0) in
    (y0, y1, y2, y3, wshl 32 (N.lxor (rotr 32 a0 5) (N.lxor b0 d0)) 3)); [|rewrite E; reflexivity].
  unfold LT_inv.
  generalize (N.lxor (rotr 32 a0 5) (N.lxor b0 d0)). intros a1.
  generalize (N.lxor (rotr 32 c0 22) (N.lxor d0 (wshl 32 b0 7))). intros c1. clear E.
  rewrite (N.lxor_assoc (rotr 32 b0 1) a1 c1), (N.lxor_assoc (rotr 32 d0 7)), (N.lxor_comm c1 (wshl 32 a1 3)).
  reflexivity.
Qed.
(** one S-box of the chain: L is the macro's lemma *)
Ltac sbox_step L S Swords i :=
  match goal with Hw : block_words (?a, ?b, ?c, ?d) |- context [S i (?a, ?b, ?c, ?d)] =>
    let E := fresh "E" in let W := fresh "W" in
    let x0 := fresh "x" in let x1 := fresh "x" in let x2 := fresh "x" in let x3 := fresh "x" in
    assert (W := Swords i (a, b, c, d));
    destruct (S i (a, b, c, d)) as [[[x0 x1] x2] x3] eqn:E;
    match goal with |- context [_ word_ops a b c d ?e] =>
      let Z := fresh "Z" in let z := fresh "z" in
      destruct (L a b c d e (proj1 Hw) (proj1 (proj2 Hw)) (proj1 (proj2 (proj2 Hw))) (proj2 (proj2 (proj2 Hw))) x0 x1 x2 x3 E) as [z Z];
      rewrite Z; clear Z E Hw; cbv beta iota
    end
  end.
Ltac enck_step K HK i :=
  match goal with Hw : block_words (?a, ?b, ?c, ?d) |- context [mix K i (LT (?a, ?b, ?c, ?d))] =>
    let E := fresh "E" in let W := fresh "W" in
    let x0 := fresh "x" in let x1 := fresh "x" in let x2 := fresh "x" in let x3 := fresh "x" in
    assert (W := mix_words K i _ HK (LT_words _ Hw));
    destruct (mix K i (LT (a, b, c, d))) as [[[x0 x1] x2] x3] eqn:E;
    match goal with |- context [EncipherK K a b c d ?e i] =>
      let Z := fresh "Z" in let z := fresh "z" in
      destruct (EncipherK_eq K a b c d e i x0 x1 x2 x3 E) as [z Z];
      rewrite Z; clear Z E Hw; cbv beta iota
    end
  end.
Ltac deck_step K HK i :=
  match goal with Hw : block_words (?a, ?b, ?c, ?d) |- context [LT_inv (mix K i (?a, ?b, ?c, ?d))] =>
    let E := fresh "E" in let W := fresh "W" in
    let x0 := fresh "x" in let x1 := fresh "x" in let x2 := fresh "x" in let x3 := fresh "x" in
    assert (W := LT_inv_words _ (mix_words K i _ HK Hw));
    destruct (LT_inv (mix K i (a, b, c, d))) as [[[x0 x1] x2] x3] eqn:E;
    match goal with |- context [DecipherK K a b c d ?e i] =>
      let Z := fresh "Z" in let z := fresh "z" in
      destruct (DecipherK_eq K a b c d e i x0 x1 x2 x3 E) as [z Z];
      rewrite Z; clear Z E Hw; cbv beta iota
    end
  end.
Ltac mix_step K HK i :=
  match goal with Hw : block_words (?a, ?b, ?c, ?d) |- context [MixKey K ?a ?b ?c ?d i] =>
    let E := fresh "E" in let W := fresh "W" in
    let x0 := fresh "x" in let x1 := fresh "x" in let x2 := fresh "x" in let x3 := fresh "x" in
    rewrite (MixKey_mix K a b c d i);
    assert (W := mix_words K i _ HK Hw);
    destruct (mix K i (a, b, c, d)) as [[[x0 x1] x2] x3] eqn:E;
    clear E Hw; cbv beta iota
  end.

Lemma S_box_mod i : S_box i = S_box (i mod 8).
Proof. unfold S_box. now rewrite Nat.mod_mod by discriminate. Qed.

Lemma to_block_words p : bytes p -> length p = 16%nat -> block_words (to_block p).
Proof.
  intros Hp L. unfold to_block, block_words.
  assert (G : forall i, (i + 4 <= 16)%nat -> word 32 (le_val (slice p i 4))).
  { intros i Hi. assert (B : bytes (slice p i 4)).
    { now apply bytes_slice. }
    apply le_val_bound in B. unfold word. eapply N.lt_le_trans; [exact B|].
    unfold slice. rewrite firstn_length, skipn_length, L. change (2 ^ 32) with (256 ^ N.of_nat 4).
    apply N.pow_le_mono_r; lia. }
  repeat split; apply G; lia.
Qed.
Lemma load_block p i : bytes p -> length p = 16%nat -> (i + 4 <= 16)%nat -> load32le (slice p i 4) = le_val (slice p i 4).
Proof.
  intros Hp L Hi. apply load32le_val.
  - now apply bytes_slice.
  - unfold slice. rewrite firstn_length, skipn_length, L. lia.
Qed.

Lemma encipher16_spec K e p : words 32 K -> bytes p -> length p = 16%nat ->
  encipher16 K e p = of_block (encrypt_words K (to_block p)).
Proof.
  intros HK Hp L. assert (W := to_block_words p Hp L).
  unfold encipher16. rewrite !(load_block p) by (auto; lia). cbv zeta.
  unfold to_block in *. 
  generalize dependent (le_val (slice p 12 4)). generalize (le_val (slice p 8 4)), (le_val (slice p 4 4)), (le_val (slice p 0 4)).
  intros a b c d W. unfold encrypt_words. cbn [seq fold_left]. unfold R.
  mix_step K HK 0%nat.
  sbox_step Encipher_sbox0 S_box S_box_words 0%nat. enck_step K HK 1%nat.
  sbox_step Encipher_sbox1 S_box S_box_words 1%nat. enck_step K HK 2%nat.
  sbox_step Encipher_sbox2 S_box S_box_words 2%nat. enck_step K HK 3%nat.
  sbox_step Encipher_sbox3 S_box S_box_words 3%nat. enck_step K HK 4%nat.
  sbox_step Encipher_sbox4 S_box S_box_words 4%nat. enck_step K HK 5%nat.
  sbox_step Encipher_sbox5 S_box S_box_words 5%nat. enck_step K HK 6%nat.
  sbox_step Encipher_sbox6 S_box S_box_words 6%nat. enck_step K HK 7%nat.
  sbox_step Encipher_sbox7 S_box S_box_words 7%nat. enck_step K HK 8%nat.
  sbox_step Encipher_sbox0 S_box S_box_words 8%nat. enck_step K HK 9%nat.
  sbox_step Encipher_sbox1 S_box S_box_words 9%nat. enck_step K HK 10%nat.
  sbox_step Encipher_sbox2 S_box S_box_words 10%nat. enck_step K HK 11%nat.
  sbox_step Encipher_sbox3 S_box S_box_words 11%nat. enck_step K HK 12%nat.
  sbox_step Encipher_sbox4 S_box S_box_words 12%nat. enck_step K HK 13%nat.
  sbox_step Encipher_sbox5 S_box S_box_words 13%nat. enck_step K HK 14%nat.
  sbox_step Encipher_sbox6 S_box S_box_words 14%nat. enck_step K HK 15%nat.
  sbox_step Encipher_sbox7 S_box S_box_words 15%nat. enck_step K HK 16%nat.
  sbox_step Encipher_sbox0 S_box S_box_words 16%nat. enck_step K HK 17%nat.
  sbox_step Encipher_sbox1 S_box S_box_words 17%nat. enck_step K HK 18%nat.
  sbox_step Encipher_sbox2 S_box S_box_words 18%nat. enck_step K HK 19%nat.
  sbox_step Encipher_sbox3 S_box S_box_words 19%nat. enck_step K HK 20%nat.
  sbox_step Encipher_sbox4 S_box S_box_words 20%nat. enck_step K HK 21%nat.
  sbox_step Encipher_sbox5 S_box S_box_words 21%nat. enck_step K HK 22%nat.
  sbox_step Encipher_sbox6 S_box S_box_words 22%nat. enck_step K HK 23%nat.
  sbox_step Encipher_sbox7 S_box S_box_words 23%nat. enck_step K HK 24%nat.
  sbox_step Encipher_sbox0 S_box S_box_words 24%nat. enck_step K HK 25%nat.
  sbox_step Encipher_sbox1 S_box S_box_words 25%nat. enck_step K HK 26%nat.
  sbox_step Encipher_sbox2 S_box S_box_words 26%nat. enck_step K HK 27%nat.
  sbox_step Encipher_sbox3 S_box S_box_words 27%nat. enck_step K HK 28%nat.
  sbox_step Encipher_sbox4 S_box S_box_words 28%nat. enck_step K HK 29%nat.
  sbox_step Encipher_sbox5 S_box S_box_words 29%nat. enck_step K HK 30%nat.
  sbox_step Encipher_sbox6 S_box S_box_words 30%nat. enck_step K HK 31%nat.
  sbox_step Encipher_sbox7 S_box S_box_words 31%nat. mix_step K HK 32%nat.
  cbn [of_block]. now rewrite !store32le_bytes.
Qed.
Lemma decipher16_spec K e p : words 32 K -> bytes p -> length p = 16%nat ->
  decipher16 K e p = of_block (decrypt_words K (to_block p)).
Proof.
  intros HK Hp L. assert (W := to_block_words p Hp L).
  unfold decipher16. rewrite !(load_block p) by (auto; lia). cbv zeta.
  unfold to_block in *. 
  generalize dependent (le_val (slice p 12 4)). generalize (le_val (slice p 8 4)), (le_val (slice p 4 4)), (le_val (slice p 0 4)).
  intros a b c d W. unfold decrypt_words. cbn [seq rev app fold_left]. unfold R_inv.
  mix_step K HK 32%nat.
  sbox_step Decipher_sbox7 S_inv S_inv_words 31%nat. deck_step K HK 31%nat.
  sbox_step Decipher_sbox6 S_inv S_inv_words 30%nat. deck_step K HK 30%nat.
  sbox_step Decipher_sbox5 S_inv S_inv_words 29%nat. deck_step K HK 29%nat.
  sbox_step Decipher_sbox4 S_inv S_inv_words 28%nat. deck_step K HK 28%nat.
  sbox_step Decipher_sbox3 S_inv S_inv_words 27%nat. deck_step K HK 27%nat.
  sbox_step Decipher_sbox2 S_inv S_inv_words 26%nat. deck_step K HK 26%nat.
  sbox_step Decipher_sbox1 S_inv S_inv_words 25%nat. deck_step K HK 25%nat.
  sbox_step Decipher_sbox0 S_inv S_inv_words 24%nat. deck_step K HK 24%nat.
  sbox_step Decipher_sbox7 S_inv S_inv_words 23%nat. deck_step K HK 23%nat.
  sbox_step Decipher_sbox6 S_inv S_inv_words 22%nat. deck_step K HK 22%nat.
  sbox_step Decipher_sbox5 S_inv S_inv_words 21%nat. deck_step K HK 21%nat.
  sbox_step Decipher_sbox4 S_inv S_inv_words 20%nat. deck_step K HK 20%nat.
  sbox_step Decipher_sbox3 S_inv S_inv_words 19%nat. deck_step K HK 19%nat.
  sbox_step Decipher_sbox2 S_inv S_inv_words 18%nat. deck_step K HK 18%nat.
  sbox_step Decipher_sbox1 S_inv S_inv_words 17%nat. deck_step K HK 17%nat.
  sbox_step Decipher_sbox0 S_inv S_inv_words 16%nat. deck_step K HK 16%nat.
  sbox_step Decipher_sbox7 S_inv S_inv_words 15%nat. deck_step K HK 15%nat.
  sbox_step Decipher_sbox6 S_inv S_inv_words 14%nat. deck_step K HK 14%nat.
  sbox_step Decipher_sbox5 S_inv S_inv_words 13%nat. deck_step K HK 13%nat.
  sbox_step Decipher_sbox4 S_inv S_inv_words 12%nat. deck_step K HK 12%nat.
  sbox_step Decipher_sbox3 S_inv S_inv_words 11%nat. deck_step K HK 11%nat.
  sbox_step Decipher_sbox2 S_inv S_inv_words 10%nat. deck_step K HK 10%nat.
  sbox_step Decipher_sbox1 S_inv S_inv_words 9%nat. deck_step K HK 9%nat.
  sbox_step Decipher_sbox0 S_inv S_inv_words 8%nat. deck_step K HK 8%nat.
  sbox_step Decipher_sbox7 S_inv S_inv_words 7%nat. deck_step K HK 7%nat.
  sbox_step Decipher_sbox6 S_inv S_inv_words 6%nat. deck_step K HK 6%nat.
  sbox_step Decipher_sbox5 S_inv S_inv_words 5%nat. deck_step K HK 5%nat.
  sbox_step Decipher_sbox4 S_inv S_inv_words 4%nat. deck_step K HK 4%nat.
  sbox_step Decipher_sbox3 S_inv S_inv_words 3%nat. deck_step K HK 3%nat.
  sbox_step Decipher_sbox2 S_inv S_inv_words 2%nat. deck_step K HK 2%nat.
  sbox_step Decipher_sbox1 S_inv S_inv_words 1%nat. deck_step K HK 1%nat.
  sbox_step Decipher_sbox0 S_inv S_inv_words 0%nat. mix_step K HK 0%nat.
  cbn [of_block]. now rewrite !store32le_bytes.
Qed.
