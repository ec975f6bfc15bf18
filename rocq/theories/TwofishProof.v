(** Twofish deciphering inverts enciphering for every subkey and S-box content. *)
From Coq Require Import Arith NArith List Lia.
From Verif Require Import Base BaseLemmas PackLemmas Mem32 TwofishModel.
Import ListNotations.
Local Open Scope N_scope.

Lemma land_shl_shr x n : word 32 x -> n <= 32 -> N.land (wshl 32 x n) (N.shiftr x (32 - n)) = 0.
Proof.
  intros Hx Hn. apply N.bits_inj. intros k. rewrite N.land_spec, N.bits_0, wshl_testbit, N.shiftr_spec'.
  destruct (N.ltb_spec k 32); cbn [andb]; [|reflexivity].
  destruct (N.leb_spec n k); cbn [andb]; [|reflexivity].
  rewrite (testbit_high 32 x (k + (32 - n))) by (auto; lia). apply Bool.andb_false_r.
Qed.

Lemma rol_rotl n x : word 32 x -> n <= 32 -> rol n x = rotl 32 x n.
Proof.
  intros Hx Hn. unfold rol, rotl, wadd.
  pose proof (land_shl_shr x n Hx Hn) as E.
  rewrite N.add_nocarry_lxor, N.lxor_lor by exact E.
  apply wrap_small. apply word_lor; [apply word_wshl|now apply word_shiftr].
Qed.
Lemma ror_rotr n x : word 32 x -> n <= 32 -> ror n x = rotr 32 x n.
Proof.
  intros Hx Hn. unfold ror, rotr, wadd.
  assert (N.land (N.shiftr x n) (wshl 32 x (32 - n)) = 0) as E.
  { rewrite N.land_comm. replace n with (32 - (32 - n)) at 2 by lia. apply land_shl_shr; auto; lia. }
  rewrite N.add_nocarry_lxor, N.lxor_lor by exact E.
  apply wrap_small. apply word_lor; [now apply word_shiftr|apply word_wshl].
Qed.
Lemma word_rol n x : word 32 (rol n x).
Proof. apply word_wadd. Qed.
Lemma word_ror n x : word 32 (ror n x).
Proof. apply word_wadd. Qed.
Lemma ror_rol n x : word 32 x -> n < 32 -> ror n (rol n x) = x.
Proof.
  intros. rewrite ror_rotr by (auto using word_rol; lia). rewrite rol_rotl by (auto; lia). now apply rotr_rotl.
Qed.
Lemma rol_ror n x : word 32 x -> n < 32 -> rol n (ror n x) = x.
Proof.
  intros. rewrite rol_rotl by (auto using word_ror; lia). rewrite ror_rotr by (auto; lia). now apply rotl_rotr.
Qed.

Definition wquad (r : quad) : Prop :=
  let '(a, b, c, d) := r in word 32 a /\ word 32 b /\ word 32 c /\ word 32 d.

#[local] Hint Resolve word_lxor word_wadd word_rol word_ror : tf.
Lemma wquad_encipher t i r : wquad r -> wquad (EncipherRound t i r).
Proof. destruct r as [[[a b] c] d]. cbn. intuition auto with tf. Qed.
Lemma wquad_decipher t i r : wquad r -> wquad (DecipherRound t i r).
Proof. destruct r as [[[a b] c] d]. cbn. intuition auto with tf. Qed.
Lemma wquad_swapped f r : (forall r, wquad r -> wquad (f r)) -> wquad r -> wquad (swapped f r).
Proof.
  intros H. destruct r as [[[a b] c] d]. unfold swapped. intros (Ha & Hb & Hc & Hd).
  specialize (H (c, d, a, b)). destruct (f (c, d, a, b)) as [[[c' d'] a'] b'].
  cbn in *. tauto.
Qed.

Lemma round_inverse t i r : wquad r -> DecipherRound t i (EncipherRound t i r) = r.
Proof.
  destruct r as [[[a b] c] d]. intros (Ha & Hb & Hc & Hd). unfold EncipherRound, DecipherRound.
  generalize (wadd 32 (G1 (tf_sbox t) a) (G2 (tf_sbox t) b)). intros rho.
  rewrite wadd_assoc, lxor_cancel_r, rol_ror, lxor_cancel_r, ror_rol by (auto with tf; lia). reflexivity.
Qed.
Lemma round_inverse' t i r : wquad r -> EncipherRound t i (DecipherRound t i r) = r.
Proof.
  destruct r as [[[a b] c] d]. intros (Ha & Hb & Hc & Hd). unfold EncipherRound, DecipherRound.
  generalize (wadd 32 (G1 (tf_sbox t) a) (G2 (tf_sbox t) b)). intros rho.
  rewrite wadd_assoc, lxor_cancel_r, rol_ror, lxor_cancel_r, ror_rol by (auto with tf; lia). reflexivity.
Qed.

Lemma swapped_inverse f g r : (forall r, wquad r -> g (f r) = r) -> wquad r ->
  swapped g (swapped f r) = r.
Proof.
  intros H. destruct r as [[[a b] c] d]. unfold swapped. intros (Ha & Hb & Hc & Hd).
  specialize (H (c, d, a, b)). destruct (f (c, d, a, b)) as [[[c' d'] a'] b'].
  rewrite H by (cbn; auto). reflexivity.
Qed.

Lemma fold_inverse {A} (P : quad -> Prop) (f g : quad -> A -> quad) (l : list A) :
  (forall r a, P r -> P (f r a)) -> (forall r a, P r -> g (f r a) a = r) ->
  forall r, P r -> fold_left g (rev l) (fold_left f l r) = r.
Proof.
  intros Hp Hi. induction l as [|a l IH]; intros r Hr; [reflexivity|]. cbn [rev fold_left].
  rewrite fold_left_app. cbn [fold_left]. rewrite IH by auto. auto.
Qed.

Lemma rounds_inverse t r : wquad r -> decipher_rounds t (encipher_rounds t r) = r.
Proof.
  unfold encipher_rounds, decipher_rounds. apply fold_inverse with (P := wquad).
  - intros. apply wquad_swapped; intros; auto using wquad_encipher.
  - intros q i Hq. rewrite swapped_inverse by auto using round_inverse, wquad_encipher.
    now apply round_inverse.
Qed.
Lemma rounds_inverse' t r : wquad r -> encipher_rounds t (decipher_rounds t r) = r.
Proof.
  unfold encipher_rounds, decipher_rounds.
  rewrite <- (rev_involutive (seq 0 8)) at 1.
  apply fold_inverse with (P := wquad).
  - intros. apply wquad_decipher, wquad_swapped; auto using wquad_decipher.
  - intros q i Hq. rewrite round_inverse' by auto using wquad_swapped, wquad_decipher.
    now apply swapped_inverse; auto using round_inverse'.
Qed.
Lemma wquad_rounds t r : wquad r -> wquad (encipher_rounds t r).
Proof.
  unfold encipher_rounds. generalize (seq 0 8). intros l. revert r. induction l; intros r Hr; cbn [fold_left]; auto.
  apply IHl. apply wquad_swapped; intros; auto using wquad_encipher.
Qed.
Lemma wquad_rounds' t r : wquad r -> wquad (decipher_rounds t r).
Proof.
  unfold decipher_rounds. generalize (rev (seq 0 8)). intros l. revert r. induction l; intros r Hr; cbn [fold_left]; auto.
  apply IHl. apply wquad_decipher, wquad_swapped; auto using wquad_decipher.
Qed.

(** packing *)
Lemma load32xor_load p : bytes p -> length p = 4%nat -> load32xor p = le_val p.
Proof.
  intros H L. rewrite <- load32le_val by auto. unfold load32xor, load32le.
  destruct p as [|a [|b [|c [|d [|]]]]]; try discriminate.
  repeat match goal with H : bytes (_ :: _) |- _ => inversion H; clear H; subst
                       | H : Forall _ (_ :: _) |- _ => inversion H; clear H; subst end.
  unfold get; cbn [nth].
  assert (forall x y n m, word n x -> word m y -> n <= m -> True) as _ by auto.
  assert (forall x k y, word k x -> N.land x (N.shiftl y k) = 0) as E.
  { intros x k y Hx. apply N.bits_inj. intros n. rewrite N.land_spec, N.bits_0.
    destruct (N.lt_ge_cases n k).
    - rewrite N.shiftl_spec_low by auto. apply Bool.andb_false_r.
    - rewrite (testbit_high k x n) by auto. reflexivity. }
  assert (forall x k, word 8 x -> word (k + 8) (N.shiftl x k)) as W.
  { intros x k Hx. unfold word in *. rewrite N.shiftl_mul_pow2, N.pow_add_r.
    assert (0 < 2 ^ k) by apply pow2_pos. rewrite (N.mul_comm (2 ^ k)). apply N.mul_lt_mono_pos_r; auto. }
  assert (word 16 (N.lor a (N.shiftl b 8))) as W1
    by (apply word_lor; [apply (word_mono 8); [lia|now apply word8]|apply (W b 8); now apply word8]).
  assert (word 24 (N.lor (N.lor a (N.shiftl b 8)) (N.shiftl c 16))) as W2
    by (apply word_lor; [apply (word_mono 16); [lia|auto]|apply (W c 16); now apply word8]).
  rewrite (N.lxor_lor a) by (apply E; now apply word8).
  rewrite (N.lxor_lor _ (N.shiftl c 16)) by (apply E; auto).
  now rewrite (N.lxor_lor _ (N.shiftl d 24)) by (apply E; auto).
Qed.

Lemma slice_at_app {A} (a b c : list A) : slice (a ++ b ++ c) (length a) (length b) = b.
Proof.
  unfold slice. rewrite skipn_app, skipn_all, Nat.sub_diag. cbn [skipn app].
  rewrite firstn_app, Nat.sub_diag, firstn_all. cbn [firstn]. now rewrite app_nil_r.
Qed.

Definition pack4 (r : quad) : list N :=
  let '(a, b, c, d) := r in store32le a ++ store32le b ++ store32le c ++ store32le d.
Definition unpack4 (l : list N) : quad :=
  (load32xor (slice l 0 4), load32xor (slice l 4 4), load32xor (slice l 8 4), load32xor (slice l 12 4)).

Lemma load_store w : word 32 w -> load32xor (store32le w) = w.
Proof.
  intros. rewrite store32le_bytes, load32xor_load; auto using le_bytes_bytes, le_bytes_length, word_le_bytes4.
Qed.
Lemma store_load p : bytes p -> length p = 4%nat -> store32le (load32xor p) = p.
Proof.
  intros H L. rewrite load32xor_load, store32le_bytes by auto. rewrite <- L. now apply le_bytes_le_val.
Qed.
Lemma unpack_pack r : wquad r -> unpack4 (pack4 r) = r.
Proof.
  destruct r as [[[a b] c] d]. intros (Ha & Hb & Hc & Hd).
  rewrite <- (load_store a) at 2 by auto. rewrite <- (load_store b) at 2 by auto.
  rewrite <- (load_store c) at 2 by auto. rewrite <- (load_store d) at 2 by auto.
  reflexivity.
Qed.
Lemma pack_unpack l : bytes l -> length l = 16%nat -> pack4 (unpack4 l) = l /\ wquad (unpack4 l).
Proof.
  intros H L.
  assert (forall i, (i + 4 <= 16)%nat -> bytes (slice l i 4) /\ length (slice l i 4) = 4%nat) as S.
  { intros i Hi. unfold slice. split.
    - apply Forall_forall. intros x Hx. unfold bytes in H. rewrite Forall_forall in H. apply H.
      rewrite <- (firstn_skipn i l). apply in_or_app. right.
      rewrite <- (firstn_skipn 4 (skipn i l)). apply in_or_app. now left.
    - rewrite firstn_length, skipn_length. lia. }
  destruct (S 0%nat) as [? ?]; [lia|]. destruct (S 4%nat) as [? ?]; [lia|].
  destruct (S 8%nat) as [? ?]; [lia|]. destruct (S 12%nat) as [? ?]; [lia|].
  split.
  - unfold pack4, unpack4. rewrite !store_load by auto.
    clear - L. do 16 (destruct l as [|? l]; [discriminate|]). destruct l; [reflexivity|discriminate].
  - unfold unpack4, wquad. rewrite !load32xor_load by auto. repeat split; now apply le_val_list_word.
Qed.
Lemma pack4_shape r : bytes (pack4 r) /\ length (pack4 r) = 16%nat.
Proof.
  destruct r as [[[a b] c] d]. unfold pack4. rewrite !store32le_bytes. split.
  - repeat (apply bytes_app; split); apply le_bytes_bytes.
  - rewrite !app_length, !le_bytes_length. reflexivity.
Qed.

(** whitening: xor with four words from [i] on *)
Definition whiten (w : list N) (i : nat) (r : quad) : quad :=
  let '(a, b, c, d) := r in
  (N.lxor a (get w i), N.lxor b (get w (i + 1)), N.lxor c (get w (i + 2)), N.lxor d (get w (i + 3))).
Definition flip (r : quad) : quad := let '(a, b, c, d) := r in (c, d, a, b).

Lemma encipher_form t l :
  EncipherTwofishBlock t l =
  pack4 (whiten (tf_w t) 4 (flip (encipher_rounds t (whiten (tf_w t) 0 (unpack4 l))))).
Proof. unfold EncipherTwofishBlock. cbn [whiten unpack4 Nat.add]. now destruct (encipher_rounds _ _) as [[[? ?] ?] ?]. Qed.
Lemma decipher_form t l :
  DecipherTwofishBlock t l =
  pack4 (whiten (tf_w t) 0 (decipher_rounds t (flip (whiten (tf_w t) 4 (unpack4 l))))).
Proof. unfold DecipherTwofishBlock. cbn [whiten unpack4 flip Nat.add]. now destruct (decipher_rounds _ _) as [[[? ?] ?] ?]. Qed.

Lemma whiten_whiten w i r : whiten w i (whiten w i r) = r.
Proof. destruct r as [[[a b] c] d]. cbn [whiten]. now rewrite !lxor_cancel_r. Qed.
Lemma flip_flip r : flip (flip r) = r.
Proof. now destruct r as [[[a b] c] d]. Qed.
Lemma wquad_flip r : wquad r -> wquad (flip r).
Proof. destruct r as [[[a b] c] d]. cbn. tauto. Qed.
Lemma wquad_whiten w i r : words 32 w -> wquad r -> wquad (whiten w i r).
Proof. intros H. destruct r as [[[a b] c] d]. cbn. intros (?&?&?&?). repeat split; apply word_lxor; auto using get_word. Qed.

#[local] Hint Resolve wquad_flip wquad_whiten wquad_rounds wquad_rounds' : tf.
Theorem decipher_encipher t l : words 32 (tf_w t) -> bytes l -> length l = 16%nat ->
  DecipherTwofishBlock t (EncipherTwofishBlock t l) = l.
Proof.
  intros Hw Hl L. destruct (pack_unpack l Hl L) as [E W].
  rewrite decipher_form, encipher_form, unpack_pack by auto with tf.
  rewrite whiten_whiten, flip_flip, rounds_inverse, whiten_whiten by auto with tf. exact E.
Qed.
Theorem encipher_decipher t l : words 32 (tf_w t) -> bytes l -> length l = 16%nat ->
  EncipherTwofishBlock t (DecipherTwofishBlock t l) = l.
Proof.
  intros Hw Hl L. destruct (pack_unpack l Hl L) as [E W].
  rewrite encipher_form, decipher_form, unpack_pack by auto with tf.
  rewrite whiten_whiten, rounds_inverse', flip_flip, whiten_whiten by auto with tf. exact E.
Qed.
Lemma encipher_shape t l : bytes (EncipherTwofishBlock t l) /\ length (EncipherTwofishBlock t l) = 16%nat.
Proof. rewrite encipher_form. apply pack4_shape. Qed.
Lemma decipher_shape t l : bytes (DecipherTwofishBlock t l) /\ length (DecipherTwofishBlock t l) = 16%nat.
Proof. rewrite decipher_form. apply pack4_shape. Qed.
