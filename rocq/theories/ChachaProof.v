(** wizard/chacha.c computes the ChaCha20 core. *)
From Coq Require Import Arith NArith List Lia.
From Verif Require Import Base BaseLemmas PackLemmas Mem32 ChachaModel ChachaSpec.
Import ListNotations.
Local Open Scope N_scope.

Lemma list16 {A} (x : list A) : length x = 16%nat ->
  exists a0 a1 a2 a3 a4 a5 a6 a7 a8 a9 a10 a11 a12 a13 a14 a15,
  x = [a0;a1;a2;a3;a4;a5;a6;a7;a8;a9;a10;a11;a12;a13;a14;a15].
Proof.
  intros L. do 16 (destruct x as [|? x]; [discriminate|]). destruct x; [|discriminate].
  repeat eexists.
Qed.

Lemma double_round_spec x : length x = 16%nat ->
  double_round x = of_rows (column_and_diagonal_round (to_rows x)) /\
  to_rows (double_round x) = column_and_diagonal_round (to_rows x) /\
  length (double_round x) = 16%nat.
Proof.
  intros L. apply list16 in L as (a0&a1&a2&a3&a4&a5&a6&a7&a8&a9&a10&a11&a12&a13&a14&a15&->).
  split; [|split]; reflexivity.
Qed.

Lemma iter_sim {A B} (P : A -> Prop) (f : A -> A) (g : B -> B) (h : A -> B) n :
  (forall x, P x -> P (f x) /\ h (f x) = g (h x)) ->
  forall x, P x -> P (iter n f x) /\ h (iter n f x) = iter n g (h x).
Proof.
  intros H. induction n; intros x Hx; cbn [iter]; [now split|].
  destruct (H x Hx) as [Hf E]. destruct (IHn (f x) Hf) as [? ->]. now rewrite E.
Qed.

Lemma of_to_rows x : length x = 16%nat -> of_rows (to_rows x) = x.
Proof.
  intros L. apply list16 in L as (a0&a1&a2&a3&a4&a5&a6&a7&a8&a9&a10&a11&a12&a13&a14&a15&->). reflexivity.
Qed.

Lemma iter_double_round n x : length x = 16%nat ->
  iter n double_round x = of_rows (iter n column_and_diagonal_round (to_rows x)) /\
  length (iter n double_round x) = 16%nat.
Proof.
  intros L.
  destruct (iter_sim (fun x => length x = 16%nat) double_round column_and_diagonal_round to_rows n) with (x := x)
    as [L' E]; [|exact L|].
  - intros y Ly. destruct (double_round_spec y Ly) as (_ & E & L'). now split.
  - rewrite <- E, of_to_rows; auto.
Qed.

Lemma words_map2_add x y : words 32 (map2 ChachaAdd x y).
Proof.
  revert y; induction x; intros [|b y]; cbn [map2]; constructor; auto.
  - unfold ChachaAdd, wadd, wrap, word. apply N.mod_lt. discriminate.
  - apply IHx.
Qed.

Theorem chacha_block key block : length key = 16%nat -> bytes block -> length block = 64%nat ->
  EncipherChachaBlock key block = xor_list block (chacha20_core key).
Proof.
  intros L Hb Lb. unfold EncipherChachaBlock, chacha20_core.
  destruct (iter_double_round 10 key L) as [E L'].
  rewrite <- E.
  rewrite words_pack_xor; auto using words_map2_add.
  rewrite map2_length, L', L. exact Lb.
Qed.

Lemma core_shape key : length key = 16%nat ->
  bytes (chacha20_core key) /\ length (chacha20_core key) = 64%nat.
Proof.
  intros L. unfold chacha20_core. destruct (iter_double_round 10 key L) as [<- L'].
  split.
  - apply flat_map_bytes. intros. apply le_bytes_bytes.
  - rewrite flat_map_length4 by (intros; apply le_bytes_length). rewrite map2_length. lia.
Qed.

Lemma upd_length' {A} (l : list A) i x n : length l = n -> length (upd l i x) = n.
Proof. intros <-. apply upd_length. Qed.

Lemma set_key_length k0 key : length k0 = 16%nat -> length (SetChachaKey k0 key) = 16%nat.
Proof.
  intros H. unfold SetChachaKey.
  assert (forall a b c d e k, length k = 16%nat -> length (guarded_word a b c d e k) = 16%nat) as G.
  { intros. unfold guarded_word. destruct (Nat.leb _ _); auto. now apply upd_length'. }
  destruct (Nat.eqb _ _); repeat apply upd_length'; repeat apply G; exact H.
Qed.

Lemma load_chunk p (a b c d : N) t : bytes p -> p = [a; b; c; d] ++ t ->
  load32le (firstn 4 p) = le_val [a; b; c; d] /\ bytes t.
Proof.
  intros H ->. apply bytes_app in H as [H1 H2]. split; auto.
  cbn [firstn app]. now apply load32le_val.
Qed.

Lemma chunks_step (a b c d : N) t : chunks 4 (a :: b :: c :: d :: t) = [a; b; c; d] :: chunks 4 t.
Proof. change (a :: b :: c :: d :: t) with ([a; b; c; d] ++ t). apply chunks_cons; auto. Qed.

Lemma bytes4 (a b c d : N) t : bytes (a :: b :: c :: d :: t) ->
  load32le [a; b; c; d] = le_val [a; b; c; d] /\ bytes t.
Proof.
  change (a :: b :: c :: d :: t) with ([a; b; c; d] ++ t). intros H. apply bytes_app in H as [? ?].
  split; auto. now apply load32le_val.
Qed.

Theorem set_key_matrix k0 key : length k0 = 16%nat -> bytes key ->
  length key = 16%nat \/ length key = 32%nat ->
  SetChachaKey k0 key = chacha_matrix key (repeat 0 16).
Proof.
  intros L0 Hk Lk. apply list16 in L0 as (a0&a1&a2&a3&a4&a5&a6&a7&a8&a9&a10&a11&a12&a13&a14&a15&->).
  unfold SetChachaKey, chacha_matrix, guarded_word. destruct Lk as [Lk|Lk].
  - do 16 (destruct key as [|? key]; [discriminate|]). destruct key; [|discriminate].
    cbn [length Nat.leb Nat.eqb Nat.mul Nat.add upd slice firstn skipn app].
    rewrite !chunks_step. cbn [map app].
    do 4 (apply bytes4 in Hk as [? Hk]).
    unfold slice; cbn [firstn skipn].
    repeat match goal with H : load32le _ = _ |- _ => rewrite H; clear H end. reflexivity.
  - do 32 (destruct key as [|? key]; [discriminate|]). destruct key; [|discriminate].
    cbn [length Nat.leb Nat.eqb Nat.mul Nat.add upd slice firstn skipn app].
    rewrite !chunks_step. cbn [map app].
    do 8 (apply bytes4 in Hk as [? Hk]).
    unfold slice; cbn [firstn skipn].
    repeat match goal with H : load32le _ = _ |- _ => rewrite H; clear H end. reflexivity.
Qed.
