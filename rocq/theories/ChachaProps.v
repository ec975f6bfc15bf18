(** C03: the ChaCha block functions of wizard/chacha.c. *)
From Coq Require Import Arith NArith List Lia.
From Verif Require Import Base BaseLemmas PackLemmas Mem32 ChachaModel ChachaSpec ChachaProof.
Import ListNotations.
Local Open Scope N_scope.

(** the state after AcquireChachaInfo and one SetChachaKey *)
Definition keyed (key : list N) : list N := SetChachaKey AcquireChachaKey key.

Lemma keyed_length key : length (keyed key) = 16%nat.
Proof. now apply set_key_length. Qed.

(** C03: one block is XORed with the ChaCha20 core of the key state *)
Theorem chacha_encipher_is_core key block : bytes block -> length block = ChachaBlocksize ->
  EncipherChachaBlock (keyed key) block = xor_list block (chacha20_core (keyed key)).
Proof. intros. apply chacha_block; auto using keyed_length. Qed.

(** C03: for a 128- or 256-bit key the key state is the ChaCha matrix with
    counter and nonce zero *)
Theorem chacha_key_state k0 key : length k0 = 16%nat -> bytes key ->
  length key = 16%nat \/ length key = 32%nat ->
  SetChachaKey k0 key = chacha_matrix key (repeat 0 16).
Proof. apply set_key_matrix. Qed.

Lemma encipher_shape key block : bytes block -> length block = ChachaBlocksize ->
  bytes (EncipherChachaBlock (keyed key) block) /\
  length (EncipherChachaBlock (keyed key) block) = ChachaBlocksize.
Proof.
  intros Hb Lb. rewrite chacha_encipher_is_core by auto.
  destruct (core_shape _ (keyed_length key)) as [Bc Lc]. split.
  - now apply bytes_xor_list.
  - rewrite xor_list_length; [exact Lb|rewrite Lc; exact Lb].
Qed.

Lemma decipher_is_encipher k block : DecipherChachaBlock k block = EncipherChachaBlock k block.
Proof. reflexivity. Qed.

Lemma commuted (f g : list N -> list N) x : (forall b, g b = f b) -> g (f x) = x -> f (g x) = x.
Proof. intros H E. rewrite H in E. now rewrite H. Qed.

(** C03: deciphering inverts enciphering, and conversely *)
Theorem chacha_decipher_encipher key block : bytes block -> length block = ChachaBlocksize ->
  DecipherChachaBlock (keyed key) (EncipherChachaBlock (keyed key) block) = block.
Proof.
  intros Hb Lb. unfold DecipherChachaBlock.
  destruct (encipher_shape key block Hb Lb) as [B L].
  rewrite (chacha_encipher_is_core key _ B L), chacha_encipher_is_core by auto.
  apply xor_list_cancel. destruct (core_shape _ (keyed_length key)) as [_ Lc]. now rewrite Lc.
Qed.
Theorem chacha_encipher_decipher key block : bytes block -> length block = ChachaBlocksize ->
  EncipherChachaBlock (keyed key) (DecipherChachaBlock (keyed key) block) = block.
Proof.
  intros Hb Lb. pose proof (chacha_decipher_encipher key block Hb Lb) as E.
  exact (commuted _ _ block (decipher_is_encipher (keyed key)) E).
Qed.

(** RFC 8439, 2.3.2 uses a different counter/nonce split but the same core *)
Example chacha_core_rfc8439 :
  firstn 8 (chacha20_core (chacha_matrix (map N.of_nat (seq 0 32))
     [1;0;0;0; 0;0;0;9; 0;0;0;0x4a; 0;0;0;0])) = [0x10;0xf1;0xe7;0xe4;0xd1;0x3b;0x59;0x15].
Proof. vm_compute. reflexivity. Qed.
Example chacha_zero_key :
  firstn 8 (EncipherChachaBlock (keyed (repeat 0 32)) (repeat 0 64)) =
  [0x76;0xb8;0xe0;0xad;0xa0;0xf1;0x3d;0x90].
Proof. vm_compute. reflexivity. Qed.

(** Finding: the counter words are never advanced, so the block map is
    translation by one constant and a single known block yields every other. *)
Theorem chacha_one_block_opens_all_refuted key x y :
  bytes x -> bytes y -> length x = ChachaBlocksize -> length y = ChachaBlocksize ->
  xor_list (EncipherChachaBlock (keyed key) y) (xor_list x (EncipherChachaBlock (keyed key) x)) = y.
Proof.
  intros Hx Hy Lx Ly. rewrite !chacha_encipher_is_core by auto.
  destruct (core_shape _ (keyed_length key)) as [Bc Lc].
  set (k := chacha20_core _) in *.
  replace (xor_list x (xor_list x k)) with k.
  - apply xor_list_cancel. now rewrite Lc.
  - rewrite (xor_list_comm x (xor_list x k)), (xor_list_comm x k). symmetry.
    apply xor_list_cancel. now rewrite Lc.
Qed.

(** Finding: a key shorter than four bytes has no effect at all. *)
Theorem chacha_short_keys_equal_refuted k1 k2 : (length k1 < 4)%nat -> (length k2 < 4)%nat ->
  keyed k1 = keyed k2.
Proof.
  intros H1 H2. destruct k1 as [|? [|? [|? [|]]]]; try (cbn [length] in H1; lia);
  destruct k2 as [|? [|? [|? [|]]]]; try (cbn [length] in H2; lia); reflexivity.
Qed.

(** Finding: of a key of 16 bytes or more that is not exactly 32 bytes, only the
    first 16 bytes matter. *)
Theorem chacha_key_tail_ignored_refuted key : (16 <= length key)%nat -> length key <> 32%nat ->
  keyed key = keyed (firstn 16 key).
Proof.
  intros H H2. unfold keyed, SetChachaKey, guarded_word.
  assert (length (firstn 16 key) = 16%nat) as L by (rewrite firstn_length; lia). rewrite L.
  destruct (Nat.eqb_spec (8 * length key) 256); [lia|].
  destruct (Nat.leb_spec 4 (length key)); [|lia]. destruct (Nat.leb_spec 8 (length key)); [|lia].
  destruct (Nat.leb_spec 12 (length key)); [|lia]. destruct (Nat.leb_spec 16 (length key)); [|lia].
  cbn [Nat.eqb Nat.mul Nat.add Nat.leb]. 
  do 16 (destruct key as [|? key]; [cbn [length] in *; lia|]). reflexivity.
Qed.
Example chacha_long_key_example : keyed (repeat 7 17) = keyed (repeat 7 16).
Proof. reflexivity. Qed.

Print Assumptions chacha_encipher_is_core.
Print Assumptions chacha_key_state.
Print Assumptions chacha_decipher_encipher.
Print Assumptions chacha_one_block_opens_all_refuted.
Print Assumptions chacha_short_keys_equal_refuted.
Print Assumptions chacha_key_tail_ignored_refuted.
