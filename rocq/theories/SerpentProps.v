(** C04, C05, C63: the Serpent block functions of wizard/serpent.c. *)
From Coq Require Import Arith NArith List Lia.
From Verif Require Import Base BaseLemmas PackLemmas Mem32 SerpentModel SerpentSpec SerpentProof SerpentProof2.
Import ListNotations.
Local Open Scope N_scope.

Lemma firstn16 (block : list N) : length block = SerpentBlocksize -> length (firstn 16 block) = 16%nat.
Proof. intros L. rewrite firstn_length, L. reflexivity. Qed.
Lemma encipher16_shape K e p : words 32 K -> bytes p -> length p = 16%nat ->
  bytes (encipher16 K e p) /\ length (encipher16 K e p) = 16%nat.
Proof. intros. rewrite encipher16_spec by assumption. auto using of_block_bytes, of_block_length. Qed.
Lemma decipher16_shape K e p : words 32 K -> bytes p -> length p = 16%nat ->
  bytes (decipher16 K e p) /\ length (decipher16 K e p) = 16%nat.
Proof. intros. rewrite decipher16_spec by assumption. auto using of_block_bytes, of_block_length. Qed.
Lemma firstn_app_16 (a b : list N) : length a = 16%nat -> firstn 16 (a ++ b) = a /\ skipn 16 (a ++ b) = b.
Proof.
  intros L. rewrite firstn_app, skipn_app, L. cbn [Nat.sub]. rewrite firstn_O, app_nil_r.
  rewrite firstn_all2, skipn_all2 by lia. auto.
Qed.

(** C04: deciphering inverts enciphering for every content of the key schedule
    and whatever the uninitialised registers hold *)
Theorem serpent_decipher_encipher_any K e e' block : words 32 K -> bytes block -> length block = SerpentBlocksize ->
  DecipherSerpentBlock K e' (EncipherSerpentBlock K e block) = block.
Proof.
  intros HK Hb Lb. unfold DecipherSerpentBlock, EncipherSerpentBlock.
  assert (B16 : bytes (firstn 16 block)) by now apply Forall_firstn_.
  assert (L16 := firstn16 block Lb).
  rewrite (encipher16_firstn K e block).
  destruct (encipher16_shape K e _ HK B16 L16) as [B L].
  rewrite decipher16_firstn.
  destruct (firstn_app_16 (encipher16 K e (firstn 16 block)) (skipn 16 block) L) as [-> ->].
  rewrite decipher16_encipher16 by assumption. apply firstn_skipn.
Qed.
Theorem serpent_encipher_decipher_any K e e' block : words 32 K -> bytes block -> length block = SerpentBlocksize ->
  EncipherSerpentBlock K e (DecipherSerpentBlock K e' block) = block.
Proof.
  intros HK Hb Lb. unfold DecipherSerpentBlock, EncipherSerpentBlock.
  assert (B16 : bytes (firstn 16 block)) by now apply Forall_firstn_.
  assert (L16 := firstn16 block Lb).
  rewrite (decipher16_firstn K e' block).
  destruct (decipher16_shape K e' _ HK B16 L16) as [B L].
  rewrite encipher16_firstn.
  destruct (firstn_app_16 (decipher16 K e' (firstn 16 block)) (skipn 16 block) L) as [-> ->].
  rewrite encipher16_decipher16 by assumption. apply firstn_skipn.
Qed.

Lemma SetSerpentKey_words e key : bytes key -> words 32 (SetSerpentKey e key).
Proof. intros H. rewrite key_schedule_spec by exact H. apply round_keys_words. Qed.

(** C04: ... in particular after SetSerpentKey with a key of any length *)
Theorem serpent_decipher_encipher k key e e' block : bytes key -> bytes block -> length block = SerpentBlocksize ->
  DecipherSerpentBlock (SetSerpentKey k key) e' (EncipherSerpentBlock (SetSerpentKey k key) e block) = block.
Proof. intros. apply serpent_decipher_encipher_any; auto using SetSerpentKey_words. Qed.
Theorem serpent_encipher_decipher k key e e' block : bytes key -> bytes block -> length block = SerpentBlocksize ->
  EncipherSerpentBlock (SetSerpentKey k key) e (DecipherSerpentBlock (SetSerpentKey k key) e' block) = block.
Proof. intros. apply serpent_encipher_decipher_any; auto using SetSerpentKey_words. Qed.
Theorem serpent_encipher_shape k key e block : bytes key -> bytes block -> length block = SerpentBlocksize ->
  bytes (EncipherSerpentBlock (SetSerpentKey k key) e block) /\
  length (EncipherSerpentBlock (SetSerpentKey k key) e block) = SerpentBlocksize.
Proof.
  intros Hk Hb Lb. unfold EncipherSerpentBlock. rewrite encipher16_firstn.
  destruct (encipher16_shape (SetSerpentKey k key) e (firstn 16 block)) as [B L];
    auto using SetSerpentKey_words, firstn16.
  - now apply Forall_firstn_.
  - split.
    + apply bytes_app. split; [exact B|]. now apply Forall_skipn_.
    + rewrite app_length, L, skipn_length, Lb. reflexivity.
Qed.

(** C63: the first sixteen bytes become their Serpent encryption, whatever the
    key length (a short key is padded as the paper prescribes) and whatever the
    uninitialised registers hold *)
Theorem serpent_encipher_is_serpent k key e block : bytes key -> bytes block -> length block = SerpentBlocksize ->
  firstn 16 (EncipherSerpentBlock (SetSerpentKey k key) e block) =
  serpent_encrypt (round_keys key) (firstn 16 block).
Proof.
  intros Hk Hb Lb. unfold EncipherSerpentBlock. rewrite encipher16_firstn.
  assert (B16 : bytes (firstn 16 block)) by now apply Forall_firstn_.
  assert (L16 := firstn16 block Lb). assert (HK := SetSerpentKey_words k key Hk).
  destruct (encipher16_shape _ e _ HK B16 L16) as [B L].
  destruct (firstn_app_16 (encipher16 (SetSerpentKey k key) e (firstn 16 block)) (skipn 16 block) L) as [-> _].
  rewrite encipher16_spec by assumption. now rewrite key_schedule_spec.
Qed.

(** C05 is false: the second half of every 32-byte block (serpent.c:73) stays in
    the clear, for every key *)
Theorem serpent_half_block_refuted k key e block : bytes key -> bytes block -> length block = SerpentBlocksize ->
  skipn 16 (EncipherSerpentBlock (SetSerpentKey k key) e block) = skipn 16 block.
Proof.
  intros Hk Hb Lb. unfold EncipherSerpentBlock. rewrite encipher16_firstn.
  destruct (encipher16_shape (SetSerpentKey k key) e (firstn 16 block)) as [B L].
  { now apply SetSerpentKey_words. } { now apply Forall_firstn_. } { now apply firstn16. }
  now apply firstn_app_16.
Qed.

(** tests/validate.h: the empty key *)
Example serpent_known_answer :
  EncipherSerpentBlock (SetSerpentKey 0 []) 0 (map N.of_nat (seq 0 32)) =
  [0x12;0x07;0xfc;0xce;0x9b;0xd0;0xd6;0x47;0x6a;0xe9;0x8f;0xbe;0xd1;0x43;0xa0;0xe2] ++ map N.of_nat (seq 16 16).
Proof. vm_compute. reflexivity. Qed.
Example serpent_spec_known_answer :
  serpent_encrypt (round_keys []) (map N.of_nat (seq 0 16)) =
  [0x12;0x07;0xfc;0xce;0x9b;0xd0;0xd6;0x47;0x6a;0xe9;0x8f;0xbe;0xd1;0x43;0xa0;0xe2].
Proof. vm_compute. reflexivity. Qed.
Example serpent_round_trip_example :
  let K := SetSerpentKey 7 [1;2;3;4;5] in
  EncipherSerpentBlock K 9 (map N.of_nat (seq 0 32)) <> map N.of_nat (seq 0 32) /\
  DecipherSerpentBlock K 11 (EncipherSerpentBlock K 9 (map N.of_nat (seq 0 32))) = map N.of_nat (seq 0 32).
Proof. vm_compute. split; [discriminate|reflexivity]. Qed.

Print Assumptions serpent_decipher_encipher_any.
Print Assumptions serpent_encipher_decipher_any.
Print Assumptions serpent_decipher_encipher.
Print Assumptions serpent_encipher_decipher.
Print Assumptions serpent_encipher_shape.
Print Assumptions serpent_encipher_is_serpent.
Print Assumptions serpent_half_block_refuted.
