(** C06, C62: the Twofish block functions of wizard/twofish.c. *)
From Coq Require Import Arith NArith List Lia.
From Verif Require Import Base BaseLemmas PackLemmas Mem32 TwofishModel TwofishSpec TwofishProof TwofishProof2 TwofishProof3.
Import ListNotations.
Local Open Scope N_scope.

Lemma subkey_words K : (forall c, words 32 (K c)) -> words 32 (subkeys K).
Proof.
  intros H. unfold subkeys. induction key_constants; cbn [flat_map]; [constructor|].
  apply Forall_app. split; [apply H|apply IHl].
Qed.
Lemma key_pair_words a b : words 32 (key_pair a b).
Proof. unfold key_pair. repeat constructor; try apply word_wadd; apply word_rol. Qed.
Lemma words_firstn n l : words 32 l -> words 32 (firstn n l).
Proof. intros H. revert n. induction H; intros [|n]; cbn [firstn]; constructor; auto. apply IHForall. Qed.
Lemma whitening_words key : words 32 (tf_w (SetTwofishKey key)).
Proof.
  unfold SetTwofishKey.
  destruct (sbox_group _ 0) as [[[? ?] ?] ?]. destruct (sbox_group _ 8) as [[[? ?] ?] ?].
  destruct (sbox_group _ 16) as [[[? ?] ?] ?]. destruct (sbox_group _ 24) as [[[? ?] ?] ?].
  destruct (Nat.leb _ _); [|destruct (Nat.leb _ _)]; cbn [tf_w]; apply words_firstn, subkey_words;
    intros [[[? ?] ?] ?]; apply key_pair_words.
Qed.

(** C06: deciphering inverts enciphering for every content of the round keys and
    S-boxes (the whitening words being machine words) *)
Theorem twofish_decipher_encipher_any t block : words 32 (tf_w t) ->
  bytes block -> length block = TwofishBlocksize ->
  DecipherTwofishBlock t (EncipherTwofishBlock t block) = block.
Proof. apply decipher_encipher. Qed.
Theorem twofish_encipher_decipher_any t block : words 32 (tf_w t) ->
  bytes block -> length block = TwofishBlocksize ->
  EncipherTwofishBlock t (DecipherTwofishBlock t block) = block.
Proof. apply encipher_decipher. Qed.

(** C06: ... in particular after SetTwofishKey with a key of any length *)
Theorem twofish_decipher_encipher key block : bytes block -> length block = TwofishBlocksize ->
  DecipherTwofishBlock (SetTwofishKey key) (EncipherTwofishBlock (SetTwofishKey key) block) = block.
Proof. apply decipher_encipher, whitening_words. Qed.
Theorem twofish_encipher_decipher key block : bytes block -> length block = TwofishBlocksize ->
  EncipherTwofishBlock (SetTwofishKey key) (DecipherTwofishBlock (SetTwofishKey key) block) = block.
Proof. apply encipher_decipher, whitening_words. Qed.
Theorem twofish_encipher_shape t block :
  bytes (EncipherTwofishBlock t block) /\ length (EncipherTwofishBlock t block) = TwofishBlocksize.
Proof. apply encipher_shape. Qed.

(** C62: for 128-, 192- and 256-bit keys it is Twofish *)
Theorem twofish_encipher_is_twofish key block : bytes key ->
  length key = 16%nat \/ length key = 24%nat \/ length key = 32%nat ->
  bytes block -> length block = TwofishBlocksize ->
  EncipherTwofishBlock (SetTwofishKey key) block = twofish_encrypt key block.
Proof.
  intros Hk Lk Hb Lb.
  destruct Lk as [Lk|[Lk|Lk]].
  - apply (encipher_is_twofish _ key 2); auto using schedule_128, whitening_words. now rewrite Lk.
  - apply (encipher_is_twofish _ key 3); auto using schedule_192, whitening_words. now rewrite Lk.
  - apply (encipher_is_twofish _ key 4); auto using schedule_256, whitening_words. now rewrite Lk.
Qed.

(** the known answer for the all-zero 256-bit key, and a key of odd length *)
Example twofish_known_answer :
  EncipherTwofishBlock (SetTwofishKey (repeat 0 32)) (repeat 0 16) =
  [0x57;0xFF;0x73;0x9D;0x4D;0xC9;0x2C;0x1B;0xD7;0xFC;0x01;0x70;0x0C;0xC8;0x21;0x6F].
Proof. vm_compute. reflexivity. Qed.
Example twofish_round_trip_example :
  let t := SetTwofishKey [1;2;3;4;5] in
  EncipherTwofishBlock t (map N.of_nat (seq 0 16)) <> map N.of_nat (seq 0 16) /\
  DecipherTwofishBlock t (EncipherTwofishBlock t (map N.of_nat (seq 0 16))) = map N.of_nat (seq 0 16).
Proof. vm_compute. split; [discriminate|reflexivity]. Qed.

(** Finding: key bytes beyond the last complete supported size are ignored. *)
Lemma group_same ck1 ck2 base : (forall i, (base <= i < base + 8)%nat -> get ck1 i = get ck2 i) ->
  sbox_group ck1 base = sbox_group ck2 base.
Proof.
  intros H. unfold sbox_group. cbn [seq combine rs_exponents fold_left fst snd].
  unfold rs_exponents. cbn [combine fold_left fst snd]. unfold Sbox. rewrite !H by lia. reflexivity.
Qed.
Theorem twofish_key_tail_ignored_refuted key : (16 <= length key < 24)%nat ->
  SetTwofishKey key = SetTwofishKey (firstn 16 key).
Proof.
  intros H. unfold SetTwofishKey.
  assert (length (firstn 16 key) = 16%nat) as L by (rewrite firstn_length; lia). rewrite L.
  destruct (Nat.leb_spec 256 (8 * length key)); [lia|]. destruct (Nat.leb_spec 192 (8 * length key)); [lia|].
  assert (forall i, (i < 16)%nat -> get (crypt_key key) i = get (crypt_key (firstn 16 key)) i) as E.
  { intros i Hi. unfold crypt_key. rewrite (firstn_all2 (n := 32) key), (firstn_all2 (n := 32) (firstn 16 key)) by lia.
    destruct (Nat.ltb_spec (length key) 32); [|lia]. rewrite L. cbn [Nat.ltb Nat.leb].
    unfold get. rewrite !app_nth1 by lia. rewrite <- (firstn_skipn 16 key) at 1. rewrite app_nth1 by lia. reflexivity. }
  rewrite (group_same (crypt_key key) (crypt_key (firstn 16 key)) 0) by (intros; apply E; lia).
  rewrite (group_same (crypt_key key) (crypt_key (firstn 16 key)) 8) by (intros; apply E; lia).
  destruct (sbox_group _ 0) as [[[? ?] ?] ?]. destruct (sbox_group _ 8) as [[[? ?] ?] ?].
  cbn [Nat.mul Nat.add Nat.leb].
  assert (subkeys (K128 (crypt_key key)) = subkeys (K128 (crypt_key (firstn 16 key)))) as ->; [|reflexivity].
  unfold subkeys. rewrite !flat_map_concat_map. f_equal. apply map_ext. intros [[[k0 k1] k2] k3].
  unfold K128, Q128. rewrite !E by (cbn; lia). reflexivity.
Qed.
Example twofish_key_tail_example :
  SetTwofishKey (repeat 0 16 ++ [1; 2; 3]) = SetTwofishKey (repeat 0 16).
Proof. rewrite twofish_key_tail_ignored_refuted by (cbn; lia). reflexivity. Qed.

Print Assumptions twofish_decipher_encipher.
Print Assumptions twofish_encipher_decipher.
Print Assumptions twofish_decipher_encipher_any.
Print Assumptions twofish_encipher_decipher_any.
Print Assumptions twofish_encipher_shape.
Print Assumptions twofish_encipher_is_twofish.
Print Assumptions twofish_key_tail_ignored_refuted.
