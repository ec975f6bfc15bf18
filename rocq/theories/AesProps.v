(** C01, C02: the AES block cipher. *)
From Coq Require Import Arith NArith List Lia.
From Verif Require Import Base BaseLemmas AesModel AesSpec AesProof2 AesProof3.
Import ListNotations.
Local Open Scope N_scope.

Lemma effective_key_id (key : list N) :
  In (length key) [16; 24; 32]%nat -> effective_key key = key.
Proof.
  intros H. unfold effective_key, key_datum.
  assert (4 * key_words (length key) = length key)%nat as E.
  { destruct H as [<-|[<-|[<-|[]]]]; reflexivity. }
  rewrite E. rewrite (firstn_all2 (n := 32) key) by (destruct H as [<-|[<-|[<-|[]]]]; lia).
  rewrite firstn_app, firstn_all, Nat.sub_diag. apply app_nil_r.
Qed.

(** C01: with a 128, 192 or 256-bit key the block function is the FIPS-197
    cipher, for every key and every block. *)
Theorem aes_encipher_is_fips197 : forall key block,
  bytes key -> In (length key) [16; 24; 32]%nat ->
  bytes block -> length block = 16%nat ->
  EncipherAESBlock (SetAESKey key) block = AES key block.
Proof.
  intros key block Hk Hl Hb Hn. rewrite encipher_is_AES by (auto; split; auto).
  now rewrite effective_key_id.
Qed.
Print Assumptions aes_encipher_is_fips197.

(** Non-vacuity: FIPS-197 appendix C.1 and C.3, through both sides. *)
Example aes_fips197_c1 :
  let key := map N.of_nat (seq 0 16) in
  let block := map (fun i => 17 * N.of_nat i) (seq 0 16) in
  let c := [0x69;0xc4;0xe0;0xd8;0x6a;0x7b;0x04;0x30;0xd8;0xcd;0xb7;0x80;0x70;0xb4;0xc5;0x5a] in
  bytes key /\ bytes block /\ EncipherAESBlock (SetAESKey key) block = c /\ AES key block = c.
Proof. repeat split; try (vm_compute; reflexivity); repeat constructor. Qed.
Example aes_fips197_c3 :
  let key := map N.of_nat (seq 0 32) in
  let block := map (fun i => 17 * N.of_nat i) (seq 0 16) in
  let c := [0x8e;0xa2;0xb7;0xca;0x51;0x67;0x45;0xbf;0xea;0xfc;0x49;0x90;0x4b;0x49;0x60;0x89] in
  EncipherAESBlock (SetAESKey key) block = c /\ AES key block = c.
Proof. split; vm_compute; reflexivity. Qed.

(** The key actually used when the caller supplies some other number of bytes:
    fewer than 24 bytes are zero-padded or cut to 16, 24..31 cut to 24, and 32
    or more cut to 32. *)
Definition fips_key_of (key : list N) : list N :=
  let n := if Nat.ltb (length key) 24 then 16%nat
           else if Nat.ltb (length key) 32 then 24%nat else 32%nat in
  firstn n key ++ repeat 0 (n - length key).

Lemma effective_key_of key : effective_key key = fips_key_of key.
Proof.
  unfold effective_key, fips_key_of, key_datum, key_words.
  destruct (Nat.ltb_spec (length key) 24);
  [|destruct (Nat.ltb_spec (length key) 32)];
  [replace (Nat.leb 256 (8 * length key)) with false by (symmetry; apply Nat.leb_gt; lia);
   replace (Nat.leb 192 (8 * length key)) with false by (symmetry; apply Nat.leb_gt; lia)
  |replace (Nat.leb 256 (8 * length key)) with false by (symmetry; apply Nat.leb_gt; lia);
   replace (Nat.leb 192 (8 * length key)) with true by (symmetry; apply Nat.leb_le; lia)
  |replace (Nat.leb 256 (8 * length key)) with true by (symmetry; apply Nat.leb_le; lia)].
  - cbn [Nat.mul Nat.add]. rewrite (firstn_all2 (n := 32)) by lia. rewrite firstn_app.
    f_equal. destruct (Nat.le_gt_cases (length key) 16).
    + replace (32 - length key)%nat with ((16 - length key) + 16)%nat by lia.
      rewrite repeat_app, firstn_app, repeat_length, Nat.sub_diag.
      cbn [firstn]. rewrite app_nil_r. apply firstn_all2. rewrite repeat_length. lia.
    + replace (16 - length key)%nat with 0%nat by lia. reflexivity.
  - cbn [Nat.mul Nat.add]. rewrite (firstn_all2 (n := 32)) by lia. rewrite firstn_app.
    f_equal. replace (24 - length key)%nat with 0%nat by lia. reflexivity.
  - cbn [Nat.mul Nat.add]. replace (32 - length key)%nat with 0%nat by lia.
    cbn [repeat]. rewrite !app_nil_r. rewrite firstn_firstn. reflexivity.
Qed.

Theorem aes_encipher_any_key : forall key block,
  bytes key -> bytes block -> length block = 16%nat ->
  EncipherAESBlock (SetAESKey key) block = AES (fips_key_of key) block.
Proof.
  intros key block Hk Hb Hn. rewrite encipher_is_AES by (auto; split; auto).
  now rewrite effective_key_of.
Qed.
Print Assumptions aes_encipher_any_key.

Example aes_any_key_ex : fips_key_of [1;2;3] = [1;2;3] ++ repeat 0 13.
Proof. reflexivity. Qed.

(** C02: for every key string, deciphering and enciphering a block are inverse
    bijections on 16-byte blocks. *)
Theorem aes_decipher_encipher : forall key block,
  bytes key -> bytes block -> length block = 16%nat ->
  DecipherAESBlock (SetAESKey key) (EncipherAESBlock (SetAESKey key) block) = block.
Proof. intros. apply decipher_encipher_key; auto. split; auto. Qed.
Print Assumptions aes_decipher_encipher.

Theorem aes_encipher_decipher : forall key block,
  bytes key -> bytes block -> length block = 16%nat ->
  EncipherAESBlock (SetAESKey key) (DecipherAESBlock (SetAESKey key) block) = block.
Proof. intros. apply encipher_decipher_key; auto. split; auto. Qed.
Print Assumptions aes_encipher_decipher.

Theorem aes_encipher_block_shape : forall key block,
  bytes key -> bytes block -> length block = 16%nat ->
  bytes (EncipherAESBlock (SetAESKey key) block) /\
  length (EncipherAESBlock (SetAESKey key) block) = 16%nat.
Proof. intros. apply st16_encipher_key; auto. split; auto. Qed.

Theorem aes_decipher_block_shape : forall key block,
  bytes key -> bytes block -> length block = 16%nat ->
  bytes (DecipherAESBlock (SetAESKey key) block) /\
  length (DecipherAESBlock (SetAESKey key) block) = 16%nat.
Proof. intros. apply st16_decipher_key; auto. split; auto. Qed.

Example aes_inverse_ex :
  let key := [7;7;7] in let block := repeat 0xab 16 in
  bytes key /\ bytes block /\
  DecipherAESBlock (SetAESKey key) (EncipherAESBlock (SetAESKey key) block) = block /\
  EncipherAESBlock (SetAESKey key) block <> block.
Proof. repeat split; try (vm_compute; congruence); repeat constructor. Qed.
