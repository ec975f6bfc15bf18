(** SHA-256, SHA-512, SHA-384: the library's digest of any message, fed in
    any pieces, is the FIPS 180-4 digest (C12, C13).  SHA-224 is not (C16). *)
From Coq Require Import NArith Arith List Lia ZifyBool ZifyNat ZifyN.
From Verif Require Import Base BaseLemmas PackLemmas Mem32 MdModel MdSpec MdProof Sha2Model Sha2Spec Sha2Proof.
Import ListNotations.
Local Open Scope N_scope.

(** ** the constants of the standard *)

Definition cbrt_floor (p : N) : N :=
  if p <? 8 then 1 else if p <? 27 then 2 else if p <? 64 then 3 else if p <? 125 then 4
  else if p <? 216 then 5 else if p <? 343 then 6 else 7.

Definition check_cbrt (w p k : N) : bool :=
  let x := cbrt_floor p * 2 ^ w + k in
  (k <? 2 ^ w) && (x ^ 3 <=? p * 2 ^ (3 * w)) && (p * 2 ^ (3 * w) <? (x + 1) ^ 3).

Lemma check_cbrt_ok w p k : check_cbrt w p k = true -> is_frac_cbrt w p k.
Proof.
  unfold check_cbrt, is_frac_cbrt. intros H.
  apply andb_prop in H as [H H3]. apply andb_prop in H as [H1 H2].
  apply N.ltb_lt in H1. apply N.leb_le in H2. apply N.ltb_lt in H3.
  split; [exact H1|]. exists (cbrt_floor p). split; assumption.
Qed.

Lemma check_cbrt_all w ps ks :
  forallb (fun q => check_cbrt w (fst q) (snd q)) (combine ps ks) = true ->
  length ps = length ks -> Forall2 (is_frac_cbrt w) ps ks.
Proof.
  revert ks. induction ps as [|p ps IH]; intros [|k ks] H L; try discriminate; constructor;
    cbn [combine forallb fst snd] in H; apply andb_prop in H as [H1 H2].
  - now apply check_cbrt_ok.
  - apply IH; [exact H2 | now injection L].
Qed.

(** the round constants are the fractional parts of the cube roots of the
    first primes, the initial values those of the square roots *)
Theorem sha256_constants : Forall2 (is_frac_cbrt 32) (firstn 64 primes) K256.
Proof. apply check_cbrt_all; vm_compute; reflexivity. Qed.
Theorem sha512_constants : Forall2 (is_frac_cbrt 64) primes K512.
Proof. apply check_cbrt_all; vm_compute; reflexivity. Qed.
Theorem sha2_initial_values : IV256 = H256 /\ IV512 = H512 /\ IV384 = H384 /\ IV224 = H224.
Proof. vm_compute. repeat split. Qed.

(** ** SHA-256 and SHA-512 *)

Definition acc_ok (w : N) (acc : list N) : Prop := length acc = 8%nat /\ words w acc.

Lemma forallb_words w l : forallb (fun x => x <? 2 ^ w) l = true -> words w l.
Proof.
  intros H. apply Forall_forall. intros x Hx. rewrite forallb_forall in H.
  apply N.ltb_lt. exact (H x Hx).
Qed.

Lemma compress256_step lsb acc b : acc_ok 32 acc -> bytes b -> length b = 64%nat ->
  TransformSHA2256 lsb acc b = compress256 acc b /\ acc_ok 32 (compress256 acc b).
Proof.
  intros [H1 H2] H3 H4. split; [now apply TransformSHA2256_ok|].
  split; [now apply compress_length | apply compress_words].
Qed.

Lemma compress512_step lsb acc b : acc_ok 64 acc -> bytes b -> length b = 128%nat ->
  TransformSHA2512 lsb acc b = compress512 acc b /\ acc_ok 64 (compress512 acc b).
Proof.
  intros [H1 H2] H3 H4. split; [now apply TransformSHA2512_ok|].
  split; [now apply compress_length | apply compress_words].
Qed.

Lemma carry32_ok n : n < 2 ^ 32 -> carry32 n = 8 * n / 2 ^ 32.
Proof.
  intros H. unfold carry32, wrap. rewrite N.mod_small, N.shiftr_div_pow2 by assumption.
  change (2 ^ 32) with (8 * 2 ^ 29). rewrite N.div_mul_cancel_l by (vm_compute; discriminate).
  reflexivity.
Qed.

Lemma carry64_ok n : carry64 n = 8 * n / 2 ^ 64.
Proof.
  unfold carry64. rewrite N.shiftr_div_pow2.
  change (2 ^ 64) with (8 * 2 ^ 61). rewrite N.div_mul_cancel_l by (vm_compute; discriminate).
  reflexivity.
Qed.

Lemma carry32_all ms : Forall (fun p : list N => N.of_nat (length p) < 2 ^ 32) ms ->
  Forall (fun p : list N => carry32 (N.of_nat (length p)) = 8 * N.of_nat (length p) / 2 ^ 32) ms.
Proof. apply Forall_impl. intros p. apply carry32_ok. Qed.

(** C12 *)
Theorem SHA256_stream lsb st ms :
  length (md_message st) = 64%nat ->
  Forall bytes ms ->
  Forall (fun p : list N => N.of_nat (length p) < 2 ^ 32) ms ->
  N.of_nat (length (concat ms)) < 2 ^ 61 ->
  FinalizeSHA2256 lsb (UpdateAll (sha2256 lsb) (InitializeMd IV256 st) ms) = SHA256 (concat ms).
Proof.
  intros Hm Hb Hc Ht. unfold FinalizeSHA2256, digest_of, SHA256.
  rewrite (md_stream (sha2256 lsb) IV256 st ms).
  - cbn [sha2256 p_transform p_blocksize p_reserve].
    destruct (md_hash_ext (acc_ok 32) (TransformSHA2256 lsb) compress256 IV256 (be_bytes 8) 64 8 (concat ms))
      as [E I].
    + lia.
    + apply be_bytes_length.
    + apply be_bytes_bytes.
    + intros. now apply compress256_step.
    + split; [reflexivity | apply forallb_words; reflexivity].
    + now apply bytes_concat.
    + rewrite E. change H256 with (map (frac_sqrt 32) (firstn 8 primes)).
      destruct sha2_initial_values as [EI _]. unfold H256 in EI. rewrite <- EI.
      destruct I as [I _]. rewrite firstn_all2 by (rewrite I; lia). apply flat_map_store.
  - left. repeat split.
  - reflexivity.
  - exact Hm.
  - now apply carry32_all.
  - change (2 ^ (2 * p_width (sha2256 lsb))) with (8 * 2 ^ 61).
    apply N.mul_lt_mono_pos_l; [reflexivity | assumption].
Qed.

(** C13 *)
Theorem SHA512_stream lsb st ms :
  length (md_message st) = 128%nat ->
  Forall bytes ms ->
  N.of_nat (length (concat ms)) < 2 ^ 125 ->
  FinalizeSHA2512 lsb (UpdateAll (sha2512 lsb) (InitializeMd IV512 st) ms) = SHA512 (concat ms).
Proof.
  intros Hm Hb Ht. unfold FinalizeSHA2512, digest_of, SHA512.
  rewrite (md_stream (sha2512 lsb) IV512 st ms).
  - cbn [sha2512 p_transform p_blocksize p_reserve].
    destruct (md_hash_ext (acc_ok 64) (TransformSHA2512 lsb) compress512 IV512 (be_bytes 16) 128 16 (concat ms))
      as [E I].
    + lia.
    + apply be_bytes_length.
    + apply be_bytes_bytes.
    + intros. now apply compress512_step.
    + split; [reflexivity | apply forallb_words; reflexivity].
    + now apply bytes_concat.
    + rewrite E. destruct sha2_initial_values as (_ & EI & _). rewrite <- EI.
      destruct I as [I _]. rewrite firstn_all2 by (rewrite I; lia). apply flat_map_store.
  - right. repeat split.
  - reflexivity.
  - exact Hm.
  - apply Forall_forall. intros p _. apply carry64_ok.
  - change (2 ^ (2 * p_width (sha2512 lsb))) with (8 * 2 ^ 125).
    apply N.mul_lt_mono_pos_l; [reflexivity | assumption].
Qed.

Theorem SHA384_stream lsb st ms :
  length (md_message st) = 128%nat ->
  Forall bytes ms ->
  N.of_nat (length (concat ms)) < 2 ^ 125 ->
  FinalizeSHA2384 lsb (UpdateAll (sha2512 lsb) (InitializeMd IV384 st) ms) = SHA384 (concat ms).
Proof.
  intros Hm Hb Ht. unfold FinalizeSHA2384, digest_of, SHA384.
  rewrite (md_stream (sha2512 lsb) IV384 st ms).
  - cbn [sha2512 p_transform p_blocksize p_reserve].
    destruct (md_hash_ext (acc_ok 64) (TransformSHA2512 lsb) compress512 IV384 (be_bytes 16) 128 16 (concat ms))
      as [E I].
    + lia.
    + apply be_bytes_length.
    + apply be_bytes_bytes.
    + intros. now apply compress512_step.
    + split; [reflexivity | apply forallb_words; reflexivity].
    + now apply bytes_concat.
    + rewrite E. destruct sha2_initial_values as (_ & _ & EI & _). rewrite <- EI.
      apply flat_map_store.
  - right. repeat split.
  - reflexivity.
  - exact Hm.
  - apply Forall_forall. intros p _. apply carry64_ok.
  - change (2 ^ (2 * p_width (sha2512 lsb))) with (8 * 2 ^ 125).
    apply N.mul_lt_mono_pos_l; [reflexivity | assumption].
Qed.

(** ** SHA-224 (C16) *)

(** a message that fits one block with its padding: the missing update of
    accumulator[7] is not visible *)
Theorem SHA224_short_partial lsb st ms :
  length (md_message st) = 64%nat ->
  Forall bytes ms ->
  (length (concat ms) <= 55)%nat ->
  FinalizeSHA2224 lsb (UpdateAll (sha2224 lsb) (InitializeMd IV224 st) ms) = SHA224 (concat ms).
Proof.
  intros Hm Hb Ht. unfold FinalizeSHA2224, digest_of, SHA224.
  assert (Hc : Forall (fun p : list N => N.of_nat (length p) < 2 ^ 32) ms).
  { apply Forall_forall. intros p Hp. apply in_split in Hp. destruct Hp as (l1 & l2 & ->).
    rewrite concat_app, app_length in Ht. cbn [concat] in Ht. rewrite app_length in Ht.
    apply N.le_lt_trans with 55; [lia | reflexivity]. }
  rewrite (md_stream (sha2224 lsb) IV224 st ms).
  - cbn [sha2224 p_transform p_blocksize p_reserve]. unfold md_hash.
    set (P := md_pad (be_bytes 8) 64 8 (concat ms)).
    assert (HP : length P = 64%nat).
    { unfold P, md_pad, zeros. rewrite !app_length, repeat_length, be_bytes_length.
      rewrite (Nat.mod_small (length (concat ms) + 1)) by lia.
      replace (64 - 8 + 64 - (length (concat ms) + 1))%nat
        with (55 - length (concat ms) + 1 * 64)%nat by lia.
      rewrite Nat.mod_add, Nat.mod_small by lia. cbn [length]. lia. }
    rewrite chunks_last by lia. cbn [fold_left].
    destruct sha2_initial_values as (_ & _ & _ & EI). rewrite <- EI.
    rewrite flat_map_store. f_equal.
    rewrite <- (TransformSHA2256_ok lsb); [| reflexivity | apply forallb_words; reflexivity | | exact HP].
    + unfold TransformSHA2224, TransformSHA2256.
      destruct (registers256 lsb IV224 P) as [[[[[[[A B] C] D] E] F] G] H]. reflexivity.
    + apply md_pad_bytes; [now apply bytes_concat | apply be_bytes_bytes].
  - left. repeat split.
  - reflexivity.
  - exact Hm.
  - now apply carry32_all.
  - change (2 ^ (2 * p_width (sha2224 lsb))) with (8 * 2 ^ 61).
    apply N.mul_lt_mono_pos_l; [reflexivity|]. apply N.le_lt_trans with 55; [lia | reflexivity].
Qed.

(** from 56 bytes on the digest is not SHA-224: C16 is false of the code *)
Theorem SHA224_refuted :
  exists lsb st m, length (md_message st) = 64%nat /\ bytes m /\ length m = 56%nat /\
  FinalizeSHA2224 lsb (UpdateMd (sha2224 lsb) (InitializeMd IV224 st) m) <> SHA224 m.
Proof.
  exists true, (mkMdInfo IV224 (repeat 0 64) 0 0 0), (repeat 97 56).
  repeat split.
  - apply Forall_forall. intros x Hx. apply repeat_spec in Hx. subst. reflexivity.
  - vm_compute. discriminate.
Qed.

(** the recorded bit count is wrong for a single update of 2^32 bytes: the
    cast in [(unsigned int) n >> 29] drops the high bits *)
Theorem SHA256_length_refuted lsb st m :
  N.of_nat (length m) = 2 ^ 32 ->
  let st' := UpdateMd (sha2256 lsb) (InitializeMd IV256 st) m in
  (md_low_order st', md_high_order st') = (0, 0) /\
  8 * N.of_nat (length m) <> 0.
Proof.
  intros H st'. split.
  - unfold st'. rewrite UpdateMd_counters, H. reflexivity.
  - rewrite H. discriminate.
Qed.

(** and it is right for every update of fewer bytes *)
Theorem SHA256_length lsb st ms :
  Forall (fun p : list N => N.of_nat (length p) < 2 ^ 32) ms ->
  N.of_nat (length (concat ms)) < 2 ^ 61 ->
  let st' := UpdateAll (sha2256 lsb) (InitializeMd IV256 st) ms in
  md_low_order st' + 2 ^ 32 * md_high_order st' = 8 * N.of_nat (length (concat ms)).
Proof.
  intros Hc Ht st'.
  destruct (UpdateAll_counts (sha2256 lsb) IV256 (ltac:(cbn; lia)) (or_introl eq_refl) (N.le_refl _)
              ms (InitializeMd IV256 st) 0) as [L H].
  - split; reflexivity.
  - now apply carry32_all.
  - change (2 ^ (2 * p_width (sha2256 lsb))) with (8 * 2 ^ 61). rewrite N.add_0_l.
    apply N.mul_lt_mono_pos_l; [reflexivity | assumption].
  - unfold st'. rewrite L, H, N.add_0_l. change (p_width (sha2256 lsb)) with 32.
    rewrite (N.div_mod (8 * N.of_nat (length (concat ms))) (2 ^ 32)) at 3 by (vm_compute; discriminate).
    apply N.add_comm.
Qed.

(** ** the hypotheses are met: "abc" fed as "a", "", "bc" into a used object *)
Example sha256_abc :
  let st := mkMdInfo (repeat 5 8) (repeat 7 64) 99 3 17 in
  length (md_message st) = 64%nat /\
  FinalizeSHA2256 true (UpdateAll (sha2256 true) (InitializeMd IV256 st) [[97]; []; [98; 99]]) =
  be_bytes 32 0xba7816bf8f01cfea414140de5dae2223b00361a396177a9cb410ff61f20015ad.
Proof. vm_compute. split; reflexivity. Qed.
Example sha512_abc :
  let st := mkMdInfo (repeat 5 8) (repeat 7 128) 99 3 17 in
  FinalizeSHA2512 false (UpdateAll (sha2512 false) (InitializeMd IV512 st) [[97]; []; [98; 99]]) =
  be_bytes 64 0xddaf35a193617abacc417349ae20413112e6fa4e89a97ea20a9eeee64b55d39a2192992a274fc1a836ba3c23a3feebbd454d4423643ce80e2a9ac94fa54ca49f.
Proof. vm_compute. reflexivity. Qed.
Example sha224_abc :
  let st := mkMdInfo (repeat 5 8) (repeat 7 64) 99 3 17 in
  FinalizeSHA2224 true (UpdateAll (sha2224 true) (InitializeMd IV224 st) [[97]; []; [98; 99]]) =
  be_bytes 28 0x23097d223405d8228642a477bda255b32aadbce4bda0b3f7e36c9da7.
Proof. vm_compute. reflexivity. Qed.
Example sha384_abc :
  let st := mkMdInfo (repeat 5 8) (repeat 7 128) 99 3 17 in
  FinalizeSHA2384 true (UpdateAll (sha2512 true) (InitializeMd IV384 st) [[97]; []; [98; 99]]) =
  be_bytes 48 0xcb00753f45a35e8bb5a03d699ac65007272c32ab0eded1631a8b605a43ff5bed8086072ba1e7cc2358baeca134c825a7.
Proof. vm_compute. reflexivity. Qed.
Example sha256_length_case : exists m : list N, N.of_nat (length m) = 2 ^ 32.
Proof. exists (repeat 0 (N.to_nat (2 ^ 32))). rewrite repeat_length. apply N2Nat.id. Qed.

Print Assumptions sha256_constants.
Print Assumptions sha512_constants.
Print Assumptions sha2_initial_values.
Print Assumptions SHA256_stream.
Print Assumptions SHA512_stream.
Print Assumptions SHA384_stream.
Print Assumptions SHA224_short_partial.
Print Assumptions SHA224_refuted.
Print Assumptions SHA256_length_refuted.
Print Assumptions SHA256_length.
