(** C77: signature.c computes SHA-256. *)
From Coq Require Import NArith Arith List Lia ZifyBool ZifyNat ZifyN.
From Verif Require Import Base BaseLemmas PackLemmas Mem32 MdModel MdSpec MdProof Sha2Model Sha2Spec Sha2Proof Sha2Props SignatureModel.
Import ListNotations.
Local Open Scope N_scope.

Lemma Trunc32_mod x : Trunc32 x = x mod 2 ^ 32.
Proof. unfold Trunc32. change 0xffffffff with (N.ones 32). apply N.land_ones. Qed.
Lemma Trunc_mod x : Trunc 32 x = x mod 2 ^ 32.
Proof. apply N.land_ones. Qed.
Lemma wadd64_32 a a' b : a mod 2 ^ 32 = a' mod 2 ^ 32 -> wadd 64 a b mod 2 ^ 32 = wadd 32 a' b mod 2 ^ 32.
Proof.
  intros H. unfold wadd, wrap. change (2 ^ 64) with (2 ^ 32 * 2 ^ 32). generalize (2 ^ 32) (pow2_nz 32) H. clear H.
  intros M NZ H. rewrite N.mod_mul_r, (N.mul_comm M), N.mod_add, N.mod_mod, N.mod_mod by assumption.
  rewrite (N.add_mod a), (N.add_mod a'), H by assumption. reflexivity.
Qed.
Lemma sum64 x y : x mod 2 ^ 32 = y mod 2 ^ 32 -> Trunc32 x = Trunc 32 y.
Proof. now rewrite Trunc32_mod, Trunc_mod. Qed.

Lemma land_ones_bits x y : (forall n, n < 32 -> N.testbit x n = N.testbit y n) -> Trunc32 x = Trunc 32 y.
Proof.
  intros H. unfold Trunc32, Trunc. change 0xffffffff with (N.ones 32). apply N.bits_inj. intros n. rewrite !N.land_spec.
  destruct (N.lt_ge_cases n 32) as [L|L]; [now rewrite H|]. rewrite N.ones_spec_high by exact L. now rewrite !Bool.andb_false_r.
Qed.
Lemma rot_eq x n : sg_RotateRight x n = RotateRight 32 x n.
Proof.
  apply land_ones_bits. intros k L. rewrite !N.lor_spec, !wshl_testbit. f_equal.
  replace (k <? 64) with true by lia. replace (k <? 32) with true by lia. reflexivity.
Qed.
Lemma Sigma_eq a b c x : sg_Sigma a b c x = SigmaM 32 a b c x.
Proof. unfold sg_Sigma, SigmaM. now rewrite !rot_eq. Qed.
Lemma Suma_eq a b c x : sg_Suma a b c x = SumaM 32 a b c x.
Proof. unfold sg_Suma, SumaM. now rewrite !rot_eq. Qed.
Lemma Ch_eq x y z : word 32 z -> sg_Ch x y z = Ch 32 x y z.
Proof.
  intros Hz. unfold sg_Ch. rewrite Ch_SCh by exact Hz. apply (Ch_SCh 64). unfold word in *.
  eapply N.lt_trans; [exact Hz|reflexivity].
Qed.
Lemma swap_eq T : sg_swap T = swap32 T.
Proof.
  unfold sg_swap, swap32. do 2 f_equal.
  change 0xff000000 with (N.shiftl 255 24). change 0x00ff0000 with (N.shiftl 255 16).
  rewrite !shiftl_mid_mask by (vm_compute; discriminate). reflexivity.
Qed.

(** ** the block *)
Lemma le_val_app a b : le_val (a ++ b) = le_val a + 256 ^ N.of_nat (length a) * le_val b.
Proof.
  induction a as [|x a IH]; [cbn [app le_val length]; rewrite N.mul_1_l; reflexivity|].
  cbn [app le_val length]. rewrite IH, Nat2N.inj_succ, N.pow_succ_r'. lia.
Qed.
Lemma le_val_split p : length p = 8%nat -> bytes p ->
  le_val (firstn 4 p) = le_val p mod 2 ^ 32 /\ le_val (skipn 4 p) = N.shiftr (le_val p) 32.
Proof.
  intros L B. assert (E : le_val p = le_val (firstn 4 p) + 2 ^ 32 * le_val (skipn 4 p)).
  { rewrite <- (firstn_skipn 4 p) at 1. rewrite le_val_app, firstn_length, L. reflexivity. }
  assert (S : le_val (firstn 4 p) < 2 ^ 32).
  { change (2 ^ 32) with (256 ^ N.of_nat 4). replace 4%nat with (length (firstn 4 p)) at 2 by (rewrite firstn_length; lia).
    apply le_val_bound. apply Mem32.Forall_firstn_. exact B. }
  rewrite N.shiftr_div_pow2, E. generalize dependent (2 ^ 32). intros M E S.
  rewrite (N.mul_comm M), N.mod_add, N.div_add, N.mod_small, N.div_small by lia. lia.
Qed.
Lemma swap_mod T : swap32 (T mod 2 ^ 32) = swap32 T.
Proof.
  unfold swap32.
  change 0xff000000 with (N.shiftl 255 24). change 0x00ff0000 with (N.shiftl 255 16).
  change 0x0000ff00 with (N.shiftl 255 8). change (0x000000ff) with (N.shiftl 255 0).
  rewrite !shiftl_mid_mask by (vm_compute; discriminate). rewrite !shiftr_byte_mask.
  assert (G : forall s, s <= 24 -> N.land (N.shiftr (T mod 2 ^ 32) s) 255 = N.land (N.shiftr T s) 255).
  { intros s Hs. apply N.bits_inj. intros n. rewrite !N.land_spec, !N.shiftr_spec'. change 255 with (N.ones 8).
    destruct (N.lt_ge_cases n 8) as [L|L].
    - rewrite N.mod_pow2_bits_low by lia. reflexivity.
    - rewrite N.ones_spec_high by exact L. now rewrite !Bool.andb_false_r. }
  rewrite !G by (vm_compute; discriminate). reflexivity.
Qed.
Lemma pair_be lsb p : bytes p -> length p = 8%nat -> sg_pair lsb p = [be_val (firstn 4 p); be_val (skipn 4 p)].
Proof.
  intros B L. assert (B1 : bytes (firstn 4 p)) by (now apply Mem32.Forall_firstn_).
  assert (B2 : bytes (skipn 4 p)) by (apply Forall_forall; intros x Hx; rewrite <- (firstn_skipn 4 p) in B;
    apply bytes_app in B as [_ B]; now apply (proj1 (Forall_forall _ _) B)).
  unfold sg_pair, host_load. destruct lsb.
  - rewrite !swap_eq. destruct (le_val_split p L B) as [E1 E2].
    rewrite <- (swap_mod (le_val p)), <- E1, <- E2. rewrite !swap32_be by (assumption || rewrite ?firstn_length, ?skipn_length; lia).
    reflexivity.
  - assert (E : be_val p = be_val (skipn 4 p) + 2 ^ 32 * be_val (firstn 4 p)).
    { rewrite !be_val_le_val. rewrite <- (firstn_skipn 4 p) at 1. rewrite rev_app_distr, le_val_app, rev_length, skipn_length, L. reflexivity. }
    assert (S : be_val (skipn 4 p) < 2 ^ 32).
    { apply (be_val_word 4); [exact B2|rewrite skipn_length; lia]. }
    assert (S1 : be_val (firstn 4 p) < 2 ^ 32).
    { apply (be_val_word 4); [exact B1|rewrite firstn_length; lia]. }
    rewrite !Trunc32_mod, N.shiftr_div_pow2, E. generalize dependent (2 ^ 32). intros M E S S1.
    rewrite (N.mul_comm M), N.mod_add, N.div_add, N.div_small, N.add_0_l, !N.mod_small by lia. reflexivity.
Qed.
Lemma load_eq lsb m : bytes m -> length m = 64%nat -> sg_load lsb m = load_words lsb 4 swap32 m.
Proof.
  intros B L. rewrite load_words_be; [|lia|exact swap32_be|exact B|exact L].
  rewrite (chunks_slices 4 16) by (lia || exact L). unfold sg_load.
  assert (P : forall i, (i < 8)%nat -> sg_pair lsb (slice m (8 * i) 8) = [be_val (slice m (4 * (2 * i)) 4); be_val (slice m (4 * (2 * i + 1)) 4)]).
  { intros i Hi. rewrite pair_be by (try apply bytes_slice; try apply slice_length; try exact B; lia).
    unfold slice. rewrite firstn_firstn, skipn_firstn_comm, skipn_skipn. change (Nat.min 4 8) with 4%nat. change (8 - 4)%nat with 4%nat.
    replace (4 * (2 * i))%nat with (8 * i)%nat by lia. replace (4 * (2 * i + 1))%nat with (8 * i + 4)%nat by lia. reflexivity. }
  cbn [flat_map seq app]. rewrite !P by lia. reflexivity.
Qed.

(** ** the schedule and the rounds *)
Definition words_of (s : N * N * N * N * N * N * N * N) : Prop := words 32 (untuple s).
Lemma extend_eq W : sg_extend W = extend_words 32 Sigma0_256 Sigma1_256 64 W.
Proof.
  unfold sg_extend, extend_words. change (64 - 16)%nat with 48%nat. revert W. generalize (seq 16 48).
  induction l as [|i l IH]; intros W; [reflexivity|]. cbn [fold_left]. rewrite <- IH. f_equal. do 2 f_equal.
  apply sum64. rewrite !Sigma_eq. repeat apply wadd64_32. reflexivity.
Qed.
Lemma round_eq W s j : words_of s -> sg_round W s j = round 32 Suma0_256 Suma1_256 K256 W s j.
Proof.
  destruct s as [[[[[[[A B] C] D] E] F] G] H]. intros Ws.
  assert (HG : word 32 G) by (apply (proj1 (Forall_forall _ _) Ws); cbn; tauto).
  unfold sg_round, round. change sg_K with K256.
  assert (T1 : Trunc32 (wadd 64 (wadd 64 (wadd 64 (wadd 64 H (sg_Suma 6 11 25 E)) (sg_Ch E F G)) (get K256 j)) (get W j)) =
               Trunc 32 (wadd 32 (wadd 32 (wadd 32 (wadd 32 H (Suma1_256 E)) (Ch 32 E F G)) (get K256 j)) (get W j))).
  { apply sum64. rewrite Suma_eq, Ch_eq by exact HG. repeat apply wadd64_32. reflexivity. }
  assert (T2 : Trunc32 (wadd 64 (sg_Suma 2 13 22 A) (Maj A B C)) = Trunc 32 (wadd 32 (Suma0_256 A) (Maj A B C))).
  { apply sum64. rewrite Suma_eq. now apply wadd64_32. }
  rewrite T1, T2. cbv zeta. repeat f_equal; apply sum64, wadd64_32; reflexivity.
Qed.
Lemma word_Trunc x : word 32 (Trunc 32 x).
Proof. rewrite Trunc_mod. apply N.mod_lt, pow2_nz. Qed.
Lemma round_words W s j : words_of s -> words_of (round 32 Suma0_256 Suma1_256 K256 W s j).
Proof.
  destruct s as [[[[[[[A B] C] D] E] F] G] H]. intros Ws. unfold words_of, untuple, round in *.
  assert (X : forall x, In x [A; B; C; D; E; F; G; H] -> word 32 x) by (intros x Hx; exact (proj1 (Forall_forall _ _) Ws x Hx)).
  repeat (apply Forall_cons; [first [apply word_Trunc | apply X; cbn; tauto]|]). constructor.
Qed.
Lemma rounds_eq W l : forall s, words_of s ->
  fold_left (sg_round W) l s = fold_left (round 32 Suma0_256 Suma1_256 K256 W) l s.
Proof.
  induction l as [|j l IH]; intros s Hs; [reflexivity|]. cbn [fold_left]. rewrite round_eq by exact Hs. apply IH, round_words, Hs.
Qed.
Lemma transform_eq lsb acc m : acc_ok 32 acc -> bytes m -> length m = 64%nat ->
  TransformSignature lsb acc m = TransformSHA2256 lsb acc m.
Proof.
  intros [L Wa] B Lm. unfold TransformSignature, TransformSHA2256, registers256, rounds_of. rewrite load_eq, extend_eq by assumption.
  change (length K256) with 64%nat. rewrite rounds_eq.
  - destruct (fold_left _ _ _) as [[[[[[[A B'] C] D] E] F] G] H]. unfold add_registers.
    do 7 (f_equal; [apply sum64, wadd64_32; reflexivity|]). f_equal. apply sum64, wadd64_32. reflexivity.
  - unfold words_of, untuple. repeat (apply Forall_cons; [exact (get_word 32 acc _ Wa)|]). constructor.
Qed.

(** the digest words of any message in any pieces, whatever their lengths, are
    those of SHA-256 *)
Theorem signature_stream lsb ms :
  Forall bytes ms -> N.of_nat (length (concat ms)) < 2 ^ 61 ->
  flat_map (be_bytes 4) (md_accumulator (FinalizeSignature lsb (fold_left (UpdateSignature lsb) ms GetSignatureInfo))) = SHA256 (concat ms).
Proof.
  intros Hb Ht. unfold FinalizeSignature, UpdateSignature, SHA256. f_equal.
  change (fold_left (UpdateMd (signature lsb)) ms GetSignatureInfo) with (UpdateAll (signature lsb) (InitializeMd IV256 GetSignatureInfo) ms).
  rewrite (md_stream (signature lsb) IV256 GetSignatureInfo ms).
  - cbn [signature p_transform p_blocksize p_reserve].
    destruct (md_hash_ext (acc_ok 32) (TransformSignature lsb) compress256 IV256 (be_bytes 8) 64 8 (concat ms)) as [E I].
    + lia.
    + apply be_bytes_length.
    + apply be_bytes_bytes.
    + intros acc b Ha B L. destruct (compress256_step lsb acc b Ha B L) as [E1 E2]. rewrite transform_eq by assumption. auto.
    + split; [reflexivity | apply forallb_words; reflexivity].
    + now apply bytes_concat.
    + rewrite E. destruct sha2_initial_values as [EI _]. now rewrite EI.
  - left. repeat split.
  - discriminate.
  - reflexivity.
  - apply Forall_forall. intros p _. cbn [signature p_carry p_width]. rewrite N.shiftr_div_pow2.
    change (2 ^ 32) with (8 * 2 ^ 29). rewrite N.div_mul_cancel_l by (vm_compute; discriminate). reflexivity.
  - change (2 ^ (2 * p_width (signature lsb))) with (8 * 2 ^ 61). apply N.mul_lt_mono_pos_l; [reflexivity | assumption].
Qed.
Example signature_abc :
  flat_map (be_bytes 4) (md_accumulator (FinalizeSignature true (fold_left (UpdateSignature true) [[97]; []; [98; 99]] GetSignatureInfo))) =
  be_bytes 32 0xba7816bf8f01cfea414140de5dae2223b00361a396177a9cb410ff61f20015ad.
Proof. vm_compute. reflexivity. Qed.
Print Assumptions signature_stream.
