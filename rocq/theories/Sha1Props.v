(** SHA-1 of a streamed message is FIPS 180-4 SHA-1 (C14). *)
From Coq Require Import NArith Arith List Lia ZifyBool ZifyNat ZifyN.
From Verif Require Import Base BaseLemmas PackLemmas Mem32 MdModel MdSpec MdProof.
From Verif Require Import Sha2Model Sha2Spec Sha2Proof Sha2Props Sha1Model Sha1Spec.
Import ListNotations.
Local Open Scope N_scope.

Lemma RotateLeft_ROTL x n : word 32 x -> n <= 32 -> RotateLeft x n = ROTL n x.
Proof.
  intros Hx Hn. unfold RotateLeft.
  rewrite N.lor_comm.
  pose proof (RotateRight_ROTR 32 eq_refl x (32 - n) Hx ltac:(lia)) as E.
  unfold RotateRight in E. replace (32 - (32 - n)) with n in E by lia. rewrite E.
  unfold ROTR, ROTL. replace (32 - (32 - n)) with n by lia. apply N.add_comm.
Qed.

Lemma word_RotateLeft x n : word 32 (RotateLeft x n).
Proof. apply word_land_r, word_ones. Qed.

Lemma f0_ft x y z t : (t < 20)%nat -> word 32 z -> sha1_f0 x y z = ft t x y z.
Proof.
  intros Ht Hz. unfold sha1_f0, ft. replace (t <? 20)%nat with true by lia.
  apply N.bits_inj. intros n. rewrite N.lor_spec, N.lxor_spec, !N.land_spec, N.ldiff_spec.
  destruct (N.lt_ge_cases n 32) as [L|L].
  - rewrite wnot_testbit by assumption.
    destruct (N.testbit x n), (N.testbit y n), (N.testbit z n); reflexivity.
  - rewrite (testbit_high 32 z) by assumption. rewrite !Bool.andb_false_r. cbn [andb].
    now rewrite Bool.orb_false_r, Bool.xorb_false_r.
Qed.

Lemma f1_ft x y z t : (20 <= t < 40)%nat \/ (60 <= t)%nat -> sha1_f1 x y z = ft t x y z.
Proof.
  intros Ht. unfold sha1_f1, ft. destruct (Nat.ltb_spec t 20) as [A|A]; [lia|].
  rewrite N.lxor_assoc. destruct (Nat.ltb_spec t 40) as [B|B]; [reflexivity|].
  destruct (Nat.ltb_spec t 60) as [C|C]; [lia | reflexivity].
Qed.

Lemma f2_ft x y z t : (40 <= t < 60)%nat -> sha1_f2 x y z = ft t x y z.
Proof.
  intros Ht. unfold sha1_f2, ft. replace (t <? 20)%nat with false by lia.
  replace (t <? 40)%nat with false by lia. replace (t <? 60)%nat with true by lia.
  apply N.bits_inj. intros n. rewrite !N.lor_spec, !N.lxor_spec, !N.land_spec.
  destruct (N.testbit x n), (N.testbit y n), (N.testbit z n); reflexivity.
Qed.

Lemma rev_sched1_words M n : words 32 M -> words 32 (rev_sched1 n M).
Proof.
  intros H. induction n as [|n IH]; cbn [rev_sched1]; constructor; [|assumption].
  destruct (n <? 16)%nat; [exact (get_word 32 M n H)|].
  assert (E : forall x, word 32 x -> word 32 (ROTL 1 x)).
  { intros x Hx. rewrite <- RotateLeft_ROTL by (assumption || discriminate). apply word_RotateLeft. }
  apply E. repeat apply word_lxor; exact (get_word 32 _ _ IH).
Qed.

Lemma rev_sched1_length M n : length (rev_sched1 n M) = n.
Proof. induction n as [|n IH]; cbn [rev_sched1 length]; [reflexivity | now rewrite IH]. Qed.

Lemma rev_sched1_16 M : length M = 16%nat -> rev_sched1 16 M = rev M.
Proof. intros H. do 17 (destruct M as [|? M]; try discriminate H). reflexivity. Qed.

Lemma nth_rev_get' (l : list N) k : (k < length l)%nat ->
  nth k l 0 = get (rev l) (length l - S k).
Proof. intros H. unfold get. rewrite rev_nth by lia. f_equal. lia. Qed.

Lemma rev_sched1_S M n : (16 <= n)%nat -> words 32 M ->
  rev_sched1 (S n) M =
  (let W := rev (rev_sched1 n M) in
   RotateLeft (N.lxor (N.lxor (N.lxor (get W (n - 3)) (get W (n - 8))) (get W (n - 14)))
               (get W (n - 16))) 1) :: rev_sched1 n M.
Proof.
  intros Hn Hw. cbn [rev_sched1]. cbv zeta. f_equal.
  replace (n <? 16)%nat with false by lia.
  pose proof (rev_sched1_length M n) as L.
  pose proof (rev_sched1_words M n Hw) as WW.
  set (W := rev_sched1 n M) in *. clearbody W.
  assert (G : forall k, (k < 16)%nat -> get (rev W) (n - S k) = nth k W 0).
  { intros k Hk. rewrite nth_rev_get' by lia. rewrite L. reflexivity. }
  rewrite (G 2%nat), (G 7%nat), (G 13%nat), (G 15%nat) by lia.
  rewrite !N.lxor_assoc. symmetry. apply RotateLeft_ROTL; [|discriminate].
  repeat apply word_lxor; exact (get_word 32 _ _ WW).
Qed.

Lemma sha1_extend_ok M : length M = 16%nat -> words 32 M ->
  sha1_extend M = rev (rev_sched1 80 M).
Proof.
  intros Hl Hw. unfold sha1_extend.
  change 64%nat with (80 - 16)%nat.
  assert (G : forall j n, (16 <= n)%nat -> j = (n - 16)%nat ->
    fold_left (fun W i => W ++ [RotateLeft
      (N.lxor (N.lxor (N.lxor (get W (i - 3)) (get W (i - 8))) (get W (i - 14))) (get W (i - 16))) 1])
      (seq 16 j) M = rev (rev_sched1 n M)).
  { induction j as [|j IH]; intros n Hn Ej.
    - replace n with 16%nat by lia. rewrite rev_sched1_16, rev_involutive by assumption. reflexivity.
    - destruct n as [|n]; [lia|]. rewrite seq_S, fold_left_app. rewrite (IH n) by lia.
      cbn [fold_left]. replace (16 + j)%nat with n by lia.
      rewrite rev_sched1_S by (assumption || lia). reflexivity. }
  apply G; lia.
Qed.

Definition untuple5 (s : N * N * N * N * N) : list N :=
  let '(A, B, C, D, E) := s in [A; B; C; D; E].

(** steps [t .. t+k-1] of the standard from the schedule [W] *)
Lemma steps1_app W1 W2 : forall t s, length s = 5%nat ->
  steps1 (W1 ++ W2) t s = steps1 W2 (t + length W1) (steps1 W1 t s).
Proof.
  induction W1 as [|w W1 IH]; intros t s H.
  - cbn [app steps1 length]. rewrite Nat.add_0_r. destruct s; reflexivity.
  - do 6 (destruct s as [|? s]; try discriminate H). cbn [app steps1 length].
    rewrite IH by reflexivity. f_equal. lia.
Qed.

Lemma wadd5 a b c d e : wadd 32 (wadd 32 (wadd 32 (wadd 32 a b) c) e) d = ADD32 [a; b; c; d; e].
Proof.
  unfold ADD32, wadd, wrap. cbn [fold_left]. generalize (pow2_nz 32). generalize (2 ^ 32). intros M HM.
  assert (E : forall x y z, ((x mod M + y) mod M + z) mod M = (x + y + z) mod M).
  { intros x y z. rewrite N.add_mod_idemp_l by exact HM. rewrite <- !N.add_assoc.
    apply N.add_mod_idemp_l, HM. }
  rewrite !E. rewrite <- !N.add_assoc. rewrite N.add_mod_idemp_l by exact HM.
  f_equal. lia.
Qed.

Lemma word_ADD32 l : word 32 (ADD32 l).
Proof. unfold ADD32. apply N.mod_lt, pow2_nz. Qed.

Lemma sha1_rounds f K W k : forall t s,
  (forall i, (t <= i < t + k)%nat -> Kt i = K) ->
  (forall i x y z, (t <= i < t + k)%nat -> word 32 z -> f x y z = ft i x y z) ->
  words 32 W -> words 32 (untuple5 s) -> (t + k <= length W)%nat ->
  steps1 (slice W t k) t (untuple5 s) =
  untuple5 (fold_left (sha1_round f K W) (seq t k) s) /\
  words 32 (untuple5 (fold_left (sha1_round f K W) (seq t k) s)).
Proof.
  induction k as [|k IH]; intros t s HK Hf HW Hs Hl.
  - cbn. split; [|assumption]. destruct (untuple5 s); reflexivity.
  - assert (E : slice W t (S k) = get W t :: slice W (S t) k).
    { unfold slice, get. clear - Hl.
      revert t Hl. induction W as [|w W IH]; intros t Hl; [cbn in Hl; lia|].
      destruct t as [|t]; [reflexivity|]. cbn [skipn nth]. apply IH. cbn in Hl. lia. }
    rewrite E. cbn [seq fold_left].
    destruct s as [[[[A B] C] D] F]. cbn [untuple5] in Hs.
    inversion_clear Hs as [|? ? HA R0]. inversion_clear R0 as [|? ? HB R1].
    inversion_clear R1 as [|? ? HC R2]. inversion_clear R2 as [|? ? HD R3].
    inversion_clear R3 as [|? ? HE _].
    cbn [untuple5 steps1 sha1_round].
    assert (ER : Trunc 32 (wadd 32 (wadd 32 (wadd 32 (wadd 32 (RotateLeft A 5) (f B C D)) F) (get W t)) K)
      = ADD32 [ROTL 5 A; ft t B C D; F; Kt t; get W t]).
    { rewrite Trunc_word by apply word_wadd.
      rewrite RotateLeft_ROTL by (assumption || discriminate).
      rewrite (Hf t) by (assumption || lia). rewrite HK by lia. apply wadd5. }
    rewrite ER. rewrite <- (RotateLeft_ROTL B 30) by (assumption || discriminate).
    apply (IH (S t) (ADD32 [ROTL 5 A; ft t B C D; F; Kt t; get W t], A, RotateLeft B 30, C, D)).
    + intros i Hi. apply HK. lia.
    + intros i x y z Hi. apply Hf. lia.
    + assumption.
    + repeat (constructor; [first [assumption | apply word_ADD32 | apply word_RotateLeft]|]). constructor.
    + lia.
Qed.

Lemma slice_4 (W : list N) : length W = 80%nat ->
  W = slice W 0 20 ++ slice W 20 20 ++ slice W 40 20 ++ slice W 60 20.
Proof.
  intros H. unfold slice. cbn [skipn].
  rewrite <- (firstn_skipn 20 W) at 1. f_equal.
  rewrite <- (firstn_skipn 20 (skipn 20 W)) at 1. rewrite skipn_skipn. f_equal.
  rewrite <- (firstn_skipn 20 (skipn (20 + 20) W)) at 1. rewrite skipn_skipn. f_equal.
  symmetry. apply firstn_all2. rewrite skipn_length. lia.
Qed.

Lemma steps1_length W : forall t s, length s = 5%nat -> length (steps1 W t s) = 5%nat.
Proof.
  induction W as [|w W IH]; intros t s H; [exact H|].
  do 6 (destruct s as [|? s]; try discriminate H). cbn [steps1]. apply IH. reflexivity.
Qed.

Lemma compress1_words H m : words 32 (compress1 H m).
Proof.
  unfold compress1. generalize (steps1 (rev (rev_sched1 80 (map be_val (chunks 4 m)))) 0 H).
  induction H as [|h H IH]; intros [|s l]; cbn [map2]; constructor; [apply word_ADD32 | apply IH].
Qed.

Lemma compress1_length H m : length H = 5%nat -> length (compress1 H m) = 5%nat.
Proof.
  intros L. unfold compress1. rewrite map2_length, steps1_length, L by exact L. reflexivity.
Qed.

Theorem TransformSHA1_ok lsb acc m : length acc = 5%nat -> words 32 acc ->
  bytes m -> length m = 64%nat -> TransformSHA1 lsb acc m = compress1 acc m.
Proof.
  intros Ha Wa Hm Hl. unfold TransformSHA1, compress1.
  rewrite (load_words_be lsb 4 swap32 m) by (try assumption; try lia; apply swap32_be).
  set (M := map be_val (chunks 4 m)).
  assert (LM : length M = 16%nat).
  { unfold M. rewrite map_length, (chunks_slices 4 16) by (assumption || lia).
    rewrite map_length, seq_length. reflexivity. }
  assert (WM : words 32 M).
  { unfold M. rewrite (chunks_slices 4 16) by (assumption || lia). rewrite map_map.
    apply Forall_forall. intros x Hx. apply in_map_iff in Hx. destruct Hx as (i & <- & Hi).
    apply in_seq in Hi. apply (be_val_word 4); [now apply bytes_slice|].
    apply slice_length. lia. }
  rewrite sha1_extend_ok by assumption.
  assert (WW : words 32 (rev (rev_sched1 80 M))) by (apply Forall_rev, rev_sched1_words; assumption).
  assert (LW : length (rev (rev_sched1 80 M)) = 80%nat) by (rewrite rev_length; apply rev_sched1_length).
  set (W := rev (rev_sched1 80 M)) in *. clearbody W. clear M LM WM.
  do 6 (destruct acc as [|? acc]; try discriminate Ha).
  unfold get at 1 2 3 4 5. cbn [nth].
  pose proof (slice_4 W LW) as ES. 
  assert (L20 : forall t, (t + 20 <= 80)%nat -> length (slice W t 20) = 20%nat)
    by (intros t Ht; apply slice_length; lia).
  assert (EM : steps1 W 0 [n; n0; n1; n2; n3] =
    steps1 (slice W 60 20) 60 (steps1 (slice W 40 20) 40 (steps1 (slice W 20 20) 20
      (steps1 (slice W 0 20) 0 [n; n0; n1; n2; n3])))).
  { rewrite ES at 1. rewrite !steps1_app by (repeat apply steps1_length; reflexivity).
    rewrite !L20 by lia. reflexivity. }
  rewrite EM. clear EM ES.
  change [n; n0; n1; n2; n3] with (untuple5 (n, n0, n1, n2, n3)).
  change (words 32 (untuple5 (n, n0, n1, n2, n3))) in Wa.
  set (s := (n, n0, n1, n2, n3)) in *.
  destruct (sha1_rounds sha1_f0 0x5a827999 W 20 0 s) as [E1 W1]; try assumption; try lia.
  { intros i Hi. unfold Kt. replace (i <? 20)%nat with true by lia. reflexivity. }
  { intros i x y z Hi Hz. apply f0_ft; [lia | assumption]. }
  rewrite E1. clear E1.
  set (sa := fold_left (sha1_round sha1_f0 0x5a827999 W) (seq 0 20) s) in *. clearbody sa.
  destruct (sha1_rounds sha1_f1 0x6ed9eba1 W 20 20 sa) as [E2 W2]; try assumption; try lia.
  { intros i Hi. unfold Kt. replace (i <? 20)%nat with false by lia.
    replace (i <? 40)%nat with true by lia. reflexivity. }
  { intros i x y z Hi Hz. apply f1_ft. lia. }
  rewrite E2. clear E2.
  set (sb := fold_left (sha1_round sha1_f1 0x6ed9eba1 W) (seq 20 20) sa) in *. clearbody sb.
  destruct (sha1_rounds sha1_f2 0x8F1bbcdc W 20 40 sb) as [E3 W3]; try assumption; try lia.
  { intros i Hi. unfold Kt. replace (i <? 20)%nat with false by lia.
    replace (i <? 40)%nat with false by lia. replace (i <? 60)%nat with true by lia. reflexivity. }
  { intros i x y z Hi Hz. apply f2_ft. lia. }
  rewrite E3. clear E3.
  set (sc := fold_left (sha1_round sha1_f2 0x8F1bbcdc W) (seq 40 20) sb) in *. clearbody sc.
  destruct (sha1_rounds sha1_f1 0xca62c1d6 W 20 60 sc) as [E4 W4]; try assumption; try lia.
  { intros i Hi. unfold Kt. replace (i <? 20)%nat with false by lia.
    replace (i <? 40)%nat with false by lia. replace (i <? 60)%nat with false by lia. reflexivity. }
  { intros i x y z Hi Hz. apply f1_ft. lia. }
  rewrite E4. clear E4.
  destruct (fold_left (sha1_round sha1_f1 0xca62c1d6 W) (seq 60 20) sc) as [[[[A B] C] D] E].
  unfold get. cbn [untuple5 nth map2].
  rewrite !Trunc_word by apply word_wadd. reflexivity.
Qed.

Definition acc5_ok (acc : list N) : Prop := length acc = 5%nat /\ words 32 acc.

(** C14 *)
Theorem SHA1_stream lsb st ms :
  length (md_message st) = 64%nat ->
  Forall bytes ms ->
  Forall (fun p : list N => N.of_nat (length p) < 2 ^ 32) ms ->
  N.of_nat (length (concat ms)) < 2 ^ 61 ->
  FinalizeSHA1 lsb (UpdateAll (sha1 lsb) (InitializeMd IV1 st) ms) = SHA1 (concat ms).
Proof.
  intros Hm Hb Hc Ht. unfold FinalizeSHA1, digest_of, SHA1.
  rewrite (md_stream (sha1 lsb) IV1 st ms).
  - cbn [sha1 p_transform p_blocksize p_reserve].
    destruct (md_hash_ext acc5_ok (TransformSHA1 lsb) compress1 IV1 (be_bytes 8) 64 8 (concat ms))
      as [E I].
    + lia.
    + apply be_bytes_length.
    + apply be_bytes_bytes.
    + intros acc b [HA1 HA2] HB1 HB2. split; [now apply TransformSHA1_ok|].
      split; [now apply compress1_length | apply compress1_words].
    + split; [reflexivity | apply forallb_words; reflexivity].
    + now apply bytes_concat.
    + rewrite E. change H1 with IV1.
      destruct I as [I _]. rewrite firstn_all2 by (rewrite I; lia). apply flat_map_store.
  - left. repeat split.
  - reflexivity.
  - exact Hm.
  - now apply carry32_all.
  - change (2 ^ (2 * p_width (sha1 lsb))) with (8 * 2 ^ 61).
    apply N.mul_lt_mono_pos_l; [reflexivity | assumption].
Qed.

Example sha1_abc :
  let st := mkMdInfo (repeat 5 5) (repeat 7 64) 99 3 17 in
  FinalizeSHA1 true (UpdateAll (sha1 true) (InitializeMd IV1 st) [[97]; []; [98; 99]]) =
  be_bytes 20 0xa9993e364706816aba3e25717850c26c9cd0d89d.
Proof. vm_compute. reflexivity. Qed.

Print Assumptions SHA1_stream.
