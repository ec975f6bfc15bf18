(** The Transform functions compute the compression functions of FIPS
    180-4. *)
From Coq Require Import NArith Arith List Lia ZifyBool ZifyNat ZifyN.
From Verif Require Import Base BaseLemmas PackLemmas Mem32 MdModel MdSpec MdProof Sha2Model Sha2Spec.
Import ListNotations.
Local Open Scope N_scope.

(** ** loading the block *)

Lemma chunks_slices {A} b k : forall m : list A, (0 < b)%nat -> length m = (k * b)%nat ->
  chunks b m = map (fun i => slice m (b * i) b) (seq 0 k).
Proof.
  induction k as [|k IH]; intros m Hb Hm.
  - destruct m; [reflexivity | cbn in Hm; lia].
  - rewrite <- (firstn_skipn b m) at 1.
    assert (L : length (firstn b m) = b) by (rewrite firstn_length; lia).
    rewrite chunks_cons by assumption.
    cbn [seq map]. f_equal.
    + rewrite Nat.mul_0_r. reflexivity.
    + rewrite IH by (try assumption; rewrite skipn_length; lia).
      rewrite <- seq_shift, map_map. apply map_ext. intros i. unfold slice.
      rewrite skipn_skipn. do 2 f_equal. lia.
Qed.

Lemma shiftr_byte_mask T s k :
  N.land (N.shiftr T s) (N.shiftl 255 k) = N.shiftl (N.land (N.shiftr T (s + k)) 255) k.
Proof.
  apply N.bits_inj. intros n. rewrite N.land_spec, N.shiftr_spec'.
  destruct (N.le_gt_cases k n) as [L|L].
  - rewrite !N.shiftl_spec_high' by assumption. rewrite N.land_spec, N.shiftr_spec'.
    replace (n - k + (s + k)) with (n + s) by lia. reflexivity.
  - rewrite !N.shiftl_spec_low by assumption. apply Bool.andb_false_r.
Qed.

Lemma lor_step x b n k : b < 256 -> k = n + 8 ->
  N.lor (N.shiftl x k) (N.shiftl b n) = N.shiftl (256 * x + b) n.
Proof.
  intros Hb ->. replace (n + 8) with (8 + n) by lia. rewrite <- N.shiftl_shiftl, <- N.shiftl_lor.
  f_equal. rewrite N.lor_comm, lor_add_disjoint by (now apply word8).
  change (2 ^ 8) with 256. lia.
Qed.

Lemma shiftl_mid_mask w T s k : k <= s -> s + 8 <= w ->
  N.land (wshl w T k) (N.shiftl 255 s) = N.shiftl (N.land (N.shiftr T (s - k)) 255) s.
Proof.
  intros H1 H. apply N.bits_inj. intros n. rewrite N.land_spec, wshl_testbit.
  destruct (N.le_gt_cases s n) as [L|L].
  - rewrite !N.shiftl_spec_high' by assumption. rewrite N.land_spec, N.shiftr_spec'.
    change 255 with (N.ones 8).
    destruct (N.lt_ge_cases (n - s) 8) as [C|C].
    + replace (n <? w) with true by lia. replace (k <=? n) with true by lia.
      replace (n - s + (s - k)) with (n - k) by lia. reflexivity.
    + rewrite N.ones_spec_high by assumption. rewrite !Bool.andb_false_r. reflexivity.
  - rewrite !N.shiftl_spec_low by assumption. now rewrite Bool.andb_false_r.
Qed.

Lemma swap32_be l : bytes l -> length l = 4%nat -> swap32 (le_val l) = be_val l.
Proof.
  intros Hb Hl. unfold swap32.
  change 0xff000000 with (N.shiftl 255 24). change 0x00ff0000 with (N.shiftl 255 16).
  change 0x0000ff00 with (N.shiftl 255 8). change (0x000000ff) with (N.shiftl 255 0).
  assert (B : forall j, N.land (N.shiftr (le_val l) (8 * N.of_nat j)) 255 = nth j l 0)
    by (intros j; apply byte_le_val; assumption).
  rewrite !shiftl_mid_mask by (vm_compute; discriminate).
  rewrite !shiftr_byte_mask.
  pose proof (B 0%nat) as B0. pose proof (B 1%nat) as B1. pose proof (B 2%nat) as B2. pose proof (B 3%nat) as B3.
  change (8 * N.of_nat 0) with 0 in B0. change (8 * N.of_nat 1) with 8 in B1.
  change (8 * N.of_nat 2) with 16 in B2. change (8 * N.of_nat 3) with 24 in B3.
  change (24 - 24) with 0. change (16 - 8) with 8. change (8 + 8) with 16. change (24 + 0) with 24.
  rewrite B0, B1, B2, B3. clear B B0 B1 B2 B3.
  do 5 (destruct l as [|? l]; try discriminate Hl). cbn [nth].
  repeat match goal with H : bytes (_ :: _) |- _ => inversion_clear H
                    | H : Forall _ (_ :: _) |- _ => inversion_clear H end.
  rewrite !lor_step by (assumption || reflexivity). rewrite N.shiftl_0_r.
  unfold be_val. cbn [fold_left]. rewrite N.mul_0_r, N.add_0_l. reflexivity.
Qed.

Lemma swap64_be l : bytes l -> length l = 8%nat -> swap64 (le_val l) = be_val l.
Proof.
  intros Hb Hl. unfold swap64.
  change 0xff00000000000000 with (N.shiftl 255 56). change 0x00ff000000000000 with (N.shiftl 255 48).
  change 0x0000ff0000000000 with (N.shiftl 255 40). change 0x000000ff00000000 with (N.shiftl 255 32).
  change 0x00000000ff000000 with (N.shiftl 255 24). change 0x0000000000ff0000 with (N.shiftl 255 16).
  change 0x000000000000ff00 with (N.shiftl 255 8). change 0x00000000000000ff with (N.shiftl 255 0).
  assert (B : forall j, N.land (N.shiftr (le_val l) (8 * N.of_nat j)) 255 = nth j l 0)
    by (intros j; apply byte_le_val; assumption).
  rewrite !shiftl_mid_mask by (vm_compute; discriminate).
  rewrite !shiftr_byte_mask.
  pose proof (B 0%nat) as B0. pose proof (B 1%nat) as B1. pose proof (B 2%nat) as B2. pose proof (B 3%nat) as B3.
  pose proof (B 4%nat) as B4. pose proof (B 5%nat) as B5. pose proof (B 6%nat) as B6. pose proof (B 7%nat) as B7.
  change (8 * N.of_nat 0) with 0 in B0. change (8 * N.of_nat 1) with 8 in B1.
  change (8 * N.of_nat 2) with 16 in B2. change (8 * N.of_nat 3) with 24 in B3.
  change (8 * N.of_nat 4) with 32 in B4. change (8 * N.of_nat 5) with 40 in B5.
  change (8 * N.of_nat 6) with 48 in B6. change (8 * N.of_nat 7) with 56 in B7.
  change (8 + 24) with 32. change (24 + 16) with 40. change (40 + 8) with 48. change (56 + 0) with 56.
  change (56 - 56) with 0. change (48 - 40) with 8. change (40 - 24) with 16. change (32 - 8) with 24.
  rewrite B0, B1, B2, B3, B4, B5, B6, B7. clear B B0 B1 B2 B3 B4 B5 B6 B7.
  do 9 (destruct l as [|? l]; try discriminate Hl). cbn [nth].
  repeat match goal with H : bytes (_ :: _) |- _ => inversion_clear H
                    | H : Forall _ (_ :: _) |- _ => inversion_clear H end.
  rewrite !lor_step by (assumption || reflexivity). rewrite N.shiftl_0_r.
  unfold be_val. cbn [fold_left]. rewrite N.mul_0_r, N.add_0_l. reflexivity.
Qed.

Lemma load_words_be lsb b swap m : (0 < b)%nat ->
  (forall l, bytes l -> length l = b -> swap (le_val l) = be_val l) ->
  bytes m -> length m = (16 * b)%nat ->
  load_words lsb b swap m = map be_val (chunks b m).
Proof.
  intros Hb Hs Hm Hl. rewrite (chunks_slices b 16) by assumption. unfold load_words.
  rewrite map_map. apply map_ext_in. intros i Hi. apply in_seq in Hi.
  unfold host_load. destruct lsb; [|reflexivity].
  apply Hs; [apply bytes_slice; assumption|]. apply slice_length. nia.
Qed.

Lemma be_val_word b l : bytes l -> length l = b -> word (8 * N.of_nat b) (be_val l).
Proof.
  intros H1 H2. rewrite be_val_le_val. unfold word. rewrite N.pow_mul_r. change (2 ^ 8) with 256.
  rewrite <- H2, <- rev_length. apply le_val_bound. unfold bytes. apply Forall_rev. assumption.
Qed.

(** ** the functions of section 4.1 *)
Section Words.
Variable w : N.
Hypothesis w_pos : 0 < w.

Lemma Trunc_word x : word w x -> Trunc w x = x.
Proof. intros H. unfold Trunc. rewrite N.land_ones. apply N.mod_small. exact H. Qed.

Lemma RotateRight_ROTR x n : word w x -> n <= w -> RotateRight w x n = ROTR w n x.
Proof.
  intros Hx Hn. unfold RotateRight.
  assert (E : wshl w x (w - n) = N.shiftl (x mod 2 ^ n) (w - n)).
  { unfold wshl, wrap. rewrite !N.shiftl_mul_pow2.
    replace w with (n + (w - n)) at 2 by lia. rewrite N.pow_add_r.
    rewrite N.mul_mod_distr_r by apply pow2_nz. reflexivity. }
  rewrite Trunc_word.
  - rewrite E. unfold ROTR. rewrite N.shiftr_div_pow2, lor_add_disjoint; [lia|].
    unfold word. apply N.div_lt_upper_bound; [apply pow2_nz|].
    rewrite <- N.pow_add_r. replace (n + (w - n)) with w by lia. exact Hx.
  - apply word_lor; [apply word_shiftr; assumption | apply word_wshl].
Qed.

Lemma word_ROTR x n : word w x -> n <= w -> word w (ROTR w n x).
Proof.
  intros Hx Hn. rewrite <- RotateRight_ROTR by assumption. unfold RotateRight, Trunc.
  apply word_land_r, word_ones.
Qed.

Lemma word_SHR x n : word w x -> word w (SHR n x).
Proof. intros H. unfold SHR. rewrite <- N.shiftr_div_pow2. now apply word_shiftr. Qed.

Definition small3 (s : N * N * N) : Prop :=
  let '(a, b, c) := s in a <= w /\ b <= w /\ c <= w.

Lemma SigmaM_lsigma a b c x : small3 (a, b, c) -> word w x ->
  SigmaM w a b c x = lsigma w (a, b, c) x.
Proof.
  intros (Ha & Hb & Hc) Hx. unfold SigmaM, lsigma.
  rewrite !RotateRight_ROTR by assumption. rewrite Trunc_word by (now apply word_shiftr).
  unfold SHR. rewrite N.shiftr_div_pow2. apply N.lxor_assoc.
Qed.

Lemma SumaM_usigma a b c x : small3 (a, b, c) -> word w x ->
  SumaM w a b c x = usigma w (a, b, c) x.
Proof.
  intros (Ha & Hb & Hc) Hx. unfold SumaM, usigma.
  rewrite !RotateRight_ROTR by assumption. apply N.lxor_assoc.
Qed.

Lemma word_lsigma s x : small3 s -> word w x -> word w (lsigma w s x).
Proof.
  destruct s as [[a b] c]. intros (Ha & Hb & Hc) Hx. unfold lsigma.
  repeat apply word_lxor; auto using word_ROTR, word_SHR.
Qed.

Lemma word_usigma s x : small3 s -> word w x -> word w (usigma w s x).
Proof.
  destruct s as [[a b] c]. intros (Ha & Hb & Hc) Hx. unfold usigma.
  repeat apply word_lxor; auto using word_ROTR.
Qed.

Lemma Ch_SCh x y z : word w z -> Ch w x y z = SCh x y z.
Proof.
  intros Hz. unfold Ch, SCh. f_equal. apply N.bits_inj. intros n.
  rewrite N.land_spec, N.ldiff_spec.
  destruct (N.lt_ge_cases n w) as [L|L].
  - rewrite wnot_testbit by assumption. apply Bool.andb_comm.
  - rewrite (testbit_high w z) by assumption. apply Bool.andb_false_r.
Qed.

Lemma Maj_SMaj x y z : Maj x y z = SMaj x y z.
Proof.
  unfold Maj, SMaj. apply N.bits_inj. intros n.
  rewrite ?N.lxor_spec, ?N.lor_spec, ?N.land_spec, ?N.lor_spec.
  destruct (N.testbit x n), (N.testbit y n), (N.testbit z n); reflexivity.
Qed.

Lemma word_ADD l : word w (ADD w l).
Proof. unfold ADD. apply N.mod_lt, pow2_nz. Qed.

Lemma Trunc_wadd x y : Trunc w (wadd w x y) = wadd w x y.
Proof. apply Trunc_word, word_wadd. Qed.

Lemma wadd2 a b : wadd w a b = ADD w [a; b].
Proof. reflexivity. Qed.

Lemma wadd_ADD l b : wadd w (ADD w l) b = ADD w (l ++ [b]).
Proof.
  unfold wadd, wrap, ADD. rewrite N.add_mod_idemp_l by apply pow2_nz.
  rewrite fold_left_app. reflexivity.
Qed.

(** ** message schedule *)
Variables s0 s1 S0 S1 : N * N * N.
Variables Sig0 Sig1 Sum0 Sum1 : N -> N.
Hypothesis Hs0 : small3 s0.
Hypothesis Hs1 : small3 s1.
Hypothesis HS0 : small3 S0.
Hypothesis HS1 : small3 S1.
Hypothesis ESig0 : forall x, word w x -> Sig0 x = lsigma w s0 x.
Hypothesis ESig1 : forall x, word w x -> Sig1 x = lsigma w s1 x.
Hypothesis ESum0 : forall x, word w x -> Sum0 x = usigma w S0 x.
Hypothesis ESum1 : forall x, word w x -> Sum1 x = usigma w S1 x.

Lemma rev_schedule_words M n : words w M -> words w (rev_schedule w s0 s1 n M).
Proof.
  intros H. induction n as [|n IH]; cbn [rev_schedule]; constructor; [|assumption].
  destruct (n <? 16)%nat; [exact (get_word w M n H) | apply word_ADD].
Qed.

Lemma rev_schedule_length M n : length (rev_schedule w s0 s1 n M) = n.
Proof. induction n as [|n IH]; cbn [rev_schedule length]; [reflexivity | now rewrite IH]. Qed.

Lemma rev_schedule_16 M : length M = 16%nat -> rev_schedule w s0 s1 16 M = rev M.
Proof.
  intros H. do 17 (destruct M as [|? M]; try discriminate H). reflexivity.
Qed.

Lemma nth_rev_get (l : list N) k : (k < length l)%nat ->
  nth k l 0 = get (rev l) (length l - S k).
Proof.
  intros H. unfold get. rewrite rev_nth by lia. f_equal. lia.
Qed.

Lemma rev_schedule_S M n : (16 <= n)%nat -> words w M ->
  rev_schedule w s0 s1 (S n) M =
  (let W := rev (rev_schedule w s0 s1 n M) in
   Trunc w (wadd w (wadd w (wadd w (Sig1 (get W (n - 2))) (get W (n - 7)))
                         (Sig0 (get W (n - 15)))) (get W (n - 16))))
  :: rev_schedule w s0 s1 n M.
Proof.
  intros Hn Hw. cbn [rev_schedule]. cbv zeta. f_equal.
  replace (n <? 16)%nat with false by lia.
  pose proof (rev_schedule_length M n) as L.
  pose proof (rev_schedule_words M n Hw) as WW.
  set (W := rev_schedule w s0 s1 n M) in *. clearbody W.
  assert (G : forall k, (k < 16)%nat -> get (rev W) (n - S k) = nth k W 0).
  { intros k Hk. rewrite nth_rev_get by lia. rewrite L. reflexivity. }
  rewrite Trunc_wadd.
  rewrite (G 1%nat), (G 6%nat), (G 14%nat), (G 15%nat) by lia.
  rewrite ESig0, ESig1 by exact (get_word w W _ WW).
  rewrite (wadd2 (lsigma w s1 (nth 1 W 0))), !wadd_ADD. reflexivity.
Qed.

Lemma extend_words_ok M n : (16 <= n)%nat -> length M = 16%nat -> words w M ->
  extend_words w Sig0 Sig1 n M = rev (rev_schedule w s0 s1 n M).
Proof.
  intros Hn Hl Hw. unfold extend_words. 
  remember (n - 16)%nat as j eqn:Ej. revert n Hn Ej.
  induction j as [|j IH]; intros n Hn Ej.
  - replace n with 16%nat by lia. rewrite rev_schedule_16, rev_involutive by assumption. reflexivity.
  - destruct n as [|n]; [lia|]. rewrite seq_S, fold_left_app. rewrite (IH n) by lia.
    cbn [fold_left]. replace (16 + j)%nat with n by lia.
    rewrite rev_schedule_S by (assumption || lia). reflexivity.
Qed.

(** ** rounds *)
Definition untuple (s : N * N * N * N * N * N * N * N) : list N :=
  let '(A, B, C, D, E, F, G, H) := s in [A; B; C; D; E; F; G; H].

Lemma combine_seq (K W : list N) : length W = length K ->
  combine K W = map (fun j => (get K j, get W j)) (seq 0 (length K)).
Proof.
  revert W. induction K as [|k K IH]; intros W H; [reflexivity|].
  destruct W as [|x W]; [discriminate|]. cbn [combine length seq map]. f_equal.
  rewrite IH by (cbn in H; lia). rewrite <- seq_shift, map_map. reflexivity.
Qed.

Lemma rounds_steps K W l : words w W -> forall s,
  words w (untuple s) ->
  steps w S0 S1 (map (fun j => (get K j, get W j)) l) (untuple s)
  = untuple (fold_left (Sha2Model.round w Sum0 Sum1 K W) l s).
Proof.
  intros HW. induction l as [|j l IH]; intros s Hs; [reflexivity|].
  cbn [map fold_left]. rewrite <- IH.
  - destruct s as [[[[[[[A B] C] D] E] F] G] H]. cbn [untuple] in Hs |- *. cbn [steps Sha2Model.round].
    inversion_clear Hs as [|? ? HA R0]. inversion_clear R0 as [|? ? HB R1].
    inversion_clear R1 as [|? ? HC R2]. inversion_clear R2 as [|? ? HD R3].
    inversion_clear R3 as [|? ? HE R4]. inversion_clear R4 as [|? ? HF R5].
    inversion_clear R5 as [|? ? HG R6]. inversion_clear R6 as [|? ? HH _].
    rewrite !Trunc_wadd, ESum0, ESum1, Ch_SCh, Maj_SMaj by assumption.
    assert (ET : wadd w (wadd w (wadd w (wadd w H (usigma w S1 E)) (SCh E F G)) (get K j)) (get W j)
                 = ADD w [H; usigma w S1 E; SCh E F G; get K j; get W j])
      by (rewrite (wadd2 H), !wadd_ADD; reflexivity).
    rewrite ET. reflexivity.
  - destruct s as [[[[[[[A B] C] D] E] F] G] H]. cbn [untuple] in Hs |- *. cbn [Sha2Model.round untuple].
    inversion_clear Hs as [|? ? HA R0]. inversion_clear R0 as [|? ? HB R1].
    inversion_clear R1 as [|? ? HC R2]. inversion_clear R2 as [|? ? HD R3].
    inversion_clear R3 as [|? ? HE R4]. inversion_clear R4 as [|? ? HF R5].
    inversion_clear R5 as [|? ? HG R6]. inversion_clear R6 as [|? ? HH _].
    rewrite !Trunc_wadd.
    repeat (constructor; [first [assumption | apply word_wadd]|]). constructor.
Qed.

Lemma transform_compress K b lsb swap acc m :
  b = N.to_nat (w / 8) -> (0 < b)%nat -> 8 * N.of_nat b = w ->
  (forall l, bytes l -> length l = b -> swap (le_val l) = be_val l) ->
  (16 <= length K)%nat ->
  length acc = 8%nat -> words w acc -> bytes m -> length m = (16 * b)%nat ->
  add_registers w acc (rounds_of w Sum0 Sum1 K
     (extend_words w Sig0 Sig1 (length K) (load_words lsb b swap m)) acc)
  = compress w s0 s1 S0 S1 K acc m.
Proof.
  intros Eb Hb Ew Hsw HK Hacc Wacc Hm Hl.
  unfold compress. rewrite <- Eb.
  rewrite load_words_be by assumption.
  set (M := map be_val (chunks b m)).
  assert (LM : length M = 16%nat).
  { unfold M. rewrite map_length, (chunks_slices b 16) by assumption.
    rewrite map_length, seq_length. reflexivity. }
  assert (WM : words w M).
  { unfold M. rewrite (chunks_slices b 16) by assumption. rewrite map_map.
    apply Forall_forall. intros x Hx. apply in_map_iff in Hx. destruct Hx as (i & <- & Hi).
    apply in_seq in Hi. rewrite <- Ew. apply be_val_word; [now apply bytes_slice|].
    apply slice_length. nia. }
  rewrite extend_words_ok by assumption.
  pose proof (rev_schedule_words M (length K) WM) as WW0.
  pose proof (rev_schedule_length M (length K)) as LW0.
  set (W := rev (rev_schedule w s0 s1 (length K) M)).
  assert (WW : words w W) by (apply Forall_rev; assumption).
  assert (LW : length W = length K) by (unfold W; rewrite rev_length; assumption).
  clearbody W. clear WW0 LW0.
  rewrite (combine_seq K W LW). unfold rounds_of.
  do 9 (destruct acc as [|? acc]; try discriminate Hacc).
  unfold get at 1 2 3 4 5 6 7 8. cbn [nth].
  match goal with |- context [steps _ _ _ _ ?l] =>
    change l with (untuple (n, n0, n1, n2, n3, n4, n5, n6)) end.
  rewrite rounds_steps by assumption.
  destruct (fold_left _ _ _) as [[[[[[[A B] C] D] E] F] G] H].
  unfold add_registers, untuple, get. cbn [nth map2]. rewrite !Trunc_wadd. reflexivity.
Qed.

End Words.

Lemma compress_words w s0 s1 S0 S1 K H m : words w (compress w s0 s1 S0 S1 K H m).
Proof.
  unfold compress. generalize (steps w S0 S1 (combine K (rev (rev_schedule w s0 s1 (length K) (map be_val (chunks (N.to_nat (w / 8)) m))))) H).
  induction H as [|h H IH]; intros [|s l]; cbn [map2]; constructor; [apply word_ADD | apply IH].
Qed.

Lemma steps_length w S0 S1 kw : forall s, length s = 8%nat -> length (steps w S0 S1 kw s) = 8%nat.
Proof.
  induction kw as [|[k x] kw IH]; intros s H; [exact H|].
  do 9 (destruct s as [|? s]; try discriminate H). cbn [steps]. apply IH. reflexivity.
Qed.

Lemma compress_length w s0 s1 S0 S1 K H m : length H = 8%nat ->
  length (compress w s0 s1 S0 S1 K H m) = 8%nat.
Proof.
  intros L. unfold compress. rewrite map2_length, steps_length, L by exact L. reflexivity.
Qed.

Ltac small := unfold small3; repeat split; vm_compute; discriminate.

Theorem TransformSHA2256_ok lsb acc m : length acc = 8%nat -> words 32 acc ->
  bytes m -> length m = 64%nat -> TransformSHA2256 lsb acc m = compress256 acc m.
Proof.
  intros H1 H2 H3 H4. unfold TransformSHA2256, registers256, compress256.
  change K256 with SK256. change 64%nat with (length SK256).
  refine (transform_compress 32 eq_refl _ _ _ _ _ _ _ _ _ _ _ _ SK256 4 lsb swap32 acc m
            eq_refl _ eq_refl swap32_be _ H1 H2 H3 H4).
  - intros x Hx. apply SigmaM_lsigma; [reflexivity | small | assumption].
  - intros x Hx. apply SigmaM_lsigma; [reflexivity | small | assumption].
  - intros x Hx. apply SumaM_usigma; [reflexivity | small | assumption].
  - intros x Hx. apply SumaM_usigma; [reflexivity | small | assumption].
  - lia.
  - vm_compute. lia.
Qed.

Theorem TransformSHA2512_ok lsb acc m : length acc = 8%nat -> words 64 acc ->
  bytes m -> length m = 128%nat -> TransformSHA2512 lsb acc m = compress512 acc m.
Proof.
  intros H1 H2 H3 H4. unfold TransformSHA2512, compress512.
  change K512 with SK512. change 80%nat with (length SK512).
  refine (transform_compress 64 eq_refl _ _ _ _ _ _ _ _ _ _ _ _ SK512 8 lsb swap64 acc m
            eq_refl _ eq_refl swap64_be _ H1 H2 H3 H4).
  - intros x Hx. apply SigmaM_lsigma; [reflexivity | small | assumption].
  - intros x Hx. apply SigmaM_lsigma; [reflexivity | small | assumption].
  - intros x Hx. apply SumaM_usigma; [reflexivity | small | assumption].
  - intros x Hx. apply SumaM_usigma; [reflexivity | small | assumption].
  - lia.
  - vm_compute. lia.
Qed.

