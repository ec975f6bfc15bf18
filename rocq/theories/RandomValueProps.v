(** Properties of the random floating-point values: C26 (the range), C27. *)
From Coq Require Import NArith ZArith List Reals Lia Lra Psatz Bool ZifyN ZifyBool.
From Flocq Require Import Core.
From Verif Require Import Base BaseLemmas HashModel HashSpec HashProps HmacModel HmacProps RandomModel RandomSpec RandomProof RandomProof2 RandomProps
  RandomValueModel XoshiroProps.
Local Open Scope R_scope.

#[local] Instance prec53 : Prec_gt_0 53. Proof. reflexivity. Qed.
Lemma RN_le x y : x <= y -> RN x <= RN y.
Proof. apply round_le; typeclasses eauto. Qed.
Lemma RN_format x : generic_format radix2 (FLT_exp (-1074) 53) x -> RN x = x.
Proof. apply round_generic; typeclasses eauto. Qed.
Lemma format_F m e : (Z.abs m < 2 ^ 53)%Z -> (-1074 <= e)%Z -> generic_format radix2 (FLT_exp (-1074) 53) (F2R (Float radix2 m e)).
Proof. intros Hm He. apply generic_format_FLT. now exists (Float radix2 m e). Qed.
Lemma RN_int n : (Z.abs n < 2 ^ 53)%Z -> RN (IZR n) = IZR n.
Proof.
  intros H. apply RN_format. replace (IZR n) with (F2R (Float radix2 n 0)) by (unfold F2R; cbn; ring). apply format_F; [exact H | lia].
Qed.

(** rounding by its definition *)
Lemma RN_imp x e m : bpow radix2 (e - 1) <= x < bpow radix2 e -> (-1021 <= e)%Z ->
  ZnearestE (x * bpow radix2 (53 - e)) = m -> RN x = IZR m * bpow radix2 (e - 53).
Proof.
  intros B He Zn. unfold RN, round. assert (M : mag radix2 x = e :> Z).
  { apply mag_unique. rewrite Rabs_pos_eq; [exact B|]. eapply Rle_trans; [apply (bpow_ge_0 radix2 (e - 1)) | apply B]. }
  assert (C : cexp radix2 (FLT_exp (-1074) 53) x = (e - 53)%Z) by (unfold cexp, FLT_exp; rewrite M; lia).
  unfold scaled_mantissa. rewrite C. replace (- (e - 53))%Z with (53 - e)%Z by lia. rewrite Zn. reflexivity.
Qed.
Lemma nearest x m : IZR m - /2 < x < IZR m + /2 -> ZnearestE x = m.
Proof. intros H. apply Znearest_imp. apply Rabs_def1; lra. Qed.

Lemma bpow_0 : bpow radix2 0 = 1. Proof. reflexivity. Qed.
Lemma bpow_1 : bpow radix2 1 = 2. Proof. reflexivity. Qed.
Notation T52 := 4503599627370496.
Notation T53 := 9007199254740992.
Notation T105 := (T53 * T52).

Lemma normalize_eq : normalize = (T52 + 1) / T105.
Proof.
  unfold normalize, of_uint64. change (N.shiftr (2 ^ 64 - 1) 11) with 9007199254740991%N. cbn [Z.of_N]. rewrite RN_int by (cbn; lia).
  assert (E1 : bpow radix2 (-53) = / T53) by reflexivity. assert (E2 : bpow radix2 (-52) = / T52) by reflexivity.
  rewrite (RN_imp _ (-52) (4503599627370497)).
  - change (bpow radix2 (-52 - 53)) with (/ 40564819207303340847894502572032). field.
  - change (-52 - 1)%Z with (-53)%Z. rewrite E1, E2. lra.
  - lia.
  - apply nearest. change (bpow radix2 (53 - -52)) with 40564819207303340847894502572032. lra.
Qed.

Lemma shift_bound s : words s -> (xoshiro_value s < 2 ^ 53)%N.
Proof.
  destruct s as [[[a b] c] d]. intros _. unfold xoshiro_value. rewrite N.shiftr_div_pow2.
  apply N.div_lt_upper_bound; [discriminate|]. change (2 ^ 11 * 2 ^ 53)%N with (2 ^ 64)%N. apply (word_wrap 64).
Qed.

Definition scaled (k : Z) : R := RN (IZR k * normalize).
Lemma pseudo_scaled s : words s -> GetPseudoRandomValue s = scaled (Z.of_N (xoshiro_value s)).
Proof.
  intros W. pose proof (shift_bound s W) as B. unfold GetPseudoRandomValue, scaled, of_uint64. rewrite RN_int; [reflexivity|].
  revert B. generalize (xoshiro_value s). intros k B. change (2 ^ 53)%N with 9007199254740992%N in B. lia.
Qed.
Lemma scaled_le j k : (j <= k)%Z -> scaled j <= scaled k.
Proof. intros H. apply RN_le. rewrite normalize_eq. apply Rmult_le_compat_r; [lra | now apply IZR_le]. Qed.
Lemma scaled_0 : scaled 0 = 0.
Proof. unfold scaled. rewrite Rmult_0_l. apply RN_format, generic_format_0. Qed.
Lemma scaled_top : scaled 9007199254740991 = 1.
Proof.
  unfold scaled. rewrite normalize_eq. rewrite (RN_imp _ 1 4503599627370496).
  - change (bpow radix2 (1 - 53)) with (/ T52). field.
  - change (bpow radix2 (1 - 1)) with 1. change (bpow radix2 1) with 2. lra.
  - lia.
  - apply nearest. change (bpow radix2 (53 - 1)) with T52. lra.
Qed.
Lemma scaled_second : scaled 9007199254740990 = 1.
Proof.
  unfold scaled. rewrite normalize_eq. rewrite (RN_imp _ 0 9007199254740992).
  - change (bpow radix2 (0 - 53)) with (/ T53). field.
  - change (bpow radix2 (0 - 1)) with (/ 2). change (bpow radix2 0) with 1. lra.
  - lia.
  - apply nearest. change (bpow radix2 (53 - 0)) with T53. lra.
Qed.
Lemma scaled_third : scaled 9007199254740989 = 1 - / T53.
Proof.
  unfold scaled. rewrite normalize_eq. rewrite (RN_imp _ 0 9007199254740991).
  - change (bpow radix2 (0 - 53)) with (/ T53). field.
  - change (bpow radix2 (0 - 1)) with (/ 2). change (bpow radix2 0) with 1. lra.
  - lia.
  - apply nearest. change (bpow radix2 (53 - 0)) with T53. lra.
Qed.

(** C26: the value lies in [0,1] *)
Theorem pseudo_random_range : forall s, words s -> 0 <= GetPseudoRandomValue s <= 1.
Proof.
  intros s W. rewrite pseudo_scaled by exact W. pose proof (shift_bound s W) as B. revert B. generalize (xoshiro_value s). intros k B.
  change (2 ^ 53)%N with 9007199254740992%N in B. rewrite <- scaled_0, <- scaled_top at 1. split; apply scaled_le; lia.
Qed.

(** C27 (refuted): it is 1 exactly for the two largest 53-bit outputs *)
Theorem pseudo_random_one_refuted : forall s, words s ->
  (GetPseudoRandomValue s = 1 <-> (2 ^ 53 - 2 <= xoshiro_value s)%N).
Proof.
  intros s W. rewrite pseudo_scaled by exact W. pose proof (shift_bound s W) as B. revert B. generalize (xoshiro_value s). intros k B.
  change (2 ^ 53)%N with 9007199254740992%N in *. split.
  - intros E. destruct (N.le_gt_cases (9007199254740992 - 2) k) as [|L]; [assumption|exfalso].
    assert (scaled (Z.of_N k) <= scaled 9007199254740989) as H by (apply scaled_le; lia). rewrite scaled_third, E in H. lra.
  - intros H. assert (scaled 9007199254740990 <= scaled (Z.of_N k)) as H1 by (apply scaled_le; lia).
    assert (scaled (Z.of_N k) <= scaled 9007199254740991) as H2 by (apply scaled_le; lia).
    rewrite scaled_second in H1. rewrite scaled_top in H2. lra.
Qed.
(** and such states exist, two steps of the generator apart from any other *)
Theorem pseudo_random_one_reached_refuted : exists s, words s /\ s <> (0, 0, 0, 0)%N /\ GetPseudoRandomValue (xoshiro_next s) = 1.
Proof.
  exists (previous (2 ^ 64 - 1, 0, 0, 0)%N).
  assert (W : words (2 ^ 64 - 1, 0, 0, 0)%N) by (repeat split; reflexivity).
  split; [now apply words_previous|]. split; [vm_compute; discriminate|]. rewrite (proj2 (xoshiro_previous _ W)).
  apply pseudo_random_one_refuted; [exact W | vm_compute; discriminate].
Qed.

(** ** GetRandomValue *)
Lemma uint64_top : of_uint64 (2 ^ 64 - 1) = 18446744073709551616.
Proof.
  unfold of_uint64. change (Z.of_N (2 ^ 64 - 1)) with 18446744073709551615%Z. rewrite (RN_imp _ 64 9007199254740992).
  - change (bpow radix2 (64 - 53)) with 2048. lra.
  - change (bpow radix2 (64 - 1)) with 9223372036854775808. change (bpow radix2 64) with 18446744073709551616. lra.
  - lia.
  - apply nearest. change (bpow radix2 (53 - 64)) with (/ 2048). lra.
Qed.
(** a tie, which goes to the even mantissa *)
Lemma uint64_tie : of_uint64 (2 ^ 64 - 1024) = 18446744073709551616.
Proof.
  unfold of_uint64. change (Z.of_N (2 ^ 64 - 1024)) with 18446744073709550592%Z. rewrite (RN_imp _ 64 9007199254740992).
  - change (bpow radix2 (64 - 53)) with 2048. lra.
  - change (bpow radix2 (64 - 1)) with 9223372036854775808. change (bpow radix2 64) with 18446744073709551616. lra.
  - lia.
  - change (bpow radix2 (53 - 64)) with (/ 2048). set (x := 18446744073709550592 * / 2048).
    assert (F : Zfloor x = 9007199254740991%Z) by (apply Zfloor_imp; unfold x; change (9007199254740991 + 1)%Z with 9007199254740992%Z; lra).
    assert (C : Zceil x = 9007199254740992%Z) by (apply Zceil_imp; unfold x; change (9007199254740992 - 1)%Z with 9007199254740991%Z; lra).
    unfold Znearest. rewrite F, C. rewrite Rcompare_Eq by (unfold x; lra). reflexivity.
Qed.
Lemma uint64_below : of_uint64 (2 ^ 64 - 1025) = 18446744073709549568.
Proof.
  unfold of_uint64. change (Z.of_N (2 ^ 64 - 1025)) with 18446744073709550591%Z. rewrite (RN_imp _ 64 9007199254740991).
  - change (bpow radix2 (64 - 53)) with 2048. lra.
  - change (bpow radix2 (64 - 1)) with 9223372036854775808. change (bpow radix2 64) with 18446744073709551616. lra.
  - lia.
  - apply nearest. change (bpow radix2 (53 - 64)) with (/ 2048). lra.
Qed.
Lemma uint64_le j k : (j <= k)%N -> of_uint64 j <= of_uint64 k.
Proof. intros H. apply RN_le, IZR_le. lia. Qed.
Lemma random_value_le j k : (j <= k)%N -> random_value j <= random_value k.
Proof.
  intros H. apply RN_le. rewrite uint64_top. apply Rmult_le_compat_r; [lra | now apply uint64_le].
Qed.
Lemma random_value_top k : of_uint64 k = 18446744073709551616 -> random_value k = 1.
Proof. intros E. unfold random_value. rewrite E, uint64_top. replace (_ / _) with 1 by lra. apply (RN_int 1). cbn. lia. Qed.

Theorem random_value_range : forall key, (key < 2 ^ 64)%N -> 0 <= random_value key <= 1.
Proof.
  intros key H. change (2 ^ 64)%N with 18446744073709551616%N in H. split.
  - replace 0 with (random_value 0); [apply random_value_le; lia|].
    unfold random_value, of_uint64 at 1. cbn [Z.of_N]. rewrite (RN_int 0) by (cbn; lia). unfold Rdiv. rewrite Rmult_0_l. apply (RN_int 0). cbn. lia.
  - rewrite <- (random_value_top (2 ^ 64 - 1) uint64_top). apply random_value_le. change (2 ^ 64 - 1)%N with 18446744073709551615%N. lia.
Qed.
(** C27 (refuted): excluding the key 2^64-1 is not enough, the 1024 largest keys
    give 1 *)
Theorem random_value_one_refuted : forall key, (key < 2 ^ 64)%N -> (random_value key = 1 <-> (2 ^ 64 - 1024 <= key)%N).
Proof.
  intros key H. change (2 ^ 64 - 1024)%N with 18446744073709550592%N. change (2 ^ 64)%N with 18446744073709551616%N in H. split.
  - intros E. destruct (N.le_gt_cases 18446744073709550592 key) as [|L]; [assumption | exfalso].
    assert (random_value key <= random_value (2 ^ 64 - 1025)) as K by (apply random_value_le; change (2 ^ 64 - 1025)%N with 18446744073709550591%N; lia).
    rewrite E in K. unfold random_value in K. rewrite uint64_below, uint64_top in K.
    assert (RN (18446744073709549568 / 18446744073709551616) = 1 - / T53) as Q.
    { rewrite (RN_imp _ 0 9007199254740991).
      - change (bpow radix2 (0 - 53)) with (/ T53). field.
      - change (bpow radix2 (0 - 1)) with (/ 2). change (bpow radix2 0) with 1. lra.
      - lia.
      - apply nearest. change (bpow radix2 (53 - 0)) with T53. lra. }
    rewrite Q in K. lra.
  - intros L. assert (random_value (2 ^ 64 - 1024) <= random_value key) as K by (apply random_value_le; exact L).
    rewrite (random_value_top _ uint64_tie) in K. pose proof (random_value_range key H). lra.
Qed.
(** the loop: it takes the words of the random stream eight bytes at a time and
    skips those that are all ones, so the value lies in [0,1] *)
Theorem GetRandomValue_stream : forall fuel lsb junk hash key r, length junk = 64%nat -> (3 <= fuel)%nat -> hash <> SHA2224Hash ->
  ready fuel lsb junk hash key r ->
  exists blocks : nat -> list N,
  (forall k, is_hmac (is_hash hash) (GetHashBlocksize hash) key (nonce_at (r_nonce r) k) (blocks k)) /\
  let word i := (if lsb then le_val else be_val) (stream (GetHashDigestsize hash) blocks (8 * i) 8) in
  forall turns r' v, GetRandomValue turns fuel lsb junk r = Done (r', Some v) ->
  exists i, (i < turns)%nat /\ v = random_value (word i) /\ (word i < 2 ^ 64 - 1)%N /\
    (forall j, (j < i)%nat -> word j = (2 ^ 64 - 1)%N) /\ 0 <= v <= 1.
Proof.
  intros fuel lsb junk hash key r Hj Hf NE Y. pose proof (ready_start fuel lsb junk Hj Hf hash key r Y) as S0. pose proof (y_nonce _ _ _ _ _ _ Y) as Hn.
  exists (blocks fuel lsb junk (r_hmac r) (r_nonce r)). split; [intros k; now apply ready_hmac|].
  set (B := blocks fuel lsb junk (r_hmac r) (r_nonce r)). set (d := GetHashDigestsize hash). cbv zeta.
  set (word := fun i => (if lsb then le_val else be_val) (stream d B (8 * i) 8)).
  assert (BB : forall k, bytes (B k)).
  { intros k. destruct (mac_gen fuel lsb junk Hj Hf hash (r_hmac r) (r_hmac r) (nonce_at (r_nonce r) k) S0) as (h & M & _ & D & Bh).
    - destruct S0 as [O _]. constructor; [exact O | reflexivity | reflexivity].
    - exact (nonce_piece (r_nonce r) Hn k).
    - unfold B, blocks. rewrite <- D. exact Bh. }
  assert (Hw : forall i, (word i < 2 ^ 64)%N).
  { intros i. change (2 ^ 64)%N with (256 ^ N.of_nat 8)%N.
    assert (L : length (stream d B (8 * i) 8) = 8%nat) by apply stream_length.
    assert (Bs : bytes (stream d B (8 * i) 8)).
    { unfold stream. apply Forall_forall. intros x Hx. apply in_map_iff in Hx as (j & <- & _). unfold stream_byte.
      destruct (Nat.lt_ge_cases (j mod d) (length (B (j / d)%nat))) as [H|H].
      - exact (proj1 (Forall_forall _ _) (BB (j / d)%nat) _ (nth_In _ _ H)).
      - rewrite nth_overflow by exact H. reflexivity. }
    unfold word. revert L Bs. generalize (stream d B (8 * i) 8). intros l L Bs. rewrite <- L. destruct lsb; [now apply le_val_bound|].
    rewrite be_val_le_val, <- (rev_length l). apply le_val_bound. now apply Forall_rev. }
  assert (G : forall turns r1 k i, rinv fuel lsb junk hash (r_hmac r) (r_nonce r) r1 k (8 * i) -> (forall j, (j < i)%nat -> word j = (2 ^ 64 - 1)%N) ->
    forall r' v, GetRandomValue turns fuel lsb junk r1 = Done (r', Some v) ->
    exists i', (i' < i + turns)%nat /\ v = random_value (word i') /\ (word i' < 2 ^ 64 - 1)%N /\ (forall j, (j < i')%nat -> word j = (2 ^ 64 - 1)%N)).
  { induction turns as [|t IH]; intros r1 k i V Ones r' v E; cbn [GetRandomValue] in E; [discriminate|].
    pose proof (SetRandomKey_spec fuel lsb junk Hj Hf hash (r_hmac r) (r_nonce r) S0 Hn r1 k (8 * i) 8 V) as K. cbv zeta in K.
    destruct (fits _ _) in K; [|rewrite K in E; discriminate]. destruct K as (r2 & V2 & _ & K). rewrite K in E.
    fold d in E. fold B in E. fold (word i) in E. destruct (N.eqb_spec (word i) (2 ^ 64 - 1)) as [Ei|Ei].
    - replace (8 * i + 8)%nat with (8 * S i)%nat in V2 by lia. destruct (IH r2 _ (S i) V2) with (r' := r') (v := v) as (i' & L & R); [|exact E|].
      + intros j Hj'. destruct (Nat.eq_dec j i) as [->|]; [exact Ei | apply Ones; lia].
      + exists i'. split; [lia | exact R].
    - injection E as <- <-. exists i. split; [lia|]. split; [reflexivity|]. split; [|exact Ones].
      specialize (Hw i). revert Hw Ei. generalize (word i). clear.
      change (2 ^ 64 - 1)%N with 18446744073709551615%N. change (2 ^ 64)%N with 18446744073709551616%N. intros w. lia. }
  intros turns r' v E. destruct (G turns r 0%nat 0%nat (ready_inv fuel lsb junk Hj Hf hash key r Y)) with (r' := r') (v := v) as (i & L & -> & W & O); [lia | exact E|].
  exists i. split; [lia|]. split; [reflexivity|]. split; [exact W|]. split; [exact O|]. apply random_value_range. apply Hw.
Qed.

Example random_values_ex :
  random_value (2 ^ 64 - 2) = 1 /\ scaled 0 = 0 /\ words (1, 2, 3, 4)%N.
Proof.
  split; [apply random_value_one_refuted; [reflexivity | vm_compute; discriminate]|].
  split; [exact scaled_0 | repeat split; reflexivity].
Qed.

Print Assumptions pseudo_random_range.
Print Assumptions pseudo_random_one_refuted.
Print Assumptions pseudo_random_one_reached_refuted.
Print Assumptions random_value_range.
Print Assumptions random_value_one_refuted.
Print Assumptions GetRandomValue_stream.
