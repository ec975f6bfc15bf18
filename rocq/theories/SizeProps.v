(** Properties of the model of SizeModel.v. *)
From Coq Require Import Arith NArith ZArith QArith Qabs Qround Lia ZifyBool ZifyNat ZifyN Bool String List.
From Verif Require Import Base Outcome CStringModel OptionModel ScanModel ScanProof2 StringInfoModel ContentModel ResourceModel SizeModel SizeProof.
Import ListNotations.
Local Open Scope N_scope.

(** * What is printed *)

(** the units and what they stand for, SI and IEC 80000-13 *)
Definition units (bi : bool) : list (list N * N) :=
  if bi then [(b "", 1); (b "Ki", 2 ^ 10); (b "Mi", 2 ^ 20); (b "Gi", 2 ^ 30); (b "Ti", 2 ^ 40); (b "Pi", 2 ^ 50); (b "Ei", 2 ^ 60)]
  else [(b "", 1); (b "K", 10 ^ 3); (b "M", 10 ^ 6); (b "G", 10 ^ 9); (b "T", 10 ^ 12); (b "P", 10 ^ 15); (b "E", 10 ^ 18)].
Definition base (bi : bool) : N := if bi then 1024 else 1000.

Lemma units_spec bi i : (i <= 6)%nat -> nth_error (units bi) i = Some (nth i (if bi then bi_units else traditional_units) [], base bi ^ N.of_nat i).
Proof. intros L. destruct bi; do 7 (destruct i as [|i]; [reflexivity|]); lia. Qed.
Lemma units_inv (bi : bool) i u f : (i <= 6)%nat -> nth_error (units bi) i = Some (u, f) ->
  nth i (if bi then bi_units else traditional_units) [] = u /\ base bi ^ N.of_nat i = f.
Proof. intros L. rewrite units_spec by exact L. generalize (base bi ^ N.of_nat i). intros x E. injection E as <- <-. now split. Qed.
Lemma units_clean (bi : bool) i : existsb (N.eqb 43) (nth i (if bi then bi_units else traditional_units) []) = false.
Proof. destruct bi; do 10 (destruct i as [|i]; [reflexivity|]); reflexivity. Qed.

(** a/10^k times the unit is the size up to a part in 2*10^(i+1), and exactly if the size is a multiple of the unit *)
Theorem size_printed : forall bi size, size < 2 ^ 64 -> exists num a k i u f,
  FormatWizardSize bi size = num ++ u ++ b "B" /\ written num a k /\ nth_error (units bi) i = Some (u, f) /\
  (i = 0%nat \/ f <= size) /\ size < base bi * f /\
  (2 * 10 ^ Z.of_nat (i + 1) * Z.abs (a * Z.of_N f - Z.of_N size * 10 ^ Z.of_nat k) <= Z.of_N size * 10 ^ Z.of_nat k)%Z /\
  (N.divide f size -> a * Z.of_N f = Z.of_N size * 10 ^ Z.of_nat k)%Z.
Proof.
  intros bi size S64. unfold FormatWizardSize.
  set (us := if bi then bi_units else traditional_units).
  assert (Lu : length (List.tl us) = 8%nat) by (subst us; destruct bi; reflexivity).
  assert (B1 : 1 < base bi) by (destruct bi; reflexivity).
  pose proof (scale_ok (base bi) size B1 (List.tl us) 0 1 eq_refl (or_introl eq_refl)) as Sc. fold (base bi). change (if bi then 1024 else 1000) with (base bi).
  destruct (scale (base bi) size 0 1 (List.tl us)) as [i d]. destruct Sc as (Hd & Lo & Li & Up). rewrite Lu in *.
  assert (I6 : (i <= 6)%nat).
  { destruct (Nat.le_gt_cases i 6) as [|G]; [assumption|exfalso]. destruct Lo as [|Lo]; [lia|].
    assert (base bi ^ 7 <= d). { rewrite Hd. apply N.pow_le_mono_r; lia. }
    assert (2 ^ 64 < base bi ^ 7) by (destruct bi; reflexivity). lia. }
  destruct Up as [Up|Up]; [|lia]. assert (D0 : 0 < d) by (rewrite Hd; assert (base bi ^ N.of_nat i <> 0) by (apply N.pow_nonzero; lia); lia).
  assert (B2 : size < 1024 * d) by (assert (base bi <= 1024) by (destruct bi; cbn; lia); nia).
  destruct (attempts_ok size d (nth i us []) i D0 B2 (units_clean bi i) 10 2 []) as (p & P1 & P2 & ->); [lia|lia|].
  assert (G : general p size d = fixed (p - 1 - snd (scientific p size d)) (fst (scientific p size d))).
  { unfold general. destruct (scientific p size d) as [m x]. cbn [fst snd] in *. now replace (x <? p)%nat with true by (symmetry; now apply Nat.ltb_lt). }
  rewrite G. destruct (fixed_written (p - 1 - snd (scientific p size d)) (fst (scientific p size d))) as (a & k & W & Lk & E).
  exists (fixed (p - 1 - snd (scientific p size d)) (fst (scientific p size d))), a, k, i, (nth i us []), d.
  split; [reflexivity|]. split; [exact W|]. split; [rewrite units_spec by exact I6; now rewrite Hd|]. split; [exact Lo|]. split; [exact Up|].
  assert (PK : (0 < 10 ^ Z.of_nat k)%Z) by (apply Z.pow_pos_nonneg; lia).
  destruct (N.eq_dec size 0) as [->|Nz].
  { cbn [scientific N.eqb fst snd] in E. assert (0 < 10 ^ Z.of_nat (p - 1 - 0))%Z by (apply Z.pow_pos_nonneg; lia).
    assert (a = 0)%Z by nia. subst a. split; [cbn [Z.of_N]; lia|]. intros _. reflexivity. }
  assert (Ld : d <= size). { destruct Lo as [->|]; [|assumption]. cbn in Hd. lia. }
  pose proof (scientific_ok p size d ltac:(lia) (conj D0 Ld)) as R. 
  pose proof (fun q => scientific_exact p q d ltac:(lia) D0) as X.
  assert (Pz : forall n, Z.of_N (pow10 n) = (10 ^ Z.of_nat n)%Z) by (intros n; unfold pow10; rewrite N2Z.inj_pow; f_equal; lia).
  destruct (scientific p size d) as [m x] eqn:Em. cbn [fst snd] in *. destruct (R P2) as [R1 R2]. clear R.
  set (f := (p - 1 - x)%nat) in *. assert (PF : (0 < 10 ^ Z.of_nat f)%Z) by (apply Z.pow_pos_nonneg; lia).
  apply N2Z.inj_le in R1, R2. rewrite !N2Z.inj_add, !N2Z.inj_mul, !Pz in R1, R2. change (Z.of_N 2) with 2%Z in *.
  assert (T : (10 ^ Z.of_nat (i + 1) <= 10 ^ Z.of_nat (p - 1))%Z) by (apply Z.pow_le_mono_r; lia).
  set (T1 := (10 ^ Z.of_nat (i + 1))%Z) in *. set (T2 := (10 ^ Z.of_nat (p - 1))%Z) in *. set (F := (10 ^ Z.of_nat f)%Z) in *. set (K := (10 ^ Z.of_nat k)%Z) in *.
  assert (T0 : (0 < T1)%Z) by (apply Z.pow_pos_nonneg; lia).
  set (n := Z.of_N size) in *. set (D := Z.of_N d) in *. set (M := Z.of_N m) in *.
  assert (N0 : (0 < n)%Z) by lia. assert (DD : (0 < D)%Z) by lia. split.
  - assert (Q1 : (2 * T2 * (a * D) <= 2 * T2 * (n * K) + n * K)%Z).
    { apply (Z.mul_le_mono_pos_r _ _ F PF). replace (2 * T2 * (a * D) * F)%Z with (2 * T2 * (a * F) * D)%Z by ring. rewrite E.
      replace (2 * T2 * (M * K) * D)%Z with (2 * T2 * (M * D) * K)%Z by ring.
      replace ((2 * T2 * (n * K) + n * K) * F)%Z with ((2 * T2 * (n * F) + n * F) * K)%Z by ring. apply Z.mul_le_mono_nonneg_r; lia. }
    assert (Q2 : (2 * T2 * (n * K) <= 2 * T2 * (a * D) + n * K)%Z).
    { apply (Z.mul_le_mono_pos_r _ _ F PF). replace ((2 * T2 * (a * D) + n * K) * F)%Z with (2 * T2 * (a * F) * D + n * F * K)%Z by ring. rewrite E.
      replace (2 * T2 * (M * K) * D + n * F * K)%Z with ((2 * T2 * (M * D) + n * F) * K)%Z by ring.
      replace (2 * T2 * (n * K) * F)%Z with (2 * T2 * (n * F) * K)%Z by ring. apply Z.mul_le_mono_nonneg_r; lia. }
    clear - Q1 Q2 T T0. set (U := (a * D)%Z) in *. set (V := (n * K)%Z) in *. clearbody U V.
    assert (2 * T2 * Z.abs (U - V) <= V)%Z by (destruct (Z.abs_spec (U - V)) as [[_ ->]|[_ ->]]; lia).
    pose proof (Z.abs_nonneg (U - V)). nia.
  - intros [q Hq]. subst size. specialize (X q ltac:(lia)). rewrite Em in X. specialize (X P2). fold f in X.
    apply (Z.mul_reg_r _ _ F); [lia|]. replace (a * D * F)%Z with (a * F * D)%Z by ring. rewrite E. subst M n D.
    rewrite X, !N2Z.inj_mul, Pz. fold F. ring.
Qed.

(** * What is read *)

(** a prefix is not followed by more of an exponent, or by the i of a binary one *)
Definition quiet (r : list N) : Prop := match r with c :: _ => ~ (48 <= c <= 57) /\ c <> 43 /\ c <> 45 /\ c <> 105 | [] => True end.
(** the B of bytes (or a P) is skipped *)
Definition unit_skipped (r r' : list N) : Prop := match r with c :: t => if (c =? 66) || (c =? 80) then r' = t else r' = r | [] => r' = [] end.

Definition multiples : list (N * Z) := [(104, 2%Z); (107, 3%Z); (75, 3%Z); (77, 6%Z); (71, 9%Z); (84, 12%Z); (80, 15%Z); (69, 18%Z); (90, 21%Z); (89, 24%Z)].  (* hkKMGTPEZY *)
Definition binaries : list (N * Z) := [(107, 10%Z); (75, 10%Z); (77, 20%Z); (71, 30%Z); (84, 40%Z); (80, 50%Z); (69, 60%Z); (90, 70%Z); (89, 80%Z)].
Definition fractions : list N := [100; 99; 109; 117; 110; 112; 102; 97; 122; 121].    (* dcmunpfazy *)

Lemma exponent_quiet c r : c = 69 \/ (c <> 69 /\ c <> 101) -> match r with c :: _ => ~ (48 <= c <= 57) /\ c <> 43 /\ c <> 45 | [] => True end ->
  exponent (c :: r) = (0%Z, c :: r).
Proof.
  intros C R. unfold exponent. destruct C as [->|[C1 C2]].
  - change ((69 =? 101) || (69 =? 69)) with true. cbv iota.
    assert (E : sign r = (false, r)).
    { destruct r as [|x r]; [reflexivity|]. unfold sign. destruct R as (_ & R1 & R2).
      destruct x as [|x]; [reflexivity|]. do 6 (destruct x as [x|x|]; try reflexivity); contradiction. }
    rewrite E. destruct r as [|x r]; [reflexivity|]. cbn [span]. unfold isdigit. now replace ((48 <=? x) && (x <=? 57)) with false by lia.
  - now replace ((c =? 101) || (c =? 69)) with false by lia.
Qed.

Lemma ends_char c r : (c = 69 \/ (c <> 69 /\ c <> 101)) -> 57 < c -> match r with c :: _ => ~ (48 <= c <= 57) /\ c <> 43 /\ c <> 45 | [] => True end -> ends (c :: r).
Proof. intros C L R. split; [lia|]. now apply exponent_quiet. Qed.

Lemma skip_ok r : unit_skipped r (skip_unit r).
Proof. unfold unit_skipped, skip_unit. destruct r as [|c r]; [reflexivity|]. now destruct (_ || _). Qed.

Lemma ratio_mul a k z : (ratio a k * (z # 1) == ratio (a * z) k)%Q.
Proof. unfold ratio, Qmult, Qeq. cbn [Qnum Qden]. now rewrite Pos.mul_1_r. Qed.

(** prefixes for multiples are applied: 10^e, and 2^e with an i *)
Theorem prefix_multiplies : forall hecto t a k c e r, written t a k -> In (c, e) multiples -> quiet r -> exists v r',
  InterpretSiPrefixValue hecto (t ++ c :: r) = (v, r') /\ unit_skipped r r' /\ (v == ratio (a * 10 ^ e) k)%Q.
Proof.
  intros hecto t a k c e r W I R.
  assert (X : ends (c :: r)).
  { apply ends_char; [| |destruct r; [exact Logic.I|cbn in R; lia]]; cbn in I; repeat (destruct I as [I|I]; [injection I as <- <-; lia|]); contradiction. }
  destruct (strtod_written t a k (c :: r) W X) as (w & E & Q). unfold InterpretSiPrefixValue. rewrite E.
  assert (NI : (match r with 105 :: t => (w * two_to hecto (si_exponent c), t)%Q | _ => (w * Qpower (10 # 1) (si_exponent c), r)%Q end)
    = (w * Qpower (10 # 1) (si_exponent c), r)%Q).
  { destruct r as [|x r]; [reflexivity|]. destruct R as (_ & _ & _ & R).
    destruct x as [|x]; [reflexivity|]. do 7 (destruct x as [x|x|]; try reflexivity). contradiction. }
  rewrite NI. clear NI. cbn in I.
  repeat (destruct I as [I|I]; [injection I as <- <-; eexists; eexists; split; [reflexivity|]; split; [apply skip_ok|]; rewrite Q; apply ratio_mul|]).
  contradiction.
Qed.

Theorem prefix_binary : forall hecto t a k c e r, written t a k -> In (c, e) binaries -> exists v r',
  InterpretSiPrefixValue hecto (t ++ c :: 105 :: r) = (v, r') /\ unit_skipped r r' /\ (v == ratio (a * 2 ^ e) k)%Q.
Proof.
  intros hecto t a k c e r W I.
  assert (X : ends (c :: 105 :: r)).
  { apply ends_char; [| |lia]; cbn in I; repeat (destruct I as [I|I]; [injection I as <- <-; lia|]); contradiction. }
  destruct (strtod_written t a k (c :: 105 :: r) W X) as (w & E & Q). unfold InterpretSiPrefixValue. rewrite E. cbn in I.
  repeat (destruct I as [I|I]; [injection I as <- <-; eexists; eexists; split; [reflexivity|]; split; [apply skip_ok|]; rewrite Q; apply ratio_mul|]).
  contradiction.
Qed.

(** prefixes for fractions are ignored, and read again by the caller: 5m is 5 *)
Theorem prefix_fraction_refuted : forall hecto t a k c r, written t a k -> In c fractions -> quiet r -> exists v,
  InterpretSiPrefixValue hecto (t ++ c :: r) = (v, c :: r) /\ (v == ratio a k)%Q.
Proof.
  intros hecto t a k c r W I R.
  assert (X : ends (c :: r)).
  { apply ends_char; [| |destruct r; [exact Logic.I|cbn in R; lia]]; cbn in I; repeat (destruct I as [I|I]; [subst c; lia|]); contradiction. }
  destruct (strtod_written t a k (c :: r) W X) as (w & E & Q). unfold InterpretSiPrefixValue. rewrite E. exists w. split; [|exact Q].
  cbn in I. repeat (destruct I as [I|I]; [subst c; reflexivity|]). contradiction.
Qed.

Lemma plain_reads hecto t a k r : written t a k -> r = [] \/ (exists r', r = 66 :: r') -> exists v r',
  InterpretSiPrefixValue hecto (t ++ r) = (v, r') /\ unit_skipped r r' /\ (v == ratio a k)%Q.
Proof.
  intros W R. assert (X : ends r). { destruct R as [->|(r' & ->)]; split; try exact Logic.I; try reflexivity. split; lia. }
  destruct (strtod_written t a k r W X) as (w & E & Q). unfold InterpretSiPrefixValue. rewrite E. exists w, (skip_unit r).
  destruct R as [->|(r' & ->)]; split; try reflexivity; split; try reflexivity; exact Q.
Qed.

Lemma bound_Q (A S K : Z) v : (0 < K)%Z -> (v == A # Z.to_pos K)%Q -> (200 * Z.abs (A - S * K) <= S * K)%Z ->
  (Qabs (v - inject_Z S) <= (1 # 200) * inject_Z S)%Q.
Proof.
  intros K0 V H. rewrite V. unfold Qle, Qabs, Qminus, Qplus, Qopp, inject_Z, Qmult. cbn [Qnum Qden].
  rewrite Z2Pos.id by exact K0. rewrite ?Pos.mul_1_r, ?Pos2Z.inj_mul, ?Z2Pos.id by exact K0.
  replace (A * 1 + - S * K)%Z with (A - S * K)%Z by ring. lia.
Qed.

(** a size that was printed is read back up to half a percent, and exactly below the first unit *)
Theorem size_read : forall hecto bi size, size < 2 ^ 64 -> exists v,
  InterpretSiPrefixValue hecto (FormatWizardSize bi size) = (v, []) /\
  (Qabs (v - inject_Z (Z.of_N size)) <= (1 # 200) * inject_Z (Z.of_N size))%Q /\
  (size < base bi -> (v == inject_Z (Z.of_N size))%Q).
Proof.
  intros hecto bi size S64. destruct (size_printed bi size S64) as (num & a & k & i & u & f & E & W & U & Lo & Up & Err & Ex). rewrite E.
  assert (P : (0 < 10 ^ Z.of_nat k)%Z) by (apply Z.pow_pos_nonneg; lia).
  assert (I6 : (i <= 6)%nat).
  { assert (nth_error (units bi) i <> None) as L by (rewrite U; discriminate). apply nth_error_Some in L. destruct bi; cbn in L; lia. }
  assert (R : exists v, InterpretSiPrefixValue hecto (num ++ u ++ b "B") = (v, []) /\ (v == ratio (a * Z.of_N f) k)%Q).
  { destruct i as [|i].
    - assert (u = [] /\ f = 1) as [-> ->] by (destruct bi; cbn in U; injection U as <- <-; now split).
      destruct (plain_reads hecto num a k (b "B") W) as (v & r' & R1 & R2 & R3); [right; now exists []|].
      exists v. cbn in R2. subst r'. split; [exact R1|]. rewrite R3. change (Z.of_N 1) with 1%Z. now rewrite Z.mul_1_r.
    - assert (exists c e, (if bi then u = [c; 105] else u = [c]) /\ Z.of_N f = ((if bi then 2 else 10) ^ e)%Z /\ In (c, e) (if bi then binaries else multiples)
        ) as (c & e & Hu & Hf & I).
      { exists (nth i [75; 77; 71; 84; 80; 69] 0), ((if bi then 10 else 3) * Z.of_nat (S i))%Z. apply units_inv in U; [|exact I6]. destruct U as [<- <-].
        split; [|split].
        - clear - I6. destruct bi; do 6 (destruct i as [|i]; [reflexivity|]); lia.
        - rewrite N2Z.inj_pow, Z.pow_mul_r by (destruct bi; lia). rewrite nat_N_Z. now destruct bi.
        - clear - I6. destruct bi; do 6 (destruct i as [|i]; [cbn; tauto|]); lia. }
      destruct bi; subst u; cbn [app].
      + destruct (prefix_binary hecto num a k c e (b "B") W I) as (v & r' & R1 & R2 & R3). exists v. cbn in R2. subst r'. split; [exact R1|]. now rewrite Hf.
      + destruct (prefix_multiplies hecto num a k c e (b "B") W I) as (v & r' & R1 & R2 & R3); [cbn; lia|]. exists v. cbn in R2. subst r'.
        split; [exact R1|]. now rewrite Hf. }
  destruct R as (v & R1 & R2). exists v. split; [exact R1|].
  assert (Exact0 : size < base bi -> (a * Z.of_N f = Z.of_N size * 10 ^ Z.of_nat k)%Z).
  { intros L. apply Ex. destruct i as [|i].
    - assert (f = 1) as -> by (destruct bi; cbn in U; injection U as <- <-; reflexivity). exists size. lia.
    - destruct Lo as [|Lo]; [discriminate|]. exfalso. assert (base bi <= f); [|lia].
      apply units_inv in U; [|exact I6]. destruct U as [_ <-]. rewrite Nat2N.inj_succ, N.pow_succ_r'.
      assert (base bi ^ N.of_nat i <> 0) by (apply N.pow_nonzero; destruct bi; discriminate). nia. }
  split.
  - apply (bound_Q (a * Z.of_N f) _ (10 ^ Z.of_nat k)); [exact P|exact R2|]. destruct i as [|i].
    + assert (f = 1) as -> by (destruct bi; cbn in U; injection U as <- <-; reflexivity).
      rewrite Ex by (exists size; lia). rewrite Z.sub_diag. cbn [Z.abs]. lia.
    + assert (10 ^ 2 <= 10 ^ Z.of_nat (S i + 1))%Z by (apply Z.pow_le_mono_r; lia). pose proof (Z.abs_nonneg (a * Z.of_N f - Z.of_N size * 10 ^ Z.of_nat k)). nia.
  - intros L. rewrite R2. unfold ratio, Qeq, inject_Z. cbn [Qnum Qden]. rewrite Z2Pos.id by exact P. rewrite (Exact0 L). ring.
Qed.

(** sizes printed alike are near each other *)
Theorem size_alike : forall bi s1 s2, s1 < 2 ^ 64 -> s2 < 2 ^ 64 -> FormatWizardSize bi s1 = FormatWizardSize bi s2 ->
  (200 * Z.abs (Z.of_N s1 - Z.of_N s2) <= Z.of_N s1 + Z.of_N s2)%Z /\ (s1 < base bi -> s2 < base bi -> s1 = s2).
Proof.
  intros bi s1 s2 L1 L2 E. destruct (size_read 0 bi s1 L1) as (v1 & R1 & B1 & X1). destruct (size_read 0 bi s2 L2) as (v2 & R2 & B2 & X2).
  rewrite E, R2 in R1. injection R1 as <-. split.
  - apply Qabs_Qle_condition in B1, B2. destruct B1 as [B1 C1], B2 as [B2 C2].
    set (z1 := Z.of_N s1) in *. set (z2 := Z.of_N s2) in *.
    assert (Q1 : (inject_Z z1 - inject_Z z2 <= (1 # 200) * inject_Z z1 + (1 # 200) * inject_Z z2)%Q).
    { setoid_replace (inject_Z z1 - inject_Z z2)%Q with (- (v2 - inject_Z z1) + (v2 - inject_Z z2))%Q by ring.
      apply Qplus_le_compat; [|exact C2]. apply Qopp_le_compat in B1. rewrite Qopp_involutive in B1. exact B1. }
    assert (Q2 : (inject_Z z2 - inject_Z z1 <= (1 # 200) * inject_Z z1 + (1 # 200) * inject_Z z2)%Q).
    { setoid_replace (inject_Z z2 - inject_Z z1)%Q with ((v2 - inject_Z z1) + - (v2 - inject_Z z2))%Q by ring.
      apply Qplus_le_compat; [exact C1|]. apply Qopp_le_compat in B2. rewrite Qopp_involutive in B2. exact B2. }
    unfold Qle, Qminus, Qplus, Qopp, Qmult, inject_Z in Q1, Q2. cbn [Qnum Qden] in Q1, Q2. rewrite ?Pos2Z.inj_mul, ?Z.mul_1_l, ?Z.mul_1_r in Q1, Q2. clear - Q1 Q2. clearbody z1 z2. lia.
  - intros M1 M2. specialize (X1 M1). specialize (X2 M2). rewrite X1 in X2. unfold Qeq, inject_Z in X2. cbn in X2. lia.
Qed.

(** * -chunksize *)

Lemma floor_ratio a k : Qfloor (ratio a k) = (a / 10 ^ Z.of_nat k)%Z.
Proof. unfold ratio, Qfloor. rewrite Z2Pos.id; [reflexivity|]. apply Z.pow_pos_nonneg; lia. Qed.
Lemma to_size_ok v a k : (v == ratio a k)%Q -> (0 <= a)%Z -> (a < 2 ^ 64 * 10 ^ Z.of_nat k)%Z -> to_size_t v = Ok (Z.to_N (a / 10 ^ Z.of_nat k)).
Proof.
  intros V A B. assert (P : (0 < 10 ^ Z.of_nat k)%Z) by (apply Z.pow_pos_nonneg; lia). unfold to_size_t.
  rewrite (Qfloor_comp _ _ V), floor_ratio. rewrite V. unfold Qle_bool, ratio. cbn [Qnum Qden]. rewrite Z2Pos.id by exact P.
  replace (a * 1 <=? -1 * 10 ^ Z.of_nat k)%Z with false by lia. change (Qnum (inject_Z (2 ^ 64))) with (2 ^ 64)%Z. change (QDen (inject_Z (2 ^ 64))) with 1%Z. replace (2 ^ 64 * 10 ^ Z.of_nat k <=? a * 1)%Z with false by lia. reflexivity.
Qed.

(** a number with a prefix is the number of bytes of a chunk *)
Theorem chunk_prefix : forall hecto t a k c e, written t a k -> In (c, e) multiples -> (a * 10 ^ e < 2 ^ 64 * 10 ^ Z.of_nat k)%Z ->
  forall r, r = [] \/ r = b "B" -> chunk_option hecto (t ++ c :: r) = Ok (Some (Z.to_N (a * 10 ^ e / 10 ^ Z.of_nat k))).
Proof.
  intros hecto t a k c e W I B r R. assert (Qr : quiet r) by (destruct R as [->| ->]; cbn; lia).
  destruct (prefix_multiplies hecto t a k c e r W I Qr) as (v & r' & E & U & V).
  assert (r' = []) as -> by (destruct R as [->| ->]; exact U).
  unfold chunk_option, StringToDoubleInterval. rewrite E. assert (A : (0 <= a)%Z) by (eapply written_nonneg; exact W).
  assert (E0 : (0 <= 10 ^ e)%Z) by (apply Z.pow_nonneg; lia).
  rewrite (to_size_ok v _ k V) by (assumption || (apply Z.mul_nonneg_nonneg; assumption)). cbn [bind].
  unfold InterpretSiPrefixValue in E. destruct (strtod (t ++ c :: r)); [reflexivity|]. injection E as _ E. now destruct t.
Qed.

Theorem chunk_bytes : forall hecto t a k, written t a k -> (a < 2 ^ 64 * 10 ^ Z.of_nat k)%Z ->
  chunk_option hecto t = Ok (Some (Z.to_N (a / 10 ^ Z.of_nat k))).
Proof.
  intros hecto t a k W B. destruct (plain_reads hecto t a k [] W (or_introl eq_refl)) as (v & r' & E & U & V). cbn in U. subst r'. rewrite app_nil_r in E.
  unfold chunk_option, StringToDoubleInterval. rewrite E. assert (A : (0 <= a)%Z) by (eapply written_nonneg; exact W).
  rewrite (to_size_ok v _ k V A B). cbn [bind].
  unfold InterpretSiPrefixValue in E. destruct (strtod t) eqn:T; [reflexivity|]. injection E as _ ->. now apply written_nonempty in W.
Qed.

(** a negative chunk size is taken, and its conversion is undefined *)
Theorem chunk_negative_refuted : forall hecto t a k, written t a k -> (10 ^ Z.of_nat k <= a)%Z -> chunk_option hecto (45 :: t) = UB.
Proof.
  intros hecto t a k W A. assert (P : (0 < 10 ^ Z.of_nat k)%Z) by (apply Z.pow_pos_nonneg; lia).
  destruct (strtod_minus t a k W) as (v & E & V). unfold chunk_option, StringToDoubleInterval, InterpretSiPrefixValue. rewrite E. cbn [skip_unit].
  unfold to_size_t. rewrite V. unfold Qle_bool, ratio. cbn [Qnum Qden]. rewrite Z2Pos.id by exact P.
  replace (- a * 1 <=? -1 * 10 ^ Z.of_nat k)%Z with true by lia. reflexivity.
Qed.

(** chunks of no bytes are taken, and nothing of the content is enciphered *)
Theorem chunk_zero_refuted : forall hecto, chunk_option hecto (b "0") = Ok (Some 0) /\
  forall junk fill rnd g plain, c_chunksize g = 0%nat -> EncipherContent junk fill rnd g plain = Ok (Some []).
Proof.
  intros hecto. split; [reflexivity|]. intros junk fill rnd g plain Z. unfold EncipherContent. cbn [encipher_chunks]. rewrite Z. reflexivity.
Qed.

(** * ListWizardResourceInfo *)

(** the words of a text *)
Fixpoint words_ (w : list N) (l : list N) : list (list N) :=
  match l with
  | [] => match w with [] => [] | _ => [w] end
  | c :: l => if (c =? 32) || (c =? 10) then match w with [] => words_ [] l | _ => w :: words_ [] l end else words_ (w ++ [c]) l
  end.
Definition words (l : list N) : list (list N) := words_ [] l.
Definition solid (w : list N) : Prop := w <> [] /\ Forall (fun c => c <> 32 /\ c <> 10) w.

Ltac letters := match goal with |- Forall _ ?l => let v := eval vm_compute in l in change l with v end; repeat (apply Forall_cons; [lia|]); apply Forall_nil.

Lemma words_spaces k l : words (repeat 32 k ++ l) = words l.
Proof. induction k; [reflexivity|]. exact IHk. Qed.
Lemma words_word w c r : solid w -> c = 32 \/ c = 10 -> words (w ++ c :: r) = w :: words r.
Proof.
  intros [Ne F] C. unfold words. assert (G : forall a, a ++ w <> [] -> words_ a (w ++ c :: r) = (a ++ w) :: words_ [] r); [|apply (G []); exact Ne].
  clear Ne. induction F as [|x w [F1 F2] F IH]; intros a Na.
  - rewrite app_nil_r in *. cbn [app words_]. replace ((c =? 32) || (c =? 10)) with true by lia. destruct a; [contradiction|reflexivity].
  - cbn [app words_]. replace ((x =? 32) || (x =? 10)) with false by lia. rewrite IH; rewrite <- app_assoc; cbn [app]; [reflexivity|now destruct a].
Qed.
Lemma words_right n w c r : solid w -> c = 32 \/ c = 10 -> words (right n w ++ c :: r) = w :: words r.
Proof. intros. unfold right. rewrite <- app_assoc, words_spaces. now apply words_word. Qed.

Lemma written_solid t a k : written t a k -> solid t.
Proof.
  intros W. split; [now apply written_nonempty in W|]. destruct W as [w D _|w f D _ Df _].
  - eapply Forall_impl; [|exact D]. cbn. lia.
  - apply Forall_app. split; [|constructor; [lia|]]; (eapply Forall_impl; [|eassumption]); cbn; lia.
Qed.
Lemma size_solid bi size : size < 2 ^ 64 -> solid (FormatWizardSize bi size).
Proof.
  intros L. destruct (size_printed bi size L) as (num & a & k & i & u & f & -> & W & U & _). destruct (written_solid _ _ _ W) as [Ne F]. split.
  - destruct num; [contradiction|discriminate].
  - apply Forall_app. split; [exact F|]. apply Forall_app. split; [|letters].
    assert (I6 : (i <= 6)%nat).
    { assert (nth_error (units bi) i <> None) as L6 by (rewrite U; discriminate). apply nth_error_Some in L6. destruct bi; cbn in L6; lia. }
    apply units_inv in U; [|exact I6]. destruct U as [<- _]. destruct bi; do 7 (destruct i as [|i]; [letters|]); lia.
Qed.

Lemma general_whole n : n < 10 ^ 6 -> general 6 n 1 = decimal n.
Proof.
  intros L. destruct (N.eq_dec n 0) as [->|Nz]; [reflexivity|]. unfold general. pose proof (scientific_exact 6 n 1 ltac:(lia) ltac:(lia) ltac:(lia)) as X.
  rewrite N.mul_1_r in X. assert (S6 : (snd (scientific 6 n 1) < 6)%nat).
  { unfold scientific. destruct (N.eqb_spec n 0); [lia|]. rewrite N.div_1_r. pose proof (decimal_short n 6 ltac:(lia) L). pose proof (decimal_nonempty n).
    set (x := (length (decimal n) - 1)%nat) in *. replace (x <? 6)%nat with true by (symmetry; apply Nat.ltb_lt; lia).
    pose proof (nearest_exact (n * pow10 (6 - 1 - x)) 1 ltac:(lia)) as Nx. rewrite N.mul_1_r in Nx. rewrite Nx.
    destruct (decimal_length n) as [U _]. replace (length (decimal n)) with (S x) in U by lia.
    assert (E : pow10 6 = pow10 (S x) * pow10 (6 - 1 - x)) by (rewrite <- pow10_add; f_equal; lia). pose proof (pow10_pos (6 - 1 - x)).
    destruct (N.eqb_spec (n * pow10 (6 - 1 - x)) (pow10 6)); [exfalso; nia|]. cbn [snd]. lia. }
  destruct (scientific 6 n 1) as [m x]. cbn [snd] in S6. rewrite X by exact S6. replace (x <? 6)%nat with true by (symmetry; now apply Nat.ltb_lt).
  unfold fixed. pose proof (pow10_pos (6 - 1 - x)). rewrite N.div_mul, N.mod_mul by lia.
  replace (trim (pad (6 - 1 - x) (decimal 0))) with (@nil N); [apply app_nil_r|]. clear. do 7 (destruct x as [|x]; [reflexivity|]). reflexivity.
Qed.

(** the columns of the listing: the number of files, and the other limits as printed sizes *)
Theorem listing_columns : forall area memory map disk file, area < 2 ^ 64 -> memory < 2 ^ 64 -> map < 2 ^ 64 -> disk < 2 ^ 64 -> file < 10 ^ 6 ->
  words (ListWizardResourceInfo area memory map disk file) =
    [b "File"; b "Area"; b "Memory"; b "Map"; b "Disk"; b "----------------------------------------------------";
     decimal file; FormatWizardSize false area; FormatWizardSize true memory; FormatWizardSize true map;
     if disk =? 2 ^ 64 - 1 then b "unlimited" else FormatWizardSize true disk].
Proof.
  intros area memory map disk file L1 L2 L3 L4 L5. unfold ListWizardResourceInfo. rewrite general_whole by exact L5.
  change ResourceModel.WizardResourceInfinity with (2 ^ 64 - 1).
  set (limit := if disk =? 2 ^ 64 - 1 then _ else _).
  assert (Sl : solid limit).
  { subst limit. destruct (_ =? _); [split; [discriminate|letters] | now apply size_solid]. }
  clearbody limit. set (row := right 4 (decimal file) ++ _).
  change (words (b "File        Area      Memory         Map        Disk" ++ newline ++ b "----------------------------------------------------" ++ newline ++ row))
    with ([b "File"; b "Area"; b "Memory"; b "Map"; b "Disk"; b "----------------------------------------------------"] ++ words row).
  cbn [app]. do 6 f_equal. subst row.
  assert (Sd : solid (decimal file)).
  { split; [apply decimal_spec|]. eapply Forall_impl; [|apply decimal_Digits]. cbn. lia. }
  change (b "   ") with [32; 32; 32]. cbn [app]. assert (Gap : forall r, words (32 :: 32 :: r) = words r) by reflexivity.
  rewrite words_right by (first [exact Sd | now left]). f_equal. rewrite Gap.
  rewrite words_right by (first [now apply size_solid | now left]). f_equal. rewrite Gap.
  rewrite words_right by (first [now apply size_solid | now left]). f_equal. rewrite Gap.
  rewrite words_right by (first [now apply size_solid | now left]). f_equal. rewrite Gap.
  unfold newline. rewrite words_right by (first [exact Sl | now right]). reflexivity.
Qed.

(** only the limit of the disk can be unlimited: an unlimited area is 18 exabytes *)
Theorem listing_unlimited_refuted :
  FormatWizardSize false ResourceModel.WizardResourceInfinity = b "18.446744EB" /\ FormatWizardSize true ResourceModel.WizardResourceInfinity = b "16EiB".
Proof. split; reflexivity. Qed.

(** * PrintStringInfo *)

Lemma hex_length d : length (flat_map hex2 d) = (2 * length d)%nat.
Proof. induction d as [|c d IH]; [reflexivity|]. cbn [flat_map hex2 app length]. lia. Qed.
Lemma hex_digit_inj x y : x < 16 -> y < 16 -> hex_digit x = hex_digit y -> x = y.
Proof. unfold hex_digit. intros. destruct (N.ltb_spec x 10), (N.ltb_spec y 10); lia. Qed.
Lemma hex_inj d1 : forall d2, Forall (fun c => c < 256) d1 -> Forall (fun c => c < 256) d2 -> flat_map hex2 d1 = flat_map hex2 d2 -> d1 = d2.
Proof.
  induction d1 as [|x d1 IH]; intros [|y d2] F1 F2 E; try reflexivity; try discriminate.
  inversion F1; inversion F2; subst. cbn [flat_map hex2 app] in E. injection E as E1 E2 E3. f_equal; [|now apply IH].
  apply hex_digit_inj in E1; try (apply N.div_lt_upper_bound; lia). apply hex_digit_inj in E2; try (apply N.mod_lt; lia).
  rewrite (N.div_mod x 16), (N.div_mod y 16) by lia. congruence.
Qed.

(** the listing tells the contents: texts and hexadecimal digits are told apart by the length *)
Theorem print_injective : forall id d1 d2, Forall (fun c => c < 256) d1 -> Forall (fun c => c < 256) d2 ->
  PrintStringInfo id d1 = PrintStringInfo id d2 -> d1 = d2.
Proof.
  intros id d1 d2 F1 F2 E. unfold PrintStringInfo in E. apply app_inv_head in E. cbn [b String.list_ascii_of_string map app] in E. 
  change (b "(") with [40] in E. change (b "):") with [41; 58] in E. cbn [app] in E. injection E as E.
  pose proof (f_equal span E) as Sp. rewrite !span_spec in Sp by (apply decimal_Digits || reflexivity). injection Sp as Ed Er.
  assert (L : length d1 = length d2).
  { assert (V : value (decimal (N.of_nat (length d1))) = value (decimal (N.of_nat (length d2)))) by now rewrite Ed. rewrite !decimal_value in V. lia. }
  apply app_inv_tail in Er. destruct (forallb textual d1), (forallb textual d2).
  - exact Er.
  - pose proof (f_equal (@length N) Er) as K. rewrite hex_length in K. destruct d1, d2; cbn in *; try lia; reflexivity.
  - pose proof (f_equal (@length N) Er) as K. rewrite hex_length in K. destruct d1, d2; cbn in *; try lia; reflexivity.
  - now apply hex_inj.
Qed.

(** a text is printed as it is, anything else as two hexadecimal digits for each byte *)
Theorem print_shape : forall id d, 
  (Forall (fun c => 32 <= c < 128 \/ 9 <= c <= 13) d -> PrintStringInfo id d = id ++ b "(" ++ decimal (N.of_nat (length d)) ++ b "):" ++ [10] ++ d ++ [10]) /\
  (Exists (fun c => ~ (32 <= c < 128 \/ 9 <= c <= 13)) d -> Forall (fun c => c < 256) d -> exists h,
     PrintStringInfo id d = id ++ b "(" ++ decimal (N.of_nat (length d)) ++ b "):" ++ [10] ++ h ++ [10] /\ length h = (2 * length d)%nat /\
     Forall (fun c => 48 <= c <= 57 \/ 97 <= c <= 102) h).
Proof.
  assert (T : forall c, textual c = true <-> (32 <= c < 128 \/ 9 <= c <= 13)) by (intros c; unfold textual, isspace; lia).
  intros id d. unfold PrintStringInfo. split; intros H.
  - replace (forallb textual d) with true; [reflexivity|]. symmetry. apply forallb_forall. rewrite Forall_forall in H. intros c I. now apply T, H.
  - intros F. exists (flat_map hex2 d). replace (forallb textual d) with false.
    2: { symmetry. apply not_true_is_false. intros A. rewrite forallb_forall in A. apply Exists_exists in H. destruct H as (c & I & N). now apply N, T, A. }
    split; [reflexivity|]. split; [apply hex_length|]. clear H. induction F as [|c d C F IH]; [constructor|].
    cbn [flat_map hex2 app]. assert (c / 16 < 16) by (apply N.div_lt_upper_bound; lia). assert (c mod 16 < 16) by (apply N.mod_lt; lia).
    assert (H2 : forall x, x < 16 -> 48 <= hex_digit x <= 57 \/ 97 <= hex_digit x <= 102) by (intros x X; unfold hex_digit; destruct (N.ltb_spec x 10); lia).
    constructor; [now apply H2|]. constructor; [now apply H2|exact IH].
Qed.

(** * Examples *)

Example size_example : FormatWizardSize true (256 * 2 ^ 10) = b "256KiB" /\ FormatWizardSize false 262144 = b "262KB" /\
  FormatWizardSize false 999999 = b "1000KB" /\ FormatWizardSize false 1023 = b "1.02KB" /\ FormatWizardSize true 1023 = b "1023B".
Proof. repeat split; reflexivity. Qed.
Example written_example : written (b "1.5") 15 1 /\ written (b "64") 64 0.
Proof.
  split; [apply (written_point (b "1") (b "5")) | apply (written_whole (b "64"))]; try discriminate; unfold Digits; letters.
Qed.
Example chunk_example : chunk_option 0 (b "1.5KB") = Ok (Some 1500) /\ chunk_option 0 (b "64Ki") = Ok (Some 65536) /\ chunk_option 0 (b "x") = Ok None /\
  chunk_option 0 (b "5m") = Ok (Some 5) /\ chunk_option 0 (b "-1") = UB /\ chunk_option 0 (b "50%") = Ok (Some 50).
Proof. repeat split; reflexivity. Qed.
Example print_example : PrintStringInfo (b "Digest") [1; 171] = b "Digest(2):" ++ [10] ++ b "01ab" ++ [10].
Proof. reflexivity. Qed.
Example zero_example : forall c h e, EncipherContent (fun _ => 0) (fun _ _ => 0) (fun _ _ => 0) (mkContent c 0 h e) [1; 2; 3] = Ok (Some []).
Proof. intros. now apply (chunk_zero_refuted 0). Qed.

Print Assumptions size_printed.
Print Assumptions size_read.
Print Assumptions size_alike.
Print Assumptions prefix_multiplies.
Print Assumptions prefix_binary.
Print Assumptions prefix_fraction_refuted.
Print Assumptions chunk_prefix.
Print Assumptions chunk_bytes.
Print Assumptions chunk_negative_refuted.
Print Assumptions chunk_zero_refuted.
Print Assumptions listing_columns.
Print Assumptions listing_unlimited_refuted.
Print Assumptions print_injective.
Print Assumptions print_shape.
