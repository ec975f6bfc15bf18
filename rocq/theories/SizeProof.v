(** Proofs about the model of SizeModel.v. *)
From Coq Require Import Arith NArith ZArith QArith Qabs Lia ZifyBool ZifyNat ZifyN Bool String List.
From Verif Require Import Base Outcome CStringModel OptionModel ScanModel ScanProof2 SizeModel.
Import ListNotations.
Local Open Scope N_scope.

Lemma pow10_S k : pow10 (S k) = 10 * pow10 k.
Proof. unfold pow10. rewrite Nat2N.inj_succ, N.pow_succ_r'. reflexivity. Qed.
Lemma pow10_pos k : 0 < pow10 k.
Proof. induction k; [reflexivity|]. rewrite pow10_S. lia. Qed.
Lemma pow10_add a c : pow10 (a + c) = pow10 a * pow10 c.
Proof. unfold pow10. rewrite Nat2N.inj_add. apply N.pow_add_r. Qed.
Lemma pow10_le a c : (a <= c)%nat -> pow10 a <= pow10 c.
Proof. intros. unfold pow10. apply N.pow_le_mono_r; lia. Qed.

(** the number of digits *)
Lemma decimal_length_ fuel : forall n, n < 2 ^ N.of_nat fuel -> (0 < fuel)%nat -> n < pow10 (length (decimal_ fuel n)) /\
  (0 < n -> pow10 (length (decimal_ fuel n) - 1) <= n).
Proof.
  induction fuel as [|fuel IH]; intros n Hn F; [lia|]. cbn [decimal_]. destruct (N.ltb_spec n 10) as [L|L].
  - cbn. unfold pow10. cbn. lia.
  - assert (0 < fuel)%nat. { destruct fuel; [cbn in Hn; lia|lia]. }
    assert (Hd : n / 10 < 2 ^ N.of_nat fuel).
    { rewrite Nat2N.inj_succ, N.pow_succ_r' in Hn. apply N.div_lt_upper_bound; lia. }
    destruct (IH _ Hd) as [U D]; [lia|]. rewrite app_length. cbn [length]. rewrite Nat.add_1_r.
    pose proof (N.div_mod n 10) as E. pose proof (N.mod_lt n 10). rewrite pow10_S.
    set (k := length (decimal_ fuel (n / 10))) in *. split; [lia|]. intros _. cbn [Nat.sub]. rewrite Nat.sub_0_r.
    assert (0 < n / 10) by (apply N.div_str_pos; lia).
    destruct k as [|k]; [unfold pow10 in U; cbn in U; lia|]. specialize (D H1). cbn [Nat.sub] in D. rewrite Nat.sub_0_r in D.
    rewrite pow10_S. lia.
Qed.
Lemma decimal_length n : n < pow10 (length (decimal n)) /\ (0 < n -> pow10 (length (decimal n) - 1) <= n).
Proof.
  apply decimal_length_; [|lia]. rewrite Nat2N.inj_succ, N2Nat.id. destruct (N.eq_dec n 0) as [->|Z]; [reflexivity|].
  apply N.log2_spec. lia.
Qed.
Lemma decimal_nonempty n : (0 < length (decimal n))%nat.
Proof. destruct (decimal_spec n) as (_ & H & _). destruct (decimal n); [contradiction|cbn; lia]. Qed.

(** at most f digits below 10^f *)
Lemma decimal_short n f : (0 < f)%nat -> n < pow10 f -> (length (decimal n) <= f)%nat.
Proof.
  intros F H. destruct (decimal_length n) as [_ D]. destruct (N.eq_dec n 0) as [->|Z]; [cbn; lia|].
  specialize (D ltac:(lia)). destruct (Nat.le_gt_cases (length (decimal n)) f) as [|G]; [assumption|].
  pose proof (pow10_le f (length (decimal n) - 1) ltac:(lia)). lia.
Qed.

Lemma nearest_ok n d : 0 < d -> 2 * nearest n d * d <= 2 * n + d /\ 2 * n <= 2 * nearest n d * d + d.
Proof.
  intros D. unfold nearest. pose proof (N.div_mod n d ltac:(lia)) as E. pose proof (N.mod_lt n d ltac:(lia)).
  set (q := n / d) in *. set (r := n mod d) in *. destruct (N.compare_spec (2 * r) d); try destruct (N.even q); nia.
Qed.
Lemma nearest_exact n d : 0 < d -> nearest (n * d) d = n.
Proof.
  intros D. unfold nearest. rewrite N.div_mul, N.mod_mul by lia. destruct (N.compare_spec (2 * 0) d); try lia.
Qed.

(** the digits are the nearest, and fewer than p + 1 *)
Lemma scientific_ok p n d : (0 < p)%nat -> 0 < d <= n -> let (m, x) := scientific p n d in (x < p)%nat ->
  let f := (p - 1 - x)%nat in
  2 * pow10 (p - 1) * (m * d) <= 2 * pow10 (p - 1) * (n * pow10 f) + n * pow10 f /\
  2 * pow10 (p - 1) * (n * pow10 f) <= 2 * pow10 (p - 1) * (m * d) + n * pow10 f.
Proof.
  intros P [D L]. unfold scientific. destruct (N.eqb_spec n 0); [lia|].
  assert (Q0 : 0 < n / d) by (apply N.div_str_pos; lia). destruct (decimal_length (n / d)) as [_ Lo]. specialize (Lo Q0).
  set (x := (length (decimal (n / d)) - 1)%nat) in *. assert (G : d * pow10 x <= n).
  { pose proof (N.mul_div_le n d ltac:(lia)). nia. }
  destruct (Nat.ltb_spec x p) as [X|X].
  - pose proof (nearest_ok (n * pow10 (p - 1 - x)) d D) as [A B]. set (m := nearest _ _) in *.
    assert (E1 : pow10 (p - 1) = pow10 x * pow10 (p - 1 - x)) by (rewrite <- pow10_add; f_equal; lia).
    pose proof (pow10_pos (p - 1 - x)). pose proof (pow10_pos x).
    assert (G2 : pow10 (p - 1) * d <= n * pow10 (p - 1 - x)) by (rewrite E1; nia).
    destruct (N.eqb_spec m (pow10 p)) as [M|M].
    + intros X2. cbv zeta. replace (p - 1 - x)%nat with (S (p - 1 - S x)) in * by lia. rewrite pow10_S in *.
      assert (E2 : pow10 p = 10 * pow10 (p - 1)) by (rewrite <- pow10_S; f_equal; lia). rewrite M, E2 in *.
      set (F := pow10 (p - 1 - S x)) in *. set (T := pow10 (p - 1)) in *. clearbody F T. 
      assert (2 * (T * d) * 10 <= 2 * (n * F) * 10 + d) by lia. assert (2 * (n * F) * 10 <= 2 * (T * d) * 10 + d) by lia. clear - H1 H2 G2. split; nia.
    + intros X2. cbv zeta. set (F := pow10 (p - 1 - x)) in *. set (T := pow10 (p - 1)) in *. clearbody F T m.
      clear - A B G2. split; nia.
  - destruct (_ =? _); intros; lia.
Qed.

(** * Texts of numbers *)

(** the value of digits *)
Definition value (l : list N) : Z := fold_left (fun n c => 10 * n + Z.of_N (c - 48))%Z l 0%Z.
Definition Digits (l : list N) : Prop := Forall (fun c => 48 <= c <= 57) l.

(** t is the decimal notation of a / 10^k, with k digits after the point *)
Inductive written : list N -> Z -> nat -> Prop :=
| written_whole w : Digits w -> w <> [] -> written w (value w) 0
| written_point w f : Digits w -> w <> [] -> Digits f -> f <> [] -> written (w ++ 46 :: f) (value (w ++ f)) (length f).

Lemma value_app a c : value (a ++ c) = (value a * 10 ^ Z.of_nat (length c) + value c)%Z.
Proof.
  unfold value. rewrite fold_left_app. generalize (fold_left (fun n c0 => (10 * n + Z.of_N (c0 - 48))%Z) a 0%Z). clear a.
  induction c as [|x c IH] using rev_ind; intros n; [cbn; lia|].
  rewrite !fold_left_app, app_length. cbn [fold_left length]. rewrite IH, Nat.add_1_r, Nat2Z.inj_succ, Z.pow_succ_r by lia. lia.
Qed.
Lemma value_digits l : Digits l -> value l = digits 0 l.
Proof.
  unfold value. intros D. assert (G : forall n, fold_left (fun n c => (10 * n + Z.of_N (c - 48))%Z) l n = digits n l); [|apply G].
  induction D as [|c l Hc D IH]; intros n; [reflexivity|]. cbn [fold_left digits]. unfold isdigit.
  replace ((48 <=? c) && (c <=? 57)) with true by lia. apply IH.
Qed.
Lemma decimal_Digits n : Digits (decimal n).
Proof. destruct (decimal_spec n) as (D & _). eapply Forall_impl; [|exact D]. intros c. unfold isdigit. lia. Qed.
Lemma decimal_value n : value (decimal n) = Z.of_N n.
Proof. rewrite value_digits by apply decimal_Digits. apply decimal_spec. Qed.
Lemma value_zeros k : value (repeat 48 k) = 0%Z.
Proof. induction k as [|k IH]; [reflexivity|]. change (repeat 48 (S k)) with ([48] ++ repeat 48 k). rewrite value_app, IH. reflexivity. Qed.
Lemma zeros_Digits k : Digits (repeat 48 k).
Proof. apply Forall_forall. intros c H. apply repeat_spec in H. lia. Qed.

Lemma trim_spec l : l = trim l ++ repeat 48 (length l - length (trim l)) /\ (length (trim l) <= length l)%nat.
Proof.
  induction l as [|c l [IH L]]; [now split|]. cbn [trim]. destruct (trim l) as [|t ts] eqn:E.
  - cbn in IH. rewrite Nat.sub_0_r in IH. destruct (N.eqb_spec c 48) as [->|C]; cbn [length app Nat.sub repeat].
    + split; [now rewrite <- IH|lia].
    + rewrite Nat.sub_0_r. split; [now rewrite <- IH|lia].
  - cbn [length app Nat.sub] in *. split; [f_equal; exact IH|lia].
Qed.

Lemma fixed_written f m : exists a k, written (fixed f m) a k /\ (k <= f)%nat /\ (a * 10 ^ Z.of_nat f = Z.of_N m * 10 ^ Z.of_nat k)%Z.
Proof.
  unfold fixed. pose proof (pow10_pos f) as P. pose proof (N.div_mod m (pow10 f) ltac:(lia)) as E. pose proof (N.mod_lt m (pow10 f) ltac:(lia)) as M.
  set (q := m / pow10 f) in *. set (r := m mod pow10 f) in *.
  destruct (trim_spec (pad f (decimal r))) as [T L]. set (t := trim (pad f (decimal r))) in *.
  assert (Z1 : Z.of_N (pow10 f) = (10 ^ Z.of_nat f)%Z) by (unfold pow10; rewrite N2Z.inj_pow; f_equal; lia).
  assert (V : value (pad f (decimal r)) = Z.of_N r). { unfold pad. rewrite value_app, value_zeros, decimal_value. lia. }
  assert (Dp : Digits (pad f (decimal r))) by (apply Forall_app; split; [apply zeros_Digits | apply decimal_Digits]).
  assert (Dt : Digits t). { rewrite T in Dp. now apply Forall_app in Dp. }
  assert (Ne : decimal q <> []) by apply decimal_spec.
  destruct f as [|f].
  - assert (r = 0) by (unfold pow10 in M; cbn in M; lia). assert (t = []) as -> by (subst t; rewrite H; reflexivity).
    cbn [point]. rewrite app_nil_r. exists (value (decimal q)), 0%nat. split; [now apply written_whole; [apply decimal_Digits|]|].
    split; [lia|]. rewrite decimal_value. change (pow10 0) with 1 in E. cbn. lia.
  - assert (Lp : length (pad (S f) (decimal r)) = S f).
    { unfold pad. rewrite app_length, repeat_length. pose proof (decimal_short r (S f) ltac:(lia) M). lia. }
    rewrite Lp in *. set (z := (S f - length t)%nat) in *.
    assert (V2 : (value t * 10 ^ Z.of_nat z = Z.of_N r)%Z).
    { rewrite <- V, T, value_app, value_zeros, repeat_length. lia. }
    assert (PZ : (10 ^ Z.of_nat (S f) = 10 ^ Z.of_nat (length t) * 10 ^ Z.of_nat z)%Z).
    { rewrite <- Z.pow_add_r by lia. f_equal. lia. }
    clearbody t. destruct t as [|c t'].
    + cbn [point]. rewrite app_nil_r. exists (value (decimal q)), 0%nat. split; [now apply written_whole; [apply decimal_Digits|]|].
      split; [lia|]. rewrite decimal_value. cbn in V2. rewrite <- Z1. cbn [Z.of_nat Z.pow Z.pow_pos]. lia.
    + set (t := c :: t') in *. change (point t) with (46 :: t). assert (Nt : t <> []) by discriminate. clearbody t.
      exists (value (decimal q ++ t)), (length t). split; [apply written_point; [apply decimal_Digits|exact Ne|exact Dt|exact Nt]|].
      split; [lia|]. rewrite value_app, decimal_value. rewrite E, N2Z.inj_add, N2Z.inj_mul, Z1, <- V2, PZ. ring.
Qed.

(** * Reading *)

Lemma span_spec w r : Digits w -> match r with c :: _ => isdigit c = false | [] => True end -> span (w ++ r) = (w, r).
Proof.
  intros D R. induction D as [|c w Hc D IH].
  - destruct r as [|c r]; [reflexivity|]. cbn. now rewrite R.
  - cbn [app span]. unfold isdigit at 1. replace ((48 <=? c) && (c <=? 57)) with true by lia. now rewrite IH.
Qed.
Lemma span_all w : Digits w -> span w = (w, []).
Proof. intros D. rewrite <- (app_nil_r w) at 1. now apply span_spec. Qed.

(** what follows a number without belonging to it *)
Definition ends (r : list N) : Prop :=
  match r with c :: _ => ~ (48 <= c <= 57) /\ c <> 46 | [] => True end /\ exponent r = (0%Z, r).

Lemma digit_first w r : Digits w -> w <> [] -> sign (drop_spaces (w ++ r)) = (false, w ++ r).
Proof.
  intros D Ne. destruct D as [|c w Hc D]; [contradiction|]. cbn [app drop_spaces]. unfold isspace.
  replace ((9 <=? c) && (c <=? 13) || (c =? 32)) with false by lia. unfold sign.
  destruct (N.eq_dec c 43); [lia|]. destruct (N.eq_dec c 45); [lia|].
  assert (exists k, c = 48 + k /\ k < 10) as (k & -> & K) by (exists (c - 48); lia).
  assert (k = 0 \/ k = 1 \/ k = 2 \/ k = 3 \/ k = 4 \/ k = 5 \/ k = 6 \/ k = 7 \/ k = 8 \/ k = 9) as Cs by lia.
  repeat (destruct Cs as [->|Cs]; [reflexivity|]). now subst k.
Qed.

Lemma strtod_written t a k r : written t a k -> ends r -> exists v, strtod (t ++ r) = Some (v, r) /\ (v == ratio a k)%Q.
Proof.
  intros W [R X]. unfold strtod. destruct W as [w D Ne|w f D Ne Df Nf].
  - rewrite digit_first by assumption. rewrite span_spec by (try assumption; (destruct r as [|c r]; [exact I|unfold isdigit; lia])).
    assert (E : (match r with 46 :: t => let (f, t0) := span t in if match w ++ f with [] => true | _ => false end then ([], r) else (f, t0)
       | _ => ([], r) end) = ([], r)).
    { destruct r as [|c r]; [reflexivity|]. destruct R as [_ R].
      destruct c as [|c]; [reflexivity|]. do 6 (destruct c as [c|c|]; try reflexivity). contradiction. }
    rewrite E, X, app_nil_r. destruct w as [|c w]; [contradiction|]. eexists. split; [reflexivity|].
    rewrite <- value_digits by exact D. cbn [length]. change (Qpower (10 # 1) 0) with 1%Q. apply Qmult_1_r.
  - rewrite <- app_assoc. cbn [app]. rewrite digit_first by assumption. rewrite span_spec by (try assumption; reflexivity).
    rewrite span_spec by (try assumption; (destruct r as [|c r]; [exact I|unfold isdigit; lia])).
    destruct (w ++ f) as [|c l] eqn:E; [destruct w; [contradiction|discriminate]|]. rewrite E, X, <- E. eexists. split; [reflexivity|].
    rewrite <- value_digits by (apply Forall_app; now split). change (Qpower (10 # 1) 0) with 1%Q. apply Qmult_1_r.
Qed.

(** * FormatWizardSize *)

Lemma scientific_exact p q d : (0 < p)%nat -> 0 < d -> 0 < q -> let (m, x) := scientific p (q * d) d in (x < p)%nat -> m = q * pow10 (p - 1 - x).
Proof.
  intros P D Q. unfold scientific. destruct (N.eqb_spec (q * d) 0); [lia|]. set (x := (length (decimal (q * d / d)) - 1)%nat).
  destruct (Nat.ltb_spec x p) as [X|X].
  - replace (q * d * pow10 (p - 1 - x)) with (q * pow10 (p - 1 - x) * d) by lia. rewrite nearest_exact by exact D.
    destruct (N.eqb_spec (q * pow10 (p - 1 - x)) (pow10 p)) as [M|M]; [|reflexivity]. intros X2.
    replace (p - 1 - x)%nat with (S (p - 1 - S x)) in M by lia. rewrite pow10_S in M.
    assert (E2 : pow10 p = 10 * pow10 (p - 1)) by (rewrite <- pow10_S; f_equal; lia). lia.
  - destruct (_ =? _); intros; lia.
Qed.

Lemma scientific_small p n d : (4 <= p)%nat -> 0 < d -> n < 1024 * d -> (snd (scientific p n d) < p)%nat.
Proof.
  intros P D B. unfold scientific. destruct (N.eqb_spec n 0); [cbn; lia|].
  assert (Q : n / d < 1024) by (apply N.div_lt_upper_bound; lia).
  assert (L : (length (decimal (n / d)) <= 4)%nat) by (apply decimal_short; [lia|change (pow10 4) with 10000; lia]).
  set (x := (length (decimal (n / d)) - 1)%nat) in *. replace (x <? p)%nat with true by (symmetry; apply Nat.ltb_lt; lia).
  destruct (N.eqb_spec (nearest (n * pow10 (p - 1 - x)) d) (pow10 p)) as [M|M]; cbn [snd]; [|lia].
  destruct (Nat.eq_dec x 3) as [X|X]; [exfalso|lia].
  pose proof (nearest_ok (n * pow10 (p - 1 - x)) d D) as [A _]. rewrite M in A.
  assert (E : pow10 p = 10000 * pow10 (p - 1 - x)).
  { replace p with (4 + (p - 1 - x))%nat at 1 by lia. rewrite pow10_add. reflexivity. }
  pose proof (pow10_pos (p - 1 - x)). rewrite E in A. set (F := pow10 (p - 1 - x)) in *. clearbody F. nia.
Qed.

Lemma written_clean t a k : written t a k -> existsb (N.eqb 43) t = false.
Proof.
  assert (G : forall w, Digits w -> existsb (N.eqb 43) w = false).
  { intros w D. induction D as [|c w Hc D IH]; [reflexivity|]. cbn [existsb]. rewrite IH. lia. }
  intros [w D Ne|w f D Ne Df Nf]; [now apply G|]. rewrite existsb_app. cbn [existsb]. rewrite !G by assumption. reflexivity.
Qed.

Lemma attempts_ok size d unit_ i : 0 < d -> size < 1024 * d -> existsb (N.eqb 43) unit_ = false -> forall k j t0, (4 < i + j + k)%nat -> (0 < k)%nat ->
  exists p, (i + j <= p)%nat /\ (snd (scientific p size d) < p)%nat /\ attempts k i j size d unit_ t0 = general p size d ++ unit_ ++ b "B".
Proof.
  intros D B U. induction k as [|k IH]; intros j t0 K K0; [lia|]. cbn [attempts].
  destruct (Nat.ltb_spec (snd (scientific (i + j) size d)) (i + j)) as [X|X].
  - exists (i + j)%nat. split; [lia|]. split; [exact X|].
    assert (E : existsb (N.eqb 43) (general (i + j) size d ++ unit_ ++ b "B") = false).
    { rewrite !existsb_app, U. unfold general. destruct (scientific (i + j) size d) as [m x]. cbn [snd] in X.
      replace (x <? i + j)%nat with true by (symmetry; now apply Nat.ltb_lt).
      destruct (fixed_written (i + j - 1 - x) m) as (a & q & W & _). rewrite (written_clean _ _ _ W). reflexivity. }
    now rewrite E.
  - assert (E : existsb (N.eqb 43) (general (i + j) size d ++ unit_ ++ b "B") = true).
    { rewrite existsb_app. unfold general. destruct (scientific (i + j) size d) as [m x]. cbn [snd] in X.
      replace (x <? i + j)%nat with false by (symmetry; now apply Nat.ltb_ge). rewrite !existsb_app.
      change (existsb (N.eqb 43) (b "e+")) with true. rewrite !orb_true_r. reflexivity. }
    rewrite E. assert (i + j < 4)%nat.
    { destruct (Nat.lt_ge_cases (i + j) 4) as [|G]; [assumption|]. pose proof (scientific_small (i + j) size d G D B). lia. }
    destruct (IH (S j) (general (i + j) size d ++ unit_ ++ b "B")) as (p & P1 & P2 & P3); [lia|lia|]. exists p. split; [lia|]. now split.
Qed.

Lemma scale_ok bytes size : 1 < bytes -> forall later i d, d = bytes ^ N.of_nat i -> (i = 0%nat \/ d <= size) ->
  let (i', d') := scale bytes size i d later in
  d' = bytes ^ N.of_nat i' /\ (i' = 0%nat \/ d' <= size) /\ (i <= i' <= i + length later)%nat /\ (size < bytes * d' \/ i' = (i + length later)%nat).
Proof.
  intros Bt. induction later as [|u later IH]; intros i d Hd L; cbn [scale length].
  - repeat split; try assumption; try lia.
  - destruct (N.leb_spec (bytes * d) size) as [Le|Gt].
    + specialize (IH (S i) (bytes * d)). destruct (scale bytes size (S i) (bytes * d) later) as [i' d'].
      destruct IH as (A & B & C & F); [rewrite Nat2N.inj_succ, N.pow_succ_r'; now f_equal | right; exact Le|].
      split; [exact A|]. split; [exact B|]. split; [lia|]. destruct F as [F|F]; [now left|right; lia].
    + split; [exact Hd|]. split; [exact L|]. split; [lia|]. left. exact Gt.
Qed.

Lemma value_nonneg l : (0 <= value l)%Z.
Proof.
  unfold value. assert (G : forall n, (0 <= n)%Z -> (0 <= fold_left (fun n c => 10 * n + Z.of_N (c - 48)) l n)%Z); [|apply G; lia].
  induction l as [|c l IH]; intros n H; [exact H|]. cbn [fold_left]. apply IH. lia.
Qed.
Lemma written_nonneg t a k : written t a k -> (0 <= a)%Z.
Proof. intros []; apply value_nonneg. Qed.

Lemma strtod_minus t a k : written t a k -> exists v, strtod (45 :: t) = Some (v, []) /\ (v == ratio (- a) k)%Q.
Proof.
  intros W. unfold strtod. change (sign (drop_spaces (45 :: t))) with (true, t). cbv iota beta. destruct W as [w D Ne|w f D Ne Df Nf].
  - rewrite span_all by assumption. rewrite app_nil_r. destruct w as [|c w]; [contradiction|]. eexists. split; [reflexivity|].
    rewrite <- value_digits by exact D. cbn [length]. change (Qpower (10 # 1) 0) with 1%Q. apply Qmult_1_r.
  - rewrite span_spec by (try assumption; reflexivity). rewrite span_all by assumption.
    destruct (w ++ f) as [|c l] eqn:E; [destruct w; [contradiction|discriminate]|]. rewrite E, <- E. eexists. split; [reflexivity|].
    rewrite <- value_digits by (apply Forall_app; now split). change (Qpower (10 # 1) 0) with 1%Q. apply Qmult_1_r.
Qed.
Lemma written_nonempty t a k : written t a k -> t <> [].
Proof. intros [w D Ne|w f D Ne Df Nf]; [exact Ne|now destruct w]. Qed.
