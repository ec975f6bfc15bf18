(** The calendar of the model counts days as the specification does, and the
    texts FormatWizardTime writes. *)
From Coq Require Import NArith ZArith Bool String Lia ZifyBool ZifyNat ZifyN Arith List.
From Verif Require Import Base OptionModel ScanModel ScanProof2 TimeModel TimeSpec.
Import ListNotations.
Local Open Scope Z_scope.
Ltac Zify.zify_post_hook ::= Z.to_euclidean_division_equations.

Lemma leap_ok y : leap y = leap_year y.
Proof.
  unfold leap, leap_year. destruct (Z.eqb_spec (y mod 400) 0), (Z.eqb_spec (y mod 100) 0), (Z.eqb_spec (y mod 4) 0);
    cbn; try reflexivity; exfalso; lia.
Qed.
Lemma year_cases y :
  (leap_year y = true /\ (y mod 400 = 0 \/ (y mod 4 = 0 /\ y mod 100 <> 0))) \/
  (leap_year y = false /\ y mod 400 <> 0 /\ (y mod 100 = 0 \/ y mod 4 <> 0)).
Proof.
  unfold leap_year. destruct (Z.eqb_spec (y mod 400) 0); [left; tauto|].
  destruct (Z.eqb_spec (y mod 100) 0); [right; tauto|]. destruct (Z.eqb_spec (y mod 4) 0); [left|right]; tauto.
Qed.
Lemma jan1_succ y : jan1 (y + 1) = jan1 y + year_days y.
Proof.
  unfold jan1, year_days. replace (y + 1 - 1) with y by lia.
  assert (A : y / 4 = (y - 1) / 4 + (if y mod 4 =? 0 then 1 else 0)) by (destruct (Z.eqb_spec (y mod 4) 0); lia).
  assert (B : y / 100 = (y - 1) / 100 + (if y mod 100 =? 0 then 1 else 0)) by (destruct (Z.eqb_spec (y mod 100) 0); lia).
  assert (C : y / 400 = (y - 1) / 400 + (if y mod 400 =? 0 then 1 else 0)) by (destruct (Z.eqb_spec (y mod 400) 0); lia).
  rewrite A, B, C. clear A B C. unfold leap_year.
  destruct (Z.eqb_spec (y mod 400) 0), (Z.eqb_spec (y mod 100) 0), (Z.eqb_spec (y mod 4) 0); try lia.
Qed.
Lemma year_days_pos y : 365 <= year_days y <= 366.
Proof. unfold year_days. destruct (leap_year y); lia. Qed.
Lemma years_before_ok n : years_before n = jan1 (Z.of_nat n) + 719528.
Proof.
  induction n as [|n IH]; [reflexivity|]. cbn [years_before]. rewrite IH.
  replace (Z.of_nat (S n)) with (Z.of_nat n + 1) by lia. rewrite jan1_succ. lia.
Qed.
Lemma jan1_mono_nat y (n : nat) : jan1 y + 365 * Z.of_nat n <= jan1 (y + Z.of_nat n).
Proof.
  induction n as [|n IH]; [replace (y + Z.of_nat 0) with y by lia; lia|].
  replace (y + Z.of_nat (S n)) with (y + Z.of_nat n + 1) by lia. rewrite jan1_succ. pose proof (year_days_pos (y + Z.of_nat n)). lia.
Qed.
Lemma jan1_mono y y' : y <= y' -> jan1 y + 365 * (y' - y) <= jan1 y'.
Proof. intros H. pose proof (jan1_mono_nat y (Z.to_nat (y' - y))) as M. rewrite Z2Nat.id in M by lia. replace (y + (y' - y)) with y' in M by lia. exact M. Qed.

Lemma year_of_bounds d : jan1 (year_of d) <= d < jan1 (year_of d + 1).
Proof.
  unfold year_of. cbv zeta. set (y := 1970 + d * 400 / 146097).
  assert (L : jan1 (y - 1) <= d) by (subst y; unfold jan1; lia).
  assert (U : d < jan1 (y + 1 + 1)) by (subst y; unfold jan1; lia).
  clearbody y. destruct (Z.ltb_spec d (jan1 y)); [replace (y - 1 + 1) with y by lia; lia|].
  destruct (Z.ltb_spec d (jan1 (y + 1))); lia.
Qed.
Lemma year_of_unique d y : jan1 y <= d < jan1 (y + 1) -> year_of d = y.
Proof.
  intros H. pose proof (year_of_bounds d) as B. destruct (Z.lt_trichotomy (year_of d) y) as [L|[E|G]]; [|exact E|].
  - pose proof (jan1_mono (year_of d + 1) y ltac:(lia)). lia.
  - pose proof (jan1_mono (y + 1) (year_of d) ltac:(lia)). lia.
Qed.

Lemma before_month_ok y m : (m <= 12)%nat ->
  sum (firstn m (month_days y)) = if (m =? 12)%nat then year_days y else before_month (leap y) (Z.of_nat m).
Proof.
  intros H. rewrite leap_ok. unfold year_days, month_days. destruct (leap_year y);
    do 13 (destruct m as [|m]; [reflexivity|]); exfalso; lia.
Qed.
Lemma month_of_bounds y yday : 0 <= yday < year_days y ->
  exists m, (m <= 11)%nat /\ month_of (leap y) yday = Z.of_nat m /\
    before_month (leap y) (Z.of_nat m) <= yday /\
    yday - before_month (leap y) (Z.of_nat m) < nth m (month_days y) 0.
Proof.
  intros H. rewrite leap_ok. unfold year_days, month_days in *. unfold month_of.
  destruct (leap_year y);
    repeat match goal with
    | |- context [if yday <? before_month ?l ?k then _ else _] =>
        let v := eval vm_compute in (before_month l k) in
        change (before_month l k) with v; destruct (Z.ltb_spec yday v)
    end;
    match goal with |- exists m, _ /\ ?k = _ /\ _ =>
      let v := eval vm_compute in (Z.to_nat k) in exists v;
      match goal with |- context [before_month ?l (Z.of_nat v)] =>
        let w := eval vm_compute in (before_month l (Z.of_nat v)) in change (before_month l (Z.of_nat v)) with w end
    end; cbn [nth]; lia.
Qed.

(** ** The fields gmtime gives *)
Lemma gmtime_date t : exists m d : nat,
  let g := gmtime t in let y := tm_year g + 1900 in
  tm_mon g = Z.of_nat m - 1 /\ tm_mday g = Z.of_nat d /\
  (1 <= m <= 12)%nat /\ (1 <= d)%nat /\ Z.of_nat d <= nth (m - 1) (month_days y) 0 /\
  t / 86400 = jan1 y + sum (firstn (m - 1) (month_days y)) + Z.of_nat d - 1 /\
  jan1 y <= t / 86400 < jan1 (y + 1) /\ tm_yday g = t / 86400 - jan1 y.
Proof.
  unfold gmtime. cbv zeta. cbn [tm_year tm_mon tm_mday tm_yday].
  set (d := t / 86400). set (y := year_of d). pose proof (year_of_bounds d) as B. fold y in B.
  replace (y - 1900 + 1900) with y by lia.
  pose proof (jan1_succ y) as J.
  destruct (month_of_bounds y (d - jan1 y)) as (m & M & E & Lo & Hi); [lia|]. rewrite E.
  exists (S m), (Z.to_nat (d - jan1 y - before_month (leap y) (Z.of_nat m) + 1)).
  replace (S m - 1)%nat with m by lia. rewrite before_month_ok by lia.
  replace (m =? 12)%nat with false by (symmetry; apply Nat.eqb_neq; lia).
  rewrite Z2Nat.id by lia. clearbody y d. lia.
Qed.
Lemma gmtime_clock t :
  0 <= tm_hour (gmtime t) <= 23 /\ 0 <= tm_min (gmtime t) <= 59 /\ 0 <= tm_sec (gmtime t) <= 59 /\
  t = 86400 * (t / 86400) + 3600 * tm_hour (gmtime t) + 60 * tm_min (gmtime t) + tm_sec (gmtime t).
Proof. unfold gmtime. cbn [tm_hour tm_min tm_sec]. lia. Qed.

Lemma gmtime_instant t : 0 <= tm_year (gmtime t) + 1900 ->
  exists y m d h mi s, good_date y m d /\ (h <= 23)%nat /\ (mi <= 59)%nat /\ (s <= 59)%nat /\
    tm_year (gmtime t) + 1900 = Z.of_nat y /\ tm_mon (gmtime t) + 1 = Z.of_nat m /\ tm_mday (gmtime t) = Z.of_nat d /\
    tm_hour (gmtime t) = Z.of_nat h /\ tm_min (gmtime t) = Z.of_nat mi /\ tm_sec (gmtime t) = Z.of_nat s /\
    forall o, instant y m d h mi s o = t - o.
Proof.
  intros Y. destruct (gmtime_date t) as (m & d & E). cbv zeta in E. destruct E as (Em & Ed & M & D & Dm & S & _).
  destruct (gmtime_clock t) as (H & Mi & Se & T).
  exists (Z.to_nat (tm_year (gmtime t) + 1900)), m, d, (Z.to_nat (tm_hour (gmtime t))), (Z.to_nat (tm_min (gmtime t))),
    (Z.to_nat (tm_sec (gmtime t))).
  unfold good_date, instant, date_number. rewrite !Z2Nat.id by lia.
  split; [lia|]. split; [lia|]. split; [lia|]. split; [lia|]. split; [reflexivity|]. split; [lia|]. split; [exact Ed|].
  split; [reflexivity|]. split; [reflexivity|]. split; [reflexivity|]. intros o.
  rewrite !years_before_ok. rewrite Z2Nat.id by lia. change (jan1 (Z.of_nat 1970)) with 0. cbn [Nat.sub firstn sum].
  clear - S T. lia.
Qed.

(** ** The zone in hours *)
Lemma zone_hours_ok t o : - 86400 < o < 86400 ->
  zone_hours (gmtime (t + o)) (gmtime t) = (t + o) / 3600 - t / 3600.
Proof.
  intros O. destruct (gmtime_date t) as (m & d & E). cbv zeta in E. destruct E as (_ & _ & _ & _ & _ & _ & B & Yd).
  destruct (gmtime_date (t + o)) as (m' & d' & E'). cbv zeta in E'. destruct E' as (_ & _ & _ & _ & _ & _ & B' & Yd').
  clear m d m' d'. unfold zone_hours.
  pose proof (jan1_succ (tm_year (gmtime t) + 1900)) as J. pose proof (year_days_pos (tm_year (gmtime t) + 1900)) as P.
  pose proof (jan1_succ (tm_year (gmtime (t + o)) + 1900)) as J'. pose proof (year_days_pos (tm_year (gmtime (t + o)) + 1900)) as P'.
  assert (Q : Z.quot (tm_min (gmtime (t + o)) - tm_min (gmtime t)) 60 = 0).
  { destruct (gmtime_clock t) as (_ & Mi & _). destruct (gmtime_clock (t + o)) as (_ & Mi' & _). lia. }
  rewrite Q. clear Q.
  assert (K : (if negb (tm_year (gmtime (t + o)) - tm_year (gmtime t) =? 0) then tm_year (gmtime (t + o)) - tm_year (gmtime t)
    else tm_yday (gmtime (t + o)) - tm_yday (gmtime t)) = (t + o) / 86400 - t / 86400).
  { assert (Dd : -1 <= (t + o) / 86400 - t / 86400 <= 1) by lia.
    set (D' := (t + o) / 86400) in *. set (D := t / 86400) in *. clearbody D D'.
    set (Y := tm_year (gmtime t)) in *. set (Y' := tm_year (gmtime (t + o))) in *. clearbody Y Y'.
    destruct (Z.lt_trichotomy Y' Y) as [L|[Eq|L]].
    - replace (Y' - Y =? 0) with false by lia. cbn [negb].
      pose proof (jan1_mono (Y' + 1900 + 1) (Y + 1900) ltac:(lia)). lia.
    - subst Y'. rewrite Z.sub_diag. cbn [Z.eqb negb]. rewrite Yd, Yd'. lia.
    - replace (Y' - Y =? 0) with false by lia. cbn [negb].
      pose proof (jan1_mono (Y + 1900 + 1) (Y' + 1900) ltac:(lia)). lia. }
  rewrite K. clear - O. unfold gmtime. cbn [tm_hour]. lia.
Qed.

(** ** Decimal digits *)
Lemma decimal_fuel f : forall n f', (n < 2 ^ N.of_nat f)%N -> (n < 2 ^ N.of_nat f')%N -> (0 < f)%nat -> (0 < f')%nat ->
  decimal_ f n = decimal_ f' n.
Proof.
  induction f as [|f IH]; intros n f' H H' F F'; [lia|]. destruct f' as [|f']; [lia|]. cbn [decimal_].
  destruct (N.ltb_spec n 10); [reflexivity|]. f_equal.
  rewrite Nat2N.inj_succ, N.pow_succ_r' in H, H'.
  apply IH; [lia|lia| |]; destruct f, f'; cbn in *; lia.
Qed.
Lemma decimal_bound n : (n < 2 ^ N.of_nat (S (N.to_nat (N.log2 n))))%N.
Proof.
  rewrite Nat2N.inj_succ, N2Nat.id. destruct (N.eq_dec n 0) as [->|Z]; [reflexivity|]. apply N.log2_spec. lia.
Qed.
Lemma decimal_small n : (n < 10)%N -> decimal n = [48 + n]%N.
Proof. intros H. unfold decimal. cbn [decimal_]. now rewrite (proj2 (N.ltb_lt _ _) H). Qed.
Lemma decimal_step n : (10 <= n)%N -> decimal n = decimal (n / 10) ++ [48 + n mod 10]%N.
Proof.
  intros H. unfold decimal at 1. cbn [decimal_]. rewrite (proj2 (N.ltb_ge _ _) H). f_equal.
  pose proof (decimal_bound n) as B. pose proof (decimal_bound (n / 10)) as B'.
  assert (L : (3 <= N.log2 n)%N) by (change 3%N with (N.log2 10); now apply N.log2_le_mono).
  unfold decimal. apply decimal_fuel; [|exact B'|lia|lia].
  rewrite Nat2N.inj_succ, N.pow_succ_r' in B. lia.
Qed.

Lemma print_two n : (n <= 99)%nat -> print_d 2 (Z.of_nat n) = two n.
Proof.
  intros H. unfold print_d, zeros, two, digit. replace (Z.of_nat n <? 0) with false by lia.
  replace (Z.to_N (Z.of_nat n)) with (N.of_nat n) by lia.
  destruct (N.ltb_spec (N.of_nat n) 10).
  - rewrite decimal_small by lia. cbn [length Nat.sub repeat app]. f_equal; [lia|]. f_equal. lia.
  - rewrite decimal_step, decimal_small by lia. cbn [app length Nat.sub repeat]. f_equal; [lia|]. f_equal. lia.
Qed.
Lemma print_four n : Z.of_nat n <= 9999 -> print_d 4 (Z.of_nat n) = four n.
Proof.
  intros H. unfold print_d, zeros, four, two, digit. replace (Z.of_nat n <? 0) with false by lia.
  replace (Z.to_N (Z.of_nat n)) with (N.of_nat n) by lia. cbn [app].
  destruct (N.ltb_spec (N.of_nat n) 10); [|destruct (N.ltb_spec (N.of_nat n) 100); [|destruct (N.ltb_spec (N.of_nat n) 1000)]].
  - rewrite decimal_small by lia. cbn [length Nat.sub repeat app]. repeat (f_equal; [lia|]). f_equal. lia.
  - rewrite decimal_step, decimal_small by lia. cbn [length Nat.sub repeat app]. repeat (f_equal; [lia|]). f_equal. lia.
  - rewrite decimal_step, (decimal_step (_ / 10)), decimal_small by lia. cbn [length Nat.sub repeat app].
    repeat (f_equal; [lia|]). f_equal. lia.
  - rewrite decimal_step, (decimal_step (_ / 10)), (decimal_step (_ / 10 / 10)), decimal_small by lia.
    cbn [length Nat.sub repeat app]. repeat (f_equal; [lia|]). f_equal. lia.
Qed.
Lemma print_zone n : -99 <= n <= 99 ->
  print_signed 3 n = (if n <? 0 then 45%N else 43%N) :: two (Z.abs_nat n).
Proof.
  intros H. unfold print_signed. destruct (Z.ltb_spec n 0).
  - f_equal. rewrite <- print_two by lia. unfold print_d. replace (Z.of_nat (Z.abs_nat n) <? 0) with false by lia.
    now replace (Z.of_nat (Z.abs_nat n)) with (- n) by lia.
  - f_equal. rewrite <- print_two by lia. unfold print_d. replace (Z.of_nat (Z.abs_nat n) <? 0) with false by lia.
    now replace (Z.of_nat (Z.abs_nat n)) with n by lia.
Qed.

(** ** The text *)
Definition stamp_text (y m d h mi s : nat) (zh : Z) : list N :=
  four y ++ 45%N :: two m ++ 45%N :: two d ++ 84%N :: two h ++ 58%N :: two mi ++ 58%N :: two s ++
  (if zh <? 0 then 45%N else 43%N) :: two (Z.abs_nat zh) ++ 58%N :: two 0.

Lemma format_text z t : - 82800 <= off z t <= 82800 -> 0 <= tm_year (gmtime (t + off z t)) + 1900 <= 9999 ->
  exists y m d h mi s,
    good_date y m d /\ Z.of_nat y <= 9999 /\ (h <= 23)%nat /\ (mi <= 59)%nat /\ (s <= 59)%nat /\
    let l := gmtime (t + off z t) in
    tm_year l + 1900 = Z.of_nat y /\ tm_mon l + 1 = Z.of_nat m /\ tm_mday l = Z.of_nat d /\
    tm_hour l = Z.of_nat h /\ tm_min l = Z.of_nat mi /\ tm_sec l = Z.of_nat s /\
    (forall o, instant y m d h mi s o = t + off z t - o) /\
    FormatWizardTime z t = stamp_text y m d h mi s ((t + off z t) / 3600 - t / 3600).
Proof.
  intros O Y. destruct (gmtime_instant (t + off z t) ltac:(lia)) as (y & m & d & h & mi & s & G & H & Mi & S & Ey & Em & Ed & Eh & Emi & Es & I).
  exists y, m, d, h, mi, s. split; [exact G|]. split; [lia|]. split; [exact H|]. split; [exact Mi|]. split; [exact S|].
  cbv zeta. split; [exact Ey|]. split; [exact Em|]. split; [exact Ed|]. split; [exact Eh|]. split; [exact Emi|]. split; [exact Es|].
  split; [exact I|].
  unfold FormatWizardTime. cbv zeta. unfold localtime. rewrite zone_hours_ok by lia. rewrite Ey, Em, Ed, Eh, Emi, Es.
  destruct G as (M & D1 & D).
  assert (D31 : Z.of_nat d <= 31).
  { revert D. unfold month_days. destruct (leap_year (Z.of_nat y)); do 13 (destruct m as [|m]; [cbn; lia|]); lia. }
  rewrite print_four, !print_two by lia. rewrite print_zone by lia. unfold stamp_text.
  change (b "-"%string) with [45%N]. change (b "T"%string) with [84%N]. change (b ":"%string) with [58%N].
  change (b ":00"%string) with (58%N :: two 0). cbn [app]. reflexivity.
Qed.
