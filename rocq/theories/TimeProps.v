(** Timestamps (C105, C106). *)
From Coq Require Import NArith ZArith Bool Lia ZifyBool ZifyNat ZifyN Arith List.
From Verif Require Import Base ScanModel TimeModel TimeSpec TimeProof.
Import ListNotations.
Local Open Scope Z_scope.
Ltac Zify.zify_post_hook ::= Z.to_euclidean_division_equations.

(** A text denotes at most one instant. *)
Lemma digit_inj m n : digit m = digit n -> m = n.
Proof. unfold digit. lia. Qed.
Lemma cons_inv (A : Type) (x y : A) l l' : x :: l = y :: l' -> x = y /\ l = l'.
Proof. intros E. split; [exact (f_equal (hd x) E)|exact (f_equal (@tl A) E)]. Qed.
Lemma two_inj m n l l' : (m <= 99)%nat -> (n <= 99)%nat -> two m ++ l = two n ++ l' -> m = n /\ l = l'.
Proof.
  unfold two. cbn [app]. intros H H' E. apply cons_inv in E. destruct E as (A & E). apply cons_inv in E. destruct E as (B & E).
  apply digit_inj in A. apply digit_inj in B. split; [clear - H H' A B; lia|exact E].
Qed.
Lemma good_date_small y m d : good_date y m d -> (m <= 12)%nat /\ (d <= 31)%nat.
Proof.
  intros (M & D1 & D). split; [lia|]. revert D. unfold month_days.
  destruct (leap_year (Z.of_nat y)); do 13 (destruct m as [|m]; [cbn; lia|]); lia.
Qed.
Lemma denotes_one s t t' : Denotes s t -> Denotes s t' -> t = t'.
Proof.
  intros D D'. destruct D as [y m d h mi sec mn oh om Y G H Mi S Oh Om].
  match type of D' with Denotes ?x _ => remember x as text eqn:E end.
  destruct D' as [y' m' d' h' mi' sec' mn' oh' om' Y' G' H' Mi' S' Oh' Om'].
  apply good_date_small in G. apply good_date_small in G'. destruct G as (M & Dd). destruct G' as (M' & Dd').
  unfold four in E. rewrite <- !app_assoc in E. cbn [app] in E.
  apply two_inj in E; [|lia|lia]. destruct E as (Ec & E). apply two_inj in E; [|lia|lia]. destruct E as (Ey & E).
  apply cons_inv in E. destruct E as (_ & E). apply two_inj in E; [|lia|lia]. destruct E as (Em & E).
  apply cons_inv in E. destruct E as (_ & E). apply two_inj in E; [|lia|lia]. destruct E as (Ed & E).
  apply cons_inv in E. destruct E as (_ & E). apply two_inj in E; [|lia|lia]. destruct E as (Eh & E).
  apply cons_inv in E. destruct E as (_ & E). apply two_inj in E; [|lia|lia]. destruct E as (Emi & E).
  apply cons_inv in E. destruct E as (_ & E). apply two_inj in E; [|lia|lia]. destruct E as (Es & E).
  apply cons_inv in E. destruct E as (Eo & E). apply two_inj in E; [|lia|lia]. destruct E as (Eoh & E).
  apply cons_inv in E. destruct E as (_ & E). rewrite <- (app_nil_r (two om)), <- (app_nil_r (two om')) in E.
  apply two_inj in E; [|lia|lia]. destruct E as (Eom & _). assert (y' = y) by (clear - Ec Ey; lia). subst.
  replace mn' with mn; [reflexivity|]. clear - Eo. destruct mn, mn'; congruence.
Qed.

(** C105: where the zone is a whole number of hours off, the text denotes the
    time.  Otherwise it never does: the minutes of the offset are printed as 00. *)
Theorem format_denotes : forall z t k,
  off z t = 3600 * k -> -23 <= k <= 23 -> 0 <= tm_year (localtime z t) + 1900 <= 9999 ->
  Denotes (FormatWizardTime z t) t.
Proof.
  intros z t k O K Y. destruct (format_text z t ltac:(lia) Y) as (y & m & d & h & mi & s & G & Y9 & H & Mi & S & F). cbv zeta in F.
  destruct F as (_ & _ & _ & _ & _ & _ & I & ->). rewrite O in *.
  replace ((t + 3600 * k) / 3600 - t / 3600) with k by lia.
  pose proof (denotes y m d h mi s (k <? 0) (Z.abs_nat k) 0 Y9 G H Mi S ltac:(lia) ltac:(lia)) as D.
  rewrite I in D. unfold stamp_text. destruct (Z.ltb_spec k 0).
  - replace (t + 3600 * k - _) with t in D by lia. exact D.
  - replace (t + 3600 * k - _) with t in D by lia. exact D.
Qed.
Print Assumptions format_denotes.

Theorem format_odd_zone_refuted : forall z t,
  off z t mod 3600 <> 0 -> -79200 <= off z t <= 79200 -> 0 <= tm_year (localtime z t) + 1900 <= 9999 ->
  Denotes (FormatWizardTime z t) (t + off z t - 3600 * ((t + off z t) / 3600 - t / 3600)) /\
  ~ Denotes (FormatWizardTime z t) t.
Proof.
  intros z t O K Y. destruct (format_text z t ltac:(lia) Y) as (y & m & d & h & mi & s & G & Y9 & H & Mi & S & F). cbv zeta in F.
  destruct F as (_ & _ & _ & _ & _ & _ & I & E).
  set (k := (t + off z t) / 3600 - t / 3600) in *.
  assert (Kk : -23 <= k <= 23 /\ off z t <> 3600 * k) by (subst k; lia). clearbody k.
  assert (D : Denotes (FormatWizardTime z t) (t + off z t - 3600 * k)).
  { rewrite E. pose proof (denotes y m d h mi s (k <? 0) (Z.abs_nat k) 0 Y9 G H Mi S ltac:(lia) ltac:(lia)) as D.
    rewrite I in D. unfold stamp_text. clear - D. destruct (Z.ltb_spec k 0).
    - replace (t + off z t - _) with (t + off z t - 3600 * k) in D by lia. exact D.
    - replace (t + off z t - _) with (t + off z t - 3600 * k) in D by lia. exact D. }
  split; [exact D|]. intros X. pose proof (denotes_one _ _ _ D X). lia.
Qed.
Print Assumptions format_odd_zone_refuted.

(** ** Reading *)
Lemma number_two n : (n <= 99)%nat -> number (two n) = Z.of_nat n.
Proof. intros H. unfold number, two, digit. cbn [fold_left]. lia. Qed.
Lemma number_four n : Z.of_nat n <= 9999 -> number (four n) = Z.of_nat n.
Proof. intros H. unfold number, four, two, digit. cbn [fold_left app]. lia. Qed.
Lemma two_digits n : (n <= 99)%nat -> Forall (fun c => (48 <= c <= 57)%N) (two n).
Proof. intros H. unfold two, digit. repeat constructor; lia. Qed.
Lemma read_two strtod n rest : reads_numbers strtod -> (n <= 99)%nat ->
  match rest with [] => True | c :: _ => In c [45; 84; 58; 43]%N end ->
  strtod (two n ++ rest) = (Z.of_nat n, rest).
Proof.
  intros R H S. rewrite <- (number_two n H). apply R; [discriminate|cbn; lia|now apply two_digits|exact S].
Qed.
Lemma read_four strtod n rest : reads_numbers strtod -> Z.of_nat n <= 9999 ->
  match rest with [] => True | c :: _ => In c [45; 84; 58; 43]%N end ->
  strtod (four n ++ rest) = (Z.of_nat n, rest).
Proof.
  intros R H S. rewrite <- (number_four n H). apply R; [discriminate|cbn; lia| |exact S].
  unfold four. apply Forall_app. split; apply two_digits; lia.
Qed.

Lemma timegm_local t : timegm (mkTm (tm_year (gmtime t)) (tm_mon (gmtime t)) (tm_mday (gmtime t)) (tm_hour (gmtime t))
  (tm_min (gmtime t)) (tm_sec (gmtime t)) 0) = t.
Proof.
  destruct (gmtime_date t) as (m & d & E). cbv zeta in E. destruct E as (Em & Ed & M & D & Dm & S & _).
  destruct (gmtime_clock t) as (_ & _ & _ & T). unfold timegm. cbn [tm_year tm_mon tm_mday tm_hour tm_min tm_sec].
  rewrite before_month_ok in S by lia. replace (m - 1 =? 12)%nat with false in S by (symmetry; apply Nat.eqb_neq; lia).
  replace (tm_mon (gmtime t) / 12) with 0 by lia. replace (tm_mon (gmtime t) mod 12) with (Z.of_nat (m - 1)) by lia.
  rewrite Z.add_0_r. rewrite Ed. lia.
Qed.

(** What comes back, west of Greenwich: all of the text is read; *)
Theorem parse_west : forall strtod z t now k,
  reads_numbers strtod -> off z t = 3600 * k -> -23 <= k < 0 ->
  off z now mod 3600 = 0 -> -82800 <= off z now <= 82800 -> 0 <= tm_year (localtime z t) + 1900 <= 9999 ->
  ParseWizardTime strtod z now (FormatWizardTime z t) = (t + 2 * off z t - std z - off z now, []).
Proof.
  intros strtod z t now k R O K On Kn Y.
  destruct (format_text z t ltac:(lia) Y) as (y & m & d & h & mi & s & G & Y9 & H & Mi & S & F). cbv zeta in F.
  destruct F as (Ey & Em & Ed & Eh & Emi & Es & I & ->). apply good_date_small in G.
  unfold ParseWizardTime, localtime. rewrite zone_hours_ok by lia.
  replace ((now + off z now) / 3600 - now / 3600) with (off z now / 3600) by lia.
  rewrite O in *. replace ((t + 3600 * k) / 3600 - t / 3600) with k by lia.
  unfold stamp_text, separators. replace (k <? 0) with true by lia. cbn [parse_loop].
  rewrite read_four by (try exact R; try exact Y9; cbn; tauto). cbn [head same_char N.eqb Pos.eqb negb set_field tm_year tm_mon tm_mday tm_hour tm_min tm_sec tm_yday].
  do 6 (rewrite read_two by (try exact R; try lia; cbn; tauto);
    cbn [head same_char N.eqb Pos.eqb negb set_field tm_year tm_mon tm_mday tm_hour tm_min tm_sec tm_yday]).
  replace (two 0) with (two 0 ++ []) by apply app_nil_r. rewrite read_two by (try exact R; try lia; cbn; tauto).
  cbn [head same_char negb set_field]. unfold mktime.
  replace (Z.of_nat y - 1900) with (tm_year (gmtime (t + 3600 * k))) by lia.
  replace (Z.of_nat m - 1) with (tm_mon (gmtime (t + 3600 * k))) by lia. rewrite <- Ed, <- Eh, <- Emi, <- Es.
  rewrite timegm_local. f_equal. lia.
Qed.
Print Assumptions parse_west.

(** at Greenwich and east of it, reading stops at the '+': the seconds are lost,
    the offset is taken off once more, and the caller reports a bad timestamp. *)
Theorem parse_east : forall strtod z t now k,
  reads_numbers strtod -> off z t = 3600 * k -> 0 <= k <= 23 ->
  off z now mod 3600 = 0 -> -82800 <= off z now <= 82800 -> 0 <= tm_year (localtime z t) + 1900 <= 9999 ->
  let '(t', rest) := ParseWizardTime strtod z now (FormatWizardTime z t) in
  t' = t - t mod 60 + off z t - std z - off z now /\ rest <> [].
Proof.
  intros strtod z t now k R O K On Kn Y.
  destruct (format_text z t ltac:(lia) Y) as (y & m & d & h & mi & s & G & Y9 & H & Mi & S & F). cbv zeta in F.
  destruct F as (Ey & Em & Ed & Eh & Emi & Es & I & ->). apply good_date_small in G.
  unfold ParseWizardTime, localtime. rewrite zone_hours_ok by lia.
  replace ((now + off z now) / 3600 - now / 3600) with (off z now / 3600) by lia.
  rewrite O in *. replace ((t + 3600 * k) / 3600 - t / 3600) with k by lia.
  unfold stamp_text, separators. replace (k <? 0) with false by lia. cbn [parse_loop].
  rewrite read_four by (try exact R; try exact Y9; cbn; tauto). cbn [head same_char N.eqb Pos.eqb negb set_field tm_year tm_mon tm_mday tm_hour tm_min tm_sec tm_yday].
  do 5 (rewrite read_two by (try exact R; try lia; cbn; tauto);
    cbn [head same_char N.eqb Pos.eqb negb set_field tm_year tm_mon tm_mday tm_hour tm_min tm_sec tm_yday]).
  unfold mktime.
  split; [|discriminate].
  replace (Z.of_nat y - 1900) with (tm_year (gmtime (t + 3600 * k))) by lia.
  replace (Z.of_nat m - 1) with (tm_mon (gmtime (t + 3600 * k))) by lia. rewrite <- Ed, <- Eh, <- Emi.
  pose proof (timegm_local (t + 3600 * k)) as T. revert T. unfold timegm. cbn [tm_year tm_mon tm_mday tm_hour tm_min tm_sec].
  intros T. assert (Sec : tm_sec (gmtime (t + 3600 * k)) = t mod 60) by (unfold gmtime; cbn [tm_sec]; lia).
  rewrite Sec in T. lia.
Qed.
Print Assumptions parse_east.

(** C106: the time comes back in a zone west of Greenwich without summer time,
    and in no other: at Greenwich and east of it, and around summer time. *)
Theorem parse_format : forall strtod z t now k,
  reads_numbers strtod -> -23 <= k < 0 -> std z = 3600 * k -> off z t = std z -> off z now = std z ->
  0 <= tm_year (localtime z t) + 1900 <= 9999 ->
  ParseWizardTime strtod z now (FormatWizardTime z t) = (t, []).
Proof.
  intros strtod z t now k R K S O On Y. rewrite parse_west with (k := k); try assumption; try lia. f_equal. lia.
Qed.
Print Assumptions parse_format.

Theorem parse_format_refuted : forall strtod z t now k,
  reads_numbers strtod -> off z t = 3600 * k -> 0 <= k <= 23 -> off z now = off z t -> std z = off z t ->
  0 <= tm_year (localtime z t) + 1900 <= 9999 ->
  k <> 0 \/ t mod 60 <> 0 ->
  forall rest, ParseWizardTime strtod z now (FormatWizardTime z t) <> (t, rest).
Proof.
  intros strtod z t now k R O K On S Y D rest E.
  pose proof (parse_east strtod z t now k R O K ltac:(lia) ltac:(lia) Y) as P. rewrite E in P. lia.
Qed.
Print Assumptions parse_format_refuted.

Theorem parse_summer_refuted : forall strtod z t now k,
  reads_numbers strtod -> -23 <= k < -1 -> std z = 3600 * k ->
  off z t = std z + 3600 -> (off z now = std z \/ off z now = std z + 3600) ->
  0 <= tm_year (localtime z t) + 1900 <= 9999 ->
  exists d, (d = 3600 \/ d = 7200) /\ ParseWizardTime strtod z now (FormatWizardTime z t) = (t + d, []).
Proof.
  intros strtod z t now k R K S O On Y. exists (2 * (off z t) - std z - off z now).
  split; [lia|]. rewrite parse_west with (k := k + 1); try assumption; try lia. f_equal. lia.
Qed.
Print Assumptions parse_summer_refuted.

(** ** Examples *)
(** A strtod that reads digits meets the condition. *)
Fixpoint read_digits (n : Z) (s : list N) : Z * list N :=
  match s with
  | c :: s' => if ((48 <=? c) && (c <=? 57))%N then read_digits (10 * n + (Z.of_N c - 48)) s' else (n, s)
  | [] => (n, [])
  end.
Example read_digits_ok : reads_numbers (read_digits 0).
Proof.
  intros d rest Ne L D S. clear Ne L. unfold number. generalize 0. induction D as [|c d C D IH]; intros n; cbn [app fold_left].
  - destruct rest as [|c rest]; [reflexivity|]. cbn [read_digits]. cbn in S.
    destruct ((48 <=? c) && (c <=? 57))%N eqn:E; [lia|reflexivity].
  - cbn [read_digits]. replace ((48 <=? c) && (c <=? 57))%N with true by lia. apply IH.
Qed.
(** 2026-11-15T12:08:37 in UTC *)
Definition t0 : Z := 1794744517.
Definition utc := mkZone 0 (fun _ => 0).
Definition new_york := mkZone (-18000) (fun t => if t <? 1793512800 then -14400 else -18000).
Definition delhi := mkZone 19800 (fun _ => 19800).
Example stamp_utc : FormatWizardTime utc t0 = map N.of_nat [50;48;50;54;45;49;49;45;49;53;84;49;50;58;48;56;58;51;55;43;48;48;58;48;48]%nat.
Proof. vm_compute. reflexivity. Qed.
Example stamp_new_york : Denotes (FormatWizardTime new_york t0) t0.
Proof. apply format_denotes with (k := -5); vm_compute; intuition discriminate. Qed.
Example back_utc : fst (ParseWizardTime (read_digits 0) utc t0 (FormatWizardTime utc t0)) = t0 - 37.
Proof. vm_compute. reflexivity. Qed.
Example back_new_york : ParseWizardTime (read_digits 0) new_york t0 (FormatWizardTime new_york t0) = (t0, []).
Proof. vm_compute. reflexivity. Qed.
(** in July, read in November *)
Example back_new_york_july : ParseWizardTime (read_digits 0) new_york t0 (FormatWizardTime new_york (t0 - 10000000)) = (t0 - 10000000 + 7200, []).
Proof. vm_compute. reflexivity. Qed.
Example stamp_delhi : ~ Denotes (FormatWizardTime delhi t0) t0.
Proof. apply format_odd_zone_refuted; vm_compute; intuition discriminate. Qed.
