(** What a timestamp means (RFC 3339): the calendar counted year by year and
    month by month, the text with its offset from UTC. *)
From Coq Require Import NArith ZArith Bool List.
Import ListNotations.
Local Open Scope Z_scope.

Definition leap_year (y : Z) : bool :=
  if y mod 400 =? 0 then true else if y mod 100 =? 0 then false else y mod 4 =? 0.
Definition year_days (y : Z) : Z := if leap_year y then 366 else 365.
Definition month_days (y : Z) : list Z :=
  [31; if leap_year y then 29 else 28; 31; 30; 31; 30; 31; 31; 30; 31; 30; 31].

(** days from the first of January of year 0 to that of year n *)
Fixpoint years_before (n : nat) : Z :=
  match n with O => 0 | S n => years_before n + year_days (Z.of_nat n) end.
Fixpoint sum (l : list Z) : Z := match l with [] => 0 | x :: l => x + sum l end.
Definition date_number (y m d : nat) : Z :=
  years_before y + sum (firstn (m - 1) (month_days (Z.of_nat y))) + Z.of_nat d - 1.

Definition good_date (y m d : nat) : Prop :=
  (1 <= m <= 12)%nat /\ (1 <= d)%nat /\ Z.of_nat d <= nth (m - 1) (month_days (Z.of_nat y)) 0.

(** seconds since 1970-01-01T00:00:00Z *)
Definition instant (y m d h mi s : nat) (offset : Z) : Z :=
  86400 * (date_number y m d - date_number 1970 1 1) + 3600 * Z.of_nat h + 60 * Z.of_nat mi + Z.of_nat s - offset.

Definition digit (n : nat) : N := N.of_nat (48 + n).
Definition two (n : nat) : list N := [digit (n / 10); digit (n mod 10)].
Definition four (n : nat) : list N := two (n / 100) ++ two (n mod 100).

(** date-time of RFC 3339; '-' is 45, 'T' 84, ':' 58, '+' 43 *)
Inductive Denotes : list N -> Z -> Prop :=
| denotes y m d h mi s (minus : bool) oh om :
    Z.of_nat y <= 9999 -> good_date y m d -> (h <= 23)%nat -> (mi <= 59)%nat -> (s <= 59)%nat ->
    (oh <= 23)%nat -> (om <= 59)%nat ->
    Denotes
      (four y ++ [45%N] ++ two m ++ [45%N] ++ two d ++ [84%N] ++ two h ++ [58%N] ++ two mi ++ [58%N] ++ two s ++
       [if minus then 45%N else 43%N] ++ two oh ++ [58%N] ++ two om)
      (instant y m d h mi s ((if minus then -1 else 1) * (3600 * Z.of_nat oh + 60 * Z.of_nat om))).

(** What strtod makes of a decimal number that ends at a separator. *)
Definition number (d : list N) : Z := fold_left (fun n c => 10 * n + (Z.of_N c - 48)) d 0.
Definition reads_numbers (strtod : list N -> Z * list N) : Prop :=
  forall d rest, d <> [] -> (length d <= 4)%nat -> Forall (fun c => (48 <= c <= 57)%N) d ->
    match rest with [] => True | c :: _ => In c [45; 84; 58; 43]%N end ->
    strtod (d ++ rest) = (number d, rest).
