(** Model of FormatWizardTime (wizard/string.c:1105-1151) and ParseWizardTime
    (wizard/utility.c:951-1017), by which the dates of an enciphered file are
    written into its header and read back (utilities/content.c:422, 510, 552,
    635, 665, 667).

    Strings are given without their terminating NUL.  Numbers are integers; the
    range of int and time_t is not modelled, the theorems are about years 0 to
    9999.  The C library is modelled by the proleptic Gregorian calendar without
    leap seconds: [gmtime] and [timegm] below.  A time zone is its standard
    offset and the offset in force at each instant, in seconds.  strtod is an
    argument; it gives the value v as (int) (v+0.5), the only use made of it.
    The buffer is taken to be long enough for the text (25 bytes; the callers
    pass 4096). *)
From Coq Require Import NArith ZArith Bool String List.
From Verif Require Import Base OptionModel ScanModel.
Import ListNotations.
Local Open Scope Z_scope.

(** ** The calendar of the C library *)
Record tm := mkTm { tm_year : Z; tm_mon : Z; tm_mday : Z; tm_hour : Z; tm_min : Z; tm_sec : Z; tm_yday : Z }.

Definition leap (y : Z) : bool := (y mod 4 =? 0) && (negb (y mod 100 =? 0) || (y mod 400 =? 0)).
(** days from 1970-01-01 to the first of January of year y *)
Definition jan1 (y : Z) : Z := 365 * (y - 1970) + (y - 1) / 4 - (y - 1) / 100 + (y - 1) / 400 - 477.
(** days of the year before the first of month m, m = 0 for January *)
Definition before_month (l : bool) (m : Z) : Z :=
  (if m <=? 0 then 0 else if m <=? 1 then 31 else if m <=? 2 then 59 else if m <=? 3 then 90
   else if m <=? 4 then 120 else if m <=? 5 then 151 else if m <=? 6 then 181 else if m <=? 7 then 212
   else if m <=? 8 then 243 else if m <=? 9 then 273 else if m <=? 10 then 304 else 334) +
  (if l && (2 <=? m) then 1 else 0).
Definition month_of (l : bool) (yday : Z) : Z :=
  if yday <? before_month l 1 then 0 else if yday <? before_month l 2 then 1
  else if yday <? before_month l 3 then 2 else if yday <? before_month l 4 then 3
  else if yday <? before_month l 5 then 4 else if yday <? before_month l 6 then 5
  else if yday <? before_month l 7 then 6 else if yday <? before_month l 8 then 7
  else if yday <? before_month l 9 then 8 else if yday <? before_month l 10 then 9
  else if yday <? before_month l 11 then 10 else 11.
Definition year_of (days : Z) : Z :=
  let y := 1970 + days * 400 / 146097 in
  if days <? jan1 y then y - 1 else if days <? jan1 (y + 1) then y else y + 1.
Definition gmtime (t : Z) : tm :=
  let days := t / 86400 in
  let s := t mod 86400 in
  let y := year_of days in
  let yday := days - jan1 y in
  let m := month_of (leap y) yday in
  mkTm (y - 1900) m (yday - before_month (leap y) m + 1) (s / 3600) (s mod 3600 / 60) (s mod 60) yday.
Definition timegm (b : tm) : Z :=
  let y := tm_year b + 1900 + tm_mon b / 12 in
  86400 * (jan1 y + before_month (leap y) (tm_mon b mod 12) + tm_mday b - 1) +
  3600 * tm_hour b + 60 * tm_min b + tm_sec b.

Record zone := mkZone { std : Z; off : Z -> Z }.
Definition localtime (z : zone) (t : Z) : tm := gmtime (t + off z t).
(** The fields come with tm_isdst = 0 (utility.c:990): standard time. *)
Definition mktime (z : zone) (b : tm) : Z := timegm b - std z.

(** ** FormatWizardTime *)
(** string.c:1140-1143 and utility.c:986-989; the division is that of C *)
Definition zone_hours (l g : tm) : Z :=
  Z.quot (tm_min l - tm_min g) 60 + tm_hour l - tm_hour g +
  24 * (if negb (tm_year l - tm_year g =? 0) then tm_year l - tm_year g else tm_yday l - tm_yday g).

(** printf with flag 0 and a width *)
Definition zeros (w : nat) (d : list N) : list N := repeat 48%N (w - length d) ++ d.
(** %0wd *)
Definition print_d (w : nat) (n : Z) : list N :=
  if n <? 0 then 45%N :: zeros (w - 1) (decimal (Z.to_N (- n))) else zeros w (decimal (Z.to_N n)).
(** %+0wld *)
Definition print_signed (w : nat) (n : Z) : list N :=
  if n <? 0 then 45%N :: zeros (w - 1) (decimal (Z.to_N (- n)))
  else 43%N :: zeros (w - 1) (decimal (Z.to_N n)).

(** string.c:1117-1149 *)
Definition FormatWizardTime (z : zone) (time : Z) : list N :=
  let local_time := localtime z time in
  let gm_time := gmtime time in
  let timezone := zone_hours local_time gm_time in
  print_d 4 (tm_year local_time + 1900) ++ b "-" ++ print_d 2 (tm_mon local_time + 1) ++ b "-" ++
  print_d 2 (tm_mday local_time) ++ b "T" ++ print_d 2 (tm_hour local_time) ++ b ":" ++
  print_d 2 (tm_min local_time) ++ b ":" ++ print_d 2 (tm_sec local_time) ++
  print_signed 3 timezone ++ b ":00".

(** ** ParseWizardTime *)
(** utility.c:969-970, with the terminating NUL *)
Definition separators : list (option N) :=
  [Some 45; Some 45; Some 84; Some 58; Some 58; Some 45; Some 58; None]%N.

(** utility.c:997-1007 *)
Definition set_field (i : nat) (v : Z) (f : tm) (timezone : Z) : tm * Z :=
  match i with
  | 0%nat => (mkTm (v - 1900) (tm_mon f) (tm_mday f) (tm_hour f) (tm_min f) (tm_sec f) (tm_yday f), timezone)
  | 1%nat => (mkTm (tm_year f) (v - 1) (tm_mday f) (tm_hour f) (tm_min f) (tm_sec f) (tm_yday f), timezone)
  | 2%nat => (mkTm (tm_year f) (tm_mon f) v (tm_hour f) (tm_min f) (tm_sec f) (tm_yday f), timezone)
  | 3%nat => (mkTm (tm_year f) (tm_mon f) (tm_mday f) v (tm_min f) (tm_sec f) (tm_yday f), timezone)
  | 4%nat => (mkTm (tm_year f) (tm_mon f) (tm_mday f) (tm_hour f) v (tm_sec f) (tm_yday f), timezone)
  | 5%nat => (mkTm (tm_year f) (tm_mon f) (tm_mday f) (tm_hour f) (tm_min f) v (tm_yday f), timezone)
  | 6%nat => (f, timezone + v)
  | _ => (f, timezone)
  end.

Definition head (s : list N) : option N := match s with c :: _ => Some c | [] => None end.
Definition same_char (x y : option N) : bool :=
  match x, y with Some x, Some y => (x =? y)%N | None, None => true | _, _ => false end.

(** utility.c:991-1012; one separator per turn, and behind the last, the NUL,
    the loop has ended *)
Fixpoint parse_loop (strtod : list N -> Z * list N) (seps : list (option N)) (i : nat)
    (f : tm) (timezone : Z) (p : list N) : tm * Z * list N :=
  match seps with
  | [] => (f, timezone, p)
  | sep :: seps =>
      let '(value, q) := strtod p in
      if negb (same_char (head q) sep) then (f, timezone, p)
      else
        let '(f, timezone) := set_field i value f timezone in
        match q with
        | [] => (f, timezone, q)
        | _ :: p => parse_loop strtod seps (S i) f timezone p
        end
  end.

(** utility.c:976-1014: the time and the rest of the text *)
Definition ParseWizardTime (strtod : list N -> Z * list N) (z : zone) (now : Z) (timestamp : list N) : Z * list N :=
  let timezone := zone_hours (localtime z now) (gmtime now) in
  let '(f, timezone, p) := parse_loop strtod separators 0 (mkTm 0 0 0 0 0 0 0) timezone timestamp in
  (mktime z f - 3600 * timezone, p).
