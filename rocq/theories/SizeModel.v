(** Model of the printing and reading of sizes: FormatWizardSize (wizard/string.c:1024-1073), InterpretLocaleValue
    (wizard/locale.c:969-997) with strtod, InterpretSiPrefixValue (wizard/string.c:1418-1477), StringToDoubleInterval
    (wizard/string-private.h:32-45), ListWizardResourceInfo (wizard/resource.c:688-721) and PrintStringInfo
    (wizard/string.c:1712-1737).

    Doubles are rational numbers here: conversions, divisions and products are exact.  (In C they are rounded to 53 bits, so that sizes
    from 2^53 on, and digits after the fifteenth, may differ.)  Texts fit into the buffers, which have 4096 bytes.  Texts that strtod takes
    for hexadecimal numbers, infinities or NaNs are left out: they count as texts that are not numbers. *)
From Coq Require Import Arith NArith ZArith QArith Qround Bool String List.
From Verif Require Import Base Outcome CStringModel OptionModel ScanModel ResourceModel.
Import ListNotations.
Local Open Scope N_scope.

(** * printf's %.*g *)

Definition pow10 (k : nat) : N := 10 ^ N.of_nat k.

(** n/d rounded to an integer, ties to even *)
Definition nearest (n d : N) : N :=
  let q := n / d in
  match 2 * (n mod d) ?= d with Lt => q | Gt => q + 1 | Eq => if N.even q then q else q + 1 end.

(** the digits of n/d in the style of %e with precision p-1, and the exponent; n/d is 0 or at least 1 *)
Definition scientific (p : nat) (n d : N) : N * nat :=
  if n =? 0 then (0, 0%nat)
  else
    let x := (length (decimal (n / d)) - 1)%nat in
    let m := if (x <? p)%nat then nearest (n * pow10 (p - 1 - x)) d else nearest n (d * pow10 (x - (p - 1))) in
    if m =? pow10 p then (pow10 (p - 1), S x) else (m, x).

(** without # the zeros that trail are removed, and then the point *)
Fixpoint trim (l : list N) : list N :=
  match l with
  | [] => []
  | c :: l => match trim l with [] => if c =? 48 then [] else [c] | t => c :: t end
  end.
Definition pad (k : nat) (l : list N) : list N := repeat 48 (k - length l) ++ l.
Definition point (l : list N) : list N := match l with [] => [] | _ => 46 :: l end.
(** m / 10^f *)
Definition fixed (f : nat) (m : N) : list N := decimal (m / pow10 f) ++ point (trim (pad f (decimal (m mod pow10 f)))).

Definition general (p : nat) (n d : N) : list N :=
  let (m, x) := scientific p n d in
  if (x <? p)%nat then fixed (p - 1 - x) m
  else fixed (p - 1) m ++ b "e+" ++ pad 2 (decimal (N.of_nat x)).

(** * FormatWizardSize *)

Definition bi_units : list (list N) := [b ""; b "Ki"; b "Mi"; b "Gi"; b "Ti"; b "Pi"; b "Ei"; b "Zi"; b "Yi"].
Definition traditional_units : list (list N) := [b ""; b "K"; b "M"; b "G"; b "T"; b "P"; b "E"; b "Z"; b "Y"].

(** string.c:1061-1062: [later] are the units after the one in hand, d is bytes^i *)
Fixpoint scale (bytes size : N) (i : nat) (d : N) (later : list (list N)) : nat * N :=
  match later with
  | [] => (i, d)
  | _ :: later => if bytes * d <=? size then scale bytes size (S i) (bytes * d) later else (i, d)
  end.

(** string.c:1064-1070: k turns are left, j is the next *)
Fixpoint attempts (k : nat) (i j : nat) (size d : N) (unit_ text : list N) : list N :=
  match k with
  | O => text
  | S k =>
      let text := general (i + j) size d ++ unit_ ++ b "B" in
      if existsb (N.eqb 43) text then attempts k i (S j) size d unit_ text else text
  end.

Definition FormatWizardSize (bi : bool) (size : N) : list N :=
  let units := if bi then bi_units else traditional_units in
  let bytes := if bi then 1024 else 1000 in
  let (i, d) := scale bytes size 0 1 (List.tl units) in
  attempts 10 i 2 size d (nth i units []) [].

(** * Reading *)

Fixpoint span (l : list N) : list N * list N :=
  match l with
  | c :: r => if isdigit c then let (a, r) := span r in (c :: a, r) else ([], l)
  | [] => ([], [])
  end.

Definition sign (s : list N) : bool * list N :=
  match s with 43 :: r => (false, r) | 45 :: r => (true, r) | _ => (false, s) end.

(** a / 10^f as a rational *)
Definition ratio (a : Z) (f : nat) : Q := Qmake a (Z.to_pos (10 ^ Z.of_nat f)).

(** the exponent after the digits, if there is one: its value and the rest *)
Definition exponent (r : list N) : Z * list N :=
  match r with
  | c :: t =>
      if (c =? 101) || (c =? 69) then                                        (* 'e' 'E' *)
        let (neg, u) := sign t in
        match span u with
        | ([], _) => (0%Z, r)
        | (e, u) => ((if neg : bool then - digits 0 e else digits 0 e)%Z, u)
        end
      else (0%Z, r)
  | [] => (0%Z, [])
  end.

(** strtod: None if nothing was read *)
Definition strtod (s : list N) : option (Q * list N) :=
  let (neg, u) := sign (drop_spaces s) in
  let (a, r) := span u in
  let (f, r) := match r with 46 :: t => let (f, t) := span t in if (match a ++ f with [] => true | _ => false end) then ([], r) else (f, t)
                | _ => ([], r) end in
  match a ++ f with
  | [] => None
  | _ =>
      let (e, r) := exponent r in
      Some (ratio (if neg : bool then - digits 0 (a ++ f) else digits 0 (a ++ f)) (length f) * Qpower (10 # 1) e, r)%Q
  end.

(** locale.c:969-997 *)
Definition InterpretLocaleValue (s : list N) : Q * list N :=
  match strtod s with Some r => r | None => (0%Q, s) end.

Section Si.
(** the double pow(2.0,2.0/0.3), for the prefix hi *)
Variable hecto : Q.

(** string.c:1436-1459 *)
Definition si_exponent (c : N) : Z :=
  if c =? 121 then -24 else if c =? 122 then -21 else if c =? 97 then -18 else if c =? 102 then -15 else if c =? 112 then -12   (* y z a f p *)
  else if c =? 110 then -9 else if c =? 117 then -6 else if c =? 109 then -3 else if c =? 99 then -2 else if c =? 100 then -1  (* n u m c d *)
  else if c =? 104 then 2 else if c =? 107 then 3 else if c =? 75 then 3 else if c =? 77 then 6 else if c =? 71 then 9         (* h k K M G *)
  else if c =? 84 then 12 else if c =? 80 then 15 else if c =? 69 then 18 else if c =? 90 then 21 else if c =? 89 then 24      (* T P E Z Y *)
  else 0.

(** pow(2.0,e/0.3), string.c:1464: an integer power unless e is 2 *)
Definition two_to (e : Z) : Q := if (e =? 2)%Z then hecto else Qpower (2 # 1) (10 * e / 3).

(** string.c:1472-1473 *)
Definition skip_unit (r : list N) : list N :=
  match r with c :: t => if (c =? 66) || (c =? 80) then t else r | [] => [] end.

(** string.c:1418-1477: the value and what *sentinal points to; nothing is skipped if there is no number (q == string) *)
Definition InterpretSiPrefixValue (s : list N) : Q * list N :=
  match strtod s with
  | None => (0%Q, s)
  | Some (v, q) =>
      let (v, q) :=
        match q with
        | c :: t =>
            if (69 <=? c) && (c <=? 122) && (0 <? si_exponent c)%Z           (* e >= WizardEpsilon *)
            then match t with
                 | 105 :: t => (v * two_to (si_exponent c), t)%Q             (* 'i' *)
                 | _ => (v * Qpower (10 # 1) (si_exponent c), t)%Q
                 end
            else (v, q)
        | [] => (v, q)
        end in
      (v, skip_unit q)
  end.

(** string-private.h:32-45 *)
Definition StringToDoubleInterval (s : list N) (interval : Q) : Q :=
  let (v, q) := InterpretSiPrefixValue s in
  match q with 37 :: _ => (v * (interval / (100 # 1)))%Q | _ => v end.       (* '%' *)

(** (size_t) of a double: towards zero; undefined if the integral part is out of range *)
Definition to_size_t (v : Q) : outcome N :=
  if Qle_bool v (-1 # 1) || Qle_bool (inject_Z (2 ^ 64)) v then UB else Ok (Z.to_N (Qfloor v)).

(** encipher.c:285-306, decipher.c:284-305: the chunk size of -chunksize; None if the argument is refused *)
Definition chunk_option (a : list N) : outcome (option N) :=
  match strtod a with
  | None => Ok None
  | Some _ => let* n := to_size_t (StringToDoubleInterval a (100 # 1)) in Ok (Some n)
  end.
End Si.

(** * ListWizardResourceInfo *)

(** %9s and %4g; the numbers of files are integers of at most six digits in the style of %g, others in the style of %e *)
Definition right (w : nat) (l : list N) : list N := repeat 32 (w - length l) ++ l.

(** resource.c:688-721; the arguments are the limits *)
Definition ListWizardResourceInfo (area memory map disk file : N) : list N :=
  let limit := if disk =? ResourceModel.WizardResourceInfinity then b "unlimited" else FormatWizardSize true disk in
  b "File        Area      Memory         Map        Disk" ++ newline
  ++ b "----------------------------------------------------" ++ newline
  ++ right 4 (general 6 file 1) ++ b "   " ++ right 9 (FormatWizardSize false area) ++ b "   " ++ right 9 (FormatWizardSize true memory)
  ++ b "   " ++ right 9 (FormatWizardSize true map) ++ b "   " ++ right 9 limit ++ newline.

(** * PrintStringInfo *)

(** string.c:1721-1727 *)
Definition textual (c : N) : bool := negb ((c <? 32) && negb (isspace c)) && (c <? 128).

Definition hex_digit (c : N) : N := if c <? 10 then 48 + c else 87 + c.
(** %02lx of a byte *)
Definition hex2 (c : N) : list N := [hex_digit (c / 16); hex_digit (c mod 16)].

(** string.c:1712-1737; the length is below 2^53 *)
Definition PrintStringInfo (id datum : list N) : list N :=
  id ++ b "(" ++ decimal (N.of_nat (length datum)) ++ b "):" ++ newline
  ++ (if forallb textual datum then datum else flat_map hex2 datum) ++ newline.
