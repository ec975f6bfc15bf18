(** Model of wizard/mime.c: GetMimeInfo, and how LoadMimeCache reads a magic text.

    The cache is the list of its entries in order.  Texts are given without their
    terminating NUL.  A failed assertion is [Fatal].  The machine is little-endian.
    An entry without a "magic" attribute has a NULL magic of length 0, here the
    empty list.  The extent is what (ssize_t) extent is: with a negative one the
    search makes no turn.  Numbers are 64-bit on the C side; offset + extent + length is
    taken not to exceed that. *)
From Coq Require Import NArith ZArith Bool String Arith List.
From Verif Require Import Base Outcome OptionModel GlobModel.
Import ListNotations.

Inductive data_type := StringData | ByteData | ShortData | LongData.
Inductive endian := UndefinedEndian | LSBEndian | MSBEndian.
(** mime.c:66-104; entries without a (known) data type are treated as strings *)
Record mime := mkMime {
  m_pattern : option (list N); m_type : data_type; m_endian : endian;
  m_offset : Z; m_extent : Z; m_mask : Z; m_value : Z;
  m_magic : list N; m_priority : Z }.

(** mime.c:287, 307, 337: the bytes of a number at [q], lowest or highest first *)
Fixpoint low_first (q : list N) : Z :=
  match q with [] => 0 | c :: q => Z.lor (Z.of_N c) (Z.shiftl (low_first q) 8) end.
Definition number_at (e : endian) (q : list N) : Z :=
  match e with MSBEndian => low_first (rev q) | _ => low_first q end.
(** mime.c:290-299: a number of [n] bytes is compared *)
Definition same_number (n : nat) (e : mime) (magic : list N) : bool :=
  if (Z.of_nat (length magic) <? m_offset e + 4)%Z then false
  else
    let value := number_at (m_endian e) (firstn n (skipn (Z.to_nat (m_offset e)) magic)) in
    if (m_mask e =? 0)%Z then (m_value e =? value)%Z else (Z.land (m_value e) (m_mask e) =? value)%Z.
(** mime.c:357-372: the magic is searched from the offset on *)
Fixpoint search_string (n i : nat) (e : mime) (magic : list N) : bool :=
  match n with
  | O => false
  | S n =>
      if (length magic <? Z.to_nat (m_offset e) + i + length (m_magic e))%nat then false
      else if list_eq_dec N.eq_dec (firstn (length (m_magic e)) (skipn (Z.to_nat (m_offset e) + i) magic)) (m_magic e) then true
      else search_string n (S i) e magic
  end.
(** mime.c:276-373: is this the type? *)
Definition is_type (filename : option (list N)) (magic : list N) (e : mime) : outcome bool :=
  match m_pattern e, filename with
  | Some pattern, Some f => GlobExpression (f ++ [0%N]) (pattern ++ [0%N]) false
  | _, _ =>
      Ok match m_type e with
         | ByteData => same_number 1 e magic
         | ShortData => same_number 2 e magic
         | LongData => same_number 4 e magic
         | StringData => search_string (Z.to_nat (m_extent e + 1)) 0 e magic
         end
  end.
(** mime.c:265-375 *)
Fixpoint search_cache (filename : option (list N)) (magic : list N) (found : option mime) (cache : list mime) : outcome (option mime) :=
  match cache with
  | [] => Ok found
  | e :: cache =>
      if (m_offset e <? 0)%Z then Fatal
      else if match found with Some f => (m_priority f <? m_priority e)%Z | None => false end then search_cache filename magic found cache
      else
        let* yes := is_type filename magic e in
        search_cache filename magic (if yes then Some e else found) cache
  end.
(** mime.c:225-381.  376-378 mean to move the entry found to the front, but p is
    NULL at the end of the loop: NULL is neither found in the list (hashmap.c:1603)
    nor inserted (hashmap.c:1002), so the cache stays as it is. *)
Definition GetMimeInfo (cache : list mime) (filename : option (list N)) (magic : list N) : outcome (option mime) :=
  match magic with
  | [] => Ok (match cache with e :: _ => Some e | [] => None end)
  | _ => search_cache filename magic None cache
  end.

(** ** The text of a magic, mime.c:829-872; the substitutions of 825-827 are those of
    SubstituteString (C54) *)
Definition isdigit (c : N) : bool := (48 <=? c)%N && (c <=? 57)%N.
Definition isoctal (c : N) : bool := (48 <=? c)%N && (c <=? 55)%N.
(** strtol with base 8: the digits and what follows them *)
Fixpoint octal_digits (p : list N) (v : Z) : Z * list N :=
  match p with
  | c :: p' => if isoctal c then octal_digits p' (8 * v + (Z.of_N c - 48))%Z else (v, p)
  | [] => (v, [])
  end.
Definition strtol8 (p : list N) : Z * list N :=
  let '(v, q) := octal_digits p 0 in (Z.min v (2 ^ 63 - 1), q).
(** mime.c:848-860 *)
Definition escape_value (c : N) : N :=
  if (c =? 98)%N then 8%N else if (c =? 102)%N then 12%N else if (c =? 110)%N then 10%N
  else if (c =? 114)%N then 13%N else if (c =? 116)%N then 9%N else if (c =? 118)%N then 11%N
  else if (c =? 97)%N then 97%N else c.
(** [fuel] bounds the turns; a backslash at the end makes the loop step over the
    NUL *)
Fixpoint read_magic (fuel : nat) (p magic : list N) : outcome (list N) :=
  match fuel, p with
  | _, [] => Ok magic
  | O, _ => UB
  | S fuel, c :: p =>
      if (c =? 92)%N then
        match p with
        | [] => UB
        | d :: p' =>
            if isdigit d then
              let '(v, q) := strtol8 p in read_magic fuel q (magic ++ [Z.to_N (v mod 256)])
            else read_magic fuel p' (magic ++ [escape_value d])
        end
      else read_magic fuel p (magic ++ [c])
  end.
Definition magic_of_text (p : list N) : outcome (list N) := read_magic (S (length p)) p [].
