(** Model of the C string functions of wizard/string.c.

    A C string is a buffer of bytes that holds a zero byte.  [UB]: the code
    would read or write outside a buffer. *)
From Coq Require Import NArith ZArith Arith List Bool.
From Verif Require Import Base Outcome StringInfoModel.
Import ListNotations.

(** *p *)
Definition rd (s : list N) (i : nat) : outcome N := match nth_error s i with Some c => Ok c | None => UB end.
(** strlen *)
Fixpoint strlen (s : list N) : outcome nat :=
  match s with
  | [] => UB
  | c :: s => if N.eqb c 0 then Ok 0 else let* n := strlen s in Ok (S n)
  end.

(** ** CopyWizardString, string.c 762-806 *)

(** [k] times  *q=( *p++); if ( *q == 0) return; q++  from character [i] on; the
    return value if a zero was copied *)
Fixpoint copy_chars (k i : nat) (dst src : list N) : outcome (list N * option nat) :=
  match k with
  | O => Ok (dst, None)
  | S k =>
      let* c := rd src i in
      let* dst := mem_write dst i [c] in
      if N.eqb c 0 then Ok (dst, Some i) else copy_chars k (S i) dst src
  end.
(** 776-794: four characters at a time while n > 4; [i] characters are copied *)
Fixpoint copy_fours (fuel n i : nat) (dst src : list N) : outcome (list N * option nat * (nat * nat)) :=
  match fuel with
  | O => Ok (dst, None, (n, i))
  | S fuel =>
      if 4 <? n then
        let* (dst, r) := copy_chars 4 i dst src in
        match r with
        | Some _ => Ok (dst, r, (n, i))
        | None => copy_fours fuel (n - 4) (i + 4) dst src
        end
      else Ok (dst, None, (n, i))
  end.
(** the buffer and the return value, a size_t: p-source-1 may wrap *)
Definition CopyWizardString (dst src : list N) (length : nat) : outcome (list N * N) :=
  let* (dst, r, (n, i)) := copy_fours length length 0 dst src in
  match r with
  | Some x => Ok (dst, N.of_nat x)
  | None =>
      let* (dst, r) := copy_chars (n - 1) i dst src in
      match r with
      | Some x => Ok (dst, N.of_nat x)
      | None =>
          let i := i + (n - 1) in
          let* dst := (if length =? 0 then Ok dst else mem_write dst i [0%N]) in
          Ok (dst, wsub 64 (N.of_nat i) 1)
      end
  end.

(** ** ConcatenateWizardString, string.c 478-520 *)

(** 498-500: the end of the string in [dst], at most [i] *)
Fixpoint find_end (i q : nat) (dst : list N) : outcome nat :=
  match i with
  | O => Ok q
  | S i => let* c := rd dst q in if N.eqb c 0 then Ok q else find_end i (S q) dst
  end.
(** 504-513; [room] is i, [p] the index into the source *)
Fixpoint append_chars (fuel p q room : nat) (dst src : list N) : outcome (list N * nat * nat) :=
  match fuel with
  | O => UB
  | S fuel =>
      let* c := rd src p in
      if N.eqb c 0 then Ok (dst, p, q)
      else if room =? 1 then append_chars fuel (S p) q room dst src
      else let* dst := mem_write dst q [c] in append_chars fuel (S p) (S q) (room - 1) dst src
  end.
Definition ConcatenateWizardString (dst src : list N) (length : nat) : outcome (list N * N) :=
  let* count := find_end length 0 dst in
  if length - count =? 0 then let* n := strlen src in Ok (dst, N.of_nat (count + n))
  else
    let* (dst, p, q) := append_chars (S (List.length src)) 0 count (length - count) dst src in
    let* dst := mem_write dst q [0%N] in
    Ok (dst, N.of_nat (count + p)).

(** ** LocaleCompare and LocaleNCompare without strcasecmp, string.c 1520-1536 and
    1640-1656 *)

(** string.c 80-104 *)
Definition AsciiMap : list N :=
  [0; 1; 2; 3; 4; 5; 6; 7; 8; 9; 10; 11; 12; 13; 14; 15;
   16; 17; 18; 19; 20; 21; 22; 23; 24; 25; 26; 27; 28; 29; 30; 31;
   32; 33; 34; 35; 36; 37; 38; 39; 40; 41; 42; 43; 44; 45; 46; 47;
   48; 49; 50; 51; 52; 53; 54; 55; 56; 57; 58; 59; 60; 61; 62; 63;
   64; 97; 98; 99; 100; 101; 102; 103; 104; 105; 106; 107; 108; 109; 110; 111;
   112; 113; 114; 115; 116; 117; 118; 119; 120; 121; 122; 91; 92; 93; 94; 95;
   96; 97; 98; 99; 100; 101; 102; 103; 104; 105; 106; 107; 108; 109; 110; 111;
   112; 113; 114; 115; 116; 117; 118; 119; 120; 121; 122; 123; 124; 125; 126; 127;
   128; 129; 130; 131; 132; 133; 134; 135; 136; 137; 138; 139; 140; 141; 142; 143;
   144; 145; 146; 147; 148; 149; 150; 151; 152; 153; 154; 155; 156; 157; 158; 159;
   160; 161; 162; 163; 164; 165; 166; 167; 168; 169; 170; 171; 172; 173; 174; 175;
   176; 177; 178; 179; 180; 181; 182; 183; 184; 185; 186; 187; 188; 189; 190; 191;
   192; 225; 226; 227; 228; 197; 230; 231; 232; 233; 234; 235; 236; 237; 238; 239;
   240; 241; 242; 243; 244; 245; 246; 247; 248; 249; 250; 219; 220; 221; 222; 223;
   224; 225; 226; 227; 228; 229; 230; 231; 232; 233; 234; 235; 236; 237; 238; 239;
   240; 241; 242; 243; 244; 245; 246; 247; 248; 249; 250; 251; 252; 253; 254; 255]%N.
Definition ascii_map (c : N) : Z := Z.of_N (nth (N.to_nat c) AsciiMap 0%N).
Fixpoint LocaleCompare (p q : list N) : outcome Z :=
  match p, q with
  | c :: p, d :: q =>
      if N.eqb c 0 || negb (ascii_map c =? ascii_map d)%Z then Ok (ascii_map c - ascii_map d)%Z else LocaleCompare p q
  | _, _ => UB
  end.
Fixpoint LocaleNCompare (p q : list N) (length : nat) : outcome Z :=
  match length with
  | O => Ok 0%Z
  | S length =>
      match p, q with
      | c :: p, d :: q =>
          if negb (ascii_map c =? ascii_map d)%Z then Ok (ascii_map c - ascii_map d)%Z
          else if N.eqb c 0 then Ok 0%Z
          else LocaleNCompare p q length
      | _, _ => UB
      end
  end.

(** ** hexadecimal, string.c 1338-1389 and 1977-2029 *)
Definition to_hex (v : N) : N := nth (N.to_nat v) [48; 49; 50; 51; 52; 53; 54; 55; 56; 57; 97; 98; 99; 100; 101; 102]%N 0%N.
(** hex_digits, 1357-1378 *)
Definition from_hex (c : N) : N :=
  if ((48 <=? c) && (c <=? 57))%N then c - 48
  else if ((97 <=? c) && (c <=? 102))%N then c - 87
  else if ((65 <=? c) && (c <=? 70))%N then c - 55
  else 0.
(** 2019-2026; the string is allocated with 2*(length+4096) bytes *)
Fixpoint hex_string (s : list N) : list N :=
  match s with
  | [] => [0%N]
  | c :: s => to_hex (N.land (N.shiftr c 4) 15) :: to_hex (N.land c 15) :: hex_string s
  end.
Definition StringInfoToHexString (s : StringInfo) : outcome (list N) :=
  let* x := mem_read (datum s) 0 (slen s) in Ok (hex_string x).
(** 1379-1387 *)
Fixpoint hex_bytes (k : nat) (p : list N) : outcome (list N) :=
  match k with
  | O => Ok []
  | S k =>
      match p with
      | c :: d :: p => let* x := hex_bytes k p in Ok (N.lor (wshl 8 (from_hex c) 4) (from_hex d) :: x)
      | _ => UB
      end
  end.
Definition HexStringToStringInfo (string : list N) : outcome StringInfo :=
  let* n := strlen string in
  let* x := hex_bytes (n / 2) string in
  let* datum := mem_write (datum (AcquireStringInfo (n / 2))) 0 x in
  Ok (mkSI datum (n / 2)).

(** ** StripString, string.c 2233-2262 *)
Definition isspace (c : N) : bool := ((9 <=? c) && (c <=? 13) || (c =? 32))%N.
Definition isquote (c : N) : bool := ((c =? 39) || (c =? 34))%N.
(** 2246-2247 *)
Fixpoint skip_spaces (fuel p : nat) (s : list N) : outcome nat :=
  match fuel with
  | O => UB
  | S fuel => let* c := rd s p in if isspace c then skip_spaces fuel (S p) s else Ok p
  end.
(** 2251-2252; q is at least p-1 *)
Fixpoint back_spaces (fuel p q : nat) (s : list N) : outcome nat :=
  match fuel with
  | O => Ok q
  | S fuel => let* c := rd s q in if isspace c && (p <? q) then back_spaces fuel p (q - 1) s else Ok q
  end.
(** 2258-2260 *)
Fixpoint newlines (s : list N) : list N :=
  match s with
  | [] => []
  | c :: t => if N.eqb c 0 then s else (if N.eqb c 10 then 32%N else c) :: newlines t
  end.
Definition StripString (message : list N) : outcome (list N) :=
  let* c := rd message 0 in
  if N.eqb c 0 then Ok message
  else
    let* length := strlen message in
    let* p := skip_spaces (S length) 0 message in
    let* c := rd message p in
    let p := if isquote c then S p else p in
    let* q := back_spaces length p (length - 1) message in
    let* c := rd message q in
    let q := if p <? q then (if isquote c then q - 1 else q) else q in
    let* x := mem_read message p (S q - p) in
    let* message := mem_write message 0 x in
    let* message := mem_write message (S q - p) [0%N] in
    Ok (newlines message).

(** ** SubstituteString, string.c 2295-2351

    The string is its contents, without the zero.  Growing it is not modelled:
    2322-2334 allocate more than enough.  The position of the first [c] from [p]
    on; the zero at the end is found too *)
Fixpoint strchr (s : list N) (p : nat) (c : N) : option nat :=
  match s with
  | [] => if N.eqb c 0 then Some p else None
  | x :: s => if N.eqb x c then Some p else strchr s (S p) c
  end.
(** the first character of a C string *)
Definition first_char (s : list N) : N := match s with [] => 0%N | c :: _ => c end.
(** 2316-2349; None: more than [fuel] turns *)
Fixpoint substitute_loop (fuel : nat) (p : option nat) (string search replace : list N) (status : bool) : option (bool * list N) :=
  match p with
  | None => Some (status, string)
  | Some p =>
      match fuel with
      | O => None
      | S fuel =>
          if list_eq_dec N.eq_dec (firstn (List.length search) (skipn p string)) search then
            let string := firstn p string ++ replace ++ skipn (p + List.length search) string in
            let p := p + List.length replace in
            substitute_loop fuel (strchr (skipn p string) p (first_char search)) string search replace true
          else substitute_loop fuel (strchr (skipn (S p) string) (S p) (first_char search)) string search replace status
      end
  end.
Definition SubstituteString (fuel : nat) (string search replace : list N) : option (bool * list N) :=
  substitute_loop fuel (strchr string 0 (first_char search)) string search replace false.
