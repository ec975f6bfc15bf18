(** Model of Base64Encode and Base64Decode, wizard/utility.c 136-351. *)
From Coq Require Import NArith ZArith Arith List Bool.
From Verif Require Import Base Outcome CStringModel.
Import ListNotations.

(** utility.c 58-59 *)
Definition Base64 : list N :=
  [65; 66; 67; 68; 69; 70; 71; 72; 73; 74; 75; 76; 77; 78; 79; 80; 81; 82; 83; 84; 85; 86; 87; 88; 89; 90;
   97; 98; 99; 100; 101; 102; 103; 104; 105; 106; 107; 108; 109; 110; 111; 112; 113; 114; 115; 116; 117; 118; 119; 120; 121; 122;
   48; 49; 50; 51; 52; 53; 54; 55; 56; 57; 43; 47]%N.
Definition code (v : N) : N := nth (N.to_nat v) Base64 0%N.

(** ** Base64Encode, 292-351

    The blob is given by its bytes.  4*blob_length is computed without wrapping: the
    blob is in memory.  [put x]: encode[i++]=x, four (or two) at a time *)
Definition quad (a b c : N) : list N :=
  [code (N.shiftr a 2); code (N.shiftl (N.land a 3) 4 + N.shiftr b 4);
   code (N.shiftl (N.land b 15) 2 + N.shiftr c 6); code (N.land c 63)]%N.
(** 317-323 *)
Fixpoint encode_loop (p : list N) (i : nat) (encode : list N) : outcome (list N * list N * nat) :=
  match p with
  | a :: b :: c :: p =>
      let* encode := mem_write encode i (quad a b c) in encode_loop p (i + 4) encode
  | _ => Ok (encode, p, i)
  end.
(** 324-346: code[] is the remaining bytes and zeros *)
Definition encode_rest (p : list N) (i : nat) (encode : list N) : outcome (list N * nat) :=
  match p with
  | [] => Ok (encode, i)
  | a :: p =>
      let b := match p with [] => 0%N | b :: _ => b end in
      let third := match p with [] => 61%N | _ => code (N.shiftl (N.land b 15) 2 + N.shiftr 0 6) end in
      let* encode := mem_write encode i [code (N.shiftr a 2); code (N.shiftl (N.land a 3) 4 + N.shiftr b 4); third; 61%N] in
      Ok (encode, i + 4)
  end.
(** the string and encode_length; [junk] is what the allocation holds *)
Definition Base64Encode (junk : nat -> N) (blob : list N) : outcome (list N * nat) :=
  let quantum := 4 * length blob / 3 + 4 in
  let* (encode, p, i) := encode_loop blob 0 (map junk (seq 0 quantum)) in
  let* (encode, i) := encode_rest p i encode in
  let* encode := mem_write encode i [0%N] in
  Ok (encode, i).

(** ** Base64Decode, 136-260 *)

(** q-Base64 for q=strchr(Base64, *p); *p is not zero *)
Fixpoint index_of (c : N) (t : list N) (i : N) : option N :=
  match t with
  | [] => None
  | x :: t => if N.eqb x c then Some i else index_of c t (i + 1)
  end.
(** decode[i]|=v *)
Definition mem_or (buf : list N) (i : nat) (v : N) : outcome (list N) :=
  let* x := rd buf i in mem_write buf i [N.lor x v].
(** 160-200: None is NULL for a character that is not Base64; else the pointer, i,
    state and decode *)
Fixpoint decode_loop (p : list N) (i : nat) (state : nat) (decode : list N) : outcome (option (list N * nat * nat * list N)) :=
  match p with
  | [] => UB
  | c :: t =>
      if N.eqb c 0 then Ok (Some (p, i, state, decode))
      else if isspace c then decode_loop t i state decode
      else if N.eqb c 61 then Ok (Some (p, i, state, decode))
      else
        match index_of c Base64 0 with
        | None => Ok None
        | Some v =>
            match state with
            | 0 =>
                let* decode := mem_write decode i [wshl 8 v 2] in decode_loop t i 1 decode
            | 1 =>
                let* decode := mem_or decode i (N.shiftr v 4) in
                let* decode := mem_write decode (i + 1) [wshl 8 (N.land v 15) 4] in decode_loop t (i + 1) 2 decode
            | 2 =>
                let* decode := mem_or decode i (N.shiftr v 2) in
                let* decode := mem_write decode (i + 1) [wshl 8 (N.land v 3) 6] in decode_loop t (i + 1) 3 decode
            | _ =>
                let* decode := mem_or decode i v in decode_loop t (i + 1) 0 decode
            end
        end
  end.
(** 226-229, 238-243: skip white space *)
Fixpoint skip_space (p : list N) : outcome (list N) :=
  match p with
  | [] => UB
  | c :: t => if N.eqb c 0 then Ok p else if isspace c then skip_space t else Ok p
  end.
(** 238-249: true if the text ends and the last bits are zero *)
Definition decode_tail (p : list N) (i : nat) (decode : list N) : outcome bool :=
  let* p := skip_space p in
  let* c := rd p 0 in
  if negb (N.eqb c 0) then Ok false else let* x := rd decode i in Ok (N.eqb x 0).
(** 201-253: decode and *length, or NULL *)
Definition decode_end (r : option (list N * nat * nat * list N)) : outcome (option (list N * nat)) :=
  match r with
  | None => Ok None
  | Some (p, i, state, decode) =>
      let* c := rd p 0 in
      if negb (N.eqb c 61) then (if state =? 0 then Ok (Some (decode, i)) else Ok None)
      else
        let p := tl p in
        match state with
        | 0 | 1 => Ok None
        | 2 =>
            let* p := skip_space p in
            let* c := rd p 0 in
            if negb (N.eqb c 61) then Ok None
            else let* b := decode_tail (tl p) i decode in Ok (if b then Some (decode, i) else None)
        | _ => let* b := decode_tail p i decode in Ok (if b then Some (decode, i) else None)
        end
  end.
(** an allocation of no bytes is NULL *)
Definition Base64Decode (junk : nat -> N) (source : list N) : outcome (option (list N * nat)) :=
  let* n := strlen source in
  if (n + 3) / 4 =? 0 then Ok None
  else let* r := decode_loop source 0 0 (map junk (seq 0 ((n + 3) / 4 * 3))) in decode_end r.
