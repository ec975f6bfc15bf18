(** What texts, references and trees should be, independently of the code. *)
From Coq Require Import Arith NArith Bool List.
Import ListNotations.

(** UTF-8 (RFC 3629, section 3): the code points of a byte string *)
Definition cont (c : N) : bool := ((128 <=? c) && (c <? 192))%N.
Fixpoint code_points (fuel : nat) (s : list N) : option (list N) :=
  match fuel, s with
  | _, [] => Some []
  | O, _ => None
  | S fuel, c :: s =>
      let more n v := option_map (cons v) (code_points fuel (skipn n s)) in
      if (c <? 128)%N then more 0 c
      else match s with
           | x :: y :: z :: _ =>
               if ((194 <=? c) && (c <? 224) && cont x)%N then more 1 ((c - 192) * 64 + (x - 128))%N
               else if ((224 <=? c) && (c <? 240) && cont x && cont y)%N
               then more 2 ((c - 224) * 4096 + (x - 128) * 64 + (y - 128))%N
               else if ((240 <=? c) && (c <? 245) && cont x && cont y && cont z)%N
               then more 3 ((c - 240) * 262144 + (x - 128) * 4096 + (y - 128) * 64 + (z - 128))%N
               else None
           | [x; y] =>
               if ((194 <=? c) && (c <? 224) && cont x)%N then more 1 ((c - 192) * 64 + (x - 128))%N
               else if ((224 <=? c) && (c <? 240) && cont x && cont y)%N
               then more 2 ((c - 224) * 4096 + (x - 128) * 64 + (y - 128))%N
               else None
           | [x] => if ((194 <=? c) && (c <? 224) && cont x)%N then more 1 ((c - 192) * 64 + (x - 128))%N else None
           | [] => None
           end
  end.
(** [s] is the UTF-8 form of the characters [l] *)
Definition utf8_text (s l : list N) : Prop := code_points (length s) s = Some l.

(** Latin-1 characters XML 1.0 allows (section 2.2) *)
Definition xml_char (c : N) : Prop := (c = 9 \/ c = 10 \/ c = 13 \/ 32 <= c < 256)%N.

(** numerals with the digits 0-9, a-f, A-F *)
Definition digit (base c : N) : option N :=
  let d := if ((48 <=? c) && (c <=? 57))%N then Some (c - 48)%N
           else if ((97 <=? c) && (c <=? 102))%N then Some (c - 97 + 10)%N
           else if ((65 <=? c) && (c <=? 70))%N then Some (c - 65 + 10)%N else None in
  match d with Some d => if (d <? base)%N then Some d else None | None => None end.
Fixpoint numeral (base n : N) (l : list N) : option N :=
  match l with
  | [] => Some n
  | c :: l => match digit base c with Some d => numeral base (n * base + d)%N l | None => None end
  end.
(** XML 1.0, 4.1: [s] is a reference to the character [c]: '&#' [0-9]+ ';' or '&#x' [0-9a-fA-F]+ ';' *)
Definition char_ref (s : list N) (c : N) : Prop :=
  exists l, l <> [] /\ (s = [38; 35]%N ++ l ++ [59]%N /\ numeral 10 0 l = Some c
                     \/ s = [38; 35; 120]%N ++ l ++ [59]%N /\ numeral 16 0 l = Some c).
(** text without references, line ends to translate, or NUL *)
Definition plain_text (s : list N) : Prop := Forall (fun c => c <> 0 /\ c <> 13 /\ c <> 38)%N s.
