(** Model of StringToArgv, wizard/string.c:2100-2178.

    Strings are given without their terminating NUL, a position in the text is
    the rest of it; the NUL is read at the end of the list.  [isspace] is that of
    the C locale. *)
From Coq Require Import NArith Bool Arith List.
From Verif Require Import Base CStringModel.
Import ListNotations.

Fixpoint spaces_off (p : list N) : list N :=
  match p with c :: q => if isspace c then spaces_off q else p | [] => [] end.
(** for ( ; ( *p != x) && ( *p != '\0'); p++): what is passed over, and the rest *)
Fixpoint until (x : N) (p : list N) : list N * list N :=
  match p with
  | [] => ([], [])
  | c :: q => if (c =? x)%N then ([], p) else let '(a, r) := until x q in (c :: a, r)
  end.
Fixpoint word_off (p : list N) : list N * list N :=
  match p with
  | [] => ([], [])
  | c :: q => if isspace c then ([], p) else let '(a, r) := word_off q in (c :: a, r)
  end.

Definition at_char (x : N) (p : list N) : bool := match p with c :: _ => (c =? x)%N | [] => false end.

(** string.c:2119-2132; [fuel] turns *)
Fixpoint count_args (fuel : nat) (p : list N) : nat :=
  match fuel with
  | O => 0
  | S fuel =>
      match p with
      | [] => 0
      | _ =>
          match spaces_off p with
          | [] => 0
          | p =>
              let p := if at_char 34 p then snd (until 34 (tl p)) else p in
              let p := if at_char 39 p then snd (until 39 (tl p)) else p in
              S (count_args fuel (snd (word_off p)))
          end
      end
  end.

(** string.c:2140-2174 *)
Definition one_arg (p : list N) : list N * list N :=
  let p := spaces_off p in
  let '(arg, q) :=
    if at_char 34 p then until 34 (tl p)
    else if at_char 39 p then until 39 (tl p)
    else word_off p in
  (arg, snd (word_off q)).
Fixpoint make_args (n : nat) (p : list N) : list (list N) :=
  match n with
  | O => []
  | S n => let '(arg, p) := one_arg p in arg :: make_args n p
  end.

(** string.c:2100-2178: argv; *argc is its length *)
Definition StringToArgv (text : list N) : list (list N) :=
  make_args (count_args (S (length text)) text) text.
