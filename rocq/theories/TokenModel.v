(** Model of GetNextToken, wizard/token.c:103-229.

    Strings are given without their terminating NUL, a position in the text is
    the rest of it.  Reading behind the NUL and writing in front of the token
    buffer is [UB].  [strtod] tells how many bytes StringToDouble takes.  [extent]
    is the size of the token buffer, at least 1; [E] is WizardPathExtent.
    Comparisons ignore case by AsciiMap; C52 shows that this is what LocaleCompare
    and LocaleNCompare do.  *DirectorySeparator is '/'. *)
From Coq Require Import NArith ZArith Bool String Arith List.
From Verif Require Import Base Outcome CStringModel OptionModel ArgvModel.
Import ListNotations.

Fixpoint like (s t : list N) : bool :=
  match s, t with
  | [], [] => true
  | c :: s, d :: t => (ascii_map c =? ascii_map d)%Z && like s t
  | _, _ => false
  end.

Section Token.
Variable E : nat.
Variable strtod : list N -> nat.
Variable extent : nat.

(** if (i < extent-1) token[i++]=c; *)
Definition put (token : list N) (c : N) : list N := if (length token <? extent - 1)%nat then token ++ [c] else token.
Definition puts (token s : list N) : list N := fold_left put s token.

(** token.c:126-158 *)
Definition closing (c : N) : option N :=
  if (c =? 34)%N then Some 34%N else if (c =? 39)%N then Some 39%N
  else if (c =? 96)%N then Some 39%N else if (c =? 123)%N then Some 125%N else None.
Fixpoint quoted_token (escape : N) (p token : list N) : list N * list N :=
  match p with
  | [] => (token, [])
  | c :: p =>
      match p with
      | d :: p' =>
          if (c =? 92)%N && ((d =? escape)%N || (d =? 92)%N) then quoted_token escape p' (put token d)
          else if (c =? escape)%N then (token, p)
          else quoted_token escape p (put token c)
      | [] => if (c =? escape)%N then (token, []) else (put token c, [])
      end
  end.

(** token.c:190-211; [paren] inside the inner loop, [prev] is the byte in front
    of p.  The first byte of a word is none that ends it, so the byte in front of
    the word is not looked at.  If the inner loop ends at the NUL, the outer one
    goes on behind it. *)
Definition ends_word (c : N) : bool :=
  (isspace c || (c =? 61) || (c =? 44) || (c =? 58) || (c =? 59))%N.
Fixpoint word_token (paren : bool) (prev : N) (p token : list N) : outcome (list N * list N) :=
  match p with
  | [] => if paren then UB else Ok (token, [])
  | c :: p' =>
      if paren then word_token (negb ((c =? 41)%N && negb (prev =? 92)%N)) c p' (put token c)
      else if ends_word c && negb (prev =? 92)%N then Ok (token, p)
      else if (0 <? length token)%nat && (c =? 60)%N then Ok (token, p)
      else if (c =? 62)%N then Ok (put token c, p)
      else word_token (c =? 40)%N c p' (put token c)
  end.

(** token.c:159-166 *)
Definition slash_token (p : list N) : list N * list N :=
  if (0 <? extent - 1)%nat then
    match p with
    | c :: d :: p' => if (d =? 62)%N || (d =? 47)%N
                      then if (1 <? extent - 1)%nat then ([c; d], p') else ([c], d :: p')
                      else ([c], d :: p')
    | _ => (p, [])
    end
  else ([], p).

(** token.c:171-181: the characters of the number up to a comma *)
Fixpoint number_token (n : nat) (p token : list N) : list N * list N :=
  match n, p with
  | S n, c :: p' => if (c =? 44)%N then (token, p) else number_token n p' (put token c)
  | _, _ => (token, p)
  end.

(** token.c:213-224 *)
Definition strip_url (token : list N) : outcome (list N) :=
  if like (firstn 4 token) (b "url(") then
    let offset := if (nth 4 token 0 =? 35)%N then 5 else 4 in
    if (length token =? offset)%nat then UB
    else Ok (firstn (length token - offset - 1) (firstn (E - 1) (skipn offset token)))
  else Ok token.

(** token.c:103-229: the token and *end *)
Definition GetNextToken (start : list N) : outcome (list N * list N) :=
  let p := spaces_off start in
  let* (token, p) :=
    match p with
    | [] => Ok ([], [])
    | c :: p' =>
        match closing c with
        | Some escape => Ok (quoted_token escape p' [])
        | None =>
            if (c =? 47)%N then Ok (slash_token p)
            else if (0 <? strtod p)%nat && negb (c =? 44)%N then
              let '(token, p) := number_token (strtod p) p [] in
              match p with
              | d :: p' => if (d =? 37)%N && (length token <? extent - 1)%nat then Ok (put token d, p') else Ok (token, p)
              | [] => Ok (token, p)
              end
            else if negb (isalpha c) && negb (c =? 35)%N && negb (c =? 60)%N then
              Ok (if (0 <? extent - 1)%nat then ([c], p') else ([], p))
            else word_token false 0%N p []
        end
    end in
  let* token := strip_url token in
  Ok (token, spaces_off p).
End Token.
