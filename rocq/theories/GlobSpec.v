(** Glob patterns: what they look like and what they match. *)
From Coq Require Import NArith ZArith List Bool.
Import ListNotations.
Local Open Scope N_scope.

(** a member of a class: a character, an escaped character, a range *)
Inductive item := One (c : N) | Quoted (c : N) | Range (lo hi : N).
Inductive piece := Lit (c : N) | Escaped (c : N) | Any | Star | Class (items : list item).

(** the pattern text: * ? [abc] [a-z] and \ before a character *)
Definition item_text (i : item) : list N :=
  match i with One c => [c] | Quoted c => [92; c] | Range lo hi => [lo; 45; hi] end.
Definition piece_text (x : piece) : list N :=
  match x with
  | Lit c => [c]
  | Escaped c => [92; c]
  | Any => [63]
  | Star => [42]
  | Class l => [91] ++ flat_map item_text l ++ [93]
  end.
Definition glob_text (l : list piece) : list N := flat_map piece_text l.

(** a literal is none of * ? [ { \, a member none of ] \ -, and a range starts with
    none of those and ends in neither ] nor \ *)
Definition item_ok (i : item) : Prop :=
  match i with
  | One c => ~ In c [0; 93; 92; 45]
  | Quoted c => c <> 0
  | Range lo hi => ~ In lo [0; 93; 92; 45] /\ ~ In hi [0; 93; 92]
  end.
Definition piece_ok (x : piece) : Prop :=
  match x with
  | Lit c => ~ In c [0; 42; 63; 91; 123; 92]
  | Escaped c => c <> 0
  | Class l => Forall item_ok l
  | _ => True
  end.

(** the value of a (signed) char *)
Definition char_value (c : N) : Z := if c <? 128 then Z.of_N c else (Z.of_N c - 256)%Z.
Definition member (c : N) (i : item) : Prop :=
  match i with
  | One d | Quoted d => c = d
  | Range lo hi => (char_value lo <= char_value c <= char_value hi)%Z
  end.
(** ASCII letters are equal up to case if [ci] *)
Definition fold_case (ci : bool) (c : N) : N := if ci && (65 <=? c) && (c <=? 90) then c + 32 else c.
Definition matches_one (ci : bool) (x : piece) (c : N) : Prop :=
  match x with
  | Lit d | Escaped d => fold_case ci c = fold_case ci d
  | Any => True
  | Star => False
  | Class l => Exists (member c) l
  end.
Inductive matches (ci : bool) : list piece -> list N -> Prop :=
| matches_nil : matches ci [] []
| matches_char x l c s : matches_one ci x c -> matches ci l s -> matches ci (x :: l) (c :: s)
| matches_star l s t : matches ci l t -> matches ci (Star :: l) (s ++ t).
