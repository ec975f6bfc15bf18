(** GetXMLTreeAttributes (wizard/xml-tree.c:880-902) over the splay trees of SplayModel.v.  Keys are texts; values are pointers: the
    i-th attribute's value is copied to pointer i + 1 ([text_at] tells what it points to); [mem i]: whether there is memory for its node. *)
From Coq Require Import NArith ZArith Bool List.
From Verif Require Import Base SplayModel XmlModel.
Import ListNotations.

(** ConstantString, string.c:655-676: NULL is copied as an empty text *)
Definition ConstantString (v : option (list N)) : list N := match v with Some v => v | None => [] end.
Section Attributes.
Variable compare : list N -> list N -> Z.
Variable by_pointer : bool.
Variable mem : nat -> bool.
(** 894-900 *)
Fixpoint add_all (i : nat) (s : SplayTreeInfo (list N)) (own : list attr) : option (SplayTreeInfo (list N)) :=
  match own with
  | [] => Some s
  | (a, _) :: own =>
      match AddValueToSplayTree (list N) compare by_pointer (mem i) s a (N.of_nat (S i)) with
      | Some (s, _) => add_all (S i) s own
      | None => None
      end
  end.
(** the status is WizardTrue always *)
Definition GetXMLTreeAttributes (s : SplayTreeInfo (list N)) (own : list attr) : option (SplayTreeInfo (list N) * bool) :=
  match add_all 0 s own with Some s => Some (s, true) | None => None end.
(** the text of a value of the tree; None for NULL *)
Definition text_at (own : list attr) (p : N) : option (list N) :=
  match N.to_nat p with
  | O => None
  | S i => match nth_error own i with Some (_, v) => Some (ConstantString v) | None => None end
  end.
End Attributes.
