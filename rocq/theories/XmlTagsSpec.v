(** What looking up children by their tag means. *)
From Coq Require Import NArith Arith List.
From Verif Require Import Outcome XmlMemoryModel XmlMemorySpec XmlTagsModel.
Import ListNotations.

(** the children with the tag, in the order of the children *)
Fixpoint named (t : list N) (f : forest) : list nat :=
  match f with
  | Nil => []
  | Cons id i _ rest => if list_eq_dec N.eq_dec (i_tag i) t then id :: named t rest else named t rest
  end.
(** GetNextXMLTreeTag leads from [q] through the elements of the list, and then to NULL *)
Fixpoint follow (h : heap) (env : list nat) (q : nat) (l : list nat) : Prop :=
  match l with
  | [] => q = 0
  | id :: l => nth_error env id = Some q /\ exists n, GetNextXMLTreeTag q h = Ok n /\ follow h env n l
  end.
