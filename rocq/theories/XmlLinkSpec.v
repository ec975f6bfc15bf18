(** The children of an element as a list in document order. *)
From Coq Require Import Arith NArith List Bool.
Import ListNotations.

Record kid := mkKid { k_id : nat; k_tag : list N; k_offset : nat }.
(** a new child goes behind those at its offset or before *)
Fixpoint place (k : kid) (l : list kid) : list kid :=
  match l with
  | [] => [k]
  | x :: l => if k_offset x <=? k_offset k then x :: place k l else k :: x :: l
  end.
Definition without (c : nat) (l : list kid) : list kid := filter (fun k => negb (k_id k =? c)) l.
Definition same_tag (t : list N) (k : kid) : bool := if list_eq_dec N.eq_dec (k_tag k) t then true else false.
(** the children with the tag [t], in order *)
Definition tagged (t : list N) (l : list kid) : list nat := map k_id (filter (same_tag t) l).
(** the first child of each tag, in order *)
Fixpoint firsts (seen : list (list N)) (l : list kid) : list nat :=
  match l with
  | [] => []
  | k :: l => if in_dec (list_eq_dec N.eq_dec) (k_tag k) seen then firsts seen l else k_id k :: firsts (k_tag k :: seen) l
  end.
