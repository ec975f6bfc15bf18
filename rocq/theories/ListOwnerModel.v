(** Who owns the values of a linked list: what ClearLinkedList and DestroyLinkedList of wizard/hashmap.c hand to the
    relinquish method they are given, on top of ListModel.v. *)
From Coq Require Import NArith Arith List Bool.
From Verif Require Import ListModel.
Import ListNotations.

(** hashmap.c 214-224, 409-416: the value is relinquished (NULL too), then the element is freed; the heap that is left
    and the values in the order in which they are relinquished; [fuel] bounds the loop *)
Fixpoint relinquish_all (fuel : nat) (own : bool) (h : heap) (p : option nat) : option (heap * list N) :=
  match p with
  | None => Some (h, [])
  | Some a =>
      match fuel with
      | O => None
      | S fuel =>
          let? c := h a in
          let? (h', vs) := relinquish_all fuel own (hset h a None) (e_next c) in
          Some (h', (if own then [e_value c] else []) ++ vs)
      end
  end.
(** hashmap.c 203-229 *)
Definition ClearLinkedList (fuel : nat) (own : bool) (s : st) : option (st * list N) :=
  let (h, l) := s in
  let? (h, vs) := relinquish_all fuel own h (ll_head l) in
  Some ((h, mkList (ll_capacity l) 0 None None None), vs).
(** hashmap.c 397-420: the heap that is left and the values *)
Definition DestroyLinkedList (fuel : nat) (own : bool) (s : st) : option (heap * list N) :=
  relinquish_all fuel own (fst s) (ll_head (snd s)).

Section Alloc.
Variable alloc : heap -> option nat.
(** a call; ClearLinkedList gets the method iff [own] *)
Definition owner_step (fuel : nat) (own : bool) (s : st) (o : lop) : option (st * lout * list N) :=
  match o with
  | LClear => let? (s, vs) := ClearLinkedList fuel own s in Some (s, OUnit, vs)
  | _ => let? (s, r) := lstep fuel alloc s o in Some (s, r, [])
  end.
Fixpoint owner_run (fuel : nat) (own : bool) (s : st) (ops : list lop) : option (st * list lout * list N) :=
  match ops with
  | [] => Some (s, [], [])
  | o :: t =>
      let? (s, r, f) := owner_step fuel own s o in
      let? (s, rs, g) := owner_run fuel own s t in Some (s, r :: rs, f ++ g)
  end.
End Alloc.
