(** Linked lists as finite sequences with a cursor. *)
From Coq Require Import NArith ZArith Arith List Bool.
From Verif Require Import ListModel.
Import ListNotations.
Local Open Scope N_scope.

(** the values, and how many of them the iterator has passed *)
Record seq_st := mkSeq { sq_vals : list N; sq_pos : nat }.

Definition insert_at (l : list N) (i : nat) (v : N) : list N := firstn i l ++ v :: skipn i l.
Definition remove_at (l : list N) (i : nat) : list N := firstn i l ++ skipn (S i) l.

(** index of the first occurrence *)
Fixpoint index_of (v : N) (l : list N) : option nat :=
  match l with
  | [] => None
  | x :: t => if x =? v then Some 0%nat else option_map S (index_of v t)
  end.

(** the cursor follows the element it stands before *)
Definition cursor_insert (pos i : nat) : nat := if (i <? pos)%nat then S pos else pos.
Definition cursor_remove (pos i : nat) : nat := if (i <? pos)%nat then pred pos else pos.

(** [cap] is the capacity, [mem] tells whether memory could be had *)
Definition seq_step (cap : N) (mem : bool) (s : seq_st) (o : lop) : seq_st * lout :=
  let l := sq_vals s in
  let pos := sq_pos s in
  let room := mem && negb (N.of_nat (length l) =? cap) in
  let remove i := (mkSeq (remove_at l i) (cursor_remove pos i), OVal (nth i l 0)) in
  match o with
  | LAppend v => if room then (mkSeq (l ++ [v]) pos, OBool true) else (s, OBool false)
  | LInsert i v =>
      if room && negb (v =? 0) && (i <=? N.of_nat (length l)) then
        (mkSeq (insert_at l (N.to_nat i) v) (cursor_insert pos (N.to_nat i)), OBool true)
      else (s, OBool false)
  | LRemove i => if i <? N.of_nat (length l) then remove (N.to_nat i) else (s, OVal 0)
  | LRemoveValue v =>
      if v =? 0 then (s, OVal 0)
      else match index_of v l with Some i => remove i | None => (s, OVal 0) end
  | LRemoveLast => match l with [] => (s, OVal 0) | _ => remove (length l - 1)%nat end
  | LGet i => (s, OVal (nth (N.to_nat i) l 0))
  | LLast => (s, OVal (last l 0))
  | LNext => (mkSeq l (Nat.min (S pos) (length l)), OVal (nth pos l 0))
  | LReset => (mkSeq l 0, OUnit)
  | LClear => (mkSeq [] 0, OUnit)
  | LToArray => (s, OArray l)
  | LCount => (s, OVal (N.of_nat (length l)))
  end.

(** a history; one flag per call tells whether memory could be had *)
Fixpoint seq_run (cap : N) (s : seq_st) (ops : list lop) (mems : list bool) : list lout :=
  match ops, mems with
  | o :: t, m :: ms => let (s, r) := seq_step cap m s o in r :: seq_run cap s t ms
  | _, _ => []
  end.

(** ** sorted insertion *)

(** a comparison function is a total preorder *)
Record preorder (compare : N -> N -> Z) : Prop := {
  pre_sign : forall x y, (compare x y <= 0)%Z <-> (0 <= compare y x)%Z;
  pre_trans : forall x y z, (compare x y <= 0)%Z -> (compare y z <= 0)%Z -> (compare x z <= 0)%Z
}.
Definition cle (compare : N -> N -> Z) (x y : N) : Prop := (compare x y <= 0)%Z.
