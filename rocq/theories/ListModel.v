(** Model of the linked lists of wizard/hashmap.c.  Elements are cells of a
    heap reached through addresses; [None] as a result is undefined
    behaviour: a NULL or dangling pointer is followed.  A value is a pointer,
    0 standing for NULL.  Semaphores are not modelled (one thread). *)
From Coq Require Import NArith ZArith Arith List Bool.
Import ListNotations.
Local Open Scope N_scope.

(** hashmap.c 57-64 *)
Record ElementInfo := mkElement { e_value : N; e_next : option nat }.
Definition heap := nat -> option ElementInfo.

(** hashmap.c 76-91 *)
Record LinkedListInfo := mkList {
  ll_capacity : N;
  ll_elements : N;
  ll_head : option nat;
  ll_tail : option nat;
  ll_next : option nat
}.

Definition deref (h : heap) (p : option nat) : option ElementInfo :=
  match p with Some a => h a | None => None end.
(** writing or freeing a cell *)
Definition hset (h : heap) (a : nat) (c : option ElementInfo) : heap :=
  fun q => if Nat.eqb q a then c else h q.
(** [p->next=q] *)
Definition set_next (h : heap) (p q : option nat) : option heap :=
  match p, deref h p with
  | Some a, Some c => Some (hset h a (Some (mkElement (e_value c) q)))
  | _, _ => None
  end.
(** RelinquishWizardMemory(p): NULL is allowed *)
Definition hfree (h : heap) (p : option nat) : heap :=
  match p with Some a => hset h a None | None => h end.
Definition peq (p q : option nat) : bool :=
  match p, q with Some a, Some b => Nat.eqb a b | None, None => true | _, _ => false end.

(** [n] times [p=p->next] *)
Fixpoint walk (h : heap) (p : option nat) (n : nat) : option (option nat) :=
  match n with
  | O => Some p
  | S k => match deref h p with Some c => walk h (e_next c) k | None => None end
  end.

Notation "'let?' x ':=' e 'in' f" := (match e with Some x => f | None => None end)
  (at level 200, x pattern, right associativity).

Definition max_size : N := 2 ^ 64 - 1.

(** hashmap.c 1362-1380 *)
Definition NewLinkedList (capacity : N) : LinkedListInfo :=
  mkList (if capacity =? 0 then max_size else capacity) 0 None None None.

Definition st := (heap * LinkedListInfo)%type.

Section Alloc.
(** AcquireWizardMemory(sizeof(ElementInfo)): an address or failure *)
Variable alloc : heap -> option nat.

(** hashmap.c 149-175 *)
Definition AppendValueToLinkedList (s : st) (value : N) : option (st * bool) :=
  let (h, l) := s in
  if ll_elements l =? ll_capacity l then Some (s, false)
  else match alloc h with
  | None => Some (s, false)
  | Some a =>
      let h := hset h a (Some (mkElement value None)) in
      let nx := match ll_next l with None => Some a | p => p end in
      if ll_elements l =? 0 then
        Some ((h, mkList (ll_capacity l) (ll_elements l + 1) (Some a) (Some a) nx), true)
      else
        let? h := set_next h (ll_tail l) (Some a) in
        Some ((h, mkList (ll_capacity l) (ll_elements l + 1) (ll_head l) (Some a) nx), true)
  end.

(** hashmap.c 991-1058 *)
Definition InsertValueInLinkedList (s : st) (index : N) (value : N) : option (st * bool) :=
  let (h, l) := s in
  if value =? 0 then Some (s, false)
  else if (ll_elements l <? index) || (ll_elements l =? ll_capacity l) then Some (s, false)
  else match alloc h with
  | None => Some (s, false)
  | Some a =>
      let h := hset h a (Some (mkElement value None)) in
      let fin h head tail nx :=
        Some ((h, mkList (ll_capacity l) (ll_elements l + 1) head tail nx), true) in
      if ll_elements l =? 0 then
        fin h (Some a) (Some a) (match ll_next l with None => Some a | p => p end)
      else if index =? 0 then
        let nx := if peq (ll_next l) (ll_head l) then Some a else ll_next l in
        let? h := set_next h (Some a) (ll_head l) in
        fin h (Some a) (ll_tail l) nx
      else if index =? ll_elements l then
        let nx := match ll_next l with None => Some a | p => p end in
        let? h := set_next h (ll_tail l) (Some a) in
        fin h (ll_head l) (Some a) nx
      else
        (* 1030-1049: [element] is the element before [index] *)
        let? element := walk h (ll_head l) (N.to_nat index - 1) in
        let? c := deref h element in
        let? h := set_next h (Some a) (e_next c) in
        let next := e_next c in               (* next=next->next; *)
        let? h := set_next h element next in  (* element->next=next; *)
        let? d := deref h next in
        fin h (ll_head l) (ll_tail l) (if peq (ll_next l) (e_next d) then next else ll_next l)
  end.

(** the loop of hashmap.c 1120-1142; [element] is the element before [cur]
    (= next->next), [replace] says whether a replace pointer was given.
    Result: the elements before and after the place of the new one, and the
    value and address to be removed. *)
Fixpoint sorted_place (fuel : nat) (compare : N -> N -> Z) (replace : bool) (h : heap) (value : N)
    (element cur : option nat) : option (option nat * option nat * option (N * option nat)) :=
  match cur with
  | None => Some (element, None, None)
  | Some a =>
      match fuel with
      | O => None
      | S fuel =>
          let? c := h a in
          let i := compare value (e_value c) in
          if (i <? 0)%Z then Some (element, cur, None)
          else if (replace && (i =? 0)%Z)%bool then Some (element, e_next c, Some (e_value c, cur))
          else sorted_place fuel compare replace h value cur (e_next c)
      end
  end.

(** hashmap.c 1092-1153; the second result is [*replace].  When the first
    element is replaced its cell is not freed (1127-1129). *)
Definition InsertValueInSortedLinkedList (fuel : nat) (compare : N -> N -> Z) (replace : bool)
    (s : st) (value : N) : option (st * (bool * option N)) :=
  let (h, l) := s in
  if value =? 0 then Some (s, (false, None))
  else if ll_elements l =? ll_capacity l then Some (s, (false, None))
  else match alloc h with
  | None => Some (s, (false, None))
  | Some a =>
      let h := hset h a (Some (mkElement value (ll_head l))) in
      let? (element, after, gone) := sorted_place fuel compare replace h value None (ll_head l) in
      let? h := set_next h (Some a) after in
      let h := match gone, element with Some (_, q), Some _ => hfree h q | _, _ => h end in
      let elements := match gone with Some _ => ll_elements l - 1 | None => ll_elements l end in
      let? h := match element with Some _ => set_next h element (Some a) | None => Some h end in
      let head := match element with Some _ => ll_head l | None => Some a end in
      let tail := match after with None => Some a | _ => ll_tail l end in
      Some ((h, mkList (ll_capacity l) (elements + 1) head tail (ll_next l)), 
            (true, match gone with Some (v, _) => Some v | None => None end))
  end.
End Alloc.

(** hashmap.c 1667-1713; the value, 0 when out of range *)
Definition RemoveElementFromLinkedList (s : st) (index : N) : option (st * N) :=
  let (h, l) := s in
  if ll_elements l <=? index then Some (s, 0)
  else if index =? 0 then
    let? c := deref h (ll_head l) in
    let nx := if peq (ll_next l) (ll_head l) then e_next c else ll_next l in
    Some ((hfree h (ll_head l), mkList (ll_capacity l) (ll_elements l - 1) (e_next c) (ll_tail l) nx), e_value c)
  else
    let? next := walk h (ll_head l) (N.to_nat index - 1) in
    let? n := deref h next in
    let element := e_next n in
    let? c := deref h element in
    let? h := set_next h next (e_next c) in
    let tail := if peq element (ll_tail l) then next else ll_tail l in
    let nx := if peq (ll_next l) element then e_next c else ll_next l in
    Some ((hfree h element, mkList (ll_capacity l) (ll_elements l - 1) (ll_head l) tail nx), e_value c).

(** the loop of hashmap.c 1622-1624 *)
Fixpoint before_value (fuel : nat) (h : heap) (value : N) (next : option nat) : option (option nat) :=
  match fuel with
  | O => None
  | S fuel =>
      let? n := deref h next in
      match e_next n with
      | None => Some next
      | Some b => let? c := h b in
          if e_value c =? value then Some next else before_value fuel h value (e_next n)
      end
  end.

(** hashmap.c 1595-1643 *)
Definition RemoveElementByValueFromLinkedList (fuel : nat) (s : st) (value : N) : option (st * N) :=
  let (h, l) := s in
  if (ll_elements l =? 0) || (value =? 0) then Some (s, 0)
  else
    let? c := deref h (ll_head l) in
    if value =? e_value c then
      let nx := if peq (ll_next l) (ll_head l) then e_next c else ll_next l in
      Some ((hfree h (ll_head l), mkList (ll_capacity l) (ll_elements l - 1) (e_next c) (ll_tail l) nx), value)
    else
      let? next := before_value fuel h value (ll_head l) in
      let? n := deref h next in
      match e_next n with
      | None => Some (s, 0)
      | element =>
          let? c := deref h element in
          let? h := set_next h next (e_next c) in
          let tail := if peq element (ll_tail l) then next else ll_tail l in
          let nx := if peq (ll_next l) element then e_next c else ll_next l in
          Some ((hfree h element, mkList (ll_capacity l) (ll_elements l - 1) (ll_head l) tail nx), value)
      end.

(** the loop of hashmap.c 1850-1852 *)
Fixpoint before_tail (fuel : nat) (h : heap) (tail next : option nat) : option (option nat) :=
  match fuel with
  | O => None
  | S fuel =>
      let? n := deref h next in
      if peq (e_next n) tail then Some next else before_tail fuel h tail (e_next n)
  end.

(** hashmap.c 1826-1860 *)
Definition RemoveLastElementFromLinkedList (fuel : nat) (s : st) : option (st * N) :=
  let (h, l) := s in
  if ll_elements l =? 0 then Some (s, 0)
  else
    let nx := if peq (ll_next l) (ll_tail l) then None else ll_next l in
    if ll_elements l =? 1 then
      let? c := deref h (ll_head l) in
      Some ((hfree h (ll_tail l), mkList (ll_capacity l) (ll_elements l - 1) None None nx), e_value c)
    else
      let? c := deref h (ll_tail l) in
      let? next := before_tail fuel h (ll_tail l) (ll_head l) in
      let h := hfree h (ll_tail l) in
      let? h := set_next h next None in
      Some ((h, mkList (ll_capacity l) (ll_elements l - 1) (ll_head l) next nx), e_value c).

(** hashmap.c 787-822 *)
Definition GetValueFromLinkedList (s : st) (index : N) : option N :=
  let (h, l) := s in
  if ll_elements l <=? index then Some 0
  else if index =? 0 then option_map e_value (deref h (ll_head l))
  else if index =? ll_elements l - 1 then option_map e_value (deref h (ll_tail l))
  else let? p := walk h (ll_head l) (N.to_nat index) in option_map e_value (deref h p).

(** hashmap.c 446-459 *)
Definition GetLastValueInLinkedList (s : st) : option N :=
  let (h, l) := s in
  if ll_elements l =? 0 then Some 0 else option_map e_value (deref h (ll_tail l)).

(** hashmap.c 605-622 *)
Definition GetNextValueInLinkedList (s : st) : option (st * N) :=
  let (h, l) := s in
  match ll_next l with
  | None => Some (s, 0)
  | p => let? c := deref h p in
      Some ((h, mkList (ll_capacity l) (ll_elements l) (ll_head l) (ll_tail l) (e_next c)), e_value c)
  end.

(** hashmap.c 1919-1926 *)
Definition ResetLinkedListIterator (s : st) : st :=
  let (h, l) := s in
  (h, mkList (ll_capacity l) (ll_elements l) (ll_head l) (ll_tail l) (ll_head l)).

(** the loop of ClearLinkedList and DestroyLinkedList *)
Fixpoint free_all (fuel : nat) (h : heap) (p : option nat) : option heap :=
  match p with
  | None => Some h
  | Some a =>
      match fuel with
      | O => None
      | S fuel => let? c := h a in free_all fuel (hset h a None) (e_next c)
      end
  end.
(** hashmap.c 203-229 *)
Definition ClearLinkedList (fuel : nat) (s : st) : option st :=
  let (h, l) := s in
  let? h := free_all fuel h (ll_head l) in
  Some (h, mkList (ll_capacity l) 0 None None None).
(** hashmap.c 397-420: the heap that is left *)
Definition DestroyLinkedList (fuel : nat) (s : st) : option heap := free_all fuel (fst s) (ll_head (snd s)).

(** hashmap.c 1239-1258: the values written to the array *)
Fixpoint to_array (fuel : nat) (h : heap) (p : option nat) : option (list N) :=
  match p with
  | None => Some []
  | Some a =>
      match fuel with
      | O => None
      | S fuel => let? c := h a in option_map (cons (e_value c)) (to_array fuel h (e_next c))
      end
  end.
Definition LinkedListToArray (fuel : nat) (s : st) : option (list N) := to_array fuel (fst s) (ll_head (snd s)).

(** a caller's calls and what they return *)
Inductive lop :=
| LAppend (v : N) | LInsert (i v : N) | LRemove (i : N) | LRemoveValue (v : N) | LRemoveLast
| LGet (i : N) | LLast | LNext | LReset | LClear | LToArray | LCount.
Inductive lout := OBool (b : bool) | OVal (v : N) | OUnit | OArray (l : list N).

Definition lstep (fuel : nat) (alloc : heap -> option nat) (s : st) (o : lop) : option (st * lout) :=
  match o with
  | LAppend v => let? (s, b) := AppendValueToLinkedList alloc s v in Some (s, OBool b)
  | LInsert i v => let? (s, b) := InsertValueInLinkedList alloc s i v in Some (s, OBool b)
  | LRemove i => let? (s, v) := RemoveElementFromLinkedList s i in Some (s, OVal v)
  | LRemoveValue v => let? (s, v) := RemoveElementByValueFromLinkedList fuel s v in Some (s, OVal v)
  | LRemoveLast => let? (s, v) := RemoveLastElementFromLinkedList fuel s in Some (s, OVal v)
  | LGet i => let? v := GetValueFromLinkedList s i in Some (s, OVal v)
  | LLast => let? v := GetLastValueInLinkedList s in Some (s, OVal v)
  | LNext => let? (s, v) := GetNextValueInLinkedList s in Some (s, OVal v)
  | LReset => Some (ResetLinkedListIterator s, OUnit)
  | LClear => let? s := ClearLinkedList fuel s in Some (s, OUnit)
  | LToArray => let? l := LinkedListToArray fuel s in Some (s, OArray l)
  | LCount => Some (s, OVal (ll_elements (snd s)))
  end.

Fixpoint lrun (fuel : nat) (alloc : heap -> option nat) (s : st) (ops : list lop) : option (st * list lout) :=
  match ops with
  | [] => Some (s, [])
  | o :: t =>
      let? (s, r) := lstep fuel alloc s o in
      let? (s, rs) := lrun fuel alloc s t in Some (s, r :: rs)
  end.
