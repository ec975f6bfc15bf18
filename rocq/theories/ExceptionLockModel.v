(** The locks that the functions of wizard/exception.c take: one semaphore for each ExceptionInfo,
    one for its linked list (wizard/hashmap.c), which are not recursive (semaphore.c 179-196, 282-304).

    A call is the sequence of locks it takes and gives back.  How often it looks at the list depends on
    what is in it; the numbers are arguments here, and the theorems hold for all of them.  The locks of
    the log (ThrowWizardException logs first, and holds none of these meanwhile) and of memory are
    not modelled. *)
From Coq Require Import Arith List Bool.
Import ListNotations.

(** exception->semaphore, exception->exceptions->semaphore *)
Inductive lock := Info (x : nat) | List (x : nat).
Definition lock_eqb (a b : lock) : bool :=
  match a, b with Info x, Info y | List x, List y => Nat.eqb x y | _, _ => false end.
Inductive action := Acquire (l : lock) | Release (l : lock).

(** a function of hashmap.c: 164, 408, 455, 612, 1835, 1923; n of them *)
Definition touch (x n : nat) : list action := concat (repeat [Acquire (List x); Release (List x)] n).

Inductive op :=
| Throw (x n : nat)                        (* n: GetLastValue, and Append if the exception is new *)
| Clear (x n : nat)                        (* n: RemoveLastElement *)
| Catch (x n m : nat) (handlers : list (nat * list (nat * nat)))
    (* n: Reset, first GetNext; for each exception the handler, which may throw to others, and GetNext; m: ClearWizardException *)
| Inherit (x y n : nat) (throws : list (nat * nat))
    (* from y to x; n: Reset, first GetNext; for each a Throw and GetNext *)
| Destroy (x n : nat).

(** exception.c 920-959 *)
Definition ThrowException (x n : nat) : list action := [Acquire (Info x)] ++ touch x n ++ [Release (Info x)].
(** exception.c 178-201 *)
Definition ClearWizardException (x n : nat) : list action := [Acquire (Info x)] ++ touch x n ++ [Release (Info x)].
(** exception.c 226-252: the handlers are called with the lock held *)
Definition CatchException (x n m : nat) (handlers : list (nat * list (nat * nat))) : list action :=
  [Acquire (Info x)] ++ touch x n ++
  concat (map (fun h => concat (map (fun t => ThrowException (fst t) (snd t)) (snd h)) ++ touch x (fst h)) handlers) ++
  [Release (Info x)] ++ ClearWizardException x m.
(** exception.c 659-682: relative is locked while the exceptions are thrown *)
Definition InheritException (x y n : nat) (throws : list (nat * nat)) : list action :=
  [Acquire (Info y)] ++ touch y n ++
  concat (map (fun t => ThrowException x (fst t) ++ touch y (snd t)) throws) ++
  [Release (Info y)].
(** exception.c 399-414 *)
Definition DestroyExceptionInfo (x n : nat) : list action := [Acquire (Info x)] ++ touch x n ++ [Release (Info x)].
Definition actions (o : op) : list action :=
  match o with
  | Throw x n => ThrowException x n
  | Clear x n => ClearWizardException x n
  | Catch x n m hs => CatchException x n m hs
  | Inherit x y n ts => InheritException x y n ts
  | Destroy x n => DestroyExceptionInfo x n
  end.
Definition program (os : list op) : list action := concat (map actions os).

(** ** Threads *)
(** what each thread has left to do, and who holds each lock *)
Record system := mkSystem { threads : list (list action); owner : lock -> option nat }.
Definition start (ps : list (list op)) : system := mkSystem (map program ps) (fun _ => None).
Fixpoint set_nth {A} (i : nat) (a : A) (l : list A) : list A :=
  match l, i with
  | [], _ => []
  | _ :: l, O => a :: l
  | b :: l, S i => b :: set_nth i a l
  end.
Definition set_owner (f : lock -> option nat) (l : lock) (o : option nat) : lock -> option nat :=
  fun k => if lock_eqb k l then o else f k.
(** the next action of thread i; None: it waits, or has ended *)
Definition step (s : system) (i : nat) : option system :=
  match nth_error (threads s) i with
  | Some (Acquire l :: p) =>
      match owner s l with
      | None => Some (mkSystem (set_nth i p (threads s)) (set_owner (owner s) l (Some i)))
      | Some _ => None
      end
  | Some (Release l :: p) => Some (mkSystem (set_nth i p (threads s)) (set_owner (owner s) l None))
  | _ => None
  end.
(** the threads take turns in any order *)
Fixpoint run (s : system) (is : list nat) : option system :=
  match is with
  | [] => Some s
  | i :: is => match step s i with Some s => run s is | None => None end
  end.
