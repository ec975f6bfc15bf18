(** What is said of threads that share an object. *)
From Coq Require Import ZArith NArith Bool Arith List.
From Verif Require Import Base Outcome SplayModel ResourceModel RandomModel ThreadModel.
Import ListNotations.

Section Spec.
Context {S C L R : Type}.
Variable P : code S C L R.
(** a call made with nobody else about: the object afterwards and what is returned; None: the process ends *)
Variable seq : S -> C -> option (S * R).

(** calls made one after the other, by whom and with what results *)
Inductive history : S -> list (nat * C * R) -> S -> Prop :=
| history_nil s : history s [] s
| history_call s t c r s' log s'' : seq s c = Some (s', r) -> history s' log s'' -> history s ((t, c, r) :: log) s''.
Fixpoint mine (t : nat) (log : list (nat * C * R)) : list (C * R) :=
  match log with [] => [] | (u, c, r) :: log => if Nat.eqb u t then (c, r) :: mine t log else mine t log end.
(** the calls of a thread that have returned or are about to do so *)
Definition done_ (x : thread C L R) : list (C * R) := got x ++ match at_ x with Leaving c r => [(c, r)] | _ => [] end.

(** There is one order of the calls.  It grows by the call of the thread that makes a step, while that call is being
    made, never changes afterwards, has each call of each thread with the result that was returned, in the order of the
    thread, and explains the object whenever nobody holds the lock. *)
Definition linearizable (s0 : S) (f : nat -> list C) : Prop :=
  exists log : list nat -> list (nat * C * R),
    log [] = [] /\
    (forall ts t m, steps P (ts ++ [t]) (start s0 f) = Some m -> log (ts ++ [t]) = log ts \/ exists c r, log (ts ++ [t]) = log ts ++ [(t, c, r)]) /\
    (forall ts m, steps P ts (start s0 f) = Some m ->
       exists s, history s0 (log ts) s /\ (owner m = None -> shared m = s) /\ forall t, mine t (log ts) = done_ (threads m t)).

(** a process that ends in a call would have ended in it had the calls been made one after the other *)
Definition crashes_sequentially (s0 : S) (f : nat -> list C) : Prop :=
  forall ts m t, steps P ts (start s0 f) = Some m -> crashes P t m ->
    exists log s c, history s0 log s /\ length log <= length ts /\ (forall u, mine u log = done_ (threads m u)) /\ (exists l, at_ (threads m t) = Inside c l) /\ seq s c = None.

(** a thread that is not through can go on, or the one that has the lock can (or ends the process) *)
Definition progress (s0 : S) (f : nat -> list C) : Prop :=
  forall ts m t, steps P ts (start s0 f) = Some m -> ~ (at_ (threads m t) = Between /\ todo (threads m t) = []) ->
    step P t m <> None \/ exists u, owner m = Some u /\ (step P u m <> None \/ crashes P u m).

(** no thread makes more than [n] steps for a call *)
Definition bounded (n : nat) (s0 : S) (f : nat -> list C) : Prop :=
  forall ts m t, steps P ts (start s0 f) = Some m -> count_occ Nat.eq_dec ts t <= n * length (f t).
End Spec.

(** ** The calls with nobody else about *)
Definition rseq (s : resource_info) (c : rcall) : option (resource_info * rresult) :=
  match c with
  | RCall c => match ResourceModel.step s c with Ok (s, b) => Some (s, RBool b) | _ => None end
  | RUsed t => Some (s, RSize (used s t))
  | RLimit t => Some (s, RSize (Z.of_N (limit s t)))
  end.
Definition tseq (K : Type) (compare : K -> K -> Z) (by_pointer : bool) (s : SplayTreeInfo K) (c : tcall K) : option (SplayTreeInfo K * sout K) :=
  sstep K compare by_pointer s (as_sop K c).
Definition kseq (fuel : nat) (lsb : bool) (junk : list N) (s : RandomInfo) (len : nat) : option (RandomInfo * list N) :=
  match SetRandomKey fuel lsb junk s len with Done (s, key, _) => Some (s, key) | _ => None end.
Definition pseq (s : seeds) (c : unit) : option (seeds * N) := Some (xoshiro_next s, xoshiro_value s).
(** a linked list as the sequence of its values (C45) *)
Definition lseq (s : list N * nat) (c : lcall) : option (list N * nat * lresult) :=
  match c with
  | LAppend v => if length (fst s) <? snd s then Some ((fst s ++ [v], snd s), LBool true) else Some (s, LBool false)
  | LRemoveLast => match fst s with [] => Some (s, LVal 0) | _ => Some ((removelast (fst s), snd s), LVal (last (fst s) 0%N)) end
  end.
(** a tree from which nothing is taken while threads add to it and look in it, and one of them walks through it *)
Definition adding (K : Type) (walker t : nat) (c : tcall K) : Prop :=
  match c with
  | TAdd _ _ _ _ | TGet _ _ | TCount _ | TResetIterator _ => True
  | TNextKey _ | TNextValue _ => t = walker
  | _ => False
  end.
Definition calls_of {C R : Type} (log : list (nat * C * R)) : list C := map (fun e => snd (fst e)) log.
Definition results_of {C R : Type} (log : list (nat * C * R)) : list R := map snd log.
