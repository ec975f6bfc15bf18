(** What the resource accounting promises, in whole numbers and in terms of
    the calls made and the answers given only. *)
From Coq Require Import ZArith NArith List Bool.
From Verif Require Import ResourceModel.
Import ListNotations.
Local Open Scope Z_scope.

Definition rtype_eqb (a b : rtype) : bool :=
  match a, b with
  | AreaResource, AreaResource | MemoryResource, MemoryResource | MapResource, MapResource
  | DiskResource, DiskResource | FileResource, FileResource => true
  | _, _ => false
  end.

(** what was granted so far and not given back *)
Fixpoint held (t : rtype) (cs : list call) (answers : list bool) : Z :=
  match cs, answers with
  | c :: cs, b :: bs =>
      match c with
      | Acquire u n => if rtype_eqb u t && b then Z.of_N n else 0
      | Relinquish u n => if rtype_eqb u t then - Z.of_N n else 0
      | SetLimit _ _ => 0
      end + held t cs bs
  | _, _ => 0
  end.

(** the limit in force after the calls *)
Fixpoint limit_after (t : rtype) (cs : list call) (l : N) : N :=
  match cs with
  | [] => l
  | SetLimit u l' :: cs => limit_after t cs (if rtype_eqb u t then l' else l)
  | _ :: cs => limit_after t cs l
  end.

(** a request that may be granted: no limit, or still below it afterwards *)
Definition may_grant (l : N) (h : Z) (n : N) : bool :=
  ((l =? 2 ^ 64 - 1)%N || (h + Z.of_N n <? Z.of_N l))%bool.

(** limits the signed counters can be compared with *)
Definition sane_limit (l : N) : Prop := (l = 2 ^ 64 - 1 \/ l < 2 ^ 63)%N.
