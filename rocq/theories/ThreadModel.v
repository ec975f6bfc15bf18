(** Threads that call functions of the library on one shared object.

    Any number of threads.  A call is made of steps, one for each access to the shared object that other threads may
    notice: what is read before the lock is taken, LockSemaphoreInfo, the statements under the lock, UnlockSemaphoreInfo
    (wizard/semaphore.c:282-318, 437-484 with POSIX mutexes).  The steps of the threads interleave in any order
    (sequential consistency). *)
From Coq Require Import ZArith NArith Bool Arith List.
From Verif Require Import Base Outcome SplayModel ResourceModel HashModel HmacModel RandomModel.
Import ListNotations.

(** ** The machine *)
(** one step of the statements in a call: it goes on, it returns, or it ends the process (an assertion, a fatal error, NULL is dereferenced) *)
Inductive turn (S L R : Type) := Next (s : S) (l : L) | Finish (s : S) (r : R) | Crash.
Arguments Next {S L R} s l. Arguments Finish {S L R} s r. Arguments Crash {S L R}.
(** [check]: what is returned without the lock, after one look at the object; [locked]: whether the rest is under the lock *)
Record code (S C L R : Type) := mkCode { check : C -> S -> option R; locked : C -> bool; begin : C -> L; go : L -> S -> turn S L R }.
Arguments mkCode {S C L R} check locked begin go. Arguments check {S C L R} c _ _. Arguments locked {S C L R} c _. Arguments begin {S C L R} c _. Arguments go {S C L R} c _ _.
(** where a thread is *)
Inductive place (C L R : Type) := Between | Waiting (c : C) | Inside (c : C) (l : L) | Leaving (c : C) (r : R).
Arguments Between {C L R}. Arguments Waiting {C L R} c. Arguments Inside {C L R} c l. Arguments Leaving {C L R} c r.
(** the calls that it has yet to make, and those that have returned with their results *)
Record thread (C L R : Type) := mkThread { todo : list C; at_ : place C L R; got : list (C * R) }.
Arguments mkThread {C L R} todo at_ got. Arguments todo {C L R} t. Arguments at_ {C L R} t. Arguments got {C L R} t.
Record machine (S C L R : Type) := mkMachine { shared : S; owner : option nat; threads : nat -> thread C L R }.
Arguments mkMachine {S C L R} shared owner threads. Arguments shared {S C L R} m. Arguments owner {S C L R} m. Arguments threads {S C L R} m _.
Section Machine.
Context {S C L R : Type}.
Variable P : code S C L R.
Definition put (f : nat -> thread C L R) (t : nat) (x : thread C L R) : nat -> thread C L R := fun u => if Nat.eqb u t then x else f u.
(** one step of thread [t]; None: it has to wait, is through, or the process ends *)
Definition step (t : nat) (m : machine S C L R) : option (machine S C L R) :=
  let x := threads m t in
  match at_ x with
  | Between =>
      match todo x with
      | [] => None
      | c :: cs =>
          match check P c (shared m) with
          | Some r => Some (mkMachine (shared m) (owner m) (put (threads m) t (mkThread cs Between (got x ++ [(c, r)]))))
          | None => Some (mkMachine (shared m) (owner m) (put (threads m) t (mkThread cs (Waiting c) (got x))))
          end
      end
  | Waiting c =>
      let inside o := Some (mkMachine (shared m) o (put (threads m) t (mkThread (todo x) (Inside c (begin P c)) (got x)))) in
      if locked P c then match owner m with None => inside (Some t) | Some _ => None end else inside (owner m)
  | Inside c l =>
      match go P l (shared m) with
      | Next s l => Some (mkMachine s (owner m) (put (threads m) t (mkThread (todo x) (Inside c l) (got x))))
      | Finish s r => Some (mkMachine s (owner m) (put (threads m) t (mkThread (todo x) (Leaving c r) (got x))))
      | Crash => None
      end
  | Leaving c r => Some (mkMachine (shared m) (if locked P c then None else owner m) (put (threads m) t (mkThread (todo x) Between (got x ++ [(c, r)]))))
  end.
(** the threads in the order in which they make a step *)
Fixpoint steps (ts : list nat) (m : machine S C L R) : option (machine S C L R) :=
  match ts with [] => Some m | t :: ts => match step t m with Some m => steps ts m | None => None end end.
Definition crashes (t : nat) (m : machine S C L R) : Prop := exists c l, at_ (threads m t) = Inside c l /\ go P l (shared m) = Crash.
Definition start (s : S) (f : nat -> list C) : machine S C L R := mkMachine s None (fun t => mkThread (f t) Between []).
End Machine.

(** ** resource.c: everything is under resource_semaphore, which there is (C140, C141) *)
Inductive rcall := RCall (c : call) | RUsed (t : rtype) | RLimit (t : rtype).
Inductive rresult := RBool (b : bool) | RSize (n : Z).
(** where a call is, with the value that it has read *)
Inductive rlocal :=
| AcquireRead (t : rtype) (n : N) | AcquireWrite (t : rtype) (n : N) (u : Z) | AcquireTest (t : rtype) (n : N) | AcquireUndoRead (t : rtype) (n : N) | AcquireUndo (t : rtype) (n : N) (u : Z)
| RelinquishRead (t : rtype) (n : N) | RelinquishWrite (t : rtype) (n : N) (u : Z) | RelinquishTest (t : rtype)
| LimitWrite (t : rtype) (l : N) | UsedRead (t : rtype) | LimitRead (t : rtype).
Definition rgo (l : rlocal) (s : resource_info) : turn resource_info rlocal rresult :=
  match l with
  | AcquireRead t n => Next s (AcquireWrite t n (match t with AreaResource => 0 | _ => used s t end))       (* resource.c:409, 421, 437, 453, 469 *)
  | AcquireWrite t n u => Next (set_used s t (signed (u + Z.of_N n))) (AcquireTest t n)
  | AcquireTest t n =>                                                                                       (* 410-416, 422-430, ... *)
      match t with
      | AreaResource => Finish s (RBool ((area_limit s =? WizardResourceInfinity)%N || (n <? area_limit s)%N))
      | _ => if (limit s t =? WizardResourceInfinity)%N || (used s t <? signed (Z.of_N (limit s t)))%Z then Finish s (RBool true) else Next s (AcquireUndoRead t n)
      end
  | AcquireUndoRead t n => Next s (AcquireUndo t n (used s t))                                               (* 428, 444, 460, 476 *)
  | AcquireUndo t n u => Finish (set_used s t (signed (u - signed (Z.of_N n)))) (RBool false)
  | RelinquishRead t n => Next s (RelinquishWrite t n (match t with AreaResource => 0 | _ => used s t end))  (* 759-808 *)
  | RelinquishWrite t n u =>
      match t with
      | AreaResource => Finish (set_used s t (signed (Z.of_N n))) (RBool true)
      | _ => Next (set_used s t (signed (u - Z.of_N n))) (RelinquishTest t)
      end
  | RelinquishTest t => if (0 <=? used s t)%Z then Finish s (RBool true) else Crash
  | LimitWrite t l => Finish (set_limit s t l) (RBool true)                                                  (* 1025-1054 *)
  | UsedRead t => Finish s (RSize (used s t))                                                                (* 563-592 *)
  | LimitRead t => Finish s (RSize (Z.of_N (limit s t)))                                                     (* 629-658 *)
  end.
Definition rbegin (c : rcall) : rlocal :=
  match c with
  | RCall (Acquire t n) => AcquireRead t n | RCall (Relinquish t n) => RelinquishRead t n | RCall (SetLimit t l) => LimitWrite t l
  | RUsed t => UsedRead t | RLimit t => LimitRead t
  end.
(** resource.c:405-406, 561-562, 627-628, 756-757, 1023-1024 *)
Definition resource_code : code resource_info rcall rlocal rresult := mkCode (fun _ _ => None) (fun _ => true) rbegin rgo.

(** ** splay-tree.c *)
Section Splay.
Variables (K : Type) (compare : K -> K -> Z) (by_pointer : bool).
Notation tree_info := (SplayTreeInfo K).
Inductive tcall := TAdd (mem : bool) (k : K) (v : N) | TGet (k : K) | TRemove (k : K) | TDelete (k : K) | TNextKey | TNextValue | TResetIterator | TReset | TCount.
Inductive tlocal :=
| AddSplay (mem : bool) (k : K) (v : N) | AddLink (mem : bool) (k : K) (v : N) | AddCount
| GetSplay (k : K) | GetLook (k : K)
| TakeSplay (value : bool) (k : K) | TakeOut (value : bool) (k : K) | TakeJoin (l r : tree K) (x : sout K)
| NextSplay (value : bool) | NextLook (value : bool) | Rewind | Empty.
Definition with_root (s : tree_info) (t : tree K) : tree_info := mkSplay K t (sp_key K s) (sp_next K s) (sp_nodes K s).
Definition none (value : bool) : sout K := if value then SVal K 0 else SBool K false.
Definition tgo (l : tlocal) (s : tree_info) : turn tree_info tlocal (sout K) :=
  match l with
  | AddSplay mem k v => match SplaySplayTree K compare by_pointer s k with Some s => Next s (AddLink mem k v) | None => Crash end     (* 162 *)
  | AddLink mem k v =>                                                                                                                (* 163-214 *)
      match sp_root K s with
      | E _ => if mem then Next (mkSplay K (Node K (E K) k v (E K)) None (sp_next K s) (sp_nodes K s)) AddCount else Finish s (SBool K false)
      | Node _ a k' v' b =>
          let c := compare k' k in
          if (c =? 0)%Z then Finish (with_root s (Node K a k v b)) (SBool K true)
          else if negb mem then Finish s (SBool K false)
          else if (c <? 0)%Z then Next (mkSplay K (Node K (Node K a k' v' (E K)) k v b) None (sp_next K s) (sp_nodes K s)) AddCount
          else Next (mkSplay K (Node K a k v (Node K (E K) k' v' b)) None (sp_next K s) (sp_nodes K s)) AddCount
      end
  | AddCount => Finish (mkSplay K (sp_root K s) (sp_key K s) (sp_next K s) (sp_nodes K s + 1)) (SBool K true)                         (* 215 *)
  | GetSplay k => match SplaySplayTree K compare by_pointer s k with Some s => Next s (GetLook k) | None => Crash end                 (* 890 *)
  | GetLook k =>                                                                                                                      (* 891-901: splay_tree->root->key *)
      match sp_root K s with E _ => Crash | Node _ _ k' v _ => Finish s (SVal K (if (compare k' k =? 0)%Z then v else 0)) end
  | TakeSplay value k => match SplaySplayTree K compare by_pointer s k with Some s => Next (clear_key K s) (TakeOut value k) | None => Crash end
                                                                                                                                      (* 616-617, 1275-1276 *)
  | TakeOut value k =>                                                                                                                (* 618-637, 1277-1293: the root is freed and becomes NULL *)
      match sp_root K s with
      | E _ => Crash
      | Node _ a k' v b =>
          if (compare k' k =? 0)%Z then Next (mkSplay K (E K) (sp_key K s) (sp_next K s) (sp_nodes K s - 1)) (TakeJoin a b (if value then SVal K v else SBool K true))
          else Finish s (none value)
      end
  | TakeJoin a b x => Finish (with_root s (join K a b)) x                                                                             (* 638-651, 1294-1307 *)
  | NextSplay value =>                                                                                                                (* 781, 835: a NULL key is compared *)
      match sp_root K s, sp_next K s with
      | E _, _ => Next s (NextLook value)
      | _, None => Crash
      | _, Some k => match SplaySplayTree K compare by_pointer s k with Some s => Next s (NextLook value) | None => Crash end
      end
  | NextLook value =>                                                                                                                 (* 782-790, 836-844 *)
      match sp_root K s with
      | E _ => Crash
      | Node _ _ k v b => Finish (mkSplay K (sp_root K s) (sp_key K s) (first_key K b) (sp_nodes K s)) (if value then SVal K v else SKey K (Some k))
      end
  | Rewind => Finish (ResetSplayTreeIterator K s) (SUnit K)                                                                           (* 1434 *)
  | Empty => Finish (ResetSplayTree K s) (SUnit K)                                                                                    (* 1349-1399 *)
  end.
Definition tbegin (c : tcall) : tlocal :=
  match c with
  | TAdd mem k v => AddSplay mem k v | TGet k => GetSplay k | TRemove k => TakeSplay true k | TDelete k => TakeSplay false k
  | TNextKey => NextSplay false | TNextValue => NextSplay true | TResetIterator | TCount => Rewind | TReset => Empty
  end.
(** lines 613, 778, 832, 887, 936, 1272: what is looked at without the lock *)
Definition tcheck (c : tcall) (s : tree_info) : option (sout K) :=
  let null := match sp_root K s with E _ => true | _ => false end in
  let ended := match sp_next K s with None => true | Some _ => false end in
  match c with
  | TGet _ | TRemove _ => if null then Some (SVal K 0) else None
  | TDelete _ => if null then Some (SBool K false) else None
  | TNextKey => if null || ended then Some (SKey K None) else None
  | TNextValue => if null || ended then Some (SVal K 0) else None
  | TCount => Some (SVal K (sp_nodes K s))
  | TAdd _ _ _ | TResetIterator | TReset => None
  end.
Definition splay_code : code tree_info tcall tlocal (sout K) := mkCode tcheck (fun _ => true) tbegin tgo.
(** the same call in SplayModel.v *)
Definition as_sop (c : tcall) : sop K :=
  match c with
  | TAdd mem k v => SAdd K mem k v | TGet k => SGet K k | TRemove k => SRemove K k | TDelete k => SDelete K k
  | TNextKey => SNextKey K | TNextValue => SNextValue K | TResetIterator => SResetIterator K | TReset => SReset K | TCount => SCount K
  end.
End Splay.

(** ** hashmap.c:147-175 and 1827-1860: the values of a linked list with their capacity *)
Inductive lcall := LAppend (v : N) | LRemoveLast.
Inductive lresult := LBool (b : bool) | LVal (v : N).
Definition lgo (c : lcall) (s : list N * nat) : turn (list N * nat) lcall lresult :=
  match c with
  | LAppend v => Finish (fst s ++ [v], snd s) (LBool true)
  | LRemoveLast => match rev (fst s) with [] => Crash | v :: l => Finish (rev l, snd s) (LVal v) end        (* tail->value *)
  end.
(** lines 157 and 1833 *)
Definition lcheck (c : lcall) (s : list N * nat) : option lresult :=
  match c with
  | LAppend _ => if Nat.eqb (length (fst s)) (snd s) then Some (LBool false) else None
  | LRemoveLast => if Nat.eqb (length (fst s)) 0 then Some (LVal 0) else None
  end.
Definition list_code : code (list N * nat) lcall lcall lresult := mkCode lcheck (fun _ => true) (fun c => c) lgo.

(** ** random.c *)
(** 1068-1121, SetRandomKey: the bytes that are left of the last digest, the digests, the rest of one *)
Section Random.
Variables (fuel : nat) (lsb : bool) (junk : list N).
Definition with_hmac (s : RandomInfo) (h : HMACInfo) : RandomInfo := mkRandomInfo h (r_nonce s) (r_reservoir s) (r_i s) (r_seed s) (r_protocol_major s) (r_protocol_minor s) (r_timestamp s).
Definition with_nonce (s : RandomInfo) (n : list N) : RandomInfo := mkRandomInfo (r_hmac s) n (r_reservoir s) (r_i s) (r_seed s) (r_protocol_major s) (r_protocol_minor s) (r_timestamp s).
Definition with_reservoir (s : RandomInfo) (d : list N) (i : nat) : RandomInfo := mkRandomInfo (r_hmac s) (r_nonce s) d i (r_seed s) (r_protocol_major s) (r_protocol_minor s) (r_timestamp s).
Inductive klocal := KDrain (i : nat) (key : list N) | KMac (i : nat) (key : list N) | KNonce (i : nat) (key : list N) | KCopy (i : nat) (key : list N).
Definition kgo (l : klocal) (s : RandomInfo) : turn RandomInfo klocal (list N) :=
  let digestsize := hm_digestsize (r_hmac s) in
  match l with
  | KDrain i key =>                                                                    (* 1090-1096 *)
      if Nat.eqb i 0 || Nat.eqb (r_i s) 0 then Next s (KMac i key)
      else Next (with_reservoir s (r_reservoir s) (if Nat.eqb (S (r_i s)) digestsize then 0 else S (r_i s))) (KDrain (i - 1) (key ++ [get (r_reservoir s) (r_i s)]))
  | KMac i key =>                                                                      (* 1097-1101, 1109-1113 *)
      if Nat.eqb i 0 then Finish s key
      else match mac fuel lsb junk (r_hmac s) (r_nonce s) with Some h => Next (with_hmac s h) (KNonce i key) | None => Crash end
  | KNonce i key =>                                                                    (* 1102, 1114 *)
      match IncrementRandomNonce (r_nonce s) with Some n => Next (with_nonce s n) (KCopy i key) | None => Crash end
  | KCopy i key =>                                                                     (* 1103-1106, 1115-1119 *)
      if digestsize <=? i then Next s (KMac (i - digestsize) (key ++ firstn digestsize (hm_digest (r_hmac s))))
      else let d := set_string (r_reservoir s) (hm_digest (r_hmac s)) in Finish (with_reservoir s d i) (key ++ firstn i d)
  end.
(** line 1084 *)
Definition random_code : code RandomInfo nat klocal (list N) :=
  mkCode (fun len _ => if Nat.eqb len 0 then Some [] else None) (fun _ => true) (fun len => KDrain len []) kgo.
End Random.

(** 779-794, GetPseudoRandomValue: there is no lock; the value is what is multiplied by normalize *)
Definition seeds := (N * N * N * N)%type.
Inductive plocal := SeedRead | SeedWrite (read : seeds).
Definition pgo (l : plocal) (s : seeds) : turn seeds plocal N :=
  match l with
  | SeedRead => Next s (SeedWrite s)                                                   (* 783-785: alpha and value *)
  | SeedWrite r => Finish (xoshiro_next r) (xoshiro_value r)                           (* 787-793 *)
  end.
Definition pseudo_code : code seeds unit plocal N := mkCode (fun _ _ => None) (fun _ => false) (fun _ => SeedRead) pgo.
