(** The methods behind AcquireWizardMemory, ResizeWizardMemory and RelinquishWizardMemory (wizard/memory.c), and
    the calls that read and set them.

    Allocators are numbers, 0 is the one of the C library (memory.c:193-199).  A block remembers the allocator it came
    from and its bytes; [UB]: a block is handed to another allocator, or is not there any more, or is written beyond
    its end.  The answers of the allocators are arguments; addresses are not used again. *)
From Coq Require Import Arith NArith Bool List.
From Verif Require Import Base Outcome.
Import ListNotations.

(** memory.c:144-154; blocks: address, allocator, bytes; next: the next address *)
Record memory := mkMemory { acquire_ : nat; resize_ : nat; destroy_ : nat; blocks : list (nat * (nat * list N)); next : nat }.
(** memory.c:193-199 *)
Definition fresh : memory := mkMemory 0 0 0 [] 1.
Fixpoint find (p : nat) (l : list (nat * (nat * list N))) : option (nat * list N) :=
  match l with [] => None | (q, b) :: l => if q =? p then Some b else find p l end.
Definition drop (p : nat) (l : list (nat * (nat * list N))) : list (nat * (nat * list N)) := filter (fun b => negb (fst b =? p)) l.
Definition with_blocks (m : memory) (l : list (nat * (nat * list N))) (n : nat) : memory := mkMemory (acquire_ m) (resize_ m) (destroy_ m) l n.
(** bytes asked for: size == 0 ? 1UL : size, memory.c:592 and 1183 *)
Definition asked (size : N) : nat := N.to_nat (if (size =? 0)%N then 1%N else size).

(** memory.c:586-631; [ok]: the allocator has memory, which holds [junk] *)
Definition AcquireWizardMemory (junk : nat -> N) (ok : bool) (m : memory) (size : N) : memory * option nat :=
  if ok then (with_blocks m ((next m, (acquire_ m, map junk (seq 0 (asked size)))) :: blocks m) (S (next m)), Some (next m))
  else (m, None).
(** memory.c:1039-1085 *)
Definition RelinquishWizardMemory (m : memory) (p : option nat) : outcome memory :=
  match p with
  | None => Ok m
  | Some p =>
      match find p (blocks m) with
      | None => UB
      | Some (a, _) => if a =? destroy_ m then Ok (with_blocks m (drop p (blocks m)) (next m)) else UB
      end
  end.
(** memory.c:1175-1212: [Null]: no memory; [Stays]; [Moves] *)
Inductive answer := Null | Stays | Moves.
Definition ResizeWizardMemory (junk : nat -> N) (r : answer) (m : memory) (p : option nat) (size : N) : outcome (memory * option nat) :=
  match p with
  | None => Ok (AcquireWizardMemory junk (match r with Null => false | _ => true end) m size)
  | Some p =>
      match find p (blocks m) with
      | None => UB
      | Some (a, c) =>
          if a =? resize_ m then
            let c := mem_resize junk c (asked size) in
            match r with
            | Null => let* m := RelinquishWizardMemory m (Some p) in Ok (m, None)
            | Stays => Ok (with_blocks m ((p, (a, c)) :: drop p (blocks m)) (next m), Some p)
            | Moves => Ok (with_blocks m ((next m, (a, c)) :: drop p (blocks m)) (S (next m)), Some (next m))
            end
          else UB
      end
  end.
(** memory.c:657-669 and 1236-1250 *)
Definition overflows (count quantum : N) : bool := (count =? 0)%N || negb (quantum =? wmul 64 count quantum / count)%N.
Definition AcquireQuantumMemory (junk : nat -> N) (ok : bool) (m : memory) (count quantum : N) : memory * option nat :=
  if overflows count quantum then (m, None) else AcquireWizardMemory junk ok m (wmul 64 count quantum).
Definition ResizeQuantumMemory (junk : nat -> N) (r : answer) (m : memory) (p : option nat) (count quantum : N) : outcome (memory * option nat) :=
  if overflows count quantum then let* m := RelinquishWizardMemory m p in Ok (m, None)
  else ResizeWizardMemory junk r m p (wmul 64 count quantum).
(** memory.c:876-887 *)
Definition GetWizardMemoryMethods (m : memory) : nat * nat * nat := (acquire_ m, resize_ m, destroy_ m).
(** memory.c:1281-1295; None is NULL *)
Definition or_else (x : option nat) (y : nat) : nat := match x with Some x => x | None => y end.
Definition SetWizardMemoryMethods (m : memory) (a r d : option nat) : memory :=
  mkMemory (or_else a (acquire_ m)) (or_else r (resize_ m)) (or_else d (destroy_ m)) (blocks m) (next m).

(** Programs with pointers in variables: v=RelinquishWizardMemory(v); v=AcquireQuantumMemory(..); v=ResizeQuantumMemory(v,..); v[i]=x *)
Inductive op :=
| Acquire (v : nat) (count quantum : N) (ok : bool) (junk : nat -> N)
| Resize (v : nat) (count quantum : N) (r : answer) (junk : nat -> N)
| Relinquish (v : nat)
| Write (v i : nat) (x : N)
| Set_ (a r d : option nat).
Definition variables := nat -> option nat.
Definition assign {A} (f : nat -> option A) (v : nat) (x : option A) : nat -> option A := fun w => if w =? v then x else f w.
Definition step (s : memory * variables) (o : op) : outcome (memory * variables) :=
  let (m, vs) := s in
  match o with
  | Acquire v count quantum ok junk =>
      let* m := RelinquishWizardMemory m (vs v) in
      let (m, p) := AcquireQuantumMemory junk ok m count quantum in
      Ok (m, assign vs v p)
  | Resize v count quantum r junk => let* x := ResizeQuantumMemory junk r m (vs v) count quantum in Ok (fst x, assign vs v (snd x))
  | Relinquish v => let* m := RelinquishWizardMemory m (vs v) in Ok (m, assign vs v None)
  | Write v i x =>
      match vs v with
      | None => UB
      | Some p =>
          match find p (blocks m) with
          | None => UB
          | Some (a, c) => let* c := mem_write c i [x] in Ok (with_blocks m ((p, (a, c)) :: drop p (blocks m)) (next m), vs)
          end
      end
  | Set_ a r d => Ok (SetWizardMemoryMethods m a r d, vs)
  end.
Definition run (ops : list op) (s : memory * variables) : outcome (memory * variables) := fold_outcome step ops s.
