(** Model of the file lock of wizard/file.c as a system of threads that take
    turns.

    A thread is a number; [proc] gives its process.  A thread has at most one
    AcquireFileInfo of the path in progress or in force (the re-entrant case of
    one thread acquiring twice is not modelled).  The lock file is a directory
    entry for an inode: removing the entry does not take the inode from the
    threads that have it open.  One event is one system call of one thread; the
    two reads of an existing lock file (file.c:167-168) are one event.
    Opening the data file after the lock was obtained (file.c:330-355) is not
    modelled: a failure there releases the lock like DestroyFileInfo does. *)
From Coq Require Import Arith List Bool.
Import ListNotations.

(** content of a lock file: what was written so far; the creator in [NoWords]
    is a note of the model that no thread can read *)
Inductive content := NoWords (creator : nat) | PidOnly (creator : nat) | Full (creator : nat).

(** where a thread is; [i] is the loop variable of file.c:157 *)
Inductive pc :=
| Idle
| Try (i : nat)                (* at the open with O_CREAT | O_EXCL, 159 *)
| Exists (i : nat)             (* errno is EEXIST: at the second open, 164 *)
| Opened (k i : nat)           (* at the reads, 167-168 *)
| Stale                        (* the owner is dead: at remove_utf8, 201 *)
| Created (k i : nat)          (* at the write of the process id, 212 *)
| Wrote (k i : nat)            (* at the write of the thread id, 214 *)
| Failing                      (* returned WizardFalse: at the RelinquishFileLock of DestroyFileInfo, 326-328, 441 *)
| Holding.                     (* returned WizardTrue *)

Record system := mkSys {
  path : option nat;           (* the entry of the lock file *)
  store : nat -> content;      (* inodes *)
  next : nat;                  (* the next inode *)
  pcs : nat -> pc;
  alive : nat -> bool          (* processes *) }.

Definition set {A} (f : nat -> A) (k : nat) (v : A) : nat -> A := fun x => if Nat.eqb x k then v else f x.
Definition goto (s : system) (t : nat) (p : pc) : system := mkSys (path s) (store s) (next s) (set (pcs s) t p) (alive s).
Definition remove (s : system) : system := mkSys None (store s) (next s) (pcs s) (alive s).
Definition put (s : system) (k : nat) (c : content) : system := mkSys (path s) (set (store s) k c) (next s) (pcs s) (alive s).

Inductive event :=
| Begin (t : nat)              (* the thread calls AcquireFileInfo *)
| Step (t : nat)               (* the thread makes its next system call *)
| Fault (t : nat)              (* ... and it fails for another reason *)
| Crash (p : nat).             (* a process dies *)

Section Lock.
Variable proc : nat -> nat.

(** file.c:157-221, one system call of thread [t] *)
Definition system_call (s : system) (t : nat) : system :=
  match pcs s t with
  | Idle => s
  | Try i =>
      if Nat.leb 10 i then goto s t Failing               (* 157, 223-225 *)
      else match path s with
           | None =>                                      (* 159: created *)
               goto (mkSys (Some (next s)) (set (store s) (next s) (NoWords t)) (S (next s)) (pcs s) (alive s))
                    t (Created (next s) i)
           | Some _ => goto s t (Exists i)                (* 160-163 *)
           end
  | Exists i =>
      match path s with
      | None => goto s t Failing                          (* 164-166 *)
      | Some k => goto s t (Opened k i)
      end
  | Opened k i =>
      match store s k with
      | Full u =>
          if Nat.eqb u t then goto s t Holding            (* 178-183 *)
          else if alive s (proc u) then goto s t (Try (i + 1))   (* 207-208 *)
          else goto s t Stale                             (* 195-199 *)
      | _ => goto s t (Try (i + 1))                       (* 173, 207-208 *)
      end
  | Stale => goto (remove s) t Failing                    (* 201-205 *)
  | Created k i => goto (put s k (PidOnly t)) t (Wrote k i)   (* 211-212 *)
  | Wrote k i => goto (put s k (Full t)) t (Try i)        (* 213-214, 220 and 157 *)
  | Failing => goto (remove s) t Idle                     (* 326-328, 441, 811 *)
  | Holding => goto (remove s) t Idle                     (* DestroyFileInfo by the owner, 441, 811 *)
  end.

Definition step (s : system) (e : event) : system :=
  match e with
  | Begin t => if alive s (proc t) then match pcs s t with Idle => goto s t (Try 0) | _ => s end else s
  | Step t => if alive s (proc t) then system_call s t else s
  | Fault t =>
      if alive s (proc t) then
        match pcs s t with
        | Try _ | Exists _ => goto s t Failing            (* 161-162, 165-166 *)
        | Wrote _ _ => goto s t Failing                   (* 218-219 *)
        | _ => s
        end
      else s
  | Crash p => mkSys (path s) (store s) (next s) (pcs s) (set (alive s) p false)
  end.

Definition run (s : system) (es : list event) : system := fold_left step es s.
End Lock.

(** no lock file, all threads idle *)
Definition start : system := mkSys None (fun _ => NoWords 0) 0 (fun _ => Idle) (fun _ => true).
