(** Keys of values that belong to threads (wizard/thread.c, thread_.h), in the two variants of the code that can be
    compiled: over pthread_key_create and its kin, and over a word of memory.  (The variant for Windows is compiled if
    MAGICKORE_HAVE_WINTHREADS is defined, which no file of the toolkit does.)
    A program names a key by its number in the order of creation; [pick] is the system's choice of a number or an address,
    given those in use; [junk] is what a new word of memory holds. *)
From Coq Require Import Arith NArith Bool List.
From Verif Require Import Base Outcome.
Import ListNotations.

(** pointers; 0 is NULL *)
Definition value := N.
Inductive op :=
| Create (enough : bool)                      (* whether the system has a key or memory *)
| Delete (i : nat)
| Put (t i : nat) (v : value) (enough : bool) (* thread t *)
| Get (t i : nat).
Inductive result := Done (status : bool) | Value (v : value).

(** [handles]: the numbers or addresses of the keys created so far, None once deleted; [cells t k]: what thread t has for
    number k, or, for addresses, the word at k (in row 0) *)
Record state := mkState { handles : list (option nat); cells : nat -> nat -> value }.
Definition at_start : state := mkState [] (fun _ _ => 0%N).
Definition in_use (l : list (option nat)) : list nat := flat_map (fun h => match h with Some k => [k] | None => [] end) l.
Definition gone (i : nat) (l : list (option nat)) : list (option nat) := firstn i l ++ None :: skipn (S i) l.
(** one thread's cell of one key *)
Definition put (t k : nat) (v : value) (c : nat -> nat -> value) : nat -> nat -> value :=
  fun t' k' => if Nat.eqb t' t && Nat.eqb k' k then v else c t' k'.

Section Variant.
(** WIZARDSTOOLKIT_THREAD_SUPPORT *)
Variable threads : bool.
Variable pick : list nat -> nat.
Variable junk : nat -> value.

(** thread.c:63-75.  POSIX: a new key has NULL in all threads *)
Definition WizardCreateThreadKey (s : state) (enough : bool) : state * result :=
  if enough then
    let k := pick (in_use (handles s)) in
    (mkState (handles s ++ [Some k])
       (fun t k' => if Nat.eqb k' k then (if threads then 0%N else junk (length (handles s))) else cells s t k'), Done true)
  else (s, Done false).
(** thread.c:98-110; a key that does not exist or is gone: undefined *)
Definition WizardDeleteThreadKey (s : state) (i : nat) : outcome (state * result) :=
  match nth i (handles s) None with
  | Some k => Ok (mkState (gone i (handles s)) (cells s), Done true)
  | None => UB
  end.
(** thread.c:171-182 *)
Definition WizardSetThreadValue (s : state) (t i : nat) (v : value) (enough : bool) : outcome (state * result) :=
  match nth i (handles s) None with
  | Some k =>
      if threads then
        if enough then Ok (mkState (handles s) (put t k v (cells s)), Done true) else Ok (s, Done false)
      else Ok (mkState (handles s) (put 0 k v (cells s)), Done true)
  | None => UB
  end.
(** thread.c:134-143 *)
Definition WizardGetThreadValue (s : state) (t i : nat) : outcome (state * result) :=
  match nth i (handles s) None with
  | Some k => Ok (s, Value (if threads then cells s t k else cells s 0 k))
  | None => UB
  end.
Definition step (s : state) (o : op) : outcome (state * result) :=
  match o with
  | Create enough => Ok (WizardCreateThreadKey s enough)
  | Delete i => WizardDeleteThreadKey s i
  | Put t i v enough => WizardSetThreadValue s t i v enough
  | Get t i => WizardGetThreadValue s t i
  end.
Fixpoint run (s : state) (ops : list op) : outcome (list result) :=
  match ops with
  | [] => Ok []
  | o :: ops => let* (s, r) := step s o in let* rs := run s ops in Ok (r :: rs)
  end.
End Variant.
