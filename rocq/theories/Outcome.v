(** Outcomes of modelled C calls and bounds-checked memory access.
    [Fatal]: the call ended the process through ThrowFatalException /
    ThrowWizardFatalError (wizard/exception-private.h).  [UB]: the C code would
    access memory outside an allocation (or otherwise be undefined). *)
From Coq Require Import Arith NArith List Lia.
From Verif Require Import Base.
Import ListNotations.

Inductive outcome (A : Type) : Type := Ok (a : A) | Fatal | UB.
Arguments Ok {A} a. Arguments Fatal {A}. Arguments UB {A}.

Definition bind {A B} (m : outcome A) (k : A -> outcome B) : outcome B :=
  match m with Ok a => k a | Fatal => Fatal | UB => UB end.
Notation "'let*' x := m 'in' k" := (bind m (fun x => k))
  (at level 200, x pattern, m at level 100, k at level 200, right associativity).

(** memcpy/memset source read of [n] bytes at [i] *)
Definition mem_read (buf : list N) (i n : nat) : outcome (list N) :=
  if Nat.leb (i + n) (length buf) then Ok (slice buf i n) else UB.

(** memcpy/memset destination write at [i] *)
Definition mem_write (buf : list N) (i : nat) (src : list N) : outcome (list N) :=
  if Nat.leb (i + length src) (length buf) then Ok (splice buf i src) else UB.

(** realloc to [n] bytes: the common prefix is kept, the rest is
    indeterminate ([junk] gives it, universally quantified in theorems) *)
Definition mem_resize (junk : nat -> N) (buf : list N) (n : nat) : list N :=
  firstn n buf ++ map junk (seq (length buf) (n - length buf)).

Fixpoint fold_outcome {S A} (f : S -> A -> outcome S) (l : list A) (s : S) : outcome S :=
  match l with
  | [] => Ok s
  | a :: l' => let* s' := f s a in fold_outcome f l' s'
  end.

Lemma fold_outcome_app {S A} (f : S -> A -> outcome S) l1 l2 s :
  fold_outcome f (l1 ++ l2) s = let* s' := fold_outcome f l1 s in fold_outcome f l2 s'.
Proof.
  revert s. induction l1; intros s; [reflexivity|]. cbn. destruct (f s a); cbn; auto.
Qed.
