(** Fatal errors and the handlers of exceptions: what is shown, which handler is called and with which status the process
    ends (wizard/exception.c, exception-private.h).  Exceptions are those of ExceptionModel.v.  Handlers of the application
    return; what they are called with is recorded.  WizardsToolkitTerminus is in LifeModel.v. *)
From Coq Require Import Arith NArith String Bool List.
From Verif Require Import ExceptionModel.
Import ListNotations.
Local Open Scope N_scope.

(** exception.c:98-106; None is NULL *)
Inductive method := Default | Mine (i : nat).
Record handlers := mkHandlers { warning_ : option method; error_ : option method; fatal_ : option method }.
Definition at_start : handlers := mkHandlers (Some Default) (Some Default) (Some Default).
Definition method_of (h : handlers) (k : handler) : option method :=
  match k with Warning => warning_ h | Error => error_ h | FatalError => fatal_ h end.
(** SetErrorHandler, SetFatalErrorHandler, SetWarningHandler, exception.c:813-887: the previous one is returned *)
Definition SetHandler (h : handlers) (k : handler) (m : option method) : handlers * option method :=
  (match k with
   | Warning => mkHandlers m (error_ h) (fatal_ h)
   | Error => mkHandlers (warning_ h) m (fatal_ h)
   | FatalError => mkHandlers (warning_ h) (error_ h) m
   end, method_of h k).
Fixpoint set_all (h : handlers) (l : list (handler * option method)) : handlers * list (option method) :=
  match l with
  | [] => (h, [])
  | (k, m) :: l => let (h, r) := SetHandler h k m in let (h, rs) := set_all h l in (h, r :: rs)
  end.

Inductive effect := Shown (line : list N) | Called (i : nat) (p : element).
(** what the default handlers print: exception.c:282-293, 323-335, 365-376; [client]: GetClientName() *)
Definition display (client : list N) (p : element) : list effect :=
  match reason p with
  | None => []
  | Some r => [Shown (client ++ b ": " ++ r ++ match description p with Some d => b " (" ++ d ++ b ")" | None => [] end ++ b "." ++ [10])]
  end.
(** what the parent sees of the argument of exit and _exit *)
Definition status_of (n : N) : N := n mod 256.
(** WizardWarning, WizardError, WizardFatalError, exception.c:713-719, 749-755, 783-789; the status if the process ends *)
Definition handle (client : list N) (h : handlers) (c : call) : list effect * option N :=
  let (k, p) := c in
  match method_of h k with
  | None => ([], None)
  | Some (Mine i) => ([Called i p], None)
  | Some Default => (display client p, match k, reason p with FatalError, Some _ => Some (status_of (severity p)) | _, _ => None end)
  end.
Fixpoint handle_all (client : list N) (h : handlers) (cs : list call) : list effect * option N :=
  match cs with
  | [] => ([], None)
  | c :: cs =>
      match handle client h c with
      | (es, Some n) => (es, Some n)
      | (es, None) => let (fs, r) := handle_all client h cs in (es ++ fs, r)
      end
  end.
(** CatchException, exception.c:226-252 *)
Definition Catch (client : list N) (h : handlers) (x : info) : list effect * option N := handle_all client h (fst (CatchException x)).

(** exception.c:1010-1025: "%s @ %s/%s/%.20g" in WizardPathExtent bytes; [reason]: the formatted text, [line]: the digits *)
Definition message_of (reason module function line : list N) : list N :=
  firstn (N.to_nat 4095) (firstn (N.to_nat 4095) reason ++ b " @ " ++ module ++ b "/" ++ function ++ b "/" ++ line).
(** exception-private.h:29-38 *)
Definition CatchWizardException (client : list N) (h : handlers) (s : N) (message : list N) : list effect * option N :=
  Catch client h (snd (ThrowWizardExceptionList GetExceptionInfo s message)).
Definition then_exit (r : list effect * option N) (n : N) : list effect * N :=
  (fst r, match snd r with Some s => s | None => status_of n end).
(** exception-private.h:78-88 *)
Definition ThrowFatalException (client : list N) (h : handlers) (s : N) (message : list N) : list effect * N :=
  then_exit (CatchWizardException client h s message) 127.
(** exception-private.h:65-76: UndefinedException is 0 *)
Definition ThrowWizardFatalError (client : list N) (h : handlers) (domain error : N) (message : list N) : list effect * N :=
  then_exit (CatchWizardException client h 0 message) (N.lor (N.shiftl domain 3) error).
