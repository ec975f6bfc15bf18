(** The calls that wizard/zip.c, bzip.c, lzma.c and entropy.c make of the libraries: in which
    order, with which results, and what is reported.  The coding itself is in EntropyModel.v.

    A library is an argument: it answers each call with a status that may depend on all that has
    happened before.  Asserts, log events and running out of memory in SetStringInfoLength are not
    modelled. *)
From Coq Require Import NArith List Bool.
Import ListNotations.

Inductive entropy := BZIP | LZMA | ZIP.
(** deflateInit, BZ2_bzCompressInit, lzma_easy_encoder, inflateInit, ...; deflate, BZ2_bzCompress,
    lzma_code, ...; deflateEnd, BZ2_bzCompressEnd, lzma_end, ... *)
Inductive call := Init (e : entropy) | Code (e : entropy) | End (e : entropy).
(** Z_OK, BZ_OK, LZMA_OK; Z_STREAM_END, ...; anything else (of lzma_ret, none is negative) *)
Inductive status := OK | StreamEnd | Failed.
Inductive event :=
| Called (c : call) (s : status)
| Room (n : N)       (* SetStringInfoLength of chaos *)
| Thrown.            (* ThrowWizardException *)
Definition trace := list event.

Section Functions.
(** what a call returns, given all that went before *)
Variable library : trace -> call -> status.
(** total_out, given all that went before *)
Variable total_out : trace -> N.

Definition M (A : Type) := trace -> A * trace.
Definition ret {A} (a : A) : M A := fun t => (a, t).
Definition bind {A B} (m : M A) (f : A -> M B) : M B := fun t => let '(a, t') := m t in f a t'.
Notation "'do' x <- m ; k" := (bind m (fun x => k)) (at level 200, x name, m at level 100, k at level 200).

Definition invoke (c : call) : M status := fun t => let s := library t c in (s, t ++ [Called c s]).
Definition set_length (n : N) : M unit := fun t => (tt, t ++ [Room n]).
Definition set_total_out : M unit := fun t => (tt, t ++ [Room (total_out t)]).
Definition throw : M bool := fun t => (false, t ++ [Thrown]).

(** zip.c:210-259, zip.c:291-339, bzip.c:217-265, bzip.c:297-344: [room] is deflateBound (zip.c:238),
    len+len/100+600 (bzip.c:244), or the length that was asked for (zip.c:320, bzip.c:325) *)
Definition Zip (e : entropy) (room : N) : M bool :=
  do status <- invoke (Init e);
  match status with
  | OK =>
    do _ <- set_length room;
    do status <- invoke (Code e);
    match status with
    | StreamEnd =>
      do _ <- set_total_out;
      do status <- invoke (End e);
      match status with OK => ret true | _ => throw end
    | _ => throw
    end
  | _ => throw
  end.
(** lzma.c:213-279: the exception is thrown first, then the coder is ended *)
Definition IncreaseLZMA (room : N) : M bool :=
  do _ <- set_length room;
  do status <- invoke (Init LZMA);
  match status with
  | OK =>
    do status <- invoke (Code LZMA);
    match status with
    | OK =>
      do status <- invoke (Code LZMA);
      match status with
      | StreamEnd | OK =>
        do _ <- set_total_out;
        do _ <- invoke (End LZMA);
        ret true
      | Failed => do r <- throw; do _ <- invoke (End LZMA); ret r
      end
    | _ => do r <- throw; do _ <- invoke (End LZMA); ret r
    end
  | _ => do r <- throw; do _ <- invoke (End LZMA); ret r
  end.
(** lzma.c:311-374: the status of the first call is compared with 0 only (lzma.c:351), and is
    never below it *)
Definition RestoreLZMA (room : N) : M bool :=
  do _ <- set_length room;
  do status <- invoke (Init LZMA);
  match status with
  | OK =>
    do _ <- invoke (Code LZMA);
    do status <- invoke (Code LZMA);
    match status with
    | StreamEnd | OK =>
      do _ <- set_total_out;
      do _ <- invoke (End LZMA);
      ret true
    | Failed => do r <- throw; do _ <- invoke (End LZMA); ret r
    end
  | _ => do r <- throw; do _ <- invoke (End LZMA); ret r
  end.

(** ** entropy.c:283-330, 362-409 *)
Inductive request := Increase (e : entropy) (room : N) | Restore (e : entropy) (room : N).
Definition perform (r : request) : M bool :=
  match r with
  | Increase LZMA room => IncreaseLZMA room
  | Restore LZMA room => RestoreLZMA room
  | Increase e room | Restore e room => Zip e room
  end.
(** any number of requests, one after the other *)
Fixpoint performs (rs : list request) : M (list bool) :=
  match rs with
  | [] => ret []
  | r :: rs => do b <- perform r; do bs <- performs rs; ret (b :: bs)
  end.
End Functions.
