(** Gathering entropy from the random devices (wizard/random.c 336-360, 544-640): the loop that
    reads a device, what becomes of a failure, and the estimate of the entropy.  The chunks
    themselves are in RandomModel.v, the answers of read(2) in FileModel.v. *)
From Coq Require Import NArith ZArith Arith List Bool.
From Verif Require Import Base Outcome FileModel.
Import ListNotations.

(** 336-360: [got] is what has been read; the result is -1 (None) or offset with the bytes; the
    outer None: the schedule has ended *)
Fixpoint read_random (sched : list answer) (f : file) (eintr : bool) (n : nat) (got : list N)
  : option (option (list N) * file * bool) :=
  match n with
  | O => Some (Some got, f, eintr)
  | S _ =>
      match sched with
      | [] => None
      | a :: sched =>
          let '(d, f, eintr) := sys_read a f eintr n in
          match d with
          | [] => if eintr then read_random sched f eintr n got else Some (None, f, eintr)
          | _ => read_random sched f eintr (n - length d) (got ++ d)
          end
      end
  end.
Definition ReadRandom sched f eintr n := read_random sched f eintr n [].

(** 365 *)
Definition MaxEntropyExtent : nat := 64.
(** (size_t) count: 566, 602 *)
Definition size_t (z : Z) : N := Z.to_N (z mod 2 ^ 64).
Definition count_of (r : option (list N)) : Z := match r with Some d => Z.of_nat (length d) | None => (-1)%Z end.
(** string.c 1865-1881: MaxCipherBlocksize is 128 (cipher.h 27); there is enough memory for any
    other length *)
Definition SetStringInfoLength (n : N) : outcome N :=
  if (2 ^ 64 - 1 - n <? 128)%N then Fatal else Ok n.
(** 559-568, 591-604: the chunk that is appended, if the device could be opened *)
Definition gather (sched : list answer) (device : option file) (eintr : bool) : option (outcome (option (list N))) :=
  match device with
  | None => Some (Ok None)
  | Some f =>
      match ReadRandom sched f eintr MaxEntropyExtent with
      | None => None
      | Some (r, _, _) =>
          Some (let* n := SetStringInfoLength (size_t (count_of r)) in
                match r with Some d => Ok (Some (firstn (N.to_nat n) d)) | None => UB end)
      end
  end.

(** ** The estimate, 610-624 *)
(** what IncreaseEntropy leaves in chaos (zip.c 210-259): the one byte of AcquireZIPInfo (zip.c 95)
    if deflateInit fails, the bound if deflate fails, or what deflate made *)
Inductive increase := InitFailed | CodeFailed | Coded.
Section Estimate.
Variable deflate : list N -> list N.
Variable deflateBound : nat -> nat.
Definition chaos_length (i : increase) (entropy : list N) : nat :=
  match i with
  | InitFailed => 1
  | CodeFailed => deflateBound (length entropy)
  | Coded => length (deflate entropy)
  end.
(** 620-622 *)
Definition estimate (i : increase) (entropy : list N) : outcome unit :=
  if Nat.ltb (length entropy) (chaos_length i entropy / 2) then Fatal else Ok tt.
End Estimate.
