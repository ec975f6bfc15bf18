(** Model of the StringInfo functions of wizard/string.c.

    A StringInfo is its heap buffer [datum] (the list is the whole allocation)
    and its [length] field.  Simplifications: the path, timestamp and signature
    fields are omitted; allocation never fails and the size_t overflow guards
    ([~length < ...]) are not reached, since a list of 2^64-4096 bytes does not
    fit in memory. *)
From Coq Require Import Arith NArith List Lia.
From Verif Require Import Base Outcome.
Import ListNotations.

(** wizard/cipher.h: MaxCipherBlocksize; wizard/method-attribute.h:106:
    WizardPathExtent *)
Definition MaxCipherBlocksize : nat := 128.
Definition WizardPathExtent : nat := 64 * 64.

Record StringInfo := mkSI { datum : list N; slen : nat }.

(** string.c:179-200 *)
Definition AcquireStringInfo (length : nat) : StringInfo :=
  mkSI (repeat 0%N (length + MaxCipherBlocksize)) length.

(** string.c:226-253; [blob] has [length] readable bytes *)
Definition BlobToStringInfo (blob : list N) : StringInfo :=
  mkSI (blob ++ repeat 0%N WizardPathExtent) (length blob).

(** string.c:332-344 *)
Definition CloneStringInfo (s : StringInfo) : outcome StringInfo :=
  let clone := AcquireStringInfo (slen s) in
  if Nat.eqb (slen s) 0 then Ok clone
  else
    let* src := mem_read (datum s) 0 (slen s + MaxCipherBlocksize) in
    let* d := mem_write (datum clone) 0 src in
    Ok (mkSI d (slen clone)).

(** memcmp of two equally long lists: sign of the first difference *)
Fixpoint memcmp (a b : list N) : comparison :=
  match a, b with
  | x :: a', y :: b' => match N.compare x y with Eq => memcmp a' b' | c => c end
  | _, _ => Eq
  end.

(** string.c:372-389; the int result is modelled by its sign *)
Definition CompareStringInfo (target source : StringInfo) : outcome comparison :=
  let n := Nat.min (slen target) (slen source) in
  let* a := mem_read (datum target) 0 n in
  let* b := mem_read (datum source) 0 n in
  match memcmp a b with
  | Eq => Ok (Nat.compare (slen target) (slen source))
  | c => Ok c
  end.

(** memory-private.h:43-55: smallest 256*2^k not below [length], or [length]
    itself from 131072 on *)
Fixpoint over_allocate (fuel : nat) (extent length : nat) : nat :=
  match fuel with
  | O => extent
  | S f => if Nat.ltb extent length then over_allocate f (2 * extent) length else extent
  end.
Definition OverAllocateMemory (length : nat) : nat :=
  if Nat.ltb length (128 * 1024) then over_allocate 10 256 length else length.

(** string.c:704-730 *)
Definition ConcatenateStringInfo (junk : nat -> N) (s source : StringInfo) : outcome StringInfo :=
  let length := (slen s + slen source)%nat in
  let d := mem_resize junk (datum s) (OverAllocateMemory (length + WizardPathExtent)) in
  let* src := mem_read (datum source) 0 (slen source) in
  let* d := mem_write d length src in
  Ok (mkSI d length).

(** string.c:1761-1766 *)
Definition ResetStringInfo (s : StringInfo) : outcome StringInfo :=
  let* d := mem_write (datum s) 0 (repeat 0%N (slen s)) in
  Ok (mkSI d (slen s)).

(** string.c:1792-1804 *)
Definition SetStringInfo (s source : StringInfo) : outcome StringInfo :=
  if Nat.eqb (slen s) 0 then Ok s
  else
    let* d := mem_write (datum s) 0 (repeat 0%N (slen s)) in
    let* src := mem_read (datum source) 0 (Nat.min (slen s) (slen source)) in
    let* d := mem_write d 0 src in
    Ok (mkSI d (slen s)).

(** string.c:1832-1839; [source] is the caller's whole array *)
Definition SetStringInfoDatum (s : StringInfo) (source : list N) : outcome StringInfo :=
  if Nat.eqb (slen s) 0 then Ok s
  else
    let* src := mem_read source 0 (slen s) in
    let* d := mem_write (datum s) 0 src in
    Ok (mkSI d (slen s)).

(** string.c:1865-1881 *)
Definition SetStringInfoLength (junk : nat -> N) (s : StringInfo) (length : nat) : StringInfo :=
  mkSI (mem_resize junk (datum s) (length + MaxCipherBlocksize)) length.

(** string.c:1937-1953; returns the split-off prefix (NULL = None) and the
    updated argument *)
Definition SplitStringInfo (junk : nat -> N) (s : StringInfo) (offset : nat)
  : outcome (option StringInfo * StringInfo) :=
  if Nat.ltb (slen s) offset then Ok (None, s)
  else
    let* split := SetStringInfo (AcquireStringInfo offset) s in
    let* src := mem_read (datum s) offset (slen s - offset + MaxCipherBlocksize) in
    let* d := mem_write (datum s) 0 src in
    Ok (Some split, SetStringInfoLength junk (mkSI d (slen s)) (slen s - offset)).

(** string.c:2053-2070: the C string is the list of bytes before its
    terminating NUL; [strlen] is [length] for a NUL-free list *)
Definition StringInfoToString (s : StringInfo) : outcome (list N) :=
  let* src := mem_read (datum s) 0 (slen s) in
  Ok (src ++ [0%N]).

(** string.c:2199-2208; [string] holds no NUL *)
Definition StringToStringInfo (string : list N) : outcome StringInfo :=
  SetStringInfoDatum (AcquireStringInfo (length string)) (string ++ [0%N]).
