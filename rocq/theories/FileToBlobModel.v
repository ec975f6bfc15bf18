(** Model of FileToBlob, wizard/blob.c:546-690.

    The system's answers are explicit: each [read] returns some bytes, or none
    together with whether [errno] is EINTR at that moment (which may be left
    over from an earlier call); after the list of answers the stream is at its
    end.  Allocations succeed; sizes stay below 2^64 (so the check of
    blob.c:604-608 is not modelled).  [junk] is the content of fresh memory. *)
From Coq Require Import Arith NArith List Bool.
From Verif Require Import Base Outcome.
Import ListNotations.

(** what one call of read(2) returns: the bytes and the state of errno *)
Definition answer := (list N * bool)%type.

(** blob.c:593-613, the loop of the branch for streams that cannot be seeked;
    the answers of reads are at most [quantum] bytes long.
    Result: the blob, [i] and [count] at the end of the loop. *)
Fixpoint pipe_loop (junk : nat -> N) (reads : list answer) (quantum extent i : nat) (blob : list N)
  : outcome (list N * nat * nat) :=
  match reads with
  | [] => Ok (blob, i, 0)                                        (* end of file, errno not EINTR *)
  | (data, eintr) :: reads =>
      if (length data =? 0) && negb eintr then Ok (blob, i, 0)   (* 596-601 *)
      else
        let* blob := mem_write blob i data in                    (* 595 *)
        let blob := mem_resize junk blob (i + quantum + 1) in    (* 609-610 *)
        if extent <=? i + length data then Ok (blob, i, length data)   (* 611-612 *)
        else pipe_loop junk reads quantum extent (i + length data) blob
  end.

(** blob.c:577-627; [st_size] is the size fstat reports, 0 for a pipe *)
Definition WizardMaxBufferExtent : nat := 32 * 256.   (* blob.h:28, 8192 *)
Definition FileToBlob_pipe (junk : nat -> N) (reads : list answer) (st_size extent : nat) : outcome (list N * nat) :=
  let quantum := if 0 <? st_size then Nat.min st_size WizardMaxBufferExtent else WizardMaxBufferExtent in
  let blob := map junk (seq 0 quantum) in                        (* 592 *)
  let* (blob, i, count) := pipe_loop junk reads quantum extent 0 blob in
  let length := Nat.min (i + count) extent in                    (* 624 *)
  let* blob := mem_write blob length [0%N] in                    (* 625 *)
  Ok (blob, length).

(** blob.c:668-677, reading a seekable file that could not be mapped *)
Fixpoint seek_loop (reads : list answer) (len i : nat) (blob : list N) : outcome (list N * nat) :=
  if len <=? i then Ok (blob, i)
  else match reads with
       | [] => Ok (blob, i)
       | (data, eintr) :: reads =>
           if (length data =? 0) && negb eintr then Ok (blob, i)
           else let* blob := mem_write blob i data in seek_loop reads len (i + length data) blob
       end.

(** 628-690; [size] is the offset of the end of the file, [mapped] the bytes of
    the mapping if it succeeds; MaxCipherBlocksize is 128 (wizard/cipher.h).
    [None]: NULL is returned. *)
Definition MaxCipherBlocksize : nat := 128.
Definition FileToBlob_seek (junk : nat -> N) (reads : list answer) (mapped : option (list N)) (size extent : nat)
  : outcome (option (list N * nat)) :=
  let len := Nat.min size extent in
  let blob := map junk (seq 0 (len + MaxCipherBlocksize)) in     (* 630-632 *)
  match mapped with
  | Some m =>                                                    (* 646-653 *)
      let* src := mem_read m 0 len in
      let* blob := mem_write blob 0 src in
      let* blob := mem_write blob len [0%N] in Ok (Some (blob, len))
  | None =>
      let* (blob, i) := seek_loop reads len 0 blob in
      if i <? len then Ok None                                   (* 678-687 *)
      else let* blob := mem_write blob len [0%N] in Ok (Some (blob, len))
  end.
