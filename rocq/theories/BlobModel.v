(** Model of the streams of wizard/blob.c: files through stdio, and memory
    (a mapped file, or a heap buffer that grows).

    A stdio stream is its bytes, its position and its end-of-file indicator;
    reads of a regular file do not fail.  Pipes and the compressed streams of
    zlib and bzip2 are not modelled.  Sizes are [nat], below 2^63. *)
From Coq Require Import Arith NArith List Bool.
From Verif Require Import Base Outcome.
Import ListNotations.

(** ** stdio *)

Record stdio := mkStdio { s_bytes : list N; s_pos : nat; s_eof : bool }.

(** ISO C 7.21.8.1 *)
Definition fread (n : nat) (f : stdio) : list N * stdio :=
  let d := firstn n (skipn (s_pos f) (s_bytes f)) in
  (d, mkStdio (s_bytes f) (s_pos f + length d) (s_eof f || (length d <? n))).
(** ISO C 7.21.7.5; None is EOF *)
Definition getc (f : stdio) : option N * stdio :=
  match nth_error (s_bytes f) (s_pos f) with
  | Some c => (Some c, mkStdio (s_bytes f) (S (s_pos f)) (s_eof f))
  | None => (None, mkStdio (s_bytes f) (s_pos f) true)
  end.
(** ISO C 7.21.8.2 on a stream open for writing; a gap is filled with zeros *)
Definition fwrite (data : list N) (f : stdio) : stdio :=
  let gap := repeat 0%N (s_pos f - length (s_bytes f)) in
  let old := s_bytes f ++ gap in
  mkStdio (firstn (s_pos f) old ++ data ++ skipn (s_pos f + length data) old)
          (s_pos f + length data) (s_eof f).
(** ISO C 7.21.9.2: the result is 0, not the position *)
Definition fseek (pos : nat) (f : stdio) : stdio := mkStdio (s_bytes f) pos false.
Definition fseek_end (f : stdio) : stdio := fseek (length (s_bytes f)) f.

(** ** BlobInfo, blob.c:101-146 *)

Inductive StreamType := FileStream | BlobStream.

Record BlobInfo := mkBlob {
  b_type : StreamType;
  b_file : option stdio;          (* file_info.file *)
  b_data : option (list N);       (* data; None: not mapped any more, or NULL *)
  b_mapped : bool;
  b_length : nat;
  b_extent : nat;
  b_quantum : nat;
  b_offset : nat;
  b_eof : bool
}.
(** 63: 65536 in blob.c; an argument here (the theorems hold for all values) *)

(** 1131-1151 and 748-758: opened for reading, not mapped.  The magic bytes are
    read and given back; fseek clears the end-of-file indicator. *)
Definition open_file (WizardMaxBlobExtent : nat) (bytes : list N) : BlobInfo :=
  let '(_, f) := fread 3 (mkStdio bytes 0 false) in
  mkBlob FileStream (Some (fseek (s_pos f - Nat.min 3 (length bytes)) f)) None false 0 0 WizardMaxBlobExtent 0 false.
(** 193-201: AttachBlob, and 1198-1201: opened for reading and mapped *)
Definition open_mapped (WizardMaxBlobExtent : nat) (bytes : list N) : BlobInfo :=
  mkBlob BlobStream None (Some bytes) true (length bytes) (length bytes) WizardMaxBlobExtent 0 false.
(** AttachBlob of an allocated buffer *)
Definition open_memory (WizardMaxBlobExtent : nat) (bytes : list N) : BlobInfo :=
  mkBlob BlobStream None (Some bytes) false (length bytes) (length bytes) WizardMaxBlobExtent 0 false.

Definition set_file (b : BlobInfo) (f : stdio) : BlobInfo :=
  mkBlob (b_type b) (Some f) (b_data b) (b_mapped b) (b_length b) (b_extent b) (b_quantum b) (b_offset b) (b_eof b).
(** reading memory that is not there *)
Definition get_data (b : BlobInfo) : outcome (list N) :=
  match b_data b with Some d => Ok d | None => UB end.
Definition get_file (b : BlobInfo) : outcome stdio :=
  match b_file b with Some f => Ok f | None => UB end.

(** 1322-1355: [k] is at most 4 *)
Fixpoint getcs (k : nat) (f : stdio) : list N * stdio :=
  match k with
  | O => ([], f)
  | S k => match getc f with
           | (None, f) => ([], f)
           | (Some c, f) => let '(d, f) := getcs k f in (c :: d, f)
           end
  end.

(** 1470-1481 and 1420-1430 *)
Definition read_memory (b : BlobInfo) (n : nat) : outcome (list N * BlobInfo) :=
  if b_length b <=? b_offset b then
    Ok ([], mkBlob (b_type b) (b_file b) (b_data b) (b_mapped b) (b_length b) (b_extent b) (b_quantum b) (b_offset b) true)
  else
    let count := Nat.min n (b_length b - b_offset b) in
    let* data := get_data b in
    let* d := mem_read data (b_offset b) count in
    Ok (d, mkBlob (b_type b) (b_file b) (b_data b) (b_mapped b) (b_length b) (b_extent b) (b_quantum b)
             (b_offset b + count) (b_eof b || negb (count =? n))).

(** 1286-1435: the bytes put in [data] *)
Definition ReadBlob (b : BlobInfo) (n : nat) : outcome (list N * BlobInfo) :=
  if n =? 0 then Ok ([], b)
  else match b_type b with
       | FileStream =>
           let* f := get_file b in
           let '(d, f) := if n <=? 4 then getcs n f else fread n f in
           Ok (d, set_file b f)
       | BlobStream => read_memory b n
       end.

(** 1460-1501: None is EOF *)
Definition ReadBlobByte (b : BlobInfo) : outcome (option N * BlobInfo) :=
  let* (d, b) := match b_type b with FileStream => ReadBlob b 1 | BlobStream => read_memory b 1 end in
  match d with
  | [c] => Ok (Some c, b)
  | _ => Ok (None, b)
  end.

(** 1549-1560; [eintr]: errno is EINTR, from whatever call set it last.
    None: still running after [turns] turns. *)
Fixpoint read_loop (turns : nat) (eintr : bool) (b : BlobInfo) (n : nat) (got : list N)
  : outcome (option (list N * BlobInfo)) :=
  if n <=? length got then Ok (Some (got, b))
  else match turns with
       | O => Ok None
       | S turns =>
           let* (d, b) := ReadBlob b (n - length got) in
           match d with
           | [] => if eintr then read_loop turns eintr b n got else Ok (Some (got, b))
           | _ => read_loop turns eintr b n (got ++ d)
           end
       end.
(** 1533-1561 *)
Definition ReadBlobChunk (turns : nat) (eintr : bool) (b : BlobInfo) (n : nat) : outcome (option (list N * BlobInfo)) :=
  match b_type b with
  | BlobStream => let* r := ReadBlob b n in Ok (Some r)
  | FileStream => read_loop turns eintr b n []
  end.

(** 471-511 *)
Definition EOFBlob (b : BlobInfo) : outcome bool :=
  match b_type b with
  | FileStream => let* f := get_file b in Ok (s_eof f)
  | BlobStream => Ok (b_eof b)
  end.
(** 1776-1814 *)
Definition TellBlob (b : BlobInfo) : outcome nat :=
  match b_type b with
  | FileStream => let* f := get_file b in Ok (s_pos f)
  | BlobStream => Ok (b_offset b)
  end.

(** ** Writing and the extent *)

(** 1604-1629 and 1654-1667: what is done to the stream *)
Definition extend_file (extent : nat) (f : stdio) : stdio :=
  let f := fseek_end f in
  if extent <=? 0 (* fseek returned 0 *) then f
  else fseek 0 (* the 0 of the fseek before *) (fwrite [0%N] (fseek (extent - 1) f)).

Definition unmap (b : BlobInfo) : BlobInfo :=
  mkBlob (b_type b) (b_file b) None (b_mapped b) (b_length b) (b_extent b) (b_quantum b) (b_offset b) (b_eof b).

(** 1590-1689; reallocation succeeds.  The mapping of blob.c is always made
    with file_info.file set to NULL (1199), so 1654-1674 is not reached. *)
Definition SetBlobExtent (junk : nat -> N) (b : BlobInfo) (extent : nat) : outcome (bool * BlobInfo) :=
  match b_type b with
  | FileStream => let* f := get_file b in Ok (true, set_file b (extend_file extent f))
  | BlobStream =>
      if b_mapped b then Ok (false, unmap b)                     (* 1650-1653 *)
      else
        let* data := get_data b in
        Ok (true, mkBlob (b_type b) (b_file b) (Some (mem_resize junk data extent)) (b_mapped b)
                    (b_length b) extent (b_quantum b) (b_offset b) (b_eof b))
  end.

(** memcpy into the data: a mapping for reading is not writable (944-949) *)
Definition write_data (b : BlobInfo) (src : list N) : outcome (nat * BlobInfo) :=
  let* data := get_data b in
  if b_mapped b then UB
  else
    let* data := mem_write data (b_offset b) src in
    let offset := b_offset b + length src in
    Ok (length src, mkBlob (b_type b) (b_file b) (Some data) (b_mapped b)
                      (if b_length b <=? offset then offset else b_length b)
                      (b_extent b) (b_quantum b) offset (b_eof b)).

(** 1882-2033; a stream open for writing accepts the bytes (its buffer) *)
Definition WriteBlob (junk : nat -> N) (b : BlobInfo) (src : list N) : outcome (nat * BlobInfo) :=
  if length src =? 0 then Ok (0, b)
  else match b_type b with
       | FileStream => let* f := get_file b in Ok (length src, set_file b (fwrite src f))
       | BlobStream =>
           if b_extent b <=? b_offset b + length src then
             if b_mapped b then Ok (0, b)
             else
               let quantum := 2 * b_quantum b in
               let extent := b_extent b + (length src + quantum) in
               let* data := get_data b in
               write_data (mkBlob (b_type b) (b_file b) (Some (mem_resize junk data (extent + 1))) (b_mapped b)
                             (b_length b) extent quantum (b_offset b) (b_eof b)) src
           else write_data b src
       end.

(** 2061-2089 *)
Definition WriteBlobStream (junk : nat -> N) (b : BlobInfo) (src : list N) : outcome (nat * BlobInfo) :=
  match b_type b with
  | FileStream => WriteBlob junk b src
  | BlobStream =>
      if b_extent b <=? b_offset b + length src then
        let b := mkBlob (b_type b) (b_file b) (b_data b) (b_mapped b) (b_length b) (b_extent b)
                   (2 * b_quantum b) (b_offset b) (b_eof b) in
        let* (ok, b) := SetBlobExtent junk b (b_extent b + b_quantum b + length src) in
        if ok then write_data b src else Ok (0, b)
      else write_data b src
  end.
Definition WriteBlobByte (junk : nat -> N) (b : BlobInfo) (c : N) := WriteBlobStream junk b [c].   (* 2091-2097 *)
Definition WriteBlobString := WriteBlobStream.                                           (* 2183-2194, strlen bytes *)

(** ** Closing a stream open for writing *)

(** 236-345 for FileStream: [flushed], [error], [closed] are whether fflush
    succeeded, ferror is set and fclose succeeded; [status]: blob_info->status
    is 0.  The result and the value returned. *)
Definition CloseBlob_file (exempt status flushed error closed : bool) : bool :=
  let status := status && flushed in                            (* 251-253 *)
  if exempt then status                                         (* 289, 294-298 *)
  else closed.                                                  (* 308, 343-344 *)

(** The buffer of the stream: bytes written to the descriptor, bytes pending.
    A failing fflush drops what is pending (glibc, new_do_write). *)
Record buffered := mkBuffered { on_disk : list N; pending : list N }.
Definition fflush (system : bool) (s : buffered) : bool * buffered :=
  match pending s with
  | [] => (true, s)
  | p => if system then (true, mkBuffered (on_disk s ++ p) []) else (false, mkBuffered (on_disk s) [])
  end.
(** fclose flushes and closes the descriptor *)
Definition fclose (system closes : bool) (s : buffered) : bool * buffered :=
  let '(ok, s) := fflush system s in (ok && closes, s).
(** CloseBlob on it: [w1], [w2] are the system's answers to the writes *)
Definition CloseBlob (exempt w1 w2 closes : bool) (s : buffered) : bool * buffered :=
  let '(flushed, s) := fflush w1 s in
  let '(closed, s') := fclose w2 closes s in
  (CloseBlob_file exempt true flushed (negb flushed) closed, if exempt then s else s').
