(** What OpenBlob (wizard/blob.c 1014-1255) takes from the system and what CloseBlob (236-345), SetBlobExtent
    (1590-1687) and DestroyBlob (366-399) give back: streams, processes, mappings, units of the resource for
    mappings, the semaphore and the structure.

    All delegates are compiled in.  What the system answers is an argument.  Bytes are in BlobModel.v, the choice of
    the way to open in OpenModel.v.  stdin and stdout are not taken.  GetBlobSize and SyncBlob take nothing. *)
From Coq Require Import Arith List Bool.
Import ListNotations.

Inductive kind :=
| Stream                (* FILE: fopen, fdopen; fclose *)
| Process               (* popen; pclose *)
| Gzip                  (* gzopen; gzclose *)
| Bzip                  (* BZ2_bzopen; BZ2_bzclose *)
| Mapping (n : nat)     (* mmap; munmap *)
| Units (n : nat)       (* AcquireWizardResource; RelinquishWizardResource, of MapResource *)
| Semaphore | Structure.
Inductive event := Take (k : kind) | Give (k : kind).

(** blob.h *)
Inductive stream := UndefinedStream | FileStream | PipeStream | ZipStream | BZipStream | BlobStream.
(** file: file_info.file, gzfile or bzfile is not NULL (they share their place) *)
Record blob := mkBlob { type : stream; file : bool; exempt : bool; mapped : bool; length_of : nat }.

(** the name as OpenBlob reads it, and the mode *)
Inductive named := Dash | Descriptor | Command | Path.
Inductive extension := Zext | Bext | Other.
(** what the system answers *)
Record answers := mkAnswers {
  opens : bool;                 (* fdopen, popen, fopen *)
  fifo : bool;
  gzip_mark : bool; bzip_mark : bool; recoded : bool;   (* the first bytes; gzopen or BZ2_bzopen *)
  size : nat; granted : bool; maps : bool }.            (* st_size; AcquireWizardResource; mmap *)

(** 1136-1205, the stream has been opened *)
Definition open_read (MaxBuffer : nat) (compress : bool) (a : answers) : blob * list event :=
  if compress && gzip_mark a then
    (mkBlob (if recoded a then ZipStream else FileStream) (recoded a) false false 0,
     [Take Stream; Give Stream] ++ (if recoded a then [Take Gzip] else []))
  else if compress && bzip_mark a then
    (mkBlob (if recoded a then BZipStream else FileStream) (recoded a) false false 0,
     [Take Stream; Give Stream] ++ (if recoded a then [Take Bzip] else []))
  else if (MaxBuffer <? size a) && granted a then
    if maps a then (mkBlob BlobStream false false true (size a), [Take Stream; Take (Units (size a)); Take (Mapping (size a)); Give Stream])
    else (mkBlob FileStream true false false 0, [Take Stream; Take (Units (size a)); Give (Units (size a))])
  else (mkBlob FileStream true false false 0, [Take Stream]).
(** 1206-1241 *)
Definition open_write (compress : bool) (e : extension) (a : answers) : option (blob * list event) :=
  if negb (opens a) then None
  else match compress, e with
       | true, Zext => Some (mkBlob ZipStream true false false 0, [Take Gzip])
       | true, Bext => Some (mkBlob BZipStream true false false 0, [Take Bzip])
       | _, _ => Some (mkBlob FileStream true false false 0, [Take Stream])
       end.
(** 1014-1255; a blob that is not opened is relinquished (1075, 1103, 1121, 1250) *)
Definition OpenBlob (MaxBuffer : nat) (n : named) (write compress : bool) (e : extension) (a : answers) : option blob * list event :=
  let first := [Take Structure; Take Semaphore] in                               (* 1027, 1034 and 756 *)
  let failed := (None, first ++ [Give Structure]) in
  match n with
  | Dash => (Some (mkBlob FileStream true true false 0), first)                  (* 1049-1059 *)
  | Descriptor => if opens a then (Some (mkBlob FileStream true true false 0), first ++ [Take Stream]) else failed
  | Command => if opens a then (Some (mkBlob PipeStream true true false 0), first ++ [Take Process]) else failed
  | Path =>
      if fifo a then if opens a then (Some (mkBlob FileStream true true false 0), first ++ [Take Stream]) else failed
      else if write then match open_write compress e a with Some (b, l) => (Some b, first ++ l) | None => failed end
      else if opens a then let (b, l) := open_read MaxBuffer compress a in (Some b, first ++ l) else failed
  end.

(** 422-444 *)
Definition DetachBlob (b : blob) : blob * list event :=
  (mkBlob UndefinedStream false false false 0, if mapped b then [Give (Mapping (length_of b)); Give (Units (length_of b))] else []).
(** 236-345 *)
Definition CloseBlob (b : blob) : blob * list event :=
  match type b with
  | UndefinedStream => (b, [])                                                   (* 249-250 *)
  | _ =>
      if exempt b then (mkBlob UndefinedStream (file b) (exempt b) (mapped b) (length_of b), [])   (* 294-298 *)
      else
        let l := match type b with
                 | FileStream => if file b then [Give Stream] else []
                 | PipeStream => [Give Process]
                 | ZipStream => [Give Gzip]
                 | BZipStream => [Give Bzip]
                 | _ => []
                 end in
        let (b, d) := DetachBlob b in (b, l ++ d)                                (* 342 *)
  end.
(** 1640-1655: file_info.file of a mapped blob is NULL (1199), which ends the call *)
Definition SetBlobExtent (b : blob) : blob * list event :=
  match type b with
  | BlobStream => if mapped b then (b, [Give (Mapping (length_of b)); Give (Units (length_of b))]) else (b, [])
  | _ => (b, [])
  end.
(** 366-399; the count of references is 1 (755) and nothing raises it *)
Definition DestroyBlob (b : blob) : list event :=
  let (b, l) := CloseBlob b in
  l ++ (if mapped b then [Give (Mapping (length_of b)); Give (Units (length_of b))] else []) ++ [Give Semaphore; Give Structure].

Inductive op := Use | Close | Extend.
Definition step (b : blob) (o : op) : blob * list event :=
  match o with Use => (b, []) | Close => CloseBlob b | Extend => SetBlobExtent b end.
Fixpoint run (b : blob) (os : list op) : list event :=
  match os with
  | [] => DestroyBlob b
  | o :: os => let (b, l) := step b o in l ++ run b os
  end.
(** a blob from its opening to its end *)
Definition life (MaxBuffer : nat) (n : named) (write compress : bool) (e : extension) (a : answers) (os : list op) : list event :=
  match OpenBlob MaxBuffer n write compress e a with
  | (Some b, l) => l ++ run b os
  | (None, l) => l
  end.
