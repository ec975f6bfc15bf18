(** How a name is opened: OpenBlob (wizard/blob.c:1014-1255), and what is read from and left in the file.

    Strings are given without their terminating NUL.  The build is given by [zlib], [bzip] and [has_popen] (the macros
    WIZARDSTOOLKIT_ZLIB_DELEGATE, _BZLIB_DELEGATE and _HAVE_POPEN); the system by [files], what is found at a name, [writable],
    whether it can be opened for writing, [fd] and [process], whether fdopen and popen succeed, [map], whether a mapping of that many
    bytes is granted and made.  [gzip], [gunzip], [bzip2], [bunzip2] are what the libraries write and deliver (up to the first error).
    A stream that is opened plainly and found to be compressed is assumed to be opened by the library too (only memory can fail).
    Not modelled: failing allocations, buffering, Windows. *)
From Coq Require Import NArith ZArith Bool String Arith List.
From Verif Require Import Base Outcome CStringModel OptionModel CommandModel PathModel.
Import ListNotations.

Record node := mkNode { is_fifo : bool; content : list N }.
Inductive way :=
| Standard                     (* stdin or stdout *)
| Descriptor (number : list N) (* fdopen *)
| Command (line : list N)      (* popen *)
| Fifo | Plain | Mapped | Gzip | Bzip.

Section Open.
Variables zlib bzip has_popen : bool.
Variable MaxBuffer : nat.
Variable E : nat.
Variable isdir : list N -> Z.
Variable accessible : list N -> bool.
Variable files : list N -> option node.
Variable writable : list N -> bool.
Variables fd process : list N -> bool.
Variable map : nat -> bool.

(** blob.c:1148-1179: the first bytes *)
Definition gzip_mark : list N := [31; 139; 8]%N.
Definition bzip_mark : list N := b "BZh".
Definition is_mark (mark bytes : list N) : bool := if list_eq_dec N.eq_dec (firstn 3 bytes) mark then true else false.
(** 1129-1205 *)
Definition open_read (name : list N) (compress : bool) : option way :=
  match files name with
  | None => None
  | Some n =>
      if zlib && (compress && is_mark gzip_mark (content n)) then Some Gzip
      else if bzip && (compress && is_mark bzip_mark (content n)) then Some Bzip
      else if (MaxBuffer <? List.length (content n)) && map (List.length (content n)) then Some Mapped
      else Some Plain
  end.
(** 1206-1253 *)
Definition open_write (name : list N) (compress : bool) : outcome (option way) :=
  let* extension := GetPathComponent E isdir accessible name ExtensionPath in
  Ok (if writable name then
        Some (if zlib && (compress && (is_name extension (b "Z") || is_name extension (b "gz"))) then Gzip
              else if bzip && (compress && is_name extension (b "bz2")) then Bzip
              else Plain)
      else None).
(** 1014-1255 *)
Definition OpenBlob (name : list N) (writing compress : bool) : outcome (option way) :=
  if is_name name (b "-") then Ok (Some Standard)                                                 (* 1049-1059 *)
  else
    let* z := LocaleNCompare (name ++ [0%N]) (b "fd:" ++ [0%N]) 3 in
    if (z =? 0)%Z then Ok (if fd (skipn 3 name) then Some (Descriptor (skipn 3 name)) else None)  (* 1060-1081 *)
    else if has_popen && (List.hd 0%N name =? 124)%N then                                         (* 1082-1107 *)
      Ok (if process (List.tl name) then Some (Command (List.tl name)) else None)
    else if match files name with Some n => is_fifo n | None => false end then Ok (Some Fifo)
    else if writing then open_write name compress
    else Ok (open_read name compress).
End Open.

Section Streams.
Variables gzip gunzip bzip2 bunzip2 : list N -> list N.
(** what ReadBlob delivers of a file, whatever the stream *)
Definition delivered (w : way) (bytes : list N) : list N :=
  match w with Gzip => gunzip bytes | Bzip => bunzip2 bytes | _ => bytes end.
(** what is in the file when [data] was written and the stream closed *)
Definition left_behind (w : way) (data : list N) : list N :=
  match w with Gzip => gzip data | Bzip => bzip2 data | _ => data end.
End Streams.
