(** Temporary files: wizard/resource.c:137-352 (AcquireUniqueFilename, GetPathTemplate,
    AcquireUniqueFileResource), 843-869 (RelinquishUniqueFileResource) and 983-995
    (ResourceComponentTerminus).

    Strings are given without their terminating NUL.  [P] is WizardPathExtent, the
    size of the buffer for the name.  The file system is given by the names that
    remove(3) would remove: files and empty directories.  mkstemp, open and the
    bytes of GetRandomKey are arguments, one [try] for each turn of the loop.  The
    keys of the splay-tree temporary_resources are a list; they are compared by
    LocaleCompare (splay-tree.c:410-420), so no two of them are alike.  Where a
    name is read in front of its start the outcome is [UB]. *)
From Coq Require Import NArith ZArith Bool String Arith List.
From Verif Require Import Base Outcome CStringModel OptionModel ArgvModel TokenModel.
Import ListNotations.

(** resource.c:273-275 *)
Definition portable_filename : list N := b "ABCDEFGHIJKLMNOPQRSTUVWXYZabcdefghijklmnopqrstuvwxyz0123456789_-".
(** resource.c:305-306, 328-329 *)
Definition portable (c : N) : N := nth (N.to_nat (N.land c 63)) portable_filename 0%N.

Record world := { present : list N -> bool; temporary : list (list N); used : N }.
Definition add_file (f : list N -> bool) (name : list N) : list N -> bool := fun n => if list_eq_dec N.eq_dec n name then true else f n.
Definition remove_file (f : list N -> bool) (name : list N) : list N -> bool := fun n => if list_eq_dec N.eq_dec n name then false else f n.

Section Temp.
Variable P : nat.
(** getpid, printed *)
Variable pid : list N.
(** stat tells that the name is a directory *)
Variable isdir : list N -> bool.
(** the first of WIZARD_TMPDIR, TMPDIR and P_tmpdir that is defined *)
Variable tmpdir : option (list N).
(** resource_info.file_limit; None is WizardResourceInfinity *)
Variable file_limit : option N.

Definition Xs : list N := b "XXXXXXXXXXXX".
Definition template : list N := b "wizard-" ++ pid ++ Xs.
(** FormatLocaleString cuts at the buffer *)
Definition cut (s : list N) : list N := firstn (P - 1) s.
(** resource.c:188-248: the status and the name *)
Definition GetPathTemplate (path : list N) : bool * list N :=
  let directory := match path with [] => tmpdir | _ => Some path end in
  match directory with
  | None => (true, cut template)
  | Some d =>
      if P - 25 <? length d then (false, cut template)
      else if negb (isdir d) then (false, cut template)
      else if (last d 0 =? 47)%N then (true, cut (d ++ template)) else (true, cut (d ++ b "/" ++ template))
  end.

(** resource.c:301-307, 324-330: the characters from the twelfth before the end on *)
Definition write_key (filename key : list N) : outcome (list N) :=
  if length filename <? 12 then UB
  else Ok (firstn (length filename - 12) filename ++ map portable key ++ skipn (length filename - 12 + length key) filename).

(** one turn: the bytes of the first key; the six characters mkstemp found, None if it failed;
    the bytes of the second key; whether open can create a file in this place *)
Record try := { key6 : list N; found : option (list N); key12 : list N; can_create : bool }.
(** mkstemp: the last six characters are replaced by others so that there is no such file *)
Definition mkstemp (f : list N -> bool) (t : try) (filename : list N) : option (list N) :=
  match found t with
  | Some six =>
      let name := firstn (length filename - 6) filename ++ six in
      if list_eq_dec N.eq_dec (skipn (length filename - 6) filename) (b "XXXXXX") then if f name then None else Some name else None
  | None => None
  end.
(** resource.c:290-335: the name of the file that was created, None if file is -1 *)
Fixpoint search (f : list N -> bool) (path : list N) (tries : list try) : outcome (option (list N)) :=
  match tries with
  | [] => Ok None
  | t :: tries =>
      let filename := snd (GetPathTemplate path) in
      let* filename := write_key filename (key6 t) in
      match mkstemp f t filename with
      | Some name => Ok (Some name)
      | None =>
          let* filename := write_key filename (key12 t) in
          if f filename then search f path tries                  (* EEXIST *)
          else Ok (if can_create t then Some filename else None)
      end
  end.
(** AcquireWizardResource(FileResource,1), resource.c:464-478 *)
Definition granted (used : N) : bool := match file_limit with None => true | Some l => (used + 1 <? l)%N end.
(** AddValueToSplayTree(temporary_resources,filename,NULL), splay-tree.c:152-218: a key that is
    alike is relinquished, and relinquishing it removes its file (resource.c:181-186) *)
Definition register (w : world) (name : list N) : world :=
  match find (fun t => like t name) (temporary w) with
  | Some t => {| present := remove_file (present w) t; temporary := name :: filter (fun t => negb (like t name)) (temporary w); used := used w |}
  | None => {| present := present w; temporary := name :: temporary w; used := used w |}
  end.
(** resource.c:250-352 *)
Definition AcquireUniqueFileResource (w : world) (path : list N) (tries : list try) : outcome (option (list N) * world) :=
  let* created := search (present w) path tries in
  match created with
  | None => Ok (None, w)
  | Some name =>
      let w := {| present := add_file (present w) name; temporary := temporary w; used := used w |} in
      if granted (used w) then
        let w := register w name in
        Ok (Some name, {| present := present w; temporary := temporary w; used := used w + 1 |})
      else Ok (None, {| present := remove_file (present w) path; temporary := temporary w; used := used w |})
  end.

(** resource.c:843-869: DeleteNodeFromSplayTree relinquishes the key, and with it the file *)
Definition RelinquishUniqueFileResource (w : world) (path : list N) (trash : bool) : bool * world :=
  let w :=
    match find (fun t => like t path) (temporary w) with
    | Some p => {| present := remove_file (present w) p; temporary := filter (fun t => negb (like t p)) (temporary w); used := used w |}
    | None => w
    end in
  if negb trash then (true, w)
  else (present w path, {| present := remove_file (present w) path; temporary := temporary w; used := used w |}).

(** resource.c:983-995: DestroySplayTree relinquishes all keys *)
Definition ResourceComponentTerminus (w : world) : world :=
  {| present := fold_left remove_file (temporary w) (present w); temporary := []; used := used w |}.
End Temp.
