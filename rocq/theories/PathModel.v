(** Model of the path functions of wizard/utility.c: AppendFileExtension
    (94-108), ChopPathComponents (378-385), GetPathComponent (415-562) and
    GetPathComponents (576-620).

    Strings are given without their terminating NUL.  [E] is WizardPathExtent,
    the size of every buffer.  The file system is given by [isdir] (IsDirectory,
    860-882) and [accessible] (IsPathAcessible).  The separator is '/'.
    Reading in front of a buffer or behind its end is [UB].
    CopyWizardString on overlapping parts of one buffer copies forwards
    (string.c:762-806) and so moves the text. *)
From Coq Require Import NArith ZArith Bool Arith List.
From Verif Require Import Base Outcome.
Import ListNotations.

Definition slash : N := 47%N.
Definition dot : N := 46%N.
Definition is_sep (c : N) : bool := (c =? slash)%N.
Definition is_dot (c : N) : bool := (c =? dot)%N.

(** the pieces strrchr-like loops look for: the last position above 0 at which
    the test holds, 0 if there is none *)
Fixpoint last_pos (test : N -> bool) (l : list N) (i best : nat) : nat :=
  match l with
  | [] => best
  | c :: l => last_pos test l (S i) (if test c && (0 <? i) then i else best)
  end.
Definition rpos (test : N -> bool) (l : list N) : nat := last_pos test l 0 0.
Fixpoint first_pos (test : N -> bool) (l : list N) : option nat :=
  match l with
  | [] => None
  | c :: l => if test c then Some 0 else option_map S (first_pos test l)
  end.
Definition char_at (l : list N) (i : nat) : N := nth i l 0%N.

Inductive path_type := FilesystemPath | RootPath | HeadPath | TailPath | BasePath | ExtensionPath | SubnodePath | CanonicalPath.

Section Path.
Variable E : nat.
Variable isdir : list N -> Z.
Variable accessible : list N -> bool.

(** utility.c:440-456: filesystem and component.  The loop that moves the rest
    to the front goes on to the old end: it reads as many bytes behind it as
    the colon is from the start. *)
Definition strip_filesystem (path component : list N) : outcome (list N * list N) :=
  match first_pos (fun c => (c =? 58)%N) component with
  | Some k =>
      if ((isdir path <? 0)%Z && negb (accessible path))%bool then
        let filesystem := firstn k component in
        if (isdir filesystem <? 0)%Z then Ok ([], component)
        else if (k + length component <? E)%nat then Ok (filesystem, skipn (S k) component)
        else UB
      else Ok ([], component)
  | None => Ok ([], component)
  end.

(** utility.c:457-473: subnode and component *)
Definition strip_subnode (component : list N) : list N * list N :=
  let n := length component in
  if ((char_at component (n - 1) =? 93)%N && existsb (fun c => (c =? 91)%N) component)%bool then
    let q := rpos (fun c => (c =? 91)%N) (firstn (n - 1) component) in
    if (char_at component q =? 91)%N then (firstn (n - 1 - S q) (skipn (S q) component), firstn q component)
    else ([], component)
  else ([], component).

(** utility.c:504-509 *)
Definition tail_of (component : list N) (p : nat) : list N :=
  if is_sep (char_at component p) then skipn (S p) component else component.

(** utility.c:415-562 *)
Definition GetPathComponent (path : list N) (type : path_type) : outcome (list N) :=
  match path with
  | [] => Ok []
  | _ =>
      let* (filesystem, component) := strip_filesystem path (firstn (E - 1) path) in
      let '(subnode, component) := strip_subnode component in
      let p := rpos is_sep component in
      match type with
      | FilesystemPath => Ok filesystem
      | RootPath =>
          match component with
          | [] => UB                                  (* component[-1] *)
          | _ =>
              let p := rpos (fun c => is_sep c || is_dot c) component in
              Ok (if is_dot (char_at component p) then firstn p component else component)
          end
      | HeadPath => Ok (firstn p component)
      | TailPath => Ok (tail_of component p)
      | BasePath =>
          let t := tail_of component p in
          let p := rpos is_dot t in
          Ok (if (0 <? p)%nat then firstn p t else t)
      | ExtensionPath =>
          let t := tail_of component p in
          let p := rpos is_dot t in
          let x := if is_dot (char_at t p) then skipn (S p) t else [] in
          Ok (match first_pos (fun c => (c =? 63)%N) x with Some k => firstn k x | None => x end)
      | SubnodePath => Ok subnode
      | CanonicalPath => Ok component
      end
  end.

(** utility.c:94-108; ConcatenateWizardString cuts at the buffer *)
Definition AppendFileExtension (extension filename : list N) : outcome (list N) :=
  match extension, filename with
  | [], _ | _, [] => Ok filename
  | _, _ =>
      let* root := GetPathComponent filename RootPath in
      Ok (firstn (E - 1) (firstn (E - 1) (firstn (E - 1) root ++ [dot]) ++ extension))
  end.

(** utility.c:378-385 *)
Fixpoint ChopPathComponents (path : list N) (components : nat) : outcome (list N) :=
  match components with
  | O => Ok path
  | S n => let* path := GetPathComponent path HeadPath in ChopPathComponents path n
  end.
End Path.

(** utility.c:600-617: one component per turn *)
Fixpoint split_off (p : list N) : list N * list N :=
  match p with
  | [] => ([], [])
  | c :: p' => if is_sep c then ([], p) else let '(x, q) := split_off p' in (c :: x, q)
  end.
Fixpoint components_loop (n : nat) (p : list N) : list (list N) :=
  match n with
  | O => []
  | S n => let '(x, q) := split_off p in x :: components_loop n (tl q)
  end.
(** utility.c:576-620 *)
Definition GetPathComponents (path : list N) : list (list N) :=
  components_loop (S (length (filter is_sep path))) path.
