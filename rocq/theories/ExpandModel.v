(** The expansion of file names on the command line of the utilities: ExpandFilename, ExpandFilenames,
    IsDirectory and ListFiles of utilities/utility.c, and IsGlob of wizard/token.c.

    Strings are given without their terminating NUL.  [E] is WizardPathExtent.  The file system is given by
    [isdir] (IsDirectory), [accessible] (IsPathAcessible) and [entries], the names readdir gives for a directory, None if it cannot
    be opened; [cwd] is what getcwd tells, [home] the first of HOME and USERPROFILE, [user] the directory getpwnam tells.
    qsort is an argument.  A write behind the end of the vector of arguments is [UB].
    Not modelled: failing allocations, logging. *)
From Coq Require Import NArith ZArith Bool Arith String List.
From Verif Require Import Base Outcome CStringModel OptionModel GlobModel PathModel.
Import ListNotations.

Section Expand.
Variable E : nat.
Variable isdir : list N -> Z.
Variable accessible : list N -> bool.
Variable entries : list N -> option (list (list N)).
Variable cwd : list N.
Variable home : option (list N).
Variable user : list N -> option (list N).
Variable sort : forall A : Type, (A -> A -> Z) -> list A -> list A.

(** CopyWizardString and ConcatenateWizardString into a buffer of E bytes *)
Definition fit (s : list N) : list N := firstn (E - 1) s.
(** utilities/utility.c:84-145 *)
Definition ExpandFilename (path : list N) : list N :=
  match path with
  | 126%N :: rest =>
      match rest with
      | [] | 47%N :: _ => match home with Some h => fit (fit h ++ rest) | None => fit (fit [dot] ++ rest) end
      | _ =>
          let username := fit rest in
          match first_pos is_sep username with
          | None => match user username with Some d => fit d | None => path end
          | Some p => match user (firstn p username) with Some d => fit (fit (fit d ++ [slash]) ++ skipn (S p) username) | None => path end
          end
      end
  | _ => path
  end.

(** token.c:497-526 *)
Definition IsGlob (path : list N) : bool :=
  negb (accessible path) && existsb (fun c => existsb (N.eqb c) [star; qmark; lbrace; rbrace; lbracket; rbracket]) path.

(** 389-398 *)
Definition FileCompare (x y : list N) : Z := match LocaleCompare (x ++ [0%N]) (y ++ [0%N]) with Ok z => z | _ => 0%Z end.
(** 460-502: the loop over the entries; the names are looked up in the working directory *)
Fixpoint list_entries (pattern : list N) (l : list (list N)) : outcome (list (list N)) :=
  match l with
  | [] => Ok []
  | e :: l =>
      if match e with c :: _ => is_dot c | [] => false end then list_entries pattern l
      else if (0 <? isdir e)%Z then let* r := list_entries pattern l in Ok (fit (e ++ [slash]) :: r)
      else let* m := GlobExpression (e ++ [0%N]) (pattern ++ [0%N]) false in
           let* r := list_entries pattern l in Ok (if m then e :: r else r)
  end.
(** 415-513 *)
Definition ListFiles (directory pattern : list N) : outcome (option (list (list N))) :=
  match entries directory with
  | None => Ok None
  | Some l => let* r := list_entries pattern l in Ok (Some (sort (list N) FileCompare r))
  end.

(** vector[count++]=...: count is the length of [v] *)
Definition push (v : list (list N)) (capacity : nat) (x : list N) : outcome (list (list N)) :=
  if length v <? capacity then Ok (v ++ [x]) else UB.
(** 216-230 *)
Fixpoint copy_parameters (n : nat) (args v : list (list N)) (capacity : nat) : outcome (list (list N) * list (list N)) :=
  match n, args with
  | S n, a :: args => let* v := push v capacity a in copy_parameters n args v capacity
  | _, _ => Ok (args, v)
  end.
(** 260-278 *)
Fixpoint transfer (path : list N) (files v : list (list N)) (capacity : nat) : outcome (list (list N)) :=
  match files with
  | [] => Ok v
  | f :: files =>
      let filename := match path with [] => fit f | _ => fit (fit (fit path ++ [slash]) ++ f) end in
      let* v := if accessible filename then push v capacity filename else Ok v in
      transfer path files v capacity
  end.
(** 231-279: what becomes of the argument last copied into the vector, which is not an option; the vector and its capacity *)
Definition expand_last (argc : nat) (option : list N) (v : list (list N)) (capacity : nat) : outcome (list (list N) * nat) :=
  if match option with c :: _ => (c =? 34)%N || (c =? 39)%N | [] => false end then Ok (v, capacity)
  else
    let* filename := GetPathComponent E isdir accessible option TailPath in
    if negb (IsGlob filename) then Ok (v, capacity)
    else
      let* path := GetPathComponent E isdir accessible option HeadPath in
      let path := ExpandFilename path in
      let* files := ListFiles (match path with [] => cwd | _ => path end) filename in
      match files with
      | None => Ok (v, capacity)
      | Some files =>
          if forallb (fun f => (0 <? isdir f)%Z) files then Ok (v, capacity)
          else
            let capacity := argc + length v + length files + 1 in
            let* v := transfer path files (removelast v) capacity in Ok (v, capacity)
      end.
(** 211-280; the fuel is at least the number of arguments *)
Fixpoint expand (fuel argc : nat) (args v : list (list N)) (capacity : nat) : outcome (list (list N) * nat) :=
  match fuel, args with
  | S fuel, option :: args =>
      let* v := push v capacity option in
      let* parameters := ParseWizardOption WizardCommandOptions false option in
      if (0 <? parameters)%Z then
        let* (args, v) := copy_parameters (Z.to_nat parameters) args v capacity in expand fuel argc args v capacity
      else
        let* (v, capacity) := expand_last argc option v capacity in expand fuel argc args v capacity
  | _, _ => Ok (v, capacity)
  end.
(** 175-301 *)
Definition ExpandFilenames (argv : list (list N)) : outcome (list (list N)) :=
  let argc := length argv in
  let* (v, capacity) := expand argc argc argv [] (argc + 1) in
  if length v <? capacity then Ok v else UB.             (* vector[count]=NULL *)
End Expand.
