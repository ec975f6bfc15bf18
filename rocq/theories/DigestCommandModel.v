(** The command line of the utility digest: DigestCommand and AuthenticateDigest (utilities/digest.c:117-790), and the exit code
    WizardMain (811-872) makes of what they return.  The same text is in all utilities.

    Strings are given without their terminating NUL.  [expand] is ExpandFilenames (ExpandModel.v); [can_write] whether a file can be
    opened for writing; [describe] is the description of a file with a hash (727-781, ScanModel.write_digest), None if it cannot be opened; [check] what
    is reported for a digest file (ScanModel.AuthenticateDigest) and whether a file it names cannot be opened, None if the digest file cannot be opened.
    A digest file that says its hash is undefined is taken for one that does not (501).
    strcasecmp is taken for LocaleCompare, with which it agrees on ASCII.
    Not modelled: failing writes, what is printed on the terminal, memory that is not freed. *)
From Coq Require Import NArith ZArith Bool String Arith List.
From Verif Require Import Base Outcome CStringModel OptionModel CommandModel.
Import ListNotations.

(** the status, whether an exception of at least ErrorException was thrown, and the file written with its text *)
Inductive ending :=
| Returned (status error : bool) (written : option (list N * list N))
| Exited (written : option (list N * list N)).
Inductive turn := Refuse | Leave | Take (hash : Z) (rest : list (list N)) | Open_ (name : list N) (rest : list (list N)).

Section Digest.
Variable expand : list (list N) -> outcome (list (list N)).
Variable can_write : list N -> bool.
Variable describe : Z -> list N -> option (list N).
Variable check : list N -> outcome (option (list N * bool)).

Definition starts (c : N) (s : list N) : bool := match s with x :: _ => (x =? c)%N | [] => false end.
(** i++; the argument behind the option, which is there since i was less than argc-1 *)
Definition parameter (rest : list (list N)) (k : list N -> list (list N) -> outcome turn) : outcome turn :=
  match rest with [] => UB | a :: rest => k a rest end.
Definition debug_option (opt : list N) (hash : Z) (rest : list (list N)) : outcome turn :=
  if is_name opt (b "-debug") then
    parameter rest (fun a rest =>
      let* t := ParseWizardOption WizardLogEventOptions true a in
      Ok (if ((t =? -1) || (t =? 0))%Z then Refuse else Take hash rest))
  else Ok Refuse.
Definition log_option (name : list N) (hash : Z) (rest : list (list N)) : outcome turn :=
  if is_name (b "log") name then
    parameter rest (fun a rest => Ok (if existsb (N.eqb 37) a then Take hash rest else Refuse))
  else Ok Refuse.
Definition version_option (opt : list N) : outcome turn := Ok (if is_name opt (b "-version") then Leave else Refuse).

(** digest.c:595-710: one argument of DigestCommand *)
Definition digest_turn (hash : Z) (opt : list N) (rest : list (list N)) : outcome turn :=
  if negb (starts 45 opt) then Ok (Open_ opt rest)
  else
    let name := List.tl opt in
    let c := List.hd 0%N name in
    if (c =? 100)%N then debug_option opt hash rest
    else if (c =? 104)%N then
      if is_name (b "hash") name then
        parameter rest (fun a rest =>
          let* t := ParseWizardOption WizardHashOptions false a in Ok (if (t <? 0)%Z then Refuse else Take t rest))
      else if is_name (b "help") name || is_name (b "-help") name then Ok Leave
      else Ok Refuse
    else if (c =? 108)%N then
      if is_name (b "list") name then
        parameter rest (fun a rest =>
          if is_name a (b "configure") then Ok Leave
          else let* t := ParseWizardOption WizardListOptions false a in Ok (if (t <? 0)%Z then Refuse else Leave))
      else log_option name hash rest
    else if (c =? 118)%N then version_option opt
    else Ok Refuse.
(** what ends a loop: all was read, with so many files; an option is refused; the process exits; a file cannot be opened *)
Inductive stop := Through (files : nat) | Refused | Left_ | Unreadable.
(** 593-783: the text that is written, how it ended, whether a file could not be opened *)
Fixpoint digest_loop (fuel : nat) (hash : Z) (args : list (list N)) : outcome (list N * stop * bool) :=
  match fuel, args with
  | S fuel, opt :: ((_ :: _) as rest) =>
      let* t := digest_turn hash opt rest in
      match t with
      | Refuse => Ok ([], Refused, false)
      | Leave => Ok ([], Left_, false)
      | Take hash rest => digest_loop fuel hash rest
      | Open_ name rest =>
          let* (text, how, error) := digest_loop fuel hash rest in
          Ok (match describe hash name with
              | Some t => (t ++ text, how, error)
              | None => (text, how, true)                                    (* OpenBlob throws an exception; continue *)
              end)
      end
  | _, _ => Ok ([], Through 0, false)
  end.
(** 180-249: one argument of AuthenticateDigest *)
Definition check_turn (opt : list N) (rest : list (list N)) : outcome turn :=
  if negb (starts 45 opt) then Ok (Open_ opt rest)
  else
    let name := List.tl opt in
    let c := List.hd 0%N name in
    if (c =? 97)%N then Ok (if is_name opt (b "-authenticate") then Take 0 rest else Refuse)
    else if (c =? 100)%N then debug_option opt 0 rest
    else if (c =? 108)%N then if is_name opt (b "-list") then Ok (Take 0 rest) else log_option name 0 rest
    else if (c =? 118)%N then version_option opt
    else Ok Refuse.
(** 178-500: the reports, how it ended, whether a file could not be opened *)
Fixpoint check_loop (fuel : nat) (args : list (list N)) (digests : nat) : outcome (list N * stop * bool) :=
  match fuel, args with
  | S fuel, opt :: ((_ :: _) as rest) =>
      let* t := check_turn opt rest in
      match t with
      | Refuse => Ok ([], Refused, false)
      | Leave => Ok ([], Left_, false)
      | Take _ rest => check_loop fuel rest digests
      | Open_ name rest =>
          let* r := check name in
          match r with
          | None => Ok ([], Unreadable, false)
          | Some (reports, error) =>
              let* (more, how, error') := check_loop fuel rest (S digests) in
              Ok (reports ++ more, how, error || error')
          end
      end
  | _, _ => Ok ([], Through digests, false)
  end.
(** 117-509: the status is never set to WizardTrue *)
Definition AuthenticateDigest (args : list (list N)) : outcome ending :=
  let output := last args [] in
  if negb (can_write output) then Ok (Returned false true None)
  else
    let* (reports, how, error) := check_loop (List.length args) args 0 in
    Ok (match how with
        | Through 0 => Returned false true (Some (output, reports))          (* missing a digest RDF file *)
        | Through _ => Returned false error (Some (output, reports))
        | Refused | Unreadable => Returned false true (Some (output, reports))
        | Left_ => Exited (Some (output, reports))
        end).

(** 573-583; option+1 of an empty argument is behind it *)
Fixpoint authenticates (args : list (list N)) : outcome bool :=
  match args with
  | opt :: ((_ :: _) as rest) =>
      match opt with
      | [] => UB
      | _ :: name => if is_name name (b "authenticate") then Ok true else authenticates rest
      end
  | _ => Ok false
  end.
Definition head_text : list N :=
  b "<?xml version=""1.0""?>" ++ [10%N] ++ b "<rdf:RDF xmlns:rdf=""http://www.w3.org/1999/02/22-rdf-syntax-ns#""" ++ [10%N] ++
  b "         xmlns:digest=""https://urban-warrior.org/WizardsToolkit/digest/1.0/"">" ++ [10%N].
Definition tail_text : list N := b "</rdf:RDF>" ++ [10%N].
(** 511-790, without argv[0] *)
Definition DigestCommand (args : list (list N)) : outcome ending :=
  match args with
  | [] => Ok (Exited None)                                                   (* DigestUsage *)
  | [opt] =>
      match opt with
      | [] => UB                                                             (* option+1 *)
      | _ :: name =>
          Ok (if is_name (b "version") name || is_name (b "-version") name then Returned true false None else Exited None)
      end
  | _ =>
      let* args := expand args in
      let* a := authenticates args in
      if a then AuthenticateDigest args
      else
        let output := last args [] in
        if negb (can_write output) then Ok (Returned false true None)
        else
          let* (text, how, error) := digest_loop (List.length args) 7 args in
          Ok (match how with
              | Through _ => Returned true error (Some (output, head_text ++ text ++ tail_text))
              | Refused | Unreadable => Returned false true (Some (output, head_text ++ text))
              | Left_ => Exited (Some (output, head_text ++ text))
              end)
  end.
End Digest.
(** 843-872: the exit code; [regard]: -regard-warnings was given, which the command itself does not know *)
Definition exit_code (e : ending) (regard : bool) : nat :=
  match e with
  | Exited _ => 0
  | Returned status error _ =>
      let status := if negb status || error then (if negb error && negb regard then true else status) else status in
      if status then 0 else 1
  end.
