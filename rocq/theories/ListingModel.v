(** The utility keyring: PrintKeyringProperties (wizard/keyring.c:537-724), and ExportKeyring and KeyringCommand
    (utilities/keyring.c:123-502).

    Strings are given without their terminating NUL.  A keyring file is its bytes, None if it cannot be opened.
    [format_time] is FormatWizardTime (TimeModel.v), [canonical] the path as CanonicalXMLContent (XmlModel.v) makes it.
    An assertion that fails, as that of GetFilePath(NULL) (file.c:508), is [Fatal].
    Not modelled: failing writes, memory that is not freed, what is printed on the terminal. *)
From Coq Require Import NArith ZArith Bool String Arith List.
From Verif Require Import Base Outcome CStringModel StringInfoModel OptionModel ScanModel FileModel RandomModel KeyringModel CommandModel TokenModel.
Import ListNotations.

Section Listing.
Variable format_time : N -> list N.

Definition hex (s : list N) : list N := removelast (hex_string s).
(** keyring.c:580-597 *)
Definition keyring_text (canonical : list N) (mtime now : N) : list N :=
  b "  <keyring:Keyring rdf:about=""" ++ canonical ++ b """>" ++ [10%N] ++
  b "    <keyring:modify-date>" ++ format_time mtime ++ b "</keyring:modify-date>" ++ [10%N] ++
  b "    <keyring:create-date>" ++ format_time mtime ++ b "</keyring:create-date>" ++ [10%N] ++
  b "    <keyring:timestamp>" ++ format_time now ++ b "</keyring:timestamp>" ++ [10%N] ++
  b "  </keyring:Keyring>" ++ [10%N].
(** keyring.c:685-708 *)
Definition key_text (canonical id nonce : list N) (timestamp major minor : N) : list N :=
  b "  <keyring:Key rdf:about=""" ++ hex id ++ b """>" ++ [10%N] ++
  b "    <keyring:memberOf rdf:resource=""" ++ canonical ++ b """/>" ++ [10%N] ++
  b "    <keyring:nonce>" ++ hex nonce ++ b "</keyring:nonce>" ++ [10%N] ++
  b "    <keyring:timestamp>" ++ format_time timestamp ++ b "</keyring:timestamp>" ++ [10%N] ++
  b "    <keyring:protocol>" ++ decimal major ++ b "." ++ decimal minor ++ b "</keyring:protocol>" ++ [10%N] ++
  b "  </keyring:Key>" ++ [10%N].

(** keyring.c:630-721: the text written; wherever the file is found corrupt, file_info is destroyed and its path asked for.
    [major] and [minor] are the members of keyring_info *)
Fixpoint print_loop (turns : nat) (canonical : list N) (f : file) (major minor len ts : N) : outcome (list N) :=
  match turns with
  | O => Ok []
  | S turns =>
      let '(s, signature, f) := ReadFile32Bits f 0%N in
      if negb s then Ok []
      else if negb (signature =? WizardSignature)%N then Fatal
      else
        let '(s1, len, f) := ReadFile32Bits f len in
        let '(s2, major, f) := ReadFile16Bits f major in
        let '(s3, minor, f) := ReadFile16Bits f minor in
        let '(s4, ts, f) := if (major =? 1)%N && (minor =? 0)%N then (true, len, f) else ReadFile64Bits f ts in
        let '(s5, len, f) := ReadFile32Bits f len in
        if negb (s1 && s2 && s3 && s4 && s5) then Fatal
        else
          let '(s6, id, f) := read_chunk f (N.to_nat len) in
          let '(s7, len, f) := ReadFile32Bits f len in
          if negb (s6 && s7) then Fatal
          else
            let '(s8, key, f) := read_chunk f (N.to_nat len) in
            let '(s9, len, f) := ReadFile32Bits f len in
            if negb (s8 && s9) then Fatal
            else
              let '(s10, nonce, f) := read_chunk f (N.to_nat len) in
              if negb s10 then Fatal
              else
                let* rest := print_loop turns canonical f major minor len ts in
                Ok (key_text canonical id nonce ts major minor ++ rest)
  end.

Section Run.
Variables (fuel : nat) (lsb : bool) (junk : list N).
(** keyring.c:537-724: the text written; the result is WizardTrue.  [ts] is the uninitialised timestamp *)
Definition PrintKeyringProperties (file : option (list N)) (canonical : list N) (mtime now ts : N) : outcome (list N) :=
  match file with
  | None => Ok []                                                            (* 578-579: WizardTrue *)
  | Some bytes =>
      let '(status, target, f) := read_chunk (mkFile bytes 0) (List.length (keyring_magick fuel lsb junk)) in
      if negb status || negb (same_string target (keyring_magick fuel lsb junk)) then Fatal
      else
        let '(status, target, f) := read_chunk f (List.length (keyring_filetype fuel lsb junk)) in
        if negb status || negb (same_string target (keyring_filetype fuel lsb junk)) then Fatal
        else let* keys := print_loop (S (List.length bytes)) canonical f 0 0 0 ts in
             Ok (keyring_text canonical mtime now ++ keys)
  end.
End Run.
End Listing.

(** ** The command *)
Inductive ending :=
| Listed (output text : list N)          (* the text is in the file; WizardTrue *)
| Broken (output : list N)               (* WizardFalse; the file was emptied *)
| Unopened                               (* WizardFalse; the file cannot be written *)
| Quit (output : option (list N)).       (* exit; the file was emptied *)
(** what is left of an argument: refused, the process exits, or argv[i] and the arguments behind it *)
Inductive turn := Refuse | Exit | Go (current : list N) (id : option (list N)) (rest : list (list N)).

Section Command.
Variable expand : list (list N) -> outcome (list (list N)).
(** whether a file can be written *)
Variable can_open : list N -> bool.
(** PrintKeyringProperties of a path; None is the default keyring *)
Variable print : option (list N) -> outcome (list N).

(** i++; i is less than argc-1 before, so i == argc is never true *)
Definition parameter (rest : list (list N)) (k : list N -> list (list N) -> outcome turn) : outcome turn :=
  match rest with [] => UB | a :: rest => k a rest end.
(** utilities/keyring.c:171-286 and 392-489, which are the same but for 'e'; [exporting]: ExportKeyring.
    [rest] are the arguments behind argv[i], not none *)
Definition one (exporting : bool) (opt : list N) (id : option (list N)) (rest : list (list N)) : outcome turn :=
  if negb (IsWizardOption opt) then Ok (Go opt id rest)
  else
    let name := List.tl opt in
    let c := List.hd 0%N name in
    if (c =? 100)%N then                                                     (* 'd' *)
      if is_name opt (b "-debug") then
        parameter rest (fun a rest =>
          let* t := ParseWizardOption WizardLogEventOptions true a in        (* log.c:1745-1752 *)
          Ok (if ((t =? -1) || (t =? 0))%Z then Refuse else Go a id rest))
      else Ok Refuse
    else if exporting && (c =? 101)%N then                                   (* 'e' *)
      if is_name (b "export") name then
        if (List.hd 0%N opt =? 43)%N then Ok (Go opt id rest)
        else parameter rest (fun a rest => let* x := HexStringToStringInfo (a ++ [0%N]) in Ok (Go a (Some (firstn (slen x) (datum x))) rest))
      else Ok Refuse
    else if (c =? 104)%N then                                                (* 'h' *)
      Ok (if is_name (b "help") name || is_name (b "-help") name then Exit else Refuse)
    else if (c =? 108)%N then                                                (* 'l' *)
      if is_name opt (b "-list") then
        parameter rest (fun a rest =>
          if is_name a (b "configure") then Ok Exit
          else let* t := ParseWizardOption WizardListOptions false a in Ok (if (t <? 0)%Z then Refuse else Exit))
      else if is_name (b "log") name then
        if (List.hd 0%N opt =? 43)%N then Ok (Go opt id rest)
        else parameter rest (fun a rest => Ok (if existsb (N.eqb 37) a then Go a id rest else Refuse))
      else Ok Refuse
    else if (c =? 118)%N then Ok (if is_name opt (b "-version") then Exit else Refuse)   (* 'v' *)
    else Ok Refuse.

(** utilities/keyring.c:165-315: the ids exported from the default keyring, and whether it returned (false: exit).
    Without an id SetKeyringId copies NULL, an assertion that fails (string.c:337).  At the end, and when an option is refused,
    the arguments and their vector are freed. *)
Fixpoint ExportKeyring (fuel : nat) (args : list (list N)) : outcome (list (list N) * bool) :=
  match fuel, args with
  | S fuel, opt :: ((_ :: _) as rest) =>
      let* t := one true opt None rest in
      match t with
      | Refuse => Ok ([], true)
      | Exit => Ok ([], false)
      | Go _ None _ => Fatal
      | Go _ (Some id) rest => let* r := ExportKeyring fuel rest in Ok (id :: fst r, snd r)
      end
  | _, _ => Ok ([], true)
  end.
(** utilities/keyring.c:392-491: the text, None if an option is refused, and whether it returned *)
Fixpoint list_keyrings (fuel : nat) (args : list (list N)) : outcome (option (list N) * bool) :=
  match fuel, args with
  | S fuel, opt :: ((_ :: _) as rest) =>
      let* t := one false opt None rest in
      match t with
      | Refuse => Ok (None, true)
      | Exit => Ok (None, false)
      | Go current _ rest =>
          let* text := print (Some current) in
          let* r := list_keyrings fuel rest in Ok (option_map (app text) (fst r), snd r)
      end
  | _, _ => Ok (Some [], true)
  end.
(** utilities/keyring.c:374-383: option+1 of an empty argument is behind it *)
Fixpoint exports (args : list (list N)) : outcome bool :=
  match args with
  | opt :: ((_ :: _) as rest) =>
      match opt with
      | [] => UB
      | _ :: name => if is_name name (b "export") then Ok true else exports rest
      end
  | _ => Ok false
  end.
Definition head_text : list N :=
  b "<?xml version=""1.0""?>" ++ [10%N] ++ b "<rdf:RDF xmlns:rdf=""http://www.w3.org/1999/02/22-rdf-syntax-ns#""" ++ [10%N] ++
  b "         xmlns:keyring=""https://urban-warrior.org/WizardsToolkit/keyring/1.0/"">" ++ [10%N].
Definition tail_text : list N := b "</rdf:RDF>" ++ [10%N].
(** utilities/keyring.c:317-502, without argv[0] *)
Definition KeyringCommand (args : list (list N)) : outcome ending :=
  match args with
  | [] => Ok (Quit None)                                                     (* KeyringUsage *)
  | _ =>
      match args with
      | [[]] => UB                                                           (* option+1 *)
      | _ =>
      if match args with [_ :: name] => is_name (b "version") name || is_name (b "-version") name | _ => false end then Ok (Quit None)
      else
        let* args := expand args in
        let* e := exports args in
        if e then
          let* r := ExportKeyring (List.length args) args in
          if snd r then UB                                                   (* 379-380: the arguments are freed again *)
          else Ok (Quit None)
        else
          let output := last args [] in
          if negb (can_open output) then Ok Unopened
          else
            let* r := list_keyrings (List.length args) args in
            match r with
            | (_, false) => Ok (Quit (Some output))
            | (None, true) => Ok (Broken output)
            | (Some text, true) =>
                let* more := match args with [_] => print None | _ => Ok [] end in   (* 492-493 *)
                Ok (Listed output (head_text ++ text ++ more ++ tail_text))
            end
      end
  end.
End Command.
