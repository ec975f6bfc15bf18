(** The command line of the utilities encipher and decipher: EncipherCommand and DecipherCommand, which are the same text but
    for the last call.

    Strings are given without their terminating NUL.  [expand] is ExpandFilenames (ExpandModel.v), [number] what StringToDouble tells
    of a text: its value as unsigned int, and whether anything was read; [size] the value of StringToDoubleInterval as size_t.
    Not modelled: what is printed, the text of exceptions, SetRandomTrueRandom's effect, SetLogEventMask's effect. *)
From Coq Require Import NArith ZArith Bool String List.
From Verif Require Import Base Outcome CStringModel OptionModel.
Import ListNotations.

(** utilities/content.h:28-104, the members set from the command line, and the local variables *)
Record settings := mkSettings {
  authenticate : Z; cipher : Z; entropy : Z; hmac : Z; key_hash : Z; level : Z; mode : Z;
  key_length : Z; chunksize : Z;
  keyring : option (list N); passphrase : option (list N); properties : option (list N);
  compress : bool; verbose : bool
}.
(** content.c:81-90, encipher.c:209-212 *)
Definition default : settings :=
  mkSettings 1 2 3 7 7 6 3 512 262144 None None None true false.

Inductive result :=
| Run (s : settings) (first second : list N)      (* EncipherContent or DecipherContent is called with these names *)
| Failed                                          (* an exception, WizardFalse *)
| Printed.                                        (* usage, version or a list; the process exits or returns WizardTrue *)

Definition is_name (name text : list N) : bool :=
  match LocaleCompare (name ++ [0%N]) (text ++ [0%N]) with Ok 0%Z => true | _ => false end.

Inductive step := Next (s : settings) (rest : list (list N)) | Stop (r : result).

Section Command.
Variable expand : list (list N) -> outcome (list (list N)).
Variable number : list N -> Z * bool.
Variable size : list N -> Z.

(** if ( *option == '+') break; i++; if (i == argc) Throw...; *)
Definition with_parameter (option : list N) (rest : list (list N)) (s : settings)
    (k : list N -> list (list N) -> outcome step) : outcome step :=
  if match option with c :: _ => (c =? 43)%N | [] => false end then Ok (Next s rest)
  else match rest with [] => Ok (Stop Failed) | a :: rest => k a rest end.
(** type=ParseWizardOption(table,WizardFalse,argv[i]); if (type < 0) Throw...; *)
Definition typed (table : WizardOption) (store : Z -> settings) (option : list N) (rest : list (list N)) (s : settings) : outcome step :=
  with_parameter option rest s (fun a rest =>
    let* t := ParseWizardOption table false a in
    Ok (if (t <? 0)%Z then Stop Failed else Next (store t) rest)).
Definition named_file (store : list N -> settings) (option : list N) (rest : list (list N)) (s : settings) : outcome step :=
  with_parameter option rest s (fun a rest => Ok (Next (store a) rest)).

(** encipher.c:228-569, decipher.c:226-569: one option *)
Definition parse_option (option : list N) (rest : list (list N)) (s : settings) : outcome step :=
  let '(mkSettings au ci en hm kh le mo kl cs kr pa pr co ve) := s in
  let name := List.tl option in                                              (* option+1 *)
  let c := List.hd 0%N name in
  if (c =? 40)%N then                                                        (* '(' *)
    if is_name name (b "(de)compress") then Ok (Next (mkSettings au ci en hm kh le mo kl cs kr pa pr (List.hd 0%N option =? 45)%N ve) rest)
    else Ok (Stop Failed)
  else if (c =? 97)%N then                                                   (* 'a' *)
    if is_name (b "authenticate") name then
      with_parameter option rest s (fun a rest =>
        let* t := ParseWizardOption WizardAuthenticateOptions false a in
        Ok (if (t <? 0)%Z then Stop Failed else if (t =? 2)%Z then Stop Failed
            else Next (mkSettings t ci en hm kh le mo kl cs kr pa pr co ve) rest))
    else Ok (Stop Failed)
  else if (c =? 99)%N then                                                   (* 'c' *)
    if is_name (b "cipher") name then
      typed WizardCipherOptions (fun t => mkSettings au t en hm kh le mo kl cs kr pa pr co ve) option rest s
    else if is_name option (b "-chunksize") then
      with_parameter option rest s (fun a rest =>
        Ok (if negb (snd (number a)) then Stop Failed
            else Next (mkSettings au ci en hm kh le mo kl (size a) kr pa pr co ve) rest))
    else Ok (Stop Failed)
  else if (c =? 100)%N then                                                  (* 'd' *)
    if is_name option (b "-debug") then
      match rest with
      | [] => Ok (Stop Failed)
      | a :: rest =>
          let* t := ParseWizardOption WizardLogEventOptions true a in        (* log.c:1745-1752 *)
          Ok (if ((t =? -1) || (t =? 0))%Z then Stop Failed else Next s rest)
      end
    else Ok (Stop Failed)
  else if (c =? 101)%N then                                                  (* 'e' *)
    if is_name (b "entropy") name then
      typed WizardEntropyOptions (fun t => mkSettings au ci t hm kh le mo kl cs kr pa pr co ve) option rest s
    else Ok (Stop Failed)
  else if (c =? 104)%N then                                                  (* 'h' *)
    if is_name (b "hmac") name then
      typed WizardHashOptions (fun t => mkSettings au ci en t kh le mo kl cs kr pa pr co ve) option rest s
    else if is_name (b "help") name || is_name (b "-help") name then Ok (Stop Printed)
    else Ok (Stop Failed)
  else if (c =? 107)%N then                                                  (* 'k' *)
    if is_name (b "key") name then
      typed WizardHashOptions (fun t => mkSettings au ci en hm t le mo kl cs kr pa pr co ve) option rest s
    else if is_name (b "key-length") name then
      with_parameter option rest s (fun a rest =>                            (* StringToDouble(option,...) *)
        Ok (Next (mkSettings au ci en hm kh le mo (fst (number option)) cs kr pa pr co ve) rest))
    else if is_name (b "keyring") name then
      named_file (fun a => mkSettings au ci en hm kh le mo kl cs (Some a) pa pr co ve) option rest s
    else Ok (Stop Failed)
  else if (c =? 108)%N then                                                  (* 'l' *)
    if is_name option (b "-level") then
      typed WizardEntropyLevelOptions (fun t => mkSettings au ci en hm kh t mo kl cs kr pa pr co ve) option rest s
    else if is_name option (b "-list") then
      with_parameter option rest s (fun a rest =>
        if is_name a (b "configure") then Ok (Stop Printed)
        else let* t := ParseWizardOption WizardListOptions false a in
             Ok (if (t <? 0)%Z then Stop Failed else Stop Printed))
    else if is_name (b "log") name then
      with_parameter option rest s (fun a rest =>
        Ok (if existsb (N.eqb 37) a then Next s rest else Stop Failed))
    else Ok (Stop Failed)
  else if (c =? 109)%N then                                                  (* 'm' *)
    if is_name (b "mode") name then
      typed WizardModeOptions (fun t => mkSettings au ci en hm kh le t kl cs kr pa pr co ve) option rest s
    else Ok (Stop Failed)
  else if (c =? 112)%N then                                                  (* 'p' *)
    if is_name (b "passphrase") name then
      named_file (fun a => mkSettings au ci en hm kh le mo kl cs kr (Some a) pr co ve) option rest s
    else if is_name (b "properties") name then
      named_file (fun a => mkSettings au ci en hm kh le mo kl cs kr pa (Some a) co ve) option rest s
    else Ok (Stop Failed)
  else if (c =? 116)%N then                                                  (* 't' *)
    if is_name name (b "true-random") then Ok (Next s rest) else Ok (Stop Failed)
  else if (c =? 118)%N then                                                  (* 'v' *)
    if is_name name (b "verbose") then Ok (Next (mkSettings au ci en hm kh le mo kl cs kr pa pr co (List.hd 0%N option =? 45)%N) rest)
    else if is_name option (b "-version") then Ok (Stop Printed)
    else Ok (Stop Failed)
  else Ok (Stop Failed).

(** encipher.c:213-576; the fuel is at least the number of arguments *)
Fixpoint parse (fuel : nat) (args : list (list N)) (s : settings) (first second : option (list N)) : outcome result :=
  match fuel, args with
  | S fuel, option :: rest =>
      if negb (IsWizardOption option) then
        match first, second with
        | None, _ => parse fuel rest s (Some option) second
        | _, None => parse fuel rest s first (Some option)
        | _, _ => Ok Printed
        end
      else
        let* x := parse_option option rest s in
        match x with Next s rest => parse fuel rest s first second | Stop r => Ok r end
  | _, _ => match first, second with Some p, Some c => Ok (Run s p c) | _, _ => Ok Printed end
  end.
(** encipher.c:187-576, without argv[0] *)
Definition CipherCommand (args : list (list N)) : outcome result :=
  match args with
  | [] => Ok Printed                                                         (* argc < 3 *)
  | [option] => match option with [] => UB | _ => Ok Printed end             (* option+1, then argc < 3 *)
  | _ => let* args := expand args in parse (List.length args) args default None None
  end.
End Command.
