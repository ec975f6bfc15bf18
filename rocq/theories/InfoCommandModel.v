(** The utility cipher-info: CipherInfoCommand (utilities/cipher-info.c:119-286) and PrintCipherProperties (utilities/content.c:625-674).

    Packets are read as in RdfModel.v; times are kept as texts, as there.  Strings are given without their terminating NUL.
    [expand] is ExpandFilenames (ExpandModel.v); [open_] the content of a file, None if it cannot be opened; [size] the text FormatWizardSize
    (wizard/string.c:1024-1073) makes of a number, without the B it puts at its end.
    strcasecmp is taken for LocaleCompare, with which it agrees on ASCII.
    Not modelled: reading and closing that fails, memory that is not freed (each name and each stream but the last). *)
From Coq Require Import NArith ZArith Bool String Arith List.
From Verif Require Import Base Outcome CStringModel OptionModel CommandModel ScanModel RdfModel DigestCommandModel.
Import ListNotations.

(** content_info: the settings, the hash of the random generator, and whether nonce and id are not NULL (content.c:70-96) *)
Record known := mkKnown { settings_ : RdfModel.settings; random_hash : Z; has_nonce : bool; has_id : bool }.

(** content.c:399-584 for one node, with the members RdfModel.set_field leaves out *)
Definition learn (k : known) (f : list N * list N) : outcome known :=
  let '(mkKnown s r n i) := k in
  let* s := set_field s f in
  if same_name (fst f) (b "random-hash") then let* r := ParseWizardOption WizardHashOptions false (snd f) in Ok (mkKnown s r n i)
  else Ok (mkKnown s r (n || same_name (fst f) (b "nonce")) (i || same_name (fst f) (b "id") || same_name (fst f) (b "session"))).

Section Info.
Variable expand : list (list N) -> outcome (list (list N)).
Variable open_ : list N -> option (list N).
Variable size : N -> list N.
Variable hex : list N -> list N.
Variables E fuel : nat.

Definition row (name value : list N) : list N := name ++ b ": " ++ value ++ newline.
Definition title (name : list N) : list N := name ++ b ":" ++ newline.
(** content.c:625-674; the argument of %s must not be NULL.  content_info->properties is never set *)
Definition PrintCipherProperties (name : list N) (k : known) : outcome (list N) :=
  if negb (has_nonce k && has_id k) then UB
  else
    let s := settings_ k in
    Ok (row (b "Filename") name
        ++ title (b "  Cipher")
        ++ row (b "    type") (WizardOptionToMnemonic WizardCipherOptions (RdfModel.cipher s))
        ++ row (b "    mode") (WizardOptionToMnemonic WizardModeOptions (RdfModel.mode s))
        ++ row (b "    nonce") (nonce s)
        ++ title (b "  Authenticate")
        ++ row (b "    method") (WizardOptionToMnemonic WizardAuthenticateOptions (method s))
        ++ title (b "  Key")
        ++ row (b "    hash") (WizardOptionToMnemonic WizardHashOptions (RdfModel.key_hash s))
        ++ row (b "    length") (decimal (RdfModel.key_length s))
        ++ row (b "    id") (id s)
        ++ title (b "  Entropy Generator")
        ++ row (b "    type") (WizardOptionToMnemonic WizardEntropyOptions (RdfModel.entropy s))
        ++ row (b "    level") (decimal (RdfModel.level s))
        ++ title (b "  Keyed-Hashed Message Authentication Code")
        ++ row (b "    hash") (WizardOptionToMnemonic WizardHashOptions (RdfModel.hmac s))
        ++ title (b "  Random Generator")
        ++ row (b "    hash") (WizardOptionToMnemonic WizardHashOptions (random_hash k))
        ++ row (b "  Chunksize") (size (RdfModel.chunksize s) ++ b "B" ++ b "B")     (* "%.*g%sB" in FormatWizardSize, "%sB" here *)
        ++ title (b "  Dates")
        ++ row (b "    modify") (modified s)
        ++ row (b "    create") (created s)
        ++ row (b "    timestamp") (stamp s)
        ++ row (b "  Protocol") (b "1.0")
        ++ row (b "  Version") (version s)).

(** cipher-info.c:270-281: one file.  None: still running *)
Inductive seen := Unopened | Rejected_ | Shown (k : known) (text : list N).
Definition one_file (k : known) (name : list N) : outcome (option seen) :=
  match open_ name with
  | None => Ok (Some Unopened)
  | Some file =>
      let* r := GetContentInfo E hex content_nodes fuel file in
      match r with
      | Running => Ok None
      | Rejected => Ok (Some Rejected_)
      | Accepted fields _ =>
          let* k := fold_outcome learn fields k in
          let* text := PrintCipherProperties name k in
          Ok (Some (Shown k text))
      end
  end.
(** 168-266: one argument *)
Definition missing (rest : list (list N)) (k : list N -> list (list N) -> outcome turn) : outcome turn :=
  match rest with [] => Ok Refuse | a :: rest => k a rest end.
Definition info_turn (opt : list N) (rest : list (list N)) : outcome turn :=
  if negb (starts 45 opt) then Ok (Open_ opt rest)
  else
    let name := List.tl opt in
    let c := List.hd 0%N name in
    if (c =? 100)%N then
      if is_name opt (b "-debug") then
        missing rest (fun a rest =>
          let* t := ParseWizardOption WizardLogEventOptions true a in
          Ok (if ((t =? -1) || (t =? 0))%Z then Refuse else Take 0 rest))
      else Ok Refuse
    else if (c =? 104)%N then Ok (if is_name (b "help") name || is_name (b "-help") name then Leave else Refuse)
    else if (c =? 108)%N then
      if is_name opt (b "-list") then
        missing rest (fun a rest =>
          if is_name a (b "configure") then Ok Leave
          else let* t := ParseWizardOption WizardListOptions false a in Ok (if (t <? 0)%Z then Refuse else Leave))
      else if is_name (b "log") name then missing rest (fun a rest => Ok (if existsb (N.eqb 37) a then Take 0 rest else Refuse))
      else Ok Refuse
    else if (c =? 118)%N then version_option opt
    else Ok Refuse.
(** the status, whether an exception was thrown, what is printed *)
Inductive told := Told (status error : bool) (text : list N) | Gone (text : list N) | Endless (text : list N).
Definition put (t : list N) (r : outcome told) (error : bool) : outcome told :=
  let* r := r in
  Ok (match r with Told s e text => Told s (error || e) (t ++ text) | Gone text => Gone (t ++ text) | Endless text => Endless (t ++ text) end).
(** 164-281; [status]: of the last file that was opened *)
Fixpoint info_loop (n : nat) (k : known) (status : bool) (args : list (list N)) : outcome told :=
  match n, args with
  | S n, opt :: rest =>
      let* t := info_turn opt rest in
      match t with
      | Refuse => Ok (Told false true [])
      | Leave => Ok (Gone [])
      | Take _ rest => info_loop n k status rest
      | Open_ name rest =>
          let* r := one_file k name in
          match r with
          | None => Ok (Endless [])
          | Some Unopened => put [] (info_loop n k status rest) true
          | Some Rejected_ => put [] (info_loop n k false rest) true
          | Some (Shown k text) => put text (info_loop n k true rest) false
          end
      end
  | _, _ => Ok (Told status false [])
  end.
(** 119-286, without argv[0]; [init]: AcquireContentInfo *)
Definition CipherInfoCommand (init : RdfModel.settings) (args : list (list N)) : outcome told :=
  match args with
  | [] => Ok (Gone [])
  | _ =>
      let* args := expand args in
      info_loop (List.length args) (mkKnown init 7 false false) true args
  end.
End Info.
