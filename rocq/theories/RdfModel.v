(** Model of the attributes that go with enciphered content: what EncipherContent
    (utilities/encipher.c) writes and GetContentInfo (utilities/content.c) makes of
    them, with the XML reader of XmlModel.

    Times are kept as the texts FormatWizardTime makes of them; ParseWizardTime is
    not modelled.  StringToDouble and StringToUnsignedLong are modelled by strtol,
    with which they agree on the decimal numbers below 2^53 that are written. *)
From Coq Require Import Arith NArith ZArith Bool String List.
From Verif Require Import Base Outcome CStringModel OptionModel ScanModel XmlModel.
Import ListNotations.

(** the fields of ContentInfo (content.h:28-90) that are written *)
Record settings := mkSettings {
  cipher : Z; mode : Z; nonce : list N; method : Z; id : list N; key_hash : Z; key_length : N; entropy : Z;
  level : N; hmac : Z; chunksize : N; modified : list N; created : list N; stamp : list N; version : list N }.

(** encipher.c:710-770: what goes between the tags *)
Definition fields_of (s : settings) : list (list N * list N) :=
  [(b "type", WizardOptionToMnemonic WizardCipherOptions (cipher s));
   (b "mode", WizardOptionToMnemonic WizardModeOptions (mode s));
   (b "nonce", nonce s);
   (b "authenticate", WizardOptionToMnemonic WizardAuthenticateOptions (method s));
   (b "id", id s);
   (b "key-hash", WizardOptionToMnemonic WizardHashOptions (key_hash s));
   (b "key-length", decimal (key_length s));
   (b "entropy", WizardOptionToMnemonic WizardEntropyOptions (entropy s));
   (b "level", decimal (level s));
   (b "hmac", WizardOptionToMnemonic WizardHashOptions (hmac s));
   (b "chunksize", decimal (chunksize s));
   (b "modify-date", modified s);
   (b "create-date", created s);
   (b "timestamp", stamp s);
   (b "protocol", b "1.0");
   (b "version", version s)].
(** FormatLocaleString(message,WizardPathExtent,...): at most E-1 bytes *)
Definition line (E : nat) (f : list N * list N) : list N :=
  firstn (E - 1) (b "    <cipher:" ++ fst f ++ b ">" ++ snd f ++ b "</cipher:" ++ fst f ++ b ">" ++ newline).
(** encipher.c:703-709 *)
Definition rdf_head (filename : list N) : list N :=
  b "<rdf:RDF xmlns:rdf=" ++ dquote ++ b "http://www.w3.org/1999/02/22-rdf-syntax-ns#" ++ dquote ++ newline
  ++ b "         xmlns:cipher=" ++ dquote ++ b "https://urban-warrior.org/WizardsToolkit/cipher/1.0/" ++ dquote ++ b ">" ++ newline
  ++ b "  <cipher:Content rdf:about=" ++ dquote ++ filename ++ dquote ++ b ">" ++ newline.
(** 703-772 *)
Definition cipher_rdf (E : nat) (filename : list N) (s : settings) : list N :=
  rdf_head filename ++ flat_map (line E) (fields_of s) ++ b "  </cipher:Content>" ++ newline ++ b "</rdf:RDF>" ++ newline.

(** GetXMLTreeChild (xml-tree.c:927-942) and GetXMLTreeSibling (1152-1159) on a parsed
    tree: the first child with a tag, and the first child of each tag (C94) *)
Definition tag_of (x : xml) : list N := let '(Xml t _ _ _) := x in t.
Definition content_of (x : xml) : list N := let '(Xml _ _ c _) := x in c.
Definition kids_of (x : xml) : list xml := let '(Xml _ _ _ l) := x in map snd l.
Definition same_name (s t : list N) : bool := if list_eq_dec N.eq_dec s t then true else false.
Definition child_with (x : xml) (t : list N) : option xml := find (fun k => same_name (tag_of k) t) (kids_of x).
Fixpoint siblings (seen : list (list N)) (l : list xml) : list xml :=
  match l with
  | [] => []
  | k :: l => if existsb (same_name (tag_of k)) seen then siblings seen l else k :: siblings (tag_of k :: seen) l
  end.
(** content.c:370-395: the nodes that are looked at.  A document with DOCTYPE, which
    XmlModel does not cover, counts as one without the nodes. *)
Definition content_nodes (text : list N) : option (list (list N * list N)) :=
  match NewXMLTree (length text) text with
  | Ok (Some (Tree x _)) =>
      match (match child_with x (b "cipher:Content") with Some k => Some k | None => child_with x (b "rdf:Description") end) with
      | Some k => Some (map (fun k => (tag_of k, content_of k)) (siblings [] (kids_of k)))
      | None => None
      end
  | _ => None
  end.

(** content.c:399-584: one node; an unrecognized option is reported, and stored *)
Definition set_field (s : settings) (f : list N * list N) : outcome settings :=
  let '(tag, content) := f in
  let option o := ParseWizardOption o false content in
  let is t := same_name tag (b t) in
  let '(mkSettings c m n a i kh kl e l h cs md cd st v) := s in
  if is "authenticate"%string then let* a := option WizardAuthenticateOptions in Ok (mkSettings c m n a i kh kl e l h cs md cd st v)
  else if is "chunksize"%string then Ok (mkSettings c m n a i kh kl e l h (Z.to_N (strtol content mod 2 ^ 32)) md cd st v)
  else if is "create-date"%string then Ok (mkSettings c m n a i kh kl e l h cs md content st v)
  else if is "entropy"%string then let* e := option WizardEntropyOptions in Ok (mkSettings c m n a i kh kl e l h cs md cd st v)
  else if is "hmac"%string then let* h := option WizardHashOptions in Ok (mkSettings c m n a i kh kl e l h cs md cd st v)
  else if is "id"%string then Ok (mkSettings c m n a content kh kl e l h cs md cd st v)
  else if is "key-hash"%string then let* kh := option WizardHashOptions in Ok (mkSettings c m n a i kh kl e l h cs md cd st v)
  else if is "key-length"%string then Ok (mkSettings c m n a i kh (Z.to_N (strtol content mod 2 ^ 32)) e l h cs md cd st v)
  else if is "level"%string
  then let* l := option WizardEntropyLevelOptions in Ok (mkSettings c m n a i kh kl e (Z.to_N (l mod 2 ^ 32)) h cs md cd st v)
  else if is "mode"%string then let* m := option WizardModeOptions in Ok (mkSettings c m n a i kh kl e l h cs md cd st v)
  else if is "modify-date"%string then Ok (mkSettings c m n a i kh kl e l h cs content cd st v)
  else if is "nonce"%string then Ok (mkSettings c m content a i kh kl e l h cs md cd st v)
  else if is "session"%string then Ok (mkSettings c m n a content kh kl e l h cs md cd st v)
  else if is "timestamp"%string then Ok (mkSettings c m n a i kh kl e l h cs md cd content v)
  else if is "type"%string then let* c := option WizardCipherOptions in Ok (mkSettings c m n a i kh kl e l h cs md cd st v)
  else if is "version"%string then Ok (mkSettings c m n a i kh kl e l h cs md cd st content)
  else Ok s.

(** GetContentInfo with all its effects on the settings [s]: None: it fails; the rest
    is where the chunks begin *)
Definition ReadContentInfo (E : nat) (hex : list N -> list N) (fuel : nat) (s : settings) (file : list N)
  : outcome (option (settings * list N)) :=
  let* r := GetContentInfo E hex content_nodes fuel file in
  match r with
  | Accepted fields rest => let* s := fold_outcome set_field fields s in Ok (Some (s, rest))
  | _ => Ok None
  end.
