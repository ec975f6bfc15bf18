(** Model of wizard/mime.c: how LoadMimeCache reads one element of mime.xml, and
    WizardToMime.

    An element is given by the values of its attributes; XML is modelled in
    XmlModel.v, the includes in ConfigureModel.v (with [absolute]).  Texts are given
    without their NUL. *)
From Coq Require Import NArith ZArith Bool String Arith List.
From Verif Require Import Base Outcome OptionModel CStringModel MimeModel.
From Verif Require ScanModel XmlModel ConfigureModel.
Import ListNotations.

(** strtol with base 0: the base, and where the digits are *)
Definition base_of (p : list N) : N * list N :=
  match p with
  | z :: r =>
      if (z =? 48)%N then
        match r with
        | x :: ((d :: _) as q) => if ((x =? 120)%N || (x =? 88)%N) && match XmlModel.digitval 16 d with Some _ => true | None => false end then (16%N, q) else (8%N, p)
        | _ => (8%N, p)
        end
      else (10%N, p)
  | [] => (10%N, p)
  end.
(** the value, at most LONG_MAX and at least LONG_MIN, and the rest *)
Definition strtol0 (s : list N) : Z * list N :=
  let p := ScanModel.drop_spaces s in
  let '(neg, p) := match p with c :: q => if (c =? 45)%N then (true, q) else if (c =? 43)%N then (false, q) else (false, p) | [] => (false, p) end in
  let '(base, p) := base_of p in
  match p with
  | c :: _ => match XmlModel.digitval base c with
              | Some _ => let '(n, r) := XmlModel.number base 0 p in
                          ((if neg then Z.max (- 2 ^ 63) (- Z.of_N n) else Z.min (2 ^ 63 - 1) (Z.of_N n))%Z, r)
              | None => (0%Z, s)
              end
  | [] => (0%Z, s)
  end.

(** the attributes of an element, mime.c:871-962 *)
Record attributes := { a_data_type : option (list N); a_description : option (list N); a_endian : option (list N); a_magic : option (list N);
  a_mask : option (list N); a_offset : option (list N); a_pattern : option (list N); a_priority : option (list N);
  a_stealth : option (list N); a_type : option (list N) }.
(** mime.c:66-104: what of an entry is not in [mime] *)
Record mime_entry := { e_path : list N; e_type : option (list N); e_description : option (list N); e_stealth : bool; e_mime : mime }.

(** mime.c:871-874; without the attribute the type is UndefinedData, 0 *)
Definition data_type_number (a : attributes) : outcome Z :=
  match a_data_type a with None => Ok 0%Z | Some t => ParseWizardOption WizardDataTypeOptions true t end.
(** mime.c:281-365: the switch; undefined and unknown types are strings *)
Definition data_type_of (z : Z) : data_type :=
  if (z =? 2)%Z then ByteData else if (z =? 3)%Z then ShortData else if (z =? 4)%Z then LongData else StringData.
(** mime.c:878-881 and 304-317: what is not undefined and not LSB is read as MSB *)
Definition endian_of (a : attributes) : outcome endian :=
  match a_endian a with
  | None => Ok UndefinedEndian
  | Some t => let* z := ParseWizardOption WizardEndianOptions true t in
              Ok (if (z =? 0)%Z then UndefinedEndian else if (z =? 1)%Z then LSBEndian else MSBEndian)
  end.
(** SubstituteString (CStringModel.v) *)
Definition substitute (search replace string : list N) : list N :=
  match SubstituteString (S (List.length string)) string search replace with Some (_, out) => out | None => string end.
(** mime.c:893-896 *)
Definition magic_token (t : list N) : list N :=
  substitute (b "&quot;") [34%N] (substitute (b "&amp;") (b "&") (substitute (b "&lt;") (b "<") t)).
(** mime.c:897-936: the bytes read replace the front of a copy of the token, behind them is the rest of it *)
Definition magic_of (number : bool) (a : attributes) : outcome (list N * Z) :=
  match a_magic a with
  | None => Ok ([], 0%Z)
  | Some t =>
      let token := magic_token t in
      let* w := magic_of_text token in
      Ok (w, if number then fst (strtol0 (ConfigureModel.to_nul (w ++ skipn (List.length w) token))) else 0%Z)
  end.
Definition number_of (t : option (list N)) : Z := match t with None => 0%Z | Some t => fst (strtol0 t) end.
(** mime.c:941-950 *)
Definition offset_of (a : attributes) : Z * Z :=
  match a_offset a with
  | None => (0, 0)%Z
  | Some t => let '(o, c) := strtol0 t in (o, match c with 58%N :: c => fst (strtol0 c) | _ => 0%Z end)
  end.
(** mime.c:864-963: one element *)
Definition LoadMimeElement (filename : list N) (a : attributes) : outcome mime_entry :=
  let* d := data_type_number a in
  let* e := endian_of a in
  let* m := magic_of (negb (d =? 1)%Z) a in
  Ok {| e_path := filename; e_type := a_type a; e_description := a_description a;
        e_stealth := match a_stealth a with Some s => ConfigureModel.IsWizardTrue s | None => false end;
        e_mime := mkMime (a_pattern a) (data_type_of d) e (fst (offset_of a)) (snd (offset_of a)) (number_of (a_mask a)) (snd m) (fst m) (number_of (a_priority a)) |}.
(** mime.c:855-968: the elements of the files in the order in which they are reached *)
Fixpoint LoadMimeElements (l : list (list N * attributes)) (cache : list mime_entry) : outcome (list mime_entry) :=
  match l with
  | [] => Ok cache
  | (f, a) :: l => let* e := LoadMimeElement f a in LoadMimeElements l (cache ++ [e])
  end.

(** ** GetMimeInfo and GetMimeType on these entries: the entry and its type *)
Fixpoint search_entries (filename : option (list N)) (magic : list N) (found : option mime_entry) (cache : list mime_entry) : outcome (option mime_entry) :=
  match cache with
  | [] => Ok found
  | e :: cache =>
      if (m_offset (e_mime e) <? 0)%Z then Fatal
      else if match found with Some f => (m_priority (e_mime f) <? m_priority (e_mime e))%Z | None => false end then search_entries filename magic found cache
      else
        let* yes := is_type filename magic (e_mime e) in
        search_entries filename magic (if yes then Some e else found) cache
  end.
Definition FindMimeInfo (cache : list mime_entry) (filename : option (list N)) (magic : list N) : outcome (option mime_entry) :=
  match magic with
  | [] => Ok (hd_error cache)
  | _ => search_entries filename magic None cache
  end.
(** string.c:1563-1570 *)
Definition LocaleLower (s : list N) : list N := map ConfigureModel.lower s.
(** mime.c:1073-1095; [E] is WizardPathExtent.  ConstantString of NULL is the empty string. *)
Definition WizardToMime (E : nat) (cache : list mime_entry) (wizard : list N) : outcome (list N) :=
  let filename := LocaleLower (firstn (E - 1) (b "file." ++ wizard)) in
  let* r := FindMimeInfo cache (Some filename) (b " ") in
  match r with
  | Some e => Ok (match e_type e with Some t => t | None => [] end)
  | None => let media := firstn (E - 1) (b "image/x-" ++ wizard) in Ok (firstn 8 media ++ LocaleLower (skipn 8 media))
  end.
