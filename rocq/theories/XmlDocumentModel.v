(** NewXMLTree of xml-tree.c with the document type and what it declares: the
    entities stand for their values in all contents and attributes that follow,
    attributes of declared elements are decoded by their declared type.  The
    parts that XmlModel has already are used from there. *)
From Coq Require Import Arith NArith ZArith Bool String List.
From Verif Require Import Base Outcome CStringModel OptionModel Base64Model ScanModel XmlModel DoctypeModel.
Import ListNotations.

(** xml-tree.c 2081-2090: the declared attributes of an element (strcmp with its
    tag); 2135-2145: the type of an attribute, true for tokens ('*') *)
Fixpoint declared_type (name : list N) (l : list default) : bool :=
  match l with
  | (a, _, tokens) :: l => if list_eq_dec N.eq_dec a name then tokens else declared_type name l
  | [] => false
  end.
Definition attribute_type (d : dtd) (tag name : list N) : bool :=
  match first_element tag (defaults d) with Some l => declared_type name l | None => false end.
(** ParseEntities of the value, 2141-2145 *)
Definition attribute_value (dec : nat) (d : dtd) (tag name value : list N) : outcome (option (list N)) :=
  if attribute_type d tag name then ParseTokens dec (general d) value else ParseEntities dec (general d) Attribute value.

(** 2091-2153: the attributes and the rest; as in XmlModel *)
Fixpoint attributes_of (fuel dec : nat) (d : dtd) (tag p : list N) (acc : list attr) : outcome (option (list attr * list N + unit)) :=
  match fuel with
  | O => Ok None
  | S fuel =>
      match p with
      | [] => Ok (Some (inl (acc, p)))
      | c :: _ =>
          if (c =? 47)%N || (c =? 62)%N then Ok (Some (inl (acc, p)))
          else
            let '(name, p1) := span (fun c => xml_space c || one_of [61; 47; 62]%N c) p in
            match p1 with
            | e :: p2 =>
                if (e =? 61)%N || isspace e then
                  let p3 := snd (span (fun c => negb (xml_space c || (c =? 61)%N)) p2) in
                  match p3 with
                  | q :: p4 =>
                      if (q =? 34)%N || (q =? 39)%N then
                        let '(value, p5) := span (N.eqb q) p4 in
                        match p5 with
                        | [] => Ok (Some (inr tt))
                        | _ :: p6 =>
                            let* v := attribute_value dec d tag name value in
                            match v with
                            | None => Ok None
                            | Some v => attributes_of fuel dec d tag (drop_spaces p6) (acc ++ [(name, Some v)])
                            end
                        end
                      else attributes_of fuel dec d tag (drop_spaces p3) (acc ++ [(name, None)])
                  | [] => attributes_of fuel dec d tag [] (acc ++ [(name, None)])
                  end
                else attributes_of fuel dec d tag (drop_spaces p1) (acc ++ [([], None)])
            | [] => attributes_of fuel dec d tag [] (acc ++ [([], None)])
            end
      end
  end.

(** ParseCharacterContent, 1573-1596 *)
Definition content_of (dec : nat) (d : dtd) (st : state) (s : list N) (t : tree) : outcome (option tree) :=
  match t, s with
  | Inside f o, _ :: _ =>
      let* r := ParseEntities dec (general d) st s in
      Ok (option_map (fun r => Inside (mkFrame (f_tag f) (f_attrs f) (f_content f ++ r) (f_kids f)) o) r)
  | _, _ => Ok (Some t)
  end.

(** 2280-2286: where the document type ends, from behind the '<': at the first '>',
    or once there was a '[' at a ']' with only spaces between it and a '>'.
    [inside]: there was a '[' *)
Fixpoint doctype_end (inside : bool) (p : list N) : bool * list N :=
  match p with
  | [] => (inside, [])
  | c :: r =>
      let inside := inside || (c =? 91)%N in
      if (negb inside && (c =? 62)%N) || (inside && (c =? 93)%N && (hd 0 (skip xml_space r) =? 62)%N) then (inside, p)
      else doctype_end inside r
  end.
(** 2294-2307: ParseInternalDoctype on the text between the first '[' and [q]; the
    entities and defaults are added to those of the root, parameter entities are
    not kept (1738-1745) *)
Definition internal_subset (p q : list N) : list N :=
  let s := tl (snd (span (N.eqb 91) p)) in firstn (length s - length q) s.
Definition add_doctype (dec lim : nat) (d : dtd) (s : list N) : outcome (option verdict) :=
  declarations (S (length s)) dec lim None s {| general := general d; parameters := []; defaults := defaults d; standalone := standalone d |}.
(** ParseProcessingInstructions, 1642-1669, as far as [standalone] goes *)
Definition with_instruction (d : dtd) (s : list N) : dtd :=
  {| general := general d; parameters := parameters d; defaults := defaults d; standalone := standalone d || says_standalone s |}.

(** 2055-2337: as [markup] of XmlModel, with what is declared *)
Definition element_markup (dec : nat) (terminal : N) (d : dtd) (p : list N) (ignore : nat) (t : tree)
  : outcome (option (tree * nat * list N + parsed)) :=
  let fail := Ok (Some (inr (stop true t))) in
  let ends p := match p with [] => (terminal =? 62)%N | c :: _ => (c =? 62)%N end in
  match t with
  | After _ => fail
  | _ =>
      let '(tag, p1) := span (fun c => xml_space c || one_of [47; 62]%N c) p in
      let p2 := drop_spaces p1 in
      let* r := if (alpha (hd 0%N p2) || (hd 0 p2 =? 95))%N && (ignore =? 0)
                then attributes_of (S (length p2)) dec d tag p2 []
                else Ok (Some (inl ([], snd (span (one_of [47; 62]%N) p2)))) in
      match r with
      | None => Ok None
      | Some (inr _) => fail
      | Some (inl (attrs, p3)) =>
          let* skipped := skip_tag tag in
          match p3 with
          | 47%N :: p4 =>
              if negb (ends p4) then fail
              else if negb (ignore =? 0) || skipped then Ok (Some (inl (t, ignore, p4)))
              else match close_tag tag (open_tag tag attrs t) with
                   | Some t => Ok (Some (inl (t, ignore, p4)))
                   | None => Ok (Some (inl (open_tag tag attrs t, ignore, p4)))
                   end
          | _ =>
              if ends p3 then
                if (ignore =? 0) && negb skipped then Ok (Some (inl (open_tag tag attrs t, ignore, p3)))
                else Ok (Some (inl (t, S ignore, p3)))
              else fail
          end
      end
  end.
Definition document_markup (dec lim : nat) (terminal : N) (d : dtd) (p : list N) (ignore : nat) (t : tree)
  : outcome (option ((tree * nat * list N + parsed) * dtd)) :=
  let c := hd 0%N p in
  let fail := Ok (Some (inr (stop true t), d)) in
  let ends p := match p with [] => (terminal =? 62)%N | c :: _ => (c =? 62)%N end in
  if alpha c || (c =? 95)%N || (c =? 58)%N || (128 <=? c)%N then
    let* r := element_markup dec terminal d p ignore t in Ok (option_map (fun r => (r, d)) r)
  else if (c =? 47)%N then
    let '(tag, p1) := span (fun c => xml_space c || (c =? 62)%N) (tl p) in
    match p1 with
    | [] => if (terminal =? 62)%N then
              if ignore =? 0 then match close_tag tag t with Some t => Ok (Some (inl (t, ignore, []), d)) | None => fail end
              else Ok (Some (inl (t, ignore - 1, []), d))
            else fail
    | e :: _ =>
        let p2 := if isspace e then snd (span (fun c => negb (xml_space c)) p1) else p1 in
        if ignore =? 0 then match close_tag tag t with Some t => Ok (Some (inl (t, ignore, p2), d)) | None => fail end
        else Ok (Some (inl (t, ignore - 1, p2), d))
    end
  else if starts_with (b "!--") p then
    match strstr (b "--") (skipn 3 p) with
    | Some q => let q := skipn 2 q in if ends q then Ok (Some (inl (t, ignore, q), d)) else fail
    | None => fail
    end
  else if starts_with (b "![CDATA[") p then
    match strstr (b "]]>") p with
    | Some q =>
        let text := firstn (length p - 8 - length q) (skipn 8 p) in
        let* r := if ignore =? 0 then content_of dec d Cdata text t else Ok (Some t) in
        Ok (option_map (fun t => (inl (t, ignore, skipn 2 q), d)) r)
    | None => fail
    end
  else if starts_with (b "!DOCTYPE") p then
    (* 2276-2308; behind the NUL at the end of the text is one more, 2030-2039 *)
    let '(inside, q) := doctype_end false p in
    if match q with [] => negb (terminal =? 62)%N | _ => false end then fail
    else if inside then
      let* r := add_doctype dec lim d (internal_subset p q) in
      match r with
      | None => Ok None
      | Some (Refused d) => Ok (Some (inr (stop true t), d))
      | Some (Read d) => Ok (Some (inl (t, ignore, tl q), d))
      end
    else Ok (Some (inl (t, ignore, q), d))
  else if (c =? 63)%N then
    (* 2310-2330.  For '<?>' the length is -1: the NUL goes to the '?' and the
       instruction is the rest of the document, which ends from now on at its
       first space (1655-1660) *)
    match end_instruction p with
    | Some q =>
        if ends q then
          if length p =? length q + 1 then Ok (Some (inl (t, ignore, fst (span xml_space q)), d))
          else Ok (Some (inl (t, ignore, q), with_instruction d (firstn (length p - length q - 2) (tl p))))
        else fail
    | None => fail
    end
  else fail.

(** 2053-2370 *)
Fixpoint document (fuel dec lim : nat) (terminal : N) (d : dtd) (p : list N) (ignore : nat) (t : tree) : outcome (option (parsed * dtd)) :=
  match fuel with
  | O => Ok None
  | S fuel =>
      let* r := document_markup dec lim terminal d p ignore t in
      match r with
      | None => Ok None
      | Some (inr r, d) => Ok (Some (r, d))
      | Some (inl (t, ignore, q), d) =>
          let finished := Ok (Some (match t with After _ => stop false t | _ => stop true t end, d)) in
          match tl q with
          | [] => finished
          | q =>
              let '(text, q) := span (N.eqb 60) q in
              match q with
              | [] => finished
              | _ :: q =>
                  let* r := if ignore =? 0 then content_of dec d General text t else Ok (Some t) in
                  match r with
                  | None => Ok None
                  | Some t => document fuel dec lim terminal d q ignore t
                  end
              end
          end
      end
  end.
(** NewXMLTree, 1988-2370: the tree and the declarations it keeps.  [dec] bounds the
    steps of one ParseEntities, [lim] is WizardMaxRecursionDepth *)
Definition NewXMLDocument (fuel dec lim : nat) (s : list N) : outcome (option (parsed * dtd)) :=
  match s with
  | [] => Ok (Some (Null, empty_dtd false))
  | _ => match snd (span (N.eqb 60) (removelast s)) with
         | [] => Ok (Some (Null, empty_dtd false))
         | _ :: p => document fuel dec lim (last s 0%N) (empty_dtd false) p 0 Before
         end
  end.

Definition sample_text : list N := b "<?xml version=""1.0"" standalone=""yes""?><!DOCTYPE r [<!ENTITY wiz ""a wizard""><!ATTLIST r k CDATA ""v"" z CDATA #IMPLIED>]><r a=""&wiz;s"">I am &wiz;<x/>!</r>".
Example sample_parsed : match NewXMLDocument 100 1000 20 sample_text with
  | Ok (Some (Tree x w, d)) => x = Xml (b "r") [(b "a", Some (b "a wizards"))] (b "I am a wizard!") [(13, Xml (b "x") [] [] [])] /\ w = false /\
      GetXMLTreeAttribute d (b "r") [(b "a", Some (b "a wizards"))] (b "k") = Some (b "v") /\ standalone d = true
  | _ => False
  end.
Proof. vm_compute. repeat split. Qed.
