(** Model of wizard/xml-tree.c: CanonicalXMLContent, ParseEntities,
    ValidateEntities, NewXMLTree and XMLTreeInfoToXML.

    Strings are byte lists without their NUL.  A tree holds, for each element,
    its tag, attributes (None: a NULL value), character content and children in
    their order with the offset in the content (the ordered list; the sibling and
    next lists only index it).  Not modelled: <!DOCTYPE (the result [Doctype] says so)
    other than ValidateEntities, the list of processing instructions (skipped),
    UTF-16 input, failing allocations.  char is signed. *)
From Coq Require Import Arith NArith ZArith Bool String List.
From Verif Require Import Base Outcome CStringModel OptionModel Base64Model ScanModel.
Import ListNotations.

(** * Text *)

(** xml-tree.c:296-335 *)
Definition ConvertLatin1ToUTF8 (s : list N) : list N :=
  flat_map (fun c => if (c <? 128)%N then [c] else [192 + c / 64; 128 + c mod 64]%N) s.

(** 360-362 *)
Definition binary (c : N) : bool := ((c <? 32) && negb (c =? 9) && negb (c =? 10) && negb (c =? 13))%N.
(** 394-446, one turn of the loop *)
Definition escape (pedantic : bool) (c : N) : list N :=
  if (c =? 38)%N then b "&amp;"
  else if (c =? 60)%N then b "&lt;"
  else if (c =? 62)%N then b "&gt;"
  else if (c =? 34)%N then b "&quot;"
  else if (c =? 10)%N then if pedantic then b "&#xA;" else [c]
  else if (c =? 9)%N then if pedantic then b "&#x9;" else [c]
  else if (c =? 13)%N then b "&#xD;"
  else [c].
(** 337-451.  [base64] is Base64Encode.  At each turn the buffer has
    WizardPathExtent bytes left (386-393), an entity takes at most 6. *)
Definition CanonicalXMLContent (base64 : list N -> list N) (s : list N) (pedantic : bool) : list N :=
  let utf8 := ConvertLatin1ToUTF8 s in
  if existsb binary utf8 then b "<base64>" ++ base64 utf8 ++ b "</base64>"
  else flat_map (escape pedantic) utf8.

(** 1420-1428: line ends.  (For a text that ends with '\r' the loop runs on behind
    the NUL into the rest of the document, whose line ends are normalized then.) *)
Fixpoint normalize (s : list N) : list N :=
  match s with
  | [] => []
  | c :: s' =>
      if (c =? 13)%N then 10%N :: match s' with c' :: s'' => if (c' =? 10)%N then normalize s'' else normalize s' | [] => [] end
      else c :: normalize s'
  end.

(** strtol in base 10 and 16: the value and the rest; no digits: zero and the
    text itself *)
Definition hexval (c : N) : option N :=
  if isdigit c then Some (c - 48)%N
  else if ((97 <=? c) && (c <=? 102))%N then Some (c - 87)%N
  else if ((65 <=? c) && (c <=? 70))%N then Some (c - 55)%N else None.
Definition digitval (base : N) (c : N) : option N :=
  match hexval c with Some d => if (d <? base)%N then Some d else None | None => None end.
Fixpoint number (base : N) (n : N) (p : list N) : N * list N :=
  match p with
  | c :: p' => match digitval base c with Some d => number base (base * n + d)%N p' | None => (n, p) end
  | [] => (n, [])
  end.
Definition strtol_end (base : N) (s : list N) : Z * list N :=
  let p := drop_spaces s in
  let '(neg, p) := match p with c :: q => if (c =? 45)%N then (true, q) else if (c =? 43)%N then (false, q) else (false, p) | [] => (false, p) end in
  let p := match p with
           | z :: r => if ((base =? 16) && (z =? 48))%N
                       then match r with
                            | x :: ((d :: _) as q) => if (x =? 120)%N || (x =? 88)%N
                                                    then match digitval 16 d with Some _ => q | None => p end else p
                            | _ => p end
                       else p
           | [] => p end in
  match p with
  | c :: _ => match digitval base c with
              | Some _ => let '(n, r) := number base 0 p in
                          ((if neg then Z.max (- 2 ^ 63) (- Z.of_N n) else Z.min (2 ^ 63 - 1) (Z.of_N n))%Z, r)
              | None => (0%Z, s)
              end
  | [] => (0%Z, s)
  end.
(** the assignment of a long to an int *)
Definition to_int (z : Z) : Z := ((z + 2 ^ 31) mod 2 ^ 32 - 2 ^ 31)%Z.

(** 1461-1480; the same in 1366-1385 *)
Definition utf8_of (c : N) : list N :=
  let bits := N.to_nat (N.size c) in
  let i := (bits - 2) / 5 in
  N.modulo (N.lor (N.shiftl 255 (N.of_nat (7 - i))) (N.shiftr c (6 * N.of_nat i))) 256
  :: map (fun j => N.lor 128 (N.land (N.shiftr c (6 * N.of_nat j)) 63)) (rev (seq 0 i)).
Definition char_bytes (c : Z) : list N :=
  if (c <? 128)%Z then [Z.to_N (c mod 256)] else utf8_of (Z.to_N c).

(** the rest behind the first ';' *)
Fixpoint after_semicolon (s : list N) : option (list N) :=
  match s with [] => None | c :: s => if (c =? 59)%N then Some s else after_semicolon s end.

Inductive state := General | Cdata | Attribute.                  (* '&', 'c', ' ' *)
Definition entities := list (list N * list N).
(** 2396-2401 *)
Definition predefined : entities :=
  [(b "lt;", b "&#60;"); (b "gt;", b "&#62;"); (b "quot;", b "&#34;"); (b "apos;", b "&#39;"); (b "amp;", b "&#38;")].
Fixpoint find_entity (t : entities) (s : list N) : option (list N) :=
  match t with
  | [] => None
  | (name, value) :: t => if starts_with name s then Some value else find_entity t s
  end.

(** 1502-1535: the value has [n] bytes, ';' is at [dist]; (length-1L) wraps for
    an empty value *)
Definition extend (moved : bool) (n dist : nat) (s : list N) : bool * list N :=
  if (n =? 0) || (dist <? n)
  then (true, firstn (n + (length s - dist) - (if moved then 0 else 1)) s)
  else (moved, s).
(** 1429-1547: [out] is what lies before the pointer; None: still running.  [moved]:
    the text is in a buffer of its own already (p != q); [extend] is what the copy
    or the resized buffer keeps of the text from the reference on, 1504-1535.  A reference to a negative
    multiple of 256 stores a NUL: the text ends there (cstr below), what the loop
    does behind it is simplified. *)
Fixpoint decode (fuel : nat) (t : entities) (st : state) (moved : bool) (out s : list N) : outcome (option (list N)) :=
  match fuel with
  | O => Ok None
  | S fuel =>
      match s with
      | [] => Ok (Some out)
      | c :: rest =>
          if negb (c =? 38)%N && negb (isspace c) then decode fuel t st moved (out ++ [c]) rest
          else
            let reference := match st with Cdata => false | _ => starts_with (b "&#") s end in
            if reference then
              let '(v, e) := match tl rest with
                             | x :: r => if (x =? 120)%N then strtol_end 16 r else strtol_end 10 (tl rest)
                             | [] => (0%Z, [])
                             end in
              let v := to_int v in
              if (v =? 0)%Z || negb (is 59 (fst (next e))) then decode fuel t st moved (out ++ [c]) rest
              else
                let bytes := char_bytes v in
                match after_semicolon (skipn (length bytes) s) with
                | None => UB
                | Some r => decode fuel t st moved (out ++ bytes) r
                end
            else if (c =? 38)%N && match st with Cdata => false | _ => true end then
              match find_entity t rest with
              | None => decode fuel t st moved (out ++ [c]) rest
              | Some value =>
                  match after_semicolon s with
                  | None => UB                                   (* the name has no ';' *)
                  | Some r =>
                      let '(moved, s) := extend moved (length value) (length s - length r - 1) s in
                      match after_semicolon s, value with
                      | Some r, _ => decode fuel t st moved out (value ++ r)
                      | None, [] => decode fuel t st moved out s
                      | None, _ => UB
                      end
                  end
              end
            else if match st with Attribute => isspace c | _ => false end
            then decode fuel t st moved (out ++ [32%N]) rest
            else decode fuel t st moved (out ++ [c]) rest
      end
  end.
(** ParseEntities, 1394-1571, for the states used on documents without a DTD *)
Definition ParseEntities (fuel : nat) (t : entities) (st : state) (s : list N) : outcome (option (list N)) :=
  let* r := decode fuel t st false [] (normalize s) in Ok (option_map cstr r).

(** ValidateEntities, 1612-1640, for an entity [tag] with the value [s] *)
Fixpoint skip_matching (t : entities) (s : list N) : entities :=
  match t with
  | (name, value) :: t' => if starts_with name s then skip_matching t' s else t
  | [] => []
  end.
Fixpoint validate (fuel depth : nat) (limit : nat) (tag : list N) (t : entities) (s : list N) : bool :=
  match fuel with
  | O => false
  | S fuel =>
      if limit <? depth then false
      else
        (fix scan (s : list N) : bool :=
           match s with
           | [] => true
           | c :: rest =>
               if (c =? 38)%N then
                 if starts_with tag rest then false
                 else match skip_matching t rest with
                      | (_, value) :: _ => if validate fuel (S depth) limit tag t value then scan rest else false
                      | [] => scan rest
                      end
               else scan rest
           end) s
  end.
Definition ValidateEntities (limit : nat) (tag : list N) (t : entities) (s : list N) : bool :=
  validate (S (S limit)) 0 limit tag t s.

(** * Trees *)
Definition attr := (list N * option (list N))%type.
Inductive xml := Xml (tag : list N) (attrs : list attr) (content : list N) (kids : list (nat * xml)).
Record frame := mkFrame { f_tag : list N; f_attrs : list attr; f_content : list N; f_kids : list (nat * xml) }.
(** the node being read: none yet, open elements (innermost first), or the root is closed *)
Inductive tree := Before | Inside (top : frame) (outer : list frame) | After (root : xml).
Definition closed (f : frame) : xml := Xml (f_tag f) (f_attrs f) (f_content f) (f_kids f).
Definition with_kid (f : frame) (x : xml) : frame :=
  mkFrame (f_tag f) (f_attrs f) (f_content f) (f_kids f ++ [(length (f_content f), x)]).
(** ParseOpenTag, 1950-1963.  A child goes to the offset strlen(content), behind
    all the children there are (InsertTagIntoXMLTree, 1228-1252); it is linked to
    its parent at [close_tag] or [finish_frames] here, at once in the code. *)
Definition open_tag (tag : list N) (attrs : list attr) (t : tree) : tree :=
  match t with
  | Before => Inside (mkFrame tag attrs [] []) []
  | Inside f o => Inside (mkFrame tag attrs [] []) (f :: o)
  | After r => After r
  end.
(** ParseCloseTag, 1598-1610; None: unexpected closing tag *)
Definition close_tag (tag : list N) (t : tree) : option tree :=
  match t with
  | Inside f o =>
      if list_eq_dec N.eq_dec tag (f_tag f) then
        Some (match o with [] => After (closed f) | g :: o => Inside (with_kid g (closed f)) o end)
      else None
  | _ => None
  end.
(** ParseCharacterContent, 1573-1596 *)
Definition add_content (fuel : nat) (st : state) (s : list N) (t : tree) : outcome (option tree) :=
  match t, s with
  | Inside f o, _ :: _ =>
      let* r := ParseEntities fuel predefined st s in
      Ok (option_map (fun r => Inside (mkFrame (f_tag f) (f_attrs f) (f_content f ++ r) (f_kids f)) o) r)
  | _, _ => Ok (Some t)
  end.
(** the tree that hangs on the root: open elements are linked already *)
Fixpoint finish_frames (f : frame) (o : list frame) : xml :=
  match o with [] => closed f | g :: o => finish_frames (with_kid g (closed f)) o end.

(** what NewXMLTree returns: a warning or none *)
Inductive parsed := Null | Untagged | Tree (x : xml) (warned : bool) | Doctype.
Definition stop (warned : bool) (t : tree) : parsed :=
  match t with Before => Untagged | Inside f o => Tree (finish_frames f o) warned | After r => Tree r warned end.

(** strcspn; XMLWhitespace, 69 *)
Fixpoint span (stop : N -> bool) (s : list N) : list N * list N :=
  match s with
  | [] => ([], [])
  | c :: s' => if stop c then ([], s) else let '(a, r) := span stop s' in (c :: a, r)
  end.
Definition xml_space (c : N) : bool := ((c =? 9) || (c =? 13) || (c =? 10) || (c =? 32))%N.
Definition one_of (l : list N) (c : N) : bool := existsb (N.eqb c) l.
Definition alpha (c : N) : bool := (((65 <=? c) && (c <=? 90)) || ((97 <=? c) && (c <=? 122)))%N.

(** 2088-2153: the attributes and the rest.  [None]: still running; [inr]: the
    closing quote is missing *)
Fixpoint get_attributes (fuel : nat) (p : list N) (acc : list attr) : outcome (option (list attr * list N + unit)) :=
  match fuel with
  | O => Ok None
  | S fuel =>
      match p with
      | [] => Ok (Some (inl (acc, p)))
      | c :: _ =>
          if (c =? 47)%N || (c =? 62)%N then Ok (Some (inl (acc, p)))
          else
            let '(name, p1) := span (fun c => xml_space c || one_of [61; 47; 62]%N c) p in
            match p1 with
            | e :: p2 =>
                if (e =? 61)%N || isspace e then
                  let p3 := snd (span (fun c => negb (xml_space c || (c =? 61)%N)) p2) in
                  match p3 with
                  | q :: p4 =>
                      if (q =? 34)%N || (q =? 39)%N then
                        let '(value, p5) := span (N.eqb q) p4 in
                        match p5 with
                        | [] => Ok (Some (inr tt))
                        | _ :: p6 =>
                            let* v := ParseEntities (S (6 * length value)) predefined Attribute value in
                            match v with
                            | None => Ok None
                            | Some v => get_attributes fuel (drop_spaces p6) (acc ++ [(name, Some v)])
                            end
                        end
                      else get_attributes fuel (drop_spaces p3) (acc ++ [(name, None)])
                  | [] => get_attributes fuel [] (acc ++ [(name, None)])
                  end
                else get_attributes fuel (drop_spaces p1) (acc ++ [([], None)])
            | [] => get_attributes fuel [] (acc ++ [([], None)])
            end
      end
  end.

(** IsSkipTag, 1965-1986 *)
Definition skip_tag (tag : list N) : outcome bool :=
  let* a := same tag (b "rdf:Bag") in let* b := same tag (b "rdf:Seq") in Ok (a || b).

(** strstr: the rest from the first occurrence *)
Fixpoint strstr (x s : list N) : option (list N) :=
  if starts_with x s then Some s else match s with [] => None | _ :: s => strstr x s end.
(** 2314-2320 *)
Fixpoint end_instruction (s : list N) : option (list N) :=
  match s with
  | [] => None
  | c :: s' => if (c =? 63)%N then match s' with [] => Some [] | d :: _ => if (d =? 62)%N then Some s' else end_instruction s' end
               else end_instruction s'
  end.

(** 2055-2337, [p] behind '<'.  The markup: the tree, the depth of ignored tags
    and the rest, which starts with the '>' (missing at the end of the document,
    where it is [terminal]); [inr]: return *)
Definition markup (terminal : N) (p : list N) (ignore : nat) (t : tree)
  : outcome (option (tree * nat * list N + parsed)) :=
  let c := hd 0%N p in
  let fail := Ok (Some (inr (stop true t))) in
  let ends p := match p with [] => (terminal =? 62)%N | c :: _ => (c =? 62)%N end in
  if alpha c || (c =? 95)%N || (c =? 58)%N || (128 <=? c)%N then
    match t with
    | After _ => fail
    | _ =>
        let '(tag, p1) := span (fun c => xml_space c || one_of [47; 62]%N c) p in
        let p2 := drop_spaces p1 in
        let* r := if (alpha (hd 0%N p2) || (hd 0 p2 =? 95))%N && (ignore =? 0)
                  then get_attributes (S (length p2)) p2 []
                  else Ok (Some (inl ([], snd (span (one_of [47; 62]%N) p2)))) in
        match r with
        | None => Ok None
        | Some (inr _) => fail
        | Some (inl (attrs, p3)) =>
            let* skipped := skip_tag tag in
            match p3 with
            | 47%N :: p4 =>
                if negb (ends p4) then fail
                else if negb (ignore =? 0) || skipped then Ok (Some (inl (t, ignore, p4)))
                else match close_tag tag (open_tag tag attrs t) with
                     | Some t => Ok (Some (inl (t, ignore, p4)))
                     | None => Ok (Some (inl (open_tag tag attrs t, ignore, p4)))
                     end
            | _ =>
                if ends p3 then
                  if (ignore =? 0) && negb skipped then Ok (Some (inl (open_tag tag attrs t, ignore, p3)))
                  else Ok (Some (inl (t, S ignore, p3)))
                else fail
            end
        end
    end
  else if (c =? 47)%N then
    let '(tag, p1) := span (fun c => xml_space c || (c =? 62)%N) (tl p) in
    match p1 with
    | [] => if (terminal =? 62)%N then
              if ignore =? 0 then match close_tag tag t with Some t => Ok (Some (inl (t, ignore, []))) | None => fail end
              else Ok (Some (inl (t, ignore - 1, [])))
            else fail
    | d :: _ =>
        let p2 := if isspace d then snd (span (fun c => negb (xml_space c)) p1) else p1 in
        if ignore =? 0 then match close_tag tag t with Some t => Ok (Some (inl (t, ignore, p2))) | None => fail end
        else Ok (Some (inl (t, ignore - 1, p2)))
    end
  else if starts_with (b "!--") p then
    match strstr (b "--") (skipn 3 p) with
    | Some q => let q := skipn 2 q in if ends q then Ok (Some (inl (t, ignore, q))) else fail
    | None => fail
    end
  else if starts_with (b "![CDATA[") p then
    match strstr (b "]]>") p with
    | Some q =>
        let text := firstn (length p - 8 - length q) (skipn 8 p) in
        let* r := if ignore =? 0 then add_content (S (6 * length text)) Cdata text t else Ok (Some t) in
        Ok (option_map (fun t => inl (t, ignore, skipn 2 q)) r)
    | None => fail
    end
  else if starts_with (b "!DOCTYPE") p then Ok (Some (inr Doctype))
  else if (c =? 63)%N then
    match end_instruction p with
    | Some q => if ends q then Ok (Some (inl (t, ignore, q))) else fail
    | None => fail
    end
  else fail.

(** 2053-2370: the whole document from behind a '<'; 2338-2357 is the text *)
Fixpoint parse (fuel : nat) (terminal : N) (p : list N) (ignore : nat) (t : tree) : outcome (option parsed) :=
  match fuel with
  | O => Ok None
  | S fuel =>
      let* r := markup terminal p ignore t in
      match r with
      | None => Ok None
      | Some (inr r) => Ok (Some r)
      | Some (inl (t, ignore, q)) =>
          let finished := Ok (Some (match t with After _ => stop false t | _ => stop true t end)) in
          match tl q with
          | [] => finished
          | q =>
              let '(text, q) := span (N.eqb 60) q in
              match q with
              | [] => finished
              | _ :: q =>
                  let* r := if ignore =? 0 then add_content (S (6 * length text)) General text t else Ok (Some t) in
                  match r with
                  | None => Ok None
                  | Some t => parse fuel terminal q ignore t
                  end
              end
          end
      end
  end.
(** NewXMLTree, 1988-2370, for a text that is not UTF-16 *)
Definition NewXMLTree (fuel : nat) (s : list N) : outcome (option parsed) :=
  match s with
  | [] => Ok (Some Null)
  | _ => match snd (span (N.eqb 60) (removelast s)) with
         | [] => Ok (Some Null)
         | _ :: p => parse fuel (last s 0%N) p 0 Before
         end
  end.

(** * Output *)

(** 2716-2733: an attribute is left out when an earlier one has its name
    (GetXMLTreeAttribute, 830-835, finds the first) *)
Fixpoint attributes_xml (base64 : list N -> list N) (seen : list (list N)) (l : list attr) : outcome (list N) :=
  match l with
  | [] => Ok []
  | (name, value) :: l =>
      let* rest := attributes_xml base64 (name :: seen) l in
      if existsb (fun n => if list_eq_dec N.eq_dec n name then true else false) seen then Ok rest
      else match value with
           | None => UB                                         (* CanonicalXMLContent(NULL) *)
           | Some v => Ok (32%N :: name ++ [61; 34]%N ++ CanonicalXMLContent base64 v true ++ 34%N :: rest)
           end
  end.
(** EncodePredefinedEntities, 2663-2666: AcquireString's copy has [extent]
    (WizardPathExtent) bytes more than the text; content[offset]='\0' *)
Definition cut (extent : nat) (source : list N) (offset : nat) : outcome (list N) :=
  if length source + extent <=? offset then UB else Ok (firstn offset source).
(** XMLTreeTagToXML, 2684-2788, for a tree without default attributes and
    children in the order of their offsets (so that no offset-start is negative);
    the children, their text and what is behind them in [content] *)
Fixpoint tag_xml (extent : nat) (base64 : list N -> list N) (x : xml) : outcome (list N) :=
  let '(Xml tag attrs content kids) := x in
  let* a := attributes_xml base64 [] attrs in
  let* inner :=
    (fix kids_xml (start : nat) (l : list (nat * xml)) : outcome (list N) :=
       match l with
       | [] => Ok (CanonicalXMLContent base64 (skipn start content) false)
       | (o, k) :: l =>
           let* text := cut extent (skipn start content) (o - start) in
           let* s := tag_xml extent base64 k in
           let* rest := kids_xml (min o (length content)) l in
           Ok (CanonicalXMLContent base64 text false ++ s ++ rest)
       end) 0 kids in
  Ok (60%N :: tag ++ a ++ match content with [] => b "/>" ++ inner | _ => 62%N :: inner ++ b "</" ++ tag ++ b ">" end).
(** XMLTreeInfoToXML, 2790-2893, without processing instructions, of an element at
    the offset [o] of its parent (0: the root); 2859 cuts the parent off, so the
    text before the element is the empty one, but 2706 still cuts at its offset *)
Definition XMLTreeInfoToXML (extent : nat) (base64 : list N -> list N) (o : nat) (x : xml) : outcome (list N) :=
  let* _ := cut extent [] o in tag_xml extent base64 x.
