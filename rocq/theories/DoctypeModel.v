(** Model of the declarations of a document type: ParseInternalDoctype, the states '%' and '*' of ParseEntities,
    what ParseProcessingInstructions does to [standalone], and the attributes by default in GetXMLTreeAttribute (wizard/xml-tree.c).

    A pointer into the subset is the list of the bytes from there on.  All of them stay inside, but for one read behind the end of
    "<!ATTLIST name]", which finds the '>' of the declaration (2283-2286) and no attribute.
    Not modelled: failing allocations, the blocks behind names and values. *)
From Coq Require Import Arith NArith ZArith Bool String List.
From Verif Require Import Base Outcome CStringModel OptionModel Base64Model ScanModel XmlModel.
Import ListNotations.

(** ** ParseEntities, state '%', 1429-1547: like [decode], but '%' refers to an entity and '&' does not *)
Fixpoint decode_parameter (fuel : nat) (t : entities) (moved : bool) (out s : list N) : outcome (option (list N)) :=
  match fuel with
  | O => Ok None
  | S fuel =>
      match s with
      | [] => Ok (Some out)
      | c :: rest =>
          if starts_with (b "&#") s then
            let '(v, e) := match tl rest with
                           | x :: r => if (x =? 120)%N then strtol_end 16 r else strtol_end 10 (tl rest)
                           | [] => (0%Z, [])
                           end in
            let v := to_int v in
            if (v =? 0)%Z || negb (is 59 (fst (next e))) then decode_parameter fuel t moved (out ++ [c]) rest
            else
              let bytes := char_bytes v in
              match after_semicolon (skipn (length bytes) s) with
              | None => UB
              | Some r => decode_parameter fuel t moved (out ++ bytes) r
              end
          else if (c =? 37)%N then
            match find_entity t rest with
            | None => decode_parameter fuel t moved (out ++ [c]) rest
            | Some value =>
                match after_semicolon s with
                | None => UB
                | Some r =>
                    let '(moved, s) := extend moved (length value) (length s - length r - 1) s in
                    match after_semicolon s, value with
                    | Some r, _ => decode_parameter fuel t moved out (value ++ r)
                    | None, [] => decode_parameter fuel t moved out s
                    | None, _ => UB
                    end
                end
            end
          else decode_parameter fuel t moved (out ++ [c]) rest
      end
  end.
Definition ParseParameters (fuel : nat) (t : entities) (s : list N) : outcome (option (list N)) :=
  let* r := decode_parameter fuel t false [] (normalize s) in Ok (option_map cstr r).

(** ** state '*', 1548-1569: spaces at the ends go, others become one *)
Fixpoint drop_blank (s : list N) : list N := match s with c :: s' => if (c =? 32)%N then drop_blank s' else s | [] => [] end.
Fixpoint collapse (fuel : nat) (s : list N) : list N :=
  match fuel with
  | O => s
  | S fuel =>
      match s with
      | [] => []
      | _ => let '(w, r) := span (N.eqb 32) (drop_blank s) in
             match r with [] => w | _ :: r => w ++ 32%N :: collapse fuel r end
      end
  end.
(** 1566-1568 *)
Definition chop_blank (s : list N) : list N := if (last s 0 =? 32)%N then removelast s else s.
Definition ParseTokens (fuel : nat) (t : entities) (s : list N) : outcome (option (list N)) :=
  let* r := ParseEntities fuel t Attribute s in Ok (option_map (fun r => chop_blank (collapse (length r) r)) r).

(** ** Declarations *)
Definition skip (p : N -> bool) (s : list N) : list N := snd (span (fun c => negb (p c)) s).
(** the '*' or ' ' of an attribute: not character data, or so *)
Definition default := (list N * option (list N) * bool)%type.   (* name, value (None: NULL), tokens *)
Record dtd := { general : entities; parameters : entities; defaults : list (list N * list default); standalone : bool }.
Definition empty_dtd (alone : bool) : dtd := {| general := predefined; parameters := []; defaults := []; standalone := alone |}.
Inductive verdict := Read (d : dtd) | Refused (d : dtd).

(** 1806-1809: the element is looked up by n, which is the name of the last entity or the end of the last list *)
Fixpoint position (n : list N) (l : list (list N * list default)) : nat :=
  match l with
  | (e, _) :: l => if list_eq_dec N.eq_dec n e then 0 else S (position n l)
  | [] => 0
  end.
(** 1856-1895 *)
Fixpoint add_default (i : nat) (element : list N) (a : default) (l : list (list N * list default)) : list (list N * list default) :=
  match i, l with
  | _, [] => [(element, [a])]
  | O, (e, l') :: l => (e, l' ++ [a]) :: l
  | S i, x :: l => x :: add_default i element a l
  end.
(** 1810-1896: the attributes of an element.  [cur] is the byte at the pointer, zero if it has been overwritten, [xml] what is behind it.
    What is left: the declarations, that byte, the text and n; [inr] refused; [None]: still running. *)
Fixpoint attlist (fuel decoding : nat) (i : nat) (element : list N) (cur : N) (xml : list N) (d : dtd)
  : outcome (option (dtd * N * list N * list N + dtd)) :=
  match fuel with
  | O => Ok None
  | S fuel =>
      let n := skip xml_space xml in
      match n with
      | [] => Ok (Some (inl (d, cur, xml, n)))
      | 62%N :: _ => Ok (Some (inl (d, cur, xml, n)))
      | _ =>
          let '(name, x) := span xml_space n in
          match x with
          | [] => Ok (Some (inr d))
          | _ :: x =>
              let x := skip xml_space x in
              let tokens := negb (starts_with (b "CDATA") x) in
              let x := if starts_with (b "NOTATION") x then skip xml_space (skipn 8 x) else x in
              match (if is 40 (fst (next x)) then strstr [41%N] x else Some (snd (span xml_space x))) with
              | None => Ok (Some (inr d))
              | Some x =>
                  let x := skip (fun c => xml_space c || (c =? 41)%N) x in
                  let x := if starts_with (b "#FIXED") x then skip xml_space (skipn 6 x) else x in
                  match x with
                  | [] => Ok (Some (inr d))
                  | q :: v =>
                      if (q =? 35)%N then
                        let '(word, rest) := span (fun c => xml_space c || (c =? 62)%N) x in
                        if tokens
                        then attlist fuel decoding i element (last word 0%N) rest
                               {| general := general d; parameters := parameters d; defaults := add_default i element (name, None, tokens) (defaults d); standalone := standalone d |}
                        else attlist fuel decoding i element (last word 0%N) rest d
                      else if ((q =? 34) || (q =? 39))%N then
                        let '(value, rest) := span (N.eqb q) v in
                        match rest with
                        | [] => Ok (Some (inr d))
                        | _ :: rest =>
                            let* r := if tokens then ParseTokens decoding (general d) value else ParseEntities decoding (general d) Attribute value in
                            match r with
                            | None => Ok None
                            | Some value =>
                                attlist fuel decoding i element 0 rest
                                  {| general := general d; parameters := parameters d; defaults := add_default i element (name, Some value, tokens) (defaults d); standalone := standalone d |}
                            end
                        end
                      else Ok (Some (inr d))
                  end
              end
          end
      end
  end.

(** ParseProcessingInstructions, 1654-1668, as far as [standalone] goes *)
Definition says_standalone (s : list N) : bool :=
  let '(target, x) := span xml_space s in
  let x := match x with [] => [] | _ :: x => skip xml_space x end in
  if list_eq_dec N.eq_dec target (b "xml") then
    match strstr (b "standalone") x with
    | Some x => starts_with (b "yes") (skip (fun c => xml_space c || one_of [61; 39; 34]%N c) (skipn 10 x))
    | None => false
    end
  else false.

(** ParseInternalDoctype, 1719-1948.  [n]: the variable of that name *)
Fixpoint declarations (fuel decoding limit : nat) (n : option (list N)) (xml : list N) (d : dtd) : outcome (option verdict) :=
  match fuel with
  | O => Ok None
  | S fuel =>
      let go n x d := match x with Some x => declarations fuel decoding limit n x d | None => Ok (Some (Read d)) end in
      let xml := snd (span (one_of [60; 37]%N) xml) in
      match xml with
      | [] => Ok (Some (Read d))
      | c0 :: after =>
          if (9 <? length xml) && starts_with (b "<!ENTITY") xml then
            (* 1755-1800 *)
            let x := skipn 8 xml in
            if negb (xml_space (List.hd 0%N x)) then Ok (Some (Read d)) else
            let c := skip xml_space x in
            let m := skip (fun c => xml_space c || (c =? 37)%N) c in
            if negb (alpha (List.hd 0%N m) || (List.hd 0%N m =? 95)%N) then Ok (Some (Read d)) else
            let '(name, x) := span xml_space m in
            match x with
            | [] => Ok (Some (Read d))
            | _ :: x =>
                match skip xml_space x with
                | q :: v =>
                    if ((q =? 34) || (q =? 39))%N then
                      let '(value, rest) := span (N.eqb q) v in
                      let parameter := is 37 (fst (next c)) in
                      let* r := ParseParameters decoding (parameters d) value in
                      match r with
                      | None => Ok None
                      | Some value =>
                          let table := if parameter then parameters d else general d in
                          let name := name ++ [59%N] in
                          if ValidateEntities limit name table value then
                            let table := table ++ [(name, value)] in
                            go (Some name) (match rest with [] => None | _ :: rest => Some rest end)
                              {| general := if parameter then general d else table; parameters := if parameter then table else parameters d;
                                 defaults := defaults d; standalone := standalone d |}
                          else Ok (Some (Refused d))
                      end
                    else go (Some (name ++ 59%N :: x)) (strstr [62%N] x) d
                | [] => go (Some (name ++ 59%N :: x)) (strstr [62%N] x) d
                end
            end
          else if starts_with (b "<!ATTLIST") xml then
            (* 1801-1896 *)
            let t := skip xml_space (skipn 9 xml) in
            match t with
            | [] => Ok (Some (Refused d))
            | _ =>
                let '(element, x) := span (fun c => xml_space c || (c =? 62)%N) t in
                match x with
                | 62%N :: _ => declarations fuel decoding limit n x d
                | _ =>
                    let i := match n with Some n => position n (defaults d) | None => 0 end in
                    let* r := attlist (S (length x)) decoding i element 0 (tl x) d in
                    match r with
                    | None => Ok None
                    | Some (inr d) => Ok (Some (Refused d))
                    | Some (inl (d, cur, x, n)) => if (cur =? 0)%N then Ok (Some (Read d)) else declarations fuel decoding limit (Some n) (cur :: x) d
                    end
                end
            end
          else if starts_with (b "<!--") xml then go n (strstr (b "-->") (skipn 4 xml)) d
          else if starts_with (b "<?") xml then
            match strstr (b "?>") (skipn 2 xml) with
            | Some x =>
                let text := firstn (length xml - 2 - length x) (skipn 2 xml) in
                declarations fuel decoding limit n (tl x)
                  {| general := general d; parameters := parameters d; defaults := defaults d; standalone := standalone d || says_standalone text |}
            | None => Ok (Some (Read d))
            end
          else if (c0 =? 60)%N then go n (strstr [62%N] xml) d
          else if standalone d then declarations fuel decoding limit n after d
          else Ok (Some (Read d))
      end
  end.
Definition ParseInternalDoctype (decoding limit : nat) (alone : bool) (s : list N) : outcome (option verdict) :=
  declarations (S (length s)) decoding limit None s (empty_dtd alone).

(** GetXMLTreeAttribute, 828-855, of an element with its own attributes *)
Fixpoint first_attr (tag : list N) (l : list attr) : option (option (list N)) :=
  match l with
  | (a, v) :: l => if list_eq_dec N.eq_dec a tag then Some v else first_attr tag l
  | [] => None
  end.
Fixpoint first_element (e : list N) (l : list (list N * list default)) : option (list default) :=
  match l with (x, a) :: l => if list_eq_dec N.eq_dec x e then Some a else first_element e l | [] => None end.
Fixpoint first_default (tag : list N) (l : list default) : option (list N) :=
  match l with (a, v, _) :: l => if list_eq_dec N.eq_dec a tag then v else first_default tag l | [] => None end.
Definition GetXMLTreeAttribute (d : dtd) (element : list N) (own : list attr) (tag : list N) : option (list N) :=
  match first_attr tag own with
  | Some v => v
  | None => match first_element element (defaults d) with Some l => first_default tag l | None => None end
  end.
