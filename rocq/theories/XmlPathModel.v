(** Model of the paths to elements in wizard/xml-tree.c: GetXMLTreePath (1031-1078) and AddPathToXMLTree (212-266),
    and of the lists of processing instructions: ParseProcessingInstructions (1642-1717),
    GetXMLTreeProcessingInstructions (1105-1128) and how XMLTreeInfoToXML writes them (2826-2858, 2865-2891).

    An element is its address: the positions of its children in document order, from the one the path starts at.  GetXMLTreeChild finds the first
    child with the tag in that order, and GetXMLTreeOrdered the next child (XmlLinkProps.v says for which trees that is so).
    Not modelled: failing allocations. *)
From Coq Require Import Arith NArith ZArith Bool String List.
From Verif Require Import Base Outcome CStringModel OptionModel Base64Model ScanModel XmlModel PathModel.
Import ListNotations.

Definition tag_of (x : xml) : list N := match x with Xml t _ _ _ => t end.
Definition kids_of (x : xml) : list (nat * xml) := match x with Xml _ _ _ k => k end.
Definition set_kids (x : xml) (k : list (nat * xml)) : xml := match x with Xml t a c _ => Xml t a c k end.

(** GetXMLTreeChild, 927-942: its position *)
Fixpoint child (t : list N) (l : list (nat * xml)) : option nat :=
  match l with
  | [] => None
  | (_, x) :: l => if list_eq_dec N.eq_dec (tag_of x) t then Some 0 else option_map S (child t l)
  end.
(** 1062-1067: [j] steps along the children; NULL behind the last *)
Fixpoint along (j : Z) (i : nat) (rest : list (nat * xml)) : option nat :=
  if (j <=? 0)%Z then Some i else match rest with [] => None | _ :: rest => along (j - 1) (S i) rest end.
(** the elements at an address *)
Fixpoint at_address (a : list nat) (x : xml) : option xml :=
  match a with
  | [] => Some x
  | i :: a => match nth_error (kids_of x) i with Some (_, k) => at_address a k | None => None end
  end.
(** AddChildToXMLTree, InsertTagIntoXMLTree, 1220-1285: the position and the children *)
Fixpoint insert (o : nat) (x : xml) (l : list (nat * xml)) : nat * list (nat * xml) :=
  match l with
  | (o', y) :: l' => if o' <=? o then let '(i, l') := insert o x l' in (S i, (o', y) :: l') else (0, (o, x) :: l)
  | [] => (0, [(o, x)])
  end.

Section Path.
Variable E : nat.                                   (* WizardPathExtent *)
Variable isdir : list N -> Z.
Variable accessible : list N -> bool.

(** tag and number of a component, 1056-1057, 1062 *)
Definition component (c : list N) : outcome (list N * Z) :=
  let* subnode := GetPathComponent E isdir accessible c SubnodePath in
  let* tag := GetPathComponent E isdir accessible c CanonicalPath in
  Ok (tag, (strtol subnode - 1)%Z).
(** 1054-1072 *)
Fixpoint walk (x : xml) (l : list (list N)) : outcome (option (list nat)) :=
  match l with
  | [] => Ok (Some [])
  | c :: l =>
      let* (tag, j) := component c in
      match child tag (kids_of x) with
      | None => Ok None
      | Some i =>
          match along j i (skipn (S i) (kids_of x)) with
          | None => Ok None
          | Some i =>
              match nth_error (kids_of x) i with
              | None => Ok None                     (* never *)
              | Some (_, y) => let* a := walk y l in Ok (option_map (cons i) a)
              end
          end
      end
  end.
Definition GetXMLTreePath (x : xml) (path : list N) : outcome (option (list nat)) := walk x (GetPathComponents path).

Fixpoint replace (i : nat) (x : xml) (l : list (nat * xml)) : list (nat * xml) :=
  match i, l with
  | O, (o, _) :: l => (o, x) :: l
  | S i, y :: l => y :: replace i x l
  | _, [] => []
  end.
(** 241-264: the tree afterwards and the element *)
Fixpoint walk_add (o : nat) (x : xml) (l : list (list N)) : outcome (xml * option (list nat)) :=
  match l with
  | [] => Ok (x, Some [])
  | c :: l =>
      let* (tag, j) := component c in
      let '(i, kids) := match child tag (kids_of x) with
                        | Some i => (i, kids_of x)
                        | None => insert o (Xml tag [] [] []) (kids_of x)
                        end in
      match along j i (skipn (S i) kids) with
      | None => Ok (set_kids x kids, None)
      | Some i =>
          match nth_error kids i with
          | None => Ok (set_kids x kids, None)      (* never *)
          | Some (_, y) => let* (y, a) := walk_add o y l in Ok (set_kids x (replace i y kids), option_map (cons i) a)
          end
      end
  end.
Definition AddPathToXMLTree (x : xml) (path : list N) (o : nat) : outcome (xml * option (list nat)) := walk_add o x (GetPathComponents path).
End Path.

(** ** Processing instructions: target, data, and one byte for each of them: '<' in front of the root, '>' behind its start *)
Record instruction := { target : list N; data : list (list N); places : list N }.
(** 1678-1716 *)
Fixpoint record (t : list N) (d : list N) (place : N) (l : list instruction) : list instruction :=
  match l with
  | [] => [{| target := t; data := [d]; places := [place] |}]
  | x :: l => if list_eq_dec N.eq_dec t (target x) then {| target := t; data := data x ++ [d]; places := places x ++ [place] |} :: l else x :: record t d place l
  end.
(** 1642-1717: [s] is what stands between "<?" and "?>", [root]: the root has been opened *)
Definition ParseProcessingInstructions (s : list N) (root : bool) (l : list instruction) : list instruction :=
  let '(t, x) := span xml_space s in
  let d := match x with [] => [] | _ :: x => snd (span (fun c => negb (xml_space c)) x) end in
  if list_eq_dec N.eq_dec t (b "xml") then l else record t d (if root then 62%N else 60%N) l.
(** 1121-1127 *)
Fixpoint GetXMLTreeProcessingInstructions (t : list N) (l : list instruction) : list (list N) :=
  match l with
  | [] => []
  | x :: l => if list_eq_dec N.eq_dec (target x) t then data x else GetXMLTreeProcessingInstructions t l
  end.
(** 2833-2856, 2868-2890: p is the data at [q] (1: the first), j goes on by one each time; [skipped] is '>' in front of the root and '<' behind it *)
Fixpoint written (skipped : N) (flags : list N) (p : list N) (rest : list (list N)) (j : nat) : list (list N) :=
  (if (nth (j - 1) flags 0 =? skipped)%N then [] else [p]) ++ match rest with [] => [] | q :: rest => written skipped flags q rest (S j) end.
(** p=[1]; then p=[j] with j=1 is the first again, and so on *)
Definition written_of (skipped : N) (x : instruction) : list (list N) :=
  match data x with [] => [] | d :: _ => written skipped (places x) d (data x) 1 end.
Definition instruction_text (t d : list N) : list N := b "<?" ++ t ++ match d with [] => [] | _ => 32%N :: d end ++ b "?>".
(** what stands in front of the root, and behind it *)
Definition before_root (l : list instruction) : list N := flat_map (fun x => flat_map (fun d => instruction_text (target x) d ++ [10%N]) (written_of 62 x)) l.
Definition behind_root (l : list instruction) : list N := flat_map (fun x => flat_map (fun d => 10%N :: instruction_text (target x) d) (written_of 60 x)) l.
