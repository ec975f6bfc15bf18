(** Documents and what they mean (XML 1.0, sections 2.4, 3.1, 3.3.3, 4.1, 4.4),
    independently of the code. *)
From Coq Require Import Arith NArith Bool String List.
From Verif Require Import Base OptionModel CStringSpec XmlSpec XmlModel XmlTreeSpec.
From Verif Require DoctypeProps.
Import ListNotations.

(** characters, the five special ones as references, and references to entities *)
Inductive piece := Char (c : N) | Special (c : N) | Named (n : list N).
Definition specials : list (N * list N) := [(60%N, b "lt"); (62%N, b "gt"); (34%N, b "quot"); (39%N, b "apos"); (38%N, b "amp")].
Definition special_name (c : N) : list N := match find (fun x => (fst x =? c)%N) specials with Some x => snd x | None => [] end.
Definition piece_text (p : piece) : list N :=
  match p with
  | Char c => [c]
  | Special c => 38%N :: special_name c ++ [59%N]
  | Named n => 38%N :: n ++ [59%N]
  end.
Definition chars_text (l : list piece) : list N := flat_map piece_text l.
(** white space in a value of an attribute is as good as a space, 3.3.3 *)
Definition blank (c : N) : N := if ((c =? 9) || (c =? 10))%N then 32%N else c.
Definition piece_means (env : list N -> option (list N)) (attribute : bool) (p : piece) : list N :=
  match p with
  | Char c => [if attribute then blank c else c]
  | Special c => [c]
  | Named n => match env n with Some v => if attribute then map blank v else v | None => [] end
  end.
Definition chars_mean (env : list N -> option (list N)) (attribute : bool) (l : list piece) : list N := flat_map (piece_means env attribute) l.
Definition good (c : N) : Prop := (c = 9 \/ c = 10 \/ 32 <= c /\ c <> 38 /\ c <> 60)%N.
Definition good_piece (env : list N -> option (list N)) (attribute : bool) (p : piece) : Prop :=
  match p with
  | Char c => good c /\ (attribute = true -> c <> 34%N)
  | Special c => In c (map fst specials)
  | Named n => attribute_name n /\ ~ In n (map snd specials) /\ exists v, env n = Some v /\ v <> [] /\ Forall good v
  end.

(** an element: <tag/> or <tag> with texts in front of its children and one behind them *)
Inductive element :=
| Leaf (tag : list N) (attrs : list (list N * list piece))
| Node (tag : list N) (attrs : list (list N * list piece)) (kids : list (list piece * element)) (rest : list piece).
Definition attribute_text (a : list N * list piece) : list N := 32%N :: fst a ++ [61; 34]%N ++ chars_text (snd a) ++ [34%N].
(** without '<' and '>' around it *)
Fixpoint element_text (e : element) : list N :=
  match e with
  | Leaf tag attrs => tag ++ flat_map attribute_text attrs ++ [47%N]
  | Node tag attrs kids rest =>
      tag ++ flat_map attribute_text attrs ++ 62%N ::
      flat_map (fun k => chars_text (fst k) ++ 60%N :: element_text (snd k) ++ [62%N]) kids ++ chars_text rest ++ [60; 47]%N ++ tag
  end.

Section Means.
  Variable env : list N -> option (list N).
  (** the attributes of an element that are declared as tokens: words with a space between them, 3.3.3 *)
  Variable tokens : list N -> list N -> bool.
  Definition attribute_means (tag : list N) (a : list N * list piece) : attr :=
    let v := chars_mean env true (snd a) in
    (fst a, Some (if tokens tag (fst a) then DoctypeProps.joined (DoctypeProps.words v) else v)).
  (** the children with the length of the text in front of them *)
  Definition placed (f : element -> xml) : nat -> list (list piece * element) -> list (nat * xml) :=
    fix go (start : nat) (l : list (list piece * element)) :=
      match l with
      | [] => []
      | (s, k) :: l => let start := start + length (chars_mean env false s) in (start, f k) :: go start l
      end.
  Fixpoint element_means (e : element) : xml :=
    match e with
    | Leaf tag attrs => Xml tag (map (attribute_means tag) attrs) [] []
    | Node tag attrs kids rest =>
        Xml tag (map (attribute_means tag) attrs) (flat_map (fun k => chars_mean env false (fst k)) kids ++ chars_mean env false rest) (placed element_means 0 kids)
    end.
  Definition good_attribute (a : list N * list piece) : Prop := attribute_name (fst a) /\ Forall (good_piece env true) (snd a).
  Inductive good_element : element -> Prop :=
  | good_leaf tag attrs : tag_name tag -> ~ container tag -> Forall good_attribute attrs -> good_element (Leaf tag attrs)
  | good_node tag attrs kids rest : tag_name tag -> ~ container tag -> Forall good_attribute attrs ->
      Forall (fun k => Forall (good_piece env false) (fst k) /\ good_element (snd k)) kids -> Forall (good_piece env false) rest ->
      good_element (Node tag attrs kids rest).
End Means.
