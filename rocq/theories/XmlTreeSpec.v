(** Well-formed trees, the ones XML text can stand for. *)
From Coq Require Import Arith NArith Bool String Sorting List.
From Verif Require Import Base OptionModel CStringSpec XmlSpec XmlModel.
Import ListNotations.

Definition letter (c : N) : Prop := (65 <= c <= 90 \/ 97 <= c <= 122 \/ c = 95)%N.
(** XML 1.0, 2.3, in ASCII: letters, digits and '.' '-' '_' ':' *)
Definition name_char (c : N) : Prop := letter c \/ (48 <= c <= 58 \/ c = 45 \/ c = 46)%N.
Definition tag_name (s : list N) : Prop := Forall name_char s /\ exists c r, s = c :: r /\ (letter c \/ c = 58%N).
Definition attribute_name (s : list N) : Prop := Forall name_char s /\ exists c r, s = c :: r /\ letter c.
Definition ascii_char (c : N) : Prop := xml_char c /\ (c < 128)%N.
(** the containers NewXMLTree leaves out *)
Definition container (s : list N) : Prop := map lower s = b "rdf:bag" \/ map lower s = b "rdf:seq".

Inductive well_formed : xml -> Prop :=
| well_formed_intro tag attrs content kids :
    tag_name tag -> ~ container tag ->
    Forall (fun a => attribute_name (fst a) /\ exists v, snd a = Some v /\ Forall ascii_char v) attrs -> NoDup (map fst attrs) ->
    Forall ascii_char content ->
    (kids = [] \/ content <> []) -> Sorted le (map fst kids) -> Forall (fun k => fst k <= length content) kids ->
    Forall (fun k => well_formed (snd k)) kids ->
    well_formed (Xml tag attrs content kids).
