(** wizard/xml-tree.c: the next element with the same tag, on the memory of XmlMemoryModel.v. *)
From Verif Require Import Outcome XmlMemoryModel.

(** GetNextXMLTreeTag, 778-785 *)
Definition GetNextXMLTreeTag (p : nat) (h : heap) : outcome nat := let* e := load_element h p in Ok (e_next e).
