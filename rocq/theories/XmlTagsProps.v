(** C252: children are found by their tags, all of them and in their order, in all forests that programs build without pruning. *)
From Coq Require Import NArith Bool Arith List Lia.
From Verif Require Import Outcome XmlMemoryModel XmlMemorySpec XmlMemoryInv XmlMemoryCalm XmlMemorySafe XmlTagsModel XmlTagsSpec XmlTagsProof XmlTagsInsert XmlTagsMain.
Import ListNotations.

(** ** C252: whatever the order of insertion, the offsets and the tags are, GetXMLTreeChild of an element of the forest returns its first child
    with the tag, and GetNextXMLTreeTag leads from there through the other children with the tag, in their order, and then to NULL *)
Theorem xml_children_found fuel l : safe_run l nothing = true -> 2 * length l + 3 <= fuel ->
  exists h env s, run fuel l ([], []) = Ok (h, env) /\ spec_run l nothing = Some s /\
    forall p i kids t, find p (trees s) = Some (i, kids) ->
      exists a q, nth_error env p = Some a /\ GetXMLTreeChild fuel a t h = Ok q /\ follow h env q (named t kids).
Proof.
  intros SA FU. destruct (agrees_made l) as [T AG]. destruct (run_wired fuel T l [] [] nothing) as (h & env & s & H & Z & R & GT & TY & C); [exact represents_nothing|intros ? []|intros ? []|exact I|exact AG|exact SA|cbn; lia|].
  exists h, env, s. split; [exact H|]. split; [exact Z|]. intros p i kids t F. eapply child_found; try eassumption. cbn in C. lia.
Qed.
(** a child before the first child that has the same tag, one between two with the same tag, and other tags in between *)
Definition ta : list N := [97%N].
Definition tb : list N := [98%N].
Definition tc : list N := [99%N].
Definition tagged : list op := [New ta; Add 0 tb 5; Add 0 tc 3; Add 0 tb 2; Add 0 tb 4; New tb; Add 5 tc 1; Insert 0 5 1; Add 0 tc 9].
Example tagged_found : safe_run tagged nothing = true /\
  match run 22 tagged ([], []), spec_run tagged nothing with
  | Ok (h, env), Some s =>
      match find 0 (trees s), env with
      | Some (_, kids), a :: _ =>
          (tops kids, named tb kids, named tc kids, named ta kids) = ([5; 3; 2; 4; 1; 7], [5; 3; 4; 1], [2; 7], []) /\
          (GetXMLTreeChild 22 a tb h, GetNextXMLTreeTag (nth 5 env 0) h, GetNextXMLTreeTag (nth 3 env 0) h) = (Ok (nth 5 env 0), Ok (nth 3 env 0), Ok (nth 4 env 0)) /\
          (GetXMLTreeChild 22 a tc h, GetXMLTreeChild 22 a ta h) = (Ok (nth 2 env 0), Ok 0)
      | _, _ => False
      end
  | _, _ => False
  end.
Proof. vm_compute. repeat split; reflexivity. Qed.
Print Assumptions xml_children_found.
