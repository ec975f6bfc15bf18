(** Model of the links between the children of an element in wizard/xml-tree.c:
    AddChildToXMLTree, InsertTagIntoXMLTree, PruneTagFromXMLTree,
    GetXMLTreeChild, GetNextXMLTreeTag, GetXMLTreeSibling and GetXMLTreeOrdered.

    An element is a cell of a heap, reached through its address; of the structure
    (xml-tree.c:75-99) the fields the links depend on are kept.  One parent is
    modelled: its [child] field.  [UB]: a NULL or dangling pointer is followed.
    [Fatal]: the loop is still running when the fuel is used up. *)
From Coq Require Import Arith NArith List Bool.
From Verif Require Import Outcome.
Import ListNotations.

Record node := mkNode { tag : list N; offset : nat; next : option nat; sibling : option nat; ordered : option nat }.
Definition heap := nat -> option node.
Record parent := mkParent { cells : heap; child : option nat }.

Definition get (h : heap) (p : nat) : outcome node := match h p with Some n => Ok n | None => UB end.
(** strcmp(...) == 0 *)
Definition tag_eq (s t : list N) : bool := if list_eq_dec N.eq_dec s t then true else false.
Definition put (h : heap) (p : nat) (n : node) : heap := fun q => if q =? p then Some n else h q.
(** p->field=x *)
Definition set_next (h : heap) (p : nat) (x : option nat) : outcome heap :=
  let* n := get h p in Ok (put h p (mkNode (tag n) (offset n) x (sibling n) (ordered n))).
Definition set_sibling (h : heap) (p : nat) (x : option nat) : outcome heap :=
  let* n := get h p in Ok (put h p (mkNode (tag n) (offset n) (next n) x (ordered n))).
Definition set_ordered (h : heap) (p : nat) (x : option nat) : outcome heap :=
  let* n := get h p in Ok (put h p (mkNode (tag n) (offset n) (next n) (sibling n) x)).

(** 1247-1249, 1262-1264: while ((node->link != NULL) && (node->link->offset <= offset)) node=node->link *)
Fixpoint last_before (fuel : nat) (h : heap) (link : node -> option nat) (o : nat) (p : nat) : outcome nat :=
  match fuel with
  | O => Fatal
  | S fuel =>
      let* n := get h p in
      match link n with
      | None => Ok p
      | Some q => let* m := get h q in if offset m <=? o then last_before fuel h link o q else Ok p
      end
  end.
(** 1255-1259, 937-939: while ((node != NULL) && (strcmp(node->tag,tag) != 0)) *)
Fixpoint find_tag (fuel : nat) (h : heap) (t : list N) (previous p : option nat) : outcome (option nat * option nat) :=
  match fuel with
  | O => Fatal
  | S fuel =>
      match p with
      | None => Ok (previous, None)
      | Some q => let* n := get h q in if tag_eq (tag n) t then Ok (previous, p) else find_tag fuel h t p (sibling n)
      end
  end.
(** 1275-1279: while ((node != NULL) && (node->offset <= offset)) *)
Fixpoint find_offset (fuel : nat) (h : heap) (o : nat) (previous p : option nat) : outcome (option nat * option nat) :=
  match fuel with
  | O => Fatal
  | S fuel =>
      match p with
      | None => Ok (previous, None)
      | Some q => let* n := get h q in if offset n <=? o then find_offset fuel h o p (sibling n) else Ok (previous, p)
      end
  end.

(** InsertTagIntoXMLTree, 1220-1285, with the element [c] made by
    AddChildToXMLTree (164-186) with the tag [t] *)
Definition AddChild (fuel : nat) (s : parent) (c : nat) (t : list N) (o : nat) : outcome parent :=
  let h := put (cells s) c (mkNode t o None None None) in                              (* 1228-1231 *)
  match child s with
  | None => Ok (mkParent h (Some c))                                                   (* 1233-1237 *)
  | Some head =>
      let* n := get h head in
      let* hc := (if o <? offset n
                  then let* h := set_ordered h c (Some head) in Ok (h, Some c)         (* 1239-1243 *)
                  else let* p := last_before fuel h ordered o head in                  (* 1246-1251 *)
                       let* n := get h p in
                       let* h := set_ordered h c (ordered n) in
                       let* h := set_ordered h p (Some c) in Ok (h, Some head)) in
      let '(h, first) := hc in
      let* pn := find_tag fuel h t None (Some head) in                                 (* 1253-1259 *)
      let '(previous, found) := pn in
      let* before := (match found with
                      | None => Ok None
                      | Some q => let* n := get h q in Ok (if offset n <=? o then Some q else None)
                      end) in
      match before with
      | Some q =>                                                                      (* 1262-1266 *)
          let* p := last_before fuel h next o q in
          let* n := get h p in
          let* h := set_next h c (next n) in
          let* h := set_next h p (Some c) in Ok (mkParent h first)
      | None =>
          let* h := (match previous, found with                                        (* 1270-1271 *)
                     | Some p, Some q => let* n := get h q in set_sibling h p (sibling n)
                     | _, _ => Ok h
                     end) in
          let* h := set_next h c found in
          let* pn := find_offset fuel h o None (Some head) in                          (* 1273-1282 *)
          let '(previous, found) := pn in
          let* h := set_sibling h c found in
          let* h := (match previous with Some p => set_sibling h p (Some c) | None => Ok h end) in
          Ok (mkParent h first)
      end
  end.

(** 2468-2469: while (node->ordered != xml_info) *)
Fixpoint before_ordered (fuel : nat) (h : heap) (c p : nat) : outcome nat :=
  match fuel with
  | O => Fatal
  | S fuel =>
      let* n := get h p in
      match ordered n with
      | None => UB
      | Some q => if q =? c then Ok p else before_ordered fuel h c q
      end
  end.
(** 2474-2475: while (strcmp(node->sibling->tag,xml_info->tag) != 0) *)
Fixpoint before_tag (fuel : nat) (h : heap) (t : list N) (p : nat) : outcome nat :=
  match fuel with
  | O => Fatal
  | S fuel =>
      let* n := get h p in
      match sibling n with
      | None => UB
      | Some q => let* m := get h q in if tag_eq (tag m) t then Ok p else before_tag fuel h t q
      end
  end.
(** 2482-2484: while ((node->next != NULL) && (node->next != xml_info)) *)
Fixpoint before_next (fuel : nat) (h : heap) (c p : nat) : outcome nat :=
  match fuel with
  | O => Fatal
  | S fuel =>
      let* n := get h p in
      match next n with
      | None => Ok p
      | Some q => if q =? c then Ok p else before_next fuel h c q
      end
  end.
(** PruneTagFromXMLTree, 2450-2493, of the child [c] of the parent *)
Definition Prune (fuel : nat) (s : parent) (c : nat) : outcome parent :=
  let h := cells s in
  let* x := get h c in
  let* h := (match next x with Some q => set_sibling h q (sibling x) | None => Ok h end) in   (* 2459-2460 *)
  match child s with
  | None => UB
  | Some head =>
      let* hc := (if head =? c then Ok (h, ordered x)                                          (* 2464-2465 *)
                  else
                    let* p := before_ordered fuel h c head in
                    let* h := set_ordered h p (ordered x) in
                    let* n := get h head in
                    let* ph := (if tag_eq (tag n) (tag x) then Ok (head, h)
                                else
                                  let* p := before_tag fuel h (tag x) head in
                                  let* n := get h p in
                                  match sibling n with
                                  | None => UB
                                  | Some q =>
                                      if q =? c
                                      then let* m := get h q in
                                           let* h := set_sibling h p (match next x with Some _ => next x | None => sibling m end) in
                                           Ok (p, h)
                                      else Ok (q, h)
                                  end) in
                    let '(p, h) := ph in
                    let* p := before_next fuel h c p in
                    let* n := get h p in
                    let* h := (match next n with
                               | Some q => let* m := get h q in set_next h p (next m)
                               | None => Ok h
                               end) in
                    Ok (h, Some head)) in
      let '(h, first) := hc in
      Ok (mkParent (put h c (mkNode (tag x) (offset x) None None None)) first)                 (* 2489-2491 *)
  end.

(** GetXMLTreeChild, 927-942 *)
Definition GetXMLTreeChild (fuel : nat) (s : parent) (t : list N) : outcome (option nat) :=
  let* r := find_tag fuel (cells s) t None (child s) in Ok (snd r).
(** following GetNextXMLTreeTag (778-785), GetXMLTreeSibling (1152-1159) or
    GetXMLTreeOrdered (997-1004) to the end *)
Fixpoint collect (fuel : nat) (h : heap) (link : node -> option nat) (p : option nat) : outcome (list nat) :=
  match fuel with
  | O => Fatal
  | S fuel =>
      match p with
      | None => Ok []
      | Some q => let* n := get h q in let* l := collect fuel h link (link n) in Ok (q :: l)
      end
  end.

Inductive op := Add (c : nat) (t : list N) (o : nat) | Cut (c : nat).
Definition step (fuel : nat) (s : parent) (x : op) : outcome parent :=
  match x with Add c t o => AddChild fuel s c t o | Cut c => Prune fuel s c end.
Definition run (fuel : nat) (l : list op) : outcome parent := fold_outcome (step fuel) l (mkParent (fun _ => None) None).
