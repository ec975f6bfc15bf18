(** The elements of an XML tree as blocks of memory: wizard/xml-tree.c, the functions NewXMLTreeTag, AddChildToXMLTree,
    InsertTagIntoXMLTree, PruneTagFromXMLTree, SetXMLTreeContent, SetXMLTreeAttribute, GetXMLTreeChild and DestroyXMLTree, with the
    texts and tables they acquire, copy and give back.

    Addresses are never used again, so that the use of a block that was given back shows ([UB]); 0 is NULL.  [Fatal]: a loop or a
    recursion is still running when the fuel is used up.  Memory is never short.  The texts of an element are acquired before the
    element, not after it, which nobody can see.  Not modelled here: what only NewXMLTree can add to a root (declared entities, default
    attributes, processing instructions), the removal of attributes and logging. *)
From Coq Require Import NArith Bool Arith List.
From Verif Require Import Outcome.
Import ListNotations.

(** xml-tree.c:75-99.  [e_attributes]: 0 is the array sentinel (133-134), which is never given back.  [e_entities]: None for the block of an
    XMLTreeInfo, Some for the larger block of an XMLTreeRoot (104-125); its members attributes and processing_instructions are sentinel *)
Record element := mkElement {
  e_tag : nat; e_attributes : nat; e_content : nat; e_offset : nat;
  e_parent : nat; e_next : nat; e_sibling : nat; e_ordered : nat; e_child : nat; e_entities : option nat }.
(** [Slots]: an array of pointers to texts, None where nothing was written yet *)
Inductive block := Text (l : list N) | Slots (l : list (option nat)) | Elem (e : element).
(** true: in use, false: given back *)
Definition heap := list (bool * block).
Definition get (h : heap) (p : nat) : option (bool * block) := match p with 0 => None | S i => nth_error h i end.
Fixpoint update {A} (i : nat) (x : A) (l : list A) : list A :=
  match l with [] => [] | y :: l => match i with 0 => x :: l | S i => y :: update i x l end end.
Definition set (h : heap) (p : nat) (c : bool * block) : heap := match p with 0 => h | S i => update i c h end.
Definition load (h : heap) (p : nat) : outcome block := match get h p with Some (true, b) => Ok b | _ => UB end.
Definition load_element (h : heap) (p : nat) : outcome element := let* b := load h p in match b with Elem e => Ok e | _ => UB end.
Definition load_text (h : heap) (p : nat) : outcome (list N) := let* b := load h p in match b with Text l => Ok l | _ => UB end.
Definition load_slots (h : heap) (p : nat) : outcome (list (option nat)) := let* b := load h p in match b with Slots l => Ok l | _ => UB end.
Definition alloc (h : heap) (b : block) : heap * nat := (h ++ [(true, b)], S (length h)).
(** RelinquishWizardMemory and DestroyString (string.c:830-833) *)
Definition Relinquish (p : nat) (h : heap) : outcome heap :=
  match p with 0 => Ok h | _ => let* b := load h p in Ok (set h p (false, b)) end.
(** p->member=x *)
Definition change (p : nat) (f : element -> element) (h : heap) : outcome heap :=
  let* e := load_element h p in Ok (set h p (true, Elem (f e))).
Definition with_next (x : nat) (e : element) :=
  mkElement (e_tag e) (e_attributes e) (e_content e) (e_offset e) (e_parent e) x (e_sibling e) (e_ordered e) (e_child e) (e_entities e).
Definition with_sibling (x : nat) (e : element) :=
  mkElement (e_tag e) (e_attributes e) (e_content e) (e_offset e) (e_parent e) (e_next e) x (e_ordered e) (e_child e) (e_entities e).
Definition with_ordered (x : nat) (e : element) :=
  mkElement (e_tag e) (e_attributes e) (e_content e) (e_offset e) (e_parent e) (e_next e) (e_sibling e) x (e_child e) (e_entities e).
Definition with_child (x : nat) (e : element) :=
  mkElement (e_tag e) (e_attributes e) (e_content e) (e_offset e) (e_parent e) (e_next e) (e_sibling e) (e_ordered e) x (e_entities e).
Definition with_content (x : nat) (e : element) :=
  mkElement (e_tag e) (e_attributes e) x (e_offset e) (e_parent e) (e_next e) (e_sibling e) (e_ordered e) (e_child e) (e_entities e).
Definition with_attributes (x : nat) (e : element) :=
  mkElement (e_tag e) x (e_content e) (e_offset e) (e_parent e) (e_next e) (e_sibling e) (e_ordered e) (e_child e) (e_entities e).

(** NewXMLTreeTag, 2394-2427: [t] None is a NULL tag; the ten predefined texts are constants *)
Definition NewXMLTreeTag (t : option (list N)) (h : heap) : heap * nat :=
  let '(h, tag) := match t with None => (h, 0) | Some t => alloc h (Text t) end in
  let '(h, content) := alloc h (Text []) in
  let '(h, entities) := alloc h (Slots []) in
  alloc h (Elem (mkElement tag 0 content 0 0 0 0 0 0 (Some entities))).

(** strcmp(...) == 0 *)
Definition tag_eq (s t : list N) : bool := if list_eq_dec N.eq_dec s t then true else false.
(** 1247-1249, 1262-1264: while ((node->link != NULL) && (node->link->offset <= offset)) node=node->link *)
Fixpoint last_before (fuel : nat) (h : heap) (link : element -> nat) (o : nat) (p : nat) : outcome nat :=
  match fuel with
  | O => Fatal
  | S fuel =>
      let* e := load_element h p in
      match link e with
      | 0 => Ok p
      | q => let* m := load_element h q in if e_offset m <=? o then last_before fuel h link o q else Ok p
      end
  end.
(** 1255-1259, 937-939: while ((node != NULL) && (strcmp(node->tag,tag) != 0)) *)
Fixpoint find_tag (fuel : nat) (h : heap) (t : list N) (previous p : nat) : outcome (nat * nat) :=
  match fuel with
  | O => Fatal
  | S fuel =>
      match p with
      | 0 => Ok (previous, 0)
      | _ => let* e := load_element h p in
             let* s := load_text h (e_tag e) in
             if tag_eq s t then Ok (previous, p) else find_tag fuel h t p (e_sibling e)
      end
  end.
(** 1275-1279: while ((node != NULL) && (node->offset <= offset)) *)
Fixpoint find_offset (fuel : nat) (h : heap) (o : nat) (previous p : nat) : outcome (nat * nat) :=
  match fuel with
  | O => Fatal
  | S fuel =>
      match p with
      | 0 => Ok (previous, 0)
      | _ => let* e := load_element h p in
             if e_offset e <=? o then find_offset fuel h o p (e_sibling e) else Ok (previous, p)
      end
  end.
(** InsertTagIntoXMLTree, 1220-1285: 1254-1284, once child is one of the children; [head] is the child that was first *)
Definition link_by_tag (fuel head c o : nat) (h : heap) : outcome heap :=
  let* e := load_element h c in
  let* t := load_text h (e_tag e) in
  let* r := find_tag fuel h t 0 head in                                                              (* 1253-1259 *)
  let '(previous, node) := r in
  let* before := match node with 0 => Ok false | _ => let* m := load_element h node in Ok (e_offset m <=? o) end in
  if before then                                                                                     (* 1260-1267 *)
    let* node := last_before fuel h e_next o node in
    let* m := load_element h node in
    let* h := change c (with_next (e_next m)) h in
    change node (with_next c) h
  else
    let* h := match previous, node with                                                              (* 1270-1271 *)
              | 0, _ | _, 0 => Ok h
              | _, _ => let* m := load_element h node in change previous (with_sibling (e_sibling m)) h
              end in
    let* h := change c (with_next node) h in
    let* r := find_offset fuel h o 0 head in                                                         (* 1273-1279 *)
    let '(previous, node) := r in
    let* h := change c (with_sibling node) h in
    match previous with 0 => Ok h | _ => change previous (with_sibling c) h end.
Definition InsertTagIntoXMLTree (fuel p c o : nat) (h : heap) : outcome heap :=
  let* h := change c (fun e => mkElement (e_tag e) (e_attributes e) (e_content e) o p 0 0 0 (e_child e) (e_entities e)) h in   (* 1228-1232 *)
  let* x := load_element h p in
  match e_child x with
  | 0 => change p (with_child c) h                                                                   (* 1233-1237 *)
  | head =>
      let* m := load_element h head in
      let* h := if o <? e_offset m
                then let* h := change c (with_ordered head) h in change p (with_child c) h           (* 1239-1243 *)
                else let* node := last_before fuel h e_ordered o head in                             (* 1246-1251 *)
                     let* m := load_element h node in
                     let* h := change c (with_ordered (e_ordered m)) h in
                     change node (with_ordered c) h in
      link_by_tag fuel head c o h
  end.
(** AddChildToXMLTree, 164-182 *)
Definition AddChildToXMLTree (fuel p : nat) (t : list N) (o : nat) (h : heap) : outcome (heap * nat) :=
  let '(h, tag) := alloc h (Text t) in
  let '(h, content) := alloc h (Text []) in
  let '(h, c) := alloc h (Elem (mkElement tag 0 content 0 0 0 0 0 0 None)) in
  let* h := InsertTagIntoXMLTree fuel p c o h in
  Ok (h, c).

(** 2468-2469: while (node->ordered != xml_info) *)
Fixpoint before_ordered (fuel : nat) (h : heap) (c p : nat) : outcome nat :=
  match fuel with
  | O => Fatal
  | S fuel => let* e := load_element h p in if e_ordered e =? c then Ok p else before_ordered fuel h c (e_ordered e)
  end.
(** 2474-2475: while (strcmp(node->sibling->tag,xml_info->tag) != 0) *)
Fixpoint before_tag (fuel : nat) (h : heap) (t : list N) (p : nat) : outcome nat :=
  match fuel with
  | O => Fatal
  | S fuel =>
      let* e := load_element h p in
      let* m := load_element h (e_sibling e) in
      let* s := load_text h (e_tag m) in
      if tag_eq s t then Ok p else before_tag fuel h t (e_sibling e)
  end.
(** 2482-2484: while ((node->next != NULL) && (node->next != xml_info)) *)
Fixpoint before_next (fuel : nat) (h : heap) (c p : nat) : outcome nat :=
  match fuel with
  | O => Fatal
  | S fuel =>
      let* e := load_element h p in
      match e_next e with
      | 0 => Ok p
      | q => if q =? c then Ok p else before_next fuel h c q
      end
  end.
(** 2471-2486: the element [c] is taken out of the lists of tags *)
Definition unlink_by_tag (fuel head c : nat) (h : heap) : outcome heap :=
  let* x := load_element h c in
  let* t := load_text h (e_tag x) in
  let* m := load_element h head in
  let* s := load_text h (e_tag m) in
  let* r := if tag_eq s t then Ok (h, head)
            else
              let* node := before_tag fuel h t head in
              let* m := load_element h node in
              if e_sibling m =? c
              then let* h := match e_next x with
                             | 0 => let* y := load_element h (e_sibling m) in change node (with_sibling (e_sibling y)) h
                             | q => change node (with_sibling q) h
                             end in Ok (h, node)
              else Ok (h, e_sibling m) in
  let '(h, node) := r in
  let* node := before_next fuel h c node in
  let* m := load_element h node in
  match e_next m with
  | 0 => Ok h
  | q => let* y := load_element h q in change node (with_next (e_next y)) h
  end.
(** PruneTagFromXMLTree, 2450-2493 *)
Definition PruneTagFromXMLTree (fuel c : nat) (h : heap) : outcome heap :=
  let* x := load_element h c in
  let* h := match e_next x with 0 => Ok h | q => change q (with_sibling (e_sibling x)) h end in      (* 2459-2460 *)
  let* h := match e_parent x with
            | 0 => Ok h
            | p =>
                let* y := load_element h p in
                if e_child y =? c then change p (with_child (e_ordered x)) h                         (* 2464-2465 *)
                else
                  let* node := before_ordered fuel h c (e_child y) in                                (* 2468-2470 *)
                  let* h := change node (with_ordered (e_ordered x)) h in
                  unlink_by_tag fuel (e_child y) c h
            end in
  change c (fun e => with_next 0 (with_sibling 0 (with_ordered 0 e))) h.                             (* 2489-2491 *)

(** SetXMLTreeContent, 2614-2625 *)
Definition SetXMLTreeContent (p : nat) (s : list N) (h : heap) : outcome heap :=
  let* e := load_element h p in
  let* h := Relinquish (e_content e) h in
  let '(h, content) := alloc h (Text s) in
  change p (with_content content) h.

(** a pointer that is read from a table *)
Definition slot (l : list (option nat)) (i : nat) : outcome nat := match nth_error l i with Some (Some p) => Ok p | _ => UB end.
Definition set_slot (l : list (option nat)) (i p : nat) : outcome (list (option nat)) :=
  if i <? length l then Ok (update i (Some p) l) else UB.
(** 2539-2541: the attribute with the name [k], or the end of the table *)
Fixpoint find_slot (fuel : nat) (h : heap) (l : list (option nat)) (k : list N) (i : nat) : outcome (nat * bool) :=
  match fuel with
  | O => Fatal
  | S fuel =>
      let* p := slot l i in
      match p with
      | 0 => Ok (i, false)
      | _ => let* s := load_text h p in if tag_eq s k then Ok (i, true) else find_slot fuel h l k (i + 2)
      end
  end.
(** 2568: for (j=i; attributes[j] != NULL; j+=2) reads on to the end *)
Fixpoint read_slots (fuel : nat) (l : list (option nat)) (i : nat) : outcome unit :=
  match fuel with
  | O => Fatal
  | S fuel => let* p := slot l i in match p with 0 => Ok tt | _ => read_slots fuel l (i + 2) end
  end.
(** SetXMLTreeAttribute, 2523-2576, with a value that is not NULL *)
Definition SetXMLTreeAttribute (fuel p : nat) (k v : list N) (h : heap) : outcome heap :=
  let* e := load_element h p in
  let* r := match e_attributes e with
            | 0 => Ok ([Some 0], (0, false))                                                         (* sentinel[0] *)
            | a => let* l := load_slots h a in let* r := find_slot fuel h l k 0 in Ok (l, r)
            end in
  let '(l, (i, found)) := r in
  let* r :=
    if found then Ok (h, e_attributes e, l)
    else
      let '(h, l) := match e_attributes e with
                     | 0 => let '(h, empty) := alloc h (Text []) in (h, [None; Some empty; None; None])                         (* 2553-2559 *)
                     | _ => (h, firstn (i + 4) l ++ repeat None (i + 4 - length l))                                           (* 2549-2551 *)
                     end in
      let '(h, name) := alloc h (Text k) in
      let* l := set_slot l i name in                                                                 (* 2562 *)
      let* l := set_slot l (i + 2) 0 in
      let* q := slot l (i + 1) in
      let* _ := load_text h q in                                                                     (* 2564: strlen *)
      match e_attributes e with
      | 0 => let '(h, a) := alloc h (Slots l) in
             let* h := change p (with_attributes a) h in Ok (h, a, l)
      | a => Ok (h, a, l)
      end in
  let '(h, a, l) := r in
  let* _ := read_slots fuel l i in                                                                   (* 2568 *)
  let* q := slot l (i + 1) in
  let* h := Relinquish q h in                                                                        (* 2569-2570 *)
  let '(h, value) := alloc h (Text v) in
  let* l := set_slot l (i + 1) value in                                                              (* 2573 *)
  let* _ := load_slots h a in
  Ok (set h a (true, Slots l)).

(** GetXMLTreeChild, 927-942 *)
Definition GetXMLTreeChild (fuel p : nat) (t : list N) (h : heap) : outcome nat :=
  let* e := load_element h p in
  let* r := find_tag fuel h t 0 (e_child e) in Ok (snd r).

(** DestroyXMLTreeAttributes, 476-498: the texts up to the end of the table *)
Fixpoint destroy_slots (fuel : nat) (l : list (option nat)) (i : nat) (h : heap) : outcome heap :=
  match fuel with
  | O => Fatal
  | S fuel =>
      let* p := slot l i in
      match p with
      | 0 => Ok h
      | _ => let* h := Relinquish p h in
             let* q := slot l (i + 1) in
             let* h := Relinquish q h in
             destroy_slots fuel l (i + 2) h
      end
  end.
Definition DestroyXMLTreeAttributes (a : nat) (h : heap) : outcome heap :=
  match a with
  | 0 => Ok h
  | _ => let* l := load_slots h a in
         let* h := destroy_slots (S (length l)) l 0 h in
         Relinquish a h
  end.
(** DestroyXMLTreeRoot, 532-591, for a root that NewXMLTreeTag made.  The memory of an XMLTreeInfo has no member entities *)
Definition DestroyXMLTreeRoot (p : nat) (h : heap) : outcome heap :=
  let* e := load_element h p in
  match e_parent e with
  | 0 => match e_entities e with None => UB | Some t => let* _ := load_slots h t in Relinquish t h end
  | _ => Ok h
  end.
(** DestroyXMLTree, 593-607, with the loops of DestroyXMLTreeChild (500-514; [up] false) and DestroyXMLTreeOrdered (516-530; [up] true) *)
Fixpoint DestroyXMLTree (fuel p : nat) (h : heap) : outcome heap :=
  match fuel with
  | O => Fatal
  | S fuel =>
      let* e := load_element h p in
      let* h := destroy_chain fuel false (e_child e) h in
      let* e := load_element h p in
      let* h := destroy_chain fuel true (e_ordered e) h in
      let* h := DestroyXMLTreeRoot p h in
      let* e := load_element h p in
      let* h := DestroyXMLTreeAttributes (e_attributes e) h in
      let* h := Relinquish (e_content e) h in
      let* h := Relinquish (e_tag e) h in
      Relinquish p h
  end
with destroy_chain (fuel : nat) (up : bool) (p : nat) (h : heap) : outcome heap :=
  match fuel with
  | O => Fatal
  | S fuel =>
      match p with
      | 0 => Ok h
      | _ => let* e := load_element h p in
             let* h := change p (if up then with_ordered 0 else with_child 0) h in
             let* h := DestroyXMLTree fuel p h in
             destroy_chain fuel up (if up then e_ordered e else e_child e) h
      end
  end.

(** ** Programs.  Variable [i] of a program has the element that its [i]-th call of NewXMLTreeTag or AddChildToXMLTree returned *)
Inductive op :=
| New (t : list N)
| Add (p : nat) (t : list N) (o : nat)
| Insert (p c : nat) (o : nat)
| Cut (c : nat)                                        (* PruneTagFromXMLTree *)
| Content (p : nat) (s : list N)
| Attribute (p : nat) (k v : list N)
| Find (p : nat) (t : list N)                          (* GetXMLTreeChild *)
| Destroy (p : nat).
Definition state := (heap * list nat)%type.
Definition var (env : list nat) (i : nat) : outcome nat := match nth_error env i with Some p => Ok p | None => UB end.
Definition step (fuel : nat) (s : state) (x : op) : outcome state :=
  let '(h, env) := s in
  match x with
  | New t => let '(h, p) := NewXMLTreeTag (Some t) h in Ok (h, env ++ [p])
  | Add p t o => let* p := var env p in let* r := AddChildToXMLTree fuel p t o h in let '(h, c) := r in Ok (h, env ++ [c])
  | Insert p c o => let* p := var env p in let* c := var env c in let* h := InsertTagIntoXMLTree fuel p c o h in Ok (h, env)
  | Cut c => let* c := var env c in let* h := PruneTagFromXMLTree fuel c h in Ok (h, env)
  | Content p s => let* p := var env p in let* h := SetXMLTreeContent p s h in Ok (h, env)
  | Attribute p k v => let* p := var env p in let* h := SetXMLTreeAttribute fuel p k v h in Ok (h, env)
  | Find p t => let* p := var env p in let* _ := GetXMLTreeChild fuel p t h in Ok (h, env)
  | Destroy p => let* p := var env p in let* h := DestroyXMLTree fuel p h in Ok (h, env)
  end.
Definition run (fuel : nat) (l : list op) (s : state) : outcome state := fold_outcome (step fuel) l s.

(** NewXMLTree, 2009-2038, on a text without '<': the root that was made is forgotten; [utf8] is given back *)
Definition NewXMLTree_no_tag (xml : list N) (h : heap) : outcome (heap * nat) :=
  let '(h, root) := NewXMLTreeTag None h in
  let '(h, utf8) := alloc h (Text xml) in
  let* h := Relinquish utf8 h in
  Ok (h, 0).
