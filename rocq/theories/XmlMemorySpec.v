(** What programs on XML elements mean: a forest.  Elements are named by the number of the call that made them. *)
From Coq Require Import NArith Bool Arith List.
From Verif Require Import XmlMemoryModel.
Import ListNotations.

(** [i_made]: by NewXMLTreeTag; [i_held]: it is or was below another element *)
Record info := mkInfo { i_tag : list N; i_text : list N; i_pairs : list (list N * list N); i_offset : nat; i_made : bool; i_held : bool }.
(** an element, those below it and those behind it *)
Inductive forest := Nil | Cons (id : nat) (i : info) (kids rest : forest).
Fixpoint ids (f : forest) : list nat := match f with Nil => [] | Cons id _ kids rest => id :: ids kids ++ ids rest end.
(** those that are below no other *)
Fixpoint tops (f : forest) : list nat := match f with Nil => [] | Cons id _ _ rest => id :: tops rest end.
Fixpoint size (f : forest) : nat := match f with Nil => 0 | Cons _ _ kids rest => S (size kids + size rest) end.
Fixpoint find (p : nat) (f : forest) : option (info * forest) :=
  match f with
  | Nil => None
  | Cons id i kids rest => if id =? p then Some (i, kids) else match find p kids with Some r => Some r | None => find p rest end
  end.
Fixpoint replace (p : nat) (i' : info) (kids' : forest) (f : forest) : forest :=
  match f with
  | Nil => Nil
  | Cons id i kids rest => if id =? p then Cons id i' kids' rest else Cons id i (replace p i' kids' kids) (replace p i' kids' rest)
  end.
Fixpoint remove (c : nat) (f : forest) : forest :=
  match f with
  | Nil => Nil
  | Cons id i kids rest => if id =? c then rest else Cons id i (remove c kids) (remove c rest)
  end.
(** behind those at the same offset or before *)
Fixpoint place (c : nat) (i : info) (kids : forest) (f : forest) : forest :=
  match f with
  | Nil => Cons c i kids Nil
  | Cons id j below rest => if i_offset j <=? i_offset i then Cons id j below (place c i kids rest) else Cons c i kids f
  end.
Fixpoint put_pair (k v : list N) (l : list (list N * list N)) : list (list N * list N) :=
  match l with
  | [] => [(k, v)]
  | (k', v') :: l => if list_eq_dec N.eq_dec k' k then (k', v) :: l else (k', v') :: put_pair k v l
  end.
Definition member (x : nat) (l : list nat) : bool := existsb (Nat.eqb x) l.

(** the forest, the number of the next element, and the elements made by NewXMLTreeTag that were put below others *)
Record spec := mkSpec { trees : forest; count : nat; lost : list nat }.
Definition hold (o : nat) (i : info) : info := mkInfo (i_tag i) (i_text i) (i_pairs i) o (i_made i) true.
(** None: the program uses an element that was destroyed or not made yet, destroys or inserts one that is below another, inserts one below
    itself or cuts one that is below no other *)
Definition spec_step (s : spec) (x : op) : option spec :=
  let f := trees s in
  match x with
  | New t => Some (mkSpec (Cons (count s) (mkInfo t [] [] 0 true false) Nil f) (S (count s)) (lost s))
  | Add p t o =>
      match find p f with
      | None => None
      | Some (i, kids) => Some (mkSpec (replace p i (place (count s) (mkInfo t [] [] o false true) Nil kids) f) (S (count s)) (lost s))
      end
  | Insert p c o =>
      if member c (tops f) then
        match find c f, find p (remove c f) with
        | Some (i, below), Some (j, kids) =>
            Some (mkSpec (replace p j (place c (hold o i) below kids) (remove c f)) (count s)
                         (if i_held i then lost s else c :: lost s))
        | _, _ => None
        end
      else None
  | Cut c =>
      if member c (tops f) then None
      else match find c f with None => None | Some (i, below) => Some (mkSpec (Cons c i below (remove c f)) (count s) (lost s)) end
  | Content p t =>
      match find p f with
      | None => None
      | Some (i, kids) => Some (mkSpec (replace p (mkInfo (i_tag i) t (i_pairs i) (i_offset i) (i_made i) (i_held i)) kids f) (count s) (lost s))
      end
  | Attribute p k v =>
      match find p f with
      | None => None
      | Some (i, kids) =>
          Some (mkSpec (replace p (mkInfo (i_tag i) (i_text i) (put_pair k v (i_pairs i)) (i_offset i) (i_made i) (i_held i)) kids f)
                       (count s) (lost s))
      end
  | Find p _ => match find p f with None => None | Some _ => Some s end
  | Destroy p => if member p (tops f) then Some (mkSpec (remove p f) (count s) (lost s)) else None
  end.
Fixpoint spec_run (l : list op) (s : spec) : option spec :=
  match l with [] => Some s | x :: l => match spec_step s x with None => None | Some s => spec_run l s end end.

(** ** What the memory of a forest looks like *)
(** the block at [p], without the links to elements with the same tag or of other tags *)
Definition core (e : element) : element := with_next 0 (with_sibling 0 e).
Definition view (h : heap) (p : nat) : option block :=
  match get h p with Some (true, Elem e) => Some (Elem (core e)) | Some (true, b) => Some b | _ => None end.
(** the attributes: an address of 0 stands for none *)
Inductive pairs_at (h : heap) : nat -> list (list N * list N) -> list nat -> Prop :=
| no_pairs : pairs_at h 0 [] []
| one_pair a k v kp vp :
    view h a = Some (Slots [Some kp; Some vp; Some 0; None]) -> view h kp = Some (Text k) -> view h vp = Some (Text v) -> kp <> 0 ->
    pairs_at h a [(k, v)] [a; kp; vp].
(** the element at [p] with its own texts, all of which are at the addresses of the list *)
Inductive element_at (h : heap) (p : nat) (e : element) (i : info) : list nat -> Prop :=
| element_at_intro l :
    view h p = Some (Elem e) -> view h (e_tag e) = Some (Text (i_tag i)) -> view h (e_content e) = Some (Text (i_text i)) ->
    pairs_at h (e_attributes e) (i_pairs i) l -> e_offset e = i_offset i -> (i_made i = true <-> e_entities e <> None) ->
    element_at h p e i (p :: e_tag e :: e_content e :: l).
(** the children of the element at [par] from the one at [p] on; all blocks are in the list *)
Inductive children_at (h : heap) (env : list nat) : nat -> nat -> forest -> list nat -> Prop :=
| no_children par : children_at h env par 0 Nil []
| more_children par p id i kids rest e l1 l2 l3 :
    nth_error env id = Some p -> element_at h p e i l1 -> e_parent e = par -> par <> 0 -> i_held i = true ->
    children_at h env p (e_child e) kids l2 -> children_at h env par (e_ordered e) rest l3 ->
    children_at h env par p (Cons id i kids rest) (l1 ++ l2 ++ l3).
(** the table of a root that was never below another element *)
Definition table_at (h : heap) (e : element) (i : info) (l : list nat) : Prop :=
  if i_held i then e_parent e <> 0 /\ l = []
  else e_parent e = 0 /\ exists t x, e_entities e = Some t /\ view h t = Some (Slots x) /\ l = [t].
Inductive trees_at (h : heap) (env : list nat) : forest -> list nat -> Prop :=
| no_trees : trees_at h env Nil []
| more_trees p id i kids rest e l1 l2 l3 l4 :
    nth_error env id = Some p -> element_at h p e i l1 -> table_at h e i l2 -> e_ordered e = 0 ->
    children_at h env p (e_child e) kids l3 -> trees_at h env rest l4 ->
    trees_at h env (Cons id i kids rest) (l1 ++ l2 ++ l3 ++ l4).
(** the memory has the forest, one block for each element of [lost s], and nothing else *)
Definition represents (h : heap) (env : list nat) (s : spec) : Prop :=
  length env = count s /\
  exists l m, trees_at h env (trees s) l /\ NoDup (l ++ m) /\ length m = length (lost s) /\
              forall p, view h p <> None <-> In p (l ++ m).
(** the number of blocks in use *)
Definition in_use (h : heap) : nat := length (filter fst h).

(** programs that prune nothing and give no element a second attribute *)
Definition safe (s : spec) (x : op) : bool :=
  match x with
  | Cut _ => false
  | Attribute p k _ =>
      match find p (trees s) with
      | Some (i, _) => match i_pairs i with [] => true | (k', _) :: _ => if list_eq_dec N.eq_dec k' k then true else false end
      | None => false
      end
  | _ => true
  end.
Fixpoint safe_run (l : list op) (s : spec) : bool :=
  match l with
  | [] => true
  | x :: l => safe s x && match spec_step s x with Some s => safe_run l s | None => false end
  end.
(** nothing at all *)
Definition nothing : spec := mkSpec Nil 0 [].
(** the number of blocks that a forest needs: three for each element, three for each attribute, a table for each root *)
Fixpoint inner (f : forest) : nat :=
  match f with Nil => 0 | Cons _ i kids rest => 3 + 3 * length (i_pairs i) + inner kids + inner rest end.
Fixpoint blocks (f : forest) : nat :=
  match f with Nil => 0 | Cons _ i kids rest => 3 + 3 * length (i_pairs i) + (if i_held i then 0 else 1) + inner kids + blocks rest end.
