(** Model of wizard/splay-tree.c.

    Nodes are the constructors of a functional tree: a node is owned by exactly
    one parent slot, so the pointer surgery of Splay() becomes rotations of
    subtrees.  Keys are non-NULL ([K] is what a key pointer stands for, and does
    not change while the tree holds it); values are pointers as numbers, 0 is
    NULL.  Semaphores, logging and the relinquish methods are left out; the
    order in which nodes are freed is modelled in [free_order].  [None] is the
    fatal error that ends the program. *)
From Coq Require Import NArith ZArith List Bool Arith.
Import ListNotations.

Section Keys.
Variable K : Type.

(** splay-tree.c 68-79 *)
Inductive tree := E | Node (l : tree) (k : K) (v : N) (r : tree).

(** splay-tree.c 81-113; [balance] is only set inside SplaySplayTree; [nodes]
    counts allocated nodes, so it cannot wrap *)
Record SplayTreeInfo := mkSplay {
  sp_root : tree;
  sp_key : option K;
  sp_next : option K;
  sp_nodes : N
}.

(** splay-tree.c 1094-1117 *)
Definition NewSplayTree : SplayTreeInfo := mkSplay E None None 0.

Definition MaxSplayTreeDepth : nat := 1024.

(** splay-tree.c 966-1060: one entry of the arrays nodes[], transitions[] *)
Inductive TransitionType := LeftTransition | RightTransition | DownTransition | UpTransition.
(** the loop; the head of [stack] is entry i, [out] the nodes visited so far in
    reverse; [None] when out of fuel *)
Fixpoint iterate_loop (fuel : nat) (stack : list (tree * TransitionType)) (out : list (K * N)) : option (list (K * N)) :=
  match fuel with
  | O => None
  | S fuel =>
      match stack with
      | [] => Some (rev out)
      | (E, _) :: _ => None       (* no NULL node is ever pushed *)
      | (Node l k v r as n, LeftTransition) :: s =>
          match l with
          | E => iterate_loop fuel ((n, DownTransition) :: s) out
          | _ => iterate_loop fuel ((l, LeftTransition) :: (n, DownTransition) :: s) out
          end
      | (Node l k v r as n, RightTransition) :: s =>
          match r with
          | E => iterate_loop fuel ((n, UpTransition) :: s) out
          | _ => iterate_loop fuel ((r, LeftTransition) :: (n, UpTransition) :: s) out
          end
      | (Node l k v r as n, DownTransition) :: s => iterate_loop fuel ((n, RightTransition) :: s) ((k, v) :: out)
      | (_, UpTransition) :: s => iterate_loop fuel s out
      end
  end.
Fixpoint size (t : tree) : nat := match t with E => 0 | Node l _ _ r => S (size l + size r) end.
Definition IterateOverSplayTree (t : tree) : option (list (K * N)) :=
  match t with E => Some [] | _ => iterate_loop (S (4 * size t)) [(t, LeftTransition)] [] end.

(** splay-tree.c 245-265; [low] and [high] index the array [nodes]; [fuel]
    bounds the recursion *)
Fixpoint LinkSplayTreeNodes (fuel : nat) (nodes : list (K * N)) (low high : nat) : option tree :=
  match fuel with
  | O => None
  | S fuel =>
      let bisect := low + (high - low) / 2 in
      match nth_error nodes bisect with
      | None => None
      | Some (k, v) =>
          match (if bisect <? low + 1 then Some E else LinkSplayTreeNodes fuel nodes low (bisect - 1)),
                (if high <? bisect + 1 then Some E else LinkSplayTreeNodes fuel nodes (bisect + 1) high) with
          | Some l, Some r => Some (Node l k v r)
          | _, _ => None
          end
      end
  end.

(** splay-tree.c 278-299 *)
Definition BalanceSplayTree (nodes : N) (root : tree) : option tree :=
  if (nodes <=? 2)%N then Some root
  else match IterateOverSplayTree root with
       | None => None
       | Some l => LinkSplayTreeNodes (length l) l 0 (N.to_nat nodes - 1)
       end.

Section Compare.
(** [compare] is the compare method, or the order of the pointers when that is
    NULL; [by_pointer] tells which *)
Variable compare : K -> K -> Z.
Variable by_pointer : bool.

(** Where the node n returned by Splay() is in the subtree of a level: at its
    root, or at its left or right child, waiting for the level above (which
    provides the grandparent slot) to rotate *)
Inductive place := AtRoot | BelowLeft | BelowRight.

(** the double rotations, splay-tree.c 1531-1563: [g] is the grandparent (whose
    left or right child the pending parent is) *)
Definition rotate_left_side (p : place) (parent : tree) (k : K) (v : N) (r : tree) : tree :=
  match p, parent with
  | BelowLeft, Node (Node a nk nv b) pk pv c => Node a nk nv (Node b pk pv (Node c k v r))
  | BelowRight, Node a pk pv (Node b nk nv c) => Node (Node a pk pv b) nk nv (Node c k v r)
  | _, _ => Node parent k v r
  end.
Definition rotate_right_side (p : place) (parent : tree) (k : K) (v : N) (l : tree) : tree :=
  match p, parent with
  | BelowRight, Node b pk pv (Node c nk nv d) => Node (Node (Node l k v b) pk pv c) nk nv d
  | BelowLeft, Node (Node b nk nv c) pk pv d => Node (Node l k v b) nk nv (Node c pk pv d)
  | _, _ => Node l k v parent
  end.

(** splay-tree.c 1470-1564 below a level; [None] when the tree is too deep
    (splay_tree->balance=WizardTrue, and the tree is left as it was) *)
Fixpoint Splay (depth : nat) (key : K) (t : tree) : option (place * tree) :=
  match t with
  | E => Some (AtRoot, E)
  | Node l k v r =>
      let c := compare k key in
      if (c =? 0)%Z then Some (AtRoot, t)
      else if MaxSplayTreeDepth <=? depth then None
      else if (0 <? c)%Z then
        match l with
        | E => Some (AtRoot, t)
        | _ => match Splay (S depth) key l with
               | None => None
               | Some (AtRoot, l') => Some (BelowLeft, Node l' k v r)
               | Some (p, l') => Some (AtRoot, rotate_left_side p l' k v r)
               end
        end
      else
        match r with
        | E => Some (AtRoot, t)
        | _ => match Splay (S depth) key r with
               | None => None
               | Some (AtRoot, r') => Some (BelowRight, Node l k v r')
               | Some (p, r') => Some (AtRoot, rotate_right_side p r' k v l)
               end
        end
  end.

(** the single rotation at the root, 1516-1530 *)
Definition single_rotation (r : place * tree) : tree :=
  match r with
  | (BelowLeft, Node (Node a nk nv b) k v c) => Node a nk nv (Node b k v c)
  | (BelowRight, Node a k v (Node b nk nv c)) => Node (Node a k v b) nk nv c
  | (_, t) => t
  end.

(** splay-tree.c 1566-1594 *)
Definition SplaySplayTree (s : SplayTreeInfo) (key : K) : option SplayTreeInfo :=
  match sp_root s with
  | E => Some s
  | Node _ k _ _ as t =>
      let early := match sp_key s with
                   | Some sk => (compare (if by_pointer then sk else k) key =? 0)%Z
                   | None => false
                   end in
      if early then Some s
      else match Splay 0 key t with
           | Some r => Some (mkSplay (single_rotation r) (Some key) (sp_next s) (sp_nodes s))
           | None =>
               match BalanceSplayTree (sp_nodes s) t with
               | None => None
               | Some t =>
                   match Splay 0 key t with
                   | Some r => Some (mkSplay (single_rotation r) (Some key) (sp_next s) (sp_nodes s))
                   | None => None
                   end
               end
           end
  end.

(** splay-tree.c 152-218; [mem]: memory for a node *)
Definition AddValueToSplayTree (mem : bool) (s : SplayTreeInfo) (key : K) (value : N) : option (SplayTreeInfo * bool) :=
  match SplaySplayTree s key with
  | None => None
  | Some s =>
      match sp_root s with
      | E => if mem then Some (mkSplay (Node E key value E) None (sp_next s) (sp_nodes s + 1), true) else Some (s, false)
      | Node l k v r =>
          let c := compare k key in
          if (c =? 0)%Z then Some (mkSplay (Node l key value r) (sp_key s) (sp_next s) (sp_nodes s), true)
          else if negb mem then Some (s, false)
          else if (c <? 0)%Z then
            Some (mkSplay (Node (Node l k v E) key value r) None (sp_next s) (sp_nodes s + 1), true)
          else
            Some (mkSplay (Node l key value (Node E k v r)) None (sp_next s) (sp_nodes s + 1), true)
      end
  end.

(** splay-tree.c 874-904 *)
Definition GetValueFromSplayTree (s : SplayTreeInfo) (key : K) : option (SplayTreeInfo * N) :=
  match sp_root s with
  | E => Some (s, 0%N)
  | _ =>
      match SplaySplayTree s key with
      | None => None
      | Some s =>
          match sp_root s with
          | E => Some (s, 0%N)
          | Node l k v r => if (compare k key =? 0)%Z then Some (s, v) else Some (s, 0%N)
          end
      end
  end.

(** the end of 641-654, 1295-1309: the right subtree is hung below the last
    node of the left one *)
Fixpoint hang (l r : tree) : tree := match l with E => r | Node a k v b => Node a k v (hang b r) end.
Definition join (l r : tree) : tree :=
  match l, r with E, _ => r | _, E => l | _, _ => hang l r end.

(** splay-tree.c 599-654 and 1254-1310: the root is taken out; the value *)
Definition remove_root (s : SplayTreeInfo) : SplayTreeInfo :=
  match sp_root s with
  | E => s
  | Node l k v r => mkSplay (join l r) None (sp_next s) (sp_nodes s - 1)
  end.
Definition clear_key (s : SplayTreeInfo) : SplayTreeInfo := mkSplay (sp_root s) None (sp_next s) (sp_nodes s).
Definition take_node (s : SplayTreeInfo) (key : K) : option (SplayTreeInfo * option N) :=
  match sp_root s with
  | E => Some (s, None)
  | _ =>
      match SplaySplayTree s key with
      | None => None
      | Some s =>
          let s := clear_key s in
          match sp_root s with
          | E => Some (s, None)
          | Node l k v r => if (compare k key =? 0)%Z then Some (remove_root s, Some v) else Some (s, None)
          end
      end
  end.
(** splay-tree.c 1254-1310 *)
Definition RemoveNodeFromSplayTree (s : SplayTreeInfo) (key : K) : option (SplayTreeInfo * N) :=
  match take_node s key with
  | Some (s, Some v) => Some (s, v)
  | Some (s, None) => Some (s, 0%N)
  | None => None
  end.
(** splay-tree.c 599-654 *)
Definition DeleteNodeFromSplayTree (s : SplayTreeInfo) (key : K) : option (SplayTreeInfo * bool) :=
  match take_node s key with
  | Some (s, Some _) => Some (s, true)
  | Some (s, None) => Some (s, false)
  | None => None
  end.

(** splay-tree.c 331-342 *)
Fixpoint first_key (t : tree) : option K :=
  match t with
  | E => None
  | Node E k _ _ => Some k
  | Node l _ _ _ => first_key l
  end.
Definition root_right (t : tree) : tree := match t with Node _ _ _ r => r | E => E end.

(** splay-tree.c 1427-1436 *)
Definition ResetSplayTreeIterator (s : SplayTreeInfo) : SplayTreeInfo :=
  mkSplay (sp_root s) (sp_key s) (first_key (sp_root s)) (sp_nodes s).

(** splay-tree.c 765-793, 819-847 *)
Definition NextNode (s : SplayTreeInfo) : option (SplayTreeInfo * option (K * N)) :=
  match sp_root s, sp_next s with
  | Node _ _ _ _, Some next =>
      match SplaySplayTree s next with
      | None => None
      | Some s =>
          match sp_root s with
          | E => Some (s, None)
          | Node l k v r => Some (mkSplay (sp_root s) (sp_key s) (first_key r) (sp_nodes s), Some (k, v))
          end
      end
  | _, _ => Some (s, None)
  end.
Definition GetNextKeyInSplayTree (s : SplayTreeInfo) : option (SplayTreeInfo * option K) :=
  match NextNode s with Some (s, n) => Some (s, option_map fst n) | None => None end.
Definition GetNextValueInSplayTree (s : SplayTreeInfo) : option (SplayTreeInfo * N) :=
  match NextNode s with
  | Some (s, n) => Some (s, match n with Some (_, v) => v | None => 0%N end)
  | None => None
  end.

(** the loops of 504-568 and 1167-1224: the keys in turn are splayed until the
    value is at the root.  [fuel] bounds the loop.  The result is the key of
    the node that was taken out *)
Fixpoint by_value_loop (fuel : nat) (s : SplayTreeInfo) (next : option K) (value : N) : option (SplayTreeInfo * option K) :=
  match next with
  | None => Some (s, None)
  | Some key =>
      match fuel with
      | O => None
      | S fuel =>
          match SplaySplayTree s key with
          | None => None
          | Some s =>
              match sp_root s with
              | E => None
              | Node l k v r =>
                  if (v =? value)%N then
                    match SplaySplayTree s k with
                    | None => None
                    | Some s => Some (remove_root (clear_key s), Some k)   (* compare(key,key) is 0 *)
                    end
                  else by_value_loop fuel s (first_key r) value
              end
          end
      end
  end.
(** splay-tree.c 1145-1227 *)
Definition RemoveNodeByValueFromSplayTree (s : SplayTreeInfo) (value : N) : option (SplayTreeInfo * option K) :=
  by_value_loop (size (sp_root s)) s (first_key (sp_root s)) value.
(** splay-tree.c 484-572 *)
Definition DeleteNodeByValueFromSplayTree (s : SplayTreeInfo) (value : N) : option (SplayTreeInfo * bool) :=
  match by_value_loop (size (sp_root s)) s (first_key (sp_root s)) value with
  | Some (s, Some _) => Some (s, true)
  | Some (s, None) => Some (s, false)
  | None => None
  end.

(** splay-tree.c 344-383; [ck], [cv] are the clone methods, [mem k]: memory for
    the node of key [k].  The result is the original (which is splayed) and the
    clone *)
Fixpoint clone_loop (fuel : nat) (ck : K -> K) (cv : N -> N) (mem : K -> bool) (s : SplayTreeInfo) (next : option K)
  (clone : SplayTreeInfo) : option (SplayTreeInfo * SplayTreeInfo) :=
  match next with
  | None => Some (s, clone)
  | Some key =>
      match fuel with
      | O => None
      | S fuel =>
          match SplaySplayTree s key with
          | None => None
          | Some s =>
              match sp_root s with
              | E => None
              | Node l k v r =>
                  match AddValueToSplayTree (mem k) clone (ck k) (cv v) with
                  | None => None
                  | Some (clone, _) => clone_loop fuel ck cv mem s (first_key r) clone
                  end
              end
          end
      end
  end.
Definition CloneSplayTree (ck : K -> K) (cv : N -> N) (mem : K -> bool) (s : SplayTreeInfo) : option (SplayTreeInfo * SplayTreeInfo) :=
  clone_loop (size (sp_root s)) ck cv mem s (first_key (sp_root s)) NewSplayTree.

(** splay-tree.c 1335-1401: the state after all nodes are freed *)
Definition ResetSplayTree (s : SplayTreeInfo) : SplayTreeInfo := mkSplay E None None 0.

(** splay-tree.c 929-936 *)
Definition GetNumberOfNodesInSplayTree (s : SplayTreeInfo) : N := sp_nodes s.

(** ** calls *)
Inductive sop :=
| SAdd (mem : bool) (k : K) (v : N) | SGet (k : K) | SRemove (k : K) | SDelete (k : K)
| SRemoveValue (v : N) | SDeleteValue (v : N)
| SNextKey | SNextValue | SResetIterator | SReset | SCount.
Inductive sout := SBool (b : bool) | SVal (v : N) | SKey (k : option K) | SUnit.

Definition out {A} (f : A -> sout) (r : option (SplayTreeInfo * A)) : option (SplayTreeInfo * sout) :=
  match r with Some (s, x) => Some (s, f x) | None => None end.

Definition sstep (s : SplayTreeInfo) (o : sop) : option (SplayTreeInfo * sout) :=
  match o with
  | SAdd mem k v => out SBool (AddValueToSplayTree mem s k v)
  | SGet k => out SVal (GetValueFromSplayTree s k)
  | SRemove k => out SVal (RemoveNodeFromSplayTree s k)
  | SDelete k => out SBool (DeleteNodeFromSplayTree s k)
  | SRemoveValue v => out SKey (RemoveNodeByValueFromSplayTree s v)
  | SDeleteValue v => out SBool (DeleteNodeByValueFromSplayTree s v)
  | SNextKey => out SKey (GetNextKeyInSplayTree s)
  | SNextValue => out SVal (GetNextValueInSplayTree s)
  | SResetIterator => Some (ResetSplayTreeIterator s, SUnit)
  | SReset => Some (ResetSplayTree s, SUnit)
  | SCount => Some (s, SVal (GetNumberOfNodesInSplayTree s))
  end.
Fixpoint srun (s : SplayTreeInfo) (ops : list sop) : option (SplayTreeInfo * list sout) :=
  match ops with
  | [] => Some (s, [])
  | o :: t =>
      match sstep s o with
      | None => None
      | Some (s, r) => match srun s t with Some (s, rs) => Some (s, r :: rs) | None => None end
      end
  end.
End Compare.

(** ** freeing, splay-tree.c 678-731 and 1347-1390.  The key field of a node
    that waits links the two lists [active] and [pend]; the node at the head
    of [active] is freed.  The list of nodes in the order in which they are
    freed; [fuel] bounds the loop. *)
Fixpoint free_loop (fuel : nat) (active pend : list tree) : option (list (K * N)) :=
  match active with
  | [] => match pend with
          | [] => Some []
          | _ => match fuel with O => None | S fuel => free_loop fuel pend [] end
          end
  | E :: _ => None
  | Node l k v r :: active =>
      match fuel with
      | O => None
      | S fuel =>
          let pend := match l with E => pend | _ => l :: pend end in
          let pend := match r with E => pend | _ => r :: pend end in
          match free_loop fuel active pend with Some out => Some ((k, v) :: out) | None => None end
      end
  end.
Definition free_order (t : tree) : option (list (K * N)) :=
  match t with E => Some [] | _ => free_loop (2 * size t + 1) [t] [] end.
End Keys.
