(** Who owns the keys and values of a splay tree: what AddValueToSplayTree, the
    functions that delete and remove nodes, ResetSplayTree and DestroySplayTree of
    wizard/splay-tree.c hand to the relinquish methods, on top of SplayModel.v.

    Keys and values are pointers as numbers, 0 is NULL; the comparison looks at
    what the pointers refer to, it is a function of the pointers here: what is at
    a pointer does not change while the tree holds it.  The nodes themselves are
    not counted here (they are in SplayModel.free_order). *)
From Coq Require Import NArith ZArith List Bool Arith.
From Verif Require Import SplayModel.
Import ListNotations.

Section Owner.
Variable compare : N -> N -> Z.
Variable by_pointer : bool.
(** splay-tree.c 1094-1116: whether NewSplayTree was given a method to relinquish keys, values *)
Variable own_keys own_values : bool.
Notation splay := (SplaySplayTree N compare by_pointer).

(** pointers handed to relinquish_key and to relinquish_value *)
Definition freed : Type := list N * list N.
Definition nothing : freed := ([], []).
(** 177-180, 548-551, 633-635, 1288-1290: not when it is NULL *)
Definition relinquish_key (k : N) : list N := if own_keys && negb (k =? 0)%N then [k] else [].
(** 173-176, 544-547, 629-632, 1203-1206: not when it is NULL *)
Definition relinquish_value (v : N) : list N := if own_values && negb (v =? 0)%N then [v] else [].

(** 162-171, 609-623, 1264-1279: the root after the key is splayed, when it compares equal *)
Definition found (s : SplayTreeInfo N) (key : N) : option (N * N) :=
  match sp_root N s with
  | E _ => None
  | _ =>
      match splay s key with
      | None => None
      | Some s =>
          match sp_root N s with
          | E _ => None
          | Node _ _ k v _ => if (compare k key =? 0)%Z then Some (k, v) else None
          end
      end
  end.
(** 502-543, 1166-1202: the root when the loop has found the value and has splayed its key again; [fuel] bounds the loop *)
Fixpoint found_value (fuel : nat) (s : SplayTreeInfo N) (next : option N) (value : N) : option (N * N) :=
  match next, fuel with
  | Some key, S fuel =>
      match splay s key with
      | None => None
      | Some s =>
          match sp_root N s with
          | E _ => None
          | Node _ _ k v r =>
              if (v =? value)%N then
                match splay s k with
                | None => None
                | Some s => match sp_root N s with E _ => None | Node _ _ k v _ => Some (k, v) end
                end
              else found_value fuel s (first_key N r) value
          end
      end
  | _, _ => None
  end.

(** 171-182: the value and the key that are replaced; no memory is needed then *)
Definition freed_by_add (s : SplayTreeInfo N) (key : N) : freed :=
  match found s key with Some (k, v) => (relinquish_key k, relinquish_value v) | None => nothing end.
(** 627-635 *)
Definition freed_by_delete (s : SplayTreeInfo N) (key : N) : freed :=
  match found s key with Some (k, v) => (relinquish_key k, relinquish_value v) | None => nothing end.
(** 1285-1290: the key only, the value is returned *)
Definition freed_by_remove (s : SplayTreeInfo N) (key : N) : freed :=
  match found s key with Some (k, _) => (relinquish_key k, []) | None => nothing end.
(** 542-551 *)
Definition freed_by_delete_value (s : SplayTreeInfo N) (value : N) : freed :=
  match found_value (size N (sp_root N s)) s (first_key N (sp_root N s)) value with
  | Some (k, v) => (relinquish_key k, relinquish_value v)
  | None => nothing
  end.
(** 1201-1206: the value only, the key is returned *)
Definition freed_by_remove_value (s : SplayTreeInfo N) (value : N) : freed :=
  match found_value (size N (sp_root N s)) s (first_key N (sp_root N s)) value with
  | Some (_, v) => ([], relinquish_value v)
  | None => nothing
  end.

(** 690-723, 1351-1384: the value and the key of a node are relinquished before its key field becomes the link to the
    nodes that wait; so the root before the loop (682-689), a child when its parent is freed *)
Definition relinquish_node (t : tree N) : freed :=
  match t with E _ => nothing | Node _ _ k v _ => (relinquish_key k, relinquish_value v) end.
Definition both (a b : freed) : freed := (fst a ++ fst b, snd a ++ snd b).
Fixpoint relinquish_loop (fuel : nat) (active pend : list (tree N)) : option freed :=
  match active with
  | [] => match pend with
          | [] => Some nothing
          | _ => match fuel with O => None | S fuel => relinquish_loop fuel pend [] end
          end
  | E _ :: _ => None
  | Node _ l k v r :: active =>
      match fuel with
      | O => None
      | S fuel =>
          let pend := match l with E _ => pend | _ => l :: pend end in
          let pend := match r with E _ => pend | _ => r :: pend end in
          match relinquish_loop fuel active pend with
          | Some f => Some (both (both (relinquish_node l) (relinquish_node r)) f)
          | None => None
          end
      end
  end.
Definition relinquish_all (t : tree N) : option freed :=
  match t with
  | E _ => Some nothing
  | _ => option_map (both (relinquish_node t)) (relinquish_loop (2 * size N t + 1) [t] [])
  end.
(** 669-736 *)
Definition DestroySplayTree (s : SplayTreeInfo N) : option freed := relinquish_all (sp_root N s).

(** a call: the tree, what it returns, what it relinquishes *)
Definition owner_step (s : SplayTreeInfo N) (o : sop N) : option (SplayTreeInfo N * sout N * freed) :=
  match sstep N compare by_pointer s o with
  | None => None
  | Some (s', r) =>
      option_map (pair (s', r))
        match o with
        | SAdd _ _ k _ => Some (freed_by_add s k)
        | SRemove _ k => Some (freed_by_remove s k)
        | SDelete _ k => Some (freed_by_delete s k)
        | SRemoveValue _ v => Some (freed_by_remove_value s v)
        | SDeleteValue _ v => Some (freed_by_delete_value s v)
        | SReset _ => relinquish_all (sp_root N s)
        | _ => Some nothing
        end
  end.
Fixpoint owner_run (s : SplayTreeInfo N) (l : list (sop N)) : option (SplayTreeInfo N * list (sout N) * freed) :=
  match l with
  | [] => Some (s, [], nothing)
  | o :: l =>
      match owner_step s o with
      | None => None
      | Some (s, r, f) =>
          match owner_run s l with
          | None => None
          | Some (s, rs, g) => Some (s, r :: rs, both f g)
          end
      end
  end.
End Owner.
