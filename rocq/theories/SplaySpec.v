(** Specification of a splay tree: a finite map on keys ordered by the compare
    method. *)
From Coq Require Import NArith ZArith List Bool Sorting.
From Verif Require Import SplayModel.
Import ListNotations.

Section Spec.
Variable K : Type.
Variable compare : K -> K -> Z.

(** a consistent comparison: a total preorder *)
Record order : Prop := {
  ord_sign : forall x y, (compare x y <= 0)%Z <-> (0 <= compare y x)%Z;
  ord_trans : forall x y z, (compare x y <= 0)%Z -> (compare y z <= 0)%Z -> (compare x z <= 0)%Z
}.

Definition same (k k' : K) : bool := (compare k k' =? 0)%Z.

(** a finite map: a key up to [same] is bound to the key it was stored with and
    a value *)
Definition fmap := K -> option (K * N).
Definition fm_empty : fmap := fun _ => None.
Definition fm_put (f : fmap) (k : K) (v : N) : fmap := fun k' => if same k' k then Some (k, v) else f k'.
Definition fm_remove (f : fmap) (k : K) : fmap := fun k' => if same k' k then None else f k'.
Definition fm_get (f : fmap) (k : K) : N := match f k with Some (_, v) => v | None => 0%N end.
Definition fm_has (f : fmap) (k : K) : bool := match f k with Some _ => true | None => false end.

(** [l] lists the bindings of the map in ascending order *)
Definition before (a b : K * N) : Prop := (compare (fst a) (fst b) < 0)%Z.
Definition bindings (f : fmap) (l : list (K * N)) : Prop :=
  StronglySorted before l /\
  forall k e, f k = Some e <-> In e l /\ compare k (fst e) = 0%Z.

(** the first key, in ascending order, that is bound to [v] *)
Definition first_bound (f : fmap) (v : N) (k : option K) : Prop :=
  exists l, bindings f l /\
    k = match find (fun b => (snd b =? v)%N) l with Some (k, _) => Some k | None => None end.

(** one call as a relation: the map before, the call, the answer, the map after
    (maps up to extensionality); the answers of the iterator are specified apart *)
Definition fm_step (f : fmap) (o : sop K) (r : sout K) (f' : fmap) : Prop :=
  match o with
  | SAdd _ mem k v =>
      match f k, mem with
      | None, false => r = SBool _ false /\ f' = f
      | _, _ => r = SBool _ true /\ (forall x, f' x = fm_put f k v x)
      end
  | SGet _ k => r = SVal _ (fm_get f k) /\ f' = f
  | SRemove _ k => r = SVal _ (fm_get f k) /\ (forall x, f' x = fm_remove f k x)
  | SDelete _ k => r = SBool _ (fm_has f k) /\ (forall x, f' x = fm_remove f k x)
  | SRemoveValue _ v =>
      exists k, first_bound f v k /\ r = SKey _ k /\
        (forall x, f' x = match k with Some k => fm_remove f k x | None => f x end)
  | SDeleteValue _ v =>
      exists k, first_bound f v k /\ r = SBool _ (match k with Some _ => true | None => false end) /\
        (forall x, f' x = match k with Some k => fm_remove f k x | None => f x end)
  | SCount _ => (exists l, bindings f l /\ r = SVal _ (N.of_nat (length l))) /\ f' = f
  | SReset _ => r = SUnit _ /\ f' = fm_empty
  | SResetIterator _ => r = SUnit _ /\ f' = f
  | SNextKey _ | SNextValue _ => f' = f
  end.
Inductive fm_run : fmap -> list (sop K) -> list (sout K) -> fmap -> Prop :=
| run_nil f : fm_run f [] [] f
| run_cons f o r f' os rs f'' : fm_step f o r f' -> fm_run f' os rs f'' -> fm_run f (o :: os) (r :: rs) f''.

(** calls that only read *)
Definition reading (o : sop K) : bool :=
  match o with SGet _ _ | SNextKey _ | SNextValue _ | SCount _ => true | _ => false end.
(** the answers to reading calls while the bindings [rest] are still to come *)
Fixpoint answers (f : fmap) (count : N) (rest : list (K * N)) (ops : list (sop K)) : list (sout K) :=
  match ops with
  | [] => []
  | SNextKey _ :: t => SKey _ (match rest with (k, _) :: _ => Some k | [] => None end) :: answers f count (tl rest) t
  | SNextValue _ :: t => SVal _ (match rest with (_, v) :: _ => v | [] => 0%N end) :: answers f count (tl rest) t
  | SGet _ k :: t => SVal _ (fm_get f k) :: answers f count rest t
  | SCount _ :: t => SVal _ count :: answers f count rest t
  | _ :: t => SUnit _ :: answers f count rest t
  end.
End Spec.
