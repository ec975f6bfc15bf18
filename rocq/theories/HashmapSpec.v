(** Specification of a hash-map: a finite map whose keys are compared by the
    key comparison. *)
From Coq Require Import NArith List Bool.
From Verif Require Import HashmapModel.
Import ListNotations.

Section Spec.
Variable K : Type.
Variable hash : K -> N.
Variable compare : option (K -> K -> bool).

(** two keys are the same when the comparison says so; without a comparison
    function, when their hashes agree *)
Definition same (k k' : K) : bool :=
  match compare with Some c => c k k' | None => (hash k =? hash k')%N end.

(** what a caller must guarantee: an equivalence, under which equal keys hash equally *)
Record good_methods : Prop := {
  same_refl : forall k, same k k = true;
  same_sym : forall k k', same k k' = true -> same k' k = true;
  same_trans : forall k k' k'', same k k' = true -> same k' k'' = true -> same k k'' = true;
  same_hash : forall k k', same k k' = true -> hash k = hash k'
}.

Definition fmap := K -> option N.
Definition fm_empty : fmap := fun _ => None.
Definition fm_put (f : fmap) (k : K) (v : N) : fmap := fun k' => if same k' k then Some v else f k'.
Definition fm_remove (f : fmap) (k : K) : fmap := fun k' => if same k' k then None else f k'.
Definition fm_get (f : fmap) (k : K) : N := match f k with Some v => v | None => 0%N end.

(** one call; the answers of the iterator and of the count are specified apart *)
Definition fm_step (f : fmap) (o : hop K) : fmap * option (hout K) :=
  match o with
  | HPut _ _ _ _ (Some k) v =>
      if (v =? 0)%N then (f, Some (HBool _ false)) else (fm_put f k v, Some (HBool _ true))
  | HPut _ _ _ _ None v => (f, Some (HBool _ false))
  | HGet _ (Some k) => (f, Some (HVal _ (fm_get f k)))
  | HGet _ None => (f, Some (HVal _ 0%N))
  | HRemove _ (Some k) => (fm_remove f k, Some (HVal _ (fm_get f k)))
  | HRemove _ None => (f, Some (HVal _ 0%N))
  | HNextKey _ | HNextValue _ | HReset _ | HCount _ => (f, None)
  end.
Fixpoint fm_run (f : fmap) (ops : list (hop K)) : fmap * list (option (hout K)) :=
  match ops with
  | [] => (f, [])
  | o :: t => let (f, r) := fm_step f o in let (f, rs) := fm_run f t in (f, r :: rs)
  end.

Definition answers (out : hout K) (spec : option (hout K)) : Prop :=
  match spec with Some o => out = o | None => True end.

(** memory can be had for every call *)
Definition mem_ok (o : hop K) : Prop :=
  match o with HPut _ m1 m2 m3 _ _ => m1 = true /\ m2 = true /\ m3 = true | _ => True end.

(** [ks] lists the keys of the map, each once *)
Definition key_list (f : fmap) (ks : list K) : Prop :=
  ForallOrdPairs (fun k k' => same k k' = false) ks /\
  forall k, f k <> None <-> exists k', In k' ks /\ same k k' = true.
End Spec.
