(** Who owns the keys and values of a hash-map: what PutEntryInHashmap,
    RemoveEntryFromHashmap and DestroyHashmap of wizard/hashmap.c hand to the
    relinquish methods, on top of HashmapModel.v.

    Keys and values are pointers as numbers; the hash and the comparison look at
    what the pointers refer to, they are functions of the pointers here: what is
    at a pointer does not change while the map holds it.  The blocks of the map
    itself (entries, elements, buckets) are not counted. *)
From Coq Require Import NArith Arith Bool List.
From Verif Require Import Outcome HashmapModel.
Import ListNotations.

Section Owner.
Variable hash : N -> N.
Variable compare : option (N -> N -> bool).
(** hashmap.c 1283-1301, 1324-1325: whether NewHashmap was given a method to relinquish keys, values *)
Variable own_keys own_values : bool.

(** pointers handed to relinquish_key and to relinquish_value *)
Definition freed : Type := list N * list N.
Definition nothing : freed := ([], []).
Definition relinquish_key (e : EntryInfo N) : list N := if own_keys then [en_key N e] else [].
Definition relinquish_value (e : EntryInfo N) : list N := if own_values then [en_value N e] else [].

(** the entry the loops of 1524-1548 and 1764-1793 stop at *)
Definition found (m : HashmapInfo N) (key : N) : option (EntryInfo N) :=
  match get_bucket N m (slot (hm_capacity N m) (hash key)) with
  | None => None
  | Some b => option_map snd (find_entry N compare (hash key) key (b_entries N b))
  end.
(** 1509-1545: the entry that is replaced is relinquished before the new one is in the list *)
Definition freed_by_put (mem1 : bool) (m : HashmapInfo N) (key : option N) (value : N) : freed :=
  match key with
  | None => nothing
  | Some key =>
      if (value =? 0)%N then nothing
      else if negb mem1 then nothing
      else match found m key with Some e => (relinquish_key e, relinquish_value e) | None => nothing end
  end.
(** 1781-1789: the key only, the value is returned *)
Definition freed_by_remove (m : HashmapInfo N) (key : option N) : freed :=
  match key with
  | None => nothing
  | Some key => match found m key with Some e => (relinquish_key e, []) | None => nothing end
  end.
(** 341-361: bucket by bucket, entry by entry *)
Definition DestroyHashmap (m : HashmapInfo N) : freed :=
  (flat_map relinquish_key (all_entries N (hm_map N m)), flat_map relinquish_value (all_entries N (hm_map N m))).

(** a call: the map, what it returns, what it relinquishes *)
Definition owner_step (m : HashmapInfo N) (o : hop N) : HashmapInfo N * hout N * freed :=
  let (m', r) := hstep N hash compare m o in
  (m', r, match o with
          | HPut _ m1 _ _ k v => freed_by_put m1 m k v
          | HRemove _ k => freed_by_remove m k
          | _ => nothing
          end).
Fixpoint owner_run (m : HashmapInfo N) (l : list (hop N)) : HashmapInfo N * list (hout N) * freed :=
  match l with
  | [] => (m, [], nothing)
  | o :: l => let '(m, r, (fk, fv)) := owner_step m o in
              let '(m, rs, (gk, gv)) := owner_run m l in (m, r :: rs, (fk ++ gk, fv ++ gv))
  end.
End Owner.
