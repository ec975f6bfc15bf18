(** Model of the hash-map of wizard/hashmap.c.

    A key is what a key pointer refers to (a NULL pointer is [None]); its
    contents are taken not to change while the map holds it.  Values are
    pointers as numbers, 0 is NULL.  A bucket is a LinkedListInfo whose elements
    are entries; it is used here as the sequence with a cursor that
    [ListProps.list_step] shows it to be (only operations at index 0,
    removals by index and the iterator are used on buckets; the tail pointer,
    which IncreaseHashmapCapacity leaves NULL, is read by none of them).
    Semaphores, the relinquish methods and the signature are not modelled.
    NewLinkedList never fails (its failure ends the program). *)
From Coq Require Import NArith Arith List Bool.
From Verif Require Import Outcome StringInfoModel Crc64Model.
Import ListNotations.

Section Keys.
Variable K : Type.

(** hashmap.c 66-74 *)
Record EntryInfo := mkEntry { en_hash : N; en_key : K; en_value : N }.

Record bucket := mkBucket { b_entries : list EntryInfo; b_next : nat }.

(** hashmap.c 93-122; [hm_map] has length capacity; [hm_compare] is None for NULL *)
Record HashmapInfo := mkHashmap {
  hm_map : list (option bucket);
  hm_entries : N;
  hm_next : nat;
  hm_head_of_list : bool
}.

Definition hm_capacity (m : HashmapInfo) : N := N.of_nat (length (hm_map m)).

(** hashmap.c 1306-1337 *)
Definition NewHashmap (capacity : nat) : HashmapInfo := mkHashmap (repeat None capacity) 0 0 false.

Section Methods.
Variable hash : K -> N.
Variable compare : option (K -> K -> bool).

(** hashmap.c 734-746 (and 1528-1534, 1768-1774) *)
Definition entry_matches (h : N) (key : K) (e : EntryInfo) : bool :=
  if (en_hash e =? h)%N then match compare with Some c => c key (en_key e) | None => true end else false.

(** the loops of 731-755, 1524-1548, 1764-1793: the first entry that matches *)
Fixpoint find_entry (h : N) (key : K) (l : list EntryInfo) : option (nat * EntryInfo) :=
  match l with
  | [] => None
  | e :: t => if entry_matches h key e then Some (0, e)
              else match find_entry h key t with Some (i, e) => Some (S i, e) | None => None end
  end.

Definition slot (capacity h : N) : nat := N.to_nat (h mod capacity).

Definition set_nth {A} (l : list A) (i : nat) (x : A) : list A := firstn i l ++ x :: skipn (S i) l.
Definition set_bucket (m : HashmapInfo) (i : nat) (b : bucket) : HashmapInfo :=
  mkHashmap (set_nth (hm_map m) i (Some b)) (hm_entries m) (hm_next m) (hm_head_of_list m).
Definition get_bucket (m : HashmapInfo) (i : nat) : option bucket := nth i (hm_map m) None.

(** RemoveElementFromLinkedList 1667-1713 on a bucket *)
Definition remove_index (b : bucket) (i : nat) : bucket :=
  mkBucket (firstn i (b_entries b) ++ skipn (S i) (b_entries b))
           (if i <? b_next b then b_next b - 1 else b_next b).
(** InsertValueInLinkedList 991-1058 at index 0 on a bucket *)
Definition insert_front (b : bucket) (e : EntryInfo) : bucket :=
  mkBucket (e :: b_entries b) (match b_next b with O => O | S n => S (S n) end).

(** hashmap.c 710-759 *)
Definition GetValueFromHashmap (m : HashmapInfo) (key : option K) : HashmapInfo * N :=
  match key with
  | None => (m, 0%N)
  | Some key =>
      let h := hash key in
      let i := slot (hm_capacity m) h in
      match get_bucket m i with
      | None => (m, 0%N)
      | Some b =>
          match find_entry h key (b_entries b) with
          | Some (j, e) => (set_bucket m i (mkBucket (b_entries b) (S j)), en_value e)
          | None => (set_bucket m i (mkBucket (b_entries b) (length (b_entries b))), 0%N)
          end
      end
  end.

(** hashmap.c 1414-1419 *)
Definition capacities : list N :=
  [17; 31; 61; 131; 257; 509; 1021; 2053; 4099; 8191; 16381; 32771; 65537; 131071; 262147; 524287; 1048573;
   2097143; 4194301; 8388617]%N.

(** hashmap.c 1442-1447: capacities[i+1] for the first capacities[i] above *)
Fixpoint next_capacity (capacity : N) (l : list N) : option N :=
  match l with
  | c :: (d :: _) as t => if (capacity <? c)%N then Some d else next_capacity capacity t
  | _ => None
  end.

(** hashmap.c 1464-1479: one entry moved to the front of its new bucket *)
Definition move_entry (map : list (option bucket)) (e : EntryInfo) : list (option bucket) :=
  let i := slot (N.of_nat (length map)) (en_hash e) in
  let l := match nth i map None with Some b => b_entries b | None => [] end in
  set_nth map i (Some (mkBucket (e :: l) 0)).

(** all entries in the order of the two loops 1457-1483 *)
Definition bucket_entries (b : option bucket) : list EntryInfo :=
  match b with Some b => b_entries b | None => [] end.
Definition all_entries (map : list (option bucket)) : list EntryInfo := flat_map bucket_entries map.

(** hashmap.c 1410-1491; [mem]: memory for the new map *)
Definition IncreaseHashmapCapacity (mem : bool) (m : HashmapInfo) : HashmapInfo * bool :=
  match next_capacity (hm_capacity m) capacities with
  | None => (m, false)
  | Some c =>
      if mem then
        (mkHashmap (fold_left move_entry (all_entries (hm_map m)) (repeat None (N.to_nat c)))
           (hm_entries m) (hm_next m) (hm_head_of_list m), true)
      else (m, false)
  end.

Definition size64 : N := (2 ^ 64)%N.

(** hashmap.c 1493-1567; [mem1], [mem2], [mem3]: memory for the entry, for the
    list element, for the bigger map *)
Definition PutEntryInHashmap (mem1 mem2 mem3 : bool) (m : HashmapInfo) (key : option K) (value : N) : HashmapInfo * bool :=
  match key with
  | None => (m, false)
  | Some key =>
      if (value =? 0)%N then (m, false)
      else if negb mem1 then (m, false)
      else
        let h := hash key in
        let next := mkEntry h key value in
        let i := slot (hm_capacity m) h in
        let b := match get_bucket m i with
                 | None => mkBucket [] 0
                 | Some b =>
                     match find_entry h key (b_entries b) with
                     | Some (j, _) => remove_index (mkBucket (b_entries b) (S j)) j
                     | None => mkBucket (b_entries b) (length (b_entries b))
                     end
                 end in
        if negb mem2 then (set_bucket m i b, false)
        else
          let b := insert_front b next in
          let m := set_bucket m i b in
          let (m, grown) :=
            if (hm_capacity m - 1 <=? N.of_nat (length (b_entries b)))%N then IncreaseHashmapCapacity mem3 m
            else (m, true) in
          if grown then
            (mkHashmap (hm_map m) ((hm_entries m + 1) mod size64) (hm_next m) (hm_head_of_list m), true)
          else (m, false)
  end.

(** hashmap.c 1739-1801 *)
Definition RemoveEntryFromHashmap (m : HashmapInfo) (key : option K) : HashmapInfo * N :=
  match key with
  | None => (m, 0%N)
  | Some key =>
      let h := hash key in
      let i := slot (hm_capacity m) h in
      match get_bucket m i with
      | None => (m, 0%N)
      | Some b =>
          match find_entry h key (b_entries b) with
          | Some (j, e) =>
              let m := set_bucket m i (remove_index (mkBucket (b_entries b) (S j)) j) in
              (mkHashmap (hm_map m) ((hm_entries m + (size64 - 1)) mod size64) (hm_next m) (hm_head_of_list m), en_value e)
          | None => (set_bucket m i (mkBucket (b_entries b) (length (b_entries b))), 0%N)
          end
      end
  end.

(** the loop of 497-517; [fuel] is the number of buckets from hm_next on *)
Fixpoint next_entry (fuel : nat) (m : HashmapInfo) : HashmapInfo * option EntryInfo :=
  match fuel with
  | O => (m, None)
  | S fuel =>
      match get_bucket m (hm_next m) with
      | None => next_entry fuel (mkHashmap (hm_map m) (hm_entries m) (S (hm_next m)) (hm_head_of_list m))
      | Some b =>
          let pos := if hm_head_of_list m then b_next b else 0 in
          match nth_error (b_entries b) pos with
          | Some e =>
              let m := set_bucket m (hm_next m) (mkBucket (b_entries b) (S pos)) in
              (mkHashmap (hm_map m) (hm_entries m) (hm_next m) true, Some e)
          | None =>
              let m := set_bucket m (hm_next m) (mkBucket (b_entries b) (length (b_entries b))) in
              next_entry fuel (mkHashmap (hm_map m) (hm_entries m) (S (hm_next m)) false)
          end
      end
  end.
Definition NextEntry (m : HashmapInfo) : HashmapInfo * option EntryInfo :=
  next_entry (length (hm_map m) - hm_next m) m.

(** hashmap.c 483-520 *)
Definition GetNextKeyInHashmap (m : HashmapInfo) : HashmapInfo * option K :=
  let (m, e) := NextEntry m in (m, option_map en_key e).
(** hashmap.c 546-583 *)
Definition GetNextValueInHashmap (m : HashmapInfo) : HashmapInfo * N :=
  let (m, e) := NextEntry m in (m, match e with Some e => en_value e | None => 0%N end).
(** hashmap.c 1885-1893 *)
Definition ResetHashmapIterator (m : HashmapInfo) : HashmapInfo :=
  mkHashmap (hm_map m) (hm_entries m) 0 false.
(** hashmap.c 645-651 *)
Definition GetNumberOfEntriesInHashmap (m : HashmapInfo) : N := hm_entries m.

(** ** calls *)
Inductive hop :=
| HPut (mem1 mem2 mem3 : bool) (key : option K) (value : N)
| HGet (key : option K)
| HRemove (key : option K)
| HNextKey
| HNextValue
| HReset
| HCount.
Inductive hout := HBool (b : bool) | HVal (v : N) | HKey (k : option K) | HUnit.

Definition hstep (m : HashmapInfo) (o : hop) : HashmapInfo * hout :=
  match o with
  | HPut m1 m2 m3 k v => let (m, b) := PutEntryInHashmap m1 m2 m3 m k v in (m, HBool b)
  | HGet k => let (m, v) := GetValueFromHashmap m k in (m, HVal v)
  | HRemove k => let (m, v) := RemoveEntryFromHashmap m k in (m, HVal v)
  | HNextKey => let (m, k) := GetNextKeyInHashmap m in (m, HKey k)
  | HNextValue => let (m, v) := GetNextValueInHashmap m in (m, HVal v)
  | HReset => (ResetHashmapIterator m, HUnit)
  | HCount => (m, HVal (GetNumberOfEntriesInHashmap m))
  end.
Fixpoint hrun (m : HashmapInfo) (ops : list hop) : HashmapInfo * list hout :=
  match ops with
  | [] => (m, [])
  | o :: t => let (m, r) := hstep m o in let (m, rs) := hrun m t in (m, r :: rs)
  end.
End Methods.
End Keys.

(** ** hash methods *)

(** hashmap.c 847-858 on 64-bit size_t *)
Definition HashPointerType (pointer : N) : N :=
  let h := (pointer mod 2 ^ 64)%N in
  let h := ((h + (2 ^ 64 - 1 - (N.shiftl h 9) mod 2 ^ 64)) mod 2 ^ 64)%N in
  let h := N.lxor h (N.shiftr h 14) in
  let h := ((h + N.shiftl h 4) mod 2 ^ 64)%N in
  N.lxor h (N.shiftr h 10).

(** hashmap.c 944-966 *)
Definition HashStringInfoType (s : StringInfo) : N := fold_left N.lxor (firstn (slen s) (datum s)) 0%N.

(** hashmap.c 883-917: the bytes of the CRC-64 of the string (without its
    final zero) combined; [junk] as in GetStringInfoCRC *)
Definition HashStringType (junk : list N) (string : list N) : N :=
  fold_left N.lxor (FinalizeCRC64 (UpdateCRC64 (InitializeCRC64 (mkCRC64Info 0 junk)) string)) 0%N.

(** hashmap.c 257-268 on strings without zero bytes *)
Fixpoint CompareHashmapString (p q : list N) : bool :=
  match p, q with
  | [], [] => true
  | a :: p, b :: q => (a =? b)%N && CompareHashmapString p q
  | _, _ => false
  end.

(** hashmap.c 295-306 *)
Definition CompareHashmapStringInfo (p q : StringInfo) : bool :=
  match CompareStringInfo p q with Ok Eq => true | _ => false end.
