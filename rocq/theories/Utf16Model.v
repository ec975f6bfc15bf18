(** ConvertUTF16ToUTF8 and SetXMLTreeAttribute (wizard/xml-tree.c).

    Bytes of a text are given without the terminating NUL.  A write behind the end
    of a block, and any use of memory that was never written, is [UB]. *)
From Coq Require Import NArith ZArith Bool Arith List.
From Verif Require Import Base Outcome XmlModel.
Import ListNotations.

(** ** ConvertUTF16ToUTF8, xml-tree.c:1313-1397 *)
Section Utf16.
(** WizardPathExtent *)
Variable P : nat.
Variable big : bool.

(** xml-tree.c:1350-1351 *)
Definition unit_of (x y : N) : N := if big then N.lor (N.shiftl x 8) y else N.lor (N.shiftl y 8) x.
Definition surrogate (c : N) : bool := (55296 <=? c)%N && (c <=? 57343)%N.
(** xml-tree.c:1357 *)
Definition pair_of (c d : N) : N := (N.lor (N.shiftl (N.land c 1023) 10) (N.land d 1023) + 65536)%N.
(** xml-tree.c:1359-1385: one code point is written behind out *)
Definition emit (c : N) (out : list N) (extent alloc : nat) : outcome (list N * nat * nat) :=
  let grow := extent <? length out + P in
  let extent := if grow then length out + P else extent in
  let alloc := if grow then extent else alloc in
  let bytes := char_bytes (Z.of_N c) in
  if length out + length bytes <=? alloc then Ok (out ++ bytes, extent, alloc) else UB.
(** xml-tree.c:1348-1386; the bytes from i on; alloc is the size of the block *)
Fixpoint convert_units (p : list N) (out : list N) (extent alloc : nat) : outcome (list N) :=
  match p with
  | x :: y :: p' =>
      let c := unit_of x y in
      if surrogate c then
        match p' with
        | x' :: y' :: p'' =>
            let* r := emit (pair_of c (unit_of x' y')) out extent alloc in
            let '(out, extent, alloc) := r in convert_units p'' out extent alloc
        | _ => let* r := emit c out extent alloc in Ok (fst (fst r))
        end
      else
        let* r := emit c out extent alloc in
        let '(out, extent, alloc) := r in convert_units p' out extent alloc
  | _ => Ok out
  end.
End Utf16.
(** xml-tree.c:1387-1391: the block is cut to what was written, and a NUL is written behind it;
    to cut it to nothing is an error (memory.c:1243-1248), None *)
Definition finish (out : list N) : outcome (option (list N)) := match out with [] => Ok None | _ => UB end.
Definition ConvertUTF16ToUTF8 (P : nat) (content : list N) : outcome (option (list N)) :=
  let length := length content in
  match content with
  | 254%N :: _ => let* out := convert_units P true (skipn 2 content) [] length (S length) in finish out
  | 255%N :: _ => let* out := convert_units P false (skipn 2 content) [] length (S length) in finish out
  | _ => Ok (Some content)
  end.
(** xml-tree.c:2030-2031: the length is that of a C string *)
Fixpoint c_string (s : list N) : list N := match s with [] => [] | c :: s => if (c =? 0)%N then [] else c :: c_string s end.

(** ** SetXMLTreeAttribute, xml-tree.c:2523-2590 *)
(** a slot of the array: a text, NULL, or never written *)
Inductive slot := Str (s : list N) | Null | Junk.
(** the array sentinel, shared by all tags without attributes, or one of its own *)
Inductive attributes := Sentinel | Array (l : list slot).
Definition slots (a : attributes) : list slot := match a with Sentinel => [Null] | Array l => l end.
(** xml-tree.c:2536-2538 and 829-833: the index of the tag or of the NULL *)
Fixpoint scan (l : list slot) (tag : list N) (i : nat) : outcome (nat * bool) :=
  match l with
  | Null :: _ => Ok (i, false)
  | Str s :: l => if list_eq_dec N.eq_dec s tag then Ok (i, true) else match l with _ :: l => scan l tag (i + 2) | [] => UB end
  | Junk :: _ | [] => UB
  end.
(** xml-tree.c:2565: the index of the NULL *)
Fixpoint end_of (l : list slot) (j : nat) : outcome nat :=
  match l with
  | Null :: _ => Ok j
  | Str s :: l => match l with _ :: l => end_of l (j + 2) | [] => UB end
  | Junk :: _ | [] => UB
  end.
Definition slot_at (l : list slot) (i : nat) : slot := nth i l Junk.
Definition put_slot (l : list slot) (i : nat) (s : slot) : list slot := firstn i l ++ s :: skipn (S i) l.
(** ResizeQuantumMemory: new slots are never written *)
Definition resize (l : list slot) (n : nat) : list slot := firstn n l ++ repeat Junk (n - length l).
Definition SetXMLTreeAttribute (a : attributes) (tag : list N) (value : option (list N)) : outcome attributes :=
  let* (i, there) := scan (slots a) tag 0 in
  match there, value with
  | false, None => Ok a
  | _, _ =>
      let* l :=
        if there then Ok (slots a)
        else
          let l := match a with Array l => resize l (i + 4) | Sentinel => put_slot (repeat Junk 4) 1 (Str []) end in
          let l := put_slot (put_slot l i (Str tag)) (i + 2) Null in
          match slot_at l (i + 1) with Str _ => Ok l | _ => UB end in          (* strlen *)
      let* j := end_of (skipn i l) i in
      match slot_at l (i + 1) with
      | Junk => UB
      | _ =>
          match value with
          | Some v => Ok (Array (put_slot l (i + 1) (Str v)))
          | None =>
              (* the tag and its value leave, the rest moves up; then the text behind the NULL is changed *)
              let l := resize (firstn i l ++ firstn (j - i) (skipn (i + 2) l) ++ skipn j l) (j + 2) in
              match slot_at l (j - 1) with Str _ => Ok (Array l) | _ => UB end
          end
      end
  end.
(** xml-tree.c:841-851: the defaults of the document type; for each tag its attributes with their defaults *)
Definition defaults := list (list N * list (list N * slot)).
Fixpoint look {A} (t : list N) (l : list (list N * A)) : option A :=
  match l with [] => None | (u, x) :: l => if list_eq_dec N.eq_dec u t then Some x else look t l end.
(** xml-tree.c:811-852; name is the tag of the node *)
Definition GetXMLTreeAttribute (d : defaults) (name : list N) (a : attributes) (tag : list N) : outcome slot :=
  let* (i, there) := scan (slots a) tag 0 in
  if there then Ok (slot_at (slots a) (i + 1))
  else Ok (match look name d with None => Null | Some l => match look tag l with None => Null | Some v => v end end).
