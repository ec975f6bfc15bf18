(** The lists of messages: wizard/locale.c, GetLocaleInfo_, GetLocaleInfoList, GetLocaleList, ListLocaleInfo.

    The cache is the splay tree of SplayModel.v; its values are the addresses of messages, 0 is NULL, and [info] is what is there:
    an [entry] of ConfigureModel.v whose name is the tag and whose value is the text.  The locks, and that the cache is loaded first
    (IsLocaleTreeInstantiated, C140), are left out.  [Fatal]: splaying too deep (C41), or out of fuel, which the theorems exclude. *)
From Coq Require Import NArith ZArith Bool String Arith List.
From Verif Require Import Base Outcome OptionModel GlobModel SplayModel ConfigureModel ListInfoModel.
Import ListNotations.

(** CompareSplayTreeString, splay-tree.c 410-419: LocaleCompare of texts that end at their zero *)
Definition tag_compare (p q : list N) : Z := strcasecmp (to_nul p) (to_nul q).
Definition cache := SplayTreeInfo (list N).
Definition next_value (s : cache) : outcome (cache * N) := match GetNextValueInSplayTree (list N) tag_compare false s with Some r => Ok r | None => Fatal end.

(** 506-528 *)
Definition GetLocaleInfo_ (tag : option (list N)) (s : cache) : outcome (cache * N) :=
  let first := next_value (ResetSplayTreeIterator (list N) s) in
  match tag with
  | None => first
  | Some t =>
      if (strcasecmp t star =? 0)%Z then first
      else match GetValueFromSplayTree (list N) tag_compare false s t with Some r => Ok r | None => Fatal end
  end.

Section Lists.
Variable info : N -> entry.
Variable sort : forall A : Type, (A -> A -> Z) -> list A -> list A.

(** 610-617 and 702-709, from the next entry of the iterator on *)
Fixpoint collect (fuel : nat) (pattern : list N) (s : cache) : outcome (cache * list entry) :=
  match fuel with
  | O => Fatal
  | S fuel =>
      let* (s, p) := next_value s in
      if (p =? 0)%N then Ok (s, [])
      else
        let e := info p in
        let* keep := if stealth e then Ok false
                     else match name e with
                          | None => UB                                     (* GlobExpression of NULL *)
                          | Some m => GlobExpression (m ++ [0%N]) (pattern ++ [0%N]) true
                          end in
        let* (s, l) := collect fuel pattern s in
        Ok (s, if keep then e :: l else l)
  end.
(** the array has a place for each node and one for the NULL behind: 600-603, 697-700 *)
Definition in_array (s : cache) (l : list entry) : outcome (list entry) :=
  if (N.of_nat (List.length l) <=? GetNumberOfNodesInSplayTree (list N) s)%N then Ok l else UB.
Definition turns (s : cache) : nat := S (N.to_nat (GetNumberOfNodesInSplayTree (list N) s)).
(** 562-573 *)
Definition LocaleInfoCompare (x y : entry) : Z :=
  if (strcasecmp (path x) (path y) =? 0)%Z then strcasecmp (name_of x) (name_of y) else strcasecmp (path x) (path y).
(** 579-625; None is NULL *)
Definition GetLocaleInfoList (pattern : list N) (s : cache) : outcome (cache * option (list entry)) :=
  let* (s, p) := GetLocaleInfo_ (Some star) s in
  if (p =? 0)%N then Ok (s, None)
  else
    let s := ResetSplayTreeIterator (list N) s in
    let* (s, l) := collect (turns s) pattern s in
    let* l := in_array s l in
    Ok (s, Some (sort entry LocaleInfoCompare l)).
(** 659-668 *)
Definition LocaleTagCompare (x y : list N) : Z := strcasecmp x y.
(** 674-716; the iterator is where GetLocaleInfo_ left it *)
Definition GetLocaleList (pattern : list N) (s : cache) : outcome (cache * option (list (list N))) :=
  let* (s, p) := GetLocaleInfo_ (Some star) s in
  if (p =? 0)%N then Ok (s, None)
  else
    let* (s, l) := collect (turns s) pattern s in
    let* l := in_array s l in
    Ok (s, Some (sort (list N) LocaleTagCompare (map name_of l))).
(** 1057-1060 *)
Definition locale_row (e : entry) : outcome (list N) :=
  match name e with
  | None => UB                                                            (* %s of NULL *)
  | Some t => Ok (t ++ newline ++ match value e with Some m => b "  " ++ m | None => [] end ++ newline)
  end.
(** 1023-1066 *)
Definition ListLocaleInfo (s : cache) : outcome (cache * option (list N)) :=
  let* (s, l) := GetLocaleInfoList star s in
  match l with
  | None => Ok (s, None)
  | Some l => let* t := rows (b "Tag/Message") locale_row None l in Ok (s, Some t)
  end.
End Lists.
