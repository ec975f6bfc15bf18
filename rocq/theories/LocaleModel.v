(** Model of wizard/locale.c: ChopLocaleComponents, LoadLocaleCache, GetLocaleMessage.

    Strings are given without their terminating NUL, a position in the text is
    the rest of it.  The splay tree locale_cache is the list of what was added to
    it, the last one first; C38 shows that it is a finite map.  Its keys are
    compared byte by byte.  [L] is WizardLocaleExtent, [E] WizardPathExtent,
    [strtod] tells how many bytes StringToDouble takes.  [file] gives the contents
    of included files by the text of the "file" attribute; joining it with the
    directory of the including file is left out.  Allocation always succeeds. *)
From Coq Require Import NArith ZArith Bool String Arith List.
From Verif Require Import Base Outcome CStringModel OptionModel ArgvModel TokenModel.
Import ListNotations.

(** locale.c:1104-1125.  [p] walks down from the last byte; it stops in front of the
    first byte of the path. *)
Fixpoint chop_back (count : nat) (p : nat) (path : list N) : list N :=
  match count with
  | O => path
  | S count' =>
      match p with
      | O => []
      | S p' => if (nth p path 0 =? 47)%N then chop_back count' p' (firstn p path) else chop_back count p' path
      end
  end.
Definition ChopLocaleComponents (path : list N) (components : nat) : list N :=
  match path with
  | [] => []
  | _ =>
      let p := (length path - 1)%nat in
      let path := if (nth p path 0 =? 47)%N then firstn p path else path in
      chop_back components p path
  end.

Section Locale.
Variable L E : nat.
Variable strtod : list N -> nat.
Variable file : list N -> option (list N).
Variable locale : list N.

(** CopyWizardString and ConcatenateWizardString into a buffer of L bytes *)
Definition copy (s : list N) : list N := firstn (L - 1) s.
Definition cat (tag s : list N) : list N := firstn (L - 1) (tag ++ s).
Definition at_nul (q : list N) : bool := match q with [] => true | _ => false end.
(** *s == c *)
Definition starts (c : N) (s : list N) : bool := match s with d :: _ => (d =? c)%N | [] => false end.

(** the tag and the cache *)
Definition state : Type := list N * list (list N * list N).

Section Load.
Variable extent : nat.
Variable include : list N -> list (list N * list N) -> outcome (list (list N * list N)).
Notation token_of := (GetNextToken E strtod extent).

(** locale.c:1188-1193, 1201-1206: skip a declaration or a comment *)
Fixpoint skip_to (fuel : nat) (stop q : list N) : outcome (list N) :=
  if like (firstn 2 q) stop || at_nul q then Ok q
  else match fuel with
       | O => UB
       | S fuel => let* (token, q) := token_of q in skip_to fuel stop (spaces_off q)
       end.
(** locale.c:1214-1259; the second token is looked at only if the first byte is no slash *)
Definition include_goes_on (token : list N) : bool :=
  negb (starts 47 token) && negb (starts 62 (tl token)).
Fixpoint include_element (fuel : nat) (token q : list N) (cache : list (list N * list N)) : outcome (list N * list (list N * list N)) :=
  if include_goes_on token && negb (at_nul q) then
    match fuel with
    | O => UB
    | S fuel =>
        let keyword := copy token in
        let* (token, q) := token_of q in
        if negb (starts 61 token) then include_element fuel token q cache
        else
          let* (token, q) := token_of q in
          if like keyword (b "locale") then
            if like locale token then include_element fuel token q cache else Ok (q, cache)
          else if like keyword (b "file") then
            let* cache := include token cache in include_element fuel token q cache
          else include_element fuel token q cache
    end
  else Ok (q, cache).
(** locale.c:1267-1274, 1296-1308: the attributes of a locale or a message; [named]
    tells to add the name to the tag *)
Fixpoint attributes (fuel : nat) (named : bool) (token q tag : list N) : outcome (list N * list N) :=
  if starts 62 token || at_nul q then Ok (q, tag)
  else
    match fuel with
    | O => UB
    | S fuel =>
        let keyword := copy token in
        let* (token, q) := token_of q in
        if negb (starts 61 token) then attributes fuel named token q tag
        else
          let* (token, q) := token_of q in
          let tag := if named && like keyword (b "name") then cat (cat tag token) (b "/") else tag in
          attributes fuel named token q tag
    end.
(** locale.c:1309-1316: the text of a message up to the next '<', without the white
    space around it; what is left starts behind its last byte.  GetNextToken has
    skipped white space already, so the text is empty or starts with another byte. *)
Fixpoint to_lt (q : list N) : list N * list N :=
  match q with
  | c :: q' => if (c =? 60)%N then ([], q) else let '(s, r) := to_lt q' in (c :: s, r)
  | [] => ([], [])
  end.
(** the white space at the end of a text *)
Fixpoint spaces_at_end (s : list N) : list N * list N :=
  match s with
  | [] => ([], [])
  | c :: s =>
      let '(a, z) := spaces_at_end s in
      match a with
      | [] => if isspace c then ([], c :: z) else ([c], z)
      | _ => (c :: a, z)
      end
  end.
Definition message_text (q : list N) : list N * list N :=
  let '(s, r) := to_lt q in
  let s := spaces_off s in
  let '(a, z) := spaces_at_end s in
  (a, z ++ r).

(** one turn of the loop, locale.c:1173-1375; None: the loop ends *)
Definition turn (q : list N) (st : state) : outcome (option (list N * state)) :=
  let '(tag, cache) := st in
  let* (token, q) := token_of q in
  match token with
  | [] => Ok None
  | _ =>
      let keyword := copy token in
      let go (q tag : list N) (cache : list (list N * list N)) := Ok (Some (q, (tag, cache))) in
      if like (firstn 9 keyword) (b "<!DOCTYPE") then let* q := skip_to (S (length q)) (b "]>") q in go q tag cache
      else if like (firstn 4 keyword) (b "<!--") then let* q := skip_to (S (length q)) (b "->") q in go q tag cache
      else if like keyword (b "<include") then let* (q, cache) := include_element (S (length q)) token q cache in go q tag cache
      else if like keyword (b "<locale") then let* (q, tag) := attributes (S (length q)) false token q tag in go q tag cache
      else if like keyword (b "</locale>") then go q (cat (ChopLocaleComponents tag 1) (b "/")) cache
      else if like keyword (b "<localemap>") then go q tag cache
      else if like keyword (b "</localemap>") then go q tag cache
      else if like keyword (b "<message") then
        let* (q, tag) := attributes (S (length q)) true token q tag in
        let '(message, q) := message_text q in
        let message := firstn (L - 1) message in
        go q (cat (cat tag message) [10%N]) ((tag, message) :: cache)
      else if like keyword (b "</message>") then go q (cat (ChopLocaleComponents tag 2) (b "/")) cache
      else if starts 60 keyword then
        if starts 63 (tl keyword) then go q tag cache
        else if starts 47 (tl keyword) then
          let tag := ChopLocaleComponents tag 1 in
          go q (match tag with [] => [] | _ => cat tag (b "/") end) cache
        else
          let token := copy (tl (firstn (length token - 1) token)) in
          go q (cat (cat tag token) (b "/")) cache
      else
        let* _ := token_of q in
        go q tag cache
  end.
(** locale.c:1173: *q != NUL *)
Fixpoint load_loop (fuel : nat) (q : list N) (st : state) : outcome state :=
  match q with
  | [] => Ok st
  | _ =>
      match fuel with
      | O => UB
      | S fuel =>
          let* next := turn q st in
          match next with None => Ok st | Some (q, st) => load_loop fuel q st end
      end
  end.
End Load.

(** locale.c:1143-1380; [depth] counts the levels left: 1222 refuses to include below
    level 200.  Every turn takes a byte at least. *)
Fixpoint load_cache (depth : nat) (xml : list N) (cache : list (list N * list N)) : outcome (list (list N * list N)) :=
  let include path cache :=
    match depth with
    | O => Ok cache
    | S depth => match file path with Some xml => load_cache depth xml cache | None => Ok cache end
    end in
  let* st := load_loop (length xml + E) include (S (length xml)) xml ([], cache) in
  Ok (snd st).
Definition LoadLocaleCache (xml : list N) (cache : list (list N * list N)) : outcome (list (list N * list N)) :=
  load_cache 201 xml cache.

(** GetValueFromSplayTree by tag *)
Fixpoint find_tag (tag : list N) (cache : list (list N * list N)) : option (list N) :=
  match cache with
  | [] => None
  | (t, m) :: cache => if list_eq_dec N.eq_dec t tag then Some m else find_tag tag cache
  end.
(** locale.c:739-761 *)
Definition GetLocaleMessage (cache : list (list N * list N)) (tag : list N) : list N :=
  match tag with
  | [] => tag
  | _ => match find_tag (firstn (L - 1) (tag ++ b "/")) cache with Some m => m | None => tag end
  end.
End Locale.
