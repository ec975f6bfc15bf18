(** Model of wizard/log.c: how log.xml is loaded, looked up and listed.

    Strings are given without their terminating NUL, a position in the text is the rest
    of it.  [E] is WizardPathExtent, [strtod] tells how many bytes StringToDouble takes,
    [file] is FileToXML and [place] the path of an included file (ConfigureModel.include_path).
    Left out: timers, semaphores, the open file, the status, exceptions and failing
    allocations; the text of the token buffer beyond its NUL. *)
From Coq Require Import NArith ZArith Bool String Arith List.
From Verif Require Import Base Outcome CStringModel OptionModel ArgvModel TokenModel LocaleModel LogModel LimitModel.
Import ListNotations.

(** log.c:96-129; NULL is None *)
Record log_info := mkLog { event_mask : Z; handler_mask : N; path : list N; name : option (list N);
  filename : option (list N); format : option (list N); generations : N; limit : N; stealth : bool }.
(** memset, log.c:1541-1542 *)
Definition fresh (p : list N) : log_info := mkLog 0 0 p None None None 0 0 false.
Definition set_events i v := mkLog v (handler_mask i) (path i) (name i) (filename i) (format i) (generations i) (limit i) (stealth i).
Definition set_handlers i v := mkLog (event_mask i) v (path i) (name i) (filename i) (format i) (generations i) (limit i) (stealth i).
Definition set_filename i v := mkLog (event_mask i) (handler_mask i) (path i) (name i) (Some v) (format i) (generations i) (limit i) (stealth i).
Definition set_format i v := mkLog (event_mask i) (handler_mask i) (path i) (name i) (filename i) (Some v) (generations i) (limit i) (stealth i).
Definition set_generations i v := mkLog (event_mask i) (handler_mask i) (path i) (name i) (filename i) (format i) v (limit i) (stealth i).
Definition set_limit i v := mkLog (event_mask i) (handler_mask i) (path i) (name i) (filename i) (format i) (generations i) v (stealth i).
(** ~0UL *)
Definition all_ones : N := (2 ^ 64 - 1)%N.
Definition number (v : list N) : N := if like v (b "unlimited") then all_ones else strtoul v.

(** log.c:1570-1640 *)
Definition attribute (i : log_info) (keyword v : list N) : outcome log_info :=
  if like keyword (b "events") then
    let* t := ParseWizardOption WizardLogEventOptions true v in Ok (set_events i (Z.lor (event_mask i) t))
  else if like keyword (b "filename") then Ok (set_filename i v)
  else if like keyword (b "format") then Ok (set_format i v)
  else if like keyword (b "generations") then Ok (set_generations i (number v))
  else if like keyword (b "limit") then Ok (set_limit i (number v))
  else if like keyword (b "output") then Ok (set_handlers i (N.lor (handler_mask i) (ParseLogHandlers v)))
  else Ok i.

Section LogCache.
Variable E : nat.
Variable strtod : list N -> nat.
Variable file : list N -> option (list N).
Variable place : list N -> list N -> outcome (list N).
Notation token_of := (GetNextToken E strtod E).

Section Load.
(** the path of this file, and how an included one is loaded *)
Variable here : list N.
Variable include : list N -> list log_info -> outcome (list log_info).

(** log.c:1482-1484, 1491-1493 *)
Fixpoint log_skip (fuel : nat) (stop q : list N) : outcome (list N) :=
  if like (firstn 2 q) stop || at_nul q then Ok q
  else match fuel with
       | O => UB
       | S fuel => let* (token, q) := token_of q in log_skip fuel stop q
       end.
(** log.c:1501-1534 *)
Fixpoint log_include (fuel : nat) (token q : list N) (cache : list log_info) : outcome (list N * list log_info) :=
  if include_goes_on token && negb (at_nul q) then
    match fuel with
    | O => UB
    | S fuel =>
        let keyword := firstn (E - 1) token in
        let* (token, q) := token_of q in
        if negb (starts 61 token) then log_include fuel token q cache
        else
          let* (token, q) := token_of q in
          if like keyword (b "file") then
            let* cache := include token cache in log_include fuel token q cache
          else log_include fuel token q cache
    end
  else Ok (q, cache).

(** one turn, log.c:1470-1641; None: the loop ends *)
Definition turn (q : list N) (st : option log_info * list log_info) : outcome (option (list N * (option log_info * list log_info))) :=
  let '(info, cache) := st in
  let* (token, q) := token_of q in
  match token with
  | [] => Ok None
  | _ =>
      let keyword := firstn (E - 1) token in
      if like (firstn 9 keyword) (b "<!DOCTYPE") then let* q := log_skip (S (length q)) (b "]>") q in Ok (Some (q, st))
      else if like (firstn 4 keyword) (b "<!--") then let* q := log_skip (S (length q)) (b "->") q in Ok (Some (q, st))
      else if like keyword (b "<include") then
        let* (q, cache) := log_include (S (length q)) token q cache in Ok (Some (q, (info, cache)))
      else if like keyword (b "<logmap>") then Ok (Some (q, (Some (fresh here), cache)))
      else
        match info with
        | None => Ok (Some (q, st))
        | Some i =>
            if like keyword (b "</logmap>") then Ok (Some (q, (None, cache ++ [i])))
            else
              let* (token, _) := token_of q in
              if negb (starts 61 token) then Ok (Some (q, st))
              else
                let* (_, q) := token_of q in
                let* (token, q) := token_of q in
                let* i := attribute i keyword token in
                Ok (Some (q, (Some i, cache)))
        end
  end.
Fixpoint log_loop (fuel : nat) (q : list N) (st : option log_info * list log_info) : outcome (list log_info) :=
  match q with
  | [] => Ok (snd st)
  | _ =>
      match fuel with
      | O => UB
      | S fuel =>
          let* next := turn q st in
          match next with None => Ok (snd st) | Some (q, st) => log_loop fuel q st end
      end
  end.
End Load.

(** log.c:1436-1647; [rest] is 201 - depth *)
Fixpoint LoadLogCache (rest : nat) (here xml : list N) (cache : list log_info) : outcome (list log_info) :=
  let include token cache :=
    match rest with
    | O => Ok cache
    | S rest =>
        let* p := place here token in
        match file p with Some xml => LoadLogCache rest p xml cache | None => Ok cache end
    end in
  log_loop here include (S (length xml)) xml (None, cache).

(** log.c:203-209, 294-318 *)
Definition built_in : log_info :=
  mkLog 0 1 (b "[built-in]") None (Some (b "Magick-%g.log")) (Some (b "%t %r %u %v %d %c[%p]: %m/%f/%l/%d\n  %e")) 0 0 false.
(** log.c:250-320; [options] are the files that were found and their paths *)
Fixpoint load_files (options : list (list N * list N)) (cache : list log_info) : outcome (list log_info) :=
  match options with
  | [] => Ok cache
  | (p, xml) :: options => let* cache := LoadLogCache 201 p xml cache in load_files options cache
  end.
Definition AcquireLogCache (options : list (list N * list N)) : outcome (list log_info) :=
  let* cache := load_files options [] in Ok (cache ++ [built_in]).
End LogCache.

(** LocaleCompare(name,p->name) == 0, locale.c:1392-1399 *)
Definition named (n : list N) (i : log_info) : bool := match name i with Some m => like n m | None => false end.
(** RemoveElementByValueFromLinkedList and InsertValueInLinkedList at 0: the element found and the list *)
Fixpoint find_log (n : list N) (before cache : list log_info) : option (log_info * list log_info) :=
  match cache with
  | [] => None
  | i :: cache => if named n i then Some (i, i :: rev before ++ cache) else find_log n (i :: before) cache
  end.
(** log.c:386-425: the element, NULL being None, and the cache after it *)
Definition GetLogInfo (n : option (list N)) (cache : list log_info) : option log_info * list log_info :=
  match n with
  | None => (List.hd_error cache, cache)
  | Some n =>
      if like n (b "*") then (List.hd_error cache, cache)
      else match find_log n [] cache with Some (i, cache) => (Some i, cache) | None => (None, cache) end
  end.

Section Lists.
(** GlobExpression on a name and a pattern (GlobModel.v), and qsort *)
Variable glob : list N -> list N -> outcome bool.
Variable sort : list log_info -> list log_info.
Variable sort_names : list (list N) -> list (list N).
(** token.c:268-276: an empty pattern and '*' match before the expression is looked at *)
Definition matches (n : option (list N)) (pattern : list N) : outcome bool :=
  match n with
  | Some n => glob n pattern
  | None => if at_nul pattern || like pattern (b "*") then Ok true else UB
  end.
(** log.c:501-508, 594-601 *)
Fixpoint select (pattern : list N) (cache : list log_info) : outcome (list log_info) :=
  match cache with
  | [] => Ok []
  | i :: cache =>
      let* m := if stealth i then Ok false else matches (name i) pattern in
      let* l := select pattern cache in
      Ok (if m then i :: l else l)
  end.
(** log.c:470-514, 563-607 *)
Definition GetLogInfoList (pattern : list N) (cache : list log_info) : outcome (list log_info) :=
  let* l := select pattern cache in Ok (sort l).
(** ConstantString(NULL) is empty, string.c:655-676 *)
Definition GetLogList (pattern : list N) (cache : list log_info) : outcome (list (list N)) :=
  let* l := select pattern cache in Ok (sort_names (map (fun i => match name i with Some n => n | None => [] end) l)).

(** fprintf("%9g  ") and fprintf("%8g   ") *)
Variable show_9g show_8g : N -> list N.
(** log.c:765-781: the names with the bit of their place in the table *)
Fixpoint handler_names (j : N) (table : list (string * N)) (mask : N) : list (list N) :=
  match table with
  | [] => []
  | (n, _) :: table => (if N.testbit mask j then [b n] else []) ++ handler_names (j + 1) table mask
  end.
Definition pad (from upto : nat) : list N := repeat 32%N (S upto - from).
Definition line : list N := repeat 45%N 79 ++ [10%N].
(** log.c:757-787 *)
Definition heading (i : log_info) : list N :=
  let names := handler_names 0 LogHandlers (handler_mask i) in
  10%N :: b "Path: " ++ path i ++ [10; 10]%N ++ flat_map (fun n => n ++ [32%N]) names ++ pad (length (concat names)) 12 ++
  b " Generations     Limit  Format" ++ [10%N] ++ line.
(** log.c:788-800 *)
Definition row (i : log_info) : list N :=
  match filename i with Some f => f ++ pad (length f) 16 | None => [] end ++ show_9g (generations i) ++ show_8g (limit i) ++
  match format i with Some f => f | None => [] end ++ [10%N].
(** log.c:749-801 *)
Fixpoint list_logs (last : option (list N)) (l : list log_info) : list N :=
  match l with
  | [] => []
  | i :: l =>
      if stealth i then list_logs last l
      else
        (match last with Some p => if like p (path i) then [] else heading i | None => heading i end) ++ row i ++ list_logs (Some (path i)) l
  end.
Definition ListLogInfo (cache : list log_info) : outcome (list N) :=
  let* l := GetLogInfoList (b "*") cache in Ok (list_logs None l).
End Lists.

(** log.c:691-703: whether events are looked at at all; a cache that does not exist is None *)
Definition IsEventLogging (cache : option (list log_info)) : bool :=
  match cache with
  | None | Some [] => false
  | Some (i :: _) => negb (event_mask i =? 0)%Z
  end.
(** log.c:1284-1296: whether an event of a type is written *)
Definition logs (cache : list log_info) (type : Z) : bool :=
  IsEventLogging (Some cache) && match cache with i :: _ => negb (Z.land (event_mask i) type =? 0)%Z | [] => false end.
(** log.c:1731-1754: what is returned and the cache after it.  UndefinedEvents is 0 (log.h) *)
Definition SetLogEventMask (events : list N) (cache : list log_info) : outcome (Z * list log_info) :=
  let* t := ParseWizardOption WizardLogEventOptions true events in
  match cache with
  | [] => UB
  | i :: cache => let m := if (t =? -1)%Z then 0%Z else t in Ok (m, set_events i m :: cache)
  end.
(** log.c:1777-1792 *)
Definition SetLogFormat (f : list N) (cache : list log_info) : outcome (list log_info) :=
  match cache with [] => UB | i :: cache => Ok (set_format i f :: cache) end.
