(** Model of GlobExpression, wizard/token.c 259-470.

    A pointer into a C string is the rest of the buffer from there on, past the zero
    if there is more; reading at its end is [UB].  [Fatal]: out of fuel, excluded by
    the theorems. *)
From Coq Require Import NArith ZArith List Bool.
From Verif Require Import Outcome CStringModel.
Import ListNotations.
Local Open Scope N_scope.

Definition star : N := 42.   (* * *)
Definition qmark : N := 63.  (* ? *)
Definition lbracket : N := 91.
Definition rbracket : N := 93.
Definition lbrace : N := 123.
Definition rbrace : N := 125.
Definition backslash : N := 92.
Definition comma : N := 44.
Definition minus : N := 45.

(** *p *)
Definition hd (p : list N) : outcome N := match p with c :: _ => Ok c | [] => UB end.
(** p+1 *)
Definition tl (p : list N) : outcome (list N) := match p with _ :: t => Ok t | [] => UB end.
(** char is signed *)
Definition schar (c : N) : Z := if c <? 128 then Z.of_N c else (Z.of_N c - 256)%Z.
(** tolower in the C locale *)
Definition tolower (c : N) : N := if (65 <=? c) && (c <=? 90) then c + 32 else c.

(** 289-290, 466-467: while ( *pattern == '*') pattern++ *)
Fixpoint skip_stars (p : list N) : outcome (list N) :=
  match p with
  | [] => UB
  | c :: t => if c =? star then skip_stars t else Ok p
  end.
(** 296-299: to the zero *)
Fixpoint to_end (p : list N) : outcome (list N) :=
  match p with
  | [] => UB
  | c :: t => if c =? 0 then Ok p else to_end t
  end.
(** 292-293: status and expression; [g] is the recursive call *)
Fixpoint tries (g : list N -> outcome bool) (e : list N) : outcome (bool * list N) :=
  match e with
  | [] => UB
  | c :: t =>
      if c =? 0 then Ok (false, e)
      else let* s := g e in if s then Ok (true, t) else tries g t
  end.

(** 355-360: past the rest of a class *)
Fixpoint skip_class (p : list N) : outcome (list N) :=
  match p with
  | [] => UB
  | c :: t =>
      if (c =? rbracket) || (c =? 0) then Ok p
      else if c =? backslash then
        match t with
        | [] => UB
        | d :: t' => if d =? 0 then skip_class t else skip_class t'
        end
      else skip_class t
  end.
(** 309-369: done, whether the expression advances, and the pattern; [e] is
    *expression *)
Definition bracket_found (p : list N) : outcome (bool * bool * list N) :=
  let* p := tl p in
  let* p := skip_class p in
  let* c := hd p in
  if c =? 0 then Ok (false, false, p) else let* p := tl p in Ok (false, true, p).
Fixpoint bracket (fuel : nat) (e : N) (p : list N) : outcome (bool * bool * list N) :=
  match fuel with
  | O => Fatal
  | S fuel =>
      let* c := hd p in
      if (c =? 0) || (c =? rbracket) then Ok (true, false, p)
      else
        let* p := (if c =? backslash then tl p else Ok p) in
        let* x := hd p in
        if x =? 0 then Ok (true, false, p)
        else
          let* q := tl p in
          let* y := hd q in
          if y =? minus then
            let* p := tl q in
            let* z := hd p in
            if z =? rbracket then Ok (true, false, p)
            else
              let* p := (if z =? backslash then tl p else Ok p) in
              let* h := hd p in
              if (z =? backslash) && (h =? 0) then Ok (true, false, p)
              else if (schar e <? schar x)%Z || (schar h <? schar e)%Z then let* p := tl p in bracket fuel e p
              else bracket_found p
          else if negb (x =? e) then bracket fuel e q
          else bracket_found p
  end.

(** 385-395: an alternative against the expression [p] *)
Fixpoint alternative (p pattern : list N) (m : bool) : outcome (list N * list N * bool) :=
  match p with
  | [] => UB
  | c :: p' =>
      let* d := hd pattern in
      if (c =? 0) || (d =? 0) || (d =? comma) || (d =? rbrace) || negb m then Ok (p, pattern, m)
      else
        let* pattern := (if d =? backslash then tl pattern else Ok pattern) in
        let* d := hd pattern in
        let* pattern := tl pattern in
        alternative p' pattern (d =? c)
  end.
(** 405-413 and 417-427: to a character of [stop] *)
Fixpoint skip_alternatives (fuel : nat) (stop : N -> bool) (p : list N) : outcome (list N) :=
  match fuel with
  | O => Fatal
  | S fuel =>
      let* c := hd p in
      if stop c || (c =? 0) then Ok p
      else
        let* p := tl p in
        let* c := hd p in
        let* p := (if c =? backslash then
                     let* p := tl p in
                     let* c := hd p in
                     if stop c then tl p else Ok p
                   else Ok p) in
        skip_alternatives fuel stop p
  end.
(** 380-431: done, expression and pattern *)
Fixpoint brace (fuel : nat) (e p : list N) : outcome (bool * list N * list N) :=
  match fuel with
  | O => Fatal
  | S fuel =>
      let* c := hd p in
      if (c =? rbrace) || (c =? 0) then Ok (false, e, p)
      else
        let* (x, p, m) := alternative e p true in
        let* c := hd p in
        if c =? 0 then Ok (true, e, p)
        else
          let e := if m then x else e in
          let* p := skip_alternatives (S (length p)) (fun c => if m then c =? rbrace else (c =? rbrace) || (c =? comma)) p in
          let* c := hd p in
          let* p := (if c =? 0 then Ok p else tl p) in
          brace fuel e p
  end.

(** 466-469 *)
Definition glob_end (e p : list N) : outcome bool :=
  let* p := skip_stars p in
  let* c := hd e in
  let* d := hd p in
  Ok ((c =? 0) && (d =? 0)).

(** 269-274, before the loop [loop] *)
Definition glob_start (loop : list N -> list N -> outcome bool) (e p : list N) : outcome bool :=
  let* d := hd p in
  if d =? 0 then Ok true
  else
    let* z := LocaleCompare p [star; 0] in
    if (z =? 0)%Z then Ok true else loop e p.
(** 275-469; 'done' ends the loop *)
Fixpoint glob_loop (fuel : nat) (ci : bool) (e p : list N) : outcome bool :=
  match fuel with
  | O => Fatal
  | S fuel =>
      let* d := hd p in
      if d =? 0 then glob_end e p
      else
        let* c := hd e in
        if (c =? 0) && negb (d =? lbrace) && negb (d =? star) then glob_end e p
        else if d =? star then
          let* p := skip_stars p in
          let* (status, e) := tries (fun e => glob_start (glob_loop fuel ci) e p) e in
          if status then
            let* e := to_end e in
            let* p := to_end p in
            glob_loop fuel ci e p
          else glob_loop fuel ci e p
        else if d =? lbracket then
          let* p := tl p in
          let* (done, next, p) := bracket (S (length p)) c p in
          if done then glob_end e p
          else
            let* e := (if next then tl e else Ok e) in
            glob_loop fuel ci e p
        else if d =? qmark then
          let* p := tl p in
          let* e := tl e in
          glob_loop fuel ci e p
        else if d =? lbrace then
          let* p := tl p in
          let* (done, e, p) := brace (S (length p)) e p in
          if done then glob_end e p else glob_loop fuel ci e p
        else
          let* p := (if d =? backslash then tl p else Ok p) in
          let* d := hd p in
          if d =? 0 then glob_loop fuel ci e p
          else if negb (if ci then tolower c =? tolower d else c =? d) then glob_end e p
          else
            let* p := tl p in
            let* e := tl e in
            glob_loop fuel ci e p
  end.
(** 259-470; a turn or a call uses up a character of the pattern *)
Definition GlobExpression (expression pattern : list N) (case_insensitive : bool) : outcome bool :=
  glob_start (glob_loop (S (length pattern)) case_insensitive) expression pattern.
