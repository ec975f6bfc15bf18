(** C strings in memory: wizard/string.c, AcquireString, ConstantString, CloneString, ConcatenateString, DestroyString, on
    AcquireQuantumMemory, ResizeQuantumMemory and RelinquishWizardMemory of wizard/memory.c.

    A block is a list of bytes, of which some were never written (None); its address is its number, from 1 on, 0 is NULL.  Whether realloc
    moves a block is up to [moves].  [extent] is WizardPathExtent (4096), [limit] the greatest size_t.  [UB]: reading or writing outside of a
    block, in a block that was given back, at NULL, a byte that was never written, or memcpy of what overlaps.  [Fatal]: the exception for
    want of memory, which is modelled for sizes only. *)
From Coq Require Import NArith Bool Arith List.
From Verif Require Import Outcome.
Import ListNotations.

Notation cell := (option N).
Definition heap := list (bool * list cell).
Definition cells (h : heap) (p : nat) : outcome (list cell) :=
  match p with
  | O => UB
  | S i => match nth_error h i with Some (true, l) => Ok l | _ => UB end
  end.
Fixpoint update (i : nat) (x : bool * list cell) (h : heap) : heap :=
  match h, i with
  | [], _ => []
  | _ :: h, O => x :: h
  | y :: h, S i => y :: update i x h
  end.
(** malloc and free *)
Definition alloc (n : nat) (h : heap) : heap * nat := (h ++ [(true, repeat None n)], S (length h)).
Definition release (p : nat) (h : heap) : outcome heap := let* l := cells h p in Ok (update (pred p) (false, l) h).
(** memcpy and assignment of bytes *)
Definition put (l : list cell) (off : nat) (bs : list cell) : list cell := firstn off l ++ bs ++ skipn (off + length bs) l.
Definition store (p off : nat) (bs : list cell) (h : heap) : outcome heap :=
  let* l := cells h p in
  if off + length bs <=? length l then Ok (update (pred p) (true, put l off bs) h) else UB.
(** the bytes up to the zero *)
Fixpoint text_of (l : list cell) : outcome (list N) :=
  match l with
  | [] | None :: _ => UB
  | Some c :: l => if (c =? 0)%N then Ok [] else let* t := text_of l in Ok (c :: t)
  end.

(** what a const char * points to: a literal, NULL, or a block *)
Inductive source := Lit (t : list N) | Null | At (p : nat).
Definition is_null (s : source) : bool := match s with Null | At O => true | _ => false end.
Definition strlen (s : source) (h : heap) : outcome nat :=
  match s with
  | Lit t => Ok (length t)
  | Null => UB
  | At p => let* l := cells h p in let* t := text_of l in Ok (length t)
  end.
(** memcpy of [n] bytes of the source to [off] of the block [p] *)
Definition memcpy (p off : nat) (s : source) (n : nat) (h : heap) : outcome heap :=
  match s with
  | Lit t => if n <=? length t + 1 then store p off (map Some (firstn n (t ++ [0%N]))) h else UB
  | Null => UB
  | At q =>
      let* l := cells h q in
      if length l <? n then UB
      else if (p =? q) && (off <? n) then UB                                (* the source is the block from its start on *)
      else store p off (firstn n l) h
  end.

Section Strings.
Variables extent limit : nat.
Variable moves : heap -> bool.

(** realloc *)
Definition resize (p n : nat) (h : heap) : outcome (heap * nat) :=
  let* l := cells h p in
  let l' := firstn n l ++ repeat None (n - length l) in
  if moves h then let* h := release p h in Ok (h ++ [(true, l')], S (length h))
  else Ok (update (pred p) (true, l') h, p).

(** string.c 133-157 *)
Definition AcquireString (s : source) (h : heap) : outcome (heap * nat) :=
  let* n := (if is_null s then Ok 0 else strlen s h) in
  if limit <? n + extent then Fatal
  else
    let (h, p) := alloc (n + extent) h in
    let* h := store p 0 [Some 0%N] h in
    let* h := (if is_null s then Ok h else memcpy p 0 s n h) in
    let* h := store p n [Some 0%N] h in
    Ok (h, p).
(** string.c 655-677 *)
Definition ConstantString (s : source) (h : heap) : outcome (heap * nat) :=
  let* n := (if is_null s then Ok 0 else strlen s h) in
  if limit <? n + 1 then Fatal
  else
    let (h, p) := alloc (n + 1) h in
    let* h := store p 0 [Some 0%N] h in
    let* h := (if is_null s then Ok h else memcpy p 0 s n h) in
    let* h := store p n [Some 0%N] h in
    Ok (h, p).
(** string.c 830-834 *)
Definition DestroyString (p : nat) (h : heap) : outcome heap := match p with O => Ok h | _ => release p h end.
(** string.c 280-307: the new value of *destination *)
Definition CloneString (d : nat) (s : source) (h : heap) : outcome (heap * nat) :=
  if is_null s then let* h := DestroyString d h in Ok (h, 0)
  else if d =? 0 then AcquireString s h
  else
    let* n := strlen s h in
    if limit <? n + extent then Fatal
    else
      let* (h, d) := resize d (n + extent) h in
      let* h := (if n =? 0 then Ok h else memcpy d 0 s n h) in
      let* h := store d n [Some 0%N] h in
      Ok (h, d).
(** memory-private.h 43-55 *)
Fixpoint double (fuel e l : nat) : nat := match fuel with O => e | S fuel => if e <? l then double fuel (e * 2) l else e end.
Definition OverAllocateMemory (l : nat) : nat := if (N.of_nat l <? 131072)%N then double l 256 l else l.
(** string.c 417-448 *)
Definition ConcatenateString (d : nat) (s : source) (h : heap) : outcome (heap * nat) :=
  if d =? 0 then AcquireString s h
  else
    let* m := strlen (At d) h in
    let* n := strlen s h in
    if limit <? m + n then Fatal
    else if limit <? m + n + extent then Fatal
    else
      let* (h, d) := resize d (OverAllocateMemory (m + n + extent)) h in
      let* h := (if n =? 0 then Ok h else memcpy d m s n h) in
      let* h := store d (m + n) [Some 0%N] h in
      Ok (h, d).

(** ** Programs: variables of type char *, each of which is given only what these functions return *)
Inductive argument := Literal (t : list N) | Nothing | Of (v : nat).
Inductive op :=
| Declare                                   (* char *v = NULL; *)
| Constant (a : argument)                   (* v=ConstantString(a); *)
| Acquire (a : argument)                    (* v=AcquireString(a); *)
| Clone (d : nat) (a : argument)            (* CloneString(&d,a); *)
| Concatenate (d : nat) (a : argument)      (* ConcatenateString(&d,a); *)
| Destroy (d : nat).                        (* d=DestroyString(d); *)
Definition var (env : list nat) (v : nat) : outcome nat := match nth_error env v with Some p => Ok p | None => UB end.
Fixpoint assign (v p : nat) (env : list nat) : list nat := match env, v with [], _ => [] | _ :: env, O => p :: env | q :: env, S v => q :: assign v p env end.
Definition argument_of (env : list nat) (a : argument) : outcome source := match a with Literal t => Ok (Lit t) | Nothing => Ok Null | Of v => let* p := var env v in Ok (At p) end.
Definition step (st : heap * list nat) (o : op) : outcome (heap * list nat) :=
  let (h, env) := st in
  match o with
  | Declare => Ok (h, env ++ [0])
  | Constant a => let* s := argument_of env a in let* (h, p) := ConstantString s h in Ok (h, env ++ [p])
  | Acquire a => let* s := argument_of env a in let* (h, p) := AcquireString s h in Ok (h, env ++ [p])
  | Clone d a => let* s := argument_of env a in let* p := var env d in let* (h, p) := CloneString p s h in Ok (h, assign d p env)
  | Concatenate d a => let* s := argument_of env a in let* p := var env d in let* (h, p) := ConcatenateString p s h in Ok (h, assign d p env)
  | Destroy d => let* p := var env d in let* h := DestroyString p h in Ok (h, assign d 0 env)
  end.
Definition run (l : list op) (st : heap * list nat) : outcome (heap * list nat) := fold_outcome step l st.
End Strings.
