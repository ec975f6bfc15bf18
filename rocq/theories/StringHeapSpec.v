(** What programs on C strings mean: a variable is NULL or has a text. *)
From Coq Require Import NArith Bool Arith List.
From Verif Require Import Outcome StringHeapModel.
Import ListNotations.

Definition values := list (option (list N)).
Inductive meaning := Next (s : values) | TooLong | Undefined.
Definition zero_free (t : list N) : bool := forallb (fun c => negb (c =? 0)%N) t.
(** the value of an argument; None: there is no such variable, or a zero in the text *)
Definition value (s : values) (a : argument) : option (option (list N)) :=
  match a with Literal t => if zero_free t then Some (Some t) else None | Nothing => Some None | Of v => nth_error s v end.
Fixpoint give (v : nat) (x : option (list N)) (s : values) : values :=
  match s, v with [], _ => [] | _ :: s, O => x :: s | y :: s, S v => y :: give v x s end.
Definition text (x : option (list N)) : list N := match x with Some t => t | None => [] end.
(** a program may not give a variable its own text, and may append NULL to NULL only *)
Definition own (d : nat) (a : argument) (x : option (list N)) : bool := match a, x with Of v, Some _ => v =? d | _, _ => false end.
Section Meaning.
Variables extent limit : nat.
Definition meaning_of (s : values) (o : op) : meaning :=
  match o with
  | Declare => Next (s ++ [None])
  | Constant a => match value s a with None => Undefined | Some x => if limit <? length (text x) + 1 then TooLong else Next (s ++ [Some (text x)]) end
  | Acquire a => match value s a with None => Undefined | Some x => if limit <? length (text x) + extent then TooLong else Next (s ++ [Some (text x)]) end
  | Clone d a =>
      match value s a, nth_error s d with
      | Some None, Some _ => Next (give d None s)
      | Some (Some t), Some y => if own d a y then Undefined else if limit <? length t + extent then TooLong else Next (give d (Some t) s)
      | _, _ => Undefined
      end
  | Concatenate d a =>
      match value s a, nth_error s d with
      | Some None, Some (Some _) => Undefined
      | Some x, Some y => if own d a y then Undefined else if limit <? length (text y) + length (text x) + extent then TooLong else Next (give d (Some (text y ++ text x)) s)
      | _, _ => Undefined
      end
  | Destroy d => match nth_error s d with None => Undefined | Some _ => Next (give d None s) end
  end.
Fixpoint meaning_run (l : list op) (s : values) : meaning :=
  match l with
  | [] => Next s
  | o :: l => match meaning_of s o with Next s => meaning_run l s | r => r end
  end.
End Meaning.
(** a variable in memory: NULL, or a block of its own that starts with the text and a zero *)
Definition holds (h : heap) (p : nat) (x : option (list N)) : Prop :=
  match x with
  | None => p = 0
  | Some t => zero_free t = true /\ exists rest, cells h p = Ok (map Some t ++ Some 0%N :: rest)
  end.
(** ... no two variables have the same block, and there is no other block *)
Definition represents (h : heap) (env : list nat) (s : values) : Prop :=
  length env = length s /\ (forall v p x, nth_error env v = Some p -> nth_error s v = Some x -> holds h p x) /\
  (forall v w p, nth_error env v = Some p -> nth_error env w = Some p -> p <> 0 -> v = w) /\
  forall p l, cells h p = Ok l -> exists v, nth_error env v = Some p.
(** the blocks that are not given back *)
Definition in_use (h : heap) : nat := length (filter fst h).
