(** What a program that uses the embeddable allocator may do and what it may rely on.
    The program sees its blocks, which are addresses with the sizes it asked for, and
    the bytes it put into them. *)
From Coq Require Import NArith Bool List.
From Verif Require Import Outcome PoolModel.
Local Open Scope N_scope.

(** bytes of the words in memory, little endian *)
Definition byte_of (w j : N) : N := w / 256 ^ j mod 256.
Definition byte (st : pool) (p : N) : N := byte_of (mem st (8 * (p / 8))) (p mod 8).
(** the program stores the byte [v] at [p]; not a function of the library *)
Definition put (w j v : N) : N := w / 256 ^ (j + 1) * 256 ^ (j + 1) + v * 256 ^ j + w mod 256 ^ j.
Definition store (p v : N) (st : pool) : outcome pool :=
  let* w := rd st (8 * (p / 8)) in wr (8 * (p / 8)) (put w (p mod 8) v) st.

(** what the program knows: the size of the block at an address, the byte it stored there *)
Record view := mkView { live : N -> option N; data : N -> option N }.
Inductive call :=
| Acquire (size : N) (segment : option N)
| Relinquish (p : N)
| Resize (p size : N) (segment : option N)
| Store (p v : N).

Definition asked (size : N) : N := if size =? 0 then 1 else size.
(** ExpandHeap asks the system for the least multiple of 2 MiB that holds 96 bytes more *)
Definition segment_length (size : N) : N := 2097152 * ((asked size + 96 + 2097151) / 2097152).
(** the system gives out memory that is aligned and was not given out before *)
Definition fair (st : pool) (size : N) (segment : option N) : Prop :=
  match segment with
  | None => True
  | Some a => a <> 0 /\ a mod 16 = 0 /\ forall b l, In (b, l) (mapped st) -> a + segment_length size <= b \/ b + l <= a
  end.
(** sizes that do not wrap around, and fewer segments than the pool has room for *)
Definition moderate (st : pool) (size : N) : Prop := size + 2097248 < 2 ^ 64 /\ number st + 1 < 1024.
(** sizes for which the segment ExpandHeap asks for is large enough: a block takes the
    size and 24 bytes, rounded up to 32 *)
Definition roomy (size : N) : Prop := 32 * ((asked size + 55) / 32) + 96 <= segment_length size.

Definition legal (c : call) (st : pool) (v : view) : Prop :=
  match c with
  | Acquire size segment => moderate st size /\ fair st size segment
  | Relinquish p => p = 0 \/ live v p <> None
  | Resize p size segment => moderate st size /\ fair st size segment /\ (p = 0 \/ live v p <> None /\ segment <> None /\ roomy size)
  | Store p x => x < 256 /\ exists a n, live v a = Some n /\ a <= p < a + n
  end.
Definition run (fuel : nat) (c : call) (st : pool) : outcome (N * pool) :=
  match c with
  | Acquire size segment => AcquireWizardMemory fuel size segment st
  | Relinquish p => let* st := RelinquishWizardMemory fuel p st in Ok (0, st)
  | Resize p size segment => ResizeWizardMemory fuel p size segment st
  | Store p x => let* st := store p x st in Ok (0, st)
  end.

Definition give (p n : N) (l : N -> option N) : N -> option N := fun a => if a =? p then Some n else l a.
Definition drop (p : N) (l : N -> option N) : N -> option N := fun a => if a =? p then None else l a.
(** the bytes of a block are forgotten *)
Definition forget (p n : N) (d : N -> option N) : N -> option N := fun q => if (p <=? q) && (q <? p + n) then None else d q.
Definition obtained (r size : N) (v : view) : view :=
  if r =? 0 then v else mkView (give r (asked size) (live v)) (data v).
(** the call [c] returned [r] *)
Definition after (c : call) (r : N) (v : view) : view :=
  match c with
  | Acquire size _ => obtained r size v
  | Relinquish p => match live v p with None => v | Some n => mkView (drop p (live v)) (forget p n (data v)) end
  | Resize p size _ =>
      match live v p with
      | None => obtained r size v
      | Some n => mkView (give r (asked size) (drop p (live v)))
          (fun q => if (r <=? q) && (q <? r + N.min n (asked size)) then data v (p + (q - r)) else forget p n (data v) q)
      end
  | Store p x => mkView (live v) (fun q => if q =? p then Some x else data v q)
  end.

(** after [k] legal calls; every call may take as many steps as it needs, which is no
    more than eight and four for each call before it in any of its loops *)
Inductive history : nat -> pool -> view -> Prop :=
| no_call : history 0 initial (mkView (fun _ => None) (fun _ => None))
| one_call k st v c fuel r st' : history k st v -> legal c st v -> (4 * k + 8 <= fuel)%nat -> run fuel c st = Ok (r, st') ->
    history (S k) st' (after c r v).

(** what the program relies on *)
Definition separate (v : view) : Prop :=
  forall a n b k, live v a = Some n -> live v b = Some k -> a <> b -> a + n <= b \/ b + k <= a.
Definition usable (st : pool) (v : view) : Prop :=
  forall a n, live v a = Some n -> a <> 0 /\ a mod 16 = 0 /\ forall q, a <= q < a + n -> exists s l, In (s, l) (mapped st) /\ s <= q < s + l.
Definition intact (st : pool) (v : view) : Prop := forall q x, data v q = Some x -> byte st q = x.

(** The blocks of a segment, found by following their headers from the first one on.  The
    bit at the end of a block, in the header of the next one, says whether it is free. *)
Definition size_in (st : pool) (b : N) : N := 2 * (mem st (b - 8) / 2).
Definition is_free (st : pool) (b : N) : Prop := mem st (b + size_in st b - 8) mod 2 = 0.
Inductive tiles (st : pool) : N -> N -> list N -> Prop :=
| tiles_end e : tiles st e e nil
| tiles_more b e l : 32 <= size_in st b -> tiles st (b + size_in st b) e l -> tiles st b e (b :: l).
(** the blocks lie between the first 32 and the last 64 bytes of the segment *)
Definition layout (st : pool) (s l : N) (bs : list N) : Prop := In (s, l) (mapped st) /\ tiles st (s + 32) (s + l - 64) bs.
Definition laid (st : pool) (b : N) : Prop := exists s l bs, layout st s l bs /\ In b bs.
Inductive no_two_free (st : pool) : list N -> Prop :=
| ntf_nil : no_two_free st nil
| ntf_one b : no_two_free st (b :: nil)
| ntf_more b c l : ~ (is_free st b /\ is_free st c) -> no_two_free st (c :: l) -> no_two_free st (b :: c :: l).
(** what a block for [size] bytes takes *)
Definition needed (size : N) : N := 32 * ((asked size + 55) / 32).
