(** Machine words, bytes and byte strings used by every model file.

    Words are [N]; a [w]-bit word is an [N] below [2^w].  Byte strings are
    [list N] whose elements are below 256.  The operations below are the C
    operators on [unsigned char], [unsigned int] and [WizardSizeType]
    (unsigned, wrapping modulo 2^8, 2^32, 2^64). *)
From Coq Require Import NArith List.
Import ListNotations.
Local Open Scope N_scope.

(** ** Words *)

Definition word (w x : N) : Prop := x < 2 ^ w.

(** conversion to a [w]-bit unsigned type (C11 6.3.1.3) *)
Definition wrap (w x : N) : N := x mod 2 ^ w.

Definition wadd (w x y : N) : N := wrap w (x + y).
Definition wsub (w x y : N) : N := wrap w (2 ^ w + x - y).
Definition wmul (w x y : N) : N := wrap w (x * y).
(** [~x] *)
Definition wnot (w x : N) : N := N.lxor x (N.ones w).
(** [x << n] *)
Definition wshl (w x n : N) : N := wrap w (N.shiftl x n).
(** [(x << n) | (x >> (w-n))] *)
Definition rotl (w x n : N) : N := N.lor (wshl w x n) (N.shiftr x (w - n)).
(** [(x >> n) | (x << (w-n))] *)
Definition rotr (w x n : N) : N := N.lor (N.shiftr x n) (wshl w x (w - n)).

Definition bytes (l : list N) : Prop := Forall (fun b => b < 256) l.
Definition words (w : N) (l : list N) : Prop := Forall (word w) l.

(** ** Byte order *)

(** value of a little-endian byte string *)
Fixpoint le_val (l : list N) : N :=
  match l with
  | [] => 0
  | b :: t => b + 256 * le_val t
  end.

(** value of a big-endian byte string *)
Definition be_val (l : list N) : N := fold_left (fun a b => 256 * a + b) l 0.

(** the [n] low-order bytes of [x], least significant first *)
Fixpoint le_bytes (n : nat) (x : N) : list N :=
  match n with
  | O => []
  | S m => x mod 256 :: le_bytes m (x / 256)
  end.

Definition be_bytes (n : nat) (x : N) : list N := rev (le_bytes n x).

(** ** Lists *)

(** C array read; out-of-range reads are excluded by the theorems' length
    hypotheses, the default is never relied upon *)
Definition get (l : list N) (i : nat) : N := nth i l 0.

Fixpoint upd {A} (l : list A) (i : nat) (x : A) : list A :=
  match l, i with
  | [], _ => []
  | _ :: t, O => x :: t
  | a :: t, S j => a :: upd t j x
  end.

Fixpoint map2 {A B C} (f : A -> B -> C) (l : list A) (m : list B) : list C :=
  match l, m with
  | a :: l', b :: m' => f a b :: map2 f l' m'
  | _, _ => []
  end.

Definition xor_list : list N -> list N -> list N := map2 N.lxor.

(** a table indexed by a byte *)
Definition tab (t : list N) (i : N) : N := nth (N.to_nat i) t 0.

(** consecutive blocks of [n] elements; an incomplete last block is kept *)
Fixpoint chunks_fuel {A} (fuel n : nat) (l : list A) : list (list A) :=
  match fuel with
  | O => []
  | S f => match l with
           | [] => []
           | _ => firstn n l :: chunks_fuel f n (skipn n l)
           end
  end.
Definition chunks {A} (n : nat) (l : list A) : list (list A) :=
  chunks_fuel (length l) n l.

(** apply [f] [n] times *)
Fixpoint iter {A} (n : nat) (f : A -> A) (x : A) : A :=
  match n with O => x | S m => iter m f (f x) end.

(** write [src] over [dst] starting at index [i] (memcpy inside a buffer) *)
Definition splice {A} (dst : list A) (i : nat) (src : list A) : list A :=
  firstn i dst ++ src ++ skipn (i + length src) dst.

Definition slice {A} (l : list A) (i n : nat) : list A := firstn n (skipn i l).
