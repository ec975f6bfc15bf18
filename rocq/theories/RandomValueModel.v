(** Model of the floating-point values of wizard/random.c (192, 779-794, 878-890).

    A C double is the real number it stands for, and each operation rounds to
    nearest, ties to even, in binary64 (IEEE 754; FLT_EVAL_METHOD 0).  None of
    the values here comes near overflow, so infinities are left out. *)
From Coq Require Import NArith ZArith List Reals Arith.
From Flocq Require Import Core.
From Verif Require Import Base RandomModel.
Local Open Scope R_scope.

Definition RN (x : R) : R := round radix2 (FLT_exp (-1074) 53) ZnearestE x.

(** unsigned 64-bit integer to double *)
Definition of_uint64 (n : N) : R := RN (IZR (Z.of_N n)).

(** random.c 192 *)
Definition normalize : R := RN (1 / of_uint64 (N.shiftr (2 ^ 64 - 1) 11)).

(** random.c 793; the state is that of RandomModel.v *)
Definition GetPseudoRandomValue (s : N * N * N * N) : R := RN (of_uint64 (xoshiro_value s) * normalize).

(** random.c 889, for the key the loop ends with *)
Definition random_value (key : N) : R := RN (of_uint64 key / of_uint64 (2 ^ 64 - 1)).

(** random.c 878-890: [turns] bounds the loop; sizeof(key) is 8 *)
Fixpoint GetRandomValue (turns fuel : nat) (lsb : bool) (junk : list N) (r : RandomInfo) : rres (RandomInfo * option R) :=
  match turns with
  | O => Done (r, None)
  | S t =>
      match SetRandomKey fuel lsb junk r 8 with
      | Done (r, key, _) =>
          let key := (if lsb then le_val else be_val) key in
          if (key =? 2 ^ 64 - 1)%N then GetRandomValue t fuel lsb junk r else Done (r, Some (random_value key))
      | Wrap => Wrap
      | Stuck => Stuck
      end
  end.
