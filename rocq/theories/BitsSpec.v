(** Bit strings of words and messages, least significant bit first. *)
From Coq Require Import NArith List.
Import ListNotations.
Local Open Scope N_scope.

(** the [k] low bits of [x], least significant first *)
Definition low_bits (k : nat) (x : N) : list bool :=
  map (fun i => N.testbit x (N.of_nat i)) (seq 0 k).

(** the bits of a byte string, each byte least significant bit first *)
Definition message_bits (m : list N) : list bool := flat_map (low_bits 8) m.
