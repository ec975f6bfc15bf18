(** The construction of FIPS 180-4 section 5 and 6 (and RFC 1321 section 3),
    written on whole messages: pad, cut into blocks, fold the compression
    function, encode. *)
From Coq Require Import NArith Arith List.
From Verif Require Import Base.
Import ListNotations.
Local Open Scope N_scope.

(** number of zero bytes between the 0x80 byte and the bit count: the least
    [k] with [len + 1 + k = bs - r] modulo [bs] (FIPS 180-4 5.1) *)
Definition zeros (bs r len : nat) : nat := ((bs - r) + bs - (len + 1) mod bs) mod bs.

Definition md_pad (lenbytes : N -> list N) (bs r : nat) (m : list N) : list N :=
  m ++ [0x80] ++ repeat 0 (zeros bs r (length m)) ++ lenbytes (8 * N.of_nat (length m)).

Definition md_hash (compress : list N -> list N -> list N) (iv : list N)
    (lenbytes : N -> list N) (bs r : nat) (m : list N) : list N :=
  fold_left compress (chunks bs (md_pad lenbytes bs r m)) iv.
