(** What the random byte stream should be: digests of successive nonces, end to
    end, and which requests it can serve. *)
From Coq Require Import NArith Arith List.
From Verif Require Import Base.
Import ListNotations.

(** the first byte of a nonce stays, the others are a big-endian counter *)
Definition counter (nonce : list N) : N := be_val (tl nonce).
Definition counter_limit (nonce : list N) : N := (256 ^ N.of_nat (length nonce - 1))%N.
Definition nonce_at (nonce : list N) (k : nat) : list N :=
  hd 0%N nonce :: be_bytes (length nonce - 1) (counter nonce + N.of_nat k).

(** byte [j] of the stream whose blocks of [d] bytes are [blocks 0], [blocks 1], ... *)
Definition stream_byte (d : nat) (blocks : nat -> list N) (j : nat) : N := nth (j mod d) (blocks (j / d)) 0%N.
Definition stream (d : nat) (blocks : nat -> list N) (from count : nat) : list N :=
  map (stream_byte d blocks) (seq from count).

(** blocks needed for [n] bytes *)
Definition blocks_needed (d n : nat) : nat := (n + (d - 1)) / d.
