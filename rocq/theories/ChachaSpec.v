(** ChaCha20 (Bernstein 2008), the 4x4 matrix written as four rows, with the
    quarter round applied to the four columns at once. *)
From Coq Require Import Arith NArith List.
From Verif Require Import Base.
Import ListNotations.
Local Open Scope N_scope.

Definition rows := (list N * list N * list N * list N)%type.
Definition rot (n : N) (l : list N) : list N := map (fun x => rotl 32 x n) l.
Definition add_rows : list N -> list N -> list N := map2 (fun x y => (x + y) mod 2 ^ 32).

(** a += b; d ^= a; d <<<= 16; c += d; b ^= c; b <<<= 12;
    a += b; d ^= a; d <<<= 8;  c += d; b ^= c; b <<<= 7 *)
Definition quarter_rounds (m : rows) : rows :=
  let '(a, b, c, d) := m in
  let a := add_rows a b in let d := rot 16 (xor_list d a) in
  let c := add_rows c d in let b := rot 12 (xor_list b c) in
  let a := add_rows a b in let d := rot 8 (xor_list d a) in
  let c := add_rows c d in let b := rot 7 (xor_list b c) in
  (a, b, c, d).

Definition turn (n : nat) (l : list N) : list N := skipn n l ++ firstn n l.

(** rotate row i left by i: the diagonals become columns *)
Definition diagonal (m : rows) : rows :=
  let '(a, b, c, d) := m in (a, turn 1 b, turn 2 c, turn 3 d).
Definition undiagonal (m : rows) : rows :=
  let '(a, b, c, d) := m in (a, turn 3 b, turn 2 c, turn 1 d).

Definition column_and_diagonal_round (m : rows) : rows :=
  undiagonal (quarter_rounds (diagonal (quarter_rounds m))).

Definition to_rows (x : list N) : rows := (slice x 0 4, slice x 4 4, slice x 8 4, slice x 12 4).
Definition of_rows (m : rows) : list N := let '(a, b, c, d) := m in a ++ b ++ c ++ d.

(** 20 rounds, then the input is added; serialised little-endian *)
Definition chacha20_core (x : list N) : list N :=
  flat_map (le_bytes 4)
    (map2 (fun u v => (u + v) mod 2 ^ 32)
       (of_rows (iter 10 column_and_diagonal_round (to_rows x))) x).

(** the initial matrix: constants, 256-bit key (a 128-bit key is repeated),
    64-bit block counter and 64-bit nonce *)
Definition chacha_matrix (key counter_nonce : list N) : list N :=
  let c := if Nat.eqb (length key) 32
           then [0x61707865; 0x3320646e; 0x79622d32; 0x6b206574]
           else [0x61707865; 0x3120646e; 0x79622d36; 0x6b206574] in
  let k := if Nat.eqb (length key) 32 then key else key ++ key in
  c ++ map le_val (chunks 4 k) ++ map le_val (chunks 4 counter_nonce).
