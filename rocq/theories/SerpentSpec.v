(** Serpent as in Anderson, Biham, Knudsen, "Serpent: A Proposal for the Advanced
    Encryption Standard", the bitslice description (sections 3 and 4).  The
    S-boxes are the tables of the paper, applied to each of the 32 bit columns. *)
From Coq Require Import Arith NArith List.
From Verif Require Import Base.
Import ListNotations.
Local Open Scope N_scope.

Definition S_tables : list (list N) :=
  [[ 3; 8;15; 1;10; 6; 5;11;14;13; 4; 2; 7; 0; 9;12];
   [15;12; 2; 7; 9; 0; 5;10; 1;11;14; 8; 6;13; 3; 4];
   [ 8; 6; 7; 9; 3;12;10;15;13; 1;14; 4; 0;11; 5; 2];
   [ 0;15;11; 8;12; 9; 6; 3;13; 1; 2; 4;10; 7; 5;14];
   [ 1;15; 8; 3;12; 0;11; 6; 2; 5; 4;10; 9;14; 7;13];
   [15; 5; 2;11; 4;10; 9;12; 0; 3;14; 8;13; 6; 7; 1];
   [ 7; 2;12; 5; 8; 4; 6;11;14; 9; 1;15;13; 3;10; 0];
   [ 1;13;15; 0;14; 8; 2;11; 7; 4;12;10; 9; 3; 5; 6]].

Fixpoint index (y : N) (l : list N) : N :=
  match l with [] => 0 | x :: t => if x =? y then 0 else 1 + index y t end.
(** inverse table *)
Definition inverse_table (t : list N) : list N := map (fun y => index (N.of_nat y) t) (seq 0 16).

(** the four words X_0..X_3 *)
Definition block := (N * N * N * N)%type.

(** bit column n: bit k of the nibble is bit n of X_k *)
Definition nibble (b0 b1 b2 b3 : bool) : N := N.b2n b0 + 2 * N.b2n b1 + 4 * N.b2n b2 + 8 * N.b2n b3.
Definition column (X : block) (n : N) : N :=
  let '(x0, x1, x2, x3) := X in
  nibble (N.testbit x0 n) (N.testbit x1 n) (N.testbit x2 n) (N.testbit x3 n).
(** the word whose bit n is f n, n < 32 *)
Definition word_of (f : N -> bool) : N :=
  fold_right (fun i acc => if f (N.of_nat i) then N.setbit acc (N.of_nat i) else acc) 0 (seq 0 32).
Definition substitute (t : list N) (X : block) : block :=
  let out k := word_of (fun n => N.testbit (tab t (column X n)) k) in
  (out 0, out 1, out 2, out 3).
Definition S_box (i : nat) (X : block) : block := substitute (nth (i mod 8) S_tables []) X.
Definition S_inv (i : nat) (X : block) : block := substitute (inverse_table (nth (i mod 8) S_tables [])) X.

(** the linear transformation *)
Definition LT (X : block) : block :=
  let '(X0, X1, X2, X3) := X in
  let X0 := rotl 32 X0 13 in
  let X2 := rotl 32 X2 3 in
  let X1 := N.lxor X1 (N.lxor X0 X2) in
  let X3 := N.lxor X3 (N.lxor X2 (wshl 32 X0 3)) in
  let X1 := rotl 32 X1 1 in
  let X3 := rotl 32 X3 7 in
  let X0 := N.lxor X0 (N.lxor X1 X3) in
  let X2 := N.lxor X2 (N.lxor X3 (wshl 32 X1 7)) in
  let X0 := rotl 32 X0 5 in
  let X2 := rotl 32 X2 22 in
  (X0, X1, X2, X3).

(** key mixing; K is the list of the 132 words of the round keys K_0..K_32 *)
Definition mix (K : list N) (i : nat) (X : block) : block :=
  let '(x0, x1, x2, x3) := X in
  (N.lxor x0 (get K (4 * i)), N.lxor x1 (get K (4 * i + 1)),
   N.lxor x2 (get K (4 * i + 2)), N.lxor x3 (get K (4 * i + 3))).

Definition R (K : list N) (i : nat) (X : block) : block := LT (S_box i (mix K i X)).
Definition encrypt_words (K : list N) (X : block) : block :=
  mix K 32 (S_box 31 (mix K 31 (fold_left (fun X i => R K i X) (seq 0 31) X))).

(** key schedule: pad with one 1 bit and zeros to 256 bits, expand, substitute *)
Definition key256 (key : list N) : list N := firstn 32 (key ++ 1 :: repeat 0 32).
(** [w] holds w_{-8}, w_{-7}, ..., so that w_i is element i+8 *)
Definition extend (w : list N) (i : nat) : list N :=
  w ++ [rotl 32 (N.lxor (get w i) (N.lxor (get w (i + 3)) (N.lxor (get w (i + 5))
        (N.lxor (get w (i + 7)) (N.lxor 0x9e3779b9 (N.of_nat i)))))) 11].
Definition prekeys (key : list N) : list N :=
  skipn 8 (fold_left extend (seq 0 132) (map le_val (chunks 4 (key256 key)))).
Definition round_key (w : list N) (i : nat) : list N :=
  let '(a, b, c, d) := S_box (35 - i) (get w (4 * i), get w (4 * i + 1), get w (4 * i + 2), get w (4 * i + 3)) in
  [a; b; c; d].
Definition round_keys (key : list N) : list N := flat_map (round_key (prekeys key)) (seq 0 33).

Definition to_block (p : list N) : block :=
  (le_val (slice p 0 4), le_val (slice p 4 4), le_val (slice p 8 4), le_val (slice p 12 4)).
Definition of_block (X : block) : list N :=
  let '(a, b, c, d) := X in le_bytes 4 a ++ le_bytes 4 b ++ le_bytes 4 c ++ le_bytes 4 d.
Definition serpent_encrypt (K p : list N) : list N := of_block (encrypt_words K (to_block p)).
