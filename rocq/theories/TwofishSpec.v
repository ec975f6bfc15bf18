(** Twofish as in Schneier et al., "Twofish: A 128-Bit Block Cipher" (1998),
    section 4.  Tables t0..t3 of q0 and q1, MDS and RS are those of the paper. *)
From Coq Require Import Arith NArith List.
From Verif Require Import Base.
Import ListNotations.
Local Open Scope N_scope.

(** 4.3.5 the permutations q0 and q1 *)
Definition ror4 (x : N) : N := N.lor (N.shiftr x 1) ((8 * x) mod 16).
Definition q (t : list (list N)) (x : N) : N :=
  let a0 := x / 16 in let b0 := x mod 16 in
  let a1 := N.lxor a0 b0 in
  let b1 := N.lxor (N.lxor a0 (ror4 b0)) ((8 * a0) mod 16) in
  let a2 := tab (nth 0 t []) a1 in let b2 := tab (nth 1 t []) b1 in
  let a3 := N.lxor a2 b2 in
  let b3 := N.lxor (N.lxor a2 (ror4 b2)) ((8 * a2) mod 16) in
  let a4 := tab (nth 2 t []) a3 in let b4 := tab (nth 3 t []) b3 in
  16 * b4 + a4.
Definition perm0 : N -> N := q
  [[0x8;0x1;0x7;0xD;0x6;0xF;0x3;0x2;0x0;0xB;0x5;0x9;0xE;0xC;0xA;0x4];
   [0xE;0xC;0xB;0x8;0x1;0x2;0x3;0x5;0xF;0x4;0xA;0x6;0x7;0x0;0x9;0xD];
   [0xB;0xA;0x5;0xE;0x6;0xD;0x9;0x0;0xC;0x8;0xF;0x3;0x2;0x4;0x7;0x1];
   [0xD;0x7;0xF;0x4;0x1;0x2;0x6;0xE;0x9;0xB;0x3;0x0;0x8;0x5;0xC;0xA]].
Definition perm1 : N -> N := q
  [[0x2;0x8;0xB;0xD;0xF;0x7;0x6;0xE;0x3;0x1;0x9;0x4;0x0;0xA;0xC;0x5];
   [0x1;0xE;0x2;0xB;0x4;0xC;0x3;0x7;0x6;0xD;0xA;0x5;0xF;0x9;0x0;0x8];
   [0x4;0xC;0x7;0x5;0x1;0x6;0x9;0xA;0x0;0xE;0xD;0x8;0x2;0xB;0x3;0xF];
   [0xB;0x9;0x5;0x1;0xC;0x3;0xD;0xE;0x6;0x4;0x7;0xF;0x2;0x0;0x8;0xA]].

(** GF(2^8) modulo the polynomial with bits [m] *)
Definition dbl (m x : N) : N :=
  let y := 2 * x in if 256 <=? y then N.lxor y m else y.
Definition gmul (m x y : N) : N :=
  fold_right (fun i acc => if N.testbit y (N.of_nat i) then N.lxor (iter i (dbl m) x) acc else acc) 0 (seq 0 8).
Definition dot (m : N) (row v : list N) : N :=
  fold_right (fun p acc => N.lxor (gmul m (fst p) (snd p)) acc) 0 (combine row v).
Definition mat_vec (m : N) (rows : list (list N)) (v : list N) : list N :=
  map (fun row => dot m row v) rows.

Definition MDS : list (list N) :=
  [[0x01; 0xEF; 0x5B; 0x5B];
   [0x5B; 0xEF; 0xEF; 0x01];
   [0xEF; 0x5B; 0x01; 0xEF];
   [0xEF; 0x01; 0xEF; 0x5B]].
Definition RS : list (list N) :=
  [[0x01; 0xA4; 0x55; 0x87; 0x5A; 0x58; 0xDB; 0x9E];
   [0xA4; 0x56; 0x82; 0xF3; 0x1E; 0xC6; 0x68; 0xE5];
   [0x02; 0xA1; 0xFC; 0xC1; 0x47; 0xAE; 0x3D; 0x19];
   [0xA4; 0x55; 0x87; 0x5A; 0x58; 0xDB; 0x9E; 0x03]].

(** 4.3.2 the function h; a word is its four bytes, least significant first,
    and [L] is the list L_0, L_1, ... of such words *)
Definition layer (p0 p1 p2 p3 : N -> N) (y l : list N) : list N :=
  xor_list [p0 (get y 0); p1 (get y 1); p2 (get y 2); p3 (get y 3)] l.
Definition h (X : list N) (L : list (list N)) : N :=
  let k := length L in
  let l i := nth i L [] in
  let y := X in
  let y := if Nat.eqb k 4 then layer perm1 perm0 perm0 perm1 y (l 3%nat) else y in
  let y := if Nat.leb 3 k then layer perm1 perm1 perm0 perm0 y (l 2%nat) else y in
  let y := layer perm0 perm1 perm0 perm1 y (l 1%nat) in
  let y := layer perm0 perm0 perm1 perm1 y (l 0%nat) in
  let y := [perm1 (get y 0); perm0 (get y 1); perm1 (get y 2); perm0 (get y 3)] in
  le_val (mat_vec 0x169 MDS y).

(** 4.3 the key schedule for a key of 8k bytes *)
Definition key_words (key : list N) : list (list N) := chunks 4 key.
Definition nth_words (par : nat) (k : nat) (ws : list (list N)) : list (list N) :=
  map (fun i => nth (2 * i + par) ws []) (seq 0 k).
Definition S_vector (key : list N) (k : nat) : list (list N) :=
  rev (map (fun i => mat_vec 0x14D RS (slice key (8 * i) 8)) (seq 0 k)).

(** 4.3.3 the expanded key words K_2i, K_2i+1 *)
Definition expanded_pair (key : list N) (k i : nat) : list N :=
  let Me := nth_words 0 k (key_words key) in
  let Mo := nth_words 1 k (key_words key) in
  let A := h (repeat (N.of_nat (2 * i)) 4) Me in
  let B := rotl 32 (h (repeat (N.of_nat (2 * i + 1)) 4) Mo) 8 in
  [(A + B) mod 2 ^ 32; rotl 32 ((A + 2 * B) mod 2 ^ 32) 9].
Definition expanded_key (key : list N) (k : nat) : list N :=
  flat_map (expanded_pair key k) (seq 0 20).

(** 4.1-4.2 *)
Definition g (S : list (list N)) (X : N) : N := h (le_bytes 4 X) S.
Definition F (S : list (list N)) (K : list N) (r : nat) (R0 R1 : N) : N * N :=
  let T0 := g S R0 in
  let T1 := g S (rotl 32 R1 8) in
  ((T0 + T1 + get K (2 * r + 8)) mod 2 ^ 32,
   (T0 + 2 * T1 + get K (2 * r + 9)) mod 2 ^ 32).
Definition state := (N * N * N * N)%type.
Definition round (S : list (list N)) (K : list N) (s : state) (r : nat) : state :=
  let '(R0, R1, R2, R3) := s in
  let '(F0, F1) := F S K r R0 R1 in
  (rotr 32 (N.lxor R2 F0) 1, N.lxor (rotl 32 R3 1) F1, R0, R1).

Definition twofish_encrypt (key p : list N) : list N :=
  let k := (length key / 8)%nat in
  let K := expanded_key key k in
  let S := S_vector key k in
  let P i := le_val (slice p (4 * i) 4) in
  let '(R0, R1, R2, R3) :=
    fold_left (round S K) (seq 0 16)
      (N.lxor (P 0%nat) (get K 0), N.lxor (P 1%nat) (get K 1),
       N.lxor (P 2%nat) (get K 2), N.lxor (P 3%nat) (get K 3)) in
  le_bytes 4 (N.lxor R2 (get K 4)) ++ le_bytes 4 (N.lxor R3 (get K 5)) ++
  le_bytes 4 (N.lxor R0 (get K 6)) ++ le_bytes 4 (N.lxor R1 (get K 7)).
