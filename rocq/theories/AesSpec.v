(** FIPS-197 (Advanced Encryption Standard), written from the standard and
    independently of wizard/aes.c: no tables, no packed words.  A state is the
    list of its 16 bytes in input order (column by column, FIPS-197 3.4). *)
From Coq Require Import Arith NArith List Bool.
From Verif Require Import Base.
Import ListNotations.
Local Open Scope N_scope.

(** 4.2.1: multiplication by x modulo x^8+x^4+x^3+x+1 *)
Definition xtime (b : N) : N :=
  N.lxor ((2 * b) mod 256) (if N.testbit b 7 then 0x1b else 0).

(** 4.2: multiplication in GF(2^8) as a sum of repeated xtime *)
Fixpoint gmul_bits (n : nat) (i : N) (a b : N) : N :=
  match n with
  | O => 0
  | S m => N.lxor (if N.testbit a i then b else 0) (gmul_bits m (i + 1) a (xtime b))
  end.
Definition gmul (a b : N) : N := gmul_bits 8 0 a b.

(** multiplicative inverse, b^254 (0 for 0) *)
Definition ginv (b : N) : N :=
  let sq x := gmul x x in
  let b2 := sq b in let b4 := sq b2 in let b8 := sq b4 in let b16 := sq b8 in
  let b32 := sq b16 in let b64 := sq b32 in let b128 := sq b64 in
  gmul b128 (gmul b64 (gmul b32 (gmul b16 (gmul b8 (gmul b4 b2))))).

(** 5.1.1: affine transformation over GF(2), bit i *)
Definition affine_bit (b i : N) : bool :=
  xorb (N.testbit b i) (xorb (N.testbit b ((i + 4) mod 8))
    (xorb (N.testbit b ((i + 5) mod 8)) (xorb (N.testbit b ((i + 6) mod 8))
      (xorb (N.testbit b ((i + 7) mod 8)) (N.testbit 0x63 i))))).
Definition affine (b : N) : N :=
  fold_right (fun i acc => acc + (if affine_bit b i then 2 ^ i else 0)) 0
    [0; 1; 2; 3; 4; 5; 6; 7].
Definition sbox (b : N) : N := affine (ginv b).

Definition SubBytes (s : list N) : list N := map sbox s.

(** 5.1.2: row r of column c comes from column c+r (mod 4) *)
Definition ShiftRows (s : list N) : list N :=
  map (fun k => get s (4 * ((k / 4 + k mod 4) mod 4) + k mod 4)%nat) (seq 0 16).

(** 5.1.3 *)
Definition MixColumn (c : list N) : list N :=
  match c with
  | [a; b; c; d] =>
    [ N.lxor (gmul 2 a) (N.lxor (gmul 3 b) (N.lxor c d));
      N.lxor a (N.lxor (gmul 2 b) (N.lxor (gmul 3 c) d));
      N.lxor a (N.lxor b (N.lxor (gmul 2 c) (gmul 3 d)));
      N.lxor (gmul 3 a) (N.lxor b (N.lxor c (gmul 2 d))) ]
  | _ => c
  end.
Definition MixColumns (s : list N) : list N := concat (map MixColumn (chunks 4 s)).

(** 5.1.4 *)
Definition AddKey (s k : list N) : list N := xor_list s k.

(** 5.2 key expansion; a word is a list of four bytes *)
Definition SubWord (w : list N) : list N := map sbox w.
Definition RotWord (w : list N) : list N :=
  match w with [a; b; c; d] => [b; c; d; a] | _ => w end.
Definition Rcon (i : nat) : list N := [iter (i - 1) xtime 1; 0; 0; 0].

(** w[i] from the preceding words, Nk = number of key words *)
Definition next_word (Nk i : nat) (w : list (list N)) : list N :=
  let temp := nth (i - 1) w [] in
  let temp :=
    if Nat.eqb (i mod Nk)%nat 0 then xor_list (SubWord (RotWord temp)) (Rcon (i / Nk)%nat)
    else if Nat.ltb 6 Nk && Nat.eqb (i mod Nk)%nat 4 then SubWord temp
    else temp in
  xor_list (nth (i - Nk) w []) temp.

Definition KeyExpansion (Nk Nr : nat) (key : list N) : list (list N) :=
  fold_left (fun w i => w ++ [next_word Nk i w]) (seq Nk (4 * (Nr + 1) - Nk)%nat)
    (chunks 4 key).

Definition round_key_bytes (w : list (list N)) (i : nat) : list N :=
  concat (slice w (4 * i) 4).

(** 5.1 Cipher *)
Definition Cipher (Nr : nat) (w : list (list N)) (input : list N) : list N :=
  let s := AddKey input (round_key_bytes w 0) in
  let s := fold_left (fun s i =>
      AddKey (MixColumns (ShiftRows (SubBytes s))) (round_key_bytes w i))
    (seq 1 (Nr - 1)) s in
  AddKey (ShiftRows (SubBytes s)) (round_key_bytes w Nr).

(** Figure 4: Nk = key length in words, Nr = Nk + 6 *)
Definition AES (key input : list N) : list N :=
  let Nk := Nat.div (length key) 4 in
  Cipher (Nk + 6)%nat (KeyExpansion Nk (Nk + 6)%nat key) input.
