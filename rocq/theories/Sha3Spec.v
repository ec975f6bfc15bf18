(** Keccak-p[1600,24], the sponge construction and the SHA-3 functions as
    bit-string functions, transcribed from FIPS 202 (sections 3, 4, 5.1, 6.1
    and B.1), independently of the code. *)
From Coq Require Import NArith Arith List Bool.
From Verif Require Export BitsSpec.
Import ListNotations.

(** 3.1.2: A[x,y,z] = S[w(5y+x)+z] with w = 64 *)
Definition A (S : list bool) (x y z : nat) : bool := nth (64 * (5 * y + x) + z) S false.
(** 3.1.3 *)
Definition build (f : nat -> nat -> nat -> bool) : list bool :=
  flat_map (fun y => flat_map (fun x => map (fun z => f x y z) (seq 0 64)) (seq 0 5)) (seq 0 5).

(** 3.2.1, Algorithm 1 *)
Definition thetaC (S : list bool) (x z : nat) : bool :=
  xorb (xorb (xorb (xorb (A S x 0 z) (A S x 1 z)) (A S x 2 z)) (A S x 3 z)) (A S x 4 z).
Definition thetaD (S : list bool) (x z : nat) : bool :=
  xorb (thetaC S ((x + 4) mod 5) z) (thetaC S ((x + 1) mod 5) ((z + 63) mod 64)).
Definition theta (S : list bool) : list bool :=
  build (fun x y z => xorb (A S x y z) (thetaD S x z)).

(** 3.2.2, Algorithm 2: the lane visited at step t, and the offset of a lane *)
Fixpoint position (t : nat) : nat * nat :=
  match t with
  | O => (1, 0)
  | Datatypes.S t' => let '(x, y) := position t' in (y, (2 * x + 3 * y) mod 5)
  end.
Definition rho_offset (x y : nat) : nat :=
  match find (fun t => (fst (position t) =? x) && (snd (position t) =? y)) (seq 0 24) with
  | Some t => (t + 1) * (t + 2) / 2
  | None => 0
  end.
Definition rho (S : list bool) : list bool :=
  build (fun x y z => A S x y ((z + (64 - rho_offset x y mod 64)) mod 64)).

(** 3.2.3, Algorithm 3 *)
Definition pi (S : list bool) : list bool := build (fun x y z => A S ((x + 3 * y) mod 5) x z).

(** 3.2.4, Algorithm 4 *)
Definition chi (S : list bool) : list bool :=
  build (fun x y z => xorb (A S x y z) (xorb (A S ((x + 1) mod 5) y z) true && A S ((x + 2) mod 5) y z)).

(** 3.2.5, Algorithm 5 *)
Definition flip (R : list bool) (i : nat) : list bool :=
  firstn i R ++ xorb (nth i R false) (nth 8 R false) :: skipn (i + 1) R.
Definition lfsr (R : list bool) : list bool :=
  let R := false :: R in firstn 8 (flip (flip (flip (flip R 0) 4) 5) 6).
Definition rc (t : nat) : bool :=
  nth 0 (Nat.iter (t mod 255) lfsr [true; false; false; false; false; false; false; false]) false.
(** 3.2.5, Algorithm 6: bit z of the round constant *)
Definition RC (ir z : nat) : bool :=
  existsb (fun j => (2 ^ j - 1 =? z) && rc (j + 7 * ir)) (seq 0 7).
Definition iota (S : list bool) (ir : nat) : list bool :=
  build (fun x y z => if (x =? 0) && (y =? 0) then xorb (A S x y z) (RC ir z) else A S x y z).

(** 3.3, Algorithm 7 *)
Definition Rnd (S : list bool) (ir : nat) : list bool := iota (chi (pi (rho (theta S)))) ir.
Definition keccak_f (S : list bool) : list bool := fold_left Rnd (seq 0 24) S.

(** 5.1, Algorithm 9: pad10*1 *)
Definition pad101 (r m : nat) : list bool :=
  true :: repeat false ((2 * r - (m + 2) mod r) mod r) ++ [true].

Fixpoint xor_bits (a b : list bool) : list bool :=
  match a, b with x :: a', y :: b' => xorb x y :: xor_bits a' b' | _, _ => [] end.

(** consecutive strings of [r] bits *)
Fixpoint split (fuel r : nat) (P : list bool) : list (list bool) :=
  match fuel, P with
  | O, _ | _, [] => []
  | Datatypes.S k, _ => firstn r P :: split k r (skipn r P)
  end.

(** 4, Algorithm 8 *)
Definition absorb (r : nat) (P : list bool) : list bool :=
  fold_left (fun S Pi => keccak_f (xor_bits S (Pi ++ repeat false (1600 - r))))
    (split (length P) r P) (repeat false 1600).
Fixpoint squeeze (fuel r d : nat) (S Z : list bool) : list bool :=
  let Z := Z ++ firstn r S in
  if d <=? length Z then firstn d Z
  else match fuel with O => [] | Datatypes.S k => squeeze k r d (keccak_f S) Z end.
Definition sponge (r : nat) (N : list bool) (d : nat) : list bool :=
  squeeze d r d (absorb r (N ++ pad101 r (length N))) [].

(** 5.2: KECCAK[c](N,d) *)
Definition KECCAK (c : nat) (N : list bool) (d : nat) : list bool := sponge (1600 - c) N d.

(** 6.1: SHA3-d(M) = KECCAK[2d](M || 01, d) *)
Definition SHA3 (d : nat) (M : list bool) : list bool := KECCAK (2 * d) (M ++ [false; true]) d.
