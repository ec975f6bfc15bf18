(** CRC-64 (ISO 3309 generator) as polynomial division over GF(2), written
    without reference to the code.  A polynomial is an [N]: bit [i] is the
    coefficient of [x^i]. *)
From Coq Require Import NArith List.
From Verif Require Export BitsSpec.
Import ListNotations.
Local Open Scope N_scope.

(** product of polynomials *)
Fixpoint pmul_pos (p : positive) (b : N) : N :=
  match p with
  | xH => b
  | xO q => 2 * pmul_pos q b
  | xI q => N.lxor b (2 * pmul_pos q b)
  end.
Definition pmul (a b : N) : N := match a with N0 => 0 | Npos p => pmul_pos p b end.

(** the generator x^64 + x^4 + x^3 + x + 1 *)
Definition G64 : N := 2 ^ 64 + 2 ^ 4 + 2 ^ 3 + 2 ^ 1 + 1.

(** the polynomial with the given coefficients, highest degree first *)
Definition poly (l : list bool) : N := fold_left (fun a b => 2 * a + N.b2n b) l 0.

(** [r] is the remainder of [m] by [g] *)
Definition is_remainder (m g r : N) : Prop :=
  r < 2 ^ N.log2 g /\ exists q, m = N.lxor (pmul q g) r.

(** [c] is the CRC of the message: its 64 bits are the coefficients of the
    remainder of M(x) x^64 *)
Definition is_crc64 (m : list N) (c : N) : Prop :=
  c < 2 ^ 64 /\ is_remainder (poly (message_bits m) * 2 ^ 64) G64 (poly (low_bits 64 c)).
