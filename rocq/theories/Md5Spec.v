(** RFC 1321 on whole messages. *)
From Coq Require Import NArith Arith List.
From Verif Require Import Base MdSpec Sha1Spec.
Import ListNotations.
Local Open Scope N_scope.

(** 3.4: the auxiliary functions *)
Definition md5F (x y z : N) : N := N.lxor (N.land x y) (N.ldiff z x).
Definition md5G (x y z : N) : N := N.lxor (N.land x z) (N.ldiff y z).
Definition md5H (x y z : N) : N := N.lxor x (N.lxor y z).
(** [y xor (x or not z)] on 32-bit words *)
Definition md5I (x y z : N) : N := N.lxor y (N.lor x (2 ^ 32 - 1 - z)).

(** T[i], the integer part of 4294967296 times abs(sin(i+1)) *)
Definition md5T : list N :=
  [
   0xd76aa478; 0xe8c7b756; 0x242070db; 0xc1bdceee; 0xf57c0faf; 0x4787c62a;
   0xa8304613; 0xfd469501; 0x698098d8; 0x8b44f7af; 0xffff5bb1; 0x895cd7be;
   0x6b901122; 0xfd987193; 0xa679438e; 0x49b40821; 0xf61e2562; 0xc040b340;
   0x265e5a51; 0xe9b6c7aa; 0xd62f105d; 0x02441453; 0xd8a1e681; 0xe7d3fbc8;
   0x21e1cde6; 0xc33707d6; 0xf4d50d87; 0x455a14ed; 0xa9e3e905; 0xfcefa3f8;
   0x676f02d9; 0x8d2a4c8a; 0xfffa3942; 0x8771f681; 0x6d9d6122; 0xfde5380c;
   0xa4beea44; 0x4bdecfa9; 0xf6bb4b60; 0xbebfbc70; 0x289b7ec6; 0xeaa127fa;
   0xd4ef3085; 0x04881d05; 0xd9d4d039; 0xe6db99e5; 0x1fa27cf8; 0xc4ac5665;
   0xf4292244; 0x432aff97; 0xab9423a7; 0xfc93a039; 0x655b59c3; 0x8f0ccc92;
   0xffeff47d; 0x85845dd1; 0x6fa87e4f; 0xfe2ce6e0; 0xa3014314; 0x4e0811a1;
   0xf7537e82; 0xbd3af235; 0x2ad7d2bb; 0xeb86d391
  ].

Definition md5_fun (i : nat) : N -> N -> N -> N :=
  nth (i / 16) [md5F; md5G; md5H; md5I] md5I.
(** index of the message word used in operation [i] *)
Definition md5_k (i : nat) : nat :=
  (nth (i / 16) [i; 1 + 5 * i; 5 + 3 * i; 7 * i] 0 mod 16)%nat.
Definition md5_s (i : nat) : N :=
  nth (i mod 4) (nth (i / 16) [[7; 12; 17; 22]; [5; 9; 14; 20]; [4; 11; 16; 23]; [6; 10; 15; 21]] []) 0.

(** operation [i]: [abcd k s i] means a = b + ((a + F(b,c,d) + X[k] + T[i]) <<< s);
    the next operation acts on [dabc] *)
Definition md5_op (X : list N) (r : list N) (i : nat) : list N :=
  match r with
  | [a; b; c; d] =>
      [d; ADD32 [b; ROTL (md5_s i) (ADD32 [a; md5_fun i b c d; nth (md5_k i) X 0; nth i md5T 0])]; b; c]
  | _ => r
  end.

Definition compress5 (H block : list N) : list N :=
  map2 (fun x y => ADD32 [x; y]) H
    (fold_left (md5_op (map le_val (chunks 4 block))) (seq 0 64) H).

Definition IVrfc : list N := [0x67452301; 0xefcdab89; 0x98badcfe; 0x10325476].

(** 3.1, 3.2: pad to 56 modulo 64, append the length in bits modulo 2^64,
    low-order byte first *)
Definition MD5 (m : list N) : list N :=
  flat_map (le_bytes 4) (md_hash compress5 IVrfc (le_bytes 8) 64 8 m).
