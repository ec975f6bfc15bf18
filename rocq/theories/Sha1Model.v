(** sha1.c: the Transform function and the constants.  Update and Finalize
    are in MdModel.v. *)
From Coq Require Import NArith Arith List.
From Verif Require Import Base MdModel Sha2Model.
Import ListNotations.
Local Open Scope N_scope.

(** sha1.c 420-429 *)
Definition RotateLeft (x n : N) : N :=
  Trunc 32 (N.lor (wshl 32 x n) (N.shiftr x (32 - n))).

(** sha1.c 494-498 *)
Definition sha1_extend (W : list N) : list N :=
  fold_left (fun W i =>
    let x := N.lxor (N.lxor (N.lxor (get W (i - 3)) (get W (i - 8))) (get W (i - 14)))
               (get W (i - 16)) in
    W ++ [RotateLeft x 1]) (seq 16 64) W.

(** the four loops sha1.c 499-542: the loop body with its function of B, C, D
    and its constant *)
Definition sha1_round (f : N -> N -> N -> N) (K : N) (W : list N)
    (s : N * N * N * N * N) (i : nat) : N * N * N * N * N :=
  let '(A, B, C, D, E) := s in
  let T := Trunc 32 (wadd 32 (wadd 32 (wadd 32 (wadd 32 (RotateLeft A 5) (f B C D)) E)
                              (get W i)) K) in
  (T, A, RotateLeft B 30, C, D).

Definition sha1_f0 (B C D : N) : N := N.lor (N.land B C) (N.land (wnot 32 B) D).
Definition sha1_f1 (B C D : N) : N := N.lxor (N.lxor B C) D.
Definition sha1_f2 (B C D : N) : N := N.lor (N.lor (N.land B C) (N.land B D)) (N.land C D).

(** sha1.c 431-565 *)
Definition TransformSHA1 (lsb : bool) (acc message : list N) : list N :=
  let W := sha1_extend (load_words lsb 4 swap32 message) in
  let s := (get acc 0, get acc 1, get acc 2, get acc 3, get acc 4) in
  let s := fold_left (sha1_round sha1_f0 0x5a827999 W) (seq 0 20) s in
  let s := fold_left (sha1_round sha1_f1 0x6ed9eba1 W) (seq 20 20) s in
  let s := fold_left (sha1_round sha1_f2 0x8F1bbcdc W) (seq 40 20) s in
  let s := fold_left (sha1_round sha1_f1 0xca62c1d6 W) (seq 60 20) s in
  let '(A, B, C, D, E) := s in
  [Trunc 32 (wadd 32 (get acc 0) A); Trunc 32 (wadd 32 (get acc 1) B);
   Trunc 32 (wadd 32 (get acc 2) C); Trunc 32 (wadd 32 (get acc 3) D);
   Trunc 32 (wadd 32 (get acc 4) E)].

(** [sha_info->high_order+=(unsigned int) n >> 29], sha1.c 615 *)
Definition sha1 (lsb : bool) : MdParams :=
  mkMdParams 64 8 32 32 carry32 (TransformSHA1 lsb).

(** sha1.c 387-391 *)
Definition IV1 : list N := [0x67452301; 0xefcdab89; 0x98badcfe; 0x10325476; 0xc3d2e1f0].

(** sha1.c 199-268 *)
Definition FinalizeSHA1 (lsb : bool) (st : MdInfo) : list N :=
  digest_of 5 4 (FinalizeMd (sha1 lsb) st).
