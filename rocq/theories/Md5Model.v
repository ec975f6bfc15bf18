(** md5.c *)
From Coq Require Import NArith Arith List.
From Verif Require Import Base MdModel Mem32 Sha1Model.
Import ListNotations.
Local Open Scope N_scope.

(** md5.c 59-84: the fields the digest depends on *)
Record MD5Info := mkMD5Info {
  md5_accumulator : list N;
  md5_message : list N;
  md5_low_order : N;
  md5_high_order : N
}.

(** md5.c 371-386 *)
Definition IV5 : list N := [0x67452301; 0xefcdab89; 0x98badcfe; 0x10325476].
Definition InitializeMD5 (st : MD5Info) : MD5Info := mkMD5Info IV5 (md5_message st) 0 0.

(** md5.c 412-434 *)
Definition F5 (x y z : N) : N := N.lor (N.land x y) (N.land (wnot 32 x) z).
Definition G5 (x y z : N) : N := N.lor (N.land x z) (N.land y (wnot 32 z)).
Definition H5 (x y z : N) : N := N.lxor (N.lxor x y) z.
Definition I5 (x y z : N) : N := N.lxor y (N.lor x (wnot 32 z)).

(** md5.c 457-473 *)
Definition K5 : list N :=
  [
   0xd76aa478; 0xe8c7b756; 0x242070db; 0xc1bdceee; 0xf57c0faf; 0x4787c62a;
   0xa8304613; 0xfd469501; 0x698098d8; 0x8b44f7af; 0xffff5bb1; 0x895cd7be;
   0x6b901122; 0xfd987193; 0xa679438e; 0x49b40821; 0xf61e2562; 0xc040b340;
   0x265e5a51; 0xe9b6c7aa; 0xd62f105d; 0x02441453; 0xd8a1e681; 0xe7d3fbc8;
   0x21e1cde6; 0xc33707d6; 0xf4d50d87; 0x455a14ed; 0xa9e3e905; 0xfcefa3f8;
   0x676f02d9; 0x8d2a4c8a; 0xfffa3942; 0x8771f681; 0x6d9d6122; 0xfde5380c;
   0xa4beea44; 0x4bdecfa9; 0xf6bb4b60; 0xbebfbc70; 0x289b7ec6; 0xeaa127fa;
   0xd4ef3085; 0x04881d05; 0xd9d4d039; 0xe6db99e5; 0x1fa27cf8; 0xc4ac5665;
   0xf4292244; 0x432aff97; 0xab9423a7; 0xfc93a039; 0x655b59c3; 0x8f0ccc92;
   0xffeff47d; 0x85845dd1; 0x6fa87e4f; 0xfe2ce6e0; 0xa3014314; 0x4e0811a1;
   0xf7537e82; 0xbd3af235; 0x2ad7d2bb; 0xeb86d391
  ].

(** [A+=F(B,C,D)+message[j & 0x0f]+( *p++); A=RotateLeft(A,7)+B; j++;] for
    the function [f], shift [s] and [p] at index [p] *)
Definition md5_line (f : N -> N -> N -> N) (s : N) (message : list N)
    (A B C D j : N) (p : nat) : N :=
  let A := wadd 32 A (wadd 32 (wadd 32 (f B C D) (tab message (N.land j 0x0f))) (get K5 p)) in
  wadd 32 (RotateLeft A s) B.

(** the body of one of the four loops, md5.c 493-507, 512-526, 531-545,
    550-564: the four lines with their shifts; [inc] is what [j] grows by *)
Definition md5_body (f : N -> N -> N -> N) (s1 s2 s3 s4 inc : N) (message : list N)
    (st : N * N * N * N * N * nat) (i : nat) : N * N * N * N * N * nat :=
  let '(A, B, C, D, j, p) := st in
  let A := md5_line f s1 message A B C D j p in
  let j := wadd 32 j inc in
  let D := md5_line f s2 message D A B C j (p + 1) in
  let j := wadd 32 j inc in
  let C := md5_line f s3 message C D A B j (p + 2) in
  let j := wadd 32 j inc in
  let B := md5_line f s4 message B C D A j (p + 3) in
  let j := wadd 32 j inc in
  (A, B, C, D, j, (p + 4)%nat).

(** md5.c 446-579 *)
Definition TransformMD5 (acc message : list N) : list N :=
  let '(A, B, C, D, j, p) :=
    fold_left (md5_body F5 7 12 17 22 1 message) (seq 0 4)
      (get acc 0, get acc 1, get acc 2, get acc 3, 0, 0%nat) in
  let '(A, B, C, D, j, p) :=
    fold_left (md5_body G5 5 9 14 20 5 message) (seq 0 4) (A, B, C, D, 1, p) in
  let '(A, B, C, D, j, p) :=
    fold_left (md5_body H5 4 11 16 23 3 message) (seq 0 4) (A, B, C, D, 5, p) in
  let '(A, B, C, D, j, p) :=
    fold_left (md5_body I5 6 10 15 21 7 message) (seq 0 4) (A, B, C, D, 0, p) in
  [wrap 32 (wadd 32 (get acc 0) A); wrap 32 (wadd 32 (get acc 1) B);
   wrap 32 (wadd 32 (get acc 2) C); wrap 32 (wadd 32 (get acc 3) D)].

(** [buffer[j]=( *p++); buffer[j]|=( *p++) << 8; ...] for [k] words, md5.c
    642-648 and 231-237 *)
Definition md5_words (k : nat) (p : list N) : list N :=
  map (fun j => load32le (slice p (4 * j) 4)) (seq 0 k).

(** the loop of UpdateMD5, md5.c 635-651 *)
Definition md5_byte (s : list N * list N * nat) (b : N) : list N * list N * nat :=
  let '(acc, msg, number_bytes) := s in
  let msg := upd msg number_bytes b in
  let number_bytes := (number_bytes + 1)%nat in
  if (number_bytes =? 64)%nat then (TransformMD5 acc (md5_words 16 msg), msg, 0%nat)
  else (acc, msg, number_bytes).
Definition md5_loop (acc msg : list N) (number_bytes : nat) (datum : list N)
  : list N * list N * nat :=
  fold_left md5_byte datum (acc, msg, number_bytes).

(** md5.c 604-658 *)
Definition UpdateMD5 (st : MD5Info) (datum : list N) : MD5Info :=
  let n := N.of_nat (length datum) in
  let low := md5_low_order st in
  let number_bytes := N.to_nat (N.land (N.shiftr low 3) 0x3f) in
  let number_bits := wrap 32 (wadd 64 low (wshl 64 n 3)) in
  let high := if number_bits <? low then wadd 32 (md5_high_order st) 1
              else md5_high_order st in
  let low := wadd 32 low (wrap 32 (wshl 64 n 3)) in
  let high := wadd 32 high (wrap 32 (N.shiftr n 29)) in
  let '(acc, msg, _) := md5_loop (md5_accumulator st) (md5_message st) number_bytes datum in
  mkMD5Info acc msg low high.

(** md5.c 185-257: the struct afterwards; the digest is [md5_digest] of it *)
Definition FinalizeMD5 (st : MD5Info) : MD5Info :=
  let low := md5_low_order st in
  let high := md5_high_order st in
  let number_bytes := N.to_nat (N.land (N.shiftr low 3) 0x3f) in
  let padlen := if (number_bytes <? 56)%nat then (56 - number_bytes)%nat
                else (120 - number_bytes)%nat in
  let pad := 0x80 :: repeat 0 (padlen - 1) in
  let st := UpdateMD5 st pad in
  let message := md5_words 14 (md5_message st) ++ [low; high] in
  mkMD5Info (TransformMD5 (md5_accumulator st) message) (md5_message st)
    (md5_low_order st) (md5_high_order st).

(** md5.c 242-249 *)
Definition md5_digest (st : MD5Info) : list N :=
  flat_map store32le (firstn 4 (md5_accumulator st)).
