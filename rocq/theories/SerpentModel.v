(** Model of wizard/serpent.c.

    The macro bodies and the sequences of macro calls are transcribed statement
    by statement; a C assignment is a [let] that shadows the variable. *)
From Coq Require Import Arith NArith List.
From Verif Require Import Base Mem32.
Import ListNotations.
Local Open Scope N_scope.

(** serpent.c:73 *)
Definition SerpentBlocksize : nat := 32.

(** The S-box macros only use the four bitwise operators, so they are written
    over any type with such operators. *)
Record ops (T : Type) := mkOps { xor_ : T -> T -> T; and_ : T -> T -> T; or_ : T -> T -> T; not_ : T -> T }.
Arguments xor_ {T}. Arguments and_ {T}. Arguments or_ {T}. Arguments not_ {T}.
(** the operators on unsigned int *)
Definition word_ops : ops N := mkOps N N.lxor N.land N.lor (wnot 32).

(** serpent.c:157-163 *)
Definition DecipherSbox0 {T} (o : ops T) (alpha beta gamma delta epsilon : T) : T * T * T * T * T :=
  let beta := xor_ o beta alpha in let epsilon := delta in
  let delta := or_ o delta beta in let epsilon := xor_ o epsilon beta in
  let alpha := not_ o alpha in let gamma := xor_ o gamma delta in
  let delta := xor_ o delta alpha in let alpha := and_ o alpha beta in
  let alpha := xor_ o alpha gamma in let gamma := and_ o gamma delta in
  let delta := xor_ o delta epsilon in let gamma := xor_ o gamma delta in
  let beta := xor_ o beta delta in let delta := and_ o delta alpha in
  let beta := xor_ o beta alpha in let alpha := xor_ o alpha gamma in
  let epsilon := xor_ o epsilon delta in
  (alpha, beta, gamma, delta, epsilon).

(** serpent.c:164-170 *)
Definition DecipherSbox1 {T} (o : ops T) (alpha beta gamma delta epsilon : T) : T * T * T * T * T :=
  let beta := xor_ o beta delta in let epsilon := alpha in
  let alpha := xor_ o alpha gamma in let gamma := not_ o gamma in
  let epsilon := or_ o epsilon beta in let epsilon := xor_ o epsilon delta in
  let delta := and_ o delta beta in let beta := xor_ o beta gamma in
  let gamma := and_ o gamma epsilon in let epsilon := xor_ o epsilon beta in
  let beta := or_ o beta delta in let delta := xor_ o delta alpha in
  let gamma := xor_ o gamma alpha in let alpha := or_ o alpha epsilon in
  let gamma := xor_ o gamma epsilon in let beta := xor_ o beta alpha in
  let epsilon := xor_ o epsilon beta in
  (alpha, beta, gamma, delta, epsilon).

(** serpent.c:171-177 *)
Definition DecipherSbox2 {T} (o : ops T) (alpha beta gamma delta epsilon : T) : T * T * T * T * T :=
  let gamma := xor_ o gamma beta in let epsilon := delta in
  let delta := not_ o delta in let delta := or_ o delta gamma in
  let gamma := xor_ o gamma epsilon in let epsilon := xor_ o epsilon alpha in
  let delta := xor_ o delta beta in let beta := or_ o beta gamma in
  let gamma := xor_ o gamma alpha in let beta := xor_ o beta epsilon in
  let epsilon := or_ o epsilon delta in let gamma := xor_ o gamma delta in
  let epsilon := xor_ o epsilon gamma in let gamma := and_ o gamma beta in
  let gamma := xor_ o gamma delta in let delta := xor_ o delta epsilon in
  let epsilon := xor_ o epsilon alpha in
  (alpha, beta, gamma, delta, epsilon).

(** serpent.c:178-184 *)
Definition DecipherSbox3 {T} (o : ops T) (alpha beta gamma delta epsilon : T) : T * T * T * T * T :=
  let gamma := xor_ o gamma beta in let epsilon := beta in
  let beta := and_ o beta gamma in let beta := xor_ o beta alpha in
  let alpha := or_ o alpha epsilon in let epsilon := xor_ o epsilon delta in
  let alpha := xor_ o alpha delta in let delta := or_ o delta beta in
  let beta := xor_ o beta gamma in let beta := xor_ o beta delta in
  let alpha := xor_ o alpha gamma in let gamma := xor_ o gamma delta in
  let delta := and_ o delta beta in let beta := xor_ o beta alpha in
  let alpha := and_ o alpha gamma in let epsilon := xor_ o epsilon delta in
  let delta := xor_ o delta alpha in let alpha := xor_ o alpha beta in
  (alpha, beta, gamma, delta, epsilon).

(** serpent.c:185-192 *)
Definition DecipherSbox4 {T} (o : ops T) (alpha beta gamma delta epsilon : T) : T * T * T * T * T :=
  let gamma := xor_ o gamma delta in let epsilon := alpha in
  let alpha := and_ o alpha beta in let alpha := xor_ o alpha gamma in
  let gamma := or_ o gamma delta in let epsilon := not_ o epsilon in
  let beta := xor_ o beta alpha in let alpha := xor_ o alpha gamma in
  let gamma := and_ o gamma epsilon in let gamma := xor_ o gamma alpha in
  let alpha := or_ o alpha epsilon in let alpha := xor_ o alpha delta in
  let delta := and_ o delta gamma in let epsilon := xor_ o epsilon delta in
  let delta := xor_ o delta beta in let beta := and_ o beta alpha in
  let epsilon := xor_ o epsilon beta in let alpha := xor_ o alpha delta in
  (alpha, beta, gamma, delta, epsilon).

(** serpent.c:193-200 *)
Definition DecipherSbox5 {T} (o : ops T) (alpha beta gamma delta epsilon : T) : T * T * T * T * T :=
  let epsilon := beta in let beta := or_ o beta gamma in
  let gamma := xor_ o gamma epsilon in let beta := xor_ o beta delta in
  let delta := and_ o delta epsilon in let gamma := xor_ o gamma delta in
  let delta := or_ o delta alpha in let alpha := not_ o alpha in
  let delta := xor_ o delta gamma in let gamma := or_ o gamma alpha in
  let epsilon := xor_ o epsilon beta in let gamma := xor_ o gamma epsilon in
  let epsilon := and_ o epsilon alpha in let alpha := xor_ o alpha beta in
  let beta := xor_ o beta delta in let alpha := and_ o alpha gamma in
  let gamma := xor_ o gamma delta in let alpha := xor_ o alpha gamma in
  let gamma := xor_ o gamma epsilon in let epsilon := xor_ o epsilon delta in
  (alpha, beta, gamma, delta, epsilon).

(** serpent.c:201-207 *)
Definition DecipherSbox6 {T} (o : ops T) (alpha beta gamma delta epsilon : T) : T * T * T * T * T :=
  let alpha := xor_ o alpha gamma in let epsilon := alpha in
  let alpha := and_ o alpha delta in let gamma := xor_ o gamma delta in
  let alpha := xor_ o alpha gamma in let delta := xor_ o delta beta in
  let gamma := or_ o gamma epsilon in let gamma := xor_ o gamma delta in
  let delta := and_ o delta alpha in let alpha := not_ o alpha in
  let delta := xor_ o delta beta in let beta := and_ o beta gamma in
  let epsilon := xor_ o epsilon alpha in let delta := xor_ o delta epsilon in
  let epsilon := xor_ o epsilon gamma in let alpha := xor_ o alpha beta in
  let gamma := xor_ o gamma alpha in
  (alpha, beta, gamma, delta, epsilon).

(** serpent.c:208-215 *)
Definition DecipherSbox7 {T} (o : ops T) (alpha beta gamma delta epsilon : T) : T * T * T * T * T :=
  let epsilon := delta in let delta := and_ o delta alpha in
  let alpha := xor_ o alpha gamma in let gamma := or_ o gamma epsilon in
  let epsilon := xor_ o epsilon beta in let alpha := not_ o alpha in
  let beta := or_ o beta delta in let epsilon := xor_ o epsilon alpha in
  let alpha := and_ o alpha gamma in let alpha := xor_ o alpha beta in
  let beta := and_ o beta gamma in let delta := xor_ o delta gamma in
  let epsilon := xor_ o epsilon delta in let gamma := and_ o gamma delta in
  let delta := or_ o delta alpha in let beta := xor_ o beta epsilon in
  let delta := xor_ o delta epsilon in let epsilon := and_ o epsilon alpha in
  let epsilon := xor_ o epsilon gamma in
  (alpha, beta, gamma, delta, epsilon).

(** serpent.c:416-422 *)
Definition EncipherSbox0 {T} (o : ops T) (alpha beta gamma delta epsilon : T) : T * T * T * T * T :=
  let epsilon := delta in let delta := or_ o delta alpha in
  let alpha := xor_ o alpha epsilon in let epsilon := xor_ o epsilon gamma in
  let epsilon := not_ o epsilon in let delta := xor_ o delta beta in
  let beta := and_ o beta alpha in let beta := xor_ o beta epsilon in
  let gamma := xor_ o gamma alpha in let alpha := xor_ o alpha delta in
  let epsilon := or_ o epsilon alpha in let alpha := xor_ o alpha gamma in
  let gamma := and_ o gamma beta in let delta := xor_ o delta gamma in
  let beta := not_ o beta in let gamma := xor_ o gamma epsilon in
  let beta := xor_ o beta gamma in
  (alpha, beta, gamma, delta, epsilon).

(** serpent.c:423-430 *)
Definition EncipherSbox1 {T} (o : ops T) (alpha beta gamma delta epsilon : T) : T * T * T * T * T :=
  let epsilon := beta in let beta := xor_ o beta alpha in
  let alpha := xor_ o alpha delta in let delta := not_ o delta in
  let epsilon := and_ o epsilon beta in let alpha := or_ o alpha beta in
  let delta := xor_ o delta gamma in let alpha := xor_ o alpha delta in
  let beta := xor_ o beta delta in let delta := xor_ o delta epsilon in
  let beta := or_ o beta epsilon in let epsilon := xor_ o epsilon gamma in
  let gamma := and_ o gamma alpha in let gamma := xor_ o gamma beta in
  let beta := or_ o beta alpha in let alpha := not_ o alpha in
  let alpha := xor_ o alpha gamma in let epsilon := xor_ o epsilon beta in
  (alpha, beta, gamma, delta, epsilon).

(** serpent.c:431-437 *)
Definition EncipherSbox2 {T} (o : ops T) (alpha beta gamma delta epsilon : T) : T * T * T * T * T :=
  let delta := not_ o delta in let beta := xor_ o beta alpha in
  let epsilon := alpha in let alpha := and_ o alpha gamma in
  let alpha := xor_ o alpha delta in let delta := or_ o delta epsilon in
  let gamma := xor_ o gamma beta in let delta := xor_ o delta beta in
  let beta := and_ o beta alpha in let alpha := xor_ o alpha gamma in
  let gamma := and_ o gamma delta in let delta := or_ o delta beta in
  let alpha := not_ o alpha in let delta := xor_ o delta alpha in
  let epsilon := xor_ o epsilon alpha in let alpha := xor_ o alpha gamma in
  let beta := or_ o beta gamma in
  (alpha, beta, gamma, delta, epsilon).

(** serpent.c:438-445 *)
Definition EncipherSbox3 {T} (o : ops T) (alpha beta gamma delta epsilon : T) : T * T * T * T * T :=
  let epsilon := beta in let beta := xor_ o beta delta in
  let delta := or_ o delta alpha in let epsilon := and_ o epsilon alpha in
  let alpha := xor_ o alpha gamma in let gamma := xor_ o gamma beta in
  let beta := and_ o beta delta in let gamma := xor_ o gamma delta in
  let alpha := or_ o alpha epsilon in let epsilon := xor_ o epsilon delta in
  let beta := xor_ o beta alpha in let alpha := and_ o alpha delta in
  let delta := and_ o delta epsilon in let delta := xor_ o delta gamma in
  let epsilon := or_ o epsilon beta in let gamma := and_ o gamma beta in
  let epsilon := xor_ o epsilon delta in let alpha := xor_ o alpha delta in
  let delta := xor_ o delta gamma in
  (alpha, beta, gamma, delta, epsilon).

(** serpent.c:446-452 *)
Definition EncipherSbox4 {T} (o : ops T) (alpha beta gamma delta epsilon : T) : T * T * T * T * T :=
  let epsilon := delta in let delta := and_ o delta alpha in
  let alpha := xor_ o alpha epsilon in let delta := xor_ o delta gamma in
  let gamma := or_ o gamma epsilon in let alpha := xor_ o alpha beta in
  let epsilon := xor_ o epsilon delta in let gamma := or_ o gamma alpha in
  let gamma := xor_ o gamma beta in let beta := and_ o beta alpha in
  let beta := xor_ o beta epsilon in let epsilon := and_ o epsilon gamma in
  let gamma := xor_ o gamma delta in let epsilon := xor_ o epsilon alpha in
  let delta := or_ o delta beta in let beta := not_ o beta in
  let delta := xor_ o delta alpha in
  (alpha, beta, gamma, delta, epsilon).

(** serpent.c:453-459 *)
Definition EncipherSbox5 {T} (o : ops T) (alpha beta gamma delta epsilon : T) : T * T * T * T * T :=
  let epsilon := beta in let beta := or_ o beta alpha in
  let gamma := xor_ o gamma beta in let delta := not_ o delta in
  let epsilon := xor_ o epsilon alpha in let alpha := xor_ o alpha gamma in
  let beta := and_ o beta epsilon in let epsilon := or_ o epsilon delta in
  let epsilon := xor_ o epsilon alpha in let alpha := and_ o alpha delta in
  let beta := xor_ o beta delta in let delta := xor_ o delta gamma in
  let alpha := xor_ o alpha beta in let gamma := and_ o gamma epsilon in
  let beta := xor_ o beta gamma in let gamma := and_ o gamma alpha in
  let delta := xor_ o delta gamma in
  (alpha, beta, gamma, delta, epsilon).

(** serpent.c:460-466 *)
Definition EncipherSbox6 {T} (o : ops T) (alpha beta gamma delta epsilon : T) : T * T * T * T * T :=
  let epsilon := beta in let delta := xor_ o delta alpha in
  let beta := xor_ o beta gamma in let gamma := xor_ o gamma alpha in
  let alpha := and_ o alpha delta in let beta := or_ o beta delta in
  let epsilon := not_ o epsilon in let alpha := xor_ o alpha beta in
  let beta := xor_ o beta gamma in let delta := xor_ o delta epsilon in
  let epsilon := xor_ o epsilon alpha in let gamma := and_ o gamma alpha in
  let epsilon := xor_ o epsilon beta in let gamma := xor_ o gamma delta in
  let delta := and_ o delta beta in let delta := xor_ o delta alpha in
  let beta := xor_ o beta gamma in
  (alpha, beta, gamma, delta, epsilon).

(** serpent.c:467-474 *)
Definition EncipherSbox7 {T} (o : ops T) (alpha beta gamma delta epsilon : T) : T * T * T * T * T :=
  let beta := not_ o beta in let epsilon := beta in
  let alpha := not_ o alpha in let beta := and_ o beta gamma in
  let beta := xor_ o beta delta in let delta := or_ o delta epsilon in
  let epsilon := xor_ o epsilon gamma in let gamma := xor_ o gamma delta in
  let delta := xor_ o delta alpha in let alpha := or_ o alpha beta in
  let gamma := and_ o gamma alpha in let alpha := xor_ o alpha epsilon in
  let epsilon := xor_ o epsilon delta in let delta := and_ o delta alpha in
  let epsilon := xor_ o epsilon beta in let gamma := xor_ o gamma epsilon in
  let delta := xor_ o delta beta in let epsilon := or_ o epsilon alpha in
  let epsilon := xor_ o epsilon beta in
  (alpha, beta, gamma, delta, epsilon).

(** serpent.c:149-152, 398-401 *)
Definition RotateRight (x n : N) : N := rotr 32 x n.
Definition RotateLeft (x n : N) : N := rotl 32 x n.

(** serpent.c:226-230 *)
Definition MixKey (crypt_key : list N) (alpha beta gamma delta : N) (i : nat) : N * N * N * N :=
  (N.lxor alpha (get crypt_key (4 * i + 0)), N.lxor beta (get crypt_key (4 * i + 1)),
   N.lxor gamma (get crypt_key (4 * i + 2)), N.lxor delta (get crypt_key (4 * i + 3))).

(** serpent.c:406-415 *)
Definition EncipherK (crypt_key : list N) (alpha beta gamma delta epsilon : N) (i : nat) : N * N * N * N * N :=
  let alpha := RotateLeft alpha 13 in let gamma := RotateLeft gamma 3 in
  let beta := N.lxor beta alpha in let epsilon := wshl 32 alpha 3 in
  let delta := N.lxor delta gamma in let beta := N.lxor beta gamma in
  let beta := RotateLeft beta 1 in let delta := N.lxor delta epsilon in
  let delta := RotateLeft delta 7 in
  let epsilon := wshl 32 beta 7 in let alpha := N.lxor alpha beta in
  let gamma := N.lxor gamma delta in let alpha := N.lxor alpha delta in
  let gamma := N.lxor gamma epsilon in let delta := N.lxor delta (get crypt_key (4 * i + 3)) in
  let beta := N.lxor beta (get crypt_key (4 * i + 1)) in
  let alpha := RotateLeft alpha 5 in let gamma := RotateLeft gamma 22 in
  let alpha := N.lxor alpha (get crypt_key (4 * i + 0)) in
  let gamma := N.lxor gamma (get crypt_key (4 * i + 2)) in
  (alpha, beta, gamma, delta, epsilon).

(** serpent.c:216-225 *)
Definition DecipherK (crypt_key : list N) (alpha beta gamma delta epsilon : N) (i : nat) : N * N * N * N * N :=
  let '(alpha, beta, gamma, delta) := MixKey crypt_key alpha beta gamma delta i in
  let alpha := RotateRight alpha 5 in let gamma := RotateRight gamma 22 in
  let alpha := N.lxor alpha delta in let gamma := N.lxor gamma delta in
  let epsilon := wshl 32 beta 7 in let alpha := N.lxor alpha beta in
  let beta := RotateRight beta 1 in let gamma := N.lxor gamma epsilon in
  let delta := RotateRight delta 7 in
  let epsilon := wshl 32 alpha 3 in let beta := N.lxor beta alpha in
  let delta := N.lxor delta epsilon in
  let alpha := RotateRight alpha 13 in let beta := N.lxor beta gamma in
  let delta := N.lxor delta gamma in
  let gamma := RotateRight gamma 3 in
  (alpha, beta, gamma, delta, epsilon).

(** serpent.c:403-579; [epsilon] is the uninitialised local.  Only the first
    sixteen bytes of the block are read and written. *)
Definition encipher16 (crypt_key : list N) (epsilon : N) (plaintext : list N) : list N :=
  let alpha := load32le (slice plaintext 0 4) in
  let beta := load32le (slice plaintext 4 4) in
  let gamma := load32le (slice plaintext 8 4) in
  let delta := load32le (slice plaintext 12 4) in
  let '(alpha, beta, gamma, delta) := MixKey crypt_key alpha beta gamma delta 0 in
  let '(alpha, beta, gamma, delta, epsilon) := EncipherSbox0 word_ops alpha beta gamma delta epsilon in
  let '(gamma, beta, delta, alpha, epsilon) := EncipherK crypt_key gamma beta delta alpha epsilon 1 in
  let '(gamma, beta, delta, alpha, epsilon) := EncipherSbox1 word_ops gamma beta delta alpha epsilon in
  let '(epsilon, delta, alpha, gamma, beta) := EncipherK crypt_key epsilon delta alpha gamma beta 2 in
  let '(epsilon, delta, alpha, gamma, beta) := EncipherSbox2 word_ops epsilon delta alpha gamma beta in
  let '(beta, delta, epsilon, gamma, alpha) := EncipherK crypt_key beta delta epsilon gamma alpha 3 in
  let '(beta, delta, epsilon, gamma, alpha) := EncipherSbox3 word_ops beta delta epsilon gamma alpha in
  let '(gamma, alpha, delta, beta, epsilon) := EncipherK crypt_key gamma alpha delta beta epsilon 4 in
  let '(gamma, alpha, delta, beta, epsilon) := EncipherSbox4 word_ops gamma alpha delta beta epsilon in
  let '(alpha, delta, beta, epsilon, gamma) := EncipherK crypt_key alpha delta beta epsilon gamma 5 in
  let '(alpha, delta, beta, epsilon, gamma) := EncipherSbox5 word_ops alpha delta beta epsilon gamma in
  let '(gamma, alpha, delta, epsilon, beta) := EncipherK crypt_key gamma alpha delta epsilon beta 6 in
  let '(gamma, alpha, delta, epsilon, beta) := EncipherSbox6 word_ops gamma alpha delta epsilon beta in
  let '(delta, beta, alpha, epsilon, gamma) := EncipherK crypt_key delta beta alpha epsilon gamma 7 in
  let '(delta, beta, alpha, epsilon, gamma) := EncipherSbox7 word_ops delta beta alpha epsilon gamma in
  let '(gamma, alpha, epsilon, delta, beta) := EncipherK crypt_key gamma alpha epsilon delta beta 8 in
  let '(gamma, alpha, epsilon, delta, beta) := EncipherSbox0 word_ops gamma alpha epsilon delta beta in
  let '(epsilon, alpha, delta, gamma, beta) := EncipherK crypt_key epsilon alpha delta gamma beta 9 in
  let '(epsilon, alpha, delta, gamma, beta) := EncipherSbox1 word_ops epsilon alpha delta gamma beta in
  let '(beta, delta, gamma, epsilon, alpha) := EncipherK crypt_key beta delta gamma epsilon alpha 10 in
  let '(beta, delta, gamma, epsilon, alpha) := EncipherSbox2 word_ops beta delta gamma epsilon alpha in
  let '(alpha, delta, beta, epsilon, gamma) := EncipherK crypt_key alpha delta beta epsilon gamma 11 in
  let '(alpha, delta, beta, epsilon, gamma) := EncipherSbox3 word_ops alpha delta beta epsilon gamma in
  let '(epsilon, gamma, delta, alpha, beta) := EncipherK crypt_key epsilon gamma delta alpha beta 12 in
  let '(epsilon, gamma, delta, alpha, beta) := EncipherSbox4 word_ops epsilon gamma delta alpha beta in
  let '(gamma, delta, alpha, beta, epsilon) := EncipherK crypt_key gamma delta alpha beta epsilon 13 in
  let '(gamma, delta, alpha, beta, epsilon) := EncipherSbox5 word_ops gamma delta alpha beta epsilon in
  let '(epsilon, gamma, delta, beta, alpha) := EncipherK crypt_key epsilon gamma delta beta alpha 14 in
  let '(epsilon, gamma, delta, beta, alpha) := EncipherSbox6 word_ops epsilon gamma delta beta alpha in
  let '(delta, alpha, gamma, beta, epsilon) := EncipherK crypt_key delta alpha gamma beta epsilon 15 in
  let '(delta, alpha, gamma, beta, epsilon) := EncipherSbox7 word_ops delta alpha gamma beta epsilon in
  let '(epsilon, gamma, beta, delta, alpha) := EncipherK crypt_key epsilon gamma beta delta alpha 16 in
  let '(epsilon, gamma, beta, delta, alpha) := EncipherSbox0 word_ops epsilon gamma beta delta alpha in
  let '(beta, gamma, delta, epsilon, alpha) := EncipherK crypt_key beta gamma delta epsilon alpha 17 in
  let '(beta, gamma, delta, epsilon, alpha) := EncipherSbox1 word_ops beta gamma delta epsilon alpha in
  let '(alpha, delta, epsilon, beta, gamma) := EncipherK crypt_key alpha delta epsilon beta gamma 18 in
  let '(alpha, delta, epsilon, beta, gamma) := EncipherSbox2 word_ops alpha delta epsilon beta gamma in
  let '(gamma, delta, alpha, beta, epsilon) := EncipherK crypt_key gamma delta alpha beta epsilon 19 in
  let '(gamma, delta, alpha, beta, epsilon) := EncipherSbox3 word_ops gamma delta alpha beta epsilon in
  let '(beta, epsilon, delta, gamma, alpha) := EncipherK crypt_key beta epsilon delta gamma alpha 20 in
  let '(beta, epsilon, delta, gamma, alpha) := EncipherSbox4 word_ops beta epsilon delta gamma alpha in
  let '(epsilon, delta, gamma, alpha, beta) := EncipherK crypt_key epsilon delta gamma alpha beta 21 in
  let '(epsilon, delta, gamma, alpha, beta) := EncipherSbox5 word_ops epsilon delta gamma alpha beta in
  let '(beta, epsilon, delta, alpha, gamma) := EncipherK crypt_key beta epsilon delta alpha gamma 22 in
  let '(beta, epsilon, delta, alpha, gamma) := EncipherSbox6 word_ops beta epsilon delta alpha gamma in
  let '(delta, gamma, epsilon, alpha, beta) := EncipherK crypt_key delta gamma epsilon alpha beta 23 in
  let '(delta, gamma, epsilon, alpha, beta) := EncipherSbox7 word_ops delta gamma epsilon alpha beta in
  let '(beta, epsilon, alpha, delta, gamma) := EncipherK crypt_key beta epsilon alpha delta gamma 24 in
  let '(beta, epsilon, alpha, delta, gamma) := EncipherSbox0 word_ops beta epsilon alpha delta gamma in
  let '(alpha, epsilon, delta, beta, gamma) := EncipherK crypt_key alpha epsilon delta beta gamma 25 in
  let '(alpha, epsilon, delta, beta, gamma) := EncipherSbox1 word_ops alpha epsilon delta beta gamma in
  let '(gamma, delta, beta, alpha, epsilon) := EncipherK crypt_key gamma delta beta alpha epsilon 26 in
  let '(gamma, delta, beta, alpha, epsilon) := EncipherSbox2 word_ops gamma delta beta alpha epsilon in
  let '(epsilon, delta, gamma, alpha, beta) := EncipherK crypt_key epsilon delta gamma alpha beta 27 in
  let '(epsilon, delta, gamma, alpha, beta) := EncipherSbox3 word_ops epsilon delta gamma alpha beta in
  let '(alpha, beta, delta, epsilon, gamma) := EncipherK crypt_key alpha beta delta epsilon gamma 28 in
  let '(alpha, beta, delta, epsilon, gamma) := EncipherSbox4 word_ops alpha beta delta epsilon gamma in
  let '(beta, delta, epsilon, gamma, alpha) := EncipherK crypt_key beta delta epsilon gamma alpha 29 in
  let '(beta, delta, epsilon, gamma, alpha) := EncipherSbox5 word_ops beta delta epsilon gamma alpha in
  let '(alpha, beta, delta, gamma, epsilon) := EncipherK crypt_key alpha beta delta gamma epsilon 30 in
  let '(alpha, beta, delta, gamma, epsilon) := EncipherSbox6 word_ops alpha beta delta gamma epsilon in
  let '(delta, epsilon, beta, gamma, alpha) := EncipherK crypt_key delta epsilon beta gamma alpha 31 in
  let '(delta, epsilon, beta, gamma, alpha) := EncipherSbox7 word_ops delta epsilon beta gamma alpha in
  let '(alpha, beta, gamma, delta) := MixKey crypt_key alpha beta gamma delta 32 in
  store32le alpha ++ store32le beta ++ store32le gamma ++ store32le delta.

(** serpent.c:154-336 *)
Definition decipher16 (crypt_key : list N) (epsilon : N) (ciphertext : list N) : list N :=
  let alpha := load32le (slice ciphertext 0 4) in
  let beta := load32le (slice ciphertext 4 4) in
  let gamma := load32le (slice ciphertext 8 4) in
  let delta := load32le (slice ciphertext 12 4) in
  let '(alpha, beta, gamma, delta) := MixKey crypt_key alpha beta gamma delta 32 in
  let '(alpha, beta, gamma, delta, epsilon) := DecipherSbox7 word_ops alpha beta gamma delta epsilon in
  let '(beta, delta, alpha, epsilon, gamma) := DecipherK crypt_key beta delta alpha epsilon gamma 31 in
  let '(beta, delta, alpha, epsilon, gamma) := DecipherSbox6 word_ops beta delta alpha epsilon gamma in
  let '(alpha, gamma, epsilon, beta, delta) := DecipherK crypt_key alpha gamma epsilon beta delta 30 in
  let '(alpha, gamma, epsilon, beta, delta) := DecipherSbox5 word_ops alpha gamma epsilon beta delta in
  let '(gamma, delta, alpha, epsilon, beta) := DecipherK crypt_key gamma delta alpha epsilon beta 29 in
  let '(gamma, delta, alpha, epsilon, beta) := DecipherSbox4 word_ops gamma delta alpha epsilon beta in
  let '(gamma, alpha, beta, epsilon, delta) := DecipherK crypt_key gamma alpha beta epsilon delta 28 in
  let '(gamma, alpha, beta, epsilon, delta) := DecipherSbox3 word_ops gamma alpha beta epsilon delta in
  let '(beta, gamma, delta, epsilon, alpha) := DecipherK crypt_key beta gamma delta epsilon alpha 27 in
  let '(beta, gamma, delta, epsilon, alpha) := DecipherSbox2 word_ops beta gamma delta epsilon alpha in
  let '(gamma, alpha, epsilon, delta, beta) := DecipherK crypt_key gamma alpha epsilon delta beta 26 in
  let '(gamma, alpha, epsilon, delta, beta) := DecipherSbox1 word_ops gamma alpha epsilon delta beta in
  let '(beta, alpha, epsilon, delta, gamma) := DecipherK crypt_key beta alpha epsilon delta gamma 25 in
  let '(beta, alpha, epsilon, delta, gamma) := DecipherSbox0 word_ops beta alpha epsilon delta gamma in
  let '(epsilon, gamma, alpha, beta, delta) := DecipherK crypt_key epsilon gamma alpha beta delta 24 in
  let '(epsilon, gamma, alpha, beta, delta) := DecipherSbox7 word_ops epsilon gamma alpha beta delta in
  let '(gamma, beta, epsilon, delta, alpha) := DecipherK crypt_key gamma beta epsilon delta alpha 23 in
  let '(gamma, beta, epsilon, delta, alpha) := DecipherSbox6 word_ops gamma beta epsilon delta alpha in
  let '(epsilon, alpha, delta, gamma, beta) := DecipherK crypt_key epsilon alpha delta gamma beta 22 in
  let '(epsilon, alpha, delta, gamma, beta) := DecipherSbox5 word_ops epsilon alpha delta gamma beta in
  let '(alpha, beta, epsilon, delta, gamma) := DecipherK crypt_key alpha beta epsilon delta gamma 21 in
  let '(alpha, beta, epsilon, delta, gamma) := DecipherSbox4 word_ops alpha beta epsilon delta gamma in
  let '(alpha, epsilon, gamma, delta, beta) := DecipherK crypt_key alpha epsilon gamma delta beta 20 in
  let '(alpha, epsilon, gamma, delta, beta) := DecipherSbox3 word_ops alpha epsilon gamma delta beta in
  let '(gamma, alpha, beta, delta, epsilon) := DecipherK crypt_key gamma alpha beta delta epsilon 19 in
  let '(gamma, alpha, beta, delta, epsilon) := DecipherSbox2 word_ops gamma alpha beta delta epsilon in
  let '(alpha, epsilon, delta, beta, gamma) := DecipherK crypt_key alpha epsilon delta beta gamma 18 in
  let '(alpha, epsilon, delta, beta, gamma) := DecipherSbox1 word_ops alpha epsilon delta beta gamma in
  let '(gamma, epsilon, delta, beta, alpha) := DecipherK crypt_key gamma epsilon delta beta alpha 17 in
  let '(gamma, epsilon, delta, beta, alpha) := DecipherSbox0 word_ops gamma epsilon delta beta alpha in
  let '(delta, alpha, epsilon, gamma, beta) := DecipherK crypt_key delta alpha epsilon gamma beta 16 in
  let '(delta, alpha, epsilon, gamma, beta) := DecipherSbox7 word_ops delta alpha epsilon gamma beta in
  let '(alpha, gamma, delta, beta, epsilon) := DecipherK crypt_key alpha gamma delta beta epsilon 15 in
  let '(alpha, gamma, delta, beta, epsilon) := DecipherSbox6 word_ops alpha gamma delta beta epsilon in
  let '(delta, epsilon, beta, alpha, gamma) := DecipherK crypt_key delta epsilon beta alpha gamma 14 in
  let '(delta, epsilon, beta, alpha, gamma) := DecipherSbox5 word_ops delta epsilon beta alpha gamma in
  let '(epsilon, gamma, delta, beta, alpha) := DecipherK crypt_key epsilon gamma delta beta alpha 13 in
  let '(epsilon, gamma, delta, beta, alpha) := DecipherSbox4 word_ops epsilon gamma delta beta alpha in
  let '(epsilon, delta, alpha, beta, gamma) := DecipherK crypt_key epsilon delta alpha beta gamma 12 in
  let '(epsilon, delta, alpha, beta, gamma) := DecipherSbox3 word_ops epsilon delta alpha beta gamma in
  let '(alpha, epsilon, gamma, beta, delta) := DecipherK crypt_key alpha epsilon gamma beta delta 11 in
  let '(alpha, epsilon, gamma, beta, delta) := DecipherSbox2 word_ops alpha epsilon gamma beta delta in
  let '(epsilon, delta, beta, gamma, alpha) := DecipherK crypt_key epsilon delta beta gamma alpha 10 in
  let '(epsilon, delta, beta, gamma, alpha) := DecipherSbox1 word_ops epsilon delta beta gamma alpha in
  let '(alpha, delta, beta, gamma, epsilon) := DecipherK crypt_key alpha delta beta gamma epsilon 9 in
  let '(alpha, delta, beta, gamma, epsilon) := DecipherSbox0 word_ops alpha delta beta gamma epsilon in
  let '(beta, epsilon, delta, alpha, gamma) := DecipherK crypt_key beta epsilon delta alpha gamma 8 in
  let '(beta, epsilon, delta, alpha, gamma) := DecipherSbox7 word_ops beta epsilon delta alpha gamma in
  let '(epsilon, alpha, beta, gamma, delta) := DecipherK crypt_key epsilon alpha beta gamma delta 7 in
  let '(epsilon, alpha, beta, gamma, delta) := DecipherSbox6 word_ops epsilon alpha beta gamma delta in
  let '(beta, delta, gamma, epsilon, alpha) := DecipherK crypt_key beta delta gamma epsilon alpha 6 in
  let '(beta, delta, gamma, epsilon, alpha) := DecipherSbox5 word_ops beta delta gamma epsilon alpha in
  let '(delta, alpha, beta, gamma, epsilon) := DecipherK crypt_key delta alpha beta gamma epsilon 5 in
  let '(delta, alpha, beta, gamma, epsilon) := DecipherSbox4 word_ops delta alpha beta gamma epsilon in
  let '(delta, beta, epsilon, gamma, alpha) := DecipherK crypt_key delta beta epsilon gamma alpha 4 in
  let '(delta, beta, epsilon, gamma, alpha) := DecipherSbox3 word_ops delta beta epsilon gamma alpha in
  let '(epsilon, delta, alpha, gamma, beta) := DecipherK crypt_key epsilon delta alpha gamma beta 3 in
  let '(epsilon, delta, alpha, gamma, beta) := DecipherSbox2 word_ops epsilon delta alpha gamma beta in
  let '(delta, beta, gamma, alpha, epsilon) := DecipherK crypt_key delta beta gamma alpha epsilon 2 in
  let '(delta, beta, gamma, alpha, epsilon) := DecipherSbox1 word_ops delta beta gamma alpha epsilon in
  let '(epsilon, beta, gamma, alpha, delta) := DecipherK crypt_key epsilon beta gamma alpha delta 1 in
  let '(epsilon, beta, gamma, alpha, delta) := DecipherSbox0 word_ops epsilon beta gamma alpha delta in
  let '(gamma, delta, beta, epsilon) := MixKey crypt_key gamma delta beta epsilon 0 in
  store32le gamma ++ store32le delta ++ store32le beta ++ store32le epsilon.

(** The block functions as cipher.c calls them, source and destination the same
    32-byte block: the bytes after the sixteenth stay. *)
Definition EncipherSerpentBlock (crypt_key : list N) (epsilon : N) (block : list N) : list N :=
  encipher16 crypt_key epsilon block ++ skipn 16 block.
Definition DecipherSerpentBlock (crypt_key : list N) (epsilon : N) (block : list N) : list N :=
  decipher16 crypt_key epsilon block ++ skipn 16 block.

(** ** Key schedule *)

(** serpent.c:686-691 *)
Definition padded_key (key : list N) : list N :=
  let p := firstn 32 key in
  if Nat.ltb (length p) 32 then p ++ 1 :: repeat 0 (31 - length p) else p.

(** serpent.c:639-643 without the store *)
Definition ChurnKey (alpha beta gamma delta : N) (i : nat) : N :=
  let beta := N.lxor beta delta in let beta := N.lxor beta gamma in
  let beta := N.lxor beta alpha in
  let beta := N.lxor beta (N.lxor 0x9e3779b9 (N.of_nat i)) in
  RotateLeft beta 11.

(** serpent.c:701-841: call number i has beta, gamma, delta the registers i,
    i+4 and i+2 modulo 5 of (alpha,beta,gamma,delta,epsilon) and alpha the word
    of the key (i < 8) or crypt_key[i-8]; it stores crypt_key[i].  The state is
    the registers and the words of crypt_key stored so far. *)
Definition churn_step (kw : list N) (st : list N * list N) (i : nat) : list N * list N :=
  let '(r, ck) := st in
  let alpha := if Nat.ltb i 8 then get kw i else get ck (i - 8) in
  let beta := ChurnKey alpha (get r (i mod 5)) (get r ((i + 4) mod 5)) (get r ((i + 2) mod 5)) i in
  (upd r (i mod 5) beta, ck ++ [beta]).
Definition churned (key : list N) : list N :=
  let p := padded_key key in
  let kw := map load32le (chunks 4 p) in
  snd (fold_left (churn_step kw) (seq 0 132) (slice kw 3 5, [])).

(** the S-box of one group with the order in which its registers are stored
    (serpent.c:845-944) *)
Definition key_sbox (j : nat) (alpha beta gamma delta epsilon : N) : N * N * N * N :=
  match j with
  | 0%nat => let '(alpha, beta, gamma, delta, epsilon) := EncipherSbox0 word_ops alpha beta gamma delta epsilon in
      (gamma, beta, delta, alpha)
  | 1%nat => let '(alpha, beta, gamma, delta, epsilon) := EncipherSbox1 word_ops alpha beta gamma delta epsilon in
      (epsilon, gamma, delta, alpha)
  | 2%nat => let '(alpha, beta, gamma, delta, epsilon) := EncipherSbox2 word_ops alpha beta gamma delta epsilon in
      (epsilon, beta, alpha, delta)
  | 3%nat => let '(alpha, beta, gamma, delta, epsilon) := EncipherSbox3 word_ops alpha beta gamma delta epsilon in
      (delta, epsilon, beta, alpha)
  | 4%nat => let '(alpha, beta, gamma, delta, epsilon) := EncipherSbox4 word_ops alpha beta gamma delta epsilon in
      (beta, gamma, delta, epsilon)
  | 5%nat => let '(alpha, beta, gamma, delta, epsilon) := EncipherSbox5 word_ops alpha beta gamma delta epsilon in
      (epsilon, alpha, beta, delta)
  | 6%nat => let '(alpha, beta, gamma, delta, epsilon) := EncipherSbox6 word_ops alpha beta gamma delta epsilon in
      (gamma, epsilon, beta, delta)
  | _ => let '(alpha, beta, gamma, delta, epsilon) := EncipherSbox7 word_ops alpha beta gamma delta epsilon in
      (epsilon, gamma, delta, alpha)
  end.
(** serpent.c:845-944: groups 32 down to 0, group i with S-box (35-i) mod 8.  The
    groups are disjoint, so the order does not matter and no group reads what
    another has stored; [epsilon] is what the scratch register happens to hold. *)
Definition SetSerpentKey (epsilon : N) (key : list N) : list N :=
  let ck := churned key in
  flat_map (fun i =>
    let '(a, b, c, d) := key_sbox ((35 - i) mod 8) (get ck (4 * i)) (get ck (4 * i + 1))
                           (get ck (4 * i + 2)) (get ck (4 * i + 3)) epsilon in
    [a; b; c; d]) (seq 0 33).
