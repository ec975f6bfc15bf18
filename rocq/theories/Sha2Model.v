(** sha2256.c, sha2224.c, sha2512.c and sha2384.c: the Transform functions
    and the constants.  Update and Finalize are in MdModel.v. *)
From Coq Require Import NArith Arith List.
From Verif Require Import Base MdModel.
Import ListNotations.
Local Open Scope N_scope.

(** the word read through an [unsigned int] or [WizardSizeType] pointer on a host whose byte
    order is [lsb] (AcquireSHA2256Info sets lsb_first by the same test,
    sha2256.c 141-143) *)
Definition host_load (lsb : bool) (p : list N) : N := if lsb then le_val p else be_val p.

(** [((T << 24) & 0xff000000) | ((T << 8) & 0x00ff0000) |
     ((T >> 8) & 0x0000ff00) | ((T >> 24) & 0x000000ff)], sha2256.c 522-523 *)
Definition swap32 (T : N) : N :=
  N.lor (N.lor (N.lor (N.land (wshl 32 T 24) 0xff000000) (N.land (wshl 32 T 8) 0x00ff0000))
               (N.land (N.shiftr T 8) 0x0000ff00)) (N.land (N.shiftr T 24) 0x000000ff).

(** sha2512.c 587-595 *)
Definition swap64 (T : N) : N :=
  N.lor (N.lor (N.lor (N.lor (N.lor (N.lor (N.lor
    (N.land (wshl 64 T 56) 0xff00000000000000)
    (N.land (wshl 64 T 40) 0x00ff000000000000))
    (N.land (wshl 64 T 24) 0x0000ff0000000000))
    (N.land (wshl 64 T 8) 0x000000ff00000000))
    (N.land (N.shiftr T 8) 0x00000000ff000000))
    (N.land (N.shiftr T 24) 0x0000000000ff0000))
    (N.land (N.shiftr T 40) 0x000000000000ff00))
    (N.land (N.shiftr T 56) 0x00000000000000ff).

(** the first sixteen words of W: sha2256.c 496-537 with
    [sizeof(unsigned int) = 4], sha2512.c 575-596 *)
Definition load_words (lsb : bool) (b : nat) (swap : N -> N) (message : list N) : list N :=
  map (fun i => let T := host_load lsb (slice message (b * i) b) in
                if lsb then swap T else T) (seq 0 16).

Section Rounds.
Variable w : N.       (** 32: Trunc32, unsigned int; 64: Trunc64, WizardSizeType *)

(** sha2256.c 422-443, sha2512.c 436-456 *)
Definition Ch (x y z : N) : N := N.lxor (N.land x y) (N.land (wnot w x) z).
Definition Maj (x y z : N) : N :=
  N.lxor (N.lxor (N.land x y) (N.land x z)) (N.land y z).
Definition Trunc (x : N) : N := N.land x (N.ones w).
Definition RotateRight (x n : N) : N :=
  Trunc (N.lor (N.shiftr x n) (wshl w x (w - n))).

(** the macros [Sigma0], [Sigma1] with their constants, sha2256.c 447-448,
    sha2512.c 460-461 *)
Definition SigmaM (a b c x : N) : N :=
  N.lxor (N.lxor (RotateRight x a) (RotateRight x b)) (Trunc (N.shiftr x c)).
(** [Suma0], [Suma1], sha2256.c 449-450, sha2512.c 462-463 *)
Definition SumaM (a b c x : N) : N :=
  N.lxor (N.lxor (RotateRight x a) (RotateRight x b)) (RotateRight x c).

Variables Sigma0 Sigma1 Suma0 Suma1 : N -> N.

(** [for (i=16; i < 64; i++)
       W[i]=Trunc32(Sigma1(W[i-2])+W[i-7]+Sigma0(W[i-15])+W[i-16]);],
    sha2256.c 549-550, sha2512.c 608-609 *)
Definition extend_words (rounds : nat) (W : list N) : list N :=
  fold_left (fun W i =>
    W ++ [Trunc (wadd w (wadd w (wadd w (Sigma1 (get W (i - 2))) (get W (i - 7)))
                         (Sigma0 (get W (i - 15)))) (get W (i - 16)))])
    (seq 16 (rounds - 16)) W.

(** the loop body sha2256.c 551-563, sha2512.c 610-622 *)
Definition round (K W : list N) (s : N * N * N * N * N * N * N * N) (j : nat)
  : N * N * N * N * N * N * N * N :=
  let '(A, B, C, D, E, F, G, H) := s in
  let T1 := Trunc (wadd w (wadd w (wadd w (wadd w H (Suma1 E)) (Ch E F G)) (get K j)) (get W j)) in
  let T2 := Trunc (wadd w (Suma0 A) (Maj A B C)) in
  (Trunc (wadd w T1 T2), A, B, C, Trunc (wadd w D T1), E, F, G).

(** the registers after all rounds *)
Definition rounds_of (K W acc : list N) : N * N * N * N * N * N * N * N :=
  fold_left (round K W) (seq 0 (length K))
    (get acc 0, get acc 1, get acc 2, get acc 3, get acc 4, get acc 5, get acc 6, get acc 7).

(** "Add registers back to accumulator", sha2256.c 567-574, sha2512.c
    626-633 *)
Definition add_registers (acc : list N) (s : N * N * N * N * N * N * N * N) : list N :=
  let '(A, B, C, D, E, F, G, H) := s in
  [Trunc (wadd w (get acc 0) A); Trunc (wadd w (get acc 1) B);
   Trunc (wadd w (get acc 2) C); Trunc (wadd w (get acc 3) D);
   Trunc (wadd w (get acc 4) E); Trunc (wadd w (get acc 5) F);
   Trunc (wadd w (get acc 6) G); Trunc (wadd w (get acc 7) H)].

(** the same without accumulator[7], sha2224.c 567-573 *)
Definition add_registers7 (acc : list N) (s : N * N * N * N * N * N * N * N) : list N :=
  let '(A, B, C, D, E, F, G, H) := s in
  [Trunc (wadd w (get acc 0) A); Trunc (wadd w (get acc 1) B);
   Trunc (wadd w (get acc 2) C); Trunc (wadd w (get acc 3) D);
   Trunc (wadd w (get acc 4) E); Trunc (wadd w (get acc 5) F);
   Trunc (wadd w (get acc 6) G); get acc 7].
End Rounds.

(** sha2256.c 461-477; sha2224.c 461-477 has the same table *)
Definition K256 : list N :=
  [
   0x428a2f98; 0x71374491; 0xb5c0fbcf; 0xe9b5dba5; 0x3956c25b; 0x59f111f1;
   0x923f82a4; 0xab1c5ed5; 0xd807aa98; 0x12835b01; 0x243185be; 0x550c7dc3;
   0x72be5d74; 0x80deb1fe; 0x9bdc06a7; 0xc19bf174; 0xe49b69c1; 0xefbe4786;
   0x0fc19dc6; 0x240ca1cc; 0x2de92c6f; 0x4a7484aa; 0x5cb0a9dc; 0x76f988da;
   0x983e5152; 0xa831c66d; 0xb00327c8; 0xbf597fc7; 0xc6e00bf3; 0xd5a79147;
   0x06ca6351; 0x14292967; 0x27b70a85; 0x2e1b2138; 0x4d2c6dfc; 0x53380d13;
   0x650a7354; 0x766a0abb; 0x81c2c92e; 0x92722c85; 0xa2bfe8a1; 0xa81a664b;
   0xc24b8b70; 0xc76c51a3; 0xd192e819; 0xd6990624; 0xf40e3585; 0x106aa070;
   0x19a4c116; 0x1e376c08; 0x2748774c; 0x34b0bcb5; 0x391c0cb3; 0x4ed8aa4a;
   0x5b9cca4f; 0x682e6ff3; 0x748f82ee; 0x78a5636f; 0x84c87814; 0x8cc70208;
   0x90befffa; 0xa4506ceb; 0xbef9a3f7; 0xc67178f2
  ].

(** sha2512.c 474-557; sha2384.c 474-557 has the same table *)
Definition K512 : list N :=
  [
   0x428a2f98d728ae22; 0x7137449123ef65cd; 0xb5c0fbcfec4d3b2f; 0xe9b5dba58189dbbc;
   0x3956c25bf348b538; 0x59f111f1b605d019; 0x923f82a4af194f9b; 0xab1c5ed5da6d8118;
   0xd807aa98a3030242; 0x12835b0145706fbe; 0x243185be4ee4b28c; 0x550c7dc3d5ffb4e2;
   0x72be5d74f27b896f; 0x80deb1fe3b1696b1; 0x9bdc06a725c71235; 0xc19bf174cf692694;
   0xe49b69c19ef14ad2; 0xefbe4786384f25e3; 0x0fc19dc68b8cd5b5; 0x240ca1cc77ac9c65;
   0x2de92c6f592b0275; 0x4a7484aa6ea6e483; 0x5cb0a9dcbd41fbd4; 0x76f988da831153b5;
   0x983e5152ee66dfab; 0xa831c66d2db43210; 0xb00327c898fb213f; 0xbf597fc7beef0ee4;
   0xc6e00bf33da88fc2; 0xd5a79147930aa725; 0x06ca6351e003826f; 0x142929670a0e6e70;
   0x27b70a8546d22ffc; 0x2e1b21385c26c926; 0x4d2c6dfc5ac42aed; 0x53380d139d95b3df;
   0x650a73548baf63de; 0x766a0abb3c77b2a8; 0x81c2c92e47edaee6; 0x92722c851482353b;
   0xa2bfe8a14cf10364; 0xa81a664bbc423001; 0xc24b8b70d0f89791; 0xc76c51a30654be30;
   0xd192e819d6ef5218; 0xd69906245565a910; 0xf40e35855771202a; 0x106aa07032bbd1b8;
   0x19a4c116b8d2d0c8; 0x1e376c085141ab53; 0x2748774cdf8eeb99; 0x34b0bcb5e19b48a8;
   0x391c0cb3c5c95a63; 0x4ed8aa4ae3418acb; 0x5b9cca4f7763e373; 0x682e6ff3d6b2b8a3;
   0x748f82ee5defb2fc; 0x78a5636f43172f60; 0x84c87814a1f0ab72; 0x8cc702081a6439ec;
   0x90befffa23631e28; 0xa4506cebde82bde9; 0xbef9a3f7b2c67915; 0xc67178f2e372532b;
   0xca273eceea26619c; 0xd186b8c721c0c207; 0xeada7dd6cde0eb1e; 0xf57d4f7fee6ed178;
   0x06f067aa72176fba; 0x0a637dc5a2c898a6; 0x113f9804bef90dae; 0x1b710b35131c471b;
   0x28db77f523047d84; 0x32caab7b40c72493; 0x3c9ebe0a15c9bebc; 0x431d67c49c100d4c;
   0x4cc5d4becb3e42b6; 0x597f299cfc657e2a; 0x5fcb6fab3ad6faec; 0x6c44198c4a475817
  ].

Definition Sigma0_256 := SigmaM 32 7 18 3.
Definition Sigma1_256 := SigmaM 32 17 19 10.
Definition Suma0_256 := SumaM 32 2 13 22.
Definition Suma1_256 := SumaM 32 6 11 25.
Definition Sigma0_512 := SigmaM 64 1 8 7.
Definition Sigma1_512 := SigmaM 64 19 61 6.
Definition Suma0_512 := SumaM 64 28 34 39.
Definition Suma1_512 := SumaM 64 14 18 41.

Definition registers256 (lsb : bool) (acc message : list N) :=
  rounds_of 32 Suma0_256 Suma1_256 K256
    (extend_words 32 Sigma0_256 Sigma1_256 64 (load_words lsb 4 swap32 message)) acc.

(** sha2256.c 445-586 *)
Definition TransformSHA2256 (lsb : bool) (acc message : list N) : list N :=
  add_registers 32 acc (registers256 lsb acc message).

(** sha2224.c 445-585 *)
Definition TransformSHA2224 (lsb : bool) (acc message : list N) : list N :=
  add_registers7 32 acc (registers256 lsb acc message).

(** sha2512.c 458-648, sha2384.c 458-648 *)
Definition TransformSHA2512 (lsb : bool) (acc message : list N) : list N :=
  add_registers 64 acc
    (rounds_of 64 Suma0_512 Suma1_512 K512
      (extend_words 64 Sigma0_512 Sigma1_512 80 (load_words lsb 8 swap64 message)) acc).

(** [(unsigned int) n >> 29], sha2256.c 635: the cast binds tighter *)
Definition carry32 (n : N) : N := N.shiftr (wrap 32 n) 29.
(** [(WizardSizeType) n >> 61], sha2512.c 697 *)
Definition carry64 (n : N) : N := N.shiftr n 61.

Definition sha2256 (lsb : bool) : MdParams :=
  mkMdParams 64 8 32 32 carry32 (TransformSHA2256 lsb).
Definition sha2224 (lsb : bool) : MdParams :=
  mkMdParams 64 8 32 32 carry32 (TransformSHA2224 lsb).
Definition sha2512 (lsb : bool) : MdParams :=
  mkMdParams 128 16 64 64 carry64 (TransformSHA2512 lsb).

(** sha2256.c 386-393, sha2224.c 386-393, sha2512.c 398-405, sha2384.c
    398-405 *)
Definition IV256 : list N :=
  [
   0x6a09e667; 0xbb67ae85; 0x3c6ef372; 0xa54ff53a;
   0x510e527f; 0x9b05688c; 0x1f83d9ab; 0x5be0cd19
  ].
Definition IV224 : list N :=
  [
   0xc1059ed8; 0x367cd507; 0x3070dd17; 0xf70e5939;
   0xffc00b31; 0x68581511; 0x64f98fa7; 0xbefa4fa4
  ].
Definition IV512 : list N :=
  [
   0x6a09e667f3bcc908; 0xbb67ae8584caa73b; 0x3c6ef372fe94f82b; 0xa54ff53a5f1d36f1;
   0x510e527fade682d1; 0x9b05688c2b3e6c1f; 0x1f83d9abfb41bd6b; 0x5be0cd19137e2179
  ].
Definition IV384 : list N :=
  [
   0xcbbb9d5dc1059ed8; 0x629a292a367cd507; 0x9159015a3070dd17; 0x152fecd8f70e5939;
   0x67332667ffc00b31; 0x8eb44a8768581511; 0xdb0c2e0d64f98fa7; 0x47b5481dbefa4fa4
  ].

(** FinalizeSHA2256 and its siblings: the digest *)
Definition FinalizeSHA2256 (lsb : bool) (st : MdInfo) : list N :=
  digest_of 8 4 (FinalizeMd (sha2256 lsb) st).
Definition FinalizeSHA2224 (lsb : bool) (st : MdInfo) : list N :=
  digest_of 7 4 (FinalizeMd (sha2224 lsb) st).
Definition FinalizeSHA2512 (lsb : bool) (st : MdInfo) : list N :=
  digest_of 8 8 (FinalizeMd (sha2512 lsb) st).
Definition FinalizeSHA2384 (lsb : bool) (st : MdInfo) : list N :=
  digest_of 6 8 (FinalizeMd (sha2512 lsb) st).
