(** Model of wizard/signature.c, a SHA-256 on [size_t] words of 64 bits, on its
    own: the registers have 64 bits and are cut to 32 by Trunc32.  Update and
    Finalize are those of MdModel.v.  The digest stays in words. *)
From Coq Require Import NArith Arith List.
From Verif Require Import Base MdModel Sha2Model.
Import ListNotations.
Local Open Scope N_scope.

(** signature.c 52 *)
Definition Trunc32 (x : N) : N := N.land x 0xffffffff.

(** signature.c 191-197 *)
Definition sg_Ch (x y z : N) : N := N.lxor (N.land x y) (N.land (wnot 64 x) z).
Definition sg_RotateRight (x n : N) : N := Trunc32 (N.lor (N.shiftr x n) (wshl 64 x (32 - n))).
Definition sg_Sigma (a b c x : N) : N :=
  N.lxor (N.lxor (sg_RotateRight x a) (sg_RotateRight x b)) (Trunc32 (N.shiftr x c)).
Definition sg_Suma (a b c x : N) : N :=
  N.lxor (N.lxor (sg_RotateRight x a) (sg_RotateRight x b)) (sg_RotateRight x c).

(** signature.c 206-222 *)
Definition sg_K : list N :=
  [
   0x428a2f98; 0x71374491; 0xb5c0fbcf; 0xe9b5dba5; 0x3956c25b;
   0x59f111f1; 0x923f82a4; 0xab1c5ed5; 0xd807aa98; 0x12835b01;
   0x243185be; 0x550c7dc3; 0x72be5d74; 0x80deb1fe; 0x9bdc06a7;
   0xc19bf174; 0xe49b69c1; 0xefbe4786; 0x0fc19dc6; 0x240ca1cc;
   0x2de92c6f; 0x4a7484aa; 0x5cb0a9dc; 0x76f988da; 0x983e5152;
   0xa831c66d; 0xb00327c8; 0xbf597fc7; 0xc6e00bf3; 0xd5a79147;
   0x06ca6351; 0x14292967; 0x27b70a85; 0x2e1b2138; 0x4d2c6dfc;
   0x53380d13; 0x650a7354; 0x766a0abb; 0x81c2c92e; 0x92722c85;
   0xa2bfe8a1; 0xa81a664b; 0xc24b8b70; 0xc76c51a3; 0xd192e819;
   0xd6990624; 0xf40e3585; 0x106aa070; 0x19a4c116; 0x1e376c08;
   0x2748774c; 0x34b0bcb5; 0x391c0cb3; 0x4ed8aa4a; 0x5b9cca4f;
   0x682e6ff3; 0x748f82ee; 0x78a5636f; 0x84c87814; 0x8cc70208;
   0x90befffa; 0xa4506ceb; 0xbef9a3f7; 0xc67178f2
  ].

(** [((T << 24) & 0xff000000) | ...] on 64 bits, signature.c 276-277 *)
Definition sg_swap (T : N) : N :=
  N.lor (N.lor (N.lor (N.land (wshl 64 T 24) 0xff000000) (N.land (wshl 64 T 8) 0x00ff0000))
               (N.land (N.shiftr T 8) 0x0000ff00)) (N.land (N.shiftr T 24) 0x000000ff).

(** two words from eight bytes: signature.c 253-259 and 272-281 *)
Definition sg_pair (lsb : bool) (p : list N) : list N :=
  let T := host_load lsb p in
  if lsb then [sg_swap T; sg_swap (N.shiftr T 32)] else [Trunc32 (N.shiftr T 32); Trunc32 T].
Definition sg_load (lsb : bool) (message : list N) : list N :=
  flat_map (fun i => sg_pair lsb (slice message (8 * i) 8)) (seq 0 8).

(** signature.c 292-293 *)
Definition sg_extend (W : list N) : list N :=
  fold_left (fun W i =>
    W ++ [Trunc32 (wadd 64 (wadd 64 (wadd 64 (sg_Sigma 17 19 10 (get W (i - 2))) (get W (i - 7)))
                            (sg_Sigma 7 18 3 (get W (i - 15)))) (get W (i - 16)))])
    (seq 16 48) W.

(** signature.c 294-306 *)
Definition sg_round (W : list N) (s : N * N * N * N * N * N * N * N) (j : nat)
  : N * N * N * N * N * N * N * N :=
  let '(A, B, C, D, E, F, G, H) := s in
  let T1 := Trunc32 (wadd 64 (wadd 64 (wadd 64 (wadd 64 H (sg_Suma 6 11 25 E)) (sg_Ch E F G)) (get sg_K j)) (get W j)) in
  let T2 := Trunc32 (wadd 64 (sg_Suma 2 13 22 A) (Maj A B C)) in
  (Trunc32 (wadd 64 T1 T2), A, B, C, Trunc32 (wadd 64 D T1), E, F, G).

(** signature.c 189-318 *)
Definition TransformSignature (lsb : bool) (digest message : list N) : list N :=
  let W := sg_extend (sg_load lsb message) in
  let '(A, B, C, D, E, F, G, H) :=
    fold_left (sg_round W) (seq 0 64)
      (get digest 0, get digest 1, get digest 2, get digest 3, get digest 4, get digest 5, get digest 6, get digest 7) in
  [Trunc32 (wadd 64 (get digest 0) A); Trunc32 (wadd 64 (get digest 1) B);
   Trunc32 (wadd 64 (get digest 2) C); Trunc32 (wadd 64 (get digest 3) D);
   Trunc32 (wadd 64 (get digest 4) E); Trunc32 (wadd 64 (get digest 5) F);
   Trunc32 (wadd 64 (get digest 6) G); Trunc32 (wadd 64 (get digest 7) H)].

(** signature.c 348-393: the counters are [size_t], [count] is cut to 32 bits and
    [high_order] grows by [n >> 29] *)
Definition signature (lsb : bool) : MdParams :=
  mkMdParams 64 8 32 64 (fun n => N.shiftr n 29) (TransformSignature lsb).

(** signature.c 143-165 *)
Definition GetSignatureInfo : MdInfo :=
  mkMdInfo
    [
     0x6a09e667; 0xbb67ae85; 0x3c6ef372; 0xa54ff53a;
     0x510e527f; 0x9b05688c; 0x1f83d9ab; 0x5be0cd19
    ] (repeat 0 64) 0 0 0.

Definition UpdateSignature (lsb : bool) := UpdateMd (signature lsb).
Definition FinalizeSignature (lsb : bool) := FinalizeMd (signature lsb).
