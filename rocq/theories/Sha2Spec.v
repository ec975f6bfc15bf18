(** FIPS 180-4: SHA-224, SHA-256, SHA-384, SHA-512, written from the
    standard on whole messages. *)
From Coq Require Import NArith Arith List.
From Verif Require Import Base MdSpec.
Import ListNotations.
Local Open Scope N_scope.

Section SHA2.
Variable w : N.

(** 2.2.2 and 3.2: operations on words, arithmetically *)
Definition ADD (l : list N) : N := fold_left N.add l 0 mod 2 ^ w.
Definition SHR (n x : N) : N := x / 2 ^ n.
Definition ROTR (n x : N) : N := x / 2 ^ n + x mod 2 ^ n * 2 ^ (w - n).

(** 4.1.2, 4.1.3: Ch chooses bits of y or z, Maj is the majority *)
Definition SCh (x y z : N) : N := N.lxor (N.land x y) (N.ldiff z x).
Definition SMaj (x y z : N) : N := N.lor (N.land x y) (N.land z (N.lor x y)).

(** rotation amounts of the four functions *)
Variables s0 s1 S0 S1 : N * N * N.

Definition lsigma (s : N * N * N) (x : N) : N :=
  let '(a, b, c) := s in N.lxor (ROTR a x) (N.lxor (ROTR b x) (SHR c x)).
Definition usigma (s : N * N * N) (x : N) : N :=
  let '(a, b, c) := s in N.lxor (ROTR a x) (N.lxor (ROTR b x) (ROTR c x)).

(** 6.2.2 step 1: message schedule.  [rev_schedule n block] lists
    W_{n-1}, ..., W_0 *)
Fixpoint rev_schedule (n : nat) (m : list N) : list N :=
  match n with
  | O => []
  | S t =>
      let W := rev_schedule t m in
      (if (t <? 16)%nat then nth t m 0
       else ADD [lsigma s1 (nth 1 W 0); nth 6 W 0; lsigma s0 (nth 14 W 0); nth 15 W 0]) :: W
  end.

(** 6.2.2 step 3 *)
Fixpoint steps (kw : list (N * N)) (s : list N) : list N :=
  match kw, s with
  | (k, wt) :: kw', [a; b; c; d; e; f; g; h] =>
      let T1 := ADD [h; usigma S1 e; SCh e f g; k; wt] in
      let T2 := ADD [usigma S0 a; SMaj a b c] in
      steps kw' [ADD [T1; T2]; a; b; c; ADD [d; T1]; e; f; g]
  | _, _ => s
  end.

(** one block: steps 1 to 4 *)
Definition compress (K : list N) (H block : list N) : list N :=
  let b := N.to_nat (w / 8) in
  let M := map be_val (chunks b block) in
  let W := rev (rev_schedule (length K) M) in
  map2 (fun x y => ADD [x; y]) H (steps (combine K W) H).
End SHA2.

(** ** the constants (4.2.2, 4.2.3, 5.3) *)

Definition primes : list N :=
  [2; 3; 5; 7; 11; 13; 17; 19; 23; 29; 31; 37; 41; 43; 47; 53; 59; 61; 67; 71; 73; 79; 83; 89; 97;
   101; 103; 107; 109; 113; 127; 131; 137; 139; 149; 151; 157; 163; 167; 173; 179; 181; 191; 193; 197; 199; 211; 223; 227; 229; 233; 239; 241; 251; 257; 263;
   269; 271; 277; 281; 283; 293; 307; 311; 313; 317; 331; 337; 347; 349; 353; 359; 367; 373; 379; 383; 389; 397; 401; 409].

(** first [w] bits of the fractional part of the square root of [p] *)
Definition frac_sqrt (w p : N) : N := N.sqrt (p * 2 ^ (2 * w)) mod 2 ^ w.

(** [k] is the first [w] bits of the fractional part of the cube root of [p]:
    [q + k/2^w <= cbrt p < q + (k+1)/2^w] for an integer [q] *)
Definition is_frac_cbrt (w p k : N) : Prop :=
  k < 2 ^ w /\ exists q,
    (q * 2 ^ w + k) ^ 3 <= p * 2 ^ (3 * w) /\ p * 2 ^ (3 * w) < (q * 2 ^ w + k + 1) ^ 3.

Definition SK256 : list N :=
  [
   0x428a2f98; 0x71374491; 0xb5c0fbcf; 0xe9b5dba5; 0x3956c25b; 0x59f111f1;
   0x923f82a4; 0xab1c5ed5; 0xd807aa98; 0x12835b01; 0x243185be; 0x550c7dc3;
   0x72be5d74; 0x80deb1fe; 0x9bdc06a7; 0xc19bf174; 0xe49b69c1; 0xefbe4786;
   0x0fc19dc6; 0x240ca1cc; 0x2de92c6f; 0x4a7484aa; 0x5cb0a9dc; 0x76f988da;
   0x983e5152; 0xa831c66d; 0xb00327c8; 0xbf597fc7; 0xc6e00bf3; 0xd5a79147;
   0x06ca6351; 0x14292967; 0x27b70a85; 0x2e1b2138; 0x4d2c6dfc; 0x53380d13;
   0x650a7354; 0x766a0abb; 0x81c2c92e; 0x92722c85; 0xa2bfe8a1; 0xa81a664b;
   0xc24b8b70; 0xc76c51a3; 0xd192e819; 0xd6990624; 0xf40e3585; 0x106aa070;
   0x19a4c116; 0x1e376c08; 0x2748774c; 0x34b0bcb5; 0x391c0cb3; 0x4ed8aa4a;
   0x5b9cca4f; 0x682e6ff3; 0x748f82ee; 0x78a5636f; 0x84c87814; 0x8cc70208;
   0x90befffa; 0xa4506ceb; 0xbef9a3f7; 0xc67178f2
  ].

Definition SK512 : list N :=
  [
   0x428a2f98d728ae22; 0x7137449123ef65cd; 0xb5c0fbcfec4d3b2f; 0xe9b5dba58189dbbc;
   0x3956c25bf348b538; 0x59f111f1b605d019; 0x923f82a4af194f9b; 0xab1c5ed5da6d8118;
   0xd807aa98a3030242; 0x12835b0145706fbe; 0x243185be4ee4b28c; 0x550c7dc3d5ffb4e2;
   0x72be5d74f27b896f; 0x80deb1fe3b1696b1; 0x9bdc06a725c71235; 0xc19bf174cf692694;
   0xe49b69c19ef14ad2; 0xefbe4786384f25e3; 0x0fc19dc68b8cd5b5; 0x240ca1cc77ac9c65;
   0x2de92c6f592b0275; 0x4a7484aa6ea6e483; 0x5cb0a9dcbd41fbd4; 0x76f988da831153b5;
   0x983e5152ee66dfab; 0xa831c66d2db43210; 0xb00327c898fb213f; 0xbf597fc7beef0ee4;
   0xc6e00bf33da88fc2; 0xd5a79147930aa725; 0x06ca6351e003826f; 0x142929670a0e6e70;
   0x27b70a8546d22ffc; 0x2e1b21385c26c926; 0x4d2c6dfc5ac42aed; 0x53380d139d95b3df;
   0x650a73548baf63de; 0x766a0abb3c77b2a8; 0x81c2c92e47edaee6; 0x92722c851482353b;
   0xa2bfe8a14cf10364; 0xa81a664bbc423001; 0xc24b8b70d0f89791; 0xc76c51a30654be30;
   0xd192e819d6ef5218; 0xd69906245565a910; 0xf40e35855771202a; 0x106aa07032bbd1b8;
   0x19a4c116b8d2d0c8; 0x1e376c085141ab53; 0x2748774cdf8eeb99; 0x34b0bcb5e19b48a8;
   0x391c0cb3c5c95a63; 0x4ed8aa4ae3418acb; 0x5b9cca4f7763e373; 0x682e6ff3d6b2b8a3;
   0x748f82ee5defb2fc; 0x78a5636f43172f60; 0x84c87814a1f0ab72; 0x8cc702081a6439ec;
   0x90befffa23631e28; 0xa4506cebde82bde9; 0xbef9a3f7b2c67915; 0xc67178f2e372532b;
   0xca273eceea26619c; 0xd186b8c721c0c207; 0xeada7dd6cde0eb1e; 0xf57d4f7fee6ed178;
   0x06f067aa72176fba; 0x0a637dc5a2c898a6; 0x113f9804bef90dae; 0x1b710b35131c471b;
   0x28db77f523047d84; 0x32caab7b40c72493; 0x3c9ebe0a15c9bebc; 0x431d67c49c100d4c;
   0x4cc5d4becb3e42b6; 0x597f299cfc657e2a; 0x5fcb6fab3ad6faec; 0x6c44198c4a475817
  ].

Definition H256 : list N := map (frac_sqrt 32) (firstn 8 primes).
Definition H512 : list N := map (frac_sqrt 64) (firstn 8 primes).
Definition H384 : list N := map (frac_sqrt 64) (firstn 8 (skipn 8 primes)).
(** second 32 bits of the fractional parts for the ninth to sixteenth primes *)
Definition H224 : list N := map (fun h => h mod 2 ^ 32) H384.

(** ** the four functions (6.2 to 6.5) *)

Definition compress256 : list N -> list N -> list N :=
  compress 32 (7, 18, 3) (17, 19, 10) (2, 13, 22) (6, 11, 25) SK256.
Definition compress512 : list N -> list N -> list N :=
  compress 64 (1, 8, 7) (19, 61, 6) (28, 34, 39) (14, 18, 41) SK512.

Definition SHA256 (m : list N) : list N :=
  flat_map (be_bytes 4) (md_hash compress256 H256 (be_bytes 8) 64 8 m).
Definition SHA224 (m : list N) : list N :=
  flat_map (be_bytes 4) (firstn 7 (md_hash compress256 H224 (be_bytes 8) 64 8 m)).
Definition SHA512 (m : list N) : list N :=
  flat_map (be_bytes 8) (md_hash compress512 H512 (be_bytes 16) 128 16 m).
Definition SHA384 (m : list N) : list N :=
  flat_map (be_bytes 8) (firstn 6 (md_hash compress512 H384 (be_bytes 16) 128 16 m)).
