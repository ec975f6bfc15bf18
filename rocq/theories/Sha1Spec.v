(** FIPS 180-4 SHA-1 (4.1.1, 4.2.1, 5.3.1, 6.1) on whole messages. *)
From Coq Require Import NArith Arith List.
From Verif Require Import Base MdSpec.
Import ListNotations.
Local Open Scope N_scope.

Definition ADD32 (l : list N) : N := fold_left N.add l 0 mod 2 ^ 32.
Definition ROTL (n x : N) : N := x mod 2 ^ (32 - n) * 2 ^ n + x / 2 ^ (32 - n).

(** f_t (4.1.1): Ch, Parity, Maj, Parity *)
Definition ft (t : nat) (x y z : N) : N :=
  if (t <? 20)%nat then N.lxor (N.land x y) (N.ldiff z x)
  else if (t <? 40)%nat then N.lxor x (N.lxor y z)
  else if (t <? 60)%nat then N.lxor (N.land x y) (N.lxor (N.land x z) (N.land y z))
  else N.lxor x (N.lxor y z).

(** K_t (4.2.1) *)
Definition Kt (t : nat) : N :=
  if (t <? 20)%nat then 0x5a827999
  else if (t <? 40)%nat then 0x6ed9eba1
  else if (t <? 60)%nat then 0x8f1bbcdc
  else 0xca62c1d6.

(** W_{n-1}, ..., W_0 (6.1.2 step 1) *)
Fixpoint rev_sched1 (n : nat) (m : list N) : list N :=
  match n with
  | O => []
  | S t =>
      let W := rev_sched1 t m in
      (if (t <? 16)%nat then nth t m 0
       else ROTL 1 (N.lxor (nth 2 W 0) (N.lxor (nth 7 W 0) (N.lxor (nth 13 W 0) (nth 15 W 0))))) :: W
  end.

(** step 3 *)
Fixpoint steps1 (W : list N) (t : nat) (s : list N) : list N :=
  match W, s with
  | w :: W', [a; b; c; d; e] =>
      steps1 W' (S t) [ADD32 [ROTL 5 a; ft t b c d; e; Kt t; w]; a; ROTL 30 b; c; d]
  | _, _ => s
  end.

Definition compress1 (H block : list N) : list N :=
  let M := map be_val (chunks 4 block) in
  map2 (fun x y => ADD32 [x; y]) H (steps1 (rev (rev_sched1 80 M)) 0 H).

Definition H1 : list N := [0x67452301; 0xefcdab89; 0x98badcfe; 0x10325476; 0xc3d2e1f0].

Definition SHA1 (m : list N) : list N :=
  flat_map (be_bytes 4) (md_hash compress1 H1 (be_bytes 8) 64 8 m).
