(** Model of wizard/chacha.c. *)
From Coq Require Import Arith NArith List.
From Verif Require Import Base Mem32 StringInfoModel Outcome.
Import ListNotations.
Local Open Scope N_scope.

Definition ChachaBlocksize : nat := 64.

(** chacha.c:71-75 PushChachaWord is [load32le]; 216-222 PopChachaWord is
    [store32le] *)

(** chacha.c:206, 214-215 *)
Definition ChachaAdd (v w : N) : N := wadd 32 v w.
Definition ChachaRotate (v n : N) : N := rotl 32 v n.

(** chacha.c:207-213; the sixteen locals x0..x15 are the list [x] *)
Definition ChachaQuarterRound (a b c d : nat) (x : list N) : list N :=
  let x := upd x a (ChachaAdd (get x a) (get x b)) in
  let x := upd x d (ChachaRotate (N.lxor (get x d) (get x a)) 16) in
  let x := upd x c (ChachaAdd (get x c) (get x d)) in
  let x := upd x b (ChachaRotate (N.lxor (get x b) (get x c)) 12) in
  let x := upd x a (ChachaAdd (get x a) (get x b)) in
  let x := upd x d (ChachaRotate (N.lxor (get x d) (get x a)) 8) in
  let x := upd x c (ChachaAdd (get x c) (get x d)) in
  let x := upd x b (ChachaRotate (N.lxor (get x b) (get x c)) 7) in
  x.

(** chacha.c:264-274, the loop body *)
Definition double_round (x : list N) : list N :=
  let x := ChachaQuarterRound 0 4 8 12 x in
  let x := ChachaQuarterRound 1 5 9 13 x in
  let x := ChachaQuarterRound 2 6 10 14 x in
  let x := ChachaQuarterRound 3 7 11 15 x in
  let x := ChachaQuarterRound 0 5 10 15 x in
  let x := ChachaQuarterRound 1 6 11 12 x in
  let x := ChachaQuarterRound 2 7 8 13 x in
  let x := ChachaQuarterRound 3 4 9 14 x in
  x.

(** chacha.c:203-328; [key] is chacha_info->key *)
Definition EncipherChachaBlock (key : list N) (plaintext : list N) : list N :=
  let x := iter 10 double_round key in
  let x := map2 ChachaAdd x key in
  let x := map2 N.lxor x (map load32le (chunks 4 plaintext)) in
  flat_map store32le x.

(** chacha.c:138-142 *)
Definition DecipherChachaBlock (key : list N) (ciphertext : list N) : list N :=
  EncipherChachaBlock key ciphertext.

(** chacha.c:391-393 *)
Definition sigma : list N :=
  [101;120;112;97;110;100;32;51;50;45;98;121;116;101;32;107].
Definition tau : list N :=
  [101;120;112;97;110;100;32;49;54;45;98;121;116;101;32;107].

Definition guarded_word (length need i : nat) (datum : list N) (at_ : nat) (key : list N) : list N :=
  if Nat.leb need length then upd key i (load32le (slice datum at_ 4)) else key.

(** chacha.c:386-437; [key0] is the previous content of chacha_info->key (all
    zero after AcquireChachaInfo, chacha.c:95-108) *)
Definition SetChachaKey (key0 : list N) (key : list N) : list N :=
  let n := length key in
  let k := guarded_word n 4 4 key 0 key0 in
  let k := guarded_word n 8 5 key 4 k in
  let k := guarded_word n 12 6 key 8 k in
  let k := guarded_word n 16 7 key 12 k in
  let '(datum, constants) := if Nat.eqb (8 * n) 256 then (skipn 16 key, sigma) else (key, tau) in
  let k := guarded_word n 4 8 datum 0 k in
  let k := guarded_word n 8 9 datum 4 k in
  let k := guarded_word n 12 10 datum 8 k in
  let k := guarded_word n 16 11 datum 12 k in
  let k := upd k 0 (load32le (slice constants 0 4)) in
  let k := upd k 1 (load32le (slice constants 4 4)) in
  let k := upd k 2 (load32le (slice constants 8 4)) in
  let k := upd k 3 (load32le (slice constants 12 4)) in
  let k := upd k 12 0 in
  let k := upd k 13 0 in
  let k := upd k 14 0 in
  upd k 15 0.
Definition AcquireChachaKey : list N := repeat 0 16.
