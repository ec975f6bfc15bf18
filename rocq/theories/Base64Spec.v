(** RFC 4648 section 4. *)
From Coq Require Import NArith List Bool String Ascii.
Import ListNotations.
Local Open Scope N_scope.

Definition alphabet : string := "ABCDEFGHIJKLMNOPQRSTUVWXYZabcdefghijklmnopqrstuvwxyz0123456789+/".
Definition letter (v : N) : N := match String.get (N.to_nat v) alphabet with Some c => N_of_ascii c | None => 0 end.
Definition padding : N := 61.

(** three bytes are four groups of six bits *)
Fixpoint encoding (b : list N) : list N :=
  match b with
  | [] => []
  | [x] => let n := x * 65536 in [letter (n / 262144); letter (n / 4096 mod 64); padding; padding]
  | [x; y] => let n := x * 65536 + y * 256 in [letter (n / 262144); letter (n / 4096 mod 64); letter (n / 64 mod 64); padding]
  | x :: y :: z :: b =>
      let n := x * 65536 + y * 256 + z in
      letter (n / 262144) :: letter (n / 4096 mod 64) :: letter (n / 64 mod 64) :: letter (n mod 64) :: encoding b
  end.
(** white space of the C locale *)
Definition white (c : N) : bool := existsb (N.eqb c) [9; 10; 11; 12; 13; 32].
