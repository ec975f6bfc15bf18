(** NIST SP 800-38A, on lists of blocks, and the toolkit's padding rule. *)
From Coq Require Import Arith NArith List.
From Verif Require Import Base.
Import ListNotations.
Local Open Scope N_scope.

Section Modes.
  Variable E : list N -> list N.     (* CIPH_K *)

  (** 6.1 *)
  Definition ECB_encrypt (P : list (list N)) : list (list N) := map E P.

  (** 6.2: C_j = CIPH(P_j xor C_(j-1)), C_0 = IV *)
  Fixpoint CBC_encrypt (prev : list N) (P : list (list N)) : list (list N) :=
    match P with
    | [] => []
    | p :: P' => let c := E (xor_list p prev) in c :: CBC_encrypt c P'
    end.

  (** 6.3 with s = 8: I_(j+1) = LSB_(b-8)(I_j) | C_j, C_j = P_j xor MSB_8(CIPH(I_j)) *)
  Fixpoint CFB8_encrypt (I : list N) (P : list N) : list N :=
    match P with
    | [] => []
    | p :: P' =>
        let c := N.lxor p (hd 0 (E I)) in
        c :: CFB8_encrypt (skipn 1 I ++ [c]) P'
    end.

  (** 6.4: O_j = CIPH(O_(j-1)), O_0 = IV *)
  Definition OFB_keystream (IV : list N) (n : nat) : list (list N) :=
    map (fun j => iter (S j) E IV) (seq 0 n).
  Definition OFB_encrypt (IV : list N) (P : list (list N)) : list (list N) :=
    map2 xor_list P (OFB_keystream IV (length P)).

  (** 6.5 and B.1: T_j is the initial counter block, read as a big-endian
      integer, plus j *)
  Definition counter_block (T : list N) (j : nat) : list N :=
    be_bytes (length T) (be_val T + N.of_nat j).
  Definition CTR_encrypt (T : list N) (P : list (list N)) : list (list N) :=
    map2 xor_list P (map (fun j => E (counter_block T j)) (seq 0 (length P))).
End Modes.

(** The padded message: the text, then pad-1 random bytes, then pad-1, where pad
    (between 1 and the blocksize) completes a block. *)
Definition pad_count (bs n : nat) : nat := (bs - n mod bs)%nat.
Definition padded (bs : nat) (rnd : nat -> N) (msg : list N) : list N :=
  let pad := pad_count bs (length msg) in
  msg ++ map rnd (seq 0 (pad - 1)) ++ [N.of_nat (pad - 1)].
