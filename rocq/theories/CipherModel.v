(** Model of the modes of operation of wizard/cipher.c.

    The block functions are the fields [decipher_block] and [encipher_block] of
    the C structure (cipher.c:65-96): here two functions on blocks with the key
    already installed.  Every call in cipher.c passes the same pointer as source
    and destination, so a block function maps the block to its new content.
    The random pad bytes drawn by SetRandomKey are the argument [rnd], so that a
    theorem about all [rnd] covers every state of the generator. *)
From Coq Require Import Arith NArith List Lia.
From Verif Require Import Base Outcome StringInfoModel.
Import ListNotations.

(** wizard/cipher.h *)
Inductive CipherMode := UndefinedMode | CBCMode | CFBMode | CTRMode | ECBMode | OFBMode.

Record CipherInfo := mkCipher {
  blocksize : nat;
  encipher_block : list N -> list N;
  decipher_block : list N -> list N;
  mode : CipherMode;
  nonce : StringInfo
}.

(** number of iterations of [for (p=datum; p < datum+q; p+=blocksize)] *)
Definition iterations (bs q : nat) : nat := (q + bs - 1) / bs.

(** the loop body [f] gets its local state and the block at p and returns both;
    reading or writing past the allocation is UB *)
Fixpoint block_loop {S} (bs : nat) (f : S -> list N -> outcome (S * list N))
    (n : nat) (s : S) (buf : list N) : outcome (list N) :=
  match n with
  | O => Ok buf
  | S m =>
      let* b := mem_read buf 0 bs in
      let* (s', b') := f s b in
      let* rest := block_loop bs f m s' (skipn bs buf) in
      Ok (b' ++ rest)
  end.

(** cipher.c:267-269 and alike: copy of the nonce into a local block *)
Definition nonce_block (c : CipherInfo) : outcome (list N) :=
  mem_read (datum (nonce c)) 0 (blocksize c).

(** cipher.c:809-814 (also 1057-1062, 1132-1137, 1207-1212): padding; gives the
    padded buffer and the end offset of the loop *)
Definition pad_buffer (bs : nat) (rnd : nat -> N) (s : StringInfo) : outcome (list N * nat) :=
  let pad := (bs - slen s mod bs)%nat in
  let* d := mem_write (datum s) (slen s)
              (map rnd (seq 0 (pad - 1)) ++ [wrap 8 (N.of_nat (pad - 1))]) in
  Ok (d, if Nat.eqb pad bs then (slen s + bs)%nat else slen s).

(** cipher.c:482-495; index length-1 downwards, i.e. over the reversed list *)
Fixpoint increment_rev (l : list N) : outcome (list N) :=
  match l with
  | [] => Fatal
  | b :: t =>
      let b' := wadd 8 b 1 in
      if N.eqb b' 0 then let* t' := increment_rev t in Ok (b' :: t') else Ok (b' :: t)
  end.
Definition IncrementCipherNonce (nonce : list N) : outcome (list N) :=
  let* r := increment_rev (rev nonce) in Ok (rev r).

(** ** Encipher *)

(** cipher.c:815-822 *)
Definition cbc_encipher_step (c : CipherInfo) (iv b : list N) : outcome (list N * list N) :=
  let o := encipher_block c (xor_list b iv) in Ok (o, o).
(** cipher.c:1063-1071, 531-539 *)
Definition ctr_step (c : CipherInfo) (ctr b : list N) : outcome (list N * list N) :=
  let o := encipher_block c ctr in
  let* ctr' := IncrementCipherNonce ctr in
  Ok (ctr', xor_list b o).
(** cipher.c:1138-1139 *)
Definition ecb_encipher_step (c : CipherInfo) (st : list N) (b : list N) : outcome (list N * list N) :=
  Ok (st, encipher_block c b).
(** cipher.c:1213-1218, 668-673 *)
Definition ofb_step (c : CipherInfo) (iv b : list N) : outcome (list N * list N) :=
  let o := encipher_block c iv in Ok (o, xor_list b o).
(** cipher.c:895-904, blocks of one byte *)
Definition cfb_encipher_step (c : CipherInfo) (reg p : list N) : outcome (list N * list N) :=
  let o := encipher_block c reg in
  let x := N.lxor (get p 0) (get o 0) in
  Ok (tl reg ++ [x], [x]).

(** cipher.c:775-828, 1022-1078, 1108-1141, 1173-1224 *)
Definition encipher_padded (c : CipherInfo) (rnd : nat -> N)
    (step : list N -> list N -> outcome (list N * list N)) (iv : list N) (s : StringInfo)
  : outcome StringInfo :=
  let* (d, q) := pad_buffer (blocksize c) rnd s in
  let* d := block_loop (blocksize c) step (iterations (blocksize c) q) iv d in
  Ok (mkSI d (slen s)).

(** cipher.c:946-988 *)
Definition EncipherCipher (c : CipherInfo) (rnd : nat -> N) (s : StringInfo) : outcome StringInfo :=
  match mode c with
  | CBCMode => let* iv := nonce_block c in encipher_padded c rnd (cbc_encipher_step c) iv s
  | CTRMode => let* iv := nonce_block c in encipher_padded c rnd (ctr_step c) iv s
  | ECBMode => encipher_padded c rnd (ecb_encipher_step c) [] s
  | OFBMode => let* iv := nonce_block c in encipher_padded c rnd (ofb_step c) iv s
  | CFBMode =>
      let* iv := nonce_block c in
      let* d := block_loop 1 (cfb_encipher_step c) (slen s) iv (datum s) in
      Ok (mkSI d (slen s))
  | UndefinedMode => Fatal
  end.

(** ** Decipher *)

(** cipher.c:271-280 *)
Definition cbc_decipher_step (c : CipherInfo) (iv b : list N) : outcome (list N * list N) :=
  Ok (b, xor_list (decipher_block c b) iv).
(** cipher.c:600-601 *)
Definition ecb_decipher_step (c : CipherInfo) (st b : list N) : outcome (list N * list N) :=
  Ok (st, decipher_block c b).
(** cipher.c:354-363 *)
Definition cfb_decipher_step (c : CipherInfo) (reg p : list N) : outcome (list N * list N) :=
  let o := encipher_block c reg in
  Ok (tl reg ++ [get p 0], [N.lxor (get p 0) (get o 0)]).

(** cipher.c:237-287, 497-546, 576-603, 635-679 *)
Definition decipher_whole (c : CipherInfo)
    (step : list N -> list N -> outcome (list N * list N)) (iv : list N) (s : StringInfo)
  : outcome StringInfo :=
  let* d := block_loop (blocksize c) step (iterations (blocksize c) (slen s)) iv (datum s) in
  Ok (mkSI d (slen s)).

(** cipher.c:405-447 *)
Definition DecipherCipher (c : CipherInfo) (s : StringInfo) : outcome StringInfo :=
  match mode c with
  | CBCMode => let* iv := nonce_block c in decipher_whole c (cbc_decipher_step c) iv s
  | CTRMode => let* iv := nonce_block c in decipher_whole c (ctr_step c) iv s
  | ECBMode => decipher_whole c (ecb_decipher_step c) [] s
  | OFBMode => let* iv := nonce_block c in decipher_whole c (ofb_step c) iv s
  | CFBMode =>
      let* iv := nonce_block c in
      let* d := block_loop 1 (cfb_decipher_step c) (slen s) iv (datum s) in
      Ok (mkSI d (slen s))
  | UndefinedMode => Fatal
  end.

(** cipher.c:1278-1308 GenerateCipherNonce: [rnd] gives the random bytes *)
Definition GenerateCipherNonce (bs : nat) (m : CipherMode) (rnd : nat -> N) : outcome StringInfo :=
  match m with
  | CBCMode | CFBMode | ECBMode | OFBMode =>
      SetStringInfoDatum (AcquireStringInfo bs) (map rnd (seq 0 bs))
  | CTRMode =>
      let n := AcquireStringInfo bs in
      let* n := ResetStringInfo n in
      let* d := mem_write (datum n) 0 (map rnd (seq 0 ((bs + 1) / 2))) in
      Ok (mkSI d (slen n))
  | UndefinedMode => Fatal
  end.

(** cipher.c:1362-1368 *)
Definition ResetCipherNonce (c : CipherInfo) : outcome CipherInfo :=
  let* n := ResetStringInfo (nonce c) in
  Ok (mkCipher (blocksize c) (encipher_block c) (decipher_block c) (mode c) n).
(** cipher.c:1394-1402 *)
Definition SetCipherNonce (c : CipherInfo) (n : StringInfo) : outcome CipherInfo :=
  let* n' := SetStringInfo (nonce c) n in
  Ok (mkCipher (blocksize c) (encipher_block c) (decipher_block c) (mode c) n').
