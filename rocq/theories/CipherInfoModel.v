(** Model of AcquireCipherInfo and SetCipherKey: which block functions, block
    size and key schedule a CipherInfo carries. *)
From Coq Require Import Arith NArith List.
From Verif Require Import Base Outcome StringInfoModel CipherModel.
From Verif Require AesModel ChachaModel SerpentModel TwofishModel.
Import ListNotations.

(** wizard/cipher.h *)
Inductive CipherType := AESCipher | ChachaCipher | SerpentCipher | TwofishCipher.

(** aes.c, chacha.c, serpent.c, twofish.c: Get*Blocksize as used by cipher.c:147-192 *)
Definition cipher_blocksize (t : CipherType) : nat :=
  match t with
  | AESCipher => AesModel.AESBlocksize
  | ChachaCipher => ChachaModel.ChachaBlocksize
  | SerpentCipher => SerpentModel.SerpentBlocksize
  | TwofishCipher => TwofishModel.TwofishBlocksize
  end.

(** cipher.c:134-206 followed by SetCipherKey (cipher.c:1429-1460), once on a
    fresh structure; [junk] is what serpent.c's uninitialised local holds (the
    result does not depend on it, SerpentProof.v) *)
Definition cipher_info (junk : N) (t : CipherType) (m : CipherMode) (key : list N) (n : StringInfo) : CipherInfo :=
  match t with
  | AESCipher =>
      let k := AesModel.SetAESKey key in
      mkCipher AesModel.AESBlocksize (AesModel.EncipherAESBlock k) (AesModel.DecipherAESBlock k) m n
  | ChachaCipher =>
      let k := ChachaModel.SetChachaKey ChachaModel.AcquireChachaKey key in
      mkCipher ChachaModel.ChachaBlocksize (ChachaModel.EncipherChachaBlock k) (ChachaModel.DecipherChachaBlock k) m n
  | SerpentCipher =>
      let k := SerpentModel.SetSerpentKey junk key in
      mkCipher SerpentModel.SerpentBlocksize (SerpentModel.EncipherSerpentBlock k junk)
        (SerpentModel.DecipherSerpentBlock k junk) m n
  | TwofishCipher =>
      let k := TwofishModel.SetTwofishKey key in
      mkCipher TwofishModel.TwofishBlocksize (TwofishModel.EncipherTwofishBlock k) (TwofishModel.DecipherTwofishBlock k) m n
  end.

(** AcquireCipherInfo (generating the nonce from [rnd]), then SetCipherKey *)
Definition AcquireKeyedCipher (junk : N) (t : CipherType) (m : CipherMode) (rnd : nat -> N) (key : list N)
  : outcome CipherInfo :=
  let* n := GenerateCipherNonce (cipher_blocksize t) m rnd in
  Ok (cipher_info junk t m key n).
