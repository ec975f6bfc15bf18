(** Model of wizard/secret.c: GenerateSecretKey and AuthenticateSecretKey; and
    the writes of SaveEntropyToReservoir (random.c) with their outcomes.

    Strings are their contents.  The passphrase is an argument: where it comes
    from (passphrase.c, a file) is not modelled.  The keys drawn from the random
    generator are an argument too; C24 is about them. *)
From Coq Require Import NArith Arith List Bool.
From Verif Require Import Base Outcome StringInfoModel CipherModel CipherInfoModel HashModel HmacModel FileModel Crc64Model RandomModel KeyringSpec KeyringModel.
Import ListNotations.

(** secret.c 66-98 *)
Record SecretInfo := mkSecret {
  x_keyring : KeyringInfo;
  x_nonce : list N;
  x_hmac : HMACInfo;
  x_id : list N;
  x_key : list N
}.

(** a string with these contents (C49: what follows them does not matter) *)
Definition string_of (x : list N) : StringInfo := mkSI (x ++ repeat 0%N MaxCipherBlocksize) (length x).
(** GetStringInfoDatum, GetStringInfoLength *)
Definition text (s : StringInfo) : list N := firstn (slen s) (datum s).
(** secret.c 195-197 and 324-326: SetCipherKey and SetCipherNonce on the AES
    cipher in counter mode of AcquireSecretInfo (135); SetStringInfo pads or
    cuts the nonce to the block *)
Definition secret_cipher (phrase nonce : list N) : CipherInfo :=
  cipher_info 0 AESCipher CTRMode phrase (string_of (set_string (repeat 0%N (cipher_blocksize AESCipher)) nonce)).

(** keyring.c 752-857 *)
Definition with_id (k : KeyringInfo) (x : list N) : KeyringInfo := mkKeyring x (k_key k) (k_nonce k) (k_major k) (k_minor k) (k_timestamp k).
Definition with_key (k : KeyringInfo) (x : list N) : KeyringInfo := mkKeyring (k_id k) x (k_nonce k) (k_major k) (k_minor k) (k_timestamp k).
Definition with_nonce (k : KeyringInfo) (x : list N) : KeyringInfo := mkKeyring (k_id k) (k_key k) x (k_major k) (k_minor k) (k_timestamp k).

Section Run.
Variables (fuel : nat) (lsb : bool) (junk : list N).

(** secret.c 310-321; [draws] are the successive results of GetRandomKey.  None:
    they are used up, or the hash does not end *)
Fixpoint generate_loop (phrase : list N) (draws : list (list N)) (s : SecretInfo) (file : option (list N)) (ts : N) : option SecretInfo :=
  match draws with
  | [] => None
  | key :: draws =>
      match ConstructHMAC fuel lsb junk (x_hmac s) phrase key with
      | None => None
      | Some hm =>
          let id := hm_digest hm in
          let (status, k) := ExportKeyringKey fuel lsb junk file (with_id (x_keyring s) id) ts in
          let s := mkSecret k (x_nonce s) hm id key in
          if status then generate_loop phrase draws s file ts else Some s
      end
  end.

(** secret.c 286-336: the result, the structure and the keyring file.  [rnd] are
    the pad bytes of EncipherCipher, [amounts] what the writes do; Fatal if the
    counter overflows *)
Definition GenerateSecretKey (phrase : list N) (draws : list (list N)) (s : SecretInfo) (file : option (list N))
    (rnd : nat -> N) (amounts : list nat) (now ts : N) : outcome (option (bool * SecretInfo * option (list N))) :=
  match generate_loop phrase draws s file ts with
  | None => Ok None
  | Some s =>
      let k := with_nonce (with_key (x_keyring s) (x_key s)) (x_nonce s) in
      let* key := EncipherCipher (secret_cipher phrase (k_nonce k)) rnd (string_of (k_key k)) in
      let k := with_key k (text key) in
      let (_, file) := ImportKeyringKey fuel lsb junk file k amounts now ts in
      Ok (Some (true, mkSecret k (x_nonce s) (x_hmac s) (x_id s) (x_key s), file))
  end.

(** secret.c 170-210; the id is that of the structure *)
Definition AuthenticateSecretKey (phrase : list N) (s : SecretInfo) (file : option (list N)) (ts : N) : outcome (option (bool * SecretInfo)) :=
  let (status, k) := ExportKeyringKey fuel lsb junk file (with_id (x_keyring s) (x_id s)) ts in
  if negb status then Ok (Some (false, mkSecret k (x_nonce s) (x_hmac s) (x_id s) (x_key s)))
  else
    let* key := DecipherCipher (secret_cipher phrase (k_nonce k)) (string_of (k_key k)) in
    match ConstructHMAC fuel lsb junk (x_hmac s) phrase (text key) with
    | None => Ok None
    | Some hm => Ok (Some (same_string (x_id s) (hm_digest hm), mkSecret k (x_nonce s) hm (x_id s) (text key)))
    end.

(** random.c 974-1026, the writes: each has an outcome of its own, and the
    result does not depend on them (1019-1025) *)
Definition reservoir_chunks (r : RandomInfo) : list (list N) :=
  [GetWizardMagick fuel lsb junk WizardMagick; GetWizardMagick fuel lsb junk RandomFiletype;
   buffer16 (r_protocol_major r); buffer16 (r_protocol_minor r); buffer64 (r_timestamp r);
   buffer32 (N.of_nat (length (saved_entropy r))); saved_entropy r; buffer64 (GetStringInfoCRC junk (saved_entropy r))].
Definition SaveEntropyToReservoir_writes (r : RandomInfo) (old : list N) (amounts : list nat) : bool * list N :=
  let '(f, _, _) := write_all (mkFile old 0) (reservoir_chunks r) amounts in (true, f_bytes f).
End Run.
