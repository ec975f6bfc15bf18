(** Model of wizard/hash.c: the dispatch over the hash types.  A StringInfo
    is its contents here; StringInfoModel.v and C49 justify that view. *)
From Coq Require Import NArith Arith List.
From Verif Require Import Base MdModel Sha1Model Sha2Model Md5Model Crc64Model Sha3Model.
Import ListNotations.
Local Open Scope N_scope.

(** wizard/hash.h 27-42 *)
Inductive HashType :=
| CRC64Hash | MD5Hash | SHA1Hash | SHA2Hash | SHA2224Hash | SHA2256Hash | SHA2384Hash | SHA2512Hash
| SHA3Family (h : sha3_hash).

(** [void *handle].  The digest string of a SHA-3 struct is kept because
    FinalizeSHA3 may leave it alone; the others' digest is always written
    over in full before it is read. *)
Inductive Handle :=
| HCRC64 (c : CRC64Info)
| HMD5 (m : MD5Info)
| HMd (m : MdInfo)
| HSHA3 (s : SHA3Info) (digest : list N).

(** hash.c 59-75 *)
Record HashInfo := mkHashInfo { hi_hash : HashType; hi_digest : list N; hi_handle : Handle }.

(** SetStringInfo on contents, string.c 1792-1804 *)
Definition set_string (s source : list N) : list N :=
  firstn (length s) source ++ repeat 0 (length s - length source).

(** the four structs sharing MdModel.v: parameters, initial value, words and
    bytes per word of the digest *)
Definition md_params (lsb : bool) (hash : HashType) : MdParams :=
  match hash with
  | SHA1Hash => sha1 lsb
  | SHA2224Hash => sha2224 lsb
  | SHA2384Hash | SHA2512Hash => sha2512 lsb
  | _ => sha2256 lsb
  end.
Definition md_iv (hash : HashType) : list N :=
  match hash with
  | SHA1Hash => IV1
  | SHA2224Hash => IV224
  | SHA2384Hash => IV384
  | SHA2512Hash => IV512
  | _ => IV256
  end.

(** the digestsize and blocksize fields: crc64.c 50-51, md5.c 50-51, sha1.c
    51-52, sha2224.c 50-51, sha2256.c 50-51, sha2384.c 50-51, sha2512.c
    50-51, sha3.c 53 and 145-175 *)
Definition GetHashDigestsize (hash : HashType) : nat :=
  match hash with
  | CRC64Hash => 8 | MD5Hash => 16 | SHA1Hash => 20 | SHA2224Hash => 28
  | SHA2Hash | SHA2256Hash => 32 | SHA2384Hash => 48 | SHA2512Hash => 64
  | SHA3Family h => sha3_digestsize h
  end%nat.
Definition GetHashBlocksize (hash : HashType) : nat :=
  match hash with
  | CRC64Hash => 32
  | MD5Hash | SHA1Hash | SHA2224Hash | SHA2Hash | SHA2256Hash => 64
  | SHA2384Hash | SHA2512Hash => 128
  | SHA3Family _ => 64
  end%nat.

(** a struct cleared by memset, sha3.c 133-135 *)
Definition zero_SHA3Info : SHA3Info :=
  mkSHA3Info (repeat 0 200) (repeat 0 192) 0 0 0 0 false 0 (repeat 0 25) (repeat 0 24).

(** AcquireHashInfo, hash.c 99-207, with the constructors it calls: CRC64 and
    MD5 objects come with an uninitialised table or accumulator [junk]
    (crc64.c 95-116, md5.c 100-125); the others are initialised *)
Definition AcquireHashInfo (junk : list N) (hash : HashType) : HashInfo :=
  mkHashInfo hash (repeat 0 (GetHashDigestsize hash))
    match hash with
    | CRC64Hash => HCRC64 (mkCRC64Info 0 junk)
    | MD5Hash => HMD5 (mkMD5Info junk (repeat 0 64) 0 0)
    | SHA3Family h => HSHA3 (snd (InitializeSHA3 h zero_SHA3Info)) (repeat 0 (sha3_digestsize h))
    | _ => HMd (InitializeMd (md_iv hash) (mkMdInfo junk (repeat 0 (GetHashBlocksize hash)) 0 0 0))
    end.

Section Run.
(** [fuel] bounds the turns of the loops of sha3.c ([None] = not ended);
    [lsb] is the byte order of the host; [junk] the uninitialised local of
    FinalizeSHA3.  [None] also stands for a handle of the wrong type, which
    cannot occur (lemma hash_ok_step). *)
Variables (fuel : nat) (lsb : bool) (junk : list N).

(** hash.c 760-823 *)
Definition InitializeHash (hi : HashInfo) : option HashInfo :=
  let with_handle h := Some (mkHashInfo (hi_hash hi) (hi_digest hi) h) in
  match hi_hash hi, hi_handle hi with
  | CRC64Hash, HCRC64 c => with_handle (HCRC64 (InitializeCRC64 c))
  | MD5Hash, HMD5 m => with_handle (HMD5 (InitializeMD5 m))
  | SHA3Family h, HSHA3 s d => with_handle (HSHA3 (snd (InitializeSHA3 h s)) d)
  | (SHA1Hash | SHA2Hash | SHA2224Hash | SHA2256Hash | SHA2384Hash | SHA2512Hash) as t, HMd m =>
      with_handle (HMd (InitializeMd (md_iv t) m))
  | _, _ => None
  end.

(** hash.c 849-917 *)
Definition UpdateHash (hi : HashInfo) (message : list N) : option HashInfo :=
  let with_handle h := Some (mkHashInfo (hi_hash hi) (hi_digest hi) h) in
  match hi_hash hi, hi_handle hi with
  | CRC64Hash, HCRC64 c => with_handle (HCRC64 (UpdateCRC64 c message))
  | MD5Hash, HMD5 m => with_handle (HMD5 (UpdateMD5 m message))
  | SHA3Family h, HSHA3 s d =>
      match UpdateSHA3 fuel lsb s message with
      | Some (_, s) => with_handle (HSHA3 s d)
      | None => None
      end
  | (SHA1Hash | SHA2Hash | SHA2224Hash | SHA2256Hash | SHA2384Hash | SHA2512Hash) as t, HMd m =>
      with_handle (HMd (UpdateMd (md_params lsb t) m message))
  | _, _ => None
  end.

(** hash.c 324-429 *)
Definition FinalizeHash (hi : HashInfo) : option HashInfo :=
  let finish h digest := Some (mkHashInfo (hi_hash hi) (set_string (hi_digest hi) digest) h) in
  match hi_hash hi, hi_handle hi with
  | CRC64Hash, HCRC64 c => finish (HCRC64 c) (FinalizeCRC64 c)
  | MD5Hash, HMD5 m => finish (HMD5 (FinalizeMD5 m)) (md5_digest (FinalizeMD5 m))
  | SHA1Hash, HMd m => finish (HMd (FinalizeMd (sha1 lsb) m)) (FinalizeSHA1 lsb m)
  | SHA2224Hash, HMd m => finish (HMd (FinalizeMd (sha2224 lsb) m)) (FinalizeSHA2224 lsb m)
  | (SHA2Hash | SHA2256Hash), HMd m => finish (HMd (FinalizeMd (sha2256 lsb) m)) (FinalizeSHA2256 lsb m)
  | SHA2384Hash, HMd m => finish (HMd (FinalizeMd (sha2512 lsb) m)) (FinalizeSHA2384 lsb m)
  | SHA2512Hash, HMd m => finish (HMd (FinalizeMd (sha2512 lsb) m)) (FinalizeSHA2512 lsb m)
  | SHA3Family h, HSHA3 s d =>
      match FinalizeSHA3 fuel lsb junk (sha3_digestsize h) s d with
      | Some (_, s, d) => finish (HSHA3 s d) d
      | None => None
      end
  | _, _ => None
  end.

(** a caller's sequence of calls; return values are ignored *)
Inductive hop := HInit | HUpdate (m : list N) | HFinal.
Definition hstep (hi : HashInfo) (o : hop) : option HashInfo :=
  match o with
  | HInit => InitializeHash hi
  | HUpdate m => UpdateHash hi m
  | HFinal => FinalizeHash hi
  end.
Fixpoint hrun (hi : HashInfo) (ops : list hop) : option HashInfo :=
  match ops with
  | [] => Some hi
  | o :: t => match hstep hi o with Some hi => hrun hi t | None => None end
  end.
End Run.
