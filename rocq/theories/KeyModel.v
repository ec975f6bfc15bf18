(** Model of wizard/key.c: a map from ids to keys that are stored enciphered
    under a session key, which is in the map itself.

    Strings are their contents.  The values of the splay tree are pointers: [v]
    stands for the [v]th string that was stored.  Random keys, the nonce and the
    pad bytes of the cipher are arguments. *)
From Coq Require Import NArith ZArith Arith List Bool.
From Verif Require Import Base Outcome StringInfoModel CipherModel HashModel HmacModel SplayModel SecretModel.
Import ListNotations.

(** splay-tree.c 446-456 *)
Definition CompareSplayTreeStringInfo (target source : list N) : Z :=
  match CompareStringInfo (string_of target) (string_of source) with
  | Ok Lt => (-1)%Z
  | Ok Gt => 1%Z
  | _ => 0%Z
  end.

(** key.c 60-84 *)
Record KeyInfo := mkKeyInfo {
  ki_map : SplayTreeInfo (list N);
  ki_values : list (list N);
  ki_nonce : list N;
  ki_id : list N
}.

Notation get := (GetValueFromSplayTree (list N) CompareSplayTreeStringInfo false).
Notation add := (AddValueToSplayTree (list N) CompareSplayTreeStringInfo false).

(** the string a value of the map points to; None for NULL *)
Definition value_at (values : list (list N)) (v : N) : option (list N) :=
  if N.eqb v 0 then None else nth_error values (N.to_nat v - 1).
(** GetValueFromSplayTree and its test for NULL, key.c 264-270 and 319-322;
    the tree is splayed *)
Definition lookup_key (k : KeyInfo) (id : list N) : outcome (list N * KeyInfo) :=
  match get (ki_map k) id with
  | None => UB
  | Some (m, v) =>
      match value_at (ki_values k) v with
      | None => Fatal
      | Some x => Ok (x, mkKeyInfo m (ki_values k) (ki_nonce k) (ki_id k))
      end
  end.
(** AddValueToSplayTree(key_info->key_map,CloneStringInfo(id),...); [mem]: there
    is memory for a node *)
Definition store_key (mem : bool) (k : KeyInfo) (id value : list N) : outcome (bool * KeyInfo) :=
  match add mem (ki_map k) id (N.of_nat (S (length (ki_values k)))) with
  | None => UB
  | Some (m, status) => Ok (status, mkKeyInfo m (ki_values k ++ [value]) (ki_nonce k) (ki_id k))
  end.

(** key.c 255-276 *)
Definition GetKeyInfo (k : KeyInfo) (id : list N) : outcome (list N * KeyInfo) :=
  let* (session_key, k) := lookup_key k (ki_id k) in
  let* (key, k) := lookup_key k id in
  let* key := DecipherCipher (secret_cipher session_key (ki_nonce k)) (string_of key) in
  Ok (text key, k).

(** key.c 305-329 *)
Definition SetKeyInfo (rnd : nat -> N) (mem : bool) (k : KeyInfo) (id key : list N) : outcome (bool * KeyInfo) :=
  let* (session_key, k) := lookup_key k (ki_id k) in
  let* cipherkey := EncipherCipher (secret_cipher session_key (ki_nonce k)) rnd (string_of key) in
  store_key mem k id (text cipherkey).

Section Run.
Variables (fuel : nat) (lsb : bool) (junk : list N).

(** key.c 212-218: the id of a drawn key; None if the hash does not end *)
Definition session_id (mac_key key : list N) : option (list N) :=
  match ConstructHMAC fuel lsb junk (AcquireHMACInfo junk SHA2256Hash) mac_key key with
  | Some hm => Some (hm_digest hm)
  | None => None
  end.

(** key.c 111-129 with 196-229 on a structure without an id: the session key is
    stored as it is *)
Definition AcquireKeyInfo (nonce mac_key key : list N) : outcome KeyInfo :=
  match session_id mac_key key with
  | None => UB
  | Some id =>
      let* (status, k) := store_key true (mkKeyInfo (NewSplayTree (list N)) [] nonce []) id key in
      if status then Ok (mkKeyInfo (ki_map k) (ki_values k) (ki_nonce k) id) else Fatal
  end.

(** key.c 196-229 on a structure with an id *)
Definition GenerateSessionKey (rnd : nat -> N) (mem : bool) (k : KeyInfo) (mac_key key : list N) : outcome (list N * KeyInfo) :=
  match session_id mac_key key with
  | None => UB
  | Some id =>
      let* (status, k) := SetKeyInfo rnd mem k id key in
      if status then Ok (id, k) else Fatal
  end.

(** ** histories of calls *)
Inductive kop :=
| KSet (rnd : nat -> N) (mem : bool) (id key : list N)
| KGenerate (rnd : nat -> N) (mac_key key : list N)
| KGet (id : list N).
Inductive kout := KBool (b : bool) | KString (x : list N).
Definition kstep (k : KeyInfo) (o : kop) : outcome (kout * KeyInfo) :=
  match o with
  | KSet rnd mem id key => let* (b, k) := SetKeyInfo rnd mem k id key in Ok (KBool b, k)
  | KGenerate rnd mac_key key => let* (x, k) := GenerateSessionKey rnd true k mac_key key in Ok (KString x, k)
  | KGet id => let* (x, k) := GetKeyInfo k id in Ok (KString x, k)
  end.
Fixpoint krun (k : KeyInfo) (ops : list kop) : outcome (list kout * KeyInfo) :=
  match ops with
  | [] => Ok ([], k)
  | o :: ops => let* (r, k) := kstep k o in let* (rs, k) := krun k ops in Ok (r :: rs, k)
  end.
End Run.
