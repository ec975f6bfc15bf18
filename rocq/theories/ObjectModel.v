(** The objects of the library as blocks of memory: which blocks a call acquires, links and gives back.

    aes.c, chacha.c, serpent.c, twofish.c, cipher.c, crc64.c, md5.c, sha1.c, sha2*.c, sha3.c, hash.c, hmac.c, random.c, keyring.c,
    secret.c, authenticate.c, key.c, string.c, splay-tree.c, memory.c: the functions Acquire..., Destroy... and the setters that copy.

    A block has the scalars and arrays of its structure ([bytes]) and its pointers in the order of [pointers] below.  Addresses are
    never used again, so that the use of a block that was given back shows; it keeps what was in it.  Memory is never short
    (the functions end the process then).  Logging is left out. *)
From Coq Require Import NArith Bool Arith List.
From Verif Require Import Base Outcome.
Import ListNotations.

Inductive class :=
| Raw                                                   (* what has no pointers: texts, arrays, semaphores *)
| StringC                                               (* string_.h:33-50: datum *)
| AESC                                                  (* aes.c:51-70: key, encipher_key, decipher_key *)
| ArrayC                                                (* chacha.c:51-65, serpent.c:50-63, twofish.c:50-66: arrays only *)
| CipherC                                               (* cipher.c:65-95: handle, nonce, random_info *)
| CRC64C                                                (* crc64.c:56-76: digest, crc_xor *)
| MessageC                                              (* md5.c:56-78, sha1.c:57-85, sha2224.c to sha2512.c:56-84: digest, message, accumulator *)
| SHA3C                                                 (* sha3.c:66-105: digest *)
| HashC                                                 (* hash.c:59-75: digest, handle *)
| HMACC                                                 (* hmac.c:52-67: hash_info, digest, final_nonce, initial_nonce *)
| RandomC                                               (* random.c:75-106: hmac_info, nonce, reservoir, semaphore *)
| KeyringC                                              (* keyring.c:65-83: path, id, key, nonce *)
| SecretC                                               (* secret.c:65-95: passphrase, id, key, digest, nonce, keyring_info, cipher_info, hmac_info, random_info *)
| AuthenticateC                                         (* authenticate.c:58-71: handle *)
| NodeC                                                 (* splay-tree.c:66-78: key, value, left, right *)
| SplayC                                                (* splay-tree.c:81-112: root, semaphore *)
| KeyC.                                                 (* key.c:64-83: key_map, id, nonce, cipher_info, random_info *)
(** [kind]: the member cipher, hash or method; [bytes] of a RandomC is its seed *)
Record block := mkBlock { class_of : class; signature : bool; kind : N; bytes : list N; pointers : list nat }.
Inductive cell := Live (x : block) | Dead (x : block).
Definition heap := list cell.
(** address 0 is NULL *)
Definition get (h : heap) (p : nat) : option cell := match p with 0 => None | S i => nth_error h i end.
Fixpoint update {A} (i : nat) (x : A) (l : list A) : list A :=
  match l with [] => [] | y :: l => match i with 0 => x :: l | S i => y :: update i x l end end.
Definition set (h : heap) (p : nat) (c : cell) : heap := match p with 0 => h | S i => update i c h end.
Definition load (h : heap) (p : nat) : outcome block := match get h p with Some (Live x) => Ok x | _ => UB end.
Definition store (h : heap) (p : nat) (x : block) : outcome heap := let* _ := load h p in Ok (set h p (Live x)).
Definition alloc (h : heap) (x : block) : heap * nat := (h ++ [Live x], S (length h)).
(** memory.c:1041-1046 with the handler free: nothing is written *)
Definition Relinquish (p : nat) (h : heap) : outcome heap :=
  match p with 0 => Ok h | _ => let* x := load h p in Ok (set h p (Dead x)) end.
(** the assertions at the head of the functions *)
Definition check (p : nat) (h : heap) : outcome block :=
  match p with 0 => Fatal | _ => let* x := load h p in if signature x then Ok x else Fatal end.
Definition with_pointers (x : block) (l : list nat) : block := mkBlock (class_of x) (signature x) (kind x) (bytes x) l.
Definition with_bytes (x : block) (l : list N) : block := mkBlock (class_of x) (signature x) (kind x) l (pointers x).
Definition pointer (i : nat) (x : block) : nat := nth i (pointers x) 0.
Definition set_pointer (p i q : nat) (h : heap) : outcome heap :=
  let* x := load h p in Ok (set h p (Live (with_pointers x (update i q (pointers x))))).

(** if (p->member != NULL) p->member=Destroy(p->member) *)
Definition destroy_member (i : nat) (D : nat -> heap -> outcome heap) (p : nat) (h : heap) : outcome heap :=
  let* x := load h p in
  match pointer i x with
  | 0 => Ok h
  | q => let* h := D q h in set_pointer p i 0 h
  end.
Fixpoint destroy_members (l : list (nat * (nat -> heap -> outcome heap))) (p : nat) (h : heap) : outcome heap :=
  match l with [] => Ok h | (i, D) :: l => let* h := destroy_member i D p h in destroy_members l p h end.
(** p->signature=(~WizardSignature) and RelinquishWizardMemory(p) *)
Definition finish (p : nat) (h : heap) : outcome heap :=
  let* x := load h p in
  let* h := store h p (mkBlock (class_of x) false (kind x) (bytes x) (pointers x)) in
  Relinquish p h.
Definition destroy_object (l : list (nat * (nat -> heap -> outcome heap))) (p : nat) (h : heap) : outcome heap :=
  let* _ := check p h in
  let* h := destroy_members l p h in
  finish p h.
Definition fatal (_ : nat) (_ : heap) : outcome heap := Fatal.

(** string.c:857-867 *)
Definition DestroyStringInfo : nat -> heap -> outcome heap := destroy_object [(0, Relinquish)].
(** aes.c:475-491 *)
Definition DestroyAESInfo : nat -> heap -> outcome heap := destroy_object [(2, Relinquish); (1, Relinquish); (0, DestroyStringInfo)].
(** chacha.c:166-174, serpent.c:359-367, twofish.c:245-253 *)
Definition DestroyArrayInfo : nat -> heap -> outcome heap := destroy_object [].
(** crc64.c:137-150 *)
Definition DestroyCRC64Info : nat -> heap -> outcome heap := destroy_object [(0, DestroyStringInfo); (1, Relinquish)].
(** md5.c:146-161, sha1.c:160-175, sha2224.c:158-173, sha2256.c, sha2384.c and sha2512.c:159-174 *)
Definition DestroyMessageInfo : nat -> heap -> outcome heap := destroy_object [(2, Relinquish); (1, DestroyStringInfo); (0, DestroyStringInfo)].
(** sha3.c:208-218 *)
Definition DestroySHA3Info : nat -> heap -> outcome heap := destroy_object [(0, DestroyStringInfo)].
(** hash.h:27-44: Undefined, No, CRC64, MD5, SHA1, SHA2, SHA2224, SHA2256, SHA2384, SHA2512, SHA3, SHA3224, SHA3256, SHA3384, SHA3512 *)
Definition hash_class (hash : N) : option class :=
  (if hash =? 2 then Some CRC64C else if (3 <=? hash) && (hash <=? 9) then Some MessageC else if (10 <=? hash) && (hash <=? 14) then Some SHA3C else None)%N.
(** hash.c:231-300 *)
Definition DestroyHashInfo (p : nat) (h : heap) : outcome heap :=
  let* x := check p h in
  destroy_object
    [(1, match hash_class (kind x) with Some CRC64C => DestroyCRC64Info | Some MessageC => DestroyMessageInfo | Some SHA3C => DestroySHA3Info | _ => fatal end);
     (0, DestroyStringInfo)] p h.
(** hmac.c:174-190 *)
Definition DestroyHMACInfo : nat -> heap -> outcome heap :=
  destroy_object [(2, DestroyStringInfo); (3, DestroyStringInfo); (1, DestroyStringInfo); (0, DestroyHashInfo)].
(** semaphore.c:338-366, with its assertion *)
Definition relinquish_semaphore (i p : nat) (h : heap) : outcome heap :=
  let* x := load h p in
  match pointer i x with 0 => Fatal | q => let* h := Relinquish q h in set_pointer p i 0 h end.
(** random.c:289-308: the seed is an array of four words, of which sizeof( *seed) is the first *)
Definition zeros (n : nat) (l : list N) : list N := repeat 0%N (Nat.min n (length l)) ++ skipn n l.
Definition DestroyRandomInfo (p : nat) (h : heap) : outcome heap :=
  let* x := check p h in
  let* _ := match pointer 3 x with 0 => Fatal | q => load h q end in                  (* LockSemaphoreInfo *)
  let* h := destroy_members [(2, DestroyStringInfo); (1, DestroyStringInfo); (0, DestroyHMACInfo)] p h in
  let* x := load h p in
  let* h := store h p (with_bytes x (zeros 8 (bytes x))) in
  let* h := relinquish_semaphore 3 p h in
  finish p h.
(** cipher.h:39-47: Undefined, No, AES, Chacha, Serpent, Twofish *)
Definition cipher_class (cipher : N) : option class :=
  (if cipher =? 2 then Some AESC else if (3 <=? cipher) && (cipher <=? 5) then Some ArrayC else None)%N.
(** cipher.c:703-744 *)
Definition DestroyCipherInfo (p : nat) (h : heap) : outcome heap :=
  let* x := check p h in
  destroy_object
    [(0, match cipher_class (kind x) with Some AESC => DestroyAESInfo | Some ArrayC => DestroyArrayInfo | _ => fatal end);
     (1, DestroyStringInfo); (2, DestroyRandomInfo)] p h.
(** keyring.c:152-168 *)
Definition DestroyKeyringInfo : nat -> heap -> outcome heap :=
  destroy_object [(3, DestroyStringInfo); (2, DestroyStringInfo); (1, DestroyStringInfo); (0, Relinquish)].
(** secret.c:234-258 *)
Definition DestroySecretInfo : nat -> heap -> outcome heap :=
  destroy_object [(8, DestroyRandomInfo); (7, DestroyHMACInfo); (6, DestroyCipherInfo); (5, DestroyKeyringInfo);
                  (4, DestroyStringInfo); (2, DestroyStringInfo); (1, DestroyStringInfo); (3, DestroyStringInfo)].
(** authenticate.c:208-231 *)
Definition DestroyAuthenticateInfo (p : nat) (h : heap) : outcome heap :=
  let* x := check p h in
  destroy_object [(0, if (kind x =? 1)%N then DestroySecretInfo else fatal)] p h.

(** ** splay-tree.c:678-739: the nodes of one level are linked through their keys *)
(** lines 690-697, 705-712, 717-725: value and key are given back, the member key becomes the link [next] *)
Definition take_node (n next : nat) (h : heap) : outcome heap :=
  let* h := destroy_member 1 DestroyStringInfo n h in
  let* h := destroy_member 0 DestroyStringInfo n h in
  set_pointer n 0 next h.
(** lines 703-714 and 715-727 *)
Definition take_child (i active pend : nat) (h : heap) : outcome (heap * nat) :=
  let* x := load h active in
  match pointer i x with
  | 0 => Ok (h, pend)
  | c => let* h := take_node c pend h in Ok (h, c)
  end.
(** lines 701-731: one level; [fuel] bounds the number of turns *)
Fixpoint level (fuel active pend : nat) (h : heap) : outcome (option (heap * nat)) :=
  match active with
  | 0 => Ok (Some (h, pend))
  | _ =>
      match fuel with
      | 0 => Ok None
      | S fuel =>
          let* r := take_child 2 active pend h in let '(h, pend) := r in
          let* r := take_child 3 active pend h in let '(h, pend) := r in
          let* x := load h active in
          let* h := Relinquish active h in
          level fuel (pointer 0 x) pend h
      end
  end.
(** lines 698-732 *)
Fixpoint levels (turns fuel pend : nat) (h : heap) : outcome (option heap) :=
  match pend with
  | 0 => Ok (Some h)
  | _ =>
      match turns with
      | 0 => Ok None
      | S turns => let* r := level fuel pend 0 h in match r with None => Ok None | Some (h, pend) => levels turns fuel pend h end
      end
  end.
(** None: the loops go on for more than [fuel] turns *)
Definition DestroySplayTree (fuel p : nat) (h : heap) : outcome (option heap) :=
  let* x := load h p in
  let* _ := match pointer 1 x with 0 => Fatal | q => load h q end in                  (* LockSemaphoreInfo *)
  let* r := match pointer 0 x with
            | 0 => Ok (Some h)
            | root => let* h := take_node root 0 h in levels fuel fuel root h
            end in
  match r with
  | None => Ok None
  | Some h =>
      let* x := load h p in
      let* h := store h p (mkBlock (class_of x) false (kind x) (bytes x) (pointers x)) in
      let* h := relinquish_semaphore 1 p h in
      let* h := Relinquish p h in
      Ok (Some h)
  end.
(** key.c:154-173 *)
Definition DestroyKeyInfo (fuel p : nat) (h : heap) : outcome (option heap) :=
  let* _ := check p h in
  let* h := destroy_members [(3, DestroyCipherInfo); (4, DestroyRandomInfo); (2, DestroyStringInfo); (1, DestroyStringInfo)] p h in
  let* x := load h p in
  let* r := match pointer 0 x with
            | 0 => Ok (Some h)
            | t => let* r := DestroySplayTree fuel t h in match r with None => Ok None | Some h => let* h := set_pointer p 0 0 h in Ok (Some h) end
            end in
  match r with None => Ok None | Some h => let* h := finish p h in Ok (Some h) end.

(** ** Acquiring *)
Definition acquire := heap -> outcome (heap * nat).
(** AcquireWizardMemory and memset: a structure with [n] pointers, all NULL *)
Definition structure (c : class) (k : N) (n : nat) : acquire := fun h => Ok (alloc h (mkBlock c true k [] (repeat 0 n))).
(** AcquireQuantumMemory of an array that is filled with [l] *)
Definition array (l : list N) : acquire := fun h => Ok (alloc h (mkBlock Raw true 0 l [])).
(** p->member=Acquire() *)
Definition acquire_member (i : nat) (A : acquire) (p : nat) (h : heap) : outcome heap :=
  let* r := A h in let '(h, q) := r in set_pointer p i q h.
Fixpoint acquire_members (l : list (nat * acquire)) (p : nat) (h : heap) : outcome heap :=
  match l with [] => Ok h | (i, A) :: l => let* h := acquire_member i A p h in acquire_members l p h end.
Definition acquire_object (c : class) (k : N) (n : nat) (l : list (nat * acquire)) : acquire := fun h =>
  let* r := structure c k n h in let '(h, p) := r in
  let* h := acquire_members l p h in
  Ok (h, p).
(** string.c:179-201, with its contents *)
Definition AcquireStringInfo (l : list N) : acquire := acquire_object StringC 0 1 [(0, array l)].
(** string.c:332-345 *)
Definition CloneStringInfo (p : nat) : acquire := fun h =>
  let* x := check p h in
  let* d := load h (pointer 0 x) in
  AcquireStringInfo (bytes d) h.
(** aes.c:165-187 *)
Definition AcquireAESInfo : acquire := acquire_object AESC 0 3 [(0, AcquireStringInfo []); (1, array []); (2, array [])].
Definition AcquireArrayInfo : acquire := acquire_object ArrayC 0 0 [].
(** crc64.c:94-113 *)
Definition AcquireCRC64Info : acquire := acquire_object CRC64C 0 2 [(0, AcquireStringInfo []); (1, array [])].
(** md5.c:102-122, sha1.c:110-137 and its likes *)
Definition AcquireMessageInfo : acquire := acquire_object MessageC 0 3 [(0, AcquireStringInfo []); (1, AcquireStringInfo []); (2, array [])].
(** sha3.c:131-186 *)
Definition AcquireSHA3Info : acquire := acquire_object SHA3C 0 1 [(0, AcquireStringInfo [])].
(** hash.c:101-208 *)
Definition AcquireHashInfo (hash : N) : acquire :=
  acquire_object HashC hash 2
    [(1, match hash_class hash with Some CRC64C => AcquireCRC64Info | Some MessageC => AcquireMessageInfo | Some SHA3C => AcquireSHA3Info | _ => fun _ => Fatal end);
     (0, AcquireStringInfo [])].
(** hmac.c:91-111 *)
Definition AcquireHMACInfo (hash : N) : acquire :=
  acquire_object HMACC 0 4 [(0, AcquireHashInfo hash); (1, AcquireStringInfo []); (3, AcquireStringInfo []); (2, AcquireStringInfo [])].
(** random.c:166-270: the entropy and the key of the seed are acquired and given back; what is left of the key is secret_key.
    The hash is one of those that are known, saving the reservoir succeeds (DESIGN.md). *)
Definition AcquireRandomInfo (hash : N) (nonce entropy : list N) : acquire := fun h =>
  let* r := acquire_object RandomC 0 4 [(0, AcquireHMACInfo hash); (1, AcquireStringInfo []); (2, AcquireStringInfo []); (3, array [])] h in let '(h, p) := r in
  let* r := AcquireStringInfo nonce h in let '(h, q) := r in
  let* h := DestroyStringInfo q h in
  let* r := AcquireStringInfo entropy h in let '(h, q) := r in
  let* h := DestroyStringInfo q h in
  Ok (h, p).
(** cipher.c:56, key.c:57-60, secret.c:57-60 *)
Definition SHA2256Hash : N := 7.
Definition AESCipher : N := 2.
(** cipher.c:134-204: the nonce is made last *)
Definition AcquireCipherInfo (cipher : N) (nonce entropy : list N) : acquire :=
  acquire_object CipherC cipher 3
    [(0, match cipher_class cipher with Some AESC => AcquireAESInfo | Some ArrayC => AcquireArrayInfo | _ => fun _ => Fatal end);
     (2, AcquireRandomInfo SHA2256Hash nonce entropy); (1, AcquireStringInfo nonce)].
(** keyring.c:108-129; the path NULL is None *)
Definition AcquireKeyringInfo (path : option (list N)) : acquire :=
  acquire_object KeyringC 0 4 (match path with None => [] | Some t => [(0, array t)] end).
(** secret.c:124-143 *)
Definition AcquireSecretInfo (path : option (list N)) (hash : N) (nonce entropy : list N) : acquire :=
  acquire_object SecretC 0 9
    [(5, AcquireKeyringInfo path); (6, AcquireCipherInfo AESCipher nonce entropy); (4, AcquireStringInfo nonce); (7, AcquireHMACInfo hash); (8, AcquireRandomInfo SHA2256Hash nonce entropy)].
(** authenticate.c:100-127 *)
Definition AcquireAuthenticateInfo (method : N) (path : option (list N)) (hash : N) (nonce entropy : list N) : acquire :=
  acquire_object AuthenticateC method 1 [(0, if (method =? 1)%N then AcquireSecretInfo path hash nonce entropy else fun _ => Fatal)].
(** splay-tree.c:1094-1118 *)
Definition NewSplayTree : acquire := acquire_object SplayC 0 2 [(1, array [])].
(** splay-tree.c:152-218: the first node of a tree; key and value are handed over *)
Definition first_node (t : nat) (K V : acquire) (h : heap) : outcome heap :=
  let* r := acquire_object NodeC 0 4 [(0, K); (1, V)] h in let '(h, n) := r in
  set_pointer t 0 n h.
(** key.c:111-129 and 196-236: the session key and what it is made of *)
Definition AcquireKeyInfo (nonce entropy mac_key key id : list N) : acquire := fun h =>
  let* r := acquire_object KeyC 0 5
              [(0, NewSplayTree); (3, AcquireCipherInfo AESCipher nonce entropy); (2, AcquireStringInfo nonce); (4, AcquireRandomInfo SHA2256Hash nonce entropy)] h in
  let '(h, p) := r in
  let* r := AcquireStringInfo mac_key h in let '(h, m) := r in
  let* r := AcquireStringInfo key h in let '(h, k) := r in
  let* r := AcquireHMACInfo SHA2256Hash h in let '(h, a) := r in
  let* r := AcquireStringInfo id h in let '(h, i) := r in
  let* h := DestroyHMACInfo a h in
  let* h := DestroyStringInfo m h in
  let* x := load h p in
  let* h := first_node (pointer 0 x) (CloneStringInfo i) (CloneStringInfo k) h in
  let* h := DestroyStringInfo k h in
  let* h := set_pointer p 1 i h in
  Ok (h, p).

(** ** The setters *)
(** SetKeyringId, SetKeyringKey, SetKeyringNonce, keyring.c:752-824; SetSecretId, secret.c:482-487: the member is given back first, then the value is copied *)
Definition set_copy (i p q : nat) (h : heap) : outcome heap :=
  let* h := destroy_member i DestroyStringInfo p h in
  acquire_member i (CloneStringInfo q) p h.
Definition SetKeyringId : nat -> nat -> heap -> outcome heap := fun p q h => let* _ := check p h in set_copy 1 p q h.
Definition SetKeyringKey : nat -> nat -> heap -> outcome heap := fun p q h => let* _ := check p h in set_copy 2 p q h.
Definition SetKeyringNonce : nat -> nat -> heap -> outcome heap := fun p q h => let* _ := check p h in set_copy 3 p q h.
(** no assertions: NULL is dereferenced *)
Definition SetSecretId : nat -> nat -> heap -> outcome heap := set_copy 1.
(** secret.c:547-553, string.c:656-678: the text is read behind the pointer [q] *)
Definition ConstantString (q : nat) : acquire := fun h => match q with 0 => array [] h | _ => let* x := load h q in array (bytes x) h end.
Definition SetSecretPassphrase (p q : nat) (h : heap) : outcome heap :=
  let* h := destroy_member 0 Relinquish p h in
  acquire_member 0 (ConstantString q) p h.
(** authenticate.c:521-545 *)
Definition SetAuthenticateId (p q : nat) (h : heap) : outcome heap :=
  let* x := check p h in
  if (kind x =? 1)%N then match pointer 0 x with 0 => Fatal | s => SetSecretId s q h end else Fatal.
(** string.c:1792-1805: the bytes are set to 0 and then copied over the shorter length *)
Definition SetStringInfo (p q : nat) (h : heap) : outcome heap :=
  let* x := check p h in
  let* y := check q h in
  let* d := load h (pointer 0 x) in
  match bytes d with
  | [] => Ok h
  | _ =>
      let n := length (bytes d) in
      let* h := store h (pointer 0 x) (with_bytes d (repeat 0%N n)) in
      let* s := load h (pointer 0 y) in
      let* d := load h (pointer 0 x) in
      store h (pointer 0 x) (with_bytes d (firstn n (bytes s) ++ skipn (length (bytes s)) (bytes d)))
  end.
(** cipher.c:1394-1402 *)
Definition SetCipherNonce (p q : nat) (h : heap) : outcome heap := let* x := check p h in SetStringInfo (pointer 1 x) q h.

(** ** What is handed out: the members themselves *)
(** keyring.c:355-361 and 385-391, secret.c:360-366, cipher.c:1332-1338 *)
Definition get_member (i p : nat) (h : heap) : outcome nat := let* x := check p h in Ok (pointer i x).
Definition GetKeyringKey : nat -> heap -> outcome nat := get_member 2.
Definition GetKeyringNonce : nat -> heap -> outcome nat := get_member 3.
Definition GetSecretId : nat -> heap -> outcome nat := get_member 1.
Definition GetCipherNonce : nat -> heap -> outcome nat := get_member 1.
(** authenticate.c:315-341 *)
Definition GetAuthenticateId (p : nat) (h : heap) : outcome nat :=
  let* x := check p h in
  if (kind x =? 1)%N then GetSecretId (pointer 0 x) h else Fatal.

(** ** Programs: objects in variables, each of which is acquired, set and destroyed *)
Inductive request :=
| NewString (l : list N) | NewCipher (cipher : N) (nonce entropy : list N) | NewHash (hash : N) | NewHMAC (hash : N)
| NewRandom (hash : N) (nonce entropy : list N) | NewKeyring (path : option (list N)) | NewSecret (path : option (list N)) (hash : N) (nonce entropy : list N)
| NewAuthenticate (path : option (list N)) (hash : N) (nonce entropy : list N).
Definition acquire_request (r : request) : acquire :=
  match r with
  | NewString l => AcquireStringInfo l
  | NewCipher k n e => AcquireCipherInfo k n e
  | NewHash k => AcquireHashInfo k
  | NewHMAC k => AcquireHMACInfo k
  | NewRandom k n e => AcquireRandomInfo k n e
  | NewKeyring t => AcquireKeyringInfo t
  | NewSecret t k n e => AcquireSecretInfo t k n e
  | NewAuthenticate t k n e => AcquireAuthenticateInfo 1 t k n e
  end.
Definition request_class (r : request) : class :=
  match r with
  | NewString _ => StringC | NewCipher _ _ _ => CipherC | NewHash _ => HashC | NewHMAC _ => HMACC | NewRandom _ _ _ => RandomC
  | NewKeyring _ => KeyringC | NewSecret _ _ _ _ => SecretC | NewAuthenticate _ _ _ _ => AuthenticateC
  end.
Inductive setter := KeyringId | KeyringKey | KeyringNonce | SecretId | AuthenticateId | CipherNonce | StringDatum.
Definition call_setter (s : setter) : nat -> nat -> heap -> outcome heap :=
  match s with
  | KeyringId => SetKeyringId | KeyringKey => SetKeyringKey | KeyringNonce => SetKeyringNonce | SecretId => SetSecretId
  | AuthenticateId => SetAuthenticateId | CipherNonce => SetCipherNonce | StringDatum => SetStringInfo
  end.
Definition destroy (c : class) : nat -> heap -> outcome heap :=
  match c with
  | Raw => Relinquish | StringC => DestroyStringInfo | CipherC => DestroyCipherInfo | HashC => DestroyHashInfo | HMACC => DestroyHMACInfo
  | RandomC => DestroyRandomInfo | KeyringC => DestroyKeyringInfo | SecretC => DestroySecretInfo | AuthenticateC => DestroyAuthenticateInfo
  | _ => fatal
  end.
Inductive op := New (v : nat) (r : request) | Set_ (s : setter) (v w : nat) | Delete (v : nat).
Definition variables := list (nat * (class * nat)).
Fixpoint find (v : nat) (e : variables) : option (class * nat) :=
  match e with [] => None | (w, x) :: e => if Nat.eqb v w then Some x else find v e end.
Definition remove (v : nat) (e : variables) : variables := filter (fun '(w, _) => negb (Nat.eqb v w)) e.
(** a variable that has no object is NULL *)
Definition step (o : op) (h : heap) (e : variables) : outcome (heap * variables) :=
  match o with
  | New v r => let* x := acquire_request r h in let '(h, p) := x in Ok (h, (v, (request_class r, p)) :: remove v e)
  | Set_ s v w => match find v e, find w e with Some (_, p), Some (_, q) => let* h := call_setter s p q h in Ok (h, e) | _, _ => Fatal end
  | Delete v => match find v e with Some (c, p) => let* h := destroy c p h in Ok (h, remove v e) | None => Fatal end
  end.
Fixpoint run (ops : list op) (h : heap) (e : variables) : outcome (heap * variables) :=
  match ops with [] => Ok (h, e) | o :: ops => let* r := step o h e in let '(h, e) := r in run ops h e end.
