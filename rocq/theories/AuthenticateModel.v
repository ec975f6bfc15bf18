(** wizard/authenticate.c, and what of wizard/secret.c is not in SecretModel.v: objects that are acquired, set, used and destroyed in
    any order, and share one keyring file.

    Strings are their contents.  [read] is FileToStringInfo, what GetPassphrase gives is an argument of the call; the bytes drawn from the
    random generator are [pool].  All objects have the same path.
    Not modelled: memory that is not freed (secret.c:234-260 leaves the pass phrase). *)
From Coq Require Import NArith Arith List Bool.
From Verif Require Import Base Outcome HashModel HmacModel KeyringModel SecretModel.
Import ListNotations.

(** authenticate.c:57-72 with the members of secret.c:66-98 that SecretModel.SecretInfo lacks: whether id and key are not NULL,
    the length of keys and the file with the pass phrase; a_hash is the hash of hmac_info *)
Record AuthenticateInfo := mkAuth {
  a_method : N; a_hash : HashType; a_secret : SecretInfo; a_has_id : bool; a_has_key : bool; a_length : nat; a_passphrase : option (list N) }.
(** authenticate.h:32-37 *)
Definition SecretAuthenticateMethod : N := 1.
(** authenticate.c:53 *)
Definition SecretKeyLength : nat := 1024.

Record world := mkWorld { objects : nat -> option AuthenticateInfo; keyring_file : option (list N) }.
Definition put (w : world) (h : nat) (a : option AuthenticateInfo) : world :=
  mkWorld (fun i => if Nat.eqb i h then a else objects w i) (keyring_file w).

Inductive op :=
| Acquire (h : nat) (method : N) (hash : HashType) (nonce : list N) (now : N)
| SetId (h : nat) (id : list N)
| SetLength (h : nat) (n : nat)
| SetPassphrase (h : nat) (name : list N)
| Generate (h : nat) (asked : option (list N)) (pool : nat -> N) (turns : nat) (rnd : nat -> N) (amounts : list nat) (now ts : N)
| Authenticate (h : nat) (asked : option (list N)) (ts : N)
| Destroy (h : nat).

(** authenticate.c:315-340, 366-391, 417-443, 468-493; secret.c:360-456: NULL is None *)
Definition GetId (a : AuthenticateInfo) : option (list N) := if a_has_id a then Some (x_id (a_secret a)) else None.
Definition GetKey (a : AuthenticateInfo) : option (list N) := if a_has_key a then Some (x_key (a_secret a)) else None.
Definition GetKeyLength (a : AuthenticateInfo) : nat := a_length a.

(** GetRandomKey(random_info,key_length/8), once and again (secret.c:314-315) *)
Definition draws (pool : nat -> N) (len turns : nat) : list (list N) :=
  map (fun j => map (fun i => pool (j * len + i)) (seq 0 len)) (seq 0 turns).

Section Run.
Variables (fuel : nat) (lsb : bool) (junk : list N).
Variable read : list N -> option (list N).

(** secret.c:180-183 and 302-305 *)
Definition phrase_of (a : AuthenticateInfo) (asked : option (list N)) : option (list N) :=
  match a_passphrase a with None => asked | Some name => read name end.

(** authenticate.c:100-127 and secret.c:124-143.  The StringInfo of id and key are NULL *)
Definition AcquireAuthenticateInfo (method : N) (hash : HashType) (nonce : list N) (now : N) : outcome AuthenticateInfo :=
  if (method =? SecretAuthenticateMethod)%N then
    Ok (mkAuth method hash (mkSecret (AcquireKeyringInfo [] now) nonce (AcquireHMACInfo junk hash) [] []) false false SecretKeyLength None)
  else Fatal.

(** authenticate.c:153-184, secret.c:170-210.  CloneStringInfo refuses the id NULL (string.c:236) *)
Definition AuthenticateKey (a : AuthenticateInfo) (asked : option (list N)) (file : option (list N)) (ts : N) : outcome (option (bool * AuthenticateInfo)) :=
  if negb (a_method a =? SecretAuthenticateMethod)%N then Fatal
  else if negb (a_has_id a) then Fatal
  else
    let s := a_secret a in
    let (status, k) := ExportKeyringKey fuel lsb junk file (with_id (x_keyring s) (x_id s)) ts in
    let before := mkAuth (a_method a) (a_hash a) (mkSecret k (x_nonce s) (x_hmac s) (x_id s) (x_key s)) true (a_has_key a) (a_length a) (a_passphrase a) in
    if negb status then Ok (Some (false, before))
    else
      match phrase_of a asked with
      | None => Ok (Some (false, before))
      | Some phrase =>
          let* r := AuthenticateSecretKey fuel lsb junk phrase s file ts in
          Ok (match r with
              | None => None
              | Some (b, s) => Some (b, mkAuth (a_method a) (a_hash a) s true true (a_length a) (a_passphrase a))
              end)
      end.

(** authenticate.c:260-291, secret.c:286-336 *)
Definition GenerateAuthenticateKey (a : AuthenticateInfo) (asked : option (list N)) (pool : nat -> N) (turns : nat) (file : option (list N))
    (rnd : nat -> N) (amounts : list nat) (now ts : N) : outcome (option (bool * AuthenticateInfo * option (list N))) :=
  if negb (a_method a =? SecretAuthenticateMethod)%N then Fatal
  else
    match phrase_of a asked with
    | None => Ok (Some (false, a, file))
    | Some phrase =>
        let* r := GenerateSecretKey fuel lsb junk phrase (draws pool (a_length a / 8) turns) (a_secret a) file rnd amounts now ts in
        Ok (match r with
            | None => None
            | Some (b, s, file) => Some (b, mkAuth (a_method a) (a_hash a) s true true (a_length a) (a_passphrase a), file)
            end)
    end.

(** authenticate.c:521-547, secret.c:482-487 *)
Definition SetAuthenticateId (a : AuthenticateInfo) (id : list N) : outcome AuthenticateInfo :=
  if negb (a_method a =? SecretAuthenticateMethod)%N then Fatal
  else let s := a_secret a in
       Ok (mkAuth (a_method a) (a_hash a) (mkSecret (x_keyring s) (x_nonce s) (x_hmac s) id (x_key s)) true (a_has_key a) (a_length a) (a_passphrase a)).
(** authenticate.c:572-597, secret.c:514-521 *)
Definition SetAuthenticateKeyLength (a : AuthenticateInfo) (n : nat) : AuthenticateInfo :=
  if (a_method a =? SecretAuthenticateMethod)%N then mkAuth (a_method a) (a_hash a) (a_secret a) (a_has_id a) (a_has_key a) n (a_passphrase a) else a.
(** authenticate.c:623-648, secret.c:547-553 *)
Definition SetAuthenticatePassphrase (a : AuthenticateInfo) (name : list N) : AuthenticateInfo :=
  if (a_method a =? SecretAuthenticateMethod)%N then mkAuth (a_method a) (a_hash a) (a_secret a) (a_has_id a) (a_has_key a) (a_length a) (Some name) else a.

(** one call; an object that is not there is a NULL pointer, which the assertions refuse *)
Definition step (o : op) (w : world) : outcome (option (bool * world)) :=
  match o with
  | Acquire h method hash nonce now =>
      let* a := AcquireAuthenticateInfo method hash nonce now in Ok (Some (true, put w h (Some a)))
  | SetId h id =>
      match objects w h with None => Fatal | Some a => let* a := SetAuthenticateId a id in Ok (Some (true, put w h (Some a))) end
  | SetLength h n =>
      match objects w h with None => Fatal | Some a => Ok (Some (true, put w h (Some (SetAuthenticateKeyLength a n)))) end
  | SetPassphrase h name =>
      match objects w h with None => Fatal | Some a => Ok (Some (true, put w h (Some (SetAuthenticatePassphrase a name)))) end
  | Generate h asked pool turns rnd amounts now ts =>
      match objects w h with
      | None => Fatal
      | Some a =>
          let* r := GenerateAuthenticateKey a asked pool turns (keyring_file w) rnd amounts now ts in
          Ok (match r with None => None | Some (b, a, file) => Some (b, mkWorld (objects (put w h (Some a))) file) end)
      end
  | Authenticate h asked ts =>
      match objects w h with
      | None => Fatal
      | Some a =>
          let* r := AuthenticateKey a asked (keyring_file w) ts in
          Ok (match r with None => None | Some (b, a) => Some (b, put w h (Some a)) end)
      end
  | Destroy h =>                                                             (* authenticate.c:208-231 *)
      match objects w h with None => Fatal | Some a => if (a_method a =? SecretAuthenticateMethod)%N then Ok (Some (true, put w h None)) else Fatal end
  end.
Fixpoint run (ops : list op) (w : world) : outcome (option world) :=
  match ops with
  | [] => Ok (Some w)
  | o :: ops => let* r := step o w in match r with None => Ok None | Some (_, w) => run ops w end
  end.
End Run.
Definition start : world := mkWorld (fun _ => None) None.
