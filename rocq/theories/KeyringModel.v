(** Model of wizard/keyring.c: ExportKeyringKey and ImportKeyringKey.

    A StringInfo is its contents (C49); logging, exceptions, assertions and the
    path are left out.  A keyring file is its bytes, None if there is none;
    opening, locking (C56) and seeking succeed.  Reading ends as FileProps.v
    shows; every write has an outcome of its own.  A time_t is its 64 bits. *)
From Coq Require Import NArith Arith List Bool.
From Verif Require Import Base FileModel RandomModel KeyringSpec.
Import ListNotations.

(** method-attribute.h 104 *)
Definition WizardSignature : N := 0xabacadab.
(** keyring.c 58: "keyring" *)
Definition KeyringFiletype : list N := [107; 101; 121; 114; 105; 110; 103]%N.

(** keyring.c 65-84, without path and signature (which is always
    WizardSignature: keyring.c 126 and 258-265) *)
Record KeyringInfo := mkKeyring {
  k_id : list N;
  k_key : list N;
  k_nonce : list N;
  k_major : N;
  k_minor : N;
  k_timestamp : N
}.
(** keyring.c 108-128 followed by SetKeyringId (752-759) *)
Definition AcquireKeyringInfo (id : list N) (now : N) : KeyringInfo := mkKeyring id [] [] 1 1 now.

Definition same_string (a b : list N) : bool := if list_eq_dec N.eq_dec a b then true else false.

(** keyring.c 256-330.  [len] is the variable length, [ts] the uninitialised
    timestamp.  Each turn reads at least four bytes, so [turns] = one more than
    the file has bytes is enough. *)
Fixpoint export_loop (turns : nat) (f : file) (k : KeyringInfo) (len ts : N) : bool * KeyringInfo :=
  match turns with
  | O => (false, k)
  | S turns =>
      let '(s, signature, f) := ReadFile32Bits f 0%N in
      if negb s then (false, k)
      else if negb (signature =? WizardSignature)%N then (false, k)
      else
        let '(s1, len, f) := ReadFile32Bits f len in
        let '(s2, major, f) := ReadFile16Bits f (k_major k) in
        let '(s3, minor, f) := ReadFile16Bits f (k_minor k) in
        let '(s4, ts, f) := if (major =? 1)%N && (minor =? 0)%N then (true, len, f) else ReadFile64Bits f ts in
        let k := mkKeyring (k_id k) (k_key k) (k_nonce k) major minor ts in
        let '(s5, len, f) := ReadFile32Bits f len in
        if negb (s1 && s2 && s3 && s4 && s5) then (false, k)
        else
          let '(s6, id, f) := read_chunk f (N.to_nat len) in
          let '(s7, len, f) := ReadFile32Bits f len in
          if negb (s6 && s7) then (false, k)
          else
            let '(s8, key, f) := read_chunk f (N.to_nat len) in
            let '(s9, len, f) := ReadFile32Bits f len in
            if negb (s8 && s9) then (false, k)
            else
              (* the StringInfo was zeroed when it was acquired *)
              let '(s10, nonce, f) := read_chunk f (N.to_nat len) in
              let nonce := nonce ++ repeat 0%N (N.to_nat len - length nonce) in
              if same_string (k_id k) id then (true, mkKeyring (k_id k) key nonce major minor ts)
              else if negb s10 then (false, k)
              else export_loop turns f k len ts
  end.

Section Run.
Variables (fuel : nat) (lsb : bool) (junk : list N).

Definition keyring_magick : list N := GetWizardMagick fuel lsb junk WizardMagick.
Definition keyring_filetype : list N := GetWizardMagick fuel lsb junk KeyringFiletype.

(** keyring.c 195-331 *)
Definition ExportKeyringKey (file : option (list N)) (k : KeyringInfo) (ts : N) : bool * KeyringInfo :=
  match file with
  | None => (false, k)
  | Some bytes =>
      let '(status, target, f) := read_chunk (mkFile bytes 0) (length keyring_magick) in
      if negb status || negb (same_string target keyring_magick) then (false, k)
      else
        let '(status, target, f) := read_chunk f (length keyring_filetype) in
        if negb status || negb (same_string target keyring_filetype) then (false, k)
        else export_loop (S (length bytes)) f k 0%N ts
  end.

(** ** writing: [amounts] lists how many bytes each WriteFileChunk got written
    before it failed; past its end all of them succeed *)
Fixpoint write_all (f : file) (chunks : list (list N)) (amounts : list nat) : file * list nat * bool :=
  match chunks with
  | [] => (f, amounts, true)
  | c :: chunks =>
      let '(a, amounts) := match amounts with [] => (length c, []) | a :: amounts => (a, amounts) end in
      let '(f, amounts, status) := write_all (write_chunk f (firstn a c)) chunks amounts in
      (f, amounts, (length c <=? a) && status)
  end.

(** keyring.c 467-475 *)
Definition header_chunks : list (list N) := [keyring_magick; keyring_filetype].
(** keyring.c 485-500 *)
Definition record_chunks (k : KeyringInfo) : list (list N) :=
  [buffer32 WizardSignature; buffer32 0; buffer16 (k_major k); buffer16 (k_minor k); buffer64 (k_timestamp k);
   buffer32 (N.of_nat (length (k_id k))); k_id k;
   buffer32 (N.of_nat (length (k_key k))); k_key k;
   buffer32 (N.of_nat (length (k_nonce k))); k_nonce k].

(** keyring.c 463-500: the writes *)
Definition import_writes (old : list N) (k : KeyringInfo) (amounts : list nat) : list N :=
  let '(f, amounts, _) := write_all (mkFile old 0) header_chunks amounts in
  let f := mkFile (f_bytes f) (length (f_bytes f)) in
  let '(f, _, _) := write_all f (record_chunks k) amounts in
  f_bytes f.

(** keyring.c 418-507: the result and the file; [now] is the time, [ts] the
    uninitialised variable of ExportKeyringKey *)
Definition ImportKeyringKey (file : option (list N)) (k : KeyringInfo) (amounts : list nat) (now ts : N) : bool * option (list N) :=
  if fst (ExportKeyringKey file (AcquireKeyringInfo (k_id k) now) ts) then (false, file)
  else (true, Some (import_writes (match file with Some b => b | None => [] end) k amounts)).

(** ** clients: any number of KeyringInfos, one keyring file, and any history of
    calls.  SetKeyringId, SetKeyringKey, SetKeyringNonce: keyring.c 752-857. *)
Definition step (o : op) (s : (nat -> KeyringInfo) * option (list N)) : bool * ((nat -> KeyringInfo) * option (list N)) :=
  let (ks, file) := s in
  match o with
  | Acquire h now => (true, (update ks h (AcquireKeyringInfo [] now), file))
  | SetId h x => let k := ks h in (true, (update ks h (mkKeyring x (k_key k) (k_nonce k) (k_major k) (k_minor k) (k_timestamp k)), file))
  | SetKey h x => let k := ks h in (true, (update ks h (mkKeyring (k_id k) x (k_nonce k) (k_major k) (k_minor k) (k_timestamp k)), file))
  | SetNonce h x => let k := ks h in (true, (update ks h (mkKeyring (k_id k) (k_key k) x (k_major k) (k_minor k) (k_timestamp k)), file))
  | Export h ts => let (r, k) := ExportKeyringKey file (ks h) ts in (r, (update ks h k, file))
  | Import h now ts => let (r, file) := ImportKeyringKey file (ks h) [] now ts in (r, (ks, file))
  end.
Fixpoint run (ops : list op) (s : (nat -> KeyringInfo) * option (list N)) : list bool * ((nat -> KeyringInfo) * option (list N)) :=
  match ops with
  | [] => ([], s)
  | o :: ops => let (r, s) := step o s in let (rs, s) := run ops s in (r :: rs, s)
  end.

(** the process dies when [n] more bytes have been written: what every write
    then amounts to *)
Fixpoint cut (n : nat) (lens : list nat) : list nat :=
  match lens with
  | [] => []
  | l :: lens => Nat.min n l :: cut (n - l) lens
  end.
Definition crash_amounts (n : nat) (k : KeyringInfo) : list nat := cut n (map (@length N) (header_chunks ++ record_chunks k)).
End Run.
