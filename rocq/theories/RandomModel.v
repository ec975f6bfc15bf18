(** Model of wizard/random.c (and GetWizardMagick of wizard/magick.c).

    A StringInfo is its contents (C49).  Semaphores and logging are left out;
    the entropy gathered by GenerateEntropicChaos is an argument of
    AcquireRandomInfo and its assembly is modelled on its own below.  The clock,
    the file system and uninitialised memory are arguments. *)
From Coq Require Import NArith Arith List Bool.
From Verif Require Import Base Outcome HashModel HmacModel FileModel Crc64Model StringInfoModel.
Import ListNotations.

(** random.c 75-108, without the fields that never change *)
Record RandomInfo := mkRandomInfo {
  r_hmac : HMACInfo;
  r_nonce : list N;
  r_reservoir : list N;
  r_i : nat;
  r_seed : list N;
  r_protocol_major : N;
  r_protocol_minor : N;
  r_timestamp : N
}.

(** [Wrap]: the fatal "Sequence wrap error", which ends the process;
    [Stuck]: a loop of sha3.c did not end within the fuel *)
Inductive rres (A : Type) := Done (a : A) | Wrap | Stuck.
Arguments Done {A} a. Arguments Wrap {A}. Arguments Stuck {A}.

(** random.c 1050-1066.  [increment_loop] sees the bytes from the last one
    down to index 1 *)
Fixpoint increment_loop (rest : list N) : option (list N) :=
  match rest with
  | [] => None
  | b :: rest =>
      let b := ((b + 1) mod 256)%N in
      if (b =? 0)%N then option_map (cons b) (increment_loop rest) else Some (b :: rest)
  end.
Definition IncrementRandomNonce (nonce : list N) : option (list N) :=
  match nonce with
  | [] => None
  | b :: rest => option_map (fun r => b :: rev r) (increment_loop (rev rest))
  end.

Section Run.
Variables (fuel : nat) (lsb : bool) (junk : list N).

(** random.c 1098-1100 and 1109-1111 *)
Definition mac (hm : HMACInfo) (nonce : list N) : option HMACInfo :=
  match ResetHMAC fuel lsb hm with
  | Some hm => match UpdateHMAC fuel lsb hm nonce with Some hm => FinalizeHMAC fuel lsb junk hm | None => None end
  | None => None
  end.

(** GetHMACDigestsize *)
Definition hm_digestsize (hm : HMACInfo) : nat := GetHashDigestsize (hi_hash (hm_hash_info hm)).

(** random.c 1089-1095: the bytes copied, what is left of i, the new
    random_info->i *)
Fixpoint drain (i ri : nat) (datum : list N) (digestsize : nat) : list N * nat * nat :=
  match i with
  | O => ([], O, ri)
  | S i' =>
      if Nat.eqb ri 0 then ([], i, ri)
      else
        let ri' := if Nat.eqb (S ri) digestsize then 0 else S ri in
        let '(out, rest, ri'') := drain i' ri' datum digestsize in
        (get datum ri :: out, rest, ri'')
  end.

(** one digest: random.c 1098-1101 and 1109-1112 *)
Definition next_block (hm : HMACInfo) (nonce : list N) : rres (HMACInfo * list N) :=
  match mac hm nonce with
  | None => Stuck
  | Some hm => match IncrementRandomNonce nonce with Some n => Done (hm, n) | None => Wrap end
  end.

(** random.c 1096-1106: [while (i >= digestsize)] takes i / digestsize turns;
    the last component lists the nonces that were hashed *)
Fixpoint whole_blocks (turns : nat) (hm : HMACInfo) (nonce : list N) : rres (HMACInfo * list N * list N * list (list N)) :=
  match turns with
  | O => Done (hm, nonce, [], [])
  | S t =>
      match next_block hm nonce with
      | Done (hm', nonce') =>
          match whole_blocks t hm' nonce' with
          | Done (hm'', nonce'', out, used) => Done (hm'', nonce'', firstn (hm_digestsize hm') (hm_digest hm') ++ out, nonce :: used)
          | Wrap => Wrap
          | Stuck => Stuck
          end
      | Wrap => Wrap
      | Stuck => Stuck
      end
  end.

(** random.c 1068-1121 *)
Definition SetRandomKey (r : RandomInfo) (len : nat) : rres (RandomInfo * list N * list (list N)) :=
  let d := hm_digestsize (r_hmac r) in
  let with_state hm nonce reservoir i :=
    mkRandomInfo hm nonce reservoir i (r_seed r) (r_protocol_major r) (r_protocol_minor r) (r_timestamp r) in
  if Nat.eqb len 0 then Done (r, [], [])
  else
    let '(out1, i, ri) := drain len (r_i r) (r_reservoir r) d in
    match whole_blocks (i / d) (r_hmac r) (r_nonce r) with
    | Wrap => Wrap
    | Stuck => Stuck
    | Done (hm, nonce, out2, used) =>
        let i := i mod d in
        if Nat.eqb i 0 then Done (with_state hm nonce (r_reservoir r) ri, out1 ++ out2, used)
        else
          match next_block hm nonce with
          | Wrap => Wrap
          | Stuck => Stuck
          | Done (hm, nonce') =>
              let reservoir := set_string (r_reservoir r) (hm_digest hm) in
              Done (with_state hm nonce' reservoir i, out1 ++ out2 ++ firstn i reservoir, used ++ [nonce])
          end
    end.

(** a caller's sequence of requests *)
Fixpoint requests (r : RandomInfo) (lens : list nat) : rres (RandomInfo * list (list N) * list (list N)) :=
  match lens with
  | [] => Done (r, [], [])
  | n :: lens =>
      match SetRandomKey r n with
      | Done (r, out, used) =>
          match requests r lens with
          | Done (r, outs, used') => Done (r, out :: outs, used ++ used')
          | Wrap => Wrap
          | Stuck => Stuck
          end
      | Wrap => Wrap
      | Stuck => Stuck
      end
  end.

(** ** random.c 165-264 *)
(** the object after memset and the acquisitions, 181-202 *)
Definition fresh_RandomInfo (hash : HashType) (timestamp : N) : RandomInfo :=
  let hm := AcquireHMACInfo junk hash in
  mkRandomInfo hm (repeat 0%N (2 * hm_digestsize hm)) (repeat 0%N (hm_digestsize hm)) 0
    [0x76e15d3efefdcbbf; 0xc5004e441c522fb3; 0x77710069854ee241; 0x39109bb02acbe635]%N 1 1 timestamp.

(** 203-224: nonce and reservoir *)
Definition seed_RandomInfo (r : RandomInfo) (chaos entropy : list N) : option RandomInfo :=
  match InitializeHMAC fuel lsb junk (r_hmac r) chaos with
  | None => None
  | Some hm =>
      let nonce := set_string (repeat 0%N ((hm_digestsize hm + 1) / 2)) (hm_digest hm) in
      let random_nonce := set_string (r_nonce r) nonce in
      match InitializeHMAC fuel lsb junk hm entropy with
      | None => None
      | Some hm =>
          Some (mkRandomInfo hm random_nonce (set_string (r_reservoir r) (hm_digest hm)) (r_i r) (r_seed r)
                  (r_protocol_major r) (r_protocol_minor r) (r_timestamp r))
      end
  end.

(** what SaveEntropyToReservoir writes as entropy: GetHMACDigest, 1007-1010 *)
Definition saved_entropy (r : RandomInfo) : list N := hm_digest (r_hmac r).

(** memcpy to seed[4], 239 and 258: host byte order *)
Definition load_seed (key : list N) : list N :=
  map (if lsb then le_val else be_val) (chunks 8 (firstn 32 key)).
Definition with_seed (r : RandomInfo) (seed : list N) : RandomInfo :=
  mkRandomInfo (r_hmac r) (r_nonce r) (r_reservoir r) (r_i r) seed (r_protocol_major r) (r_protocol_minor r) (r_timestamp r).

(** 233-262; [secret_key] is None for ~0UL, else the 8 bytes of the key *)
Definition finish_seed (r : RandomInfo) (secret_key : option (list N)) : rres RandomInfo :=
  match secret_key with
  | None =>
      match SetRandomKey r 32 with
      | Done (r, key, _) => Done (with_seed r (load_seed key))
      | Wrap => Wrap
      | Stuck => Stuck
      end
  | Some key =>
      match hrun fuel lsb junk (AcquireHashInfo junk SHA2256Hash) [HUpdate key; HFinal] with
      | Some hi => Done (with_seed r (load_seed (hi_digest hi)))
      | None => Stuck
      end
  end.

(** the whole constructor; [saved] tells whether the reservoir file could be
    opened (225-232; None = NULL) *)
Definition AcquireRandomInfo (hash : HashType) (timestamp : N) (chaos entropy : list N) (secret_key : option (list N))
  (saved : bool) : rres (option RandomInfo) :=
  match seed_RandomInfo (fresh_RandomInfo hash timestamp) chaos entropy with
  | None => Stuck
  | Some r =>
      if saved then match finish_seed r secret_key with Done r => Done (Some r) | Wrap => Wrap | Stuck => Stuck end
      else Done None
  end.

(** ** the reservoir file *)
(** magick.c 88-109 *)
Definition GetWizardMagick (tag : list N) : list N :=
  match hrun fuel lsb junk (AcquireHashInfo junk SHA2256Hash) [HInit; HUpdate tag; HFinal] with
  | Some hi => hi_digest hi
  | None => []
  end.
(** magick.c 56-62: WizardMagick; random.c 68: "random" *)
Definition WizardMagick : list N := [0x7f; 0x53; 0x45; 0x45]%N.
Definition RandomFiletype : list N := [114; 97; 110; 100; 111; 109]%N.

(** random.c 995-1012 on a file opened at offset 0 for writing without
    truncation (file.c 257-362), when every write succeeds *)
Definition reservoir_record (r : RandomInfo) : list N :=
  GetWizardMagick WizardMagick ++ GetWizardMagick RandomFiletype ++
  buffer16 (r_protocol_major r) ++ buffer16 (r_protocol_minor r) ++ buffer64 (r_timestamp r) ++
  buffer32 (N.of_nat (length (saved_entropy r))) ++ saved_entropy r ++
  buffer64 (GetStringInfoCRC junk (saved_entropy r)).
Definition SaveEntropyToReservoir (r : RandomInfo) (old : list N) : list N :=
  f_bytes (write_chunk (mkFile old 0) (reservoir_record r)).

(** random.c 653-753 on an existing file.  The object keeps what was read into
    its protocol and timestamp fields even on failure; [stale] is the
    uninitialised [length] and [timestamp] *)
Definition GetEntropyFromReservoir (r : RandomInfo) (bytes : list N) (stale : N) : option (list N) * RandomInfo :=
  let with_header major minor timestamp :=
    mkRandomInfo (r_hmac r) (r_nonce r) (r_reservoir r) (r_i r) (r_seed r) major minor timestamp in
  let magick := GetWizardMagick WizardMagick in
  let '(status, target, f) := read_chunk (mkFile bytes 0) (length magick) in
  if negb status || negb (if list_eq_dec N.eq_dec target magick then true else false) then (None, r)
  else
    let filetype := GetWizardMagick RandomFiletype in
    let '(status, target, f) := read_chunk f (length filetype) in
    if negb status || negb (if list_eq_dec N.eq_dec target filetype then true else false) then (None, r)
    else
      let '(s1, major, f) := ReadFile16Bits f (r_protocol_major r) in
      let '(s2, minor, f) := ReadFile16Bits f (r_protocol_minor r) in
      let '(s3, timestamp, f) :=
        if negb (major =? 1)%N || negb (minor =? 0)%N then ReadFile64Bits f stale else (true, r_timestamp r, f) in
      let r' := with_header major minor timestamp in
      let '(s4, len, f) := ReadFile32Bits f stale in
      if negb (s1 && s2 && s3 && s4) then (None, r')
      else
        let '(s5, entropy, f) := read_chunk f (N.to_nat len) in
        let '(s6, crc, f) := ReadFile64Bits f 0%N in
        if negb (s5 && s6) || negb (crc =? GetStringInfoCRC junk entropy)%N then (None, r')
        else (Some entropy, r').
End Run.

(** ** random.c 362-626: the chunks gathered are appended one after the other.
    [getentropy]: the answer of getentropy() where the platform has it *)
Definition GenerateEntropicChaos (jnk : nat -> N) (reservoir : option StringInfo) (getentropy : option (list N))
  (chunks : list StringInfo) : outcome StringInfo :=
  let entropy := match reservoir with Some e => e | None => AcquireStringInfo 0 end in
  match getentropy with
  | Some bytes => SetStringInfoDatum (SetStringInfoLength jnk entropy 64) bytes
  | None => fold_outcome (ConcatenateStringInfo jnk) chunks entropy
  end.

(** ** random.c 779-794: the state, the 53-bit output *)
Definition xoshiro_next (s : N * N * N * N) : N * N * N * N :=
  let '(s0, s1, s2, s3) := s in
  let alpha := wshl 64 s1 17 in
  let s2 := N.lxor s2 s0 in
  let s3 := N.lxor s3 s1 in
  let s1 := N.lxor s1 s2 in
  let s0 := N.lxor s0 s3 in
  let s2 := N.lxor s2 alpha in
  let s3 := rotl 64 s3 45 in
  (s0, s1, s2, s3).
Definition xoshiro_value (s : N * N * N * N) : N :=
  let '(s0, s1, s2, s3) := s in N.shiftr (wadd 64 s0 s3) 11.
