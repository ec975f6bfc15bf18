(** Model of the chunk loops of utilities/encipher.c (EncipherContent) and
    utilities/decipher.c (DecipherContent).

    The cipher is the [CipherInfo] of CipherModel.v with its key and nonce
    installed.  The HMAC under the authenticated key and the entropy coder are
    arguments: [c_hmac] is the digest size and the function, [c_entropy] the
    type byte with IncreaseEntropy and RestoreEntropy (None: the call failed).
    The random filler (SetRandomKey) and pad bytes are arguments, a function for
    each chunk.  Files are byte lists.  Not modelled: the RDF header before the
    chunks, failing reads and writes, the stale errno of ReadBlobChunk, freeing
    the strings. *)
From Coq Require Import Arith NArith List Bool.
From Verif Require Import Base Outcome StringInfoModel CipherModel.
Import ListNotations.

(** wizard/entropy.h:28-35 *)
Definition NoEntropy : N := 1.

Record Coder := mkCoder {
  e_type : N;                                (* ZIPEntropy, BZIPEntropy or LZMAEntropy *)
  increase : list N -> option (list N);
  restore : nat -> list N -> option (list N) (* the size of the output buffer *)
}.
Record Content := mkContent {
  c_cipher : CipherInfo;
  c_chunksize : nat;
  c_hmac : option (nat * (list N -> list N));
  c_entropy : option Coder
}.
Definition is_cfb (m : CipherMode) : bool := match m with CFBMode => true | _ => false end.

(** encipher.c:831-878 for the [i]th chunk [data] (not empty): the bytes written,
    the ciphertext string, its written length and the local pad; None: failed *)
Definition encipher_chunk (junk : nat -> N) (fill rnd : nat -> nat -> N) (cfg : Content) (i : nat)
    (buf : StringInfo) (data : list N) : outcome (option (list N * StringInfo * nat * nat * StringInfo)) :=
  let c := c_cipher cfg in
  let plaintext := SetStringInfoLength junk buf (c_chunksize cfg) in
  let* d := mem_write (datum plaintext) 0 data in
  let n := length data in
  let plaintext := SetStringInfoLength junk (mkSI d (slen plaintext)) n in
  let* text := mem_read (datum plaintext) 0 n in
  let digest := match c_hmac cfg with None => [] | Some (_, mac) => mac text end in
  let* r := match c_entropy cfg with
    | None => Ok (Some (plaintext, []))
    | Some e =>
        match increase e text with
        | None => Ok None
        | Some chaos =>
            if Nat.ltb n (length chaos) then Ok (Some (plaintext, [NoEntropy]))
            else
              let* p := SetStringInfo plaintext (BlobToStringInfo chaos) in
              let* d := mem_write (datum p) (length chaos) (map (fill i) (seq 0 (n - length chaos))) in
              Ok (Some (mkSI d (slen p), [e_type e]))
        end
    end in
  match r with
  | None => Ok None
  | Some (plaintext, tag) =>
      let* ciphertext := EncipherCipher c (rnd i) plaintext in
      let pad := if is_cfb (mode c) then 0%nat else (blocksize c - n mod blocksize c)%nat in
      let n := if is_cfb (mode c) then n else if Nat.eqb pad (blocksize c) then n else (n + pad)%nat in
      let* w := mem_read (datum ciphertext) 0 n in
      Ok (Some (digest ++ tag ++ w, ciphertext, n, pad, plaintext))
  end.

(** encipher.c:829-897: reads the plain file to its end; [last] is the state left
    by the previous chunk: ciphertext, length and pad *)
Fixpoint encipher_chunks (fuel : nat) (junk : nat -> N) (fill rnd : nat -> nat -> N) (cfg : Content) (i : nat)
    (buf : StringInfo) (last : option (StringInfo * nat * nat)) (plain : list N) : outcome (option (list N)) :=
  match fuel with
  | O => UB
  | S f =>
      let c := c_cipher cfg in
      match firstn (c_chunksize cfg) plain with
      | [] =>
          match last with
          | Some (ciphertext, n, pad) =>
              if negb (is_cfb (mode c)) && Nat.eqb pad (blocksize c)
              then let* w := mem_read (datum ciphertext) n (blocksize c) in Ok (Some w)
              else Ok (Some [])
          | None => Ok (Some [])
          end
      | data =>
          let* r := encipher_chunk junk fill rnd cfg i buf data in
          match r with
          | None => Ok None
          | Some (w, ciphertext, n, pad, buf) =>
              let* rest := encipher_chunks f junk fill rnd cfg (S i) buf (Some (ciphertext, n, pad))
                             (skipn (c_chunksize cfg) plain) in
              Ok (match rest with None => None | Some rest => Some (w ++ rest) end)
          end
      end
  end.
Definition EncipherContent (junk : nat -> N) (fill rnd : nat -> nat -> N) (cfg : Content) (plain : list N)
  : outcome (option (list N)) :=
  encipher_chunks (S (length plain)) junk fill rnd cfg 0 (AcquireStringInfo (c_chunksize cfg)) None plain.

(** blob.c:1533-1561 on a file: the bytes, the rest and the end-of-file flag *)
Definition ReadBlobChunk (file : list N) (eof : bool) (n : nat) : list N * list N * bool :=
  (firstn n file, skipn n file, orb eof (Nat.ltb (length file) n)).

Inductive round := Stop | Failed | Wrote (text : list N) (rest : list N) (eof : bool) (ciphertext : StringInfo).

(** decipher.c:750-799; [feof] tells whether EOFBlob reports the end of the file:
    true for a file or pipe, false for standard input and zip (blob.c:478-509) *)
Definition decipher_round (junk : nat -> N) (cfg : Content) (feof : bool) (ciphertext : StringInfo)
    (file : list N) (eof : bool) : outcome round :=
  let c := c_cipher cfg in
  let bs := blocksize c in
  let pad := if Nat.eqb (bs - c_chunksize cfg mod bs) bs then 0%nat else (bs - c_chunksize cfg mod bs)%nat in
  let '(hmac, file, eof) :=
    match c_hmac cfg with None => ([], file, eof) | Some (size, _) => ReadBlobChunk file eof size end in
  match c_hmac cfg, hmac with
  | Some _, [] => Ok Stop
  | _, _ =>
      let '(entropy, file, eof) :=
        match c_entropy cfg with None => ([NoEntropy], file, eof) | Some _ => ReadBlobChunk file eof 1 end in
      let n := if is_cfb (mode c) then c_chunksize cfg else (c_chunksize cfg + pad)%nat in
      let ciphertext := SetStringInfoLength junk ciphertext n in
      let '(data, file, eof) := ReadBlobChunk file eof n in
      match data with
      | [] => Ok Stop
      | _ =>
          let* d := mem_write (datum ciphertext) 0 data in
          let n := length data in
          let ciphertext := SetStringInfoLength junk (mkSI d (slen ciphertext)) n in
          let* plaintext := DecipherCipher c ciphertext in
          let* n :=
            if negb (is_cfb (mode c)) && (negb (Nat.eqb pad 0) || (feof && eof)) then
              let* b := mem_read (datum plaintext) (n - 1) 1 in
              let cut := S (N.to_nat (hd 0%N b)) in
              (* a length below zero wraps; SetStringInfoLength cannot allocate it *)
              if Nat.ltb n cut then Fatal else Ok (n - cut)%nat
            else Ok n in
          let plaintext := SetStringInfoLength junk plaintext n in
          let* text := mem_read (datum plaintext) 0 n in
          let* r :=
            match c_entropy cfg with
            | None => Ok (Some plaintext)
            | Some e =>
                if N.eqb (hd 256%N entropy) NoEntropy then Ok (Some plaintext)
                else match restore e n text with
                     | None => Ok None
                     | Some chaos => let* p := SetStringInfo plaintext (BlobToStringInfo chaos) in Ok (Some p)
                     end
            end in
          match r with
          | None => Ok Failed
          | Some plaintext =>
              let* text := mem_read (datum plaintext) 0 n in
              let* cmp := match c_hmac cfg with
                | None => Ok Eq
                | Some (_, mac) => CompareStringInfo (BlobToStringInfo hmac) (BlobToStringInfo (mac text))
                end in
              match cmp with
              | Eq => Ok (Wrote text file eof ciphertext)
              | _ => Ok Failed
              end
          end
      end
  end.

(** decipher.c:748-820: the result and what was written to the plain file *)
Fixpoint decipher_chunks (fuel : nat) (junk : nat -> N) (cfg : Content) (feof : bool) (ciphertext : StringInfo)
    (file : list N) (eof : bool) : outcome (bool * list N) :=
  match fuel with
  | O => UB
  | S f =>
      let* r := decipher_round junk cfg feof ciphertext file eof in
      match r with
      | Stop => Ok (true, [])
      | Failed => Ok (false, [])
      | Wrote text rest eof ciphertext =>
          let* (status, more) := decipher_chunks f junk cfg feof ciphertext rest eof in
          Ok (status, text ++ more)
      end
  end.
Definition DecipherContent (junk : nat -> N) (cfg : Content) (feof : bool) (file : list N) : outcome (bool * list N) :=
  decipher_chunks (S (length file)) junk cfg feof (AcquireStringInfo (c_chunksize cfg)) file false.
