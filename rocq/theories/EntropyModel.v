(** Compression (wizard/zip.c, bzip.c, lzma.c, entropy.c).  The libraries are arguments: what
    a call of them does with the lengths it is given is modelled, the codings are not. *)
From Coq Require Import NArith List Bool.
Import ListNotations.

Definition len (l : list N) : N := N.of_nat (length l).
Definition take (n : N) (l : list N) : list N := firstn (N.to_nat n) l.
(** (uInt) and (unsigned int): zip.c:236, bzip.c:242 *)
Definition uint (n : N) : N := (n mod 2 ^ 32)%N.

(** ** zip.c and bzip.c *)
Section Zip.
(** deflate with Z_FINISH, BZ2_bzCompress with BZ_FINISH: the whole stream for an input *)
Variable compress : list N -> list N.
(** inflate, BZ2_bzDecompress: the text of the stream that the input begins with; None if there
    is no complete stream *)
Variable decompress : list N -> option (list N).
(** deflateBound (zip.c:238), len+len/100+600 (bzip.c:244) *)
Variable bound : N -> N.

(** zip.c:210-259, bzip.c:217-265: chaos on success; avail_in and avail_out are 32 bits wide,
    the stream ends if there is room for all of it *)
Definition Increase (message : list N) : option (list N) :=
  let out := compress (take (uint (len message)) message) in
  if (len out <=? uint (bound (len message)))%N then Some out else None.
(** zip.c:291-339, bzip.c:297-344 *)
Definition Restore (length : N) (message : list N) : option (list N) :=
  match decompress (take (uint (len message)) message) with
  | Some text => if (len text <=? uint length)%N then Some text else None
  | None => None
  end.
End Zip.
(** bzip.c:244 *)
Definition BZIPBound (n : N) : N := (n + n / 100 + 600)%N.

(** ** lzma.c *)
(** what the coder makes of an input: all of its output, and whether the stream has ended,
    needs more input or is wrong *)
Inductive verdict := Ended | More | Wrong.
(** lzma_ret: LZMA_OK, LZMA_STREAM_END, LZMA_BUF_ERROR, and any other error, all of them not
    negative *)
Inductive lzma_ret := LZMA_OK | LZMA_STREAM_END | LZMA_BUF_ERROR | LZMA_ERROR.
Section Lzma.
Variable encode : list N -> list N.
Variable decode : list N -> list N * verdict.

(** the calls lzma_code(LZMA_RUN), then lzma_code(LZMA_FINISH), of a decoder: the first takes
    all the input there is room for; a call that makes no progress returns LZMA_OK the first
    time and LZMA_BUF_ERROR the second *)
Definition decoder_calls (room : N) (message : list N) : lzma_ret * lzma_ret * list N :=
  let '(text, v) := decode message in
  let made := take room text in
  if (len text <=? room)%N then
    match v with
    | Ended => (LZMA_STREAM_END, LZMA_STREAM_END, made)
    | Wrong => (LZMA_ERROR, LZMA_ERROR, made)
    | More => match message with [] => (LZMA_OK, LZMA_BUF_ERROR, made) | _ => (LZMA_OK, LZMA_OK, made) end
    end
  else match made with [] => (LZMA_OK, LZMA_BUF_ERROR, made) | _ => (LZMA_OK, LZMA_OK, made) end.
(** lzma.c:311-374: the result of the first call is only compared with 0 (lzma.c:354), of the
    second LZMA_OK is accepted *)
Definition RestoreLZMA (length : N) (message : list N) : option (list N) :=
  match decoder_calls length message with
  | (_, LZMA_STREAM_END, made) | (_, LZMA_OK, made) => Some made
  | _ => None
  end.
(** lzma.c:217 *)
Definition LZMAMaxExtent (n : N) : N := (n + n / 3 + 128)%N.
(** lzma.c:213-279: an encoder that has no room left returns LZMA_OK, which is accepted *)
Definition IncreaseLZMA (message : list N) : option (list N) :=
  let out := encode message in
  if (len out <=? LZMAMaxExtent (len message))%N then Some out else Some (take (LZMAMaxExtent (len message)) out).
End Lzma.

(** ** entropy.c:283-330, 362-409 *)
Inductive entropy := BZIPEntropy | LZMAEntropy | ZIPEntropy.
Record libraries := { bzip_compress : list N -> list N; bzip_decompress : list N -> option (list N);
                      zip_compress : list N -> list N; zip_decompress : list N -> option (list N); deflate_bound : N -> N;
                      lzma_encode : list N -> list N; lzma_decode : list N -> list N * verdict }.
Definition IncreaseEntropy (L : libraries) (e : entropy) (message : list N) : option (list N) :=
  match e with
  | BZIPEntropy => Increase (bzip_compress L) BZIPBound message
  | LZMAEntropy => IncreaseLZMA (lzma_encode L) message
  | ZIPEntropy => Increase (zip_compress L) (deflate_bound L) message
  end.
Definition RestoreEntropy (L : libraries) (e : entropy) (length : N) (message : list N) : option (list N) :=
  match e with
  | BZIPEntropy => Restore (bzip_decompress L) length message
  | LZMAEntropy => RestoreLZMA (lzma_decode L) length message
  | ZIPEntropy => Restore (zip_decompress L) length message
  end.
