(** The streaming part shared by sha1.c, sha2224.c, sha2256.c, sha2384.c,
    sha2512.c and signature.c.

    The six files contain the same Update and Finalize functions up to the
    block size, the number of bytes reserved for the bit count, the width of
    the two counters, the expression added to [high_order] and the Transform
    function they call.  These five differences are the fields of [MdParams];
    each file's own parameters are in Sha1Model.v, Sha2Model.v and
    SignatureModel.v. *)
From Coq Require Import NArith Arith List.
From Verif Require Import Base.
Import ListNotations.
Local Open Scope N_scope.

(** the fields of [struct _SHA2256Info] (sha2256.c 66-98) the digest depends
    on: accumulator, message, low_order, high_order, offset.  [digest] is the
    result of Finalize; digestsize, blocksize and lsb_first are constants;
    timestamp and signature carry no data. *)
Record MdInfo := mkMdInfo {
  md_accumulator : list N;
  md_message : list N;
  md_low_order : N;
  md_high_order : N;
  md_offset : nat
}.

Record MdParams := mkMdParams {
  p_blocksize : nat;   (** bytes in [message] *)
  p_reserve : nat;     (** 8 or 16, the bytes of the two counters *)
  p_width : N;         (** 32 or 64, bits in a counter *)
  p_hwidth : N;        (** bits in the type of [high_order] *)
  p_carry : N -> N;    (** what Update adds to [high_order] for [n] bytes *)
  p_transform : list N -> list N -> list N  (** accumulator, message *)
}.

(** InitializeSHA1, InitializeSHA2256, ... : sha1.c 382-396, sha2256.c
    381-398, sha2224.c 381-398, sha2512.c 393-410, sha2384.c 393-410.  The
    message buffer is left as it is. *)
Definition InitializeMd (iv : list N) (st : MdInfo) : MdInfo :=
  mkMdInfo iv (md_message st) 0 0 0.

(** [while (n >= GetStringInfoLength(sha_info->message)) {...}], sha2256.c
    652-658 (sha1.c 631-637, sha2512.c 714-720): whole blocks are copied to
    the message buffer and transformed.  Returns accumulator, message and
    what is left of the input. *)
Fixpoint absorb_blocks (P : MdParams) (fuel : nat) (acc msg p : list N)
  : list N * list N * list N :=
  match fuel with
  | O => (acc, msg, p)
  | S f =>
      if (p_blocksize P <=? length p)%nat then
        let msg' := splice msg 0 (firstn (p_blocksize P) p) in
        absorb_blocks P f (p_transform P acc msg') msg' (skipn (p_blocksize P) p)
      else (acc, msg, p)
  end.

(** [length=Trunc32((unsigned int) (sha_info->low_order+(n << 3)));
     if (length < sha_info->low_order) sha_info->high_order++;
     sha_info->low_order=length; sha_info->high_order+=...], sha2256.c
    631-635 (sha1.c 611-615, sha2512.c 693-697): [n << 3] and the sum are
    computed in 64 bits *)
Definition count_bits (P : MdParams) (low high n : N) : N * N :=
  let length := wrap (p_width P) (wadd 64 low (wshl 64 n 3)) in
  let high := if length <? low then wadd (p_hwidth P) high 1 else high in
  (length, wadd (p_hwidth P) high (p_carry P n)).

(** the part of Update after the [offset != 0] case: sha2256.c 652-661 *)
Definition update_tail (P : MdParams) (acc msg : list N) (low high : N) (p : list N)
  : MdInfo :=
  let '(acc, msg, p) := absorb_blocks P (length p) acc msg p in
  mkMdInfo acc (splice msg 0 p) low high (length p).

(** UpdateSHA2256, sha2256.c 613-670 (sha1.c 592-649, sha2224.c 613-670,
    sha2512.c 675-732, sha2384.c 675-732, UpdateSignature signature.c
    348-393) *)
Definition UpdateMd (P : MdParams) (st : MdInfo) (p : list N) : MdInfo :=
  let '(low, high) :=
    count_bits P (md_low_order st) (md_high_order st) (N.of_nat (length p)) in
  if (md_offset st =? 0)%nat then
    update_tail P (md_accumulator st) (md_message st) low high p
  else
    let i := Nat.min (p_blocksize P - md_offset st) (length p) in
    let msg := splice (md_message st) (md_offset st) (firstn i p) in
    let p := skipn i p in
    let offset := (md_offset st + i)%nat in
    if (offset =? p_blocksize P)%nat then
      update_tail P (p_transform P (md_accumulator st) msg) msg low high p
    else mkMdInfo (md_accumulator st) msg low high offset.

(** [(unsigned char) (x >> 24), (unsigned char) (x >> 16), ...] : the [k]
    low-order bytes of [x], most significant first *)
Definition store_be (k : nat) (x : N) : list N :=
  map (fun i => wrap 8 (N.shiftr x (8 * N.of_nat (k - 1 - i)))) (seq 0 k).

(** FinalizeSHA2256, sha2256.c 198-252 up to the last Transform (sha1.c
    199-252, sha2512.c 198-258, signature.c 83-120): the padded message and
    the accumulator at the end.  The struct keeps its counters. *)
Definition FinalizeMd (P : MdParams) (st : MdInfo) : MdInfo :=
  let bs := p_blocksize P in
  let low := md_low_order st in
  let high := md_high_order st in
  let count := N.to_nat (N.land (N.shiftr low 3) (N.of_nat bs - 1)) in
  let datum := upd (md_message st) count 0x80 in
  let count := (count + 1)%nat in
  let '(acc, datum) :=
    if (count <=? bs - p_reserve P)%nat then
      (md_accumulator st,
       splice datum count (repeat 0 (bs - p_reserve P - count)))
    else
      let datum := splice datum count (repeat 0 (bs - count)) in
      (p_transform P (md_accumulator st) datum,
       splice datum 0 (repeat 0 (bs - p_reserve P))) in
  let datum := splice datum (bs - p_reserve P)
                 (store_be (p_reserve P / 2) high ++ store_be (p_reserve P / 2) low) in
  mkMdInfo (p_transform P acc datum) datum low high (md_offset st).

(** the loop writing the digest, sha2256.c 253-261 (sha1.c 253-261,
    sha2512.c 259-271): [k] words of [b] bytes each *)
Definition digest_of (k b : nat) (st : MdInfo) : list N :=
  flat_map (store_be b) (firstn k (md_accumulator st)).
