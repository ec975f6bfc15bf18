(** Model of wizard/sha3.c. *)
From Coq Require Import NArith Arith List Bool.
From Verif Require Import Base Sha2Model.
Import ListNotations.
Local Open Scope N_scope.

(** struct _SHA3Info, sha3.c 65-107 (the digest string is the result of
    [FinalizeSHA3]; hash, digestsize and blocksize are fixed by
    AcquireSHA3Info; timestamp and signature left out).  [length] is called
    [out_length] here. *)
Record SHA3Info := mkSHA3Info {
  s3_state : list N;        (* unsigned char state[200] *)
  s3_message : list N;      (* unsigned char message[192] *)
  s3_rate : N;
  s3_capacity : N;
  s3_bits_in_queue : N;     (* unsigned int *)
  s3_out_length : N;        (* size_t length *)
  s3_squeeze : bool;
  s3_squeeze_bits : N;
  s3_rho : list N;          (* unsigned int rho[25] *)
  s3_rounds : list N        (* WizardSizeType rounds[24] *)
}.

(** SHA3Index, sha3.c 55 *)
Definition SHA3Index (x y : nat) : nat := ((x mod 5) + 5 * (y mod 5))%nat.
(** SHA3RotateLeft, sha3.c 59-60 *)
Definition SHA3RotateLeft (x offset : N) : N :=
  if negb (offset =? 0) then N.lxor (wshl 64 x offset) (N.shiftr x (64 - offset)) else x.

(** [for (x=0; x < 5; x++) for (y=0; y < 5; y++)] *)
Definition for_xy {S} (body : S -> nat -> nat -> S) (s : S) : S :=
  fold_left (fun s x => fold_left (fun s y => body s x y) (seq 0 5) s) (seq 0 5) s.

(** sha3.c 297-302 *)
Definition theta_C (state : list N) : list N :=
  map (fun x => fold_left (fun c y => N.lxor c (get state (SHA3Index x y))) (seq 0 5) 0) (seq 0 5).
(** sha3.c 303-304 *)
Definition theta_D (C : list N) : list N :=
  map (fun x => N.lxor (SHA3RotateLeft (get C ((x + 1) mod 5)) 1) (get C ((x + 4) mod 5))) (seq 0 5).
(** sha3.c 297-307 *)
Definition sha3_theta (state : list N) : list N :=
  let D := theta_D (theta_C state) in
  for_xy (fun s x y => upd s (SHA3Index x y) (N.lxor (get s (SHA3Index x y)) (get D x))) state.
(** sha3.c 311-314 *)
Definition sha3_rho (rho state : list N) : list N :=
  for_xy (fun s x y => upd s (SHA3Index x y)
            (SHA3RotateLeft (get s (SHA3Index x y)) (get rho (SHA3Index x y)))) state.
(** sha3.c 318-323 *)
Definition sha3_pi (state : list N) : list N :=
  let T := state in
  for_xy (fun s x y => upd s (SHA3Index (0 * x + 1 * y) (2 * x + 3 * y)) (get T (SHA3Index x y))) state.
(** sha3.c 327-334 *)
Definition sha3_chi (state : list N) : list N :=
  fold_left (fun s y =>
    let C := map (fun x => N.lxor (get s (SHA3Index x y))
                    (N.land (wnot 64 (get s (SHA3Index (x + 1) y))) (get s (SHA3Index (x + 2) y)))) (seq 0 5) in
    fold_left (fun s x => upd s (SHA3Index x y) (get C x)) (seq 0 5) s) (seq 0 5) state.
(** sha3.c 338 *)
Definition sha3_iota (rounds : list N) (i : nat) (state : list N) : list N :=
  upd state (SHA3Index 0 0) (N.lxor (get state (SHA3Index 0 0)) (get rounds i)).

(** the loop body, sha3.c 282-339 *)
Definition sha3_round (rho rounds : list N) (s : list N) (i : nat) : list N :=
  sha3_iota rounds i (sha3_chi (sha3_pi (sha3_rho rho (sha3_theta s)))).
(** sha3.c 276-340 *)
Definition SHA3PermutationOnWords (rho rounds : list N) (state : list N) : list N :=
  fold_left (sha3_round rho rounds) (seq 0 24) state.

(** sha3.c 244-258 *)
Definition ConvertBytesToWords (bytes : list N) : list N :=
  map (fun i => fold_left (fun w j => N.lor w (wshl 64 (get bytes (i * 8 + j)) (8 * N.of_nat j)))
                  (seq 0 8) 0) (seq 0 25).
(** sha3.c 260-274 *)
Definition ConvertWordsToBytes (words : list N) : list N :=
  flat_map (fun i => map (fun j => wrap 8 (N.land (N.shiftr (get words i) (8 * N.of_nat j)) 0xff))
                       (seq 0 8)) (seq 0 25).

(** the state read and written through a [WizardSizeType] pointer on a
    little-endian host *)
Definition cast_words (bytes : list N) : list N :=
  map (fun i => host_load true (slice bytes (8 * i) 8)) (seq 0 25).
Definition cast_bytes (words : list N) : list N := flat_map (le_bytes 8) words.

(** sha3.c 342-356; [lsb] is the byte order of the host, which is what
    AcquireSHA3Info stores in lsb_first (sha3.c 177-179) *)
Definition SHA3Permutation (lsb : bool) (st : SHA3Info) (bytes : list N) : list N :=
  if lsb then cast_bytes (SHA3PermutationOnWords (s3_rho st) (s3_rounds st) (cast_words bytes))
  else ConvertWordsToBytes (SHA3PermutationOnWords (s3_rho st) (s3_rounds st) (ConvertBytesToWords bytes)).

(** sha3.c 358-367 *)
Definition SHA3PermutationAfterXor (lsb : bool) (st : SHA3Info) (message : list N) (length : nat)
    (state : list N) : list N :=
  SHA3Permutation lsb st
    (fold_left (fun s i => upd s i (N.lxor (get s i) (get message i))) (seq 0 length) state).

Definition with_state (st : SHA3Info) (s : list N) : SHA3Info :=
  mkSHA3Info s (s3_message st) (s3_rate st) (s3_capacity st) (s3_bits_in_queue st) (s3_out_length st)
    (s3_squeeze st) (s3_squeeze_bits st) (s3_rho st) (s3_rounds st).
Definition with_message (st : SHA3Info) (m : list N) : SHA3Info :=
  mkSHA3Info (s3_state st) m (s3_rate st) (s3_capacity st) (s3_bits_in_queue st) (s3_out_length st)
    (s3_squeeze st) (s3_squeeze_bits st) (s3_rho st) (s3_rounds st).
Definition with_queue (st : SHA3Info) (q : N) : SHA3Info :=
  mkSHA3Info (s3_state st) (s3_message st) (s3_rate st) (s3_capacity st) q (s3_out_length st)
    (s3_squeeze st) (s3_squeeze_bits st) (s3_rho st) (s3_rounds st).
Definition with_squeeze (st : SHA3Info) (b : bool) (n : N) : SHA3Info :=
  mkSHA3Info (s3_state st) (s3_message st) (s3_rate st) (s3_capacity st) (s3_bits_in_queue st)
    (s3_out_length st) b n (s3_rho st) (s3_rounds st).

(** the number of bytes passed by the switch of AbsorbQueue, sha3.c 370-409:
    rate/8 in each named case, 8*rate/64 in the default one *)
Definition rate_bytes (rate : N) : N :=
  if rate =? 576 then 72 else if rate =? 832 then 104 else if rate =? 1024 then 128
  else if rate =? 1088 then 136 else if rate =? 1152 then 144 else if rate =? 1344 then 168
  else 8 * rate / 64.

(** sha3.c 368-410 *)
Definition AbsorbQueue (lsb : bool) (st : SHA3Info) : SHA3Info :=
  with_queue (with_state st (SHA3PermutationAfterXor lsb st (s3_message st)
                (N.to_nat (rate_bytes (s3_rate st))) (s3_state st))) 0.

(** [message[i/8] |= 1 << (i % 8)] *)
Definition set_bit (m : list N) (i : N) : list N :=
  upd m (N.to_nat (i / 8)) (wrap 8 (N.lor (get m (N.to_nat (i / 8))) (N.shiftl 1 (i mod 8)))).

(** sha3.c 412-433 *)
Definition PadAndSwitchToSqueezingPhase (lsb : bool) (st : SHA3Info) : SHA3Info :=
  let q := s3_bits_in_queue st in
  let r := s3_rate st in
  let st :=
    if wadd 32 q 1 =? r then
      let st := with_message st (set_bit (s3_message st) q) in
      let st := AbsorbQueue lsb st in
      with_message st (splice (s3_message st) 0 (repeat 0 (N.to_nat (r / 8))))
    else
      let m := splice (s3_message st) (N.to_nat ((q + 7) / 8)) (repeat 0 (N.to_nat (r / 8 - (q + 7) / 8))) in
      with_message st (set_bit m q) in
  let st := with_message st (set_bit (s3_message st) (r - 1)) in
  let st := AbsorbQueue lsb st in
  let st := with_message st (splice (s3_message st) 0 (firstn (N.to_nat (8 * r / 64)) (s3_state st))) in
  with_squeeze st true r.

(** one turn of the loop of Squeeze, sha3.c 453-465: [i] bits are out *)
Definition squeeze_step (lsb : bool) (length i : N) (st : SHA3Info) (output : list N)
  : SHA3Info * N * list N :=
  let st :=
    if s3_squeeze_bits st =? 0 then
      let st := with_state st (SHA3Permutation lsb st (s3_state st)) in
      let st := with_message st (splice (s3_message st) 0
                  (firstn (N.to_nat (8 * s3_rate st / 64)) (s3_state st))) in
      with_squeeze st (s3_squeeze st) (s3_rate st)
    else st in
  let bits := s3_squeeze_bits st in
  let bits := if length - i <? bits then length - i else bits in
  let output := splice output (N.to_nat (i / 8))
    (slice (s3_message st) (N.to_nat ((s3_rate st - s3_squeeze_bits st) / 8)) (N.to_nat (bits / 8))) in
  (with_squeeze st (s3_squeeze st) (s3_squeeze_bits st - bits), i + bits, output).

(** the loop; [None] if it has not ended after [fuel] turns *)
Fixpoint squeeze_loop (fuel : nat) (lsb : bool) (length i : N) (st : SHA3Info) (output : list N)
  : option (SHA3Info * list N) :=
  if i <? length then
    match fuel with
    | O => None
    | S k => let '(st, i, output) := squeeze_step lsb length i st output in
             squeeze_loop k lsb length i st output
    end
  else Some (st, output).

(** sha3.c 435-467; the boolean is the return value *)
Definition Squeeze (fuel : nat) (lsb : bool) (st : SHA3Info) (length : N) (output : list N)
  : option (bool * SHA3Info * list N) :=
  let st := if s3_squeeze st then st else PadAndSwitchToSqueezingPhase lsb st in
  if negb (length mod 8 =? 0) then Some (false, st, output)
  else match squeeze_loop fuel lsb length 0 st output with
       | Some (st, output) => Some (true, st, output)
       | None => None
       end.

(** sha3.c 469-503: works on a copy of the struct.  [junk] is the
    uninitialised 64-byte local of which [memset(digest,0,sizeof( *digest))]
    clears one byte.  Result: return value, struct, digest string of
    [digestsize] bytes ([old] before the call). *)
Definition FinalizeSHA3 (fuel : nat) (lsb : bool) (junk : list N) (digestsize : nat)
    (st : SHA3Info) (old : list N) : option (bool * SHA3Info * list N) :=
  match Squeeze fuel lsb st (s3_out_length st) (upd junk 0 0) with
  | None => None
  | Some (false, _, _) => Some (false, st, old)
  | Some (true, _, digest) => Some (true, st, splice old 0 (firstn digestsize digest))
  end.

(** sha3.c 618-632: result and new value of the byte *)
Definition LFSR86540 (byte : N) : bool * N :=
  (negb (N.land byte 0x01 =? 0),
   if negb (N.land byte 0x80 =? 0) then wrap 8 (N.lxor (N.shiftl byte 1) 0x71)
   else wrap 8 (N.shiftl byte 1)).

(** the inner loop, sha3.c 651-656 *)
Definition round_constant (byte : N) : N * N :=
  fold_left (fun '(byte, rc) j =>
    let '(result, byte) := LFSR86540 byte in
    (byte, if (result : bool) then N.lxor rc (wshl 64 1 (2 ^ N.of_nat j - 1)) else rc))
    (seq 0 7) (byte, 0).
(** sha3.c 634-659 *)
Definition SHA3InitializeRoundConstants : list N :=
  snd (fold_left (fun '(byte, rounds) (_ : nat) =>
    let '(byte, rc) := round_constant byte in (byte, rounds ++ [rc])) (seq 0 24) (0x01, [])).

(** sha3.c 661-683 *)
Definition SHA3InitializeRho (rho : list N) : list N :=
  let rho := upd rho (SHA3Index 0 0) 0 in
  let '(_, _, rho) :=
    fold_left (fun '(x, y, rho) i =>
      let rho := upd rho (SHA3Index x y) (N.of_nat (((i + 1) * (i + 2) / 2) mod 64)) in
      ((0 * x + 1 * y) mod 5, (2 * x + 3 * y) mod 5, rho))%nat (seq 0 24) (1, 0, rho)%nat in
  rho.

(** sha3.c 685-704; the boolean is the return value *)
Definition InitializeSponge (st : SHA3Info) (rate capacity : N) : bool * SHA3Info :=
  if negb (wadd 32 rate capacity =? 1600) then (false, st)
  else if (rate <=? 0) || (1600 <=? rate) || negb (rate mod 64 =? 0) then (false, st)
  else (true, mkSHA3Info (repeat 0 200) (repeat 0 192) rate capacity 0 (capacity / 2) false 0
               (SHA3InitializeRho (s3_rho st)) SHA3InitializeRoundConstants).

Inductive sha3_hash := SHA3Hash | SHA3224Hash | SHA3256Hash | SHA3384Hash | SHA3512Hash.

(** sha3.c 706-748 *)
Definition InitializeSHA3 (hash : sha3_hash) (st : SHA3Info) : bool * SHA3Info :=
  match hash with
  | SHA3Hash => InitializeSponge st 1024 576
  | SHA3224Hash => InitializeSponge st 1152 448
  | SHA3256Hash => InitializeSponge st 1088 512
  | SHA3384Hash => InitializeSponge st 832 768
  | SHA3512Hash => InitializeSponge st 576 1024
  end.

(** AcquireSHA3Info, sha3.c 145-173 *)
Definition sha3_digestsize (hash : sha3_hash) : nat :=
  match hash with
  | SHA3Hash => 36 | SHA3224Hash => 28 | SHA3256Hash => 32 | SHA3384Hash => 48 | SHA3512Hash => 64
  end.

(** the whole-block loop of one case, sha3.c 826-889: the named cases read the
    caller's message, the default one the struct's own buffer *)
Definition absorb_blocks (lsb : bool) (st : SHA3Info) (p : list N) (blocks : nat) : list N :=
  let r := s3_rate st in
  let n := N.to_nat (rate_bytes r) in
  fold_left (fun s j =>
    SHA3PermutationAfterXor lsb st
      (if existsb (N.eqb r) [576; 832; 1024; 1088; 1152; 1344] then skipn (j * n) p else s3_message st)
      n s) (seq 0 blocks) (s3_state st).

(** one turn of the loop of Absorb, sha3.c 797-894; [length] is in bits *)
Definition absorb_step (lsb : bool) (message : list N) (length : N) (st : SHA3Info) (i : N)
  : SHA3Info * N :=
  let r := s3_rate st in
  let q := s3_bits_in_queue st in
  if negb (q =? 0) || (length <? r) || (length - r <? i) then
    let bits := wrap 32 (length - i) in
    let bits := if r <? bits + q then r - q else bits in
    let byte := bits mod 8 in
    let bits := bits - byte in
    let st := with_message st (splice (s3_message st) (N.to_nat (q / 8))
                (slice message (N.to_nat (i / 8)) (N.to_nat (bits / 8)))) in
    let q := wrap 32 (q + bits) in
    let st := with_queue st q in
    let i := i + bits in
    let st := if q =? r then AbsorbQueue lsb st else st in
    if 0 <? byte then
      let q := s3_bits_in_queue st in
      let mask := wrap 8 (N.shiftl 1 byte - 1) in
      let st := with_message st (upd (s3_message st) (N.to_nat (q / 8))
                  (N.land (get message (N.to_nat (i / 8))) mask)) in
      (with_queue st (wrap 32 (q + byte)), i + byte)
    else (st, i)
  else
    let blocks := (length - i) / r in
    (with_state st (absorb_blocks lsb st (skipn (N.to_nat (i / 8)) message) (N.to_nat blocks)),
     i + blocks * r).

(** the loop, sha3.c 797; [None] if it has not ended after [fuel] turns.  The
    comparison is signed in C; lengths below 2^63 bits are modelled. *)
Fixpoint absorb_loop (fuel : nat) (lsb : bool) (message : list N) (length : N) (st : SHA3Info) (i : N)
  : option SHA3Info :=
  if i <? length then
    match fuel with
    | O => None
    | S k => let '(st, i) := absorb_step lsb message length st i in
             absorb_loop k lsb message length st i
    end
  else Some st.

(** sha3.c 776-896; the boolean is the return value *)
Definition Absorb (fuel : nat) (lsb : bool) (st : SHA3Info) (message : list N) (length : N)
  : option (bool * SHA3Info) :=
  if negb (s3_bits_in_queue st mod 8 =? 0) then Some (false, st)
  else if s3_squeeze st then Some (false, st)
  else match absorb_loop fuel lsb message length st 0 with
       | Some st => Some (true, st)
       | None => None
       end.

(** sha3.c 903-914 *)
Definition UpdateSHA3 (fuel : nat) (lsb : bool) (st : SHA3Info) (message : list N)
  : option (bool * SHA3Info) :=
  Absorb fuel lsb st message (wmul 64 8 (N.of_nat (List.length message))).
