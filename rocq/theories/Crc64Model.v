(** Model of wizard/crc64.c and of GetStringInfoCRC (wizard/string.c 1210-1228). *)
From Coq Require Import NArith List.
From Verif Require Import Base.
Import ListNotations.
Local Open Scope N_scope.

(** the mutable fields of struct _CRC64Info, crc64.c 52-74 ([digest] is
    computed by [FinalizeCRC64]; sizes, timestamp and signature are left out) *)
Record CRC64Info := mkCRC64Info {
  crc : N;             (* WizardSizeType crc *)
  crc_xor : list N     (* WizardSizeType *crc_xor, 256 entries *)
}.

(** the body of the inner loop of InitializeCRC64, crc64.c 355-360 *)
Definition crc_shift (alpha : N) : N :=
  if negb (N.land alpha 0x01 =? 0)
  then N.lxor (N.shiftr alpha 1) 0xd800000000000000
  else N.shiftr alpha 1.

(** crc64.c 338-366 *)
Definition InitializeCRC64 (st : CRC64Info) : CRC64Info :=
  mkCRC64Info 0 (map (fun i => iter 8 crc_shift (N.of_nat i)) (seq 0 256)).

(** one turn of the loop of UpdateCRC64, crc64.c 407-412 *)
Definition crc_byte (t : list N) (c p : N) : N :=
  N.lxor (N.shiftr c 8) (tab t (N.land (N.lxor c p) 0xff)).

(** crc64.c 391-414 *)
Definition UpdateCRC64 (st : CRC64Info) (message : list N) : CRC64Info :=
  mkCRC64Info (fold_left (crc_byte (crc_xor st)) message (crc st)) (crc_xor st).

(** crc64.c 174-192: the digest *)
Definition FinalizeCRC64 (st : CRC64Info) : list N :=
  let c := crc st in
  [wrap 8 (N.shiftr c 56); wrap 8 (N.shiftr c 48); wrap 8 (N.shiftr c 40);
   wrap 8 (N.shiftr c 32); wrap 8 (N.shiftr c 24); wrap 8 (N.shiftr c 16);
   wrap 8 (N.shiftr c 8); wrap 8 (N.shiftr c 0)].

(** wizard/string.c 1210-1228; AcquireCRC64Info (crc64.c 95-116) gives a
    zeroed struct with an uninitialised table [junk] *)
Definition GetStringInfoCRC (junk : list N) (s : list N) : N :=
  crc (UpdateCRC64 (InitializeCRC64 (mkCRC64Info 0 junk)) s).
