(** What the digest of each hash type must be, and RFC 2104. *)
From Coq Require Import NArith Arith List.
From Verif Require Import Base MdSpec Sha1Spec Sha2Spec Md5Spec Crc64Spec Sha3Spec.
Import ListNotations.
Local Open Scope N_scope.

(** [d] is the [k]-byte Keccak[c] digest of [m] *)
Definition is_keccak (c k : nat) (m d : list N) : Prop :=
  length d = k /\ bytes d /\ message_bits d = KECCAK c (message_bits m) (8 * k).

Definition is_crc_digest (m d : list N) : Prop := exists c, is_crc64 m c /\ d = be_bytes 8 c.

(** RFC 2104 section 2, for a hash relation [H] with block length [B] *)
Definition is_hmac_key (H : list N -> list N -> Prop) (B : nat) (key k0 : list N) : Prop :=
  if (length key <=? B)%nat then k0 = key ++ repeat 0 (B - length key)
  else exists d, H key d /\ k0 = d ++ repeat 0 (B - length d).
Definition is_hmac (H : list N -> list N -> Prop) (B : nat) (key text d : list N) : Prop :=
  exists k0 inner, is_hmac_key H B key k0 /\
    H (map (N.lxor 0x36) k0 ++ text) inner /\ H (map (N.lxor 0x5c) k0 ++ inner) d.
