(** Model of wizard/hmac.c. *)
From Coq Require Import NArith Arith List.
From Verif Require Import Base HashModel.
Import ListNotations.
Local Open Scope N_scope.

(** hmac.c 51-72 *)
Record HMACInfo := mkHMACInfo {
  hm_hash_info : HashInfo;
  hm_digest : list N;
  hm_initial_nonce : list N;
  hm_final_nonce : list N
}.

(** hmac.c 91-110 *)
Definition AcquireHMACInfo (junk : list N) (hash : HashType) : HMACInfo :=
  mkHMACInfo (AcquireHashInfo junk hash) (repeat 0 (GetHashDigestsize hash))
    (repeat 0 (GetHashBlocksize hash)) (repeat 0 (GetHashBlocksize hash)).

Section Run.
Variables (fuel : nat) (lsb : bool) (junk : list N).

Definition with_hash (hm : HMACInfo) (r : option HashInfo) : option HMACInfo :=
  match r with
  | Some hi => Some (mkHMACInfo hi (hm_digest hm) (hm_initial_nonce hm) (hm_final_nonce hm))
  | None => None
  end.

(** hmac.c 366-373 *)
Definition ResetHMAC (hm : HMACInfo) : option HMACInfo :=
  match InitializeHash (hm_hash_info hm) with
  | Some hi => with_hash hm (UpdateHash fuel lsb hi (hm_initial_nonce hm))
  | None => None
  end.

(** hmac.c 312-342 *)
Definition InitializeHMAC (hm : HMACInfo) (key : list N) : option HMACInfo :=
  let initial := repeat 0 (length (hm_initial_nonce hm)) in
  let r :=
    if (length key <=? length initial)%nat then Some (hm_hash_info hm, set_string initial key)
    else match InitializeHash (hm_hash_info hm) with
         | Some hi =>
             match UpdateHash fuel lsb hi key with
             | Some hi =>
                 match FinalizeHash fuel lsb junk hi with
                 | Some hi => Some (hi, set_string initial (hi_digest hi))
                 | None => None
                 end
             | None => None
             end
         | None => None
         end in
  match r with
  | Some (hi, initial) =>
      let final := set_string (hm_final_nonce hm) initial in
      ResetHMAC (mkHMACInfo hi (hm_digest hm) (map (fun b => N.lxor b 0x36) initial)
                   (map (fun b => N.lxor b 0x5c) final))
  | None => None
  end.

(** hmac.c 399-407 *)
Definition UpdateHMAC (hm : HMACInfo) (message : list N) : option HMACInfo :=
  with_hash hm (UpdateHash fuel lsb (hm_hash_info hm) message).

(** hmac.c 214-226 *)
Definition FinalizeHMAC (hm : HMACInfo) : option HMACInfo :=
  match FinalizeHash fuel lsb junk (hm_hash_info hm) with
  | None => None
  | Some hi =>
      let digest := set_string (hm_digest hm) (hi_digest hi) in
      match hrun fuel lsb junk hi [HInit; HUpdate (hm_final_nonce hm); HUpdate digest; HFinal] with
      | None => None
      | Some hi => Some (mkHMACInfo hi (set_string digest (hi_digest hi))
                           (hm_initial_nonce hm) (hm_final_nonce hm))
      end
  end.

(** hmac.c 139-150 *)
Definition ConstructHMAC (hm : HMACInfo) (key message : list N) : option HMACInfo :=
  match InitializeHMAC hm key with
  | Some hm => match UpdateHMAC hm message with Some hm => FinalizeHMAC hm | None => None end
  | None => None
  end.

(** a caller's sequence of calls *)
Inductive mop := MInit (key : list N) | MReset | MUpdate (m : list N) | MFinal | MConstruct (key m : list N).
Definition mstep (hm : HMACInfo) (o : mop) : option HMACInfo :=
  match o with
  | MInit key => InitializeHMAC hm key
  | MReset => ResetHMAC hm
  | MUpdate m => UpdateHMAC hm m
  | MFinal => FinalizeHMAC hm
  | MConstruct key m => ConstructHMAC hm key m
  end.
Fixpoint mrun (hm : HMACInfo) (ops : list mop) : option HMACInfo :=
  match ops with
  | [] => Some hm
  | o :: t => match mstep hm o with Some hm => mrun hm t | None => None end
  end.
End Run.
