(** GetWizardResource and GetWizardResourceLimit (wizard/resource.c:554-606, 620-672) over ResourceModel.v; None is
    UndefinedResource or any other number, for which both return 0.  Locking is not modelled. *)
From Coq Require Import ZArith NArith.
From Verif Require Import ResourceModel.

(** resource.c:554-606; the cast to WizardSizeType makes the signed counter unsigned *)
Definition GetWizardResource (s : resource_info) (t : option rtype) : N :=
  match t with Some t => Z.to_N (used s t mod 2 ^ 64) | None => 0%N end.
(** resource.c:620-672 *)
Definition GetWizardResourceLimit (s : resource_info) (t : option rtype) : N :=
  match t with Some t => limit s t | None => 0%N end.
