(** GetWizardOptions and ListWizardOptions (wizard/option.c 283-305, 370-391), and the option -list of the
    utilities (utilities/keyring.c 233-249, as in cipher-info.c, digest.c, decipher.c and encipher.c).

    A text written is its bytes; strings are without NUL.  Not modelled: writes that fail (fprintf is not checked),
    ListConfigureInfo, the memory of the copies (AcquireString: StringHeapModel.v). *)
From Coq Require Import NArith ZArith Bool String List.
From Verif Require Import Base Outcome CStringModel OptionModel.
Import ListNotations.
Local Open Scope Z_scope.

(** option.c 283-305: the copies, up to the NULL *)
Definition GetWizardOptions (o : WizardOption) : list (list N) := map fst (GetOptionInfo o).

(** option.c 383-389; i counts the entries *)
Definition streq (a c : list N) : bool := if list_eq_dec N.eq_dec a c then true else false.
Fixpoint list_loop (i : nat) (info : list (list N * Z)) : list N :=
  match info with
  | [] => []
  | (mnemonic, _) :: info =>
      if Nat.eqb i 0 && streq mnemonic (b "Undefined") then list_loop (S i) info
      else mnemonic ++ [10%N] ++ list_loop (S i) info
  end.
(** option.c 370-391 *)
Definition ListWizardOptions (o : WizardOption) : list N := list_loop 0 (GetOptionInfo o).

(** the cast of keyring.c 246, option.h 37-55; None: GetOptionInfo returns NULL *)
Definition option_of (list : Z) : option WizardOption :=
  nth_error [WizardAuthenticateOptions; WizardCipherOptions; WizardCommandOptions; WizardDataTypeOptions; WizardDebugOptions;
    WizardEndianOptions; WizardEntropyOptions; WizardEntropyLevelOptions; WizardKeyLengthOptions; WizardHashOptions;
    WizardListOptions; WizardModeOptions; WizardLogEventOptions; WizardResourceOptions] (Z.to_nat list).
(** keyring.c 237-249, after configure: what is printed, or the exception *)
Inductive listed := Printed (text : list N) | Unrecognized.
Definition list_command (arg : list N) : outcome listed :=
  let* list := ParseWizardOption WizardListOptions false arg in
  if list <? 0 then Ok Unrecognized
  else match option_of list with
       | Some o => Ok (Printed (ListWizardOptions o))
       | None => Ok (Printed [])
       end.
