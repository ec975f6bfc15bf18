(** SetLogName and GetLogName (wizard/log.c:205, 627-630, 1819-1824).  The pointer that SetLogName returns is that of the static
    buffer, so a caller may give a place in it ([Own] of ClientModel.v).  [E] is WizardPathExtent. *)
From Coq Require Import NArith List.
From Verif Require Import Base Outcome CStringModel ClientModel.
Import ListNotations.

(** log.c:204-205 *)
Definition log_name_at_start (E : nat) : list N := [87; 105; 122; 97; 114; 100]%N ++ repeat 0%N (E - 6).
(** log.c:1819-1824: the buffer afterwards *)
Definition SetLogName (E : nat) (log_name : list N) (name : source) : outcome (list N) :=
  match name with
  | Null => Ok log_name
  | Text t =>
      let* c := rd (t ++ [0%N]) 0 in
      if (c =? 0)%N then Ok log_name else let* (log_name, _) := CopyWizardString log_name (t ++ [0%N]) E in Ok log_name
  | Own k =>
      let* c := rd log_name k in
      if (c =? 0)%N then Ok log_name else move_down (E - 1) k 0 log_name
  end.
(** log.c:627-630 *)
Definition GetLogName (log_name : list N) : outcome (list N) := c_string log_name.
Definition set_names (E : nat) (names : list source) : outcome (list N) := fold_outcome (SetLogName E) names (log_name_at_start E).
