(** Exceptions (wizard/exception.c). *)
From Coq Require Import NArith List Bool String Ascii.
Import ListNotations.

(** exception.h:59-121: the severities that divide the range *)
Definition WarningException : N := 300.
Definition ErrorException : N := 400.
Definition FatalErrorException : N := 700.

(** C strings without their NUL; None is the NULL pointer *)
Definition text := option (list N).
(** an element of the list of exceptions (exception.c:57-77): only the fields that are set *)
Record element := { severity : N; reason : text; description : text }.
(** the structure: the fields of the exception itself, which ThrowException sets to those of
    the element it appended, and the list *)
Record info := { severity_of : N; reason_of : text; description_of : text; exceptions : list element }.

(** exception.c:438-446 *)
Definition GetExceptionInfo : info := {| severity_of := 0; reason_of := None; description_of := None; exceptions := [] |}.

(** string.c:1510-1538 with strcasecmp in the C locale; true is the result 0 *)
Definition lower (c : N) : N := if (65 <=? c)%N && (c <=? 90)%N then (c + 32)%N else c.
Fixpoint equal_folded (p q : list N) : bool :=
  match p, q with
  | [], [] => true
  | c :: p, d :: q => (lower c =? lower d)%N && equal_folded p q
  | _, _ => false
  end.
Definition LocaleCompare0 (p q : text) : bool :=
  match p, q with
  | None, None => true
  | Some p, Some q => equal_folded p q
  | _, _ => false
  end.

(** GetLastValueInLinkedList *)
Fixpoint last_value (l : list element) : option element :=
  match l with [] => None | [e] => Some e | _ :: l => last_value l end.

(** exception.c:920-959 *)
Definition ThrowException (x : info) (s : N) (r d : text) : info :=
  let append := {| severity_of := s; reason_of := r; description_of := d;
                   exceptions := exceptions x ++ [{| severity := s; reason := r; description := d |}] |} in
  match last_value (exceptions x) with
  | Some p => if (severity p =? s)%N && LocaleCompare0 (reason_of x) r && LocaleCompare0 (description_of x) d then x else append
  | None => append
  end.

(** exception.c:178-201 *)
Definition ClearWizardException (x : info) : info := GetExceptionInfo.

(** exception.c:659-682; the two are different objects: the lock of the relative is held
    while ThrowException takes the lock of the exception *)
Definition InheritException (x relative : info) : info :=
  fold_left (fun x p => ThrowException x (severity p) (reason p) (description p)) (exceptions relative) x.

(** the three handlers *)
Inductive handler := Warning | Error | FatalError.
Definition call := (handler * element)%type.
(** exception.c:240-246: what is called for one element p; severity is that of the exception *)
Definition calls_of (s : N) (p : element) : list call :=
  (if (WarningException <=? severity p)%N && (severity p <? ErrorException)%N then [(Warning, p)] else []) ++
  (if (ErrorException <=? severity p)%N && (severity p <? FatalErrorException)%N then [(Error, p)] else []) ++
  (if (FatalErrorException <=? s)%N then [(FatalError, p)] else []).
(** exception.c:226-252, with handlers that return *)
Definition CatchException (x : info) : list call * info :=
  (flat_map (calls_of (severity_of x)) (exceptions x), ClearWizardException x).
(** exception.c:323-335: the default fatal handler ends the process with the severity it is
    given, unless the reason is NULL *)
Fixpoint until_exit (cs : list call) : list call * option N :=
  match cs with
  | [] => ([], None)
  | (FatalError, p) :: cs =>
      match reason p with
      | Some _ => ([(FatalError, p)], Some (severity p))
      | None => let (done, e) := until_exit cs in ((FatalError, p) :: done, e)
      end
  | c :: cs => let (done, e) := until_exit cs in (c :: done, e)
  end.

(** exception.c:997-1027: the event that is logged, and the exception that is thrown; message
    is the formatted text *)
Inductive event := ExceptionEvent | WarningEvent.
Definition ThrowWizardExceptionList (x : info) (s : N) (message : list N) : event * info :=
  (if (ErrorException <=? severity_of x)%N then ExceptionEvent else WarningEvent, ThrowException x s (Some message) None).

Definition b (s : string) : list N := map N_of_ascii (list_ascii_of_string s).
(** exception.c:517-579 *)
Definition tags : list (N * string) :=
  [(305, "Option/Warning/"); (310, "Random/Warning/"); (315, "Hash/Warning/"); (320, "MAC/Warning/"); (325, "Entropy/Warning/");
   (330, "Configure/Warning/"); (335, "Cipher/Warning/"); (340, "Keymap/Warning/"); (345, "Authenticate/Warning/"); (350, "Keyring/Warning/");
   (355, "Parse/Warning/"); (360, "User/Warning/"); (365, "SplayTree/Warning/"); (370, "Hashmap/Warning/"); (375, "Log/Warning/");
   (380, "String/Warning/"); (385, "File/Warning/"); (390, "Blob/Warning/"); (395, "ResourceLimit/Warning/");
   (405, "Option/Error/"); (410, "Random/Error/"); (415, "Hash/Error/"); (420, "MAC/Error/"); (425, "Entropy/Error/");
   (430, "Configure/Error/"); (435, "Cipher/Error/"); (440, "Keymap/Error/"); (445, "Authenticate/Error/"); (450, "Keyring/Error/");
   (455, "Parse/Error/"); (460, "User/Error/"); (465, "SplayTree/Error/"); (480, "String/Error/"); (485, "File/Error/"); (490, "Blob/Error/");
   (495, "ResourceLimit/Error/");
   (705, "Option/FatalError/"); (710, "Random/FatalError/"); (715, "Hash/FatalError/"); (720, "MAC/FatalError/"); (725, "Entropy/FatalError/");
   (730, "Configure/FatalError/"); (735, "Cipher/FatalError/"); (740, "Keymap/FatalError/"); (745, "Authenticate/FatalError/");
   (750, "Keyring/FatalError/"); (755, "Parse/FatalError/"); (760, "User/FatalError/"); (765, "SplayTree/FatalError/");
   (770, "Hashmap/FatalError/"); (775, "Log/FatalError/"); (780, "String/FatalError/"); (785, "File/FatalError/"); (790, "Blob/FatalError/");
   (795, "ResourceLimit/FatalError/")]%N%string.
Fixpoint lookup (s : N) (l : list (N * string)) : string :=
  match l with [] => ""%string | (k, t) :: l => if (k =? s)%N then t else lookup s l end.
Definition ExceptionSeverityToTag (s : N) : string := lookup s tags.
