(** The name and the path of the client: wizard/client.c, all functions; utility.c, GetExecutionPath; and what WizardsToolkitGenesis of wizard.c
    makes of them (253-262).

    [E] is WizardPathExtent, the size of every buffer, and PATH_MAX, which is the same number on Linux.  What the system answers is an
    argument.  The paths of GetExecutionPath for systems other than Linux are left out. *)
From Coq Require Import NArith ZArith Bool Arith List.
From Verif Require Import Base Outcome StringInfoModel CStringModel PathModel.
Import ListNotations.

(** a const char *: NULL, a text, or the place [k] of the static buffer itself, as in SetClientName(GetClientName()+k) *)
Inductive source := Null | Text (t : list N) | Own (k : nat).
Section Client.
Variable E : nat.
Variable isdir : list N -> Z.
Variable accessible : list N -> bool.

(** CopyWizardString(buffer,buffer+k,E), string.c 762-806: [n] characters at most, then a zero; [i] are copied *)
Fixpoint move_down (n k i : nat) (buffer : list N) : outcome (list N) :=
  match n with
  | O => mem_write buffer i [0%N]
  | S n =>
      let* c := rd buffer (k + i) in
      let* buffer := mem_write buffer i [c] in
      if (c =? 0)%N then Ok buffer else move_down n k (S i) buffer
  end.
(** client.c 114-123 and 148-156, on the static buffer *)
Definition set_client (buffer : list N) (s : source) : outcome (list N) :=
  match s with
  | Null => Ok buffer
  | Text t =>
      let* c := rd (t ++ [0%N]) 0 in
      if (c =? 0)%N then Ok buffer else let* (buffer, _) := CopyWizardString buffer (t ++ [0%N]) E in Ok buffer
  | Own k =>
      let* c := rd buffer k in
      if (c =? 0)%N then Ok buffer else move_down (E - 1) k 0 buffer
  end.
(** the string at the start of a buffer *)
Fixpoint c_string (buffer : list N) : outcome (list N) :=
  match buffer with
  | [] => UB
  | c :: buffer => if (c =? 0)%N then Ok [] else let* t := c_string buffer in Ok (c :: t)
  end.

(** utility.c 643-673: what is in the buffer afterwards; a getcwd that fails leaves it empty *)
Definition GetExecutionPath (cwd exe file : option (list N)) : list N :=
  let directory := match cwd with Some d => if length d <? E then d else [] | None => [] end in
  match (match exe with Some l => Some l | None => file end) with
  | Some (c :: l) => firstn (E - 1) (firstn E (c :: l))
  | _ => directory
  end.

Record process := mkProcess { started : bool; name : list N; path : list N }.
(** client.c 116-117, 150-151: the static buffers, of E bytes *)
Definition wizard : list N := [87; 105; 122; 97; 114; 100]%N.
Definition initial : process := mkProcess false (wizard ++ repeat 0%N (E - length wizard)) (repeat 0%N E).
Inductive op :=
| SetClientName (s : source)
| SetClientPath (s : source)
| Genesis (p cwd exe file : option (list N))
| Terminus.
Definition step (x : process) (o : op) : outcome process :=
  match o with
  | SetClientName s => let* b := set_client (name x) s in Ok (mkProcess (started x) b (path x))
  | SetClientPath s => let* b := set_client (path x) s in Ok (mkProcess (started x) (name x) b)
  | Terminus => Ok (mkProcess false (name x) (path x))
  | Genesis p cwd exe file =>
      if started x then Ok x
      else
        let execution_path := match p with
                              | Some (c :: p) => firstn (E - 1) (c :: p)
                              | _ => GetExecutionPath cwd exe file
                              end in
        let* filename := GetPathComponent E isdir accessible execution_path TailPath in
        let* b := set_client (name x) (Text filename) in
        let* execution_path := GetPathComponent E isdir accessible execution_path HeadPath in
        let* d := set_client (path x) (Text execution_path) in
        Ok (mkProcess true b d)
  end.
Definition run (l : list op) : outcome process := fold_outcome step l initial.
Definition GetClientName (x : process) : outcome (list N) := c_string (name x).
Definition GetClientPath (x : process) : outcome (list N) := c_string (path x).
End Client.
