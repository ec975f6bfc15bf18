(** The listings of the configuration and of the content types:
    wizard/configure.c, ListConfigureInfo; wizard/mime.c, ListMimeInfo.

    A content type is an [entry] of ConfigureModel.v whose name is its type and whose
    value is its description.  The text that is printed is given as bytes; that the
    file takes it is assumed. *)
From Coq Require Import NArith ZArith Bool String Arith List.
From Verif Require Import Base Outcome OptionModel GlobModel.
From Verif Require Import ConfigureModel.
Import ListNotations.

Definition newline : list N := [10%N].
Definition dashes : list N := repeat 45%N 79 ++ newline.
(** configure.c:1009-1013 and mime.c:725-729 *)
Definition heading (columns p : list N) : list N := newline ++ b "Path: " ++ p ++ newline ++ newline ++ columns ++ newline ++ dashes.
(** configure.c:1016-1027: a column of 13, a space, the value *)
Definition configure_row (e : entry) : list N :=
  let n := match name e with Some n => n | None => b "unknown" end in
  n ++ repeat 32%N (13 - List.length n) ++ b " " ++ match value e with Some v => v | None => b "unknown" end ++ newline.
(** mime.c:732-746: a column of 28, on a line of its own behind a long type *)
Definition mime_row (e : entry) : outcome (list N) :=
  match name e with
  | None => UB                                                            (* %s and strlen of NULL *)
  | Some t => Ok (t ++ (if List.length t <=? 25 then repeat 32%N (28 - List.length t) else newline ++ repeat 32%N 28)
                    ++ match value e with Some d => d | None => [] end ++ newline)
  end.
(** configure.c:1001-1028 and mime.c:716-747: a heading in front of the first row and where the path is another one than in the row before *)
Fixpoint rows (columns : list N) (row : entry -> outcome (list N)) (last : option (list N)) (l : list entry) : outcome (list N) :=
  match l with
  | [] => Ok []
  | e :: l =>
      if stealth e then rows columns row last l
      else
        let* r := row e in
        let* rest := rows columns row (Some (path e)) l in
        Ok ((if match last with None => true | Some p => negb (strcasecmp p (path e) =? 0)%Z end then heading columns (path e) else []) ++ r ++ rest)
  end.
Section Lists.
Variable sort : forall A : Type, (A -> A -> Z) -> list A -> list A.
Definition star : list N := [42%N].
(** configure.c:976-1033; None: nothing is printed and false is returned *)
Definition ListConfigureInfo (cache : list entry) : outcome (option (list N)) :=
  let* l := GetConfigureInfoList sort star cache in
  match l with
  | None => Ok None
  | Some l => let* t := rows (b "Name          Value") (fun e => Ok (configure_row e)) None l in Ok (Some t)
  end.
(** mime.c:700-757; GetMimeInfoList is GetConfigureInfoList with types for names, mime.c:424-485 *)
Definition ListMimeInfo (cache : list entry) : outcome (option (list N)) :=
  let* l := GetConfigureInfoList sort star cache in
  match l with
  | None => Ok None
  | Some l => let* t := rows (b "Type                   Description") mime_row None l in Ok (Some t)
  end.
End Lists.
