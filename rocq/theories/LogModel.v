(** The log (wizard/log.c). *)
From Coq Require Import NArith ZArith Bool String Arith List.
From Verif Require Import Base Outcome CStringModel OptionModel ArgvModel TokenModel.
Import ListNotations.

(** ** Formats *)
Section Translate.
(** WizardPathExtent *)
Variable P : nat.
(** what the letters after '%' stand for (log.c:1041-1145); None for the others.  The texts of
    %g, %i, %l, %p, %r, %t and %u are formatted numbers; they are written like the others here *)
Variable item : N -> option (list N).

(** CopyWizardString(q,source,extent): string.c:762-806; a source that does not fit returns
    one less than what was copied *)
Definition copied (extent : nat) (t : list N) : list N :=
  if length t <? extent - 1 then t else firstn (extent - 2) t.
(** out is the text before q, alloc the size of the buffer *)
Definition put_text (alloc extent : nat) (out t : list N) : outcome (list N) :=
  if length out + Nat.min (length t) (extent - 1) <? alloc then Ok (out ++ copied extent t) else UB.
Definition put_char (alloc : nat) (out : list N) (c : N) : outcome (list N) :=
  if length out <? alloc then Ok (out ++ [c]) else UB.

(** log.c:995-1159; escapes is true, and log.c:1184-1262 where it is false: file names have no
    \n and \r *)
Fixpoint translate (escapes : bool) (format : list N) (out : list N) (extent alloc : nat) : outcome (list N) :=
  match format with
  | [] => if length out <? alloc then Ok out else UB
  | c :: format' =>
      if negb (length out <? alloc) then UB
      else
        let grow := extent <=? length out + P in
        let extent := if grow then extent + P else extent in
        let alloc := if grow then extent + P else alloc in
        match format' with
        | d :: rest =>
            if escapes && (c =? 92)%N && (d =? 114)%N then let* out := put_char alloc out 13 in translate escapes rest out extent alloc
            else if escapes && (c =? 92)%N && (d =? 110)%N then let* out := put_char alloc out 10 in translate escapes rest out extent alloc
            else if (c =? 37)%N then
              match item d with
              | Some t => let* out := put_text alloc extent out t in translate escapes rest out extent alloc
              | None =>
                  if (d =? 37)%N then let* out := put_char alloc out 37 in translate escapes rest out extent alloc
                  else let* out := put_char alloc out 37 in let* out := put_char alloc out d in translate escapes rest out extent alloc
              end
            else let* out := put_char alloc out c in translate escapes format' out extent alloc
        | [] =>
            if (c =? 37)%N then (if length out <? alloc then Ok out else UB)
            else let* out := put_char alloc out c in translate escapes format' out extent alloc
        end
  end.
(** log.c:926-1160, formats other than "xml"; AcquireString(event) has room for P bytes more *)
Definition TranslateEvent (format event : list N) : outcome (list N) := translate true format [] (length event + P) (length event + P).
(** log.c:1162-1263 *)
Definition TranslateFilename (filename : list N) : outcome (list N) := translate false filename [] P P.
End Translate.

(** ** The time of %r (log.c:1127-1132), in whole microseconds: minutes, seconds and what is
    printed as thousandths *)
Definition real_time (us : N) : N * N * N :=
  ((us / 60000000)%N, ((us / 1000000) mod 60)%N, ((1000 * (us mod 1000000) + 500000) / 1000000)%N).

(** ** The file of events *)
(** log.c:1371 *)
Definition record (text : list N) : list N := b "  <event>" ++ text ++ b "</event>" ++ [10%N].
(** log.c:1366-1369, 1341 *)
Definition header : list N := b "<log>" ++ [10%N].
Definition trailer : list N := b "</log>" ++ [10%N].
Definition declaration : list N :=
  b "<?xml version=" ++ [34%N] ++ b "1.0" ++ [34%N] ++ b " encoding=" ++ [34%N] ++ b "UTF-8" ++ [34%N] ++ b " standalone=" ++ [34%N] ++ b "yes" ++ [34%N] ++ b "?>" ++ [10%N].

(** (WizardOffsetType) (1024*1024*log_info->limit): the product of size_t taken as a signed
    number of 64 bits *)
Definition offset_limit (limit : Z) : Z :=
  let p := ((1048576 * limit) mod 2 ^ 64)%Z in if (p <? 2 ^ 63)%Z then p else (p - 2 ^ 64)%Z.

(** the files are numbered by %g; None is a file that does not exist *)
Record files := { opened : option N; generation : N; content : N -> option (list N) }.
Definition set_content (f : N -> option (list N)) (k : N) (v : list N) : N -> option (list N) := fun j => if (j =? k)%N then Some v else f j.
Definition content_of (f : N -> option (list N)) (k : N) : list N := match f k with Some v => v | None => [] end.
(** log.c:1330-1373 for a file name with %g; generations is not 0 (log.c:1223) *)
Definition log_event (limit : Z) (generations : N) (st : files) (text : list N) : outcome files :=
  let size := match opened st with Some k => Z.of_nat (length (content_of (content st) k)) | None => 0%Z end in
  let* st :=
    if (offset_limit limit <? size)%Z then
      match opened st with
      | None => UB (* fprintf(NULL,...) *)
      | Some k => Ok {| opened := None; generation := generation st; content := set_content (content st) k (content_of (content st) k ++ trailer) |}
      end
    else Ok st in
  let '(k, st) :=
    match opened st with
    | Some k => (k, st)
    | None =>
        let k := (generation st mod generations)%N in
        let start := match content st k with Some v => v ++ header | None => declaration ++ header end in
        (k, {| opened := Some k; generation := generation st + 1; content := set_content (content st) k start |})
    end in
  Ok {| opened := opened st; generation := generation st; content := set_content (content st) k (content_of (content st) k ++ record text) |}.
Definition no_files : files := {| opened := None; generation := 0; content := fun _ => None |}.
Fixpoint log_events (limit : Z) (generations : N) (st : files) (texts : list (list N)) : outcome files :=
  match texts with [] => Ok st | t :: texts => let* st := log_event limit generations st t in log_events limit generations st texts end.

(** ** Handlers *)
(** log.c:144-155 *)
Definition LogHandlers : list (string * N) :=
  [("console", 1); ("debug", 16); ("event", 32); ("file", 8); ("none", 0); ("stderr", 4); ("stdout", 2)]%N%string.
Fixpoint handler_of (p : list N) (l : list (string * N)) : option N :=
  match l with
  | [] => None
  | (name, mask) :: l => if like (firstn (String.length name) p) (b name) then Some mask else handler_of p l
  end.
Definition is_space (c : N) : bool := (c =? 32)%N || ((9 <=? c)%N && (c <=? 13)%N).
Fixpoint skip_separators (p : list N) : list N :=
  match p with [] => [] | c :: p' => if is_space c || (c =? 44)%N then skip_separators p' else p end.
(** strchr(p,',') *)
Fixpoint to_comma (p : list N) : option (list N) :=
  match p with [] => None | c :: p' => if (c =? 44)%N then Some p else to_comma p' end.
(** log.c:1672-1705; the fuel bounds the turns, each takes a byte *)
Fixpoint parse_handlers (fuel : nat) (p : list N) (mask : N) : N :=
  match fuel with
  | O => mask
  | S fuel =>
      let p := skip_separators p in
      match handler_of p LogHandlers with
      | None => 0%N
      | Some m => match to_comma p with Some p => parse_handlers fuel p (N.lor mask m) | None => N.lor mask m end
      end
  end.
Definition ParseLogHandlers (handlers : list N) : N := parse_handlers (S (length handlers)) handlers 0.
