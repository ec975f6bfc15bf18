(** Model of the reader of packet attributes in utilities/content.c
    (GetContentInfo) and of digest files in utilities/digest.c
    (AuthenticateDigest), with the writers in utilities/encipher.c
    (EncipherContent) and digest.c (DigestCommand).

    Both readers are the same loop over the bytes of a blob; they differ in the
    characters that end a key and a value.  [None] for a character is EOF.
    WizardPathExtent (4096) is the argument [E].  Allocations succeed.
    isgraph, isalnum and isspace are those of the C locale. *)
From Coq Require Import Arith NArith ZArith Bool String List.
From Verif Require Import Base Outcome CStringModel OptionModel.
Import ListNotations.

Definition isgraph (c : N) : bool := ((33 <=? c) && (c <=? 126))%N.
Definition isdigit (c : N) : bool := ((48 <=? c) && (c <=? 57))%N.
Definition isalnum (c : N) : bool := isdigit c || isalpha c.

(** the terminators of a key and of a value, and what starts a key:
    content.c:245-273; digest.c:279-307 *)
Record scanner := mkScanner { kt : N; vt : N; starts : N -> bool }.
Definition content_scanner := mkScanner 61 63 isalnum.                          (* '=' '?' *)
Definition digest_scanner := mkScanner 62 60 (fun c => isalnum c || (c =? 47)%N). (* '>' '<' '/' *)

(** the part of a buffer before its first NUL *)
Fixpoint cstr (s : list N) : list N :=
  match s with [] => [] | c :: s => if (c =? 0)%N then [] else c :: cstr s end.

(** ReadBlobByte *)
Definition next (rest : list N) : option N * list N :=
  match rest with [] => (None, []) | c :: rest => (Some c, rest) end.
Definition is (x : N) (c : option N) : bool := match c with Some y => (y =? x)%N | None => false end.
Definition at_space (c : option N) : bool := match c with Some y => isspace y | None => false end.

(** content.c:265-266, 331-332; digest.c:299-300, 483-484 *)
Fixpoint skip (c : option N) (rest : list N) : option N * list N :=
  if at_space c then match rest with [] => (None, []) | x :: rest => skip (Some x) rest end
  else (c, rest).

Section Scan.
Variable E : nat.
Variable s : scanner.

(** content.c:252-262; digest.c:286-296: the characters stored in [key] *)
Fixpoint get_key (key : list N) (c : option N) (rest : list N) : list N * option N * list N :=
  match c with
  | None => (key, c, rest)
  | Some x =>
      if isspace x || (x =? kt s)%N then (key, c, rest)
      else
        let key := if length key <? E then key ++ [x] else key in
        match rest with
        | [] => (key, None, [])
        | y :: rest => get_key key (Some y) rest
        end
  end.

(** content.c:273-297; digest.c:307-331: [cap] bytes are allocated for the
    options, [len] is the variable length *)
Fixpoint get_value (value : list N) (len cap : nat) (c : option N) (rest : list N)
  : outcome (list N * nat * nat * option N * list N) :=
  match c with
  | None => Ok (value, len, cap, c, rest)
  | Some x =>
      if (x =? vt s)%N then Ok (value, len, cap, c, rest)
      else
        let '(value, len, cap) :=
          if len <=? length value + 1 then (cstr value, 2 * len, 2 * len + E) else (value, len, cap) in
        if cap <=? length value then UB
        else
          let value := value ++ [x] in
          match rest with
          | [] => Ok (value, len, cap, None, [])
          | y :: rest =>
              if negb (hd 0%N value =? vt s)%N && isspace y then Ok (value, len, cap, Some y, rest)
              else get_value value len cap (Some y) rest
          end
  end.

Definition token := (list N * list N)%type.

(** content.c:240-333; digest.c:274-485: the keys and values read, in order.
    [Ok None]: the loop is still running after [fuel] turns. *)
Fixpoint inner (fuel : nat) (c : option N) (rest : list N) (len cap : nat) (toks : list token)
  : outcome (option (list token * option N * list N)) :=
  match fuel with
  | O => Ok None
  | S fuel =>
      match c with
      | None => Ok (Some (toks, c, rest))
      | Some x =>
          if isgraph x && negb (x =? 62)%N then
            if starts s x then
              let '(key, c, rest) := get_key [] c rest in
              if E <=? length key then UB                     (* key[WizardPathExtent]='\0' *)
              else
                let '(c, rest) := skip c rest in
                let* (value, len, cap, c, rest) :=
                  if is (kt s) c then let '(c, rest) := next rest in get_value [] len cap c rest
                  else Ok ([], len, cap, c, rest) in
                if cap <=? length value then UB
                else let '(c, rest) := skip c rest in
                     inner fuel c rest len cap (toks ++ [(cstr key, cstr value)])
            else let '(c, rest) := next rest in
                 let '(c, rest) := skip c rest in inner fuel c rest len cap toks
          else Ok (Some (toks, c, rest))
      end
  end.

(** content.c:236-335; digest.c:270-489 (the blob is closed at 487, which ends
    the reading; the loop goes on only with a character that it does not
    consume) *)
Fixpoint outer (fuel : nat) (c : option N) (rest : list N) (toks : list token)
  : outcome (option (list token * option N * list N)) :=
  match fuel with
  | O => Ok None
  | S f =>
      if is 62 c || match c with None => true | Some _ => false end then Ok (Some (toks, c, rest))
      else
        let* r := inner fuel c rest E E toks in
        match r with
        | None => Ok None
        | Some (toks, c, rest) => outer f c rest toks
        end
  end.
Definition scan (fuel : nat) (file : list N) : outcome (option (list token * option N * list N)) :=
  let '(c, rest) := next file in outer fuel c rest [].
End Scan.

(** * Content header *)

(** strtol in base 10 (ISO C 7.22.1.4) on 64 bits *)
Fixpoint digits (n : Z) (p : list N) : Z :=
  match p with
  | c :: p => if isdigit c then digits (10 * n + Z.of_N (c - 48))%Z p else n
  | [] => n
  end.
Fixpoint drop_spaces (p : list N) : list N :=
  match p with c :: q => if isspace c then drop_spaces q else p | [] => [] end.
Definition strtol (p : list N) : Z :=
  match drop_spaces p with
  | 45%N :: p => Z.max (- 2 ^ 63) (- digits 0 p)
  | 43%N :: p => Z.min (2 ^ 63 - 1) (digits 0 p)
  | p => Z.min (2 ^ 63 - 1) (digits 0 p)
  end%Z.
Definition to_size (z : Z) : N := Z.to_N (z mod 2 ^ 64).

Definition strip_value (v : list N) : outcome (list N) :=
  let* x := StripString (v ++ [0%N]) in Ok (cstr x).
Definition same (key name : list N) : outcome bool :=
  let* z := LocaleCompare (key ++ [0%N]) (name ++ [0%N]) in Ok (z =? 0)%Z.

(** content.c:301-328: bytes and digest *)
Definition content_token (st : N * option (list N)) (t : token) : outcome (N * option (list N)) :=
  let '(key, value) := t in
  let '(bytes, digest) := st in
  match key with
  | 98%N :: _ | 66%N :: _ =>
      let* q := same key (b "bytes") in
      if q then let* v := strip_value value in Ok (to_size (strtol v), digest) else Ok st
  | 100%N :: _ | 68%N :: _ =>
      let* q := same key (b "digest") in
      if q then let* v := strip_value value in Ok (bytes, Some v) else Ok st
  | _ => Ok st
  end.

(** content.c:589-595 *)
Fixpoint trailer (c : option N) (rest : list N) : list N :=
  match c with
  | None => []
  | Some 62%N => skipn 2 rest
  | _ => match rest with [] => [] | x :: rest => trailer (Some x) rest end
  end.

Fixpoint starts_with (p s : list N) : bool :=
  match p, s with
  | [], _ => true
  | x :: p, y :: s => (x =? y)%N && starts_with p s
  | _, _ => false
  end.
(** content.c:390-586: the names and contents acted upon.  A node of another
    namespace is looked at for ever (396-397). *)
Fixpoint nodes_loop (fuel : nat) (nodes : list (list N * list N)) (done : list (list N * list N))
  : option (list (list N * list N)) :=
  match fuel with
  | O => None
  | S fuel =>
      match nodes with
      | [] => Some done
      | (tag, content) :: others =>
          if starts_with (b "cipher:") tag then nodes_loop fuel others (done ++ [(skipn 7 tag, content)])
          else nodes_loop fuel nodes done
      end
  end.

Inductive info := Running | Rejected | Accepted (fields : list (list N * list N)) (rest : list N).

(** GetContentInfo, content.c:190-597.  [hex] is the hexadecimal SHA-256 digest
    (C12, C47); [parse] gives the children of the content node (None: no tree,
    no such node).  A file shorter than announced is only reported (350-351):
    the rest of the string is zero. *)
Definition GetContentInfo (E : nat) (hex : list N -> list N)
    (parse : list N -> option (list (list N * list N))) (fuel : nat) (file : list N) : outcome info :=
  let* r := scan E content_scanner fuel file in
  match r with
  | None => Ok Running
  | Some (toks, c, rest) =>
      let* (bytes, digest) := fold_outcome content_token toks (0%N, None) in
      match digest with
      | Some digest =>
          if (bytes =? 0)%N then Ok Rejected
          else if (2 ^ 63 <=? bytes)%N then Fatal             (* AcquireStringInfo *)
          else
            let '(c, rest) := next rest in
            let n := N.to_nat bytes in
            let got := firstn n rest in
            let properties := got ++ repeat 0%N (n - length got) in
            if list_eq_dec N.eq_dec (hex properties) digest then
              match parse (cstr properties) with
              | None => Ok Rejected
              | Some nodes =>
                  match nodes_loop fuel nodes [] with
                  | None => Ok Running
                  | Some fields => Ok (Accepted fields (trailer c (skipn n rest)))
                  end
              end
            else Ok Rejected
      | None => Ok Rejected
      end
  end.

(** printf %u and %s *)
Fixpoint decimal_ (fuel : nat) (n : N) : list N :=
  match fuel with
  | O => []
  | S fuel => if (n <? 10)%N then [48 + n]%N else decimal_ fuel (n / 10) ++ [48 + n mod 10]%N
  end.
Definition decimal (n : N) : list N := decimal_ (S (N.to_nat (N.log2 n))) n.

Definition dquote : list N := [34%N].
Definition newline : list N := [10%N].
(** encipher.c:784-811: what is written before the chunks; the length is cast
    to unsigned int *)
Definition cipher_packet (hex : list N -> list N) (rdf : list N) : list N :=
  b "<?cipherpacket digest=" ++ dquote ++ hex rdf ++ dquote ++ b " bytes=" ++ dquote
  ++ decimal (N.of_nat (length rdf) mod 2 ^ 32) ++ dquote ++ b "?>" ++ newline
  ++ rdf ++ b "<?cipherpacket?>" ++ [12%N] ++ newline.

(** * Digest files *)

(** one file: its path and the strings written for it, digest.c:727-781 *)
Record entry := mkEntry { d_path : list N; d_stamp : list N; d_modify : list N; d_extent : list N;
                          d_alg : list N; d_hex : list N }.
Definition element (name value : list N) : list N :=
  b "    <digest:" ++ name ++ b ">" ++ value ++ b "</digest:" ++ name ++ b ">" ++ newline.
(** [canonical] is CanonicalXMLContent *)
Definition write_entry (canonical : list N -> list N) (e : entry) : list N :=
  b "  <digest:Content rdf:about=" ++ dquote ++ canonical (d_path e) ++ dquote ++ b ">" ++ newline
  ++ element (b "timestamp") (d_stamp e) ++ element (b "modify-date") (d_modify e)
  ++ element (b "create-date") (d_modify e) ++ element (b "extent") (d_extent e)
  ++ element (d_alg e) (d_hex e) ++ b "  </digest:Content>" ++ newline.
(** digest.c:588-592, 782 *)
Definition write_digest (canonical : list N -> list N) (l : list entry) : list N :=
  b "<?xml version=" ++ dquote ++ b "1.0" ++ dquote ++ b "?>" ++ newline
  ++ b "<rdf:RDF xmlns:rdf=" ++ dquote ++ b "http://www.w3.org/1999/02/22-rdf-syntax-ns#" ++ dquote ++ newline
  ++ b "         xmlns:digest=" ++ dquote ++ b "https://urban-warrior.org/WizardsToolkit/digest/1.0/" ++ dquote ++ b ">" ++ newline
  ++ concat (map (write_entry canonical) l) ++ b "</rdf:RDF>" ++ newline.

(** what the reader knows: path, hash, digest (265-269) and the checks made *)
Record dstate := mkD { p_path : list N; p_hash : Z; p_digest : list N; p_checks : list (list N * Z * list N) }.
Definition unknown : list N := b "unknown".
Definition dstart : dstate := mkD unknown 7 unknown [].
(** digest.c:335-481 (the dates are only used in messages) *)
Definition digest_token (st : dstate) (t : token) : outcome dstate :=
  let '(key, value) := t in
  match key with
  | 100%N :: _ | 68%N :: _ =>
      let* q1 := same key (b "digest:create-date") in
      let* q2 := same key (b "digest:modify-date") in
      let* q3 := same key (b "digest:timestamp") in
      if q1 || q2 || q3 then let* _ := strip_value value in Ok st
      else
        let* z := LocaleNCompare (key ++ [0%N]) (b "digest:" ++ [0%N]) 7 in
        if (z =? 0)%Z then
          let* algorithm := ParseWizardOption WizardHashOptions false (skipn 7 key) in
          if (algorithm <? 0)%Z then Ok st
          else let* v := strip_value value in Ok (mkD (p_path st) algorithm v (p_checks st))
        else Ok st
  | 114%N :: _ | 82%N :: _ =>
      let* z := LocaleNCompare (key ++ [0%N]) (b "rdf:about" ++ [0%N]) 9 in
      if (z =? 0)%Z then
        (* key+10: past the end of the text when the key is just rdf:about; the
           buffer was cleared (264), earlier keys may have left bytes there *)
        if 10 <=? length key then
          let* v := strip_value (skipn 10 key) in Ok (mkD v (p_hash st) unknown (p_checks st))
        else UB
      else Ok st
  | 47%N :: _ =>
      let* q1 := same key (b "/digest:Content") in
      let* q2 := same key (b "/rdf:Description") in
      if q1 || q2 then Ok (mkD (p_path st) (p_hash st) (p_digest st) (p_checks st ++ [(p_path st, p_hash st, p_digest st)]))
      else Ok st
  | _ => Ok st
  end.

(** digest.c:417-478: the paths that are reported; [fs] opens a file, [hexof] is
    the hexadecimal digest with an algorithm.  A path that cannot be opened is
    passed over (422-423). *)
Definition reported (fs : list N -> option (list N)) (hexof : Z -> list N -> list N)
    (checks : list (list N * Z * list N)) : list (list N) :=
  flat_map (fun c => let '(path, hash, digest) := c in
              match fs path with
              | None => []
              | Some content => if list_eq_dec N.eq_dec digest (hexof hash content) then [] else [path]
              end) checks.
(** AuthenticateDigest for one digest file (250-509): the reports and the
    status; [None]: still running *)
Definition AuthenticateDigest (E : nat) (fs : list N -> option (list N)) (hexof : Z -> list N -> list N)
    (fuel : nat) (file : list N) : outcome (option (list (list N) * bool)) :=
  let* r := scan E digest_scanner fuel file in
  match r with
  | None => Ok None
  | Some (toks, _, _) =>
      let* st := fold_outcome digest_token toks dstart in
      Ok (Some (reported fs hexof (p_checks st), false))       (* 174, 501-507: never set to true *)
  end.
