(** Pass-phrases (wizard/passphrase.c).  Signals are not modelled. *)
From Coq Require Import NArith ZArith List Bool.
Import ListNotations.

(** what read(input,&c,1) returns: 1 and a byte, 0, or -1 *)
Inductive reading := Byte (c : N) | End | Fail.
(** passphrase.c:66-76: the flags that change the bytes, and whether the echo stays on *)
Record flags := { echo_on : bool; force_lower : bool; force_upper : bool; seven_bit : bool }.
Definition EchoOffMode : flags := {| echo_on := false; force_lower := false; force_upper := false; seven_bit := false |}.

(** WizardPathExtent is an argument *)
Section Phrase.
Variable extent : nat.
(** tcgetattr succeeds: the input is a terminal *)
Variable terminal : bool.
(** what write(output,"\n",1) returns *)
Variable written : Z.

Definition isalpha (c : N) : bool := ((65 <=? c)%N && (c <=? 90)%N) || ((97 <=? c)%N && (c <=? 122)%N).
Definition tolower (c : N) : N := if (65 <=? c)%N && (c <=? 90)%N then (c + 32)%N else c.
Definition toupper (c : N) : N := if (97 <=? c)%N && (c <=? 122)%N then (c - 32)%N else c.
(** passphrase.c:213-222 *)
Definition convert (f : flags) (c : N) : N :=
  let c := if seven_bit f then N.land c 127 else c in
  if isalpha c then
    let c := if force_lower f then tolower c else c in
    if force_upper f then toupper c else c
  else c.
(** passphrase.c:208-224: the loop; phrase is what is before p.  A source that is exhausted
    returns 0.  The result is count, the phrase and what is left to read. *)
Fixpoint read_loop (f : flags) (input : list reading) (phrase : list N) : Z * list N * list reading :=
  match input with
  | [] => (0%Z, phrase, [])
  | End :: input => (0%Z, phrase, input)
  | Fail :: input => ((-1)%Z, phrase, input)
  | Byte c :: input =>
      if (c =? 10)%N || (c =? 13)%N then (1%Z, phrase, input)
      else if length phrase <? extent - 1 then read_loop f input (phrase ++ [convert f c])
      else read_loop f input phrase
  end.
(** passphrase.c:126-270 with a terminal opened as /dev/tty: if the echo was turned off count
    is set again by the write of a line feed *)
Definition GetPhrase (f : flags) (input : list reading) : bool * list N * list reading :=
  let '(count, phrase, rest) := read_loop f input [] in
  let count := if terminal && negb (echo_on f) then written else count in
  (negb (count =? -1)%Z, phrase, rest).
(** passphrase.c:294-335: the loop; None is the NULL pointer, the fuel bounds the turns *)
Fixpoint GetPassphrase (fuel : nat) (input : list reading) : option (option (list N) * list reading) :=
  match fuel with
  | O => None
  | S fuel =>
      let '(status, phrase, input) := GetPhrase EchoOffMode input in
      if negb status then Some (None, input)
      else
        let '(status, rephrase, input) := GetPhrase EchoOffMode input in
        if negb status then Some (None, input)
        else if list_eq_dec N.eq_dec phrase rephrase then Some (Some phrase, input) else GetPassphrase fuel input
  end.
End Phrase.
