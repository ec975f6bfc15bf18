(** Model of the chunked I/O of wizard/file.c.

    An open file is its bytes and its offset.  Each call of read(2) or write(2)
    takes one answer of the operating system from a schedule; [None] means that
    the schedule ended while the loop was still running. *)
From Coq Require Import NArith Arith List Bool.
From Verif Require Import Base.
Import ListNotations.

Record file := mkFile { f_bytes : list N; f_pos : nat }.

(** [Transfer k]: up to k+1 bytes are moved; [Nothing]: 0 is returned;
    [Interrupted]: -1 with EINTR; [Failed]: -1 with another error *)
Inductive answer := Transfer (k : nat) | Nothing | Interrupted | Failed.

(** wizard/blob.h 27-28 *)
Definition WizardMaxBufferExtent : nat := 64 * 128.

(** how many of the n bytes asked for are granted *)
Definition granted (k n : nat) : nat := Nat.min (S k) n.
(** read(2): bytes read, the file, errno == EINTR afterwards *)
Definition sys_read (a : answer) (f : file) (eintr : bool) (n : nat) : list N * file * bool :=
  match a with
  | Transfer k =>
      let d := firstn (granted k n) (skipn (f_pos f) (f_bytes f)) in
      (d, mkFile (f_bytes f) (f_pos f + length d), eintr)
  | Nothing => ([], f, eintr)
  | Interrupted => ([], f, true)
  | Failed => ([], f, false)
  end.

(** file.c 606-632.  [got] is what is in [data] so far; the result: status, data,
    file, errno == EINTR, answers left *)
Fixpoint read_loop (sched : list answer) (f : file) (eintr : bool) (length_ : nat) (got : list N)
  : option (bool * list N * file * bool * list answer) :=
  if length_ <=? length got then Some (true, got, f, eintr, sched)
  else
    match sched with
    | [] => None
    | a :: sched =>
        let '(d, f, eintr) := sys_read a f eintr (Nat.min (length_ - length got) WizardMaxBufferExtent) in
        match d with
        | [] => if eintr then read_loop sched f eintr length_ got else Some (false, got, f, eintr, sched)
        | _ => read_loop sched f eintr length_ (got ++ d)
        end
    end.
Definition ReadFileChunk (sched : list answer) (f : file) (eintr : bool) (length_ : nat) :=
  read_loop sched f eintr length_ [].

(** write(2) *)
Definition sys_write (a : answer) (f : file) (eintr : bool) (data : list N) : nat * file * bool :=
  match a with
  | Transfer k =>
      let d := firstn (S k) data in
      (length d, mkFile (firstn (f_pos f) (f_bytes f) ++ d ++ skipn (f_pos f + length d) (f_bytes f)) (f_pos f + length d), eintr)
  | Nothing => (0, f, eintr)
  | Interrupted => (0, f, true)
  | Failed => (0, f, false)
  end.
(** file.c 851-876; [data] is what is left to write *)
Fixpoint write_loop (sched : list answer) (f : file) (eintr : bool) (data : list N)
  : option (bool * file * bool * list answer) :=
  match data with
  | [] => Some (true, f, eintr, sched)
  | _ =>
      match sched with
      | [] => None
      | a :: sched =>
          let '(n, f, eintr) := sys_write a f eintr data in
          match n with
          | O => if eintr then write_loop sched f eintr data else Some (false, f, eintr, sched)
          | _ => write_loop sched f eintr (skipn n data)
          end
      end
  end.
Definition WriteFileChunk := write_loop.

(** the buffers of file.c 904-913, 943-955, 984-1000 *)
Definition buffer16 (value : N) : list N := [value mod 256; N.shiftr value 8 mod 256]%N.
Definition buffer32 (value : N) : list N :=
  [value mod 256; N.shiftr value 8 mod 256; N.shiftr value 16 mod 256; N.shiftr value 24 mod 256]%N.
Definition buffer64 (value : N) : list N :=
  [value mod 256; N.shiftr value 8 mod 256; N.shiftr value 16 mod 256; N.shiftr value 24 mod 256;
   N.shiftr value 32 mod 256; N.shiftr value 40 mod 256; N.shiftr value 48 mod 256; N.shiftr value 56 mod 256]%N.

(** the values of file.c 660-678, 706-726, 754-778 *)
Definition value16 (b : list N) : N := N.lor (N.shiftl (get b 1) 8 mod 2 ^ 16) (get b 0).
Definition value32 (b : list N) : N :=
  N.lor (N.lor (N.lor (N.shiftl (get b 3) 24) (N.shiftl (get b 2) 16)) (N.shiftl (get b 1) 8)) (get b 0).
Definition value64 (b : list N) : N :=
  N.lor (N.lor (N.lor (N.lor (N.lor (N.lor (N.lor (N.shiftl (get b 7) 56) (N.shiftl (get b 6) 48)) (N.shiftl (get b 5) 40))
    (N.shiftl (get b 4) 32)) (N.shiftl (get b 3) 24)) (N.shiftl (get b 2) 16)) (N.shiftl (get b 1) 8)) (get b 0).

(** ** what a chunk amounts to when the system does its work (FileProps.v) *)
(** all of it, or all there is and failure *)
Definition read_chunk (f : file) (n : nat) : bool * list N * file :=
  let d := firstn n (skipn (f_pos f) (f_bytes f)) in
  (length d =? n, d, mkFile (f_bytes f) (f_pos f + length d)).
Definition write_chunk (f : file) (data : list N) : file :=
  mkFile (firstn (f_pos f) (f_bytes f) ++ data ++ skipn (f_pos f + length data) (f_bytes f)) (f_pos f + length data).

(** file.c 660-678, 706-726, 754-778: the value is written only on success *)
Definition read_value (n : nat) (value : list N -> N) (f : file) (old : N) : bool * N * file :=
  let '(status, b, f) := read_chunk f n in (status, if status then value b else old, f).
Definition ReadFile16Bits := read_value 2 value16.
Definition ReadFile32Bits := read_value 4 value32.
Definition ReadFile64Bits := read_value 8 value64.
