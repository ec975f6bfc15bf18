(** ReadBlobChunk and WriteBlobChunk of wizard/blob.c on files, pipes and the compressed streams of
    zlib and bzip2, which may take or give fewer bytes than asked for, or fail.

    Each call of a library takes one answer from a schedule: how many bytes it moves at most, and
    whether errno is EINTR afterwards (whatever call set it last).  What a compressed stream makes
    of the bytes is not modelled: it is the bytes it has taken, or has to give.  A result of -1 is
    taken as 0, as the loops do.  Lengths are below 2^63. *)
From Coq Require Import NArith List Bool.
Import ListNotations.

(** StandardStream, FileStream and PipeStream; ZipStream; BZipStream: blob.c 101-112 *)
Inductive kind := Stdio | Gz | Bz.
Definition answer := (N * bool)%type.
Definition schedule := list answer.

(** the length as the library gets it: size_t; (unsigned int) (1366, 1957), of which gzread and
    gzwrite refuse those above INT_MAX; (int) (1411, 1998), of which BZ2_bzread and BZ2_bzwrite
    refuse those below 0 *)
Definition asked (k : kind) (length : N) : N :=
  match k with
  | Stdio => length
  | Gz | Bz => let w := (length mod 2 ^ 32)%N in if (2 ^ 31 <=? w)%N then 0%N else w
  end.
Definition moved (k : kind) (takes : N) (length : nat) : nat :=
  N.to_nat (N.min takes (asked k (N.of_nat length))).
(** case 4, 3, 2, 1 of the switches at 1315, 1362, 1909 and 1953: byte by byte *)
Definition by_byte (k : kind) (length : nat) : bool :=
  match k with Bz => false | _ => Nat.leb length 4 end.

(** ** Writing: the sink is what the stream has taken *)
(** 1917-1944, 1961-1989: putc, gzputc; EOF leaves the switch *)
Fixpoint put_bytes (sched : schedule) (e : bool) (sink data : list N) {struct data} : option (nat * list N * bool * schedule) :=
  match data with
  | [] => Some (0, sink, e, sched)
  | c :: data =>
      match sched with
      | [] => None
      | (takes, e) :: sched =>
          if (takes =? 0)%N then Some (0, sink, e, sched)
          else match put_bytes sched e (sink ++ [c]) data with
               | Some (n, sink, e, sched) => Some (S n, sink, e, sched)
               | None => None
               end
      end
  end.
(** 1882-2001; None: the schedule has ended *)
Definition WriteBlob (k : kind) (sched : schedule) (e : bool) (sink data : list N) : option (nat * list N * bool * schedule) :=
  if Nat.eqb (length data) 0 then Some (0, sink, e, sched)
  else if by_byte k (length data) then put_bytes sched e sink data
  else match sched with
       | [] => None
       | (takes, e) :: sched =>
           let n := moved k takes (length data) in
           Some (n, sink ++ firstn n data, e, sched)
       end.
(** 2144-2154; None: still running after [turns] turns, or the schedule has ended *)
Fixpoint write_loop (turns : nat) (k : kind) (sched : schedule) (e : bool) (i : nat) (sink data : list N)
  : option (nat * list N * bool * schedule) :=
  if Nat.ltb i (length data) then
    match turns with
    | O => None
    | S turns =>
        match WriteBlob k sched e sink (skipn i data) with
        | None => None
        | Some (O, sink, e, sched) =>
            if e then write_loop turns k sched e i sink data else Some (i, sink, e, sched)
        | Some (count, sink, e, sched) => write_loop turns k sched e (i + count) sink data
        end
    end
  else Some (i, sink, e, sched).
(** 2129-2156 *)
Definition WriteBlobChunk turns k sched e sink data := write_loop turns k sched e 0 sink data.

(** ** Reading: the source is what the stream has to give *)
(** 1322-1353, 1370-1401: getc, gzgetc *)
Fixpoint get_bytes (sched : schedule) (e : bool) (source : list N) (n : nat) {struct n} : option (list N * list N * bool * schedule) :=
  match n with
  | O => Some ([], source, e, sched)
  | S n =>
      match sched with
      | [] => None
      | (takes, e) :: sched =>
          match source with
          | [] => Some ([], source, e, sched)
          | c :: source' =>
              if (takes =? 0)%N then Some ([], source, e, sched)
              else match get_bytes sched e source' n with
                   | Some (got, source, e, sched) => Some (c :: got, source, e, sched)
                   | None => None
                   end
          end
      end
  end.
(** 1286-1414 *)
Definition ReadBlob (k : kind) (sched : schedule) (e : bool) (source : list N) (n : nat) : option (list N * list N * bool * schedule) :=
  if Nat.eqb n 0 then Some ([], source, e, sched)
  else if by_byte k n then get_bytes sched e source n
  else match sched with
       | [] => None
       | (takes, e) :: sched =>
           let m := moved k takes n in
           Some (firstn m source, skipn m source, e, sched)
       end.
(** 1549-1559 *)
Fixpoint read_loop (turns : nat) (k : kind) (sched : schedule) (e : bool) (data source : list N) (n : nat)
  : option (list N * list N * bool * schedule) :=
  if Nat.ltb (length data) n then
    match turns with
    | O => None
    | S turns =>
        match ReadBlob k sched e source (n - length data) with
        | None => None
        | Some ([], source, e, sched) =>
            if e then read_loop turns k sched e data source n else Some (data, source, e, sched)
        | Some (got, source, e, sched) => read_loop turns k sched e (data ++ got) source n
        end
    end
  else Some (data, source, e, sched).
(** 1533-1561 *)
Definition ReadBlobChunk turns k sched e source n := read_loop turns k sched e [] source n.
