(** Model of the size arithmetic of wizard/memory.c and memory-private.h, and
    of the resource accounting of virtual memory.

    [size_t] is 64 bits.  A request is modelled by the number of bytes handed
    to the underlying allocator; [None] is a NULL return without calling it.
    The default build is modelled (no WIZARDSTOOLKIT_EMBEDDABLE_SUPPORT):
    AcquireWizardMemory calls malloc (memory.c:591), posix_memalign is
    available (memory.c:266-268). *)
From Coq Require Import ZArith NArith List Bool.
From Verif Require Import Base Outcome ResourceModel.
Import ListNotations.
Local Open Scope N_scope.

(** memory.c:591, AcquireWizardMemory: what malloc is asked for *)
Definition AcquireWizardMemory (size : N) : N := if size =? 0 then 1 else size.

(** memory.c:657-669, AcquireQuantumMemory *)
Definition AcquireQuantumMemory (count quantum : N) : option N :=
  let size := wmul 64 count quantum in
  if (count =? 0) || negb (quantum =? size / count) then None
  else Some (AcquireWizardMemory size).

(** memory.c:1236-1250, ResizeQuantumMemory: [None] when the block is freed
    and NULL returned; ResizeWizardMemory asks realloc for at least one byte
    (memory.c:1186) *)
Definition ResizeQuantumMemory (count quantum : N) : option N :=
  let size := wmul 64 count quantum in
  if (count =? 0) || negb (quantum =? size / count) then None
  else Some (if size =? 0 then 1 else size).

(** memory-private.h:23-27, CACHE_LINE_SIZE (not PowerPC) *)
Definition CACHE_LINE_SIZE : N := 64.
(** memory.c:245-246, AlignedExtent *)
Definition AlignedExtent (size alignment : N) : N :=
  N.land (wadd 64 size (alignment - 1)) (wnot 64 (alignment - 1)).

(** memory.c:243-292, AcquireAlignedMemory: the alignment and extent handed to
    posix_memalign; [page] is GetWizardPageSize() *)
Definition AcquireAlignedMemory (page count quantum : N) : option (N * N) :=
  let size := wmul 64 count quantum in
  if (count =? 0) || negb (quantum =? size / count) then None
  else
    let alignment := if N.shiftr page 1 <? size then page else CACHE_LINE_SIZE in
    let extent := AlignedExtent size CACHE_LINE_SIZE in
    if (size =? 0) || (extent <? size) then None else Some (alignment, extent).

(** memory-private.h:43-56, OverAllocateMemory; the loop doubles at most
    [fuel] times *)
Fixpoint double_until (fuel : nat) (extent length : N) : option N :=
  match fuel with
  | O => None
  | S f => if extent <? length then double_until f (wmul 64 extent 2) length else Some extent
  end.
Definition OverAllocateMemory (fuel : nat) (length : N) : option N :=
  if length <? 131072 then double_until fuel 256 length else Some length.

(** ** Virtual memory and the resource counters *)

(** memory.c:118-125, VirtualMemoryType; Map with the presence of a file name *)
Inductive vtype := Aligned | Mapped (file : bool) | Unaligned.
Record memory_info := mkMI { mi_type : vtype; mi_length : N }.

(** what the system answers: posix_memalign, the anonymous mapping, the
    temporary file and its mapping, malloc *)
Record answers := mkAns { a_aligned : bool; a_anonymous : bool; a_file : bool; a_malloc : bool }.

(** memory.c:469-561, AcquireVirtualMemory; the allocation of the small
    MemoryInfo structure itself always succeeds, DestroyUnique of the temporary
    file has no effect on the counters.  [Ok (None, s)]: NULL. *)
Definition AcquireVirtualMemory (page : N) (o : answers) (s : resource_info) (count quantum : N)
  : outcome (option memory_info * resource_info) :=
  let length := wmul 64 count quantum in
  if (count =? 0) || negb (quantum =? length / count) then Ok (None, s)
  else
    let last (s : resource_info) :=                                       (* 551-560 *)
      let* s := RelinquishWizardResource s MapResource length in
      if a_malloc o then Ok (Some (mkMI Unaligned length), s) else Ok (None, s) in
    let map_part (s : resource_info) :=                                   (* 500-550 *)
      let* s := RelinquishWizardResource s MemoryResource length in
      let '(s, granted) := AcquireWizardResource s MapResource length in
      if granted then
        if a_anonymous o then Ok (Some (mkMI (Mapped false) length), s)
        else
          let '(s, granted) := AcquireWizardResource s DiskResource length in
          if granted && a_file o then Ok (Some (mkMI (Mapped true) length), s)
          else let* s := RelinquishWizardResource s DiskResource length in last s
      else last s in
    let '(s, granted) := AcquireWizardResource s MemoryResource length in (* 491-499 *)
    if granted then
      match AcquireAlignedMemory page 1 length with
      | Some _ => if a_aligned o then Ok (Some (mkMI Aligned length), s) else map_part s
      | None => map_part s
      end
    else map_part s.

(** memory.c:978-1014, RelinquishVirtualMemory: its effect on the counters *)
Definition RelinquishVirtualMemory (s : resource_info) (m : memory_info) : outcome resource_info :=
  match mi_type m with
  | Aligned => RelinquishWizardResource s MemoryResource (mi_length m)
  | Mapped file =>
      let* s := RelinquishWizardResource s MapResource (mi_length m) in
      if file then RelinquishWizardResource s DiskResource (mi_length m) else Ok s
  | Unaligned => Ok s
  end.
