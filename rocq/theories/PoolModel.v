(** Model of the embeddable memory allocator of wizard/memory.c
    (WIZARDSTOOLKIT_EMBEDDABLE_SUPPORT): AllocationPolicy, InsertFreeBlock,
    RemoveFreeBlock, AcquireBlock, ExpandHeap, AcquireWizardMemory,
    RelinquishWizardMemory and ResizeWizardMemory.

    Memory is a map from byte addresses of 8-byte words to their values; a word
    can be read or written only inside the segments that were mapped, anything
    else is [UB].  A failed assertion is [Fatal].  Pointers are addresses, NULL is 0.
    For an even x, x & SizeMask of x+1 and x is x, and x | 1 is x+1: the header word is
    taken apart with division by two.  Whether MapBlob or the memory handler provides a
    segment makes no difference; its address, or none, is an argument, and nothing is
    assumed about what is in it.  Left out: the semaphore, the sorted array of
    segments (only DestroyWizardMemory reads it) and the counter
    memory_pool.allocation, which nothing reads. *)
From Coq Require Import Arith NArith Bool List.
From Verif Require Import Outcome.
Import ListNotations.
Local Open Scope N_scope.

(** memory.c:174-188 with the number of segments; blocks[i] is 0 or an address *)
Record pool := mkPool { mem : N -> N; blocks : N -> N; mapped : list (N * N); number : N }.
Definition inside (l : list (N * N)) (p : N) : bool :=
  existsb (fun s => (fst s <=? p) && (p + 8 <=? fst s + snd s)) l && (p mod 8 =? 0).
Definition upd (m : N -> N) (p v : N) : N -> N := fun q => if q =? p then v else m q.
Definition rd (st : pool) (p : N) : outcome N := if inside (mapped st) p then Ok (mem st p) else UB.
Definition wr (p v : N) (st : pool) : outcome pool :=
  if inside (mapped st) p then Ok (mkPool (upd (mem st) p v) (blocks st) (mapped st) (number st)) else UB.
Definition set_head (i v : N) (st : pool) : pool := mkPool (mem st) (upd (blocks st) i v) (mapped st) (number st).

(** 98-114 *)
Definition MaxBlocks : N := 49.
Definition SegmentSize : N := 2097152.
Definition size_mask (h : N) : N := 2 * (h / 2).
Definition previous_bit (h : N) : N := h mod 2.
Definition SizeOfBlock (st : pool) (block : N) : outcome N := let* h := rd st (block - 8) in Ok (size_mask h).
Definition NextBlock (st : pool) (block : N) : outcome N := let* s := SizeOfBlock st block in Ok (block + s).

(** 319-345; 1024 is BlockThreshold, 33554432 = 1024 * (1L << 15).  The two assertions
    about the result hold for every size (policy_bound) *)
Fixpoint halvings (fuel : nat) (size i : N) : N :=
  match fuel with
  | O => i
  | S fuel => if 1024 <? size then halvings fuel (size / 2) (i + 1) else i
  end.
Definition policy (size : N) : N :=
  if size <=? 1024 then size / 32
  else if 33554432 <? size then MaxBlocks - 1
  else halvings 16 size 32.
Definition AllocationPolicy (size : N) : outcome N :=
  if size =? 0 then Fatal else if negb (size mod 32 =? 0) then Fatal else Ok (policy size).

(** 358-362: while ((next != NULL) && (SizeOfBlock(next) < size)) *)
Fixpoint find_place (fuel : nat) (st : pool) (size previous next : N) : outcome (N * N) :=
  match fuel with
  | O => Fatal
  | S fuel =>
      if next =? 0 then Ok (previous, next)
      else let* s := SizeOfBlock st next in
           if s <? size then let* n := rd st next in find_place fuel st size next n else Ok (previous, next)
  end.
(** InsertFreeBlock, 347-372 *)
Definition InsertFreeBlock (fuel : nat) (block i : N) (st : pool) : outcome pool :=
  let* size := SizeOfBlock st block in
  let* (previous, next) := find_place fuel st size 0 (blocks st i) in
  let* st := wr (block + 8) previous st in
  let* st := wr block next st in
  let* st := (if previous =? 0 then Ok (set_head i block st) else wr previous block st) in
  if next =? 0 then Ok st else wr (next + 8) block st.
(** RemoveFreeBlock, 374-388 *)
Definition RemoveFreeBlock (block i : N) (st : pool) : outcome pool :=
  let* next := rd st block in
  let* previous := rd st (block + 8) in
  let* st := (if previous =? 0 then Ok (set_head i next st) else wr previous next st) in
  if next =? 0 then Ok st else wr (next + 8) previous st.

(** 403-405 *)
Fixpoint find_block (fuel : nat) (st : pool) (size block : N) : outcome N :=
  match fuel with
  | O => Fatal
  | S fuel =>
      if block =? 0 then Ok 0
      else let* s := SizeOfBlock st block in
           if s <? size then let* n := rd st block in find_block fuel st size n else Ok block
  end.
(** 408-411; behind the end of the array: UB *)
Fixpoint find_list (fuel : nat) (st : pool) (i : N) : outcome N :=
  match fuel with
  | O => UB
  | S fuel => if MaxBlocks <? i then UB else if blocks st i =? 0 then find_list fuel st (i + 1) else Ok i
  end.
(** 401: (size+sizeof(size_t)+6*sizeof(size_t)-1) & -(4U*sizeof(size_t)) *)
Definition round_up (size : N) : N := 32 * ((size + 55) mod 2 ^ 64 / 32).
(** AcquireBlock, 390-440; NULL is 0 *)
Definition AcquireBlock (fuel : nat) (size : N) (st : pool) : outcome (N * pool) :=
  let size := round_up size in
  let* i := AllocationPolicy size in
  let* block := find_block fuel st size (blocks st i) in
  let* found := (if block =? 0
                 then let* i := find_list 60 st (i + 1) in
                      if MaxBlocks <=? i then Ok None else Ok (Some (blocks st i))
                 else Ok (Some block)) in
  match found with
  | None => Ok (0, st)
  | Some block =>
      let* next := NextBlock st block in
      let* h := rd st (next - 8) in
      if negb (previous_bit h =? 0) then Fatal
      else
        let* s := SizeOfBlock st block in
        if s <? size then Fatal
        else
          let* i := AllocationPolicy s in
          let* st := RemoveFreeBlock block i st in
          let* st :=
            (if size <? s then
               let next := block + size in
               let blocksize := s - size in
               let* st := wr (next - 8) blocksize st in
               let* st := wr (next + blocksize - 16) blocksize st in
               let* i := AllocationPolicy blocksize in
               let* st := InsertFreeBlock fuel next i st in
               let* h := rd st (block - 8) in
               wr (block - 8) (size + previous_bit h) st
             else Ok st) in
          let* s := SizeOfBlock st block in
          if negb (size =? s) then Fatal
          else
            let* next := NextBlock st block in
            let* h := rd st (next - 8) in
            let* st := wr (next - 8) (size_mask h + 1) st in
            Ok (block, st)
  end.

(** ExpandHeap, 795-844.  [segment]: what MapBlob or the memory handler returned *)
Definition segment_size (size : N) : N := SegmentSize * ((size + 96 + SegmentSize - 1) mod 2 ^ 64 / SegmentSize).
Definition ExpandHeap (fuel : nat) (size : N) (segment : option N) (st : pool) : outcome (option pool) :=
  let blocksize := segment_size size in
  if 1024 <=? number st then Fatal
  else match segment with
  | None => Ok None
  | Some segment =>
      let st := mkPool (mem st) (blocks st) (mapped st ++ [(segment, blocksize)]) (number st + 1) in
      let size := blocksize - 96 in
      let block := segment + 32 in
      let* st := wr (block - 8) (size + 1) st in
      let* st := wr (block + size - 16) size st in
      let* i := AllocationPolicy size in
      let* st := InsertFreeBlock fuel block i st in
      let* block := NextBlock st block in
      if negb (block <? segment + blocksize) then Fatal
      else
        let* st := wr (block - 8) 16 st in
        let* next := NextBlock st block in
        let* st := wr (next - 8) 1 st in
        Ok (Some st)
  end.

(** 596-616: the pool is set up when there is no free segment, at the beginning and
    after the last of MaxSegments was taken *)
Definition empty_heads : N -> N := upd (fun _ => 0) MaxBlocks (2 ^ 64 - 1).
Definition initial : pool := mkPool (fun _ => 0) empty_heads [] 0.
Definition activate (st : pool) : pool :=
  if number st =? 1024 then mkPool (mem st) empty_heads (mapped st) 0 else st.
Definition at_least_one (size : N) : N := if size =? 0 then 1 else size.
(** AcquireWizardMemory, 586-630 *)
Definition AcquireWizardMemory (fuel : nat) (size : N) (segment : option N) (st : pool) : outcome (N * pool) :=
  let st := activate st in
  let size := at_least_one size in
  let* (memory, st) := AcquireBlock fuel size st in
  if memory =? 0 then
    let* r := ExpandHeap fuel size segment st in
    match r with
    | None => Ok (0, st)
    | Some st => AcquireBlock fuel size st
    end
  else Ok (memory, st).

(** RelinquishWizardMemory, 1039-1082 *)
Definition RelinquishWizardMemory (fuel : nat) (memory : N) (st : pool) : outcome pool :=
  if memory =? 0 then Ok st
  else
    let* s := SizeOfBlock st memory in
    if negb (s mod 32 =? 0) then Fatal
    else
      let* next := NextBlock st memory in
      let* h := rd st (next - 8) in
      if previous_bit h =? 0 then Fatal
      else
        let* h := rd st (memory - 8) in
        let* (memory, st) :=
          (if previous_bit h =? 0 then
             let* d := rd st (memory - 16) in
             let previous := memory - d in
             let* s := SizeOfBlock st previous in
             let* i := AllocationPolicy s in
             let* st := RemoveFreeBlock previous i st in
             let* s1 := SizeOfBlock st previous in
             let* s2 := SizeOfBlock st memory in
             let* h := rd st (previous - 8) in
             let* st := wr (previous - 8) (s1 + s2 + previous_bit h) st in
             Ok (previous, st)
           else Ok (memory, st)) in
        let* next := NextBlock st memory in
        let* next2 := NextBlock st next in
        let* h := rd st (next2 - 8) in
        let* st :=
          (if previous_bit h =? 0 then
             let* s := SizeOfBlock st next in
             let* i := AllocationPolicy s in
             let* st := RemoveFreeBlock next i st in
             let* s1 := SizeOfBlock st memory in
             let* s2 := SizeOfBlock st next in
             let* h := rd st (memory - 8) in
             wr (memory - 8) (s1 + s2 + previous_bit h) st
           else Ok st) in
        let* s := SizeOfBlock st memory in
        let* st := wr (memory + s - 16) s st in
        let* next := NextBlock st memory in
        let* h := rd st (next - 8) in
        let* st := wr (next - 8) (size_mask h) st in
        let* i := AllocationPolicy s in
        InsertFreeBlock fuel memory i st.

(** memcpy of [n] bytes, whole words first; of the last word only the first bytes
    (little endian) *)
Fixpoint copy_words (n : nat) (to from : N) (st : pool) : outcome pool :=
  match n with
  | O => Ok st
  | S n => let* v := rd st from in let* st := wr to v st in copy_words n (to + 8) (from + 8) st
  end.
Definition memcpy (to from n : N) (st : pool) : outcome pool :=
  let* st := copy_words (N.to_nat (n / 8)) to from st in
  if n mod 8 =? 0 then Ok st
  else
    let to := to + 8 * (n / 8) in
    let from := from + 8 * (n / 8) in
    let k := 256 ^ (n mod 8) in
    let* v := rd st from in
    let* w := rd st to in
    wr to (w / k * k + v mod k) st.
(** ResizeBlock, 1156-1172 *)
Definition ResizeBlock (fuel : nat) (block size : N) (st : pool) : outcome (N * pool) :=
  let* (memory, st) := AcquireBlock fuel size st in
  if memory =? 0 then Ok (0, st)
  else
    let* s := SizeOfBlock st block in
    let* st := memcpy memory block (if size <=? s - 8 then size else s - 8) st in
    Ok (memory, st).
(** ResizeWizardMemory, 1175-1205; the failing branch ends the program *)
Definition ResizeWizardMemory (fuel : nat) (memory size : N) (segment : option N) (st : pool) : outcome (N * pool) :=
  if memory =? 0 then AcquireWizardMemory fuel size segment st
  else
    let size := at_least_one size in
    let* (block, st) := ResizeBlock fuel memory size st in
    let* (block, st) :=
      (if block =? 0 then
         let* r := ExpandHeap fuel size segment st in
         match r with
         | None => Fatal
         | Some st =>
             let* (block, st) := ResizeBlock fuel memory size st in
             if block =? 0 then Fatal else Ok (block, st)
         end
       else Ok (block, st)) in
    let* st := RelinquishWizardMemory fuel memory st in
    Ok (block, st).
