(** Threads that need a cache, and the semaphore and the mutex behind it
    (wizard/semaphore.c, semaphore-private.h, configure.c, log.c, mime.c, locale.c).

    Any number of threads; each step of a thread is one access to shared memory or one
    call of the lock library, and the steps of the threads interleave in any order
    (sequential consistency).  [omp] chooses between the OpenMP and the POSIX variant. *)
From Coq Require Import Bool Arith List.
Import ListNotations.

(** where a thread is; the comments give the lines *)
Inductive pc :=
| Start            (* configure.c:940: is there a cache? *)
| NeedSemaphore    (* configure.c:942: is there a semaphore? *)
| Activate         (* semaphore.c:250: is there a semaphore? *)
| Init             (* semaphore.c:252, semaphore-private.h:55-59: is the mutex active? *)
| InitLock         (* semaphore-private.h:57: omp_init_lock *)
| SetActive        (* semaphore-private.h:59 *)
| LockMutex        (* semaphore.c:253 *)
| Recheck          (* semaphore.c:254 *)
| Acquire          (* semaphore.c:255 *)
| UnlockMutex      (* semaphore.c:256 *)
| LockSemaphore    (* configure.c:944 *)
| CacheRecheck     (* configure.c:945 *)
| Load             (* configure.c:946 *)
| UnlockSemaphore  (* configure.c:947 *)
| Done.

(** mutex: who holds the static mutex; semaphores: how many have been acquired, the last one is the one in use;
    holder: who holds the semaphore in use; loads: how many caches have been loaded; wild: a lock which was held has
    been initialised again *)
Record shared := { active : bool; mutex : option nat; semaphores : nat; holder : option nat; loads : nat; wild : bool }.
Record state := { mem : shared; at_ : nat -> pc }.
Definition start (a : bool) : state :=
  {| mem := {| active := a; mutex := None; semaphores := 0; holder := None; loads := 0; wild := false |}; at_ := fun _ => Start |}.
Definition go (s : state) (t : nat) (m : shared) (p : pc) : state :=
  {| mem := m; at_ := fun u => if u =? t then p else at_ s u |}.

(** One step of thread t; None if it has to wait, or is done.
    A semaphore once stored is found by every later read, so whether there is one is whether any was acquired. *)
Definition step (omp : bool) (s : state) (t : nat) : option state :=
  let m := mem s in
  let to := fun p => Some (go s t m p) in
  match at_ s t with
  | Start => to (if 0 <? loads m then Done else NeedSemaphore)
  | NeedSemaphore => to (if 0 <? semaphores m then LockSemaphore else Activate)
  | Activate => to (if 0 <? semaphores m then LockSemaphore else Init)
  | Init => to (if omp && negb (active m) then InitLock else SetActive)
  | InitLock => Some (go s t {| active := active m; mutex := None; semaphores := semaphores m; holder := holder m; loads := loads m;
                                wild := wild m || match mutex m with Some _ => true | None => false end |} SetActive)
  | SetActive => Some (go s t {| active := true; mutex := mutex m; semaphores := semaphores m; holder := holder m; loads := loads m; wild := wild m |} LockMutex)
  | LockMutex => match mutex m with
                 | Some _ => None
                 | None => Some (go s t {| active := active m; mutex := Some t; semaphores := semaphores m; holder := holder m; loads := loads m; wild := wild m |} Recheck)
                 end
  | Recheck => to (if 0 <? semaphores m then UnlockMutex else Acquire)
  | Acquire => (* a new semaphore, which nobody holds, takes the place of any other *)
               Some (go s t {| active := active m; mutex := mutex m; semaphores := S (semaphores m); holder := None; loads := loads m; wild := wild m |} UnlockMutex)
  | UnlockMutex => Some (go s t {| active := active m; mutex := None; semaphores := semaphores m; holder := holder m; loads := loads m; wild := wild m |} LockSemaphore)
  | LockSemaphore => match holder m with
                     | Some _ => None
                     | None => Some (go s t {| active := active m; mutex := mutex m; semaphores := semaphores m; holder := Some t; loads := loads m; wild := wild m |} CacheRecheck)
                     end
  | CacheRecheck => to (if 0 <? loads m then UnlockSemaphore else Load)
  | Load => Some (go s t {| active := active m; mutex := mutex m; semaphores := semaphores m; holder := holder m; loads := S (loads m); wild := wild m |} UnlockSemaphore)
  | UnlockSemaphore => Some (go s t {| active := active m; mutex := mutex m; semaphores := semaphores m; holder := None; loads := loads m; wild := wild m |} Done)
  | Done => None
  end.
(** executions: the threads that take the steps *)
Fixpoint run (omp : bool) (l : list nat) (s : state) : option state :=
  match l with [] => Some s | t :: l => match step omp s t with Some s => run omp l s | None => None end end.

(** ** LockSemaphoreInfo and UnlockSemaphoreInfo with WIZARDSTOOLKIT_DEBUG, semaphore.c:281-312 and 437-470 *)
Record semaphore := { owner : option nat; id : nat; count : nat }.
Inductive event := Lock (t : nat) | Unlock (t : nat).
Inductive result := Next (s : semaphore) | Wait | Recursive | Assertion | Already.
Definition semaphore_step (debug : bool) (s : semaphore) (e : event) : result :=
  match e with
  | Lock t =>
      match owner s with
      | Some _ => Wait
      | None => if debug && (0 <? count s) && (id s =? t) then Recursive
                else Next {| owner := Some t; id := t; count := S (count s) |}
      end
  | Unlock t =>
      if debug then
        if negb (id s =? t) then Assertion
        else if count s =? 0 then Already else Next {| owner := None; id := id s; count := count s - 1 |}
      else Next {| owner := None; id := id s; count := count s |}
  end.
Fixpoint events (debug : bool) (l : list event) (s : semaphore) : result :=
  match l with [] => Next s | e :: l => match semaphore_step debug s e with Next s => events debug l s | r => r end end.
