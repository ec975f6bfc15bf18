(** Temporary files when a signal arrives: AsynchronousResourceComponentTerminus (wizard/resource.c 511-530), which
    WizardSignalHandler calls (wizard/wizard.c 152-162), in the middle of AcquireUniqueFileResource (254-355) or
    RelinquishUniqueFileResource (843-869), or between such calls.

    Names are numbers; how they are made and compared is in TempModel.v.  One thread.  A call is a sequence of small
    steps, and the signal arrives between two of them.  Modelled are calls that succeed: mkstemp gives a new name,
    the resource is granted.  Not modelled: what the allocator does when it is interrupted, the semaphore of the log,
    and a second signal (LifeModel.v). *)
From Coq Require Import Arith List Bool.
Import ListNotations.

(** random_info->semaphore, resource_semaphore, temporary_resources->semaphore *)
Inductive lock := Random | Resource | Tree.
Record state := mkState {
  files : list nat;                    (* in the file system *)
  keys : option (list nat);            (* temporary_resources, NULL before the first *)
  held_random : bool; held_resource : bool; held_tree : bool }.
Definition set_held (s : state) (l : lock) (v : bool) : state :=
  match l with
  | Random => mkState (files s) (keys s) v (held_resource s) (held_tree s)
  | Resource => mkState (files s) (keys s) (held_random s) v (held_tree s)
  | Tree => mkState (files s) (keys s) (held_random s) (held_resource s) v
  end.

Inductive micro := Lock (l : lock) | Unlock (l : lock) | Create (f : nat) | NewTree | Add (f : nat) | Delete (f : nat) | Remove (f : nat).
Definition set_files (s : state) (fs : list nat) : state := mkState fs (keys s) (held_random s) (held_resource s) (held_tree s).
Definition set_keys (s : state) (ks : option (list nat)) : state := mkState (files s) ks (held_random s) (held_resource s) (held_tree s).
Definition without (f : nat) (l : list nat) : list nat := filter (fun x => negb (Nat.eqb x f)) l.
Definition step (s : state) (m : micro) : state :=
  match m with
  | Lock l => set_held s l true
  | Unlock l => set_held s l false
  | Create f => set_files s (f :: files s)
  | NewTree => match keys s with None => set_keys s (Some []) | Some _ => s end
  | Add f => set_keys s (option_map (fun ks => f :: without f ks) (keys s))
  | Delete f => set_keys s (option_map (without f) (keys s))
  | Remove f => set_files s (without f (files s))
  end.
Definition run (s : state) (ms : list micro) : state := fold_left step ms s.

(** a function that takes the lock and gives it back, n times *)
Definition uses (l : lock) (n : nat) : list micro := concat (repeat [Lock l; Unlock l] n).
(** resource.c 254-355: GetRandomKey (294, 315; n times in all), mkstemp (305), AcquireWizardResource (332), 342-347, AddValueToSplayTree (348) *)
Definition acquire (f n : nat) : list micro :=
  uses Random n ++ [Create f] ++ uses Resource 1 ++ [Lock Resource; NewTree; Unlock Resource] ++ [Lock Tree; Add f; Unlock Tree].
(** 843-869: Reset and GetNext (n times in all), DeleteNodeFromSplayTree if the name is found *)
Definition relinquish (ks : option (list nat)) (f n : nat) (trash : bool) : list micro :=
  match ks with
  | None => []
  | Some ks => uses Tree n ++ (if existsb (Nat.eqb f) ks then [Lock Tree; Delete f; Unlock Tree] else [])
  end ++ (if trash then [Remove f] else []).
Inductive op := Acquire (f n : nat) | Relinquish (f n : nat) (trash : bool).
Definition micros (s : state) (o : op) : list micro :=
  match o with
  | Acquire f n => acquire f n
  | Relinquish f n trash => relinquish (keys s) f n trash
  end.
Definition call (s : state) (o : op) : state := run s (micros s o).
Definition calls (s : state) (os : list op) : state := fold_left call os s.

(** resource.c 511-530: the files left, and whether the handler returns (wizard.c 162: the process then exits) or waits
    for a semaphore that the thread it interrupted holds *)
Inductive fate := Exits (fs : list nat) | Hangs (fs : list nat).
Definition AsynchronousResourceComponentTerminus (s : state) : fate :=
  match keys s with
  | None => Exits (files s)
  | Some ks =>
      if held_tree s then Hangs (files s)                                        (* ResetSplayTreeIterator *)
      else let fs := filter (fun x => negb (existsb (Nat.eqb x) ks)) (files s) in
        if held_random s then Hangs fs else Exits fs                             (* DestroyRandomInfo *)
  end.
(** the signal arrives after the calls os, in the call o, after k steps *)
Definition interrupted (s : state) (os : list op) (o : op) (k : nat) : fate :=
  let s := calls s os in AsynchronousResourceComponentTerminus (run s (firstn k (micros s o))).
