(** Model of the resource accounting in wizard/resource.c.

    The five counters are [WizardOffsetType] (signed, 64 bits), the limits
    [WizardSizeType] (unsigned, 64 bits).  Locking, logging and the formatting
    of the log message are not modelled: each call runs under
    [resource_semaphore] (resource.c:402-404, 485), so a history of calls is a
    list.  Resource types outside the five are not modelled (the [default]
    branches do nothing). *)
From Coq Require Import ZArith NArith List Bool.
From Verif Require Import Base Outcome.
Import ListNotations.
Local Open Scope Z_scope.

(** wizard/resource_.h: ResourceType, without UndefinedResource *)
Inductive rtype := AreaResource | MemoryResource | MapResource | DiskResource | FileResource.

(** resource.c:68-83, ResourceInfo *)
Record resource_info := mkRI {
  area : Z; memory : Z; map_ : Z; disk : Z; file : Z;
  area_limit : N; memory_limit : N; map_limit : N; disk_limit : N; file_limit : N }.

(** resource.c:63, [~0UL] *)
Definition WizardResourceInfinity : N := (2 ^ 64 - 1)%N.

(** resource.c:91-104, the initial resource_info; [sizeof(void * )] is 8 *)
Definition initial : resource_info :=
  mkRI 0 0 0 0 0 (1536 * 1024 * 1024 / 8)%N (1536 * 1024 * 1024)%N (3072 * 1024 * 1024)%N
    WizardResourceInfinity 768%N.

(** conversion of an integer to the signed 64-bit type, as gcc defines it
    (C11 6.3.1.3p3) *)
Definition signed (x : Z) : Z := (x + 2 ^ 63) mod 2 ^ 64 - 2 ^ 63.

(** the field a [case] of the switches reads, and its limit *)
Definition used (s : resource_info) (t : rtype) : Z :=
  match t with
  | AreaResource => area s | MemoryResource => memory s | MapResource => map_ s
  | DiskResource => disk s | FileResource => file s
  end.
Definition limit (s : resource_info) (t : rtype) : N :=
  match t with
  | AreaResource => area_limit s | MemoryResource => memory_limit s | MapResource => map_limit s
  | DiskResource => disk_limit s | FileResource => file_limit s
  end.
Definition set_used (s : resource_info) (t : rtype) (v : Z) : resource_info :=
  let '(mkRI a m p d f al ml pl dl fl) := s in
  match t with
  | AreaResource => mkRI v m p d f al ml pl dl fl
  | MemoryResource => mkRI a v p d f al ml pl dl fl
  | MapResource => mkRI a m v d f al ml pl dl fl
  | DiskResource => mkRI a m p v f al ml pl dl fl
  | FileResource => mkRI a m p d v al ml pl dl fl
  end.
Definition set_limit (s : resource_info) (t : rtype) (v : N) : resource_info :=
  let '(mkRI a m p d f al ml pl dl fl) := s in
  match t with
  | AreaResource => mkRI a m p d f v ml pl dl fl
  | MemoryResource => mkRI a m p d f al v pl dl fl
  | MapResource => mkRI a m p d f al ml v dl fl
  | DiskResource => mkRI a m p d f al ml pl v fl
  | FileResource => mkRI a m p d f al ml pl dl v
  end.

(** resource.c:388-489, AcquireWizardResource *)
Definition AcquireWizardResource (s : resource_info) (t : rtype) (size : N) : resource_info * bool :=
  match t with
  | AreaResource =>                                     (* 407-418 *)
      let s := set_used s AreaResource (signed (Z.of_N size)) in
      let lim := area_limit s in
      (s, (area_limit s =? WizardResourceInfinity)%N || (size <? lim)%N)
  | _ =>                                                (* 419-482, four equal cases *)
      let s := set_used s t (signed (used s t + Z.of_N size)) in
      let lim := limit s t in
      if (lim =? WizardResourceInfinity)%N || (used s t <? signed (Z.of_N lim)) then (s, true)
      else (set_used s t (signed (used s t - signed (Z.of_N size))), false)
  end.

(** resource.c:746-815, RelinquishWizardResource; [Fatal] is a failed assert *)
Definition RelinquishWizardResource (s : resource_info) (t : rtype) (size : N) : outcome resource_info :=
  match t with
  | AreaResource => Ok (set_used s AreaResource (signed (Z.of_N size)))
  | _ =>
      let s := set_used s t (signed (used s t - Z.of_N size)) in
      if 0 <=? used s t then Ok s else Fatal
  end.

(** resource.c:1021-1057, SetWizardResourceLimit *)
Definition SetWizardResourceLimit (s : resource_info) (t : rtype) (lim : N) : resource_info * bool :=
  (set_limit s t lim, true).

(** a history of calls *)
Inductive call := Acquire (t : rtype) (size : N) | Relinquish (t : rtype) (size : N) | SetLimit (t : rtype) (lim : N).

Definition step (s : resource_info) (c : call) : outcome (resource_info * bool) :=
  match c with
  | Acquire t n => Ok (AcquireWizardResource s t n)
  | Relinquish t n => let* s := RelinquishWizardResource s t n in Ok (s, true)
  | SetLimit t l => Ok (SetWizardResourceLimit s t l)
  end.

(** the state and the values returned, in order *)
Fixpoint run (s : resource_info) (cs : list call) : outcome (resource_info * list bool) :=
  match cs with
  | [] => Ok (s, [])
  | c :: cs => let* (s, b) := step s c in let* (s, bs) := run s cs in Ok (s, b :: bs)
  end.
