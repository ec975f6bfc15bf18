(** Starting and ending the library, and the signals it handles (wizard/wizard.c and the component functions). *)
From Coq Require Import Bool Arith List.
Import ListNotations.

(** * Components *)
Inductive component := Log | Random | Configure | Resource | Mime | Locale.
Definition component_eqb (a b : component) : bool :=
  match a, b with
  | Log, Log | Random, Random | Configure, Configure | Resource, Resource | Mime, Mime | Locale, Locale => true
  | _, _ => false
  end.
(** semaphore: acquired and not yet relinquished; cache: the same for its cache, or the tree of temporary files; taken and given count them;
    random_info is that of resource.c:100 *)
Record life := { running : bool; semaphore : component -> bool; cache : component -> bool; taken : component -> nat; given : component -> nat; random_info : bool }.
Definition born : life :=
  {| running := false; semaphore := fun _ => false; cache := fun _ => false; taken := fun _ => 0; given := fun _ => 0; random_info := false |}.
Definition set {A} (f : component -> A) (c : component) (v : A) : component -> A := fun d => if component_eqb d c then v else f d.
(** ActivateSemaphoreInfo, or "if NULL AcquireSemaphoreInfo": configure.c:213-214, log.c:829-830, mime.c:993-994, random.c:912-913,
    resource.c:903-904, locale.c:1394-1395 *)
Definition activate (c : component) (s : life) : life :=
  if semaphore s c then s
  else {| running := running s; semaphore := set (semaphore s) c true; cache := cache s; taken := set (taken s) c (S (taken s c)); given := given s; random_info := random_info s |}.
(** the cache is loaded when there is none: configure.c:940-948, log.c:657-665, mime.c:664-672, locale.c:905-936, resource.c:352-354; random numbers have none *)
Definition load (c : component) (s : life) : life :=
  {| running := running s; semaphore := semaphore s; cache := set (cache s) c (negb (component_eqb c Random)); taken := taken s; given := given s; random_info := random_info s |}.
(** a function of the component is used *)
Definition use (c : component) (s : life) : life := if cache s c then s else load c (activate c s).
(** a component ends: configure.c:257-267, log.c:882-891, mime.c:1037-1046, random.c:935-940, resource.c:983-992, locale.c:1420-1432 *)
Definition terminus (c : component) (s : life) : life :=
  let s := activate c s in
  {| running := running s; semaphore := set (semaphore s) c false; cache := set (cache s) c false; taken := taken s; given := set (given s) c (S (given s c)); random_info := random_info s |}.
Definition set_running (b : bool) (s : life) : life :=
  {| running := b; semaphore := semaphore s; cache := cache s; taken := taken s; given := given s; random_info := random_info s |}.
(** WizardsToolkitGenesis, wizard.c:205-315 (LogComponentGenesis also loads the log, log.c:831-833) *)
Definition genesis (s : life) : life :=
  if running s then s
  else set_running true (activate Mime (activate Resource (activate Configure (activate Random (use Log (activate Log s)))))).
(** WizardsToolkitTerminus, wizard.c:334-350 *)
Definition ending (s : life) : life :=
  if running s then set_running false (terminus Log (terminus Random (terminus Resource (terminus Mime s)))) else s.
(** AcquireUniqueFileResource, resource.c:283-289 and 349-354: None if LockSemaphoreInfo is given no semaphore (semaphore.c:283: assert) *)
Definition unique_file (s : life) : option life :=
  if random_info s || semaphore s Resource then
    let s := {| running := running s; semaphore := semaphore s; cache := cache s; taken := taken s; given := given s; random_info := true |} in
    Some (load Resource (activate Resource s))
  else None.
Inductive call := Genesis | Terminus | Use (c : component) | UniqueFile.
Definition do (s : life) (o : call) : option life :=
  match o with
  | Genesis => Some (genesis s)
  | Terminus => Some (ending s)
  | Use c => Some (use c s)
  | UniqueFile => unique_file s
  end.
Fixpoint history (l : list call) (s : life) : option life :=
  match l with [] => Some s | o :: l => match do s o with Some s => history l s | None => None end end.

(** * Signals, wizard.c:80-188 *)
Inductive handler := Default | Ignore | User (n : nat) | Wizard.
Definition is_default (h : handler) : bool := match h with Default => true | _ => false end.
Definition is_wizard (h : handler) : bool := match h with Wizard => true | _ => false end.
(** what sigaction keeps: the handler, whether it takes three arguments, whether interrupted calls are restarted, and the signals blocked meanwhile *)
Record action := { to : handler; siginfo : bool; restart : bool; mask : list nat }.
(** the process: the action and the block of each signal, and the table signal_handlers (NULL is SIG_DFL) *)
Record process := { actions : nat -> action; blocked : nat -> bool; table : nat -> handler }.
Definition at_signal {A} (f : nat -> A) (g : nat) (v : A) : nat -> A := fun h => if h =? g then v else f h.
(** SetWizardSignalHandler, wizard.c:118-150 *)
Definition set_handler (g : nat) (h : handler) (p : process) : handler * process :=
  (to (actions p g), {| actions := at_signal (actions p) g {| to := h; siginfo := false; restart := false; mask := [g] |};
                        blocked := at_signal (blocked p) g false; table := table p |}).
(** RegisterWizardSignalHandler, wizard.c:191-205 *)
Definition register (g : nat) (p : process) : handler * process :=
  let (h, p) := set_handler g Wizard p in
  if is_default h then (h, p) else (h, snd (set_handler g h p)).
(** wizard.c:264-304: SIGABRT, SIGFPE, SIGHUP, SIGINT, SIGQUIT, SIGTERM, SIGSEGV, SIGXCPU, SIGXFSZ *)
Definition signals : list nat := [6; 8; 1; 2; 3; 15; 11; 24; 25].
Definition catch (p : process) (g : nat) : process :=
  if is_default (table p g) then let (h, p) := register g p in {| actions := actions p; blocked := blocked p; table := at_signal (table p) g h |} else p.
Definition catch_all (p : process) : process := fold_left catch signals p.
(** What becomes of the process when signal g arrives: WizardSignalHandler, wizard.c:152-188.
    have_exit is WIZARDSTOOLKIT_HAVE__EXIT, which configure.ac never defines; nested: a signal is being handled already. *)
Inductive fate := Killed (g : nat) | Exits (status : nat) (cleaned : bool) (atexit : bool) | Goes (n : nat) | Nothing | Later.
Definition exit_signal (g : nat) : bool := (g =? 1) || (g =? 2) || (g =? 15) || (g =? 11).
Definition deliver (have_exit : bool) (p : process) (g : nat) : fate :=
  if blocked p g then Later else
  match to (actions p g) with
  | Default => Killed g
  | Ignore => Nothing
  | User n => Goes n
  | Wizard =>
      if negb have_exit || exit_signal g then Exits g true true
      else (* raise: the signal is blocked while its handler runs, so it does not arrive before _exit *)
        Exits g true false
  end.
(** what the parent gets to know *)
Inductive report := Died (g : nat) | Status (n : nat) | Alive.
Definition reported (f : fate) : report := match f with Killed g => Died g | Exits n _ _ => Status n | _ => Alive end.
