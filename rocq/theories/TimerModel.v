(** Stopwatches (wizard/timer.c).  The clock readings are arguments, in whole ticks, and the
    arithmetic on doubles is taken as exact. *)
From Coq Require Import ZArith.
Local Open Scope Z_scope.

(** timer.h: Timer, TimerInfo *)
Record timer := { start : Z; stop : Z; total : Z }.
Inductive timer_state := Undefined | Stopped | Running.
Record timer_info := { user : timer; elapsed : timer; state : timer_state }.

(** what ElapsedTime and UserTime return (timer.c:204-218, 458-473) *)
Record reading := { elapsed_now : Z; user_now : Z }.

Section Timer.
(** WizardEpsilon *)
Variable eps : Z.

(** timer.c:380-399 *)
Definition StartTimer (t : timer_info) (reset : bool) (r : reading) : timer_info :=
  let clear w := {| start := start w; stop := stop w; total := 0 |} in
  let t := if reset then {| user := clear (user t); elapsed := clear (elapsed t); state := state t |} else t in
  match state t with
  | Running => t
  | _ => {| user := {| start := user_now r; stop := stop (user t); total := total (user t) |};
            elapsed := {| start := elapsed_now r; stop := stop (elapsed t); total := total (elapsed t) |};
            state := Running |}
  end.
(** timer.c:423-437 *)
Definition StopTimer (t : timer_info) (r : reading) : timer_info :=
  let stop_at w now :=
    {| start := start w; stop := now; total := match state t with Running => total w + (now - start w + eps) | _ => total w end |} in
  {| user := stop_at (user t) (user_now r); elapsed := stop_at (elapsed t) (elapsed_now r); state := Stopped |}.
(** timer.c:101-113, 278-286: a stopwatch that runs *)
Definition AcquireTimerInfo (r : reading) : timer_info :=
  StartTimer {| user := {| start := 0; stop := 0; total := 0 |}; elapsed := {| start := 0; stop := 0; total := 0 |}; state := Undefined |} true r.
(** timer.c:138-152 *)
Definition ContinueTimer (t : timer_info) : timer_info :=
  let back w := {| start := start w; stop := stop w; total := total w - (stop w - start w) |} in
  match state t with
  | Undefined => t
  | Stopped => {| user := back (user t); elapsed := back (elapsed t); state := Running |}
  | Running => t
  end.
(** timer.c:244-253 and 312-321 *)
Definition get (t : timer_info) (r : reading) : timer_info := match state t with Running => StopTimer t r | _ => t end.
Definition GetElapsedTime (t : timer_info) (r : reading) : Z * timer_info :=
  match state t with Undefined => (0, t) | _ => (total (elapsed (get t r)), get t r) end.
Definition GetUserTime (t : timer_info) (r : reading) : Z * timer_info :=
  match state t with Undefined => (0, t) | _ => (total (user (get t r)), get t r) end.
(** timer.c:345-352 *)
Definition ResetTimer (t : timer_info) (r : reading) : timer_info :=
  let t := StopTimer t r in
  {| user := {| start := start (user t); stop := 0; total := total (user t) |};
     elapsed := {| start := start (elapsed t); stop := 0; total := total (elapsed t) |}; state := state t |}.

Inductive op := Start (reset : bool) | Continue | Elapsed | User | Reset.
Definition step (t : timer_info) (or : op * reading) : timer_info :=
  match or with
  | (Start reset, r) => StartTimer t reset r
  | (Continue, _) => ContinueTimer t
  | (Elapsed, r) => snd (GetElapsedTime t r)
  | (User, r) => snd (GetUserTime t r)
  | (Reset, r) => ResetTimer t r
  end.
End Timer.
