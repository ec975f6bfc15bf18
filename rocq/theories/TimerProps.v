(** C122: what a stopwatch shows. *)
From Coq Require Import ZArith Lia List.
From Verif Require Import TimerModel.
Import ListNotations.
Local Open Scope Z_scope.

(** ** Specification: the runs that count, each from a start to a stop, the last first, the
    run that is open, and how often the watch was stopped since the last reset *)
Record runs := { closed : list (Z * Z); opened : option Z; stops : Z }.
Definition spec_step (s : runs) (o : op) (now : Z) : runs :=
  match o, opened s with
  | Start true, Some a => {| closed := []; opened := Some a; stops := 0 |}
  | Start true, None => {| closed := []; opened := Some now; stops := 0 |}
  | Start false, None => {| closed := closed s; opened := Some now; stops := stops s |}
  | Continue, None =>
      match closed s with
      | (a, _) :: l => {| closed := l; opened := Some a; stops := stops s |}
      | [] => s
      end
  | (Elapsed | User), Some a => {| closed := (a, now) :: closed s; opened := None; stops := stops s + 1 |}
  | _, _ => s
  end.
Definition spec_run (clock : reading -> Z) (first : reading) (os : list (op * reading)) : runs :=
  fold_left (fun s o => spec_step s (fst o) (clock (snd o))) os {| closed := []; opened := Some (clock first); stops := 0 |}.
Fixpoint length_of (l : list (Z * Z)) : Z := match l with [] => 0 | (a, z) :: l => (z - a) + length_of l end.
Definition shown (eps : Z) (s : runs) (now : Z) : Z :=
  match opened s with Some a => length_of ((a, now) :: closed s) + eps * (stops s + 1) | None => length_of (closed s) + eps * stops s end.

(** ** Proofs *)
Definition agrees (eps : Z) (w : timer) (st : timer_state) (s : runs) : Prop :=
  total w = length_of (closed s) + eps * stops s /\
  match st with
  | Running => opened s = Some (start w)
  | Stopped => opened s = None /\ exists l, closed s = (start w, stop w) :: l
  | Undefined => False
  end.
Lemma step_agrees eps t o r se su : o <> Reset -> agrees eps (elapsed t) (state t) se -> agrees eps (user t) (state t) su ->
  agrees eps (elapsed (step eps t (o, r))) (state (step eps t (o, r))) (spec_step se o (elapsed_now r)) /\
  agrees eps (user (step eps t (o, r))) (state (step eps t (o, r))) (spec_step su o (user_now r)).
Proof.
  intros No (Te & Se) (Tu & Su). destruct t as [u e st]. cbn [elapsed user state] in *.
  destruct st; [contradiction| |].
  - destruct Se as (Oe & le & Ce), Su as (Ou & lu & Cu). destruct o as [[]| | | |]; try contradiction; unfold spec_step; rewrite ?Oe, ?Ou, ?Ce, ?Cu;
      unfold agrees; cbn; repeat split; try assumption; try lia; try (rewrite Te, Ce; cbn; lia); try (rewrite Tu, Cu; cbn; lia); try (eexists; eassumption).
  - destruct o as [[]| | | |]; try contradiction; unfold spec_step; rewrite ?Se, ?Su; unfold agrees; cbn; repeat split; try assumption; try lia; try (eexists; reflexivity).
Qed.
Lemma run_agrees eps os : Forall (fun o => fst o <> Reset) os -> forall t se su,
  agrees eps (elapsed t) (state t) se -> agrees eps (user t) (state t) su ->
  agrees eps (elapsed (fold_left (step eps) os t)) (state (fold_left (step eps) os t)) (fold_left (fun s o => spec_step s (fst o) (elapsed_now (snd o))) os se) /\
  agrees eps (user (fold_left (step eps) os t)) (state (fold_left (step eps) os t)) (fold_left (fun s o => spec_step s (fst o) (user_now (snd o))) os su).
Proof.
  induction os as [|(o, r) os IH]; intros F t se su Ae Au; [now split|]. inversion F; subst. cbn [fold_left fst snd].
  destruct (step_agrees eps t o r se su) as (A & B); try assumption. now apply IH.
Qed.

(** ** C122 *)
(** the time shown is that of the runs that count, and one epsilon for every stop *)
Theorem timer_shows : forall eps first os r, Forall (fun o => fst o <> Reset) os ->
  let t := fold_left (step eps) os (AcquireTimerInfo first) in
  fst (GetElapsedTime eps t r) = shown eps (spec_run elapsed_now first os) (elapsed_now r) /\
  fst (GetUserTime eps t r) = shown eps (spec_run user_now first os) (user_now r).
Proof.
  intros eps first os r F t.
  destruct (run_agrees eps os F (AcquireTimerInfo first) {| closed := []; opened := Some (elapsed_now first); stops := 0 |} {| closed := []; opened := Some (user_now first); stops := 0 |})
    as (Ae & Au); [unfold agrees; cbn; split; [lia|reflexivity]|unfold agrees; cbn; split; [lia|reflexivity]|].
  fold t in Ae, Au. fold (spec_run elapsed_now first os) in Ae. fold (spec_run user_now first os) in Au.
  set (se := spec_run elapsed_now first os) in *. set (su := spec_run user_now first os) in *. clearbody t se su.
  destruct Ae as (Te & Se), Au as (Tu & Su). unfold GetElapsedTime, GetUserTime, get, shown. destruct (state t) eqn:St; [contradiction| |].
  - destruct Se as (-> & _), Su as (-> & _). cbn. split; assumption.
  - rewrite Se, Su. unfold StopTimer. rewrite St. cbn. lia.
Qed.
Print Assumptions timer_shows.
(** looking again shows the same time *)
Theorem timer_stopped : forall eps first os r r', Forall (fun o => fst o <> Reset) os ->
  let t := fold_left (step eps) os (AcquireTimerInfo first) in
  fst (GetElapsedTime eps (snd (GetElapsedTime eps t r)) r') = fst (GetElapsedTime eps t r).
Proof. intros eps first os r r' _ t. unfold GetElapsedTime at 2 3, get. destruct (state t) eqn:St; unfold GetElapsedTime, get; cbn; rewrite ?St; cbn; rewrite ?St; reflexivity. Qed.
Print Assumptions timer_stopped.
Definition at_ (n : Z) : reading := {| elapsed_now := n; user_now := n |}.
(** a run of 10, a pause, a run of 5: continuing counts from the start of the last run *)
Example timer_example : let os := [(Elapsed, at_ 110); (Start false, at_ 120); (User, at_ 125); (Continue, at_ 130)] in
  Forall (fun o => fst o <> Reset) os /\ fst (GetElapsedTime 0 (fold_left (step 0) os (AcquireTimerInfo (at_ 100))) (at_ 133)) = 23.
Proof. split; [repeat (apply Forall_cons; [discriminate|]); apply Forall_nil|reflexivity]. Qed.

(** a reset leaves the time as it is *)
Theorem timer_reset_refuted : forall eps a z n, fst (GetElapsedTime eps (ResetTimer eps (AcquireTimerInfo (at_ a)) (at_ z)) (at_ n)) = z - a + eps.
Proof. intros. rewrite <- ?Z.add_diag. cbn. lia. Qed.
Print Assumptions timer_reset_refuted.
(** a watch that is continued after a reset is ahead by the reading of the clock at the start *)
Theorem timer_reset_continue_refuted : forall eps a z n,
  fst (GetElapsedTime eps (ContinueTimer (ResetTimer eps (AcquireTimerInfo (at_ a)) (at_ z))) (at_ n)) = z + (n - a) + 2 * eps.
Proof. intros. rewrite <- ?Z.add_diag. cbn. lia. Qed.
Print Assumptions timer_reset_continue_refuted.
(** starting with a reset does not restart a watch that runs *)
Theorem timer_restart_refuted : forall eps a z n, fst (GetElapsedTime eps (StartTimer (AcquireTimerInfo (at_ a)) true (at_ z)) (at_ n)) = n - a + eps.
Proof. intros. rewrite <- ?Z.add_diag. cbn. lia. Qed.
Print Assumptions timer_restart_refuted.
