(** Caches are loaded once, and semaphores acquired once, whatever the threads do. *)
From Coq Require Import Bool Arith Lia List.
From Verif Require Import OnceModel.
Import ListNotations.

(** * C140: a cache is loaded once *)
(** who is between locking and unlocking *)
Definition in_mutex (p : pc) : bool := match p with Recheck | Acquire | UnlockMutex => true | _ => false end.
Definition in_semaphore (p : pc) : bool := match p with CacheRecheck | Load | UnlockSemaphore => true | _ => false end.
Definition has_semaphore (p : pc) : bool := match p with LockSemaphore | CacheRecheck | Load | UnlockSemaphore => true | UnlockMutex => true | _ => false end.
Record inv (s : state) : Prop := {
  i_mutex : forall t, in_mutex (at_ s t) = true <-> mutex (mem s) = Some t;
  i_holder : forall t, in_semaphore (at_ s t) = true <-> holder (mem s) = Some t;
  i_sem : semaphores (mem s) <= 1;
  i_load : loads (mem s) <= 1;
  i_acquire : forall t, at_ s t = Acquire -> semaphores (mem s) = 0;
  i_has : forall t, has_semaphore (at_ s t) = true -> semaphores (mem s) = 1;
  i_loading : forall t, at_ s t = Load -> loads (mem s) = 0;
  i_loaded : forall t, at_ s t = Done \/ at_ s t = UnlockSemaphore -> loads (mem s) = 1;
  i_init : forall t, at_ s t <> InitLock;
  i_wild : wild (mem s) = false }.
Lemma inv_start a : inv (start a).
Proof. constructor; cbn; intros; try discriminate; try lia; try (split; discriminate); try (destruct H; discriminate). all: try reflexivity. Qed.
Ltac other t u := destruct (Nat.eqb_spec u t) as [->|].
Lemma inv_step omp s t s' : (omp = true -> active (mem s) = true) -> inv s -> step omp s t = Some s' -> inv s' /\ (active (mem s) = true -> active (mem s') = true).
Proof.
  intros Om I H. destruct I as [Im Ih Is Il Ia Has Ilg Ild Ini Iw].
  assert (omp && negb (active (mem s)) = false) as A by (destruct omp; [rewrite Om; reflexivity|reflexivity]).
  unfold step in H. rewrite A in H. remember (mem s) as m eqn:M. destruct m as [ac mu se ho lo wi].
  cbn [active mutex semaphores holder loads wild] in *.
  pose proof (Im t) as Imt. pose proof (Ih t) as Iht. pose proof (Ia t) as Iat. pose proof (Has t) as Hast. pose proof (Ilg t) as Ilgt. pose proof (Ild t) as Ildt. pose proof (Ini t) as Init.
  destruct (at_ s t) eqn:P; try discriminate; cbv zeta in H; cbn [active mutex semaphores holder loads wild] in H; try (now destruct Init);
  cbn [in_mutex in_semaphore has_semaphore] in Imt, Iht, Hast;
  repeat match type of H with context [0 <? ?n] => destruct (Nat.ltb_spec 0 n) end;
  repeat match type of H with context [match ?o with Some _ => _ | None => _ end] => destruct o eqn:? end;
  try discriminate; injection H as <-; (split; [|cbn; auto]); constructor; unfold go; cbn [mem at_ active mutex semaphores holder loads wild].
  all: try (intros u; specialize (Im u); specialize (Ih u); specialize (Ia u); specialize (Has u); specialize (Ilg u); specialize (Ild u); specialize (Ini u);
    other t u; [rewrite P in *|]; cbn [in_mutex in_semaphore has_semaphore] in *).
  all: try (now auto).
  all: try (split; [intros X; apply Im in X || apply Ih in X || idtac; congruence|intros X; congruence]).
  all: try lia.
  all: try (intros; discriminate).
  all: try (intros [?|?]; discriminate).
  all: try tauto.
  all: try (split; intros X; [discriminate|]).
  - (* a new semaphore: nobody was in the old one *)
    split; [intros X|discriminate]. exfalso. specialize (Iat eq_refl). assert (has_semaphore (at_ s u) = true) as Y by (destruct (at_ s u); try discriminate X; reflexivity). specialize (Has Y). lia.
  - specialize (Iat eq_refl). lia.
  - intros X. exfalso. assert (mu = Some u) by (apply Im; now rewrite X). assert (mu = Some t) by (now apply Imt). congruence.
  - split; [intros X|discriminate]. exfalso. apply Im in X. assert (mu = Some t) by (now apply Imt). congruence.
  - specialize (Ilgt eq_refl). lia.
  - intros X. exfalso. assert (ho = Some u) by (apply Ih; now rewrite X). assert (ho = Some t) by (now apply Iht). congruence.
  - split; [intros X|discriminate]. exfalso. apply Ih in X. assert (ho = Some t) by (now apply Iht). congruence.
Qed.
Lemma inv_run omp l : forall s s', (omp = true -> active (mem s) = true) -> inv s -> run omp l s = Some s' -> inv s'.
Proof.
  induction l as [|t l IH]; intros s s' A I H; cbn [run] in H; [injection H as <-; exact I|]. destruct (step omp s t) as [s1|] eqn:E; [|discriminate].
  destruct (inv_step omp s t s1 A I E) as [I1 A1]. apply (IH s1 s'); auto.
Qed.
(** With POSIX threads, or with OpenMP after SemaphoreComponentGenesis, in every execution of any threads: one semaphore and one cache at most;
    a thread that is done has a cache; and never two inside. *)
Theorem once_loaded omp active0 l s : (omp = true -> active0 = true) -> run omp l (start active0) = Some s ->
  semaphores (mem s) <= 1 /\ loads (mem s) <= 1 /\ (forall t, at_ s t = Done -> loads (mem s) = 1) /\ wild (mem s) = false.
Proof.
  intros A H. assert (inv s) as I by (eapply inv_run; [| |exact H]; [exact A|apply inv_start]). destruct I. repeat split; try assumption. intros t X. apply (i_loaded0 t). now left.
Qed.
Theorem once_exclusive omp active0 l s t u : (omp = true -> active0 = true) -> run omp l (start active0) = Some s ->
  (in_mutex (at_ s t) = true -> in_mutex (at_ s u) = true -> t = u) /\ (in_semaphore (at_ s t) = true -> in_semaphore (at_ s u) = true -> t = u).
Proof.
  intros A H. assert (inv s) as I by (eapply inv_run; [| |exact H]; [exact A|apply inv_start]). destruct I.
  split; intros X Y; [apply i_mutex0 in X; apply i_mutex0 in Y|apply i_holder0 in X; apply i_holder0 in Y]; congruence.
Qed.
(** Nobody waits for ever: as long as a thread is not done, some thread can take a step. *)
Theorem once_progress omp active0 l s t : (omp = true -> active0 = true) -> run omp l (start active0) = Some s -> at_ s t <> Done ->
  exists u s', step omp s u = Some s'.
Proof.
  intros A H D. assert (inv s) as I by (eapply inv_run; [| |exact H]; [exact A|apply inv_start]). destruct I.
  destruct (step omp s t) as [s'|] eqn:E; [eauto|]. unfold step in E. destruct (at_ s t) eqn:P; try discriminate; try (now destruct D).
  - destruct (mutex (mem s)) as [u|] eqn:M; [|discriminate]. exists u. assert (in_mutex (at_ s u) = true) as X by (now apply i_mutex0).
    unfold step. destruct (at_ s u); try discriminate X; eauto.
  - destruct (holder (mem s)) as [u|] eqn:M; [|discriminate]. exists u. assert (in_semaphore (at_ s u) = true) as X by (now apply i_holder0).
    unfold step. destruct (at_ s u); try discriminate X; eauto.
Qed.
(** and every thread takes at most fourteen steps *)
Definition left_ (p : pc) : nat :=
  match p with Start => 14 | NeedSemaphore => 13 | Activate => 12 | Init => 11 | InitLock => 10 | SetActive => 9 | LockMutex => 8 | Recheck => 7 | Acquire => 6
  | UnlockMutex => 5 | LockSemaphore => 4 | CacheRecheck => 3 | Load => 2 | UnlockSemaphore => 1 | Done => 0 end.
Lemma step_left omp s t s' : step omp s t = Some s' -> left_ (at_ s' t) < left_ (at_ s t) /\ forall u, u <> t -> at_ s' u = at_ s u.
Proof.
  unfold step. intros H. split.
  - destruct (at_ s t) eqn:P; try discriminate; cbv zeta in H;
    repeat match type of H with context [if ?b then _ else _] => destruct b end;
    repeat match type of H with context [match ?o with Some _ => _ | None => _ end] => destruct o end; try discriminate; injection H as <-; cbn; rewrite Nat.eqb_refl; cbn; lia.
  - intros u U. destruct (at_ s t) eqn:P; try discriminate; cbv zeta in H;
    repeat match type of H with context [match ?o with Some _ => _ | None => _ end] => destruct o end; try discriminate; injection H as <-; cbn; destruct (Nat.eqb_spec u t); congruence.
Qed.
Theorem once_steps omp l : forall s s' t, run omp l s = Some s' -> count_occ Nat.eq_dec l t + left_ (at_ s' t) <= left_ (at_ s t).
Proof.
  induction l as [|u l IH]; intros s s' t H; cbn [run] in H; [injection H as <-; cbn; lia|]. destruct (step omp s u) as [s1|] eqn:E; [|discriminate].
  destruct (step_left omp s u s1 E) as [L O]. specialize (IH s1 s' t H). cbn [count_occ]. destruct (Nat.eq_dec u t) as [->|X]; [lia|]. rewrite (O t) in IH by congruence. exact IH.
Qed.
(** REFUTED for OpenMP when the component has not been started: the second thread initialises the mutex the first one holds;
    both get in, two semaphores are acquired, and two caches loaded. *)
Definition race : list nat := [0;0;0;0; 1;1;1;1; 0;0;0;0; 1;1;1;1; 0;0;0;0; 1;1;1;1; 0; 1].
Definition summary (s : state) := (semaphores (mem s), loads (mem s), wild (mem s)).
Theorem once_openmp_refuted : exists s, run true race (start false) = Some s /\ semaphores (mem s) = 2 /\ loads (mem s) = 2 /\ wild (mem s) = true.
Proof.
  assert (option_map summary (run true race (start false)) = Some (2, 2, true)) as E by (vm_compute; reflexivity).
  destruct (run true race (start false)) as [s|]; [|discriminate]. exists s. injection E as E1 E2 E3. auto.
Qed.
(** the same schedule with POSIX threads is no schedule (thread 1 has to wait); two threads one after the other, and interleaved *)
Example once_ex : option_map summary (run false race (start false)) = None /\
  option_map summary (run false (repeat 0 13 ++ [1]) (start false)) = Some (1, 1, false) /\
  option_map summary (run true [0;0;0;1;1;1;0;1;0;1;0;0;0;0;0;0;0;0;1;1;1;1;1;1] (start true)) = Some (1, 1, false).
Proof. repeat split; vm_compute; reflexivity. Qed.
Print Assumptions once_loaded.
Print Assumptions once_exclusive.
Print Assumptions once_progress.
Print Assumptions once_steps.
Print Assumptions once_openmp_refuted.

(** * C141: LockSemaphoreInfo *)
(** A thread follows the discipline: it unlocks only what it holds. *)
Fixpoint disciplined (held : option nat) (l : list event) : bool :=
  match l, held with
  | [], _ => true
  | Lock t :: l, None => disciplined (Some t) l
  | Lock t :: l, Some u => false
  | Unlock t :: l, Some u => (t =? u) && disciplined None l
  | Unlock _ :: _, None => false
  end.
Definition fresh : semaphore := {| owner := None; id := 0; count := 0 |}.
(** Locking and unlocking in turn never waits, never trips a check, and ends free or held as it should *)
Lemma lock_turns_aux l : forall s, disciplined (owner s) l = true -> (owner s = None -> count s = 0) -> (forall t, owner s = Some t -> id s = t /\ count s = 1) ->
  exists s', events true l s = Next s' /\ (owner s' = None -> count s' = 0) /\ (forall t, owner s' = Some t -> id s' = t /\ count s' = 1).
Proof.
  induction l as [|e l IH]; intros s D N H; [exists s; split; [reflexivity|split; assumption]|].
  destruct e as [t|t]; cbn [disciplined] in D; cbn [events semaphore_step]; destruct (owner s) as [u|] eqn:O; try discriminate D.
  - rewrite (N eq_refl). cbn [Nat.ltb Nat.leb andb]. apply IH; cbn; [exact D|discriminate|]. intros v V. injection V as <-. now rewrite ?(N eq_refl).
  - apply andb_prop in D. destruct D as [E D]. apply Nat.eqb_eq in E. subst u. destruct (H t eq_refl) as [I C]. rewrite I, C, Nat.eqb_refl. cbn [negb Nat.eqb].
    apply IH; cbn; [exact D|reflexivity|discriminate].
Qed.
Theorem lock_turns l : disciplined None l = true -> exists s, events true l fresh = Next s /\ (owner s = None -> count s = 0) /\ (forall t, owner s = Some t -> id s = t /\ count s = 1).
Proof. intros D. apply lock_turns_aux; cbn; [exact D|reflexivity|discriminate]. Qed.
(** Two threads never hold it at once: who gets it while somebody holds it waits. *)
Theorem lock_waits debug s t u : owner s = Some u -> semaphore_step debug s (Lock t) = Wait.
Proof. intros H. cbn. now rewrite H. Qed.
(** A thread that unlocks what another one locked last is caught, whoever holds it now. *)
Theorem unlock_other s t : id s <> t -> semaphore_step true s (Unlock t) = Assertion.
Proof. intros H. cbn. destruct (Nat.eqb_spec (id s) t); [contradiction|reflexivity]. Qed.
Theorem unlock_twice l t s : disciplined None (l ++ [Lock t; Unlock t]) = true -> events true (l ++ [Lock t; Unlock t]) fresh = Next s -> semaphore_step true s (Unlock t) = Already.
Proof.
  assert (forall l s s1, events true (l ++ [Lock t; Unlock t]) s1 = Next s -> owner s = None /\ id s = t) as G.
  { clear. induction l as [|e l IH]; intros s s1 E.
    - cbn [app events] in E. cbn [semaphore_step] in E. destruct (owner s1); [discriminate|]. destruct (true && (0 <? count s1) && (id s1 =? t)); [discriminate|]. cbn in E. rewrite Nat.eqb_refl in E. cbn in E.
      injection E as <-. split; reflexivity.
    - cbn [app events] in E. destruct (semaphore_step true s1 e) as [s2| | | |]; try discriminate. exact (IH s s2 E). }
  intros D E. destruct (G l s fresh E) as [O Id]. destruct (lock_turns _ D) as [s' [E' [N _]]]. rewrite E in E'. injection E' as <-.
  cbn. rewrite Id, Nat.eqb_refl, (N O). reflexivity.
Qed.
(** REFUTED: the check for a recursive lock never fires; a thread that locks again waits for itself.  The check comes after the lock has been got,
    and then the count is zero. *)
Theorem recursive_lock_refuted l s t : disciplined None l = true -> events true l fresh = Next s ->
  semaphore_step true s (Lock t) <> Recursive /\ (owner s = Some t -> semaphore_step true s (Lock t) = Wait).
Proof.
  intros D E. destruct (lock_turns l D) as [s' [E' [N _]]]. rewrite E in E'. injection E' as <-. split.
  - cbn. destruct (owner s) eqn:O; [discriminate|]. rewrite (N eq_refl). discriminate.
  - intros O. cbn. now rewrite O.
Qed.
(** Without the checks the count only grows. *)
Theorem lock_count_refuted l : forall s s', events false l s = Next s' -> count s' = count s + length (filter (fun e => match e with Lock _ => true | Unlock _ => false end) l).
Proof.
  induction l as [|e l IH]; intros s s' E; cbn [events] in E; [injection E as <-; cbn; lia|].
  destruct e as [t|t]; cbn [semaphore_step andb] in E; [destruct (owner s); [discriminate|]|]; apply IH in E; cbn in E; cbn [filter length]; lia.
Qed.
Example lock_ex : let l := [Lock 3; Unlock 3; Lock 4; Unlock 4; Lock 3] in
  disciplined None l = true /\ events true l fresh = Next {| owner := Some 3; id := 3; count := 1 |} /\ events false l fresh = Next {| owner := Some 3; id := 3; count := 3 |} /\
  events true (l ++ [Lock 3]) fresh = Wait /\ events true (l ++ [Unlock 4]) fresh = Assertion /\ events true (l ++ [Unlock 3; Unlock 3]) fresh = Already.
Proof. repeat split. Qed.
Print Assumptions lock_turns.
Print Assumptions lock_waits.
Print Assumptions unlock_other.
Print Assumptions unlock_twice.
Print Assumptions recursive_lock_refuted.
Print Assumptions lock_count_refuted.
