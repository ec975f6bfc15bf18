(** Threads that share exceptions do not wait for each other for ever, if exceptions are inherited
    in one direction only; and they do otherwise. *)
From Coq Require Import Arith List Bool Lia.
From Verif Require Import ExceptionLockModel.
Import ListNotations.

(** ** What is to be shown *)
Definition ended (s : system) : Prop := Forall (fun p => p = []) (threads s).
Definition stuck (s : system) : Prop := ~ ended s /\ forall i, step s i = None.
(** exceptions have ranks; those that are locked while others are thrown to have the lower rank *)
Definition allowed (rank : nat -> nat) (o : op) : Prop :=
  match o with
  | Inherit x y _ _ => rank y < rank x
  | Catch x _ _ hs => Forall (fun h => Forall (fun t => rank x < rank (fst t)) (snd h)) hs
  | _ => True
  end.

(** ** Locks are taken upwards and given back in turn *)
Section Order.
Variable rank : nat -> nat.
Variable top : nat.
Hypothesis rank_top : forall x, rank x < top.
Definition level (l : lock) : nat := match l with Info x => rank x | List _ => top end.
Fixpoint orderly (held : list lock) (p : list action) : Prop :=
  match p with
  | [] => held = []
  | Acquire l :: p => Forall (fun h => level h < level l) held /\ orderly (l :: held) p
  | Release l :: p => match held with h :: held => h = l /\ orderly held p | [] => False end
  end.
(** the same, of a part of a program that gives back what it takes *)
Definition fits (held : list lock) (p : list action) : Prop := forall q, orderly held q -> orderly held (p ++ q).

Lemma fits_nil held : fits held [].
Proof. intros q H. exact H. Qed.
Lemma fits_app held p1 p2 : fits held p1 -> fits held p2 -> fits held (p1 ++ p2).
Proof. intros H1 H2 q H. rewrite <- app_assoc. apply H1, H2, H. Qed.
Lemma fits_concat held ps : Forall (fits held) ps -> fits held (concat ps).
Proof. induction 1 as [|p ps H _ IH]; cbn [concat]; [apply fits_nil|now apply fits_app]. Qed.
Lemma fits_lock held l p : Forall (fun h => level h < level l) held -> fits (l :: held) p -> fits held ([Acquire l] ++ p ++ [Release l]).
Proof. intros H F q Q. cbn [app orderly]. split; [exact H|]. rewrite <- app_assoc. apply F. cbn. split; [reflexivity|exact Q]. Qed.
Lemma fits_touch held x n : Forall (fun h => level h < top) held -> fits held (touch x n).
Proof.
  intros H. apply fits_concat. apply Forall_forall. intros p I. apply repeat_spec in I. subst p.
  exact (fits_lock held (List x) [] H (fits_nil _)).
Qed.
Lemma below_top x : Forall (fun h => level h < top) [Info x].
Proof. repeat constructor. apply rank_top. Qed.
Lemma fits_throw held x n : Forall (fun h => level h < rank x) held -> fits held (ThrowException x n).
Proof.
  intros H. apply (fits_lock held (Info x) (touch x n) H). apply fits_touch.
  constructor; [apply rank_top|]. eapply Forall_impl; [|exact H]. intros h L. cbn in L. pose proof (rank_top x). lia.
Qed.
Lemma fits_actions o : allowed rank o -> fits [] (actions o).
Proof.
  intros A. destruct o as [x n|x n|x n m hs|x y n ts|x n]; cbn [actions allowed] in *.
  - apply fits_throw. constructor.
  - exact (fits_lock [] (Info x) (touch x n) (Forall_nil _) (fits_touch _ x n (below_top x))).
  - unfold CatchException. rewrite !app_assoc. apply fits_app.
    + rewrite <- !app_assoc. rewrite (app_assoc (touch x n)).
      apply fits_lock; [constructor|]. apply fits_app; [apply fits_touch, below_top|].
      apply fits_concat, Forall_forall. intros p I. apply in_map_iff in I. destruct I as [h [<- I]].
      rewrite Forall_forall in A. specialize (A h I). apply fits_app; [|apply fits_touch, below_top].
      apply fits_concat, Forall_forall. intros p I2. apply in_map_iff in I2. destruct I2 as [t [<- I2]].
      apply fits_throw. rewrite Forall_forall in A. repeat constructor. exact (A t I2).
    + exact (fits_lock [] (Info x) (touch x m) (Forall_nil _) (fits_touch _ x m (below_top x))).
  - unfold InheritException. rewrite (app_assoc (touch y n)).
    apply fits_lock; [constructor|]. apply fits_app; [apply fits_touch, below_top|].
    apply fits_concat, Forall_forall. intros p I. apply in_map_iff in I. destruct I as [t [<- I]].
    apply fits_app; [|apply fits_touch, below_top]. apply fits_throw. repeat constructor. exact A.
  - exact (fits_lock [] (Info x) (touch x n) (Forall_nil _) (fits_touch _ x n (below_top x))).
Qed.
Lemma orderly_program os : Forall (allowed rank) os -> orderly [] (program os).
Proof.
  intros H. rewrite <- (app_nil_r (program os)). apply fits_concat; [|reflexivity].
  apply Forall_forall. intros p I. apply in_map_iff in I. destruct I as [o [<- I]].
  apply fits_actions. rewrite Forall_forall in H. exact (H o I).
Qed.

(** ** The invariant: each thread holds what its program says *)
Definition holds (s : system) (held : nat -> list lock) : Prop :=
  (forall i p, nth_error (threads s) i = Some p -> orderly (held i) p) /\
  (forall i l, In l (held i) <-> owner s l = Some i) /\
  (forall i, nth_error (threads s) i = None -> held i = []).
Lemma lock_eqb_spec a b : reflect (a = b) (lock_eqb a b).
Proof. destruct a as [x|x], b as [y|y]; cbn; try (constructor; discriminate); destruct (Nat.eqb_spec x y); constructor; congruence. Qed.
Lemma nth_set_nth {A} i (a : A) : forall l j, nth_error (set_nth i a l) j = if Nat.eqb j i then match nth_error l i with Some _ => Some a | None => None end else nth_error l j.
Proof.
  induction i as [|i IH]; intros [|b l] [|j]; cbn [set_nth nth_error Nat.eqb]; try reflexivity.
  - destruct (Nat.eqb j i); reflexivity.
  - apply IH.
Qed.
(** held locks are below the first *)
Definition sorted (held : list lock) : Prop := forall a h b, held = a ++ h :: b -> Forall (fun k => level k < level h) b.
Lemma step_holds s held i s' : holds s held -> (forall i, sorted (held i)) -> step s i = Some s' ->
  exists held', holds s' held' /\ forall i, sorted (held' i).
Proof.
  intros (H1 & H2 & H3) Hs E. unfold step in E.
  destruct (nth_error (threads s) i) as [[|[l|l] p]|] eqn:Et; try discriminate.
  - destruct (owner s l) eqn:Eo; [discriminate|]. injection E as <-.
    pose proof (H1 i _ Et) as O. cbn [orderly] in O. destruct O as [Ol Op].
    exists (fun j => if Nat.eqb j i then l :: held i else held j). split; [split; [|split]|]; cbn [threads owner].
    + intros j q Eq. rewrite nth_set_nth, Et in Eq. destruct (Nat.eqb_spec j i) as [->|N]; [injection Eq as <-; exact Op|now apply H1].
    + intros j k. unfold set_owner. destruct (lock_eqb_spec k l) as [->|Nk]; destruct (Nat.eqb_spec j i) as [->|N].
      * split; [reflexivity|left; reflexivity].
      * split; [intros I; apply H2 in I; congruence|intros X; exfalso; apply N; congruence].
      * rewrite <- H2. cbn [In]. split; [intros [->|I]; [destruct (Nk eq_refl)|exact I]|auto].
      * apply H2.
    + intros j Ej. rewrite nth_set_nth, Et in Ej. cbv beta. destruct (Nat.eqb_spec j i) as [Eji|N]; [discriminate|exact (H3 j Ej)].
    + intros j. destruct (Nat.eqb_spec j i) as [->|N]; [|apply Hs]. intros a h b Eh.
      destruct a as [|a0 a]; cbn [app] in Eh; injection Eh as -> Eh; [rewrite <- Eh; exact Ol|exact (Hs i a h b Eh)].
  - injection E as <-. pose proof (H1 i _ Et) as O. cbn [orderly] in O. destruct (held i) as [|h hs] eqn:Eh; [destruct O|]. destruct O as [-> Op].
    assert (Nl : ~ In l hs). { intros I. pose proof (Hs i [] l hs Eh) as F. rewrite Forall_forall in F. specialize (F l I). lia. }
    exists (fun j => if Nat.eqb j i then hs else held j). split; [split; [|split]|]; cbn [threads owner].
    + intros j q Eq. rewrite nth_set_nth, Et in Eq. destruct (Nat.eqb_spec j i) as [->|N]; [injection Eq as <-; exact Op|now apply H1].
    + intros j k. unfold set_owner. destruct (lock_eqb_spec k l) as [->|Nk]; destruct (Nat.eqb_spec j i) as [->|N].
      * split; [intros I; destruct (Nl I)|discriminate].
      * split; [|discriminate]. intros I. apply H2 in I. assert (owner s l = Some i) by (apply H2; rewrite Eh; left; reflexivity). congruence.
      * rewrite <- H2, Eh. cbn [In]. split; [auto|intros [->|I]; [destruct (Nk eq_refl)|exact I]].
      * apply H2.
    + intros j Ej. rewrite nth_set_nth, Et in Ej. cbv beta. destruct (Nat.eqb_spec j i) as [Eji|N]; [discriminate|exact (H3 j Ej)].
    + intros j. destruct (Nat.eqb_spec j i) as [->|N]; [|apply Hs]. intros a h b Eq. apply (Hs i (l :: a) h b). rewrite Eh, Eq. reflexivity.
Qed.
Lemma run_holds is : forall s held s', holds s held -> (forall i, sorted (held i)) -> run s is = Some s' ->
  exists held', holds s' held' /\ forall i, sorted (held' i).
Proof.
  induction is as [|i is IH]; intros s held s' H Hs E; cbn [run] in E; [injection E as <-; eauto|].
  destruct (step s i) as [s1|] eqn:E1; [|discriminate]. destruct (step_holds _ _ _ _ H Hs E1) as (h1 & H1 & Hs1). eauto.
Qed.
(** a thread that waits for the highest lock waits for a thread that has ended: there is none *)
Definition waits (s : system) (i : nat) (l : lock) : Prop := exists p, nth_error (threads s) i = Some (Acquire l :: p) /\ owner s l <> None.
Lemma waits_higher s held i l : holds s held -> (forall j, step s j = None) -> waits s i l -> exists j k, waits s j k /\ level l < level k.
Proof.
  intros (H1 & H2 & H3) St (p & Ep & Eo). destruct (owner s l) as [j|] eqn:Ej; [|destruct (Eo eq_refl)].
  apply H2 in Ej. specialize (St j). unfold step in St.
  destruct (nth_error (threads s) j) as [q|] eqn:Eq; [|apply H3 in Eq; rewrite Eq in Ej; destruct Ej].
  pose proof (H1 j q Eq) as O. destruct q as [|[k|k] q].
  - cbn in O. rewrite O in Ej. destruct Ej.
  - cbn [orderly] in O. destruct O as [O _]. destruct (owner s k) eqn:Ek; [|discriminate].
    exists j, k. split; [exists q; split; [exact Eq|congruence]|]. rewrite Forall_forall in O. exact (O l Ej).
  - discriminate.
Qed.
Lemma no_wait s held : holds s held -> (forall j, step s j = None) -> forall n i l, top + 1 <= n + level l -> ~ waits s i l.
Proof.
  intros H St. assert (Lt : forall l, level l <= top) by (intros [x|x]; cbn; [pose proof (rank_top x); lia|lia]).
  induction n as [|n IH]; intros i l L W.
  - pose proof (Lt l). lia.
  - destruct (waits_higher s held i l H St W) as (j & k & Wk & Lk). apply (IH j k); [lia|exact Wk].
Qed.
Lemma not_stuck s held : holds s held -> ~ stuck s.
Proof.
  intros H [Ne St]. apply Ne. apply Forall_forall. intros p I. apply In_nth_error in I. destruct I as [i Ei].
  pose proof (St i) as Si. unfold step in Si. rewrite Ei in Si. destruct p as [|[l|l] p]; [reflexivity| |discriminate].
  destruct (owner s l) eqn:Eo; [|discriminate]. exfalso. apply (no_wait s held H St (top + 1) i l ltac:(lia)).
  exists p. split; [exact Ei|congruence].
Qed.
Lemma start_holds ps : Forall (Forall (allowed rank)) ps -> holds (start ps) (fun _ => []).
Proof.
  intros F. split; [|split]; cbn [threads owner start].
  - intros i p E. rewrite nth_error_map in E. destruct (nth_error ps i) as [os|] eqn:Ei; [|discriminate]. injection E as <-.
    apply orderly_program. rewrite Forall_forall in F. exact (F os (nth_error_In _ _ Ei)).
  - intros i l. split; [intros []|discriminate].
  - reflexivity.
Qed.
End Order.

(** ** Any number of threads, any programs, any order of turns *)
Theorem inherit_no_deadlock : forall rank top ps is s, (forall x, rank x < top) -> Forall (Forall (allowed rank)) ps ->
  run (start ps) is = Some s -> ~ stuck s.
Proof.
  intros rank top ps is s T F E.
  destruct (run_holds rank top is _ _ _ (start_holds rank top T ps F) ltac:(intros i a h b X; destruct a; discriminate) E) as (held & H & _).
  exact (not_stuck rank top T s held H).
Qed.
(** and each turn brings the end nearer: no order of turns goes on for ever *)
Definition left (s : system) : nat := list_sum (map (@length action) (threads s)).
Lemma set_nth_sum i p a : forall l, nth_error l i = Some (a :: p) -> S (list_sum (map (@length action) (set_nth i p l))) = list_sum (map (@length action) l).
Proof.
  induction i as [|i IH]; intros [|q l] E; try discriminate; cbn [nth_error] in E; cbn [set_nth map].
  - injection E as ->. reflexivity.
  - specialize (IH l E). change (S (length q + list_sum (map (@length action) (set_nth i p l))) = length q + list_sum (map (@length action) l)). lia.
Qed.
Lemma step_left s i s' : step s i = Some s' -> S (left s') = left s.
Proof.
  unfold step, left. destruct (nth_error (threads s) i) as [[|[l|l] p]|] eqn:E; try discriminate.
  - destruct (owner s l); [discriminate|]. intros X. injection X as <-. cbn [threads]. exact (set_nth_sum i p _ _ E).
  - intros X. injection X as <-. cbn [threads]. exact (set_nth_sum i p _ _ E).
Qed.
Theorem turns_end : forall is s s', run s is = Some s' -> length is + left s' = left s.
Proof.
  induction is as [|i is IH]; intros s s' E; cbn [run] in E; [injection E as <-; reflexivity|].
  destruct (step s i) as [s1|] eqn:E1; [|discriminate]. apply step_left in E1. specialize (IH _ _ E). cbn [length]. lia.
Qed.

(** ** Without the order: refuted *)
(** two threads that inherit from each other's exceptions, each with one exception to inherit *)
Definition cross : list (list op) := [[Inherit 0 1 2 [(2, 1)]]; [Inherit 1 0 2 [(2, 1)]]].
Theorem inherit_cross_refuted : exists is s, run (start cross) is = Some s /\ stuck s.
Proof.
  exists (repeat 0 5 ++ repeat 1 5). eexists. split; [vm_compute; reflexivity|]. split.
  - intros E. inversion E as [|? ? X _]. discriminate X.
  - intros [|[|[|i]]]; reflexivity.
Qed.
(** an exception that inherits from itself, and a handler that throws to the exception it is called for: one
    thread is enough *)
Theorem inherit_self_refuted : forall x n m k ts, exists is s, run (start [[Inherit x x n ((m, k) :: ts)]]) is = Some s /\ stuck s.
Proof.
  intros x n m k ts.
  assert (G : forall n p own, (forall l, own l = if lock_eqb l (Info x) then Some 0 else None) ->
    exists is own', run (mkSystem [touch x n ++ p] own) is = Some (mkSystem [p] own') /\ forall l, own' l = if lock_eqb l (Info x) then Some 0 else None).
  { clear. induction n as [|n IH]; intros p own Ho.
    - exists [], own. split; [reflexivity|exact Ho].
    - destruct (IH p (set_owner (set_owner own (List x) (Some 0)) (List x) None)) as (is & own' & E & Ho').
      + intros l. unfold set_owner. destruct (lock_eqb_spec l (List x)) as [->|N]; [reflexivity|apply Ho].
      + exists (0 :: 0 :: is), own'. split; [|exact Ho'].
        change (touch x (S n)) with ([Acquire (List x); Release (List x)] ++ touch x n). cbn [app run step threads nth_error owner]. rewrite Ho. cbn [lock_eqb set_nth].
        exact E. }
  set (p := concat (map (fun t => ThrowException x (fst t) ++ touch x (snd t)) ((m, k) :: ts)) ++ [Release (Info x)]).
  destruct (G n p (set_owner (fun _ => None) (Info x) (Some 0))) as (is & own' & E & Ho); [intros l; reflexivity|].
  exists (0 :: is), (mkSystem [p] own'). split.
  - cbn [run]. unfold start, program, step. cbn [map threads nth_error actions concat]. rewrite app_nil_r. unfold InheritException. cbn [app owner set_nth]. exact E.
  - split.
    + intros En. inversion En as [|? ? X _]. unfold p in X. discriminate X.
    + intros [|i]; [|destruct i; reflexivity]. unfold step, p. cbn [threads nth_error map concat fst snd app ThrowException].
      unfold ThrowException. cbn [app]. rewrite Ho. destruct (lock_eqb_spec (Info x) (Info x)) as [_|N]; [reflexivity|destruct (N eq_refl)].
Qed.
Theorem handler_throws_refuted : exists is s, run (start [[Catch 0 2 2 [(1, [(0, 2)])]]]) is = Some s /\ stuck s.
Proof.
  exists (repeat 0 5). eexists. split; [vm_compute; reflexivity|]. split.
  - intros E. inversion E as [|? ? X _]. discriminate X.
  - intros [|[|i]]; reflexivity.
Qed.

(** ** Examples *)
(** three threads: two inherit from their own exceptions to a common one, the third catches it *)
Definition sample : list (list op) :=
  [[Throw 0 2; Inherit 2 0 2 [(2, 1)]; Destroy 0 1]; [Throw 1 2; Inherit 2 1 2 [(2, 1)]; Destroy 1 1]; [Catch 2 2 3 [(1, []); (1, [(3, 1)])]; Clear 2 0]].
Example sample_allowed : Forall (Forall (allowed (fun x => Nat.min x 4))) sample /\ forall x, Nat.min x 4 < 5.
Proof. split; [|intros x; lia]. repeat (constructor; cbn; try lia). Qed.
Example sample_runs : exists s, run (start sample) (repeat 0 24 ++ repeat 2 8) = Some s /\ ~ ended s.
Proof. eexists. split; [vm_compute; reflexivity|]. intros E. inversion E as [|? ? _ X]. inversion X as [|? ? Y _]. discriminate Y. Qed.

Print Assumptions inherit_no_deadlock.
Print Assumptions turns_end.
Print Assumptions inherit_cross_refuted.
Print Assumptions inherit_self_refuted.
Print Assumptions handler_throws_refuted.
