(** C56: mutual exclusion by the file lock. *)
From Coq Require Import Arith List Bool Lia.
From Verif Require Import LockModel.
Import ListNotations.

(** two threads of living processes never hold the file together *)
Definition exclusive (proc : nat -> nat) (s : system) : Prop :=
  forall t u, alive s (proc t) = true -> alive s (proc u) = true -> pcs s t = Holding -> pcs s u = Holding -> t = u.

(** a call that does not own the lock finds no lock file to remove *)
Definition harmless (s : system) (e : event) : Prop :=
  match e with
  | Step t => pcs s t = Failing \/ pcs s t = Stale -> path s = None
  | _ => True
  end.
Fixpoint harmless_run (proc : nat -> nat) (s : system) (es : list event) : Prop :=
  match es with
  | [] => True
  | e :: es => harmless s e /\ harmless_run proc (step proc s e) es
  end.

Definition creator (c : content) : nat := match c with NoWords t | PidOnly t | Full t => t end.

Record inv (s : system) : Prop := {
  inv_path : forall k, path s = Some k -> k < next s;
  inv_created : forall t k i, pcs s t = Created k i -> path s = Some k /\ store s k = NoWords t;
  inv_wrote : forall t k i, pcs s t = Wrote k i -> path s = Some k /\ store s k = PidOnly t;
  inv_opened : forall t k i, pcs s t = Opened k i -> k < next s /\ (creator (store s k) = t -> path s = Some k);
  inv_holding : forall t, pcs s t = Holding -> exists k, path s = Some k /\ store s k = Full t }.

Lemma set_same {A} (f : nat -> A) k v : set f k v k = v.
Proof. unfold set. now rewrite Nat.eqb_refl. Qed.
Lemma set_other {A} (f : nat -> A) k v x : x <> k -> set f k v x = f x.
Proof. unfold set. intros H. now destruct (Nat.eqb_spec x k). Qed.

(** moving a thread to a place that promises nothing *)
Definition plain (p : pc) : bool := match p with Idle | Try _ | Exists _ | Stale | Failing => true | _ => false end.
Lemma inv_goto s t p : inv s -> plain p = true -> inv (goto s t p).
Proof.
  intros [P C W O H] Q. split; cbn; auto; intros u *; unfold set; destruct (Nat.eqb_spec u t) as [->|N]; eauto; intros ->; discriminate.
Qed.

Lemma inv_call proc s t : inv s -> harmless s (Step t) -> inv (system_call proc s t).
Proof.
  intros I HL. unfold system_call. cbn in HL. destruct (pcs s t) as [|i|i|k i| |k i|k i| |] eqn:E.
  - exact I.
  - destruct (Nat.leb 10 i); [now apply inv_goto|]. destruct (path s) as [k|] eqn:P; [now apply inv_goto|].
    destruct I as [IP IC IW IO IH]. split; cbn.
    + intros k [= <-]. lia.
    + intros u k j. unfold set at 1. destruct (Nat.eqb_spec u t) as [->|N]; [intros [= <- <-]; split; [reflexivity|apply set_same]|].
      intros H. apply IC in H as (H & _). congruence.
    + intros u k j. unfold set at 1. destruct (Nat.eqb_spec u t) as [->|N]; [discriminate|]. intros H. apply IW in H as (H & _). congruence.
    + intros u k j. unfold set at 1. destruct (Nat.eqb_spec u t) as [->|N]; [discriminate|]. intros H. apply IO in H as (H & H2). split; [lia|].
      rewrite set_other by lia. intros H3. apply H2 in H3. congruence.
    + intros u. unfold set at 1. destruct (Nat.eqb_spec u t) as [->|N]; [discriminate|]. intros H. apply IH in H as (k & H & _). congruence.
  - destruct (path s) as [k|] eqn:P; [|now apply inv_goto]. destruct I as [IP IC IW IO IH]. split; cbn; auto; intros u *; unfold set; destruct (Nat.eqb_spec u t) as [->|N]; eauto; try discriminate.
    intros [= <- <-]. split; [auto|]. intros _. exact P.
  - destruct (store s k) as [u|u|u] eqn:SK; [now apply inv_goto..|]. destruct (Nat.eqb_spec u t) as [->|N].
    + destruct I as [IP IC IW IO IH]. split; cbn; auto; intros v *; unfold set; destruct (Nat.eqb_spec v t) as [->|N]; eauto; try discriminate.
      intros _. exists k. split; [|exact SK]. apply (IO t k i E). rewrite SK. reflexivity.
    + destruct (alive s (proc u)); now apply inv_goto.
  - specialize (HL (or_intror eq_refl)). replace (remove s) with s by (destruct s; cbn in *; now subst). now apply inv_goto.
  - destruct I as [IP IC IW IO IH]. destruct (IC _ _ _ E) as (P & SK). split; cbn; auto.
    + intros u k' j. unfold set at 1. destruct (Nat.eqb_spec u t) as [->|N]; [discriminate|]. intros H. apply IC in H as (P' & S'). exfalso. congruence.
    + intros u k' j. unfold set at 1. destruct (Nat.eqb_spec u t) as [->|N]; [intros [= <- <-]; split; [exact P|apply set_same]|].
      intros H. apply IW in H as (P' & S'). exfalso. congruence.
    + intros u k' j. unfold set at 1. destruct (Nat.eqb_spec u t) as [->|N]; [discriminate|]. intros H. apply IO in H as (H1 & H2). split; [exact H1|].
      destruct (Nat.eq_dec k' k) as [->|M]; [rewrite set_same; cbn; congruence|]. now rewrite set_other.
    + intros u. unfold set at 1. destruct (Nat.eqb_spec u t) as [->|N]; [discriminate|]. intros H. apply IH in H as (k' & P' & S'). exfalso. congruence.
  - destruct I as [IP IC IW IO IH]. destruct (IW _ _ _ E) as (P & SK). split; cbn; auto.
    + intros u k' j. unfold set at 1. destruct (Nat.eqb_spec u t) as [->|N]; [discriminate|]. intros H. apply IC in H as (P' & S'). exfalso. congruence.
    + intros u k' j. unfold set at 1. destruct (Nat.eqb_spec u t) as [->|N]; [discriminate|]. intros H. apply IW in H as (P' & S'). exfalso. congruence.
    + intros u k' j. unfold set at 1. destruct (Nat.eqb_spec u t) as [->|N]; [discriminate|]. intros H. apply IO in H as (H1 & H2). split; [exact H1|].
      destruct (Nat.eq_dec k' k) as [->|M]; [rewrite set_same; cbn; congruence|]. now rewrite set_other.
    + intros u. unfold set at 1. destruct (Nat.eqb_spec u t) as [->|N]; [discriminate|]. intros H. apply IH in H as (k' & P' & S'). exfalso. congruence.
  - specialize (HL (or_introl eq_refl)). replace (remove s) with s by (destruct s; cbn in *; now subst). now apply inv_goto.
  - destruct I as [IP IC IW IO IH]. destruct (IH _ E) as (k & P & SK). split; cbn; try discriminate.
    + intros u k' j. unfold set at 1. destruct (Nat.eqb_spec u t) as [->|N]; [discriminate|]. intros H. apply IC in H as (P' & S'). exfalso. congruence.
    + intros u k' j. unfold set at 1. destruct (Nat.eqb_spec u t) as [->|N]; [discriminate|]. intros H. apply IW in H as (P' & S'). exfalso. congruence.
    + intros u k' j. unfold set at 1. destruct (Nat.eqb_spec u t) as [->|N]; [discriminate|]. intros H. apply IO in H as (H1 & H2). split; [exact H1|].
      intros H3. specialize (H2 H3). exfalso. rewrite P in H2. injection H2 as <-. rewrite SK in H3. cbn in H3. congruence.
    + intros u. unfold set at 1. destruct (Nat.eqb_spec u t) as [->|N]; [discriminate|]. intros H. apply IH in H as (k' & P' & S'). exfalso. congruence.
Qed.

Lemma inv_step proc s e : inv s -> harmless s e -> inv (step proc s e).
Proof.
  intros I HL. destruct e as [t|t|t|p]; cbn [step].
  - destruct (alive s (proc t)); [|exact I]. destruct (pcs s t); try exact I. now apply inv_goto.
  - destruct (alive s (proc t)); [|exact I]. now apply inv_call.
  - destruct (alive s (proc t)); [|exact I]. destruct (pcs s t); try exact I; now apply inv_goto.
  - destruct I. now split.
Qed.

Lemma inv_start : inv start.
Proof. split; cbn; discriminate. Qed.

Lemma inv_run proc es : forall s, inv s -> harmless_run proc s es -> inv (run proc s es).
Proof.
  induction es as [|e es IH]; intros s I H; [exact I|]. destruct H as (H1 & H2). cbn. apply IH; [now apply inv_step|exact H2].
Qed.

(** ** C56, the part that holds: exclusion can only be lost through a call that
    failed, or found a stale lock, and then removed a lock file that is in
    place *)
Theorem lock_exclusion_partial (proc : nat -> nat) (es : list event) :
  harmless_run proc start es ->
  exclusive proc (run proc start es) /\
  (forall t, pcs (run proc start es) t = Holding -> path (run proc start es) <> None).
Proof.
  intros H. pose proof (inv_run proc es start inv_start H) as [_ _ _ _ IH]. split.
  - intros t u _ _ Ht Hu. apply IH in Ht as (k & P & S). apply IH in Hu as (k' & P' & S'). congruence.
  - intros t Ht. apply IH in Ht as (k & P & _). congruence.
Qed.

(** ** What is false *)

(** [n] calls of thread [t] *)
Definition steps (n t : nat) : list event := repeat (Step t) n.

(** no crash and no fault, only a caller that waited ten times and gave up:
    its DestroyFileInfo removes the lock of the thread that holds it *)
Theorem lock_timeout_refuted :
  exists es, Forall (fun e => match e with Begin _ | Step _ => True | _ => False end) es /\
    forall proc, ~ exclusive proc (run proc start es).
Proof.
  exists ([Begin 0] ++ steps 6 0 ++ [Begin 1] ++ steps 32 1 ++ [Begin 2] ++ steps 6 2). split.
  - repeat constructor.
  - intros proc X. assert (H : 0 = 2); [|discriminate]. apply X; reflexivity.
Qed.

(** a caller that finds the lock file and, before it can open it, loses it to a
    release: it fails and removes the next holder's lock; nobody waited *)
Theorem lock_race_refuted :
  exists es, Forall (fun e => match e with Begin _ | Step _ => True | _ => False end) es /\ length es <= 26 /\
    forall proc, ~ exclusive proc (run proc start es).
Proof.
  exists ([Begin 0] ++ steps 6 0 ++ [Begin 1; Step 1; Step 0; Step 1; Begin 2] ++ steps 6 2 ++ [Step 1; Begin 3] ++ steps 6 3). split.
  - repeat constructor.
  - split; [cbn; lia|]. intros proc X. assert (H : 2 = 3); [|discriminate]. apply X; reflexivity.
Qed.

(** a lock left behind by a dead process makes the next call fail even though
    the call removes it *)
Theorem lock_stale_refuted (proc : nat -> nat) (s : system) (k t u : nat) :
  path s = Some k -> store s k = Full u -> alive s (proc u) = false -> alive s (proc t) = true -> pcs s t = Idle -> u <> t ->
  let after n := run proc s ([Begin t] ++ steps n t) in
  (forall n, n <= 4 -> pcs (after n) t <> Holding) /\ pcs (after 4) t = Failing /\ path (after 4) = None.
Proof.
  intros P S D A I N. cbn zeta. destruct s as [pa st nx pc al]. cbn [path store next pcs alive] in *. subst pa.
  assert (B : step proc (mkSys (Some k) st nx pc al) (Begin t) = mkSys (Some k) st nx (set pc t (Try 0)) al) by (cbn; rewrite A, I; reflexivity).
  set (s0 := mkSys (Some k) st nx (set pc t (Try 0)) al) in *.
  assert (S1 : step proc s0 (Step t) = goto s0 t (Exists 0)) by (cbn; rewrite A; unfold system_call; cbn; rewrite set_same; reflexivity).
  set (s1 := goto s0 t (Exists 0)) in *.
  assert (S2 : step proc s1 (Step t) = goto s1 t (Opened k 0)) by (cbn; rewrite A; unfold system_call; cbn; rewrite set_same; reflexivity).
  set (s2 := goto s1 t (Opened k 0)) in *.
  assert (S3 : step proc s2 (Step t) = goto s2 t Stale).
  { cbn. rewrite A. unfold system_call. cbn. rewrite set_same, S. apply Nat.eqb_neq in N. rewrite N, D. reflexivity. }
  set (s3 := goto s2 t Stale) in *.
  assert (S4 : step proc s3 (Step t) = goto (remove s3) t Failing) by (cbn; rewrite A; unfold system_call; cbn; rewrite set_same; reflexivity).
  unfold run, steps. split; [|split].
  - intros n Hn. destruct n as [|[|[|[|[|n]]]]]; [| | | | |lia]; cbn [repeat app fold_left]; rewrite B, ?S1, ?S2, ?S3, ?S4; cbn; rewrite set_same; discriminate.
  - cbn [repeat app fold_left]. rewrite B, S1, S2, S3, S4. cbn. apply set_same.
  - cbn [repeat app fold_left]. rewrite B, S1, S2, S3, S4. reflexivity.
Qed.

(** ** What a caller gets that no other thread disturbs *)
Lemma steps_S proc s n t : alive s (proc t) = true -> run proc s (steps (S n) t) = run proc (system_call proc s t) (steps n t).
Proof. intros A. unfold run, steps. cbn [repeat fold_left step]. rewrite A. reflexivity. Qed.

(** a free lock is obtained at every attempt, the last one too *)
Theorem lock_granted (proc : nat -> nat) (s : system) (t i : nat) :
  pcs s t = Try i -> i < 10 -> path s = None -> alive s (proc t) = true ->
  let s' := run proc s (steps 6 t) in
  pcs s' t = Holding /\ path s' = Some (next s) /\ store s' (next s) = Full t /\ forall u, u <> t -> pcs s' u = pcs s u.
Proof.
  intros P I E A. destruct s as [pa st nx pc al]. cbn [path store next pcs alive] in *. subst pa. apply Nat.leb_gt in I. cbn zeta.
  eassert (X : run proc (mkSys None st nx pc al) (steps 6 t) = _).
  { do 6 (rewrite steps_S by exact A; unfold system_call at 1; cbn [pcs path store next alive goto put]; rewrite ?set_same, ?P, ?I, ?Nat.eqb_refl; cbv iota). unfold run, steps. cbn [repeat fold_left]. reflexivity. }
  rewrite X. clear X. cbn [pcs path store goto put]. rewrite !set_same. split; [reflexivity|split; [reflexivity|split; [reflexivity|]]]. intros u U. rewrite !set_other by exact U. reflexivity.
Qed.

(** while a live thread holds the lock a caller makes ten attempts, three calls each, and then fails; it never holds the lock *)
Theorem lock_gives_up (proc : nat -> nat) (n : nat) : forall (s : system) (t u k i : nat),
  pcs s t = Try i -> i + n = 10 -> path s = Some k -> store s k = Full u -> u <> t -> alive s (proc u) = true -> alive s (proc t) = true ->
  pcs (run proc s (steps (3 * n + 1) t)) t = Failing /\
  (forall m, m <= 3 * n + 1 -> pcs (run proc s (steps m t)) t <> Holding /\ path (run proc s (steps m t)) = Some k) /\
  forall m, m <= 3 * n -> pcs (run proc s (steps m t)) t <> Failing.
Proof.
  induction n as [|n IH]; intros [pa st nx pc al] t u k i P I E F N U A; cbn [path store pcs alive] in *; subst pa.
  - assert (i = 10) as -> by lia.
    assert (S1 : run proc (mkSys (Some k) st nx pc al) (steps 1 t) = goto (mkSys (Some k) st nx pc al) t Failing).
    { rewrite steps_S by exact A. unfold system_call. cbn [pcs]. rewrite P. reflexivity. }
    change (3 * 0 + 1) with 1. split; [|split].
    + rewrite S1. apply set_same.
    + intros [|[|m]] Hm; [|rewrite S1; split; [cbn; rewrite set_same; discriminate|reflexivity]|lia]. cbn. rewrite P. split; [discriminate|reflexivity].
    + intros [|m] Hm; [|lia]. cbn. rewrite P. discriminate.
  - assert (I' : Nat.leb 10 i = false) by (apply Nat.leb_gt; lia). assert (N' : Nat.eqb u t = false) by (apply Nat.eqb_neq; exact N).
    set (s0 := mkSys (Some k) st nx pc al) in *. set (s1 := goto s0 t (Exists i)). set (s2 := goto s1 t (Opened k i)). set (s3 := goto s2 t (Try (i + 1))).
    assert (S1 : forall m, run proc s0 (steps (S m) t) = run proc s1 (steps m t)) by (intros; rewrite steps_S by exact A; unfold system_call; cbn [pcs s0]; rewrite P, I'; reflexivity).
    assert (S2 : forall m, run proc s1 (steps (S m) t) = run proc s2 (steps m t)) by (intros; rewrite steps_S by exact A; unfold system_call; cbn [pcs s1 goto]; rewrite set_same; reflexivity).
    assert (S3 : forall m, run proc s2 (steps (S m) t) = run proc s3 (steps m t)).
    { intros. rewrite steps_S by exact A. unfold system_call. change (pcs s2 t) with (set (pcs s1) t (Opened k i) t). rewrite set_same. change (store s2 k) with (st k). rewrite F, N'. change (alive s2 (proc u)) with (al (proc u)). rewrite U. reflexivity. }
    assert (P3 : pcs s3 t = Try (i + 1)) by apply set_same.
    destruct (IH s3 t u k (i + 1) P3 ltac:(lia) eq_refl F N U A) as (Z & H & L). replace (3 * S n) with (S (S (S (3 * n)))) by lia. cbn [Nat.add]. split; [|split].
    + rewrite S1, S2, S3. exact Z.
    + intros [|[|[|m]]] Hm; rewrite ?S1, ?S2, ?S3; [| | |apply H; lia]; unfold run, steps; cbn [repeat fold_left].
      * cbn [pcs path s0]. rewrite P. split; [discriminate|reflexivity].
      * cbn [pcs path s1 goto]. rewrite set_same. split; [discriminate|reflexivity].
      * cbn [pcs path s2 goto]. rewrite set_same. split; [discriminate|reflexivity].
    + intros [|[|[|m]]] Hm; rewrite ?S1, ?S2, ?S3; [| | |apply L; lia]; unfold run, steps; cbn [repeat fold_left].
      * cbn [pcs s0]. rewrite P. discriminate.
      * cbn [pcs s1 goto]. rewrite set_same. discriminate.
      * cbn [pcs s2 goto]. rewrite set_same. discriminate.
Qed.
(** thread 1 waits nine times while thread 0 holds the lock, and obtains it at its last attempt; or waits on and fails *)
Example lock_granted_ex :
  let s := run (fun t => t) start ([Begin 0] ++ steps 6 0 ++ [Begin 1] ++ steps 27 1 ++ steps 1 0) in
  pcs s 1 = Try 9 /\ path s = None /\ alive s 1 = true /\ pcs (run (fun t => t) s (steps 6 1)) 1 = Holding.
Proof. repeat split; reflexivity. Qed.
Example lock_gives_up_ex :
  let s := run (fun t => t) start ([Begin 0] ++ steps 6 0 ++ [Begin 1]) in
  pcs s 1 = Try 0 /\ path s = Some 0 /\ store s 0 = Full 0 /\ alive s 0 = true /\ pcs s 0 = Holding /\ pcs (run (fun t => t) s (steps 31 1)) 1 = Failing.
Proof. repeat split; reflexivity. Qed.

(** an undisturbed call obtains the lock, and waiting callers take turns *)
Example lock_exclusion_ex :
  let es := [Begin 0; Begin 1] ++ steps 6 0 ++ steps 6 1 ++ steps 1 0 ++ steps 6 1 in
  harmless_run (fun t => t) start es /\ pcs (run (fun t => t) start es) 1 = Holding /\ pcs (run (fun t => t) start es) 0 = Idle.
Proof. split; [|split; reflexivity]. vm_compute. repeat split; intros [H|H]; discriminate. Qed.
Example lock_stale_ex :
  let s := run (fun t => t) start ([Begin 0] ++ steps 6 0 ++ [Crash 0]) in
  path s = Some 0 /\ store s 0 = Full 0 /\ alive s 0 = false /\ alive s 1 = true /\ pcs s 1 = Idle.
Proof. repeat split; reflexivity. Qed.

Print Assumptions lock_exclusion_partial.
Print Assumptions lock_timeout_refuted.
Print Assumptions lock_race_refuted.
Print Assumptions lock_stale_refuted.
Print Assumptions lock_granted.
Print Assumptions lock_gives_up.
