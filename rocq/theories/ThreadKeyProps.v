(** C292-C293: keys of values that belong to threads (ThreadKeyModel.v). *)
From Coq Require Import Arith NArith Bool Lia List.
From Verif Require Import Base Outcome ThreadKeyModel.
Import ListNotations.

(** specification: each thread has for each key what it put there last; [past]: the calls so far, the last one first *)
Fixpoint last_put (past : list op) (t i : nat) : value :=
  match past with
  | [] => 0%N
  | Put t' i' v true :: past => if Nat.eqb t t' && Nat.eqb i i' then v else last_put past t i
  | _ :: past => last_put past t i
  end.
Definition expected (past : list op) (o : op) : result :=
  match o with
  | Create enough => Done enough
  | Delete _ => Done true
  | Put _ _ _ enough => Done enough
  | Get t i => Value (last_put past t i)
  end.
Fixpoint expects (past : list op) (ops : list op) : list result :=
  match ops with [] => [] | o :: ops => expected past o :: expects (o :: past) ops end.
(** keys are used after they were created and before they are deleted; [n]: keys created, [dead]: keys deleted *)
Fixpoint valid (n : nat) (dead : list nat) (ops : list op) : Prop :=
  match ops with
  | [] => True
  | Create enough :: ops => valid (if enough then S n else n) dead ops
  | Delete i :: ops => i < n /\ ~ In i dead /\ valid n (i :: dead) ops
  | Put _ i _ _ :: ops | Get _ i :: ops => i < n /\ ~ In i dead /\ valid n dead ops
  end.
(** the system does not give out what is in use *)
Definition fresh (pick : list nat -> nat) : Prop := forall l, ~ In (pick l) l.
(** a program of one thread, which reads no key before it has set it *)
Fixpoint alone (t0 : nat) (set : list nat) (ops : list op) : Prop :=
  match ops with
  | [] => True
  | Put t i _ enough :: ops => t = t0 /\ enough = true /\ alone t0 (i :: set) ops
  | Get t i :: ops => t = t0 /\ In i set /\ alone t0 set ops
  | _ :: ops => alone t0 set ops
  end.

Record inv (threads : bool) (t0 : nat) (past : list op) (n : nat) (dead set : list nat) (s : state) : Prop := {
  inv_n : length (handles s) = n;
  inv_live : forall i, i < n -> ~ In i dead -> exists k, nth i (handles s) None = Some k;
  inv_one : forall i j k, nth i (handles s) None = Some k -> nth j (handles s) None = Some k -> i = j;
  inv_new : forall t i, n <= i -> last_put past t i = 0%N;
  inv_set : forall i, n <= i -> ~ In i set;
  inv_threads : threads = true -> forall t i k, nth i (handles s) None = Some k -> cells s t k = last_put past t i;
  inv_alone : threads = false -> forall i k, nth i (handles s) None = Some k -> In i set -> cells s 0 k = last_put past t0 i }.

Lemma in_use_in : forall l k, In k (in_use l) <-> exists i, nth i l None = Some k.
Proof.
  intros l k. unfold in_use. rewrite in_flat_map. split.
  - intros (x & I & H). destruct x; [|destruct H]. destruct H as [<-|[]]. apply (In_nth _ _ None) in I. destruct I as (i & _ & E). exists i. exact E.
  - intros (i & E). destruct (Nat.lt_ge_cases i (length l)) as [L|L]; [|rewrite nth_overflow in E by exact L; discriminate].
    exists (Some k). split; [rewrite <- E; apply nth_In; exact L|left; reflexivity].
Qed.
Lemma nth_snoc : forall (l : list (option nat)) x i, nth i (l ++ [x]) None = if i =? length l then x else nth i l None.
Proof.
  intros l x i. destruct (Nat.eqb_spec i (length l)) as [->|N]; [rewrite app_nth2, Nat.sub_diag by lia; reflexivity|].
  destruct (Nat.lt_ge_cases i (length l)); [apply app_nth1; lia|].
  rewrite !nth_overflow; [reflexivity|lia|rewrite app_length; cbn; lia].
Qed.
Lemma nth_gone : forall (l : list (option nat)) i j, i < length l -> nth j (gone i l) None = if j =? i then None else nth j l None.
Proof.
  induction l as [|x l IH]; intros i j L; [cbn in L; lia|]. unfold gone in *. destruct i.
  - destruct j; reflexivity.
  - destruct j; [reflexivity|]. change (nth j (firstn i l ++ None :: skipn (S i) l) None = if j =? i then None else nth j l None). apply IH. cbn in L. lia.
Qed.
Lemma gone_length : forall (l : list (option nat)) i, i < length l -> length (gone i l) = length l.
Proof. intros l i L. unfold gone. rewrite app_length, firstn_length. cbn [length]. rewrite skipn_length. lia. Qed.

Lemma run_expects : forall threads pick junk t0 ops past n dead set s, fresh pick -> inv threads t0 past n dead set s ->
  valid n dead ops -> threads = true \/ alone t0 set ops -> run threads pick junk s ops = Ok (expects past ops).
Proof.
  intros threads pick junk t0 ops. induction ops as [|o ops IH]; intros past n dead set s P I V A; [reflexivity|].
  destruct I as [In_ Il Io Iw Is It Ia]. destruct o as [[|]|i|t i v e|t i].
  - cbn [run step]. unfold WizardCreateThreadKey. cbn [bind].
    set (k := pick (in_use (handles s))).
    assert (F : forall i, nth i (handles s) None <> Some k) by (intros i E; apply (P (in_use (handles s))); apply in_use_in; exists i; exact E).
    rewrite (IH (Create true :: past) (S n) dead set); [reflexivity|exact P| |exact V|destruct A as [A|A]; [left; exact A|right; exact A]].
    constructor; cbn [handles cells last_put].
    + rewrite app_length, In_. cbn. lia.
    + intros i L D. rewrite nth_snoc, In_. destruct (Nat.eqb_spec i n); [eexists; reflexivity|]. apply Il; [lia|exact D].
    + intros i j k' Ei Ej. rewrite nth_snoc, In_ in Ei, Ej. destruct (Nat.eqb_spec i n), (Nat.eqb_spec j n); subst; [reflexivity| | |exact (Io _ _ _ Ei Ej)].
      * injection Ei as <-. exfalso. exact (F j Ej).
      * injection Ej as <-. exfalso. exact (F i Ei).
    + intros t i L. apply Iw. lia.
    + intros i L. apply Is. lia.
    + intros T t i k' E. rewrite nth_snoc, In_ in E. destruct (Nat.eqb_spec i n) as [->|N].
      * injection E as <-. rewrite Nat.eqb_refl, T. symmetry. apply Iw. lia.
      * destruct (Nat.eqb_spec k' k) as [->|N']; [exfalso; exact (F i E)|]. apply It; assumption.
    + intros T i k' E S. rewrite nth_snoc, In_ in E. destruct (Nat.eqb_spec i n) as [->|N]; [exfalso; exact (Is n (le_n _) S)|].
      destruct (Nat.eqb_spec k' k) as [->|N']; [exfalso; exact (F i E)|]. apply Ia; assumption.
  - cbn [run step]. unfold WizardCreateThreadKey. cbn [bind].
    rewrite (IH (Create false :: past) n dead set); [reflexivity|exact P| |exact V|destruct A as [A|A]; [left; exact A|right; exact A]].
    constructor; cbn [last_put]; assumption.
  - destruct V as (L & D & V). destruct (Il i L D) as [k E]. cbn [run step]. unfold WizardDeleteThreadKey. rewrite E. cbn [bind].
    rewrite (IH (Delete i :: past) n (i :: dead) set); [reflexivity|exact P| |exact V|destruct A as [A|A]; [left; exact A|right; exact A]].
    assert (G : forall j, nth j (gone i (handles s)) None = if j =? i then None else nth j (handles s) None) by (intros j; apply nth_gone; lia).
    constructor; cbn [handles cells last_put].
    + rewrite gone_length; lia.
    + intros j Lj Dj. rewrite G. destruct (Nat.eqb_spec j i) as [->|N]; [exfalso; apply Dj; left; reflexivity|].
      apply Il; [exact Lj|]. intros X. apply Dj. right. exact X.
    + intros a c k' Ea Ec. rewrite G in Ea, Ec. destruct (a =? i); [discriminate|]. destruct (c =? i); [discriminate|]. exact (Io _ _ _ Ea Ec).
    + exact Iw.
    + exact Is.
    + intros T t j k' Ej. rewrite G in Ej. destruct (j =? i); [discriminate|]. apply It; assumption.
    + intros T j k' Ej S. rewrite G in Ej. destruct (j =? i); [discriminate|]. apply Ia; assumption.
  - destruct V as (L & D & V). destruct (Il i L D) as [k E]. cbn [run step]. unfold WizardSetThreadValue. rewrite E.
    destruct threads.
    + destruct e; cbn [bind].
      * rewrite (IH (Put t i v true :: past) n dead set); [reflexivity|exact P| |exact V|left; reflexivity].
        constructor; cbn [handles cells last_put]; [assumption..| |exact Is| |discriminate].
        -- intros t' i' L'. replace (i' =? i) with false by (symmetry; apply Nat.eqb_neq; lia). rewrite andb_false_r. apply Iw; exact L'.
        -- intros T t' i' k' E'. unfold put. destruct (Nat.eqb_spec i' i) as [->|N].
           ++ assert (k' = k) by congruence. subst k'. rewrite Nat.eqb_refl, !andb_true_r. destruct (t' =? t); [reflexivity|]. apply It; assumption.
           ++ destruct (Nat.eqb_spec k' k) as [->|N']; [exfalso; apply N; exact (Io _ _ _ E' E)|]. rewrite !andb_false_r. apply It; assumption.
      * rewrite (IH (Put t i v false :: past) n dead set); [reflexivity|exact P| |exact V|left; reflexivity].
        constructor; cbn [last_put]; assumption.
    + destruct A as [A|(-> & -> & A)]; [discriminate|]. cbn [bind].
      rewrite (IH (Put t0 i v true :: past) n dead (i :: set)); [reflexivity|exact P| |exact V|right; exact A].
      constructor; cbn [handles cells last_put]; [assumption..| | |discriminate|].
      * intros t' i' L'. replace (i' =? i) with false by (symmetry; apply Nat.eqb_neq; lia). rewrite andb_false_r. apply Iw; exact L'.
      * intros j Lj [->|X]; [lia|exact (Is j Lj X)].
      * intros T i' k' E' S. unfold put. rewrite !Nat.eqb_refl. cbn [andb]. destruct (Nat.eqb_spec i' i) as [->|N].
        -- assert (k' = k) by congruence. subst k'. rewrite Nat.eqb_refl. reflexivity.
        -- destruct (Nat.eqb_spec k' k) as [->|N']; [exfalso; apply N; exact (Io _ _ _ E' E)|].
           destruct S as [S|S]; [exfalso; apply N; symmetry; exact S|]. apply Ia; assumption.
  - destruct V as (L & D & V). destruct (Il i L D) as [k E]. cbn [run step]. unfold WizardGetThreadValue. rewrite E. cbn [bind].
    rewrite (IH (Get t i :: past) n dead set); [|exact P|constructor; cbn [last_put]; assumption|exact V|destruct A as [A|(_ & _ & A)]; [left; exact A|right; exact A]].
    cbn [bind expects expected]. do 3 f_equal. destruct threads; [apply It; auto|].
    destruct A as [A|(-> & S & A)]; [discriminate|]. apply Ia; auto.
Qed.
Lemma inv_start : forall threads t0, inv threads t0 [] 0 [] [] at_start.
Proof.
  intros threads t0. constructor; cbn; try reflexivity; intros; try lia; auto; destruct i; discriminate.
Qed.

(** C292: with threads, whatever the calls of all threads and however the system numbers the keys, every thread reads what it
    put last itself, NULL before that, also when numbers of deleted keys are given out again; failures are reported *)
Theorem keys_private : forall pick junk ops, fresh pick -> valid 0 [] ops -> run true pick junk at_start ops = Ok (expects [] ops).
Proof. intros pick junk ops P V. apply (run_expects true pick junk 0 ops [] 0 [] []); [exact P|apply inv_start|exact V|left; reflexivity]. Qed.
(** C292: without threads the same holds for programs that set a key before they read it *)
Theorem keys_alone : forall pick junk t0 ops, fresh pick -> valid 0 [] ops -> alone t0 [] ops -> run false pick junk at_start ops = Ok (expects [] ops).
Proof. intros pick junk t0 ops P V A. apply (run_expects false pick junk t0 ops [] 0 [] []); [exact P|apply inv_start|exact V|right; exact A]. Qed.

(** what thread t reads, in order *)
Fixpoint read_by (t : nat) (ops : list op) (rs : list result) : list value :=
  match ops, rs with
  | Get t' _ :: ops, Value v :: rs => if Nat.eqb t' t then v :: read_by t ops rs else read_by t ops rs
  | _ :: ops, _ :: rs => read_by t ops rs
  | _, _ => []
  end.
Definition not_put_by_others (t : nat) (o : op) : bool := match o with Put t' _ _ _ => Nat.eqb t' t | _ => true end.
Lemma valid_filter : forall t ops n dead, valid n dead ops -> valid n dead (filter (not_put_by_others t) ops).
Proof.
  induction ops as [|o ops IH]; intros n dead V; [exact I|]. destruct o as [e|i|t' i v e|t' i]; cbn [filter not_put_by_others].
  - apply IH. exact V.
  - destruct V as (L & D & V). repeat split; [exact L|exact D|apply IH; exact V].
  - destruct V as (L & D & V). destruct (t' =? t); [repeat split; [exact L|exact D|]|]; apply IH; exact V.
  - destruct V as (L & D & V). repeat split; [exact L|exact D|apply IH; exact V].
Qed.
Lemma read_filter : forall t ops past past', (forall i, last_put past t i = last_put past' t i) ->
  read_by t ops (expects past ops) = read_by t (filter (not_put_by_others t) ops) (expects past' (filter (not_put_by_others t) ops)).
Proof.
  induction ops as [|o ops IH]; intros past past' H; [reflexivity|]. destruct o as [e|i|t' i v e|t' i]; cbn [filter not_put_by_others].
  - cbn [expects expected read_by]. apply IH. exact H.
  - cbn [expects expected read_by]. apply IH. exact H.
  - destruct (Nat.eqb_spec t' t) as [->|N]; cbn [expects expected read_by]; apply IH; intros j.
    + destruct e; cbn [last_put]; [|apply H]. rewrite H. reflexivity.
    + destruct e; cbn [last_put]; [|apply H]. replace (t =? t') with false by (symmetry; apply Nat.eqb_neq; auto). cbn [andb]. apply H.
  - cbn [expects expected read_by]. destruct (Nat.eqb_spec t' t) as [->|N]; [rewrite H; f_equal|]; apply IH; exact H.
Qed.
(** C292: what other threads put changes nothing of what a thread reads *)
Theorem keys_isolated : forall pick junk t ops, fresh pick -> valid 0 [] ops ->
  exists rs rs', run true pick junk at_start ops = Ok rs /\
    run true pick junk at_start (filter (not_put_by_others t) ops) = Ok rs' /\
    read_by t ops rs = read_by t (filter (not_put_by_others t) ops) rs'.
Proof.
  intros pick junk t ops P V. do 2 eexists. split; [apply keys_private; assumption|]. split; [apply keys_private; [exact P|apply valid_filter; exact V]|].
  apply read_filter. reflexivity.
Qed.

(** a system that gives out the number after the greatest in use: numbers of deleted keys come back *)
Definition next (l : list nat) : nat := S (list_max l).
Lemma next_fresh : fresh next.
Proof.
  intros l I. unfold next in I. assert (H : Forall (fun k => k <= list_max l) l) by (apply list_max_le; lia).
  rewrite Forall_forall in H. specialize (H _ I). lia.
Qed.
(** two threads, a key that is deleted and its number given out again *)
Definition some_program : list op :=
  [Create true; Put 1 0 7%N true; Put 2 0 8%N true; Get 1 0; Get 2 0; Get 3 0; Put 1 0 9%N false; Get 1 0; Delete 0; Create false; Create true; Get 1 1].
Example keys_private_meets : valid 0 [] some_program /\
  run true next (fun _ => 5%N) at_start some_program =
  Ok [Done true; Done true; Done true; Value 7%N; Value 8%N; Value 0%N; Done false; Value 7%N; Done true; Done false; Done true; Value 0%N].
Proof. split; [cbn; repeat split; try lia; intuition discriminate|reflexivity]. Qed.
Example keys_isolated_meets :
  filter (not_put_by_others 1) some_program <> some_program /\ read_by 1 some_program (expects [] some_program) = [7%N; 7%N; 0%N].
Proof. split; [discriminate|reflexivity]. Qed.
Definition some_alone : list op := [Create true; Put 4 0 7%N true; Get 4 0; Delete 0; Create true; Put 4 1 8%N true; Get 4 1].
Example keys_alone_meets : valid 0 [] some_alone /\ alone 4 [] some_alone /\ expects [] some_alone = [Done true; Done true; Value 7%N; Done true; Done true; Done true; Value 8%N].
Proof. cbn; repeat split; try lia; try (left; reflexivity); intuition discriminate. Qed.

(** C293: without threads a value put by one thread is read by all *)
Theorem keys_shared_refuted : forall pick junk t u v, fresh pick ->
  run false pick junk at_start [Create true; Put t 0 v true; Get u 0] = Ok [Done true; Done true; Value v].
Proof. intros pick junk t u v P. cbn. unfold put. rewrite !Nat.eqb_refl. reflexivity. Qed.
(** C293: and a key that was not set holds what the memory held, not NULL *)
Theorem keys_unset_refuted : forall pick junk t,
  run false pick junk at_start [Create true; Get t 0] = Ok [Done true; Value (junk 0)].
Proof. intros pick junk t. cbn. rewrite Nat.eqb_refl. reflexivity. Qed.
(** C293: so that a program of two threads means one thing with threads and another without *)
Theorem keys_variants_refuted : exists ops, valid 0 [] ops /\ forall pick junk, fresh pick -> run true pick junk at_start ops <> run false pick junk at_start ops.
Proof.
  exists [Create true; Put 1 0 7%N true; Get 2 0]. split; [cbn; repeat split; try lia; intuition discriminate|].
  intros pick junk P. rewrite keys_shared_refuted by exact P. rewrite keys_private; [discriminate|exact P|].
  cbn; repeat split; try lia; intuition discriminate.
Qed.

Print Assumptions keys_private.
Print Assumptions keys_alone.
Print Assumptions keys_isolated.
Print Assumptions keys_shared_refuted.
Print Assumptions keys_unset_refuted.
Print Assumptions keys_variants_refuted.
