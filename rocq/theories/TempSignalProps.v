(** What a signal leaves of temporary files. *)
From Coq Require Import Arith List Bool Lia.
From Verif Require Import TempSignalModel.
Import ListNotations.

(** ** What is to be shown *)
Definition start (fs : list nat) : state := mkState fs None false false false.
Definition name (o : op) : nat := match o with Acquire f _ => f | Relinquish f _ _ => f end.
(** files that are given to the caller *)
Definition kept (os : list op) : list nat := concat (map (fun o => match o with Relinquish f _ false => [f] | _ => [] end) os).
Definition left_over (r : fate) : list nat := match r with Exits fs => fs | Hangs fs => fs end.

(** ** Steps *)
Definition tree (s : state) : list nat := match keys s with Some ks => ks | None => [] end.
Definition about (f : nat) (m : micro) : Prop := match m with Create g | Add g | Delete g | Remove g => g = f | _ => True end.
(** every file was there, is known, is given away, or is the one of the call *)
Definition known (fs ex : list nat) (s : state) : Prop := forall x, In x (files s) -> In x fs \/ In x (tree s) \/ In x ex.
Lemma in_without f l x : In x (without f l) <-> In x l /\ x <> f.
Proof. unfold without. rewrite filter_In. destruct (Nat.eqb_spec x f); cbn; split; intuition congruence. Qed.
Lemma step_known fs ex f s m : In f ex -> about f m -> known fs ex s -> known fs ex (step s m).
Proof.
  intros F A K x. unfold known, tree in *. destruct m as [l|l|g| |g|g|g]; cbn [about] in A; subst; cbn [step].
  - destruct l; apply K.
  - destruct l; apply K.
  - cbn. intros [<-|I]; [now right; right|now apply K].
  - specialize (K x). destruct (keys s) eqn:E; cbn [set_keys files keys]; [now rewrite E|exact K].
  - cbn. intros I. destruct (K x I) as [H|[H|H]]; auto. destruct (keys s) as [ks|]; [|destruct H]. cbn.
    destruct (Nat.eq_dec x f) as [->|N]; [now right; right|]. right. left. right. now apply in_without.
  - cbn. intros I. destruct (K x I) as [H|[H|H]]; auto. destruct (keys s) as [ks|]; [|destruct H]. cbn.
    destruct (Nat.eq_dec x f) as [->|N]; [now right; right|]. right. left. now apply in_without.
  - cbn. intros I. apply in_without in I. now apply K.
Qed.
Lemma run_known fs ex f ms : In f ex -> Forall (about f) ms -> forall s, known fs ex s -> known fs ex (run s ms).
Proof. intros F. unfold run. induction 1 as [|m ms A _ IH]; intros s K; cbn [fold_left]; [exact K|]. apply IH. now apply (step_known fs ex f). Qed.
Lemma run_app s a c : run s (a ++ c) = run (run s a) c.
Proof. apply fold_left_app. Qed.
Definition free (s : state) : Prop := held_random s = false /\ held_resource s = false /\ held_tree s = false.
Lemma run_uses l n : forall s, free s -> run s (uses l n) = s.
Proof.
  intros s F. unfold uses. induction n as [|n IH]; [reflexivity|]. cbn [repeat concat]. rewrite run_app.
  assert (E : run s [Lock l; Unlock l] = s). { destruct s as [fs ks a b c]. destruct F as (Fa & Fb & Fc). cbn in Fa, Fb, Fc. subst. destruct l; reflexivity. }
  now rewrite E.
Qed.
Lemma about_uses f l n : Forall (about f) (uses l n).
Proof. unfold uses. induction n as [|n IH]; cbn; repeat constructor. exact IH. Qed.
Lemma about_micros s o : Forall (about (name o)) (micros s o).
Proof.
  destruct o as [f n|f n trash]; cbn [micros name].
  - unfold acquire. apply Forall_app. split; [apply about_uses|]. repeat constructor.
  - unfold relinquish. apply Forall_app. split; [|destruct trash; repeat constructor]. destruct (keys s) as [ks|]; [|constructor].
    apply Forall_app. split; [apply about_uses|]. destruct (existsb _ _); repeat constructor.
Qed.
(** a whole call *)
Lemma call_acquire f n s : free s -> free (call s (Acquire f n)) /\ In f (tree (call s (Acquire f n))).
Proof.
  intros F. unfold call, micros, acquire. rewrite run_app, run_uses by exact F. destruct s as [fs ks a b c]. destruct F as (Fa & Fb & Fc). cbn in Fa, Fb, Fc. subst.
  destruct ks as [ks|]; cbn; repeat split; now left.
Qed.
Lemma call_relinquish f n trash s : free s -> free (call s (Relinquish f n trash)) /\ (trash = true -> ~ In f (files (call s (Relinquish f n trash)))).
Proof.
  intros F. unfold call, micros, relinquish. rewrite run_app.
  set (s1 := run s match keys s with Some ks => _ | None => [] end).
  assert (F1 : free s1).
  { unfold s1. destruct (keys s) as [ks|] eqn:K; [|exact F]. rewrite run_app, run_uses by exact F. destruct (existsb _ _); [|exact F].
    destruct s as [fs ks0 a b c]. destruct F as (Fa & Fb & Fc). cbn in *. subst. repeat split. }
  clearbody s1. destruct trash; cbn.
  - split; [exact F1|]. intros _ I. apply in_without in I. tauto.
  - split; [exact F1|]. discriminate.
Qed.
Lemma known_weaken fs ex f s : known fs (f :: ex) s -> (In f (tree s) \/ ~ In f (files s)) -> known fs ex s.
Proof. intros K H x I. destruct (K x I) as [A|[A|[<-|A]]]; auto. destruct H as [H|H]; [auto|destruct (H I)]. Qed.
Lemma calls_known fs os : forall ex s, free s -> known fs ex s -> free (calls s os) /\ known fs (ex ++ kept os) (calls s os).
Proof.
  induction os as [|o os IH]; intros ex s F K; unfold calls, kept; cbn [fold_left map concat]; [rewrite app_nil_r; auto|].
  assert (K1 : known fs (name o :: ex) (call s o)).
  { apply (run_known fs _ (name o)); [now left|apply about_micros|]. intros x I. destruct (K x I) as [A|[A|A]]; auto. right. right. now right. }
  rewrite app_assoc. apply IH.
  - destruct o as [f n|f n trash]; [apply call_acquire|apply call_relinquish]; exact F.
  - destruct o as [f n|f n trash]; cbn [name] in K1.
    + rewrite app_nil_r. apply (known_weaken fs ex f); [exact K1|]. left. now apply call_acquire.
    + destruct trash.
      * rewrite app_nil_r. apply (known_weaken fs ex f); [exact K1|]. right. now apply call_relinquish.
      * intros x I. destruct (K1 x I) as [A|[A|[<-|A]]]; auto; right; right; apply in_or_app; [right; now left|now left].
Qed.
Lemma start_known fs : known fs [] (start fs).
Proof. intros x I. now left. Qed.
Lemma handler_left s x : In x (left_over (AsynchronousResourceComponentTerminus s)) -> held_tree s = false -> In x (files s) /\ ~ In x (tree s).
Proof.
  unfold AsynchronousResourceComponentTerminus, tree. intros I H. rewrite H in I. destruct (keys s) as [ks|]; [|cbn in I; auto].
  assert (J : In x (filter (fun y => negb (existsb (Nat.eqb y) ks)) (files s))) by (destruct (held_random s); exact I).
  apply filter_In in J. destruct J as (J & E). split; [exact J|]. intros T. apply negb_true_iff in E.
  assert (existsb (Nat.eqb x) ks = true) by (apply existsb_exists; exists x; split; [exact T|apply Nat.eqb_refl]). congruence.
Qed.

(** ** A signal that finds the tree free leaves only the files that were there, those given away, and that of the call it interrupts *)
Theorem signal_removes : forall fs os o k x, let s := calls (start fs) os in
  held_tree (run s (firstn k (micros s o))) = false -> In x (left_over (interrupted (start fs) os o k)) ->
  In x fs \/ In x (kept os) \/ x = name o.
Proof.
  intros fs os o k x s H I. unfold interrupted in I. fold s in I. apply handler_left in I; [|exact H]. destruct I as (I & N).
  destruct (calls_known fs os [] (start fs) ltac:(repeat split) (start_known fs)) as (_ & K). fold s in K. cbn [app] in K.
  assert (K1 : known fs (name o :: kept os) (run s (firstn k (micros s o)))).
  { apply (run_known fs _ (name o)); [now left| |].
    - pose proof (about_micros s o) as A. rewrite <- (firstn_skipn k (micros s o)) in A. apply Forall_app in A. tauto.
    - intros y J. destruct (K y J) as [A|[A|A]]; auto. right. right. now right. }
  destruct (K1 x I) as [A|[A|[A|A]]]; auto. destruct (N A).
Qed.
(** between calls it leaves not even one, and the process exits *)
Theorem signal_between_calls : forall fs os o, exists left, interrupted (start fs) os o 0 = Exits left /\
  forall x, In x left -> In x fs \/ In x (kept os).
Proof.
  intros fs os o. destruct (calls_known fs os [] (start fs) ltac:(repeat split) (start_known fs)) as ((F1 & _ & F3) & K). cbn [app] in K.
  unfold interrupted. cbn [firstn run fold_left]. set (s := calls (start fs) os) in *.
  pose proof (fun x => handler_left s x) as L. unfold AsynchronousResourceComponentTerminus in *. rewrite F1, F3 in *.
  destruct (keys s) as [ks|] eqn:E; eexists; (split; [reflexivity|]); intros x I.
  - destruct (L x I eq_refl) as (J & N). destruct (K x J) as [A|[A|A]]; auto. destruct (N A).
  - destruct (L x I eq_refl) as (J & N). destruct (K x J) as [A|[A|A]]; auto. destruct (N A).
Qed.
(** files that no call names stay *)
Lemma step_others f s m x : about f m -> x <> f -> (In x (files s) <-> In x (files (step s m))) /\ (In x (tree s) <-> In x (tree (step s m))).
Proof.
  intros A N. unfold tree. destruct m as [l|l|g| |g|g|g]; cbn [about] in A; subst; cbn [step].
  - destruct l; cbn; tauto.
  - destruct l; cbn; tauto.
  - cbn. intuition congruence.
  - destruct (keys s) eqn:E; cbn; rewrite ?E; tauto.
  - destruct (keys s) eqn:E; cbn; rewrite ?in_without; intuition congruence.
  - destruct (keys s) eqn:E; cbn; rewrite ?in_without; intuition congruence.
  - cbn. rewrite in_without. tauto.
Qed.
Lemma run_others f ms x : Forall (about f) ms -> x <> f -> forall s, (In x (files s) <-> In x (files (run s ms))) /\ (In x (tree s) <-> In x (tree (run s ms))).
Proof.
  intros A N. unfold run. induction A as [|m ms A _ IH]; intros s; cbn [fold_left]; [tauto|].
  destruct (step_others f s m x A N) as (H1 & H2). destruct (IH (step s m)) as (H3 & H4). tauto.
Qed.
Theorem signal_spares : forall fs os o k x, In x fs -> Forall (fun o => name o <> x) (o :: os) -> In x (left_over (interrupted (start fs) os o k)).
Proof.
  intros fs os o k x I F. inversion F as [|? ? No Fs]; subst.
  assert (C : forall os s, Forall (fun o => name o <> x) os -> (In x (files s) <-> In x (files (calls s os))) /\ (In x (tree s) <-> In x (tree (calls s os)))).
  { clear. induction os as [|o os IH]; intros s F; unfold calls; cbn [fold_left]; [tauto|]. inversion F as [|? ? N F']; subst.
    destruct (run_others (name o) (micros s o) x (about_micros s o) ltac:(congruence) s) as (H1 & H2). destruct (IH (call s o) F') as (H3 & H4). unfold call in *. unfold calls in *. tauto. }
  destruct (C os (start fs) Fs) as (C1 & C2). unfold interrupted. set (s := calls (start fs) os) in *.
  assert (A : Forall (about (name o)) (firstn k (micros s o))).
  { pose proof (about_micros s o) as A. rewrite <- (firstn_skipn k (micros s o)) in A. apply Forall_app in A. tauto. }
  destruct (run_others (name o) _ x A ltac:(congruence) s) as (H1 & H2). set (t := run s _) in *.
  assert (Jf : In x (files t)) by (apply H1, C1; exact I).
  assert (Jt : ~ In x (tree t)) by (intros T; apply H2, C2 in T; destruct T).
  unfold AsynchronousResourceComponentTerminus, tree in *. destruct (keys t) as [ks|]; [|exact Jf]. destruct (held_tree t); [exact Jf|].
  assert (J : In x (filter (fun y => negb (existsb (Nat.eqb y) ks)) (files t))).
  { apply filter_In. split; [exact Jf|]. apply negb_true_iff. destruct (existsb (Nat.eqb x) ks) eqn:E; [|reflexivity].
    apply existsb_exists in E. destruct E as (y & Y & E). apply Nat.eqb_eq in E. subst y. destruct (Jt Y). }
  destruct (held_random t); exact J.
Qed.

(** ** That a signal removes all temporary files and ends the process: refuted *)
(** whatever has been called before, there is a moment in each call at which the process neither ends nor removes anything *)
Theorem signal_hangs_refuted : forall fs os f n, exists k,
  interrupted (start fs) os (Acquire f n) k = Hangs (f :: files (calls (start fs) os)).
Proof.
  intros fs os f n. destruct (calls_known fs os [] (start fs) ltac:(repeat split) (start_known fs)) as (F & _).
  exists (length (uses Random n) + 7). unfold interrupted. set (s := calls (start fs) os) in *. cbn [micros]. unfold acquire.
  rewrite firstn_app_2, run_app, run_uses by exact F. destruct s as [fs0 ks a b c]. destruct F as (Fa & Fb & Fc). cbn in Fa, Fb, Fc. subst.
  destruct ks as [ks|]; reflexivity.
Qed.
(** and one at which the process ends and the file stays *)
Theorem signal_leaves_refuted : forall fs os f n, ~ In f (tree (calls (start fs) os)) -> exists k left,
  interrupted (start fs) os (Acquire f n) k = Exits left /\ In f left.
Proof.
  intros fs os f n N. destruct (calls_known fs os [] (start fs) ltac:(repeat split) (start_known fs)) as (F & _).
  exists (length (uses Random n) + 1). unfold interrupted. set (s := calls (start fs) os) in *. cbn [micros]. unfold acquire.
  rewrite firstn_app_2, run_app, run_uses by exact F. destruct s as [fs0 ks a b c]. destruct F as (Fa & Fb & Fc). cbn in Fa, Fb, Fc. subst.
  destruct ks as [ks|]; cbn; eexists; (split; [reflexivity|]); [|now left]. unfold tree in N. cbn in N.
  assert (E : existsb (Nat.eqb f) ks = false). { destruct (existsb (Nat.eqb f) ks) eqn:E; [|reflexivity]. apply existsb_exists in E. destruct E as (y & Y & E). apply Nat.eqb_eq in E. subst y. destruct (N Y). }
  rewrite E. now left.
Qed.
(** and one, while a name is made, at which the files are removed but the process does not end *)
Theorem signal_random_refuted : forall fs f g n, exists left, interrupted (start fs) [Acquire f n] (Acquire g 1) 1 = Hangs left /\ ~ In f left.
Proof.
  intros fs f g n.
  assert (E : calls (start fs) [Acquire f n] = mkState (f :: fs) (Some [f]) false false false).
  { unfold calls, call. cbn [fold_left micros]. unfold acquire. rewrite run_app, run_uses by (repeat split). reflexivity. }
  unfold interrupted. rewrite E. eexists. split; [reflexivity|].
  intros I. apply filter_In in I. destruct I as (_ & X). cbn in X. rewrite Nat.eqb_refl in X. discriminate X.
Qed.

(** ** Examples *)
Example three_files : interrupted (start [9]) [Acquire 1 1; Acquire 2 1; Acquire 3 2; Relinquish 2 3 true; Relinquish 3 4 false] (Acquire 4 1) 0 = Exits [3; 9].
Proof. reflexivity. Qed.
Example three_files_late : let s := calls (start [9]) [Acquire 1 1; Acquire 2 1] in
  held_tree (run s (firstn 4 (micros s (Acquire 3 1)))) = false /\ interrupted (start [9]) [Acquire 1 1; Acquire 2 1] (Acquire 3 1) 4 = Exits [3; 9].
Proof. split; reflexivity. Qed.
Example not_known : ~ In 3 (tree (calls (start [9]) [Acquire 1 1; Acquire 2 1])).
Proof. cbn. intuition discriminate. Qed.
Example spared : Forall (fun o => name o <> 9) [Acquire 4 1; Acquire 1 1; Relinquish 1 2 true].
Proof. repeat constructor; discriminate. Qed.

Print Assumptions signal_removes.
Print Assumptions signal_between_calls.
Print Assumptions signal_spares.
Print Assumptions signal_hangs_refuted.
Print Assumptions signal_leaves_refuted.
Print Assumptions signal_random_refuted.
