(** Calls whose statements are under one lock take effect one after the other. *)
From Coq Require Import Bool Arith Lia List.
From Verif Require Import ThreadModel ThreadSpec.
Import ListNotations.

Section Proof.
Context {S C L R : Type}.
Variable P : code S C L R.
Variable seq : S -> C -> option (S * R).
(** the states that there are between calls, the calls that a thread may make, and what a call that has not returned at once may rely on *)
Variables (good : S -> Prop) (allowed : nat -> C -> Prop) (ok : C -> S -> Prop).

(** the order in which calls take effect: at the look without the lock, or at the last statement under it *)
Definition entry (t : nat) (m : machine S C L R) : list (nat * C * R) :=
  match at_ (threads m t) with
  | Between =>
      match todo (threads m t) with
      | [] => []
      | c :: _ => match check P c (shared m) with Some r => [(t, c, r)] | None => [] end
      end
  | Inside c l => match go P l (shared m) with Finish _ r => [(t, c, r)] | _ => [] end
  | _ => []
  end.
Fixpoint log_of (ts : list nat) (m : machine S C L R) : list (nat * C * R) :=
  match ts with [] => [] | t :: ts => match step P t m with Some m' => entry t m ++ log_of ts m' | None => [] end end.

Inductive reaches (c : C) (a : S) : L -> S -> Prop :=
| reach_begin : reaches c a (begin P c) a
| reach_next l s s' l' : reaches c a l s -> go P l s = Next s' l' -> reaches c a l' s'.

Record lawful : Prop := {
  lock_used : forall c s, check P c s = None -> locked P c = true;
  good_kept : forall t c a a' r, good a -> allowed t c -> seq a c = Some (a', r) -> good a';
  quiet_return : forall t c a r, good a -> allowed t c -> check P c a = Some r -> seq a c = Some (a, r);
  quiet_enter : forall t c a, good a -> allowed t c -> check P c a = None -> ok c a;
  body : forall t c a l s, good a -> allowed t c -> ok c a -> reaches c a l s ->
    match go P l s with Next _ _ => True | Finish s' r => seq a c = Some (s', r) | Crash => seq a c = None end;
  mid_return : forall t u c d a l s r, good a -> t <> u -> allowed t c -> allowed u d -> ok d a -> reaches d a l s ->
    check P c s = Some r -> seq a c = Some (a, r);
  mid_enter : forall t u c d a l s s' r, good a -> t <> u -> allowed t c -> allowed u d -> ok d a -> reaches d a l s ->
    check P c s = None -> seq a d = Some (s', r) -> ok c s';
  stable : forall t u c d a s' r, good a -> t <> u -> allowed t c -> allowed u d -> ok c a -> seq a d = Some (s', r) -> ok c s' }.
Hypothesis law : lawful.

Definition busy (p : place C L R) : Prop := match p with Inside _ _ | Leaving _ _ => True | _ => False end.
Definition holds (m : machine S C L R) (a : S) : Prop :=
  match owner m with
  | None => shared m = a /\ forall t, ~ busy (at_ (threads m t))
  | Some u =>
      match at_ (threads m u) with
      | Inside d l => reaches d a l (shared m) /\ ok d a /\ allowed u d /\ locked P d = true
      | Leaving d _ => shared m = a /\ locked P d = true
      | _ => False
      end /\ forall t, t <> u -> ~ busy (at_ (threads m t))
  end.
(** what the threads that wait may rely on *)
Definition after (m : machine S C L R) (a : S) (c : C) : Prop :=
  match owner m with
  | None => ok c a
  | Some u => match at_ (threads m u) with Inside d _ => forall s' r, seq a d = Some (s', r) -> ok c s' | _ => ok c a end
  end.
Definition waits (m : machine S C L R) (a : S) : Prop :=
  forall t, match at_ (threads m t) with Waiting c => allowed t c /\ locked P c = true /\ after m a c | _ => True end.
Record inv (s0 : S) (m : machine S C L R) (log : list (nat * C * R)) (a : S) : Prop := {
  i_history : history seq s0 log a;
  i_good : good a;
  i_entries : forall t, mine t log = done_ (threads m t);
  i_todo : forall t, Forall (allowed t) (todo (threads m t));
  i_holds : holds m a;
  i_waits : waits m a }.

Lemma put_same (f : nat -> thread C L R) t x : put f t x t = x. Proof. unfold put. rewrite Nat.eqb_refl. reflexivity. Qed.
Lemma put_other (f : nat -> thread C L R) t x u : u <> t -> put f t x u = f u.
Proof. intros H. unfold put. destruct (Nat.eqb_spec u t); [contradiction|reflexivity]. Qed.

Lemma mine_app t (a b : list (nat * C * R)) : mine t (a ++ b) = mine t a ++ mine t b.
Proof. induction a as [|[[u c] r] a IH]; cbn [mine app]; [reflexivity|]. rewrite IH. destruct (Nat.eqb u t); reflexivity. Qed.
Lemma history_snoc s0 log a t c r a' : history seq s0 log a -> seq a c = Some (a', r) -> history seq s0 (log ++ [(t, c, r)]) a'.
Proof. induction 1; intros E; cbn [app]; [econstructor; [exact E|constructor]|econstructor; eauto]. Qed.

Lemma entries_put t u (log : list (nat * C * R)) (f : nat -> thread C L R) x : (forall v, mine v log = done_ (f v)) -> done_ x = done_ (f t) -> mine u log = done_ (put f t x u).
Proof. intros H E. unfold put. destruct (Nat.eqb_spec u t) as [->|]; [rewrite E|]; apply H. Qed.
Lemma entries_snoc t u (log : list (nat * C * R)) (f : nat -> thread C L R) x c r : (forall v, mine v log = done_ (f v)) -> done_ x = done_ (f t) ++ [(c, r)] ->
  mine u (log ++ [(t, c, r)]) = done_ (put f t x u).
Proof.
  intros H E. rewrite mine_app. cbn [mine]. unfold put. rewrite (Nat.eqb_sym t u). destruct (Nat.eqb_spec u t) as [->|].
  - rewrite E, H. reflexivity.
  - rewrite app_nil_r. apply H.
Qed.
Lemma todo_put t u (f : nat -> thread C L R) x : (forall v, Forall (allowed v) (todo (f v))) -> Forall (allowed t) (todo x) -> Forall (allowed u) (todo (put f t x u)).
Proof. intros H E. unfold put. destruct (Nat.eqb_spec u t) as [->|]; [exact E|apply H]. Qed.

(** a thread that is not in the object moves to another place that is not in it *)
Lemma owner_not_me m a t : holds m a -> ~ busy (at_ (threads m t)) -> owner m <> Some t.
Proof. intros H B E. unfold holds in H. rewrite E in H. destruct H as [H _]. destruct (at_ (threads m t)); cbn [busy] in B; tauto. Qed.
Lemma holds_put m a t x : holds m a -> ~ busy (at_ (threads m t)) -> ~ busy (at_ x) -> holds (mkMachine (shared m) (owner m) (put (threads m) t x)) a.
Proof.
  intros H B B'. pose proof (owner_not_me _ _ _ H B) as N. unfold holds in *. cbn [owner shared threads]. destruct (owner m) as [u|].
  - assert (u <> t) by congruence. rewrite put_other by assumption. destruct H as [H K]. split; [exact H|]. intros v V. unfold put. destruct (Nat.eqb v t); [exact B'|apply K; exact V].
  - destruct H as [H K]. split; [exact H|]. intros v. unfold put. destruct (Nat.eqb v t); [exact B'|apply K].
Qed.
Lemma after_put m a t x c : owner m <> Some t -> after (mkMachine (shared m) (owner m) (put (threads m) t x)) a c = after m a c.
Proof. intros N. unfold after. cbn [owner threads]. destruct (owner m) as [u|]; [|reflexivity]. rewrite put_other by congruence. reflexivity. Qed.

Theorem step_inv s0 m log a t m' : inv s0 m log a -> step P t m = Some m' ->
  exists a', inv s0 m' (log ++ entry t m) a'.
Proof.
  intros [HH HG HE HT HL HW] ST. unfold step in ST. unfold entry.
  destruct (at_ (threads m t)) as [|c|c l|c r] eqn:At.
  - (* before a call *)
    destruct (todo (threads m t)) as [|c cs] eqn:TD; [discriminate|].
    pose proof (HT t) as HA. rewrite TD in HA. apply Forall_cons_iff in HA. destruct HA as [HA HA'].
    assert (NB : ~ busy (at_ (threads m t))) by (rewrite At; cbn; tauto).
    pose proof (owner_not_me _ _ _ HL NB) as NO.
    destruct (check P c (shared m)) as [r|] eqn:CK; injection ST as <-.
    + assert (SQ : seq a c = Some (a, r)).
      { unfold holds in HL. destruct (owner m) as [u|] eqn:O.
        - assert (u <> t) by congruence. destruct HL as [HL _]. destruct (at_ (threads m u)) as [|d|d l|d r'] eqn:Au; try contradiction.
          + destruct HL as (? & ? & ? & ?). eapply (mid_return law t u); eauto.
          + destruct HL as [SH ?]. rewrite SH in CK. eapply (quiet_return law t); eauto.
        - destruct HL as [SH _]. rewrite SH in CK. eapply (quiet_return law t); eauto. }
      exists a. constructor; cbn [threads].
      * eapply history_snoc; eauto.
      * exact HG.
      * intros u. apply entries_snoc; [exact HE|]. unfold done_. cbn [at_ got]. rewrite At, ?app_nil_r. reflexivity.
      * intros u. apply todo_put; [exact HT|exact HA'].
      * apply holds_put; [exact HL|exact NB|cbn; tauto].
      * intros u. cbn [threads]. destruct (Nat.eq_dec u t) as [->|D]; [rewrite put_same; exact I|]. rewrite put_other by exact D.
        specialize (HW u). destruct (at_ (threads m u)); try exact I. rewrite after_put by exact NO. exact HW.
    + rewrite app_nil_r. exists a. constructor; cbn [threads].
      * exact HH.
      * exact HG.
      * intros u. apply entries_put; [exact HE|]. unfold done_. cbn [at_ got]. rewrite At, ?app_nil_r. reflexivity.
      * intros u. apply todo_put; [exact HT|exact HA'].
      * apply holds_put; [exact HL|exact NB|cbn; tauto].
      * intros u. cbn [threads]. destruct (Nat.eq_dec u t) as [->|D].
        -- rewrite put_same. cbn [at_]. rewrite after_put by exact NO. split; [exact HA|]. split; [eapply (lock_used law); eauto|].
           unfold holds in HL. unfold after. destruct (owner m) as [v|] eqn:O.
           ++ assert (v <> t) by congruence. destruct HL as [HL _]. destruct (at_ (threads m v)) as [|d|d l|d r'] eqn:Av; try contradiction.
              ** destruct HL as (? & ? & ? & ?). intros s' r' E'. eapply (mid_enter law t v); eauto.
              ** destruct HL as [SH ?]. rewrite SH in CK. eapply (quiet_enter law t); eauto.
           ++ destruct HL as [SH _]. rewrite SH in CK. eapply (quiet_enter law t); eauto.
        -- rewrite put_other by exact D. specialize (HW u). destruct (at_ (threads m u)); try exact I. rewrite after_put by exact NO. exact HW.
  - (* the lock is taken *)
    pose proof (HW t) as HA. rewrite At in HA. destruct HA as (HA & LK & HO). cbn [at_] in ST. rewrite LK in ST.
    destruct (owner m) as [u|] eqn:O; [discriminate|]. injection ST as <-. rewrite app_nil_r.
    unfold holds in HL. rewrite O in HL. destruct HL as [SH NB]. unfold after in HO. rewrite O in HO.
    exists a. constructor; cbn [threads].
    + exact HH.
    + exact HG.
    + intros u. apply entries_put; [exact HE|]. unfold done_. cbn [at_ got]. rewrite At, ?app_nil_r. reflexivity.
    + intros u. apply todo_put; [exact HT|]. cbn [todo]. apply HT.
    + unfold holds. cbn [owner threads shared]. rewrite put_same. cbn [at_]. split.
      * rewrite SH. split; [constructor|]. auto.
      * intros u D. rewrite put_other by exact D. apply NB.
    + intros u. cbn [threads]. destruct (Nat.eq_dec u t) as [->|D]; [rewrite put_same; exact I|]. rewrite put_other by exact D.
      specialize (HW u). destruct (at_ (threads m u)) as [|e| |]; try exact I. destruct HW as (A1 & A2 & A3). split; [exact A1|]. split; [exact A2|].
      unfold after in *. cbn [owner threads]. rewrite put_same. cbn [at_]. rewrite O in A3. intros s' r' E'. eapply (stable law u t); eauto.
  - (* the statements of the call *)
    assert (OW : owner m = Some t).
    { unfold holds in HL. destruct (owner m) as [u|] eqn:O.
      - destruct (Nat.eq_dec u t) as [->|D]; [reflexivity|]. destruct HL as [_ K]. exfalso. apply (K t); [congruence|rewrite At; exact I].
      - destruct HL as [_ K]. exfalso. apply (K t). rewrite At. exact I. }
    unfold holds in HL. rewrite OW in HL. rewrite At in HL. destruct HL as [(RE & OK & AL & LK) NB].
    pose proof (body law _ _ _ _ _ HG AL OK RE) as BD.
    destruct (go P l (shared m)) as [s' l'|s' r|] eqn:G; [| |discriminate]; injection ST as <-.
    + rewrite app_nil_r. exists a. constructor; cbn [threads].
      * exact HH.
      * exact HG.
      * intros u. apply entries_put; [exact HE|]. unfold done_. cbn [at_ got]. rewrite At, ?app_nil_r. reflexivity.
      * intros u. apply todo_put; [exact HT|]. cbn [todo]. apply HT.
      * unfold holds. cbn [owner threads shared]. rewrite OW, put_same. cbn [at_]. split; [|intros u D; rewrite put_other by exact D; apply NB; exact D].
        split; [econstructor; eauto|]. auto.
      * intros u. cbn [threads]. destruct (Nat.eq_dec u t) as [->|D]; [rewrite put_same; exact I|]. rewrite put_other by exact D.
        specialize (HW u). destruct (at_ (threads m u)) as [|e| |]; try exact I. unfold after in *. cbn [owner threads]. rewrite OW in *. rewrite put_same. cbn [at_]. rewrite At in HW. exact HW.
    + exists s'. constructor; cbn [threads].
      * eapply history_snoc; eauto.
      * eapply (good_kept law); eauto.
      * intros u. apply entries_snoc; [exact HE|]. unfold done_. cbn [at_ got]. rewrite At, ?app_nil_r. reflexivity.
      * intros u. apply todo_put; [exact HT|]. cbn [todo]. apply HT.
      * unfold holds. cbn [owner threads shared]. rewrite OW, put_same. cbn [at_]. split; [auto|]. intros u D; rewrite put_other by exact D; apply NB; exact D.
      * intros u. cbn [threads]. destruct (Nat.eq_dec u t) as [->|D]; [rewrite put_same; exact I|]. rewrite put_other by exact D.
        specialize (HW u). destruct (at_ (threads m u)) as [|e| |]; try exact I. unfold after in *. cbn [owner threads]. rewrite OW in *. rewrite put_same. cbn [at_]. rewrite At in HW.
        destruct HW as (A1 & A2 & A3). split; [exact A1|]. split; [exact A2|]. eapply A3; eauto.
  - (* the lock is given back *)
    assert (OW : owner m = Some t).
    { unfold holds in HL. destruct (owner m) as [u|] eqn:O.
      - destruct (Nat.eq_dec u t) as [->|D]; [reflexivity|]. destruct HL as [_ K]. exfalso. apply (K t); [congruence|rewrite At; exact I].
      - destruct HL as [_ K]. exfalso. apply (K t). rewrite At. exact I. }
    unfold holds in HL. rewrite OW in HL. rewrite At in HL. destruct HL as [(SH & LK) NB]. rewrite LK in ST. injection ST as <-.
    rewrite app_nil_r. exists a. constructor; cbn [threads].
    + exact HH.
    + exact HG.
    + intros u. apply entries_put; [exact HE|]. unfold done_. cbn [at_ got]. rewrite At, ?app_nil_r. reflexivity.
    + intros u. apply todo_put; [exact HT|]. cbn [todo]. apply HT.
    + unfold holds. cbn [owner threads shared]. split; [exact SH|]. intros u. destruct (Nat.eq_dec u t) as [->|D]; [rewrite put_same; cbn; tauto|]. rewrite put_other by exact D. apply NB; exact D.
    + intros u. cbn [threads]. destruct (Nat.eq_dec u t) as [->|D]; [rewrite put_same; exact I|]. rewrite put_other by exact D.
      specialize (HW u). destruct (at_ (threads m u)) as [|e| |]; try exact I. unfold after in *. cbn [owner]. rewrite OW, At in HW. exact HW.
Qed.

Lemma start_inv s0 f : good s0 -> (forall t, Forall (allowed t) (f t)) -> inv s0 (start s0 f) [] s0.
Proof.
  intros G A. constructor.
  - constructor.
  - exact G.
  - reflexivity.
  - exact A.
  - unfold holds. cbn. split; [reflexivity|tauto].
  - intros t. exact I.
Qed.

Lemma steps_inv s0 : forall ts m log a m', inv s0 m log a -> steps P ts m = Some m' -> exists a', inv s0 m' (log ++ log_of ts m) a'.
Proof.
  induction ts as [|t ts IH]; intros m log a m' I0 ST; cbn [steps log_of] in *.
  - injection ST as <-. rewrite app_nil_r. eauto.
  - destruct (step P t m) as [m1|] eqn:E; [|discriminate]. destruct (step_inv _ _ _ _ _ _ I0 E) as [a1 I1].
    destruct (IH _ _ _ _ I1 ST) as [a2 I2]. exists a2. rewrite app_assoc. exact I2.
Qed.

Lemma log_snoc : forall ts t m m', steps P ts m = Some m' -> log_of (ts ++ [t]) m = log_of ts m ++ match step P t m' with Some _ => entry t m' | None => [] end.
Proof.
  induction ts as [|u ts IH]; intros t m m' ST; cbn [steps log_of app] in *.
  - injection ST as <-. destruct (step P t m); [apply app_nil_r|reflexivity].
  - destruct (step P u m) as [m1|]; [|discriminate]. rewrite (IH _ _ _ ST), app_assoc. reflexivity.
Qed.
Lemma steps_snoc : forall ts t m m', steps P (ts ++ [t]) m = Some m' -> exists m1, steps P ts m = Some m1 /\ step P t m1 = Some m'.
Proof.
  induction ts as [|u ts IH]; intros t m m' ST; cbn [steps app] in *.
  - exists m. split; [reflexivity|]. destruct (step P t m); congruence.
  - destruct (step P u m) as [m1|]; [|discriminate]. apply IH; exact ST.
Qed.
Lemma entry_small t m : entry t m = [] \/ exists c r, entry t m = [(t, c, r)].
Proof.
  unfold entry. destruct (at_ (threads m t)).
  - destruct (todo (threads m t)); [left; reflexivity|]. destruct (check P c (shared m)); [right; eauto|left; reflexivity].
  - left; reflexivity.
  - destruct (go P l (shared m)); [left; reflexivity|right; eauto|left; reflexivity].
  - left; reflexivity.
Qed.

Lemma log_length : forall ts m, length (log_of ts m) <= length ts.
Proof.
  induction ts as [|t ts IH]; intros m; cbn [log_of length]; [lia|]. destruct (step P t m) as [m'|]; [|cbn; lia]. rewrite app_length. specialize (IH m').
  destruct (entry_small t m) as [->|(c & r & ->)]; cbn [length]; lia.
Qed.

Theorem in_some_order s0 f : good s0 -> (forall t, Forall (allowed t) (f t)) -> linearizable P seq s0 f.
Proof.
  intros G A. exists (fun ts => log_of ts (start s0 f)). split; [reflexivity|]. split.
  - intros ts t m ST. apply steps_snoc in ST. destruct ST as (m1 & S1 & S2). rewrite (log_snoc _ _ _ _ S1), S2.
    destruct (entry_small t m1) as [->|(c & r & ->)]; [left; apply app_nil_r|right; eauto].
  - intros ts m ST. destruct (steps_inv s0 ts _ [] s0 _ (start_inv _ _ G A) ST) as [a [HH HG HE HT HL HW]]. cbn [app] in *.
    exists a. split; [exact HH|]. split; [|exact HE]. intros O. unfold holds in HL. rewrite O in HL. apply HL.
Qed.

Theorem only_sequential_crashes s0 f : good s0 -> (forall t, Forall (allowed t) (f t)) -> crashes_sequentially P seq s0 f.
Proof.
  intros G A ts m t ST (c & l & At & GO).
  destruct (steps_inv s0 ts _ [] s0 _ (start_inv _ _ G A) ST) as [a [HH HG HE HT HL HW]]. cbn [app] in *.
  exists (log_of ts (start s0 f)), a, c. split; [exact HH|]. split; [apply log_length|]. split.
  - intros u. rewrite HE. reflexivity.
  - assert (OW : owner m = Some t).
    { unfold holds in HL. destruct (owner m) as [u|] eqn:O.
      - destruct (Nat.eq_dec u t) as [->|D]; [reflexivity|]. destruct HL as [_ K]. exfalso. apply (K t); [congruence|rewrite At; exact I].
      - destruct HL as [_ K]. exfalso. apply (K t). rewrite At. exact I. }
    unfold holds in HL. rewrite OW, At in HL. destruct HL as [(RE & OK & AL & LK) _].
    pose proof (body law _ _ _ _ _ HG AL OK RE) as B. rewrite GO in B. split; [eauto|exact B].
Qed.

Theorem no_deadlock s0 f : good s0 -> (forall t, Forall (allowed t) (f t)) -> progress P s0 f.
Proof.
  intros G A ts m t ST NF.
  destruct (steps_inv s0 ts _ [] s0 _ (start_inv _ _ G A) ST) as [a [HH HG HE HT HL HW]].
  assert (IN : forall u, busy (at_ (threads m u)) -> step P u m <> None \/ crashes P u m).
  { intros u B. unfold step, crashes. destruct (at_ (threads m u)) as [| |c l|c r]; cbn [busy] in B; try contradiction; [|left; discriminate].
    destruct (go P l (shared m)) eqn:E; [left; discriminate|left; discriminate|right; eauto]. }
  destruct (at_ (threads m t)) as [|c|c l|c r] eqn:At.
  - left. unfold step. rewrite At. destruct (todo (threads m t)); [exfalso; apply NF; split; reflexivity|]. destruct (check P c (shared m)); discriminate.
  - destruct (owner m) as [u|] eqn:O.
    + right. exists u. split; [reflexivity|]. apply IN. unfold holds in HL. rewrite O in HL. destruct HL as [HL _].
      destruct (at_ (threads m u)); try contradiction; exact I.
    + left. unfold step. rewrite At, O. destruct (locked P c); discriminate.
  - destruct (IN t) as [K|K]; [rewrite At; exact I|left; exact K|]. right. exists t.
    split; [|right; exact K].
    unfold holds in HL. destruct (owner m) as [u|] eqn:O.
    + destruct (Nat.eq_dec u t) as [->|D]; [reflexivity|]. destruct HL as [_ K']. exfalso. apply (K' t); [congruence|rewrite At; exact I].
    + destruct HL as [_ K']. exfalso. apply (K' t). rewrite At. exact I.
  - left. unfold step. rewrite At. discriminate.
Qed.
End Proof.

(** ** The number of steps *)
Section Rank.
Context {S C L R : Type}.
Variable P : code S C L R.
Variable rank : L -> nat.
Variable bound : nat.
Hypothesis rank_begin : forall c, rank (begin P c) < bound.
Hypothesis rank_next : forall l s s' l', go P l s = Next s' l' -> rank l' < rank l.
Definition left_ (x : thread C L R) : nat :=
  (bound + 3) * length (todo x) + match at_ x with Between => 0 | Waiting _ => bound + 2 | Inside _ l => rank l + 2 | Leaving _ _ => 1 end.
Lemma step_left t m m' : step P t m = Some m' -> left_ (threads m' t) < left_ (threads m t) /\ forall u, u <> t -> threads m' u = threads m u.
Proof.
  unfold step. intros ST. split.
  - unfold left_. destruct (at_ (threads m t)) as [|c|c l|c r] eqn:At.
    + destruct (todo (threads m t)) as [|c cs]; [discriminate|]. destruct (check P c (shared m)); injection ST as <-; cbn [threads]; rewrite put_same; cbn [todo at_ length]; lia.
    + cbv zeta in ST. pose proof (rank_begin c). destruct (locked P c); [destruct (owner m); [discriminate|]|]; injection ST as <-; cbn [threads]; rewrite put_same; cbn [todo at_]; lia.
    + destruct (go P l (shared m)) as [s' l'|s' r|] eqn:G; [| |discriminate]; injection ST as <-; cbn [threads]; rewrite put_same; cbn [todo at_]; [apply rank_next in G|]; lia.
    + injection ST as <-; cbn [threads]; rewrite put_same; cbn [todo at_]; lia.
  - intros u D. destruct (at_ (threads m t)) as [|c|c l|c r] eqn:At.
    + destruct (todo (threads m t)) as [|c cs]; [discriminate|]. destruct (check P c (shared m)); injection ST as <-; cbn [threads]; apply put_other; exact D.
    + cbv zeta in ST. destruct (locked P c); [destruct (owner m); [discriminate|]|]; injection ST as <-; cbn [threads]; apply put_other; exact D.
    + destruct (go P l (shared m)) as [s' l'|s' r|] eqn:G; [| |discriminate]; injection ST as <-; cbn [threads]; apply put_other; exact D.
    + injection ST as <-; cbn [threads]; apply put_other; exact D.
Qed.
Theorem few_steps : forall ts m m' t, steps P ts m = Some m' -> count_occ Nat.eq_dec ts t <= left_ (threads m t).
Proof.
  induction ts as [|u ts IH]; intros m m' t ST; cbn [steps count_occ] in *; [lia|].
  destruct (step P u m) as [m1|] eqn:E; [|discriminate]. specialize (IH _ _ t ST). destruct (step_left _ _ _ E) as [A B].
  destruct (Nat.eq_dec u t) as [->|D]; [lia|]. rewrite B in IH by congruence. exact IH.
Qed.
Theorem steps_bounded s f : bounded P (bound + 3) s f.
Proof. intros ts m t ST. pose proof (few_steps _ _ _ t ST) as H. unfold left_, start in H. cbn [threads todo at_] in H. lia. Qed.
End Rank.

(** ** A call that has the object to itself *)
Section Alone.
Context {S C L R : Type}.
Variable P : code S C L R.
Variable rank : L -> nat.
Variable mid : S -> Prop.
Hypothesis rank_next : forall l s s' l', mid s -> go P l s = Next s' l' -> mid s' /\ rank l' < rank l.
Fixpoint alone (fuel : nat) (l : L) (s : S) : option (S * R) :=
  match fuel with
  | O => None
  | Datatypes.S fuel => match go P l s with Next s l => alone fuel l s | Finish s r => Some (s, r) | Crash => None end
  end.
Lemma alone_more : forall n l s k, mid s -> rank l < n -> n <= k -> alone k l s = alone n l s.
Proof.
  induction n as [|n IH]; intros l s k M A B; [lia|]. destruct k as [|k]; [lia|]. cbn [alone]. destruct (go P l s) as [s' l'|s' r|] eqn:G; try reflexivity.
  destruct (rank_next _ _ _ _ M G). apply IH; [assumption|lia|lia].
Qed.
Lemma reaches_alone c a l s n : mid a -> reaches P c a l s -> rank (begin P c) < n -> mid s /\ rank l <= rank (begin P c) /\ alone n (begin P c) a = alone n l s.
Proof.
  intros M RE A. induction RE as [|l s s' l' RE IH G]; [auto|]. destruct IH as (M1 & R1 & E). destruct (rank_next _ _ _ _ M1 G) as [M2 R2]. split; [exact M2|]. split; [lia|].
  rewrite E. destruct n as [|n]; [lia|]. transitivity (alone n l' s'); [cbn [alone]; rewrite G; reflexivity|]. symmetry. apply alone_more; [assumption|lia|lia].
Qed.
Lemma body_alone c a l s n x : mid a -> reaches P c a l s -> rank (begin P c) < n -> alone n (begin P c) a = x ->
  match go P l s with Next _ _ => True | Finish s' r => x = Some (s', r) | Crash => x = None end.
Proof.
  intros M RE A <-. destruct (reaches_alone _ _ _ _ n M RE A) as (_ & R1 & ->). destruct n as [|n]; [lia|]. cbn [alone]. destruct (go P l s); auto.
Qed.
(** what the statements keep is kept by the call *)
Lemma alone_keeps (Q : S -> Prop) (in_ : L -> Prop) :
  (forall l s, in_ l -> Q s -> match go P l s with Next s' l' => in_ l' /\ Q s' | Finish s' _ => Q s' | Crash => True end) ->
  forall n l s s' r, in_ l -> Q s -> alone n l s = Some (s', r) -> Q s'.
Proof.
  intros K. induction n as [|n IH]; intros l s s' r I0 Q0 E; [discriminate|]. cbn [alone] in E. specialize (K l s I0 Q0).
  destruct (go P l s) as [s1 l1|s1 r1|]; [|injection E as <- <-; exact K|discriminate]. destruct K as [K1 K2]. exact (IH _ _ _ _ K1 K2 E).
Qed.
Lemma reaches_keeps (Q : S -> Prop) (in_ : L -> Prop) c a :
  (forall l s, in_ l -> Q s -> match go P l s with Next s' l' => in_ l' /\ Q s' | Finish s' _ => Q s' | Crash => True end) ->
  in_ (begin P c) -> Q a -> forall l s, reaches P c a l s -> in_ l /\ Q s.
Proof.
  intros K I0 Q0 l s RE. induction RE as [|l s s' l' RE IH G]; [auto|]. destruct IH as [I1 Q1]. specialize (K l s I1 Q1). rewrite G in K. exact K.
Qed.
End Alone.
