(** C294-C295: the file of the log in the hands of many threads (LogCloseModel.v). *)
From Coq Require Import Arith NArith Bool Lia List.
From Verif Require Import Base Outcome LogCloseModel.
Import ListNotations.

(** threads between their locks *)
Definition logging (p : pc) : bool := match p with Idle | Wait _ | CWait | CTest | CEnd | CClose | CForget | CLeave => false | _ => true end.
Definition closing (p : pc) : bool := match p with CTest | CEnd | CClose | CForget | CLeave => true | _ => false end.
Definition busy (p : pc) : bool := logging p || closing p.
(** no thread closes the log while another one logs *)
Definition apart (s : state) : Prop := forall t u, logging (pcs s t) = true -> closing (pcs s u) = true -> False.
Fixpoint always (P : state -> Prop) (s : state) (schedule : list (nat * call * bool)) : Prop :=
  P s /\ match schedule with
         | [] => True
         | (t, c, b) :: schedule => forall s', step s t c b = Ok s' -> always P s' schedule
         end.
(** specification of a file: a start, events, and an end once it is closed *)
Definition unfinished (l : list item) : Prop := exists xs, l = Start :: map Event xs.
Definition finished (l : list item) : Prop := exists xs, l = Start :: map Event xs ++ [End].
Definition texts (l : list item) : list N := flat_map (fun i => match i with Event x => [x] | _ => [] end) l.
(** the events in all files, in order *)
Definition told (o : nat -> list item) (n : nat) : list N := flat_map (fun k => texts (o k)) (seq 0 n).
Definition ended (s : state) (n : nat) : Prop := forall j, j < n -> opened s j = false /\ finished (outs s j).
Definition current (s : state) : Prop :=
  exists k, field s = Some k /\ count s = S k /\ opened s k = true /\ unfinished (outs s k) /\ ended s k.
Definition at_rest (s : state) : Prop := current s \/ field s = None /\ ended s (count s).

Definition good (s : state) (p : pc) : Prop :=
  match p with
  | Idle | Wait _ | Sized _ | Opens _ | Leave _ | CWait | CTest | CLeave => at_rest s
  | Stat _ | Ending _ | Write _ | Flush _ | CEnd => current s
  | Closing _ | CClose => exists k, field s = Some k /\ count s = S k /\ opened s k = true /\ finished (outs s k) /\ ended s k
  | Forget _ | CForget => ended s (count s)
  | Open _ => field s = None /\ ended s (count s)
  | Head _ => exists k, field s = Some k /\ count s = S k /\ opened s k = true /\ outs s k = [] /\ ended s k
  end.
Definition pending (p : pc) : list N := match p with Flush x | Leave x => [x] | _ => [] end.
Definition core (s : state) (p : pc) : Prop :=
  good s p /\ told (outs s) (count s) = returned s ++ pending p /\ (forall k, count s <= k -> outs s k = []).
Record inv (s : state) : Prop := {
  inv_event : forall t, logging (pcs s t) = true <-> event_lock s = Some t;
  inv_log : forall t, closing (pcs s t) = true <-> log_lock s = Some t;
  inv_busy : forall t, busy (pcs s t) = true -> core s (pcs s t);
  inv_quiet : (forall t, busy (pcs s t) = false) -> core s Idle }.

Local Arguments told : simpl never.
Local Arguments upd : simpl never.

Lemma told_S : forall o k, told o (S k) = told o k ++ texts (o k).
Proof. intros o k. unfold told. rewrite seq_S, flat_map_app. cbn [flat_map plus]. rewrite app_nil_r. reflexivity. Qed.
Lemma told_ext : forall o o' n, (forall j, j < n -> o j = o' j) -> told o n = told o' n.
Proof. intros o o' n. induction n; intros H; [reflexivity|]. rewrite !told_S, IHn, H by (intros; try apply H; lia). reflexivity. Qed.
Lemma texts_app : forall a c, texts (a ++ c) = texts a ++ texts c.
Proof. intros a c. apply flat_map_app. Qed.
Lemma upd_same {A} (f : nat -> A) k v : upd f k v k = v.
Proof. unfold upd. now rewrite Nat.eqb_refl. Qed.
Lemma upd_other {A} (f : nat -> A) k v j : j <> k -> upd f k v j = f j.
Proof. intros N. unfold upd. now rewrite (proj2 (Nat.eqb_neq _ _) N). Qed.

Lemma inv_start : inv at_start.
Proof.
  constructor; cbn; try (intros t; split; discriminate); try discriminate. intros _. repeat split. right. split; [reflexivity|]. intros j L. cbn in L. lia.
Qed.
Lemma only : forall s t, inv s -> apart s -> busy (pcs s t) = true -> forall u, u <> t -> busy (pcs s u) = false.
Proof.
  intros s t I A B u N. destruct (busy (pcs s u)) eqn:C; [|reflexivity]. exfalso. unfold busy in B, C. apply orb_true_iff in B, C.
  destruct I as [E L _ _]. destruct B as [B|B], C as [C|C]; [|exact (A _ _ B C)|exact (A _ _ C B)|].
  - apply E in B, C. congruence.
  - apply L in B, C. congruence.
Qed.
(** the next state, when all others are not busy *)
Lemma make : forall s t, (forall u, logging (pcs s u) = true <-> event_lock s = Some u) -> (forall u, closing (pcs s u) = true <-> log_lock s = Some u) ->
  (forall u, u <> t -> busy (pcs s u) = false) -> core s (pcs s t) -> inv s.
Proof.
  intros s t E L O C. constructor; [exact E|exact L| |].
  - intros u B. destruct (Nat.eq_dec u t) as [->|N]; [exact C|]. rewrite O in B by exact N. discriminate.
  - intros Q. specialize (Q t). destruct (pcs s t); try discriminate; exact C.
Qed.
(** the locks after a step of t *)
Lemma keep : forall (s : state) (t : nat) (p : pc) (f : pc -> bool) (l : option nat), (forall u, f (pcs s u) = true <-> l = Some u) ->
  f p = f (pcs s t) -> forall u, f (upd (pcs s) t p u) = true <-> l = Some u.
Proof. intros s t p f l H E u. destruct (Nat.eq_dec u t) as [->|N]; [rewrite upd_same, E; apply H|rewrite upd_other by exact N; apply H]. Qed.
Lemma take : forall (s : state) (t : nat) (p : pc) (f : pc -> bool) (l : option nat), (forall u, f (pcs s u) = true <-> l = Some u) -> l = None ->
  f p = true -> forall u, f (upd (pcs s) t p u) = true <-> Some t = Some u.
Proof.
  intros s t p f l H Z E u. destruct (Nat.eq_dec u t) as [->|N]; [rewrite upd_same, E; tauto|]. rewrite upd_other by exact N. rewrite H, Z. split; [discriminate|congruence].
Qed.
Lemma give : forall (s : state) (t : nat) (p : pc) (f : pc -> bool) (l : option nat), (forall u, f (pcs s u) = true <-> l = Some u) -> f (pcs s t) = true ->
  f p = false -> forall u, f (upd (pcs s) t p u) = true <-> None = Some u.
Proof.
  intros s t p f l H Z E u. split; [|discriminate]. destruct (Nat.eq_dec u t) as [->|N]; [rewrite upd_same, E; discriminate|]. rewrite upd_other by exact N.
  intros B. apply H in B, Z. congruence.
Qed.

Lemma step_busy : forall s t c b, inv s -> apart s -> busy (pcs s t) = true -> exists s', step s t c b = Ok s' /\ inv s'.
Proof.
  intros s t c b I A B. assert (O := only s t I A B). destruct (inv_busy s I t B) as (G & T & Z). pose proof (inv_event s I) as E. pose proof (inv_log s I) as L.
  assert (O' : forall p u, u <> t -> busy (upd (pcs s) t p u) = false) by (intros p u N; rewrite upd_other by exact N; apply O; exact N).
  unfold step. destruct (pcs s t) as [|x|x|x|x|x|x|x|x|x|x|x|x| | | | | |] eqn:P; try discriminate; cbn [good pending] in G, T; rewrite ?app_nil_r in T.
  - (* Sized *) eexists. split; [reflexivity|]. apply (make _ t); cbn.
    + apply keep; [exact E|rewrite P; now destruct (field s)].
    + apply keep; [exact L|rewrite P; now destruct (field s)].
    + apply O'.
    + rewrite upd_same. destruct G as [G|G]; [destruct G as (k & F & G)|destruct G as (F & G)]; rewrite F; (split; [|split; [cbn; rewrite ?app_nil_r; exact T|exact Z]]).
      * exists k. exact (conj F G).
      * right. exact (conj F G).
  - (* Stat *) assert (G0 := G). destruct G as (k & F & C & Op & G). unfold stream. rewrite F, Op. cbn [bind]. eexists. split; [reflexivity|]. apply (make _ t); cbn.
    + apply keep; [exact E|rewrite P; now destruct b].
    + apply keep; [exact L|rewrite P; now destruct b].
    + apply O'.
    + rewrite upd_same. destruct b; (split; [|split; [cbn; rewrite ?app_nil_r; exact T|exact Z]]); [exact G0|left; exact G0].
  - (* Ending *) destruct G as (k & F & C & Op & (xs & G) & D). unfold fprintf, stream. rewrite F, Op. cbn [bind]. eexists. split; [reflexivity|]. apply (make _ t); cbn.
    + apply keep; [exact E|rewrite P; reflexivity].
    + apply keep; [exact L|rewrite P; reflexivity].
    + apply O'.
    + rewrite upd_same. split; [|split]; cbn.
      * exists k. repeat split; try assumption; [cbn; rewrite upd_same, G; exists xs; reflexivity|apply D; assumption|cbn; rewrite upd_other by lia; apply D; assumption].
      * rewrite app_nil_r, <- T, C, !told_S, upd_same, texts_app, app_nil_r. f_equal. apply told_ext. intros j Lj. apply upd_other. lia.
      * intros j Lj. rewrite upd_other by lia. apply Z; exact Lj.
  - (* Closing *) destruct G as (k & F & C & Op & G & D). unfold fclose, stream. rewrite F, Op. cbn [bind]. eexists. split; [reflexivity|]. apply (make _ t); cbn.
    + apply keep; [exact E|rewrite P; reflexivity].
    + apply keep; [exact L|rewrite P; reflexivity].
    + apply O'.
    + rewrite upd_same. split; [|split; [cbn; rewrite ?app_nil_r; exact T|exact Z]]. cbn. rewrite C. intros j Lj. cbn. destruct (Nat.eq_dec j k) as [->|N]; [rewrite upd_same; split; [reflexivity|exact G]|].
      rewrite upd_other by exact N. apply D. lia.
  - (* Forget *) eexists. split; [reflexivity|]. apply (make _ t); cbn.
    + apply keep; [exact E|rewrite P; reflexivity].
    + apply keep; [exact L|rewrite P; reflexivity].
    + apply O'.
    + rewrite upd_same. split; [|split; [cbn; rewrite ?app_nil_r; exact T|exact Z]]. right. split; [reflexivity|exact G].
  - (* Opens *) eexists. split; [reflexivity|]. apply (make _ t); cbn.
    + apply keep; [exact E|rewrite P; now destruct (field s)].
    + apply keep; [exact L|rewrite P; now destruct (field s)].
    + apply O'.
    + rewrite upd_same. destruct G as [G|G]; [destruct G as (k & F & G)|destruct G as (F & G)]; rewrite F; (split; [|split; [cbn; rewrite ?app_nil_r; exact T|exact Z]]).
      * exists k. exact (conj F G).
      * exact (conj F G).
  - (* Open *) destruct G as (F & D). destruct b; eexists; (split; [reflexivity|]); apply (make _ t); cbn.
    + apply keep; [exact E|rewrite P; reflexivity].
    + apply keep; [exact L|rewrite P; reflexivity].
    + apply O'.
    + rewrite upd_same. split; [|split]; cbn.
      * exists (count s). repeat split; [apply upd_same|apply Z; lia|cbn; rewrite upd_other by lia; apply D; assumption|apply D; assumption].
      * rewrite told_S, Z by lia. cbn. rewrite !app_nil_r. exact T.
      * intros j Lj. apply Z. lia.
    + apply (give s t Idle logging (event_lock s)); [exact E|rewrite P; reflexivity|reflexivity].
    + apply keep; [exact L|rewrite P; reflexivity].
    + apply O'.
    + rewrite upd_same. split; [right; exact (conj F D)|split; [cbn; rewrite ?app_nil_r; exact T|exact Z]].
  - (* Head *) destruct G as (k & F & C & Op & G & D). unfold fprintf, stream. rewrite F, Op. cbn [bind]. eexists. split; [reflexivity|]. apply (make _ t); cbn.
    + apply keep; [exact E|rewrite P; reflexivity].
    + apply keep; [exact L|rewrite P; reflexivity].
    + apply O'.
    + rewrite upd_same. split; [|split]; cbn.
      * exists k. repeat split; try assumption; [cbn; rewrite upd_same, G; exists []; reflexivity|apply D; assumption|cbn; rewrite upd_other by lia; apply D; assumption].
      * rewrite app_nil_r, <- T, C, !told_S, upd_same, texts_app, app_nil_r. f_equal. apply told_ext. intros j Lj. apply upd_other. lia.
      * intros j Lj. rewrite upd_other by lia. apply Z; exact Lj.
  - (* Write *) destruct G as (k & F & C & Op & (xs & G) & D). unfold fprintf, stream. rewrite F, Op. cbn [bind]. eexists. split; [reflexivity|]. apply (make _ t); cbn.
    + apply keep; [exact E|rewrite P; reflexivity].
    + apply keep; [exact L|rewrite P; reflexivity].
    + apply O'.
    + rewrite upd_same. split; [|split]; cbn.
      * exists k. repeat split; try assumption; [cbn; rewrite upd_same, G; exists (xs ++ [x]); rewrite map_app; reflexivity|apply D; assumption|cbn; rewrite upd_other by lia; apply D; assumption].
      * rewrite <- T, C, !told_S, upd_same, texts_app, app_assoc. f_equal. f_equal. apply told_ext. intros j Lj. apply upd_other. lia.
      * intros j Lj. rewrite upd_other by lia. apply Z; exact Lj.
  - (* Flush *) assert (G0 := G). destruct G as (k & F & C & Op & G). unfold stream. rewrite F, Op. cbn [bind]. eexists. split; [reflexivity|]. apply (make _ t); cbn.
    + apply keep; [exact E|rewrite P; reflexivity].
    + apply keep; [exact L|rewrite P; reflexivity].
    + apply O'.
    + rewrite upd_same. split; [left; exact G0|split; [cbn; exact T|exact Z]].
  - (* Leave *) eexists. split; [reflexivity|]. apply (make _ t); cbn.
    + apply (give s t Idle logging (event_lock s)); [exact E|rewrite P; reflexivity|reflexivity].
    + apply keep; [exact L|rewrite P; reflexivity].
    + apply O'.
    + rewrite upd_same. split; [exact G|split; [cbn; rewrite ?app_nil_r; exact T|exact Z]].
  - (* CTest *) eexists. split; [reflexivity|]. apply (make _ t); cbn.
    + apply keep; [exact E|rewrite P; now destruct (field s)].
    + apply keep; [exact L|rewrite P; now destruct (field s)].
    + apply O'.
    + rewrite upd_same. destruct G as [G|G]; [destruct G as (k & F & G)|destruct G as (F & G)]; rewrite F; (split; [|split; [cbn; rewrite ?app_nil_r; exact T|exact Z]]).
      * exists k. exact (conj F G).
      * right. exact (conj F G).
  - (* CEnd *) destruct G as (k & F & C & Op & (xs & G) & D). unfold fprintf, stream. rewrite F, Op. cbn [bind]. eexists. split; [reflexivity|]. apply (make _ t); cbn.
    + apply keep; [exact E|rewrite P; reflexivity].
    + apply keep; [exact L|rewrite P; reflexivity].
    + apply O'.
    + rewrite upd_same. split; [|split]; cbn.
      * exists k. repeat split; try assumption; [cbn; rewrite upd_same, G; exists xs; reflexivity|apply D; assumption|cbn; rewrite upd_other by lia; apply D; assumption].
      * rewrite app_nil_r, <- T, C, !told_S, upd_same, texts_app, app_nil_r. f_equal. apply told_ext. intros j Lj. apply upd_other. lia.
      * intros j Lj. rewrite upd_other by lia. apply Z; exact Lj.
  - (* CClose *) destruct G as (k & F & C & Op & G & D). unfold fclose, stream. rewrite F, Op. cbn [bind]. eexists. split; [reflexivity|]. apply (make _ t); cbn.
    + apply keep; [exact E|rewrite P; reflexivity].
    + apply keep; [exact L|rewrite P; reflexivity].
    + apply O'.
    + rewrite upd_same. split; [|split; [cbn; rewrite ?app_nil_r; exact T|exact Z]]. cbn. rewrite C. intros j Lj. cbn. destruct (Nat.eq_dec j k) as [->|N]; [rewrite upd_same; split; [reflexivity|exact G]|].
      rewrite upd_other by exact N. apply D. lia.
  - (* CForget *) eexists. split; [reflexivity|]. apply (make _ t); cbn.
    + apply keep; [exact E|rewrite P; reflexivity].
    + apply keep; [exact L|rewrite P; reflexivity].
    + apply O'.
    + rewrite upd_same. split; [|split; [cbn; rewrite ?app_nil_r; exact T|exact Z]]. right. split; [reflexivity|exact G].
  - (* CLeave *) eexists. split; [reflexivity|]. apply (make _ t); cbn.
    + apply keep; [exact E|rewrite P; reflexivity].
    + apply (give s t Idle closing (log_lock s)); [exact L|rewrite P; reflexivity|reflexivity].
    + apply O'.
    + rewrite upd_same. split; [exact G|split; [cbn; rewrite ?app_nil_r; exact T|exact Z]].
Qed.

Lemma step_idle : forall s t c b, inv s -> busy (pcs s t) = false -> exists s', step s t c b = Ok s' /\ (apart s' -> inv s').
Proof.
  intros s t c b I B. pose proof (inv_event s I) as E. pose proof (inv_log s I) as L.
  assert (Same : forall p, busy p = false -> inv (goto s t p)).
  { intros p Bp. unfold busy in B, Bp. apply orb_false_iff in B, Bp. destruct B as [B1 B2], Bp as [P1 P2]. constructor; cbn.
    - apply keep; [exact E|rewrite B1; exact P1].
    - apply keep; [exact L|rewrite B2; exact P2].
    - intros u Bu. destruct (Nat.eq_dec u t) as [->|N]; [rewrite upd_same in Bu; unfold busy in Bu; rewrite P1, P2 in Bu; discriminate|].
      rewrite upd_other in * by exact N. exact (inv_busy s I u Bu).
    - intros Q. apply (inv_quiet s I). intros u. destruct (Nat.eq_dec u t) as [->|N]; [unfold busy; rewrite B1, B2; reflexivity|].
      specialize (Q u). rewrite upd_other in Q by exact N. exact Q. }
  unfold step. destruct (pcs s t) as [|x| | | | | | | | | | | | | | | | |] eqn:P; try discriminate.
  - destruct c; (eexists; split; [reflexivity|intros _; apply Same; reflexivity]).
  - destruct (event_lock s) as [u|] eqn:El; [eexists; split; [reflexivity|intros _; exact I]|]. eexists. split; [reflexivity|]. intros A.
    assert (Q : forall u, busy (pcs s u) = false).
    { intros u. destruct (busy (pcs s u)) eqn:Bu; [|reflexivity]. exfalso. unfold busy in Bu. apply orb_true_iff in Bu. destruct Bu as [Bu|Bu]; [apply E in Bu; congruence|].
      apply (A t u); cbn; [rewrite upd_same; reflexivity|]. destruct (Nat.eq_dec u t) as [->|N]; [rewrite P in Bu; discriminate|rewrite upd_other by exact N; exact Bu]. }
    apply (make _ t); cbn.
    + apply (take s t _ logging None); [exact E|reflexivity|reflexivity].
    + apply keep; [exact L|rewrite P; reflexivity].
    + intros u N. rewrite upd_other by exact N. apply Q.
    + rewrite upd_same. exact (inv_quiet s I Q).
  - destruct (log_lock s) as [u|] eqn:El; [eexists; split; [reflexivity|intros _; exact I]|]. eexists. split; [reflexivity|]. intros A.
    assert (Q : forall u, busy (pcs s u) = false).
    { intros u. destruct (busy (pcs s u)) eqn:Bu; [|reflexivity]. exfalso. unfold busy in Bu. apply orb_true_iff in Bu. destruct Bu as [Bu|Bu]; [|apply L in Bu; congruence].
      apply (A u t); cbn; [|rewrite upd_same; reflexivity]. destruct (Nat.eq_dec u t) as [->|N]; [rewrite P in Bu; discriminate|rewrite upd_other by exact N; exact Bu]. }
    apply (make _ t); cbn.
    + apply keep; [exact E|rewrite P; reflexivity].
    + apply (take s t _ closing None); [exact L|reflexivity|reflexivity].
    + intros u N. rewrite upd_other by exact N. apply Q.
    + rewrite upd_same. exact (inv_quiet s I Q).
Qed.
Lemma run_inv : forall schedule s, inv s -> always apart s schedule -> exists s', run s schedule = Ok s' /\ inv s'.
Proof.
  induction schedule as [|[[t c] b] schedule IH]; intros s I A; [exists s; split; [reflexivity|exact I]|]. destruct A as [A0 A]. cbn [run].
  destruct (busy (pcs s t)) eqn:B.
  - destruct (step_busy s t c b I A0 B) as (s' & E & I'). rewrite E. cbn [bind]. apply IH; [exact I'|apply A; exact E].
  - destruct (step_idle s t c b I B) as (s' & E & I'). rewrite E. cbn [bind]. specialize (A s' E). apply IH; [|exact A]. apply I'. destruct schedule as [|[[? ?] ?] ?]; exact (proj1 A).
Qed.

(** C294: however the steps of the threads interleave, if none closes the log while another logs, no closed stream and no NULL is
    used; once the calls have returned, every file is a start, events and, but for the one that is open, an end; and the
    events in the files are those whose calls returned WizardTrue, each once, in the order in which they returned *)
Definition sound (s : state) : Prop :=
  (forall k, k < count s -> if opened s k then field s = Some k /\ S k = count s /\ unfinished (outs s k) else finished (outs s k)) /\
  (forall k, field s = Some k -> opened s k = true) /\
  told (outs s) (count s) = returned s.
Lemma rest_sound : forall s, core s Idle -> sound s.
Proof.
  intros s (G & T & Z). cbn in T. rewrite app_nil_r in T. split; [|split; [|exact T]].
  - intros k Lk. destruct G as [(j & F & C & Op & U & D)|(F & D)].
    + destruct (Nat.eq_dec k j) as [->|N]; [rewrite Op; repeat split; [exact F|lia|exact U]|]. destruct (D k ltac:(lia)) as [-> Fi]. exact Fi.
    + destruct (D k Lk) as [-> Fi]. exact Fi.
  - intros k F. destruct G as [(j & F' & C & Op & U & D)|(F' & D)]; congruence.
Qed.
Theorem log_apart : forall schedule, always apart at_start schedule ->
  exists s, run at_start schedule = Ok s /\ ((forall t, busy (pcs s t) = false) -> sound s).
Proof.
  intros schedule A. destruct (run_inv schedule at_start inv_start A) as (s & R & I). exists s. split; [exact R|]. intros Q. apply rest_sound. exact (inv_quiet s I Q).
Qed.
(** C294: in particular if the log is never closed, whatever the threads *)
Definition logs_only (e : nat * call * bool) : Prop := match e with (_, Log _, _) => True | (_, Close, _) => False end.
Definition open_threads (s : state) : Prop := forall t, pcs s t <> CWait /\ closing (pcs s t) = false.
Lemma step_open : forall s t x b s', open_threads s -> step s t (Log x) b = Ok s' -> open_threads s'.
Proof.
  intros s t x b s' O E.
  assert (K : forall s1 p, pcs s1 = pcs s -> p <> CWait -> closing p = false -> open_threads (goto s1 t p)).
  { intros s1 p Es N C u. cbn. rewrite Es. destruct (Nat.eq_dec u t) as [->|Nu]; [rewrite upd_same; exact (conj N C)|rewrite upd_other by exact Nu; apply O]. }
  unfold step, fprintf, fclose, stream in E. destruct (O t) as [O1 O2].
  destruct (pcs s t) eqn:P; try discriminate; try (exfalso; apply O1; reflexivity);
    repeat match type of E with context [match ?d with _ => _ end] => destruct d eqn:? end; cbn [bind] in E; try discriminate;
    injection E as <-; try exact O; apply K; try reflexivity; discriminate.
Qed.
Theorem log_loggers : forall schedule, Forall logs_only schedule ->
  exists s, run at_start schedule = Ok s /\ ((forall t, busy (pcs s t) = false) -> sound s).
Proof.
  intros schedule F. apply log_apart. assert (O : open_threads at_start) by (intros t; split; [discriminate|reflexivity]).
  revert O. generalize at_start. induction F as [|[[t c] b] l H F IH]; intros s O.
  - split; [|exact I]. intros t u _ C. destruct (O u) as [_ C']. congruence.
  - split; [intros t' u _ C; destruct (O u) as [_ C']; congruence|]. intros s' E. apply IH. destruct c as [x|]; [|destruct H]. exact (step_open _ _ _ _ _ O E).
Qed.
(** C294: or if one thread does all that is done *)
Lemma step_others : forall s t c b s', step s t c b = Ok s' -> forall u, u <> t -> pcs s' u = pcs s u.
Proof.
  intros s t c b s' E u N. unfold step, fprintf, fclose, stream in E.
  destruct (pcs s t) eqn:P; repeat match type of E with context [match ?d with _ => _ end] => destruct d eqn:? end; cbn [bind] in E; try discriminate;
    injection E as <-; cbn; try reflexivity; apply upd_other; exact N.
Qed.
Lemma one_apart : forall t schedule, Forall (fun e => fst (fst e) = t) schedule -> always apart at_start schedule.
Proof.
  intros t schedule F. assert (O : forall u, u <> t -> pcs at_start u = Idle) by reflexivity. revert O. generalize at_start.
  assert (A : forall s, (forall u, u <> t -> pcs s u = Idle) -> apart s).
  { intros s O a c La Lc. destruct (Nat.eq_dec a t) as [->|N]; [|rewrite O in La by exact N; discriminate].
    destruct (Nat.eq_dec c t) as [->|N]; [|rewrite O in Lc by exact N; discriminate]. destruct (pcs s t); discriminate. }
  induction F as [|[[t' c] b] l H F IH]; intros s O; (split; [apply A; exact O|]); [exact I|]. cbn in H. subst t'.
  intros s' E. apply IH. intros u N. rewrite (step_others _ _ _ _ _ E u N). apply O. exact N.
Qed.
Theorem log_single : forall t schedule, Forall (fun e => fst (fst e) = t) schedule ->
  exists s, run at_start schedule = Ok s /\ ((forall t, busy (pcs s t) = false) -> sound s).
Proof. intros t schedule F. apply log_apart. exact (one_apart t schedule F). Qed.
(** C294: and a thread that closes the log while nobody logs leaves no file open and every file ended, with the same events *)
Theorem log_closed : forall s t b, inv s -> (forall u, busy (pcs s u) = false) -> pcs s t = Idle ->
  exists s', run s (repeat (t, Close, b) (if field s then 7 else 4)) = Ok s' /\ pcs s' t = Idle /\
    field s' = None /\ (forall k, k < count s' -> opened s' k = false /\ finished (outs s' k)) /\
    count s' = count s /\ returned s' = returned s /\ told (outs s') (count s') = returned s'.
Proof.
  intros s t b I Q P. destruct (inv_quiet s I Q) as (G & T & Z). cbn in T. rewrite app_nil_r in T.
  assert (Lk : log_lock s = None).
  { destruct (log_lock s) as [u|] eqn:E; [|reflexivity]. apply (inv_log s I) in E. specialize (Q u). unfold busy in Q. rewrite E, orb_true_r in Q. discriminate. }
  destruct G as [(k & F & C & Op & (xs & U) & D)|(F & D)]; rewrite F.
  - cbn [repeat]. cbn. unfold step at 1. rewrite P. cbn.
    unfold step at 1. cbn. rewrite upd_same, ?Lk. cbn.
    unfold step at 1. cbn. rewrite upd_same, ?F. cbn.
    unfold step at 1. cbn. rewrite upd_same. unfold fprintf, stream. cbn. rewrite ?F, ?Op. cbn.
    unfold step at 1. cbn. rewrite upd_same. unfold fclose, stream. cbn. rewrite ?F, ?Op. cbn.
    unfold step at 1. cbn. rewrite upd_same. cbn.
    unfold step at 1. cbn. rewrite upd_same. cbn.
    eexists. split; [reflexivity|]. cbn. rewrite upd_same. repeat split.
    + destruct (Nat.eq_dec k0 k) as [->|N]; [apply upd_same|]. rewrite upd_other by exact N. apply D. lia.
    + destruct (Nat.eq_dec k0 k) as [->|N]; [rewrite upd_same, U; exists xs; reflexivity|]. rewrite upd_other by exact N. apply D. lia.
    + rewrite <- T, C, !told_S, upd_same, texts_app, app_nil_r. f_equal. apply told_ext. intros j Lj. apply upd_other. lia.
  - cbn [repeat]. cbn. unfold step at 1. rewrite P. cbn.
    unfold step at 1. cbn. rewrite upd_same, ?Lk. cbn.
    unfold step at 1. cbn. rewrite upd_same, ?F. cbn.
    unfold step at 1. cbn. rewrite upd_same. cbn.
    eexists. split; [reflexivity|]. cbn. rewrite upd_same. repeat split; try assumption; apply D; assumption.
Qed.

(** two threads log, the file is rotated in between, then closed and opened again *)
Definition some_schedule : list (nat * call * bool) :=
  repeat (1, Log 10%N, true) 3 ++ repeat (2, Log 20%N, true) 3 ++ repeat (1, Log 10%N, true) 6 ++ repeat (2, Log 20%N, true) 12.
Example log_loggers_meets : Forall logs_only some_schedule /\
  exists s, run at_start some_schedule = Ok s /\ returned s = [10%N; 20%N] /\ count s = 2 /\
    outs s 0 = [Start; Event 10%N; End] /\ outs s 1 = [Start; Event 20%N] /\ pcs s 1 = Idle /\ pcs s 2 = Idle.
Proof. split; [repeat constructor|]. eexists. split; [vm_compute; reflexivity|]. repeat split. Qed.
Example log_single_meets : let schedule := repeat (1, Log 10%N, true) 9 ++ repeat (1, Close, true) 7 ++ repeat (1, Log 30%N, true) 9 in
  always apart at_start schedule /\ exists s, run at_start schedule = Ok s /\ outs s 0 = [Start; Event 10%N; End] /\ outs s 1 = [Start; Event 30%N].
Proof. split; [apply (one_apart 1); repeat constructor|]. eexists. split; [vm_compute; reflexivity|]. split; reflexivity. Qed.
Example log_closed_meets : exists s, run at_start (some_schedule ++ repeat (3, Close, true) 7 ++ repeat (1, Log 30%N, true) 9) = Ok s /\
  outs s 1 = [Start; Event 20%N; End] /\ outs s 2 = [Start; Event 30%N] /\ returned s = [10%N; 20%N; 30%N].
Proof. eexists. split; [vm_compute; reflexivity|]. repeat split. Qed.

(** C295: CloseWizardLog takes another lock than LogWizardEventList: the log is closed under the hands of a thread that writes *)
Theorem log_close_refuted : exists before, (exists s, run at_start before = Ok s /\ sound s) /\
  (** the stream that is written to is closed *)
  run at_start (before ++ repeat (1, Log 11%N, false) 5 ++ repeat (2, Close, true) 5 ++ [(1, Log 11%N, false)]) = UB /\
  (** or it is NULL *)
  run at_start (before ++ repeat (1, Log 11%N, false) 5 ++ repeat (2, Close, true) 7 ++ [(1, Log 11%N, false)]) = UB /\
  (** or both close it *)
  run at_start (before ++ repeat (1, Log 11%N, true) 5 ++ repeat (2, Close, true) 5 ++ [(1, Log 11%N, true)]) = UB.
Proof.
  exists (repeat (1, Log 10%N, true) 9). split; [|repeat split; vm_compute; reflexivity].
  eexists. split; [vm_compute; reflexivity|]. split; [|split; [|vm_compute; reflexivity]].
  - intros k Lk. destruct k; [|cbn in Lk; lia]. vm_compute. repeat split. exists [10%N]. reflexivity.
  - intros k H. injection H as <-. vm_compute. reflexivity.
Qed.
(** C295: also without undefined behaviour the file can be spoilt: two ends *)
Theorem log_spoilt_refuted : exists schedule s, run at_start schedule = Ok s /\ outs s 0 = [Start; Event 10%N; End; End].
Proof.
  exists (repeat (1, Log 10%N, true) 9 ++ repeat (1, Log 11%N, true) 5 ++ repeat (2, Close, true) 4). eexists. split; [vm_compute; reflexivity|reflexivity].
Qed.
(** C295: when the file cannot be opened, the text of the event is not freed *)
Theorem log_text_lost_refuted : forall s t x, inv s -> (forall u, busy (pcs s u) = false) -> pcs s t = Idle -> field s = None ->
  exists s', run s (repeat (t, Log x, false) 5) = Ok s' /\ pcs s' t = Idle /\ lost s' = S (lost s) /\ returned s' = returned s.
Proof.
  intros s t x I Q P F.
  assert (Lk : event_lock s = None).
  { destruct (event_lock s) as [u|] eqn:E; [|reflexivity]. apply (inv_event s I) in E. specialize (Q u). unfold busy in Q. rewrite E in Q. discriminate. }
  cbn [repeat]. cbn. unfold step at 1. rewrite P. cbn.
  unfold step at 1. cbn. rewrite upd_same, ?Lk. cbn.
  unfold step at 1. cbn. rewrite upd_same, ?F. cbn.
  unfold step at 1. cbn. rewrite upd_same, ?F. cbn.
  unfold step at 1. cbn. rewrite upd_same. cbn.
  eexists. split; [reflexivity|]. cbn. rewrite upd_same. repeat split.
Qed.

Print Assumptions log_apart.
Print Assumptions log_loggers.
Print Assumptions log_single.
Print Assumptions log_closed.
Print Assumptions log_close_refuted.
Print Assumptions log_spoilt_refuted.
Print Assumptions log_text_lost_refuted.
