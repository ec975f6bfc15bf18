(** What starting and ending the library leaves behind, and what becomes of signals. *)
From Coq Require Import Bool Arith Lia List.
From Verif Require Import LifeModel.
Import ListNotations.

(** * C142: what is started is ended *)
Lemma component_eqb_spec a b : reflect (a = b) (component_eqb a b).
Proof. destruct a, b; constructor; congruence. Qed.
(** acquired is relinquished or there; a cache is there only with its semaphore *)
Definition balanced (s : life) : Prop :=
  forall c, taken s c = given s c + (if semaphore s c then 1 else 0) /\ (cache s c = true -> semaphore s c = true).
Lemma balanced_activate c s : balanced s -> balanced (activate c s) /\ semaphore (activate c s) c = true.
Proof.
  intros B. unfold activate. destruct (semaphore s c) eqn:E; [now split|]. split.
  - intros d. specialize (B d). cbn. unfold set. destruct (component_eqb_spec d c) as [->|]; [|exact B]. rewrite E in B. split; [lia|]. intros; reflexivity.
  - cbn. unfold set. destruct (component_eqb_spec c c); congruence.
Qed.
Lemma balanced_load c s : semaphore s c = true -> balanced s -> balanced (load c s).
Proof. intros E B d. specialize (B d). cbn. unfold set. destruct (component_eqb_spec d c) as [->|]; [|exact B]. split; [apply B|auto]. Qed.
Lemma balanced_use c s : balanced s -> balanced (use c s).
Proof. intros B. unfold use. destruct (cache s c); [exact B|]. destruct (balanced_activate c s B). now apply balanced_load. Qed.
Lemma balanced_terminus c s : balanced s -> balanced (terminus c s).
Proof.
  intros B. destruct (balanced_activate c s B) as [B1 E]. intros d. specialize (B1 d). unfold terminus. cbn. unfold set.
  destruct (component_eqb_spec d c) as [->|]; [|exact B1]. rewrite E in B1. split; [lia|discriminate].
Qed.
Lemma balanced_running b s : balanced s -> balanced (set_running b s).
Proof. intros B. exact B. Qed.
Lemma balanced_do s o s' : balanced s -> do s o = Some s' -> balanced s'.
Proof.
  intros B H. destruct o; cbn in H.
  - injection H as <-. unfold genesis. destruct (running s); [exact B|]. apply balanced_running. repeat (apply balanced_activate). apply balanced_use. now apply balanced_activate.
  - injection H as <-. unfold ending. destruct (running s); [|exact B]. apply balanced_running. now repeat apply balanced_terminus.
  - injection H as <-. now apply balanced_use.
  - unfold unique_file in H. destruct (random_info s || semaphore s Resource); [|discriminate]. injection H as <-.
    match goal with |- balanced (load _ (activate _ ?s0)) => assert (balanced s0) as B0 by exact B; destruct (balanced_activate Resource s0 B0) end. now apply balanced_load.
Qed.
(** Whatever is called and in which order, a component has one semaphore at most, and nothing is relinquished twice. *)
Theorem life_balanced l : forall s s', balanced s -> history l s = Some s' -> balanced s'.
Proof.
  induction l as [|o l IH]; intros s s' B H; cbn [history] in H; [injection H as <-; exact B|]. destruct (do s o) as [s1|] eqn:E; [|discriminate].
  apply (IH s1 s'); [|exact H]. eapply balanced_do; eassumption.
Qed.
Theorem life_bounded l s : history l born = Some s -> forall c, given s c <= taken s c <= S (given s c).
Proof. intros H c. assert (balanced s) as B by (eapply life_balanced; [|exact H]; intros d; now split). destruct (B c) as [E _]. destruct (semaphore s c); lia. Qed.
(** Starting twice is starting once. *)
Theorem genesis_again s : genesis (genesis s) = genesis s.
Proof.
  unfold genesis at 2 3. destruct (running s) eqn:R; [unfold genesis; now rewrite R|]. unfold genesis. reflexivity.
Qed.
Theorem ending_again s : ending (ending s) = ending s.
Proof. unfold ending at 2 3. destruct (running s) eqn:R; [unfold ending; reflexivity|unfold ending; now rewrite R]. Qed.
Lemma running_semaphore b s : semaphore (set_running b s) = semaphore s.
Proof. reflexivity. Qed.
Lemma running_cache b s : cache (set_running b s) = cache s.
Proof. reflexivity. Qed.
Lemma load_semaphore c s : semaphore (load c s) = semaphore s.
Proof. reflexivity. Qed.
Lemma activate_self c s : semaphore (activate c s) c = true.
Proof. unfold activate. destruct (semaphore s c) eqn:E; [exact E|]. cbn. unfold set. destruct (component_eqb_spec c c); congruence. Qed.
Lemma activate_running c s : running (activate c s) = running s.
Proof. unfold activate. now destruct (semaphore s c). Qed.
Lemma terminus_self c s : semaphore (terminus c s) c = false /\ cache (terminus c s) c = false.
Proof. unfold terminus. cbn. unfold set. destruct (component_eqb_spec c c); [auto|congruence]. Qed.
Lemma terminus_gone c d s : semaphore s d = false /\ cache s d = false -> semaphore (terminus c s) d = false /\ cache (terminus c s) d = false.
Proof.
  intros [A B]. unfold terminus. cbn. unfold set. destruct (component_eqb_spec d c) as [->|N]; [auto|]. unfold activate. destruct (semaphore s c); [auto|]. cbn. unfold set.
  destruct (component_eqb_spec d c); [contradiction|auto].
Qed.
(** After the end the log, random numbers, resources and types have left nothing. *)
Theorem ending_clean l s : history l born = Some s -> running s = true ->
  forall c, In c [Log; Random; Resource; Mime] -> semaphore (ending s) c = false /\ cache (ending s) c = false /\ taken (ending s) c = given (ending s) c.
Proof.
  intros H R c C. assert (history (l ++ [Terminus]) born = Some (ending s)) as H1.
  { clear R C. revert H. generalize born. induction l as [|o l IH]; intros b H; cbn [app history] in *; [now injection H as <-|]. destruct (do b o); [now apply IH|discriminate]. }
  assert (balanced (ending s)) as B by (eapply life_balanced; [|exact H1]; intros d; now split). destruct (B c) as [E _].
  assert (semaphore (ending s) c = false /\ cache (ending s) c = false) as [S0 C0].
  { unfold ending. rewrite R. rewrite running_semaphore, running_cache. destruct C as [<-|[<-|[<-|[<-|[]]]]];
    repeat (first [apply terminus_self|apply terminus_gone]). }
  rewrite S0 in E. repeat split; try assumption. lia.
Qed.
(** REFUTED for the configuration, and for messages: neither is ended. *)
Lemma activate_other c d s : semaphore s d = true -> semaphore (activate c s) d = true.
Proof. intros H. unfold activate. destruct (semaphore s c); [exact H|]. cbn. unfold set. destruct (component_eqb_spec d c); auto. Qed.
Lemma terminus_other c d s : d <> c -> semaphore s d = true -> semaphore (terminus c s) d = true.
Proof. intros N H. unfold terminus. cbn. unfold set. destruct (component_eqb_spec d c); [contradiction|]. now apply activate_other. Qed.
Lemma keep_do s o s' d : d = Configure \/ d = Locale -> semaphore s d = true -> do s o = Some s' -> semaphore s' d = true.
Proof.
  intros D S0 H. destruct o; cbn in H.
  - injection H as <-. unfold genesis. destruct (running s); [exact S0|]. rewrite running_semaphore. repeat apply activate_other. unfold use.
    destruct (cache _ _); [|rewrite load_semaphore]; repeat apply activate_other; exact S0.
  - injection H as <-. unfold ending. destruct (running s); [|exact S0]. rewrite running_semaphore. repeat (apply terminus_other; [destruct D; subst; discriminate|]). exact S0.
  - injection H as <-. unfold use. destruct (cache _ _); [exact S0|]. rewrite load_semaphore. now apply activate_other.
  - unfold unique_file in H. destruct (random_info s || semaphore s Resource); [|discriminate]. injection H as <-. rewrite load_semaphore. now apply activate_other.
Qed.
Theorem ending_configure_refuted l s : history (Genesis :: l) born = Some s -> semaphore (ending s) Configure = true /\ taken (ending s) Configure = S (given (ending s) Configure).
Proof.
  intros H. assert (semaphore s Configure = true) as S0.
  { cbn [history do] in H. assert (semaphore (genesis born) Configure = true) as G by (vm_compute; reflexivity). revert G H. generalize (genesis born).
    induction l as [|o l IH]; intros b G H; cbn [history] in H; [injection H as <-; exact G|]. destruct (do b o) as [b1|] eqn:E; [|discriminate]. apply (IH b1); [|exact H]. eapply keep_do; eauto. }
  assert (semaphore (ending s) Configure = true) as S1 by (apply (keep_do s Terminus); [now left|exact S0|reflexivity]). split; [exact S1|].
  assert (balanced (ending s)) as B by (apply (balanced_do s Terminus); [eapply life_balanced; [|exact H]; intros d; now split|reflexivity]).
  destruct (B Configure) as [E _]. rewrite S1 in E. lia.
Qed.
(** REFUTED: a temporary file before the library is started, or after it has ended, is an assertion that fails. *)
Lemma unique_file_none s : random_info s = false -> semaphore s Resource = false -> unique_file s = None.
Proof. intros A B. unfold unique_file. now rewrite A, B. Qed.
Theorem unique_file_refuted : history [UniqueFile] born = None /\ history [Genesis; Terminus; UniqueFile] born = None /\
  exists s, history [Genesis; UniqueFile; Terminus; UniqueFile] born = Some s.
Proof. split; [vm_compute; reflexivity|]. split; [vm_compute; reflexivity|]. eexists. cbn. reflexivity. Qed.
(** but it works at any time after a start that has not been ended *)
Theorem unique_file_running l s : history l born = Some s -> running s = true -> exists s', unique_file s = Some s'.
Proof.
  intros H R. assert (semaphore s Resource = true) as S0.
  { assert (forall l b, (running b = true -> semaphore b Resource = true) -> history l b = Some s -> running s = true -> semaphore s Resource = true) as G.
    { clear. induction l as [|o l IH]; intros b G H R; cbn [history] in H; [injection H as <-; auto|]. destruct (do b o) as [b1|] eqn:E; [|discriminate]. apply (IH b1); [|exact H|exact R].
      intros R1. destruct o; cbn in E.
      - injection E as <-. unfold genesis in *. destruct (running b) eqn:Rb; [auto|]. rewrite running_semaphore. apply activate_other.
        apply activate_self.
      - injection E as <-. unfold ending in R1. destruct (running b) eqn:Rb; [discriminate R1|congruence].
      - injection E as <-. unfold use in *. destruct (cache b c); [auto|]. rewrite load_semaphore. apply activate_other. apply G. change (running (activate c b) = true) in R1. now rewrite activate_running in R1.
      - unfold unique_file in E. destruct (random_info b || semaphore b Resource); [|discriminate]. injection E as <-. rewrite load_semaphore. apply activate_self. }
    apply (G l born); [discriminate|exact H|exact R]. }
  unfold unique_file. rewrite S0, orb_true_r. eauto.
Qed.
Definition numbers (s : life) := (running s, map (taken s) [Log; Random; Configure; Resource; Mime; Locale], map (given s) [Log; Random; Configure; Resource; Mime; Locale]).
Example life_ex : option_map numbers (history [Genesis; Use Mime; UniqueFile; Use Locale; Genesis; Terminus; Use Configure; Genesis; Terminus; Terminus] born)
  = Some (false, [2;2;1;2;2;1], [2;2;0;2;2;0]).
Proof. vm_compute. reflexivity. Qed.
Print Assumptions life_balanced.
Print Assumptions life_bounded.
Print Assumptions genesis_again.
Print Assumptions ending_again.
Print Assumptions ending_clean.
Print Assumptions ending_configure_refuted.
Print Assumptions unique_file_refuted.
Print Assumptions unique_file_running.

(** * C143: which signals are handled *)
Lemma at_same {A} (f : nat -> A) g v : at_signal f g v g = v.
Proof. unfold at_signal. now rewrite Nat.eqb_refl. Qed.
Lemma at_other {A} (f : nat -> A) g h v : h <> g -> at_signal f g v h = f h.
Proof. intros N. unfold at_signal. destruct (Nat.eqb_spec h g); congruence. Qed.
Lemma catch_other p g h : h <> g -> actions (catch p g) h = actions p h /\ blocked (catch p g) h = blocked p h /\ table (catch p g) h = table p h.
Proof.
  intros N. unfold catch, register, set_handler. destruct (is_default (table p g)); [|auto].
  destruct (is_default (to (actions p g))); cbn; rewrite ?at_other by exact N; auto.
Qed.
Lemma catch_all_other l : forall p h, ~ In h l -> actions (fold_left catch l p) h = actions p h /\ blocked (fold_left catch l p) h = blocked p h /\ table (fold_left catch l p) h = table p h.
Proof.
  induction l as [|g l IH]; intros p h N; cbn [fold_left]; [auto|]. destruct (IH (catch p g) h) as [A [B C]]; [cbn in N; tauto|]. rewrite A, B, C. apply catch_other. cbn in N. intros ->. tauto.
Qed.
Lemma catch_all_in l : forall p g, NoDup l -> In g l -> exists q, actions q g = actions p g /\ blocked q g = blocked p g /\ table q g = table p g /\
  actions (fold_left catch l p) g = actions (catch q g) g /\ blocked (fold_left catch l p) g = blocked (catch q g) g /\ table (fold_left catch l p) g = table (catch q g) g.
Proof.
  induction l as [|h l IH]; intros p g D H; [destruct H|]. inversion D as [|? ? N D1]; subst. cbn [fold_left]. destruct (Nat.eq_dec h g) as [->|X].
  - exists p. destruct (catch_all_other l (catch p g) g N) as [A [B C]]. rewrite A, B, C. repeat split; reflexivity.
  - destruct H as [E|H]; [contradiction|]. destruct (IH (catch p h) g D1 H) as [q [A [B [C R]]]]. destruct (catch_other p h g) as [A1 [B1 C1]]; [congruence|]. exists q. rewrite A, B, C. tauto.
Qed.
Lemma signals_nodup : NoDup signals.
Proof. repeat constructor; cbn; intuition discriminate. Qed.
(** the first start *)
Definition untouched (p : process) : Prop := forall g, table p g = Default.
(** A signal of the nine with its default action gets the handler of the library, any other action is kept; signals that are not of the nine are as they were. *)
Theorem signals_caught p g : untouched p -> In g signals ->
  to (actions (catch_all p) g) = (if is_default (to (actions p g)) then Wizard else to (actions p g)).
Proof.
  intros U H. destruct (catch_all_in signals p g signals_nodup H) as [q [A [B [C [D _]]]]]. unfold catch_all. rewrite D. rewrite <- A.
  unfold catch, register, set_handler. rewrite C, (U g). cbn [is_default]. destruct (is_default (to (actions q g))) eqn:E; cbn; rewrite ?at_same; reflexivity.
Qed.
Theorem signals_others p g : ~ In g signals -> actions (catch_all p) g = actions p g /\ blocked (catch_all p) g = blocked p g.
Proof. intros H. destruct (catch_all_other signals p g H) as [A [B _]]. auto. Qed.
(** The table keeps what was there. *)
Theorem signals_table p g : untouched p -> In g signals -> table (catch_all p) g = to (actions p g).
Proof.
  intros U H. destruct (catch_all_in signals p g signals_nodup H) as [q [A [B [C [_ [_ D]]]]]]. unfold catch_all. rewrite D. rewrite <- A.
  unfold catch, register, set_handler. rewrite C, (U g). cbn [is_default]. destruct (is_default (to (actions q g))) eqn:E; cbn; rewrite ?at_same; reflexivity.
Qed.
(** REFUTED: a handler of the program does not stay as it was: it takes one argument afterwards, interrupted calls fail, it may be interrupted by the signals it blocked;
    and a signal the program blocked is blocked no more. *)
Theorem handler_kept_refuted p g : untouched p -> In g signals ->
  siginfo (actions (catch_all p) g) = false /\ restart (actions (catch_all p) g) = false /\ mask (actions (catch_all p) g) = [g] /\ blocked (catch_all p) g = false.
Proof.
  intros U H. destruct (catch_all_in signals p g signals_nodup H) as [q [A [B [C [D [E _]]]]]]. unfold catch_all. rewrite D, E.
  unfold catch, register, set_handler. rewrite C, (U g). cbn [is_default]. destruct (is_default (to (actions q g))) eqn:F; cbn; rewrite ?at_same; auto.
Qed.
Print Assumptions signals_caught.
Print Assumptions signals_others.
Print Assumptions signals_table.
Print Assumptions handler_kept_refuted.

(** * C144: how a process ends *)
(** A signal the program handles or ignores still is. *)
Theorem signal_user have_exit p g n : untouched p -> In g signals -> to (actions p g) = User n -> deliver have_exit (catch_all p) g = Goes n.
Proof. intros U H E. unfold deliver. destruct (handler_kept_refuted p g U H) as [_ [_ [_ ->]]]. rewrite (signals_caught p g U H), E. reflexivity. Qed.
(** One with its default action removes the temporary files and exits, with its number as the status. *)
Theorem signal_exits p g : untouched p -> In g signals -> to (actions p g) = Default -> deliver false (catch_all p) g = Exits g true true.
Proof. intros U H E. unfold deliver. destruct (handler_kept_refuted p g U H) as [_ [_ [_ ->]]]. rewrite (signals_caught p g U H), E. reflexivity. Qed.
(** REFUTED: the parent is told of the signal.  The process exits as if nothing had happened, for every signal and in both variants. *)
Theorem signal_reported_refuted have_exit p g : untouched p -> In g signals -> to (actions p g) = Default -> blocked p g = false ->
  reported (deliver have_exit p g) = Died g /\ reported (deliver have_exit (catch_all p) g) = Status g.
Proof.
  intros U H E B. split; unfold deliver; [now rewrite B, E|]. destruct (handler_kept_refuted p g U H) as [_ [_ [_ ->]]]. rewrite (signals_caught p g U H), E. cbn [is_default].
  destruct (negb have_exit || exit_signal g); reflexivity.
Qed.
(** REFUTED: the exit handlers of the program run inside a signal handler, also when memory is corrupt. *)
Theorem signal_atexit_refuted p : untouched p -> to (actions p 11) = Default -> deliver false (catch_all p) 11 = Exits 11 true true /\ deliver true (catch_all p) 11 = Exits 11 true true.
Proof.
  intros U E. assert (In 11 signals) as H by (cbn; tauto). unfold deliver. destruct (handler_kept_refuted p 11 U H) as [_ [_ [_ ->]]]. rewrite (signals_caught p 11 U H), E. split; reflexivity.
Qed.
(** The end of the library touches no signal (wizard.c:334-350); a second start finds its own handler and takes it for one of the program. *)
Theorem signals_again_refuted p g : untouched p -> In g signals -> to (actions p g) = Default -> table (catch_all (catch_all p)) g = Wizard.
Proof.
  intros U H E. destruct (catch_all_in signals (catch_all p) g signals_nodup H) as [q [A [B [C [_ [_ D]]]]]]. unfold catch_all at 1. rewrite D.
  unfold catch, register, set_handler. rewrite C, (signals_table p g U H), E. cbn [is_default]. rewrite A, (signals_caught p g U H), E. cbn. now rewrite at_same.
Qed.
Definition program : process :=
  {| actions := fun g => if g =? 2 then {| to := User 7; siginfo := true; restart := true; mask := [2; 15] |} else {| to := Default; siginfo := false; restart := false; mask := [] |};
     blocked := fun g => g =? 15; table := fun _ => Default |}.
Example signal_ex : untouched program /\ deliver false (catch_all program) 2 = Goes 7 /\ deliver false (catch_all program) 6 = Exits 6 true true /\ deliver true (catch_all program) 6 = Exits 6 true false /\
  deliver false program 6 = Killed 6 /\ deliver false program 15 = Later /\ deliver false (catch_all program) 15 = Exits 15 true true /\ deliver false (catch_all program) 13 = Killed 13 /\
  siginfo (actions (catch_all program) 2) = false.
Proof. split; [intros g; reflexivity|]. repeat split; vm_compute; reflexivity. Qed.
Print Assumptions signal_user.
Print Assumptions signal_exits.
Print Assumptions signal_reported_refuted.
Print Assumptions signal_atexit_refuted.
Print Assumptions signals_again_refuted.
