(** C118-C121: what the list of exceptions holds and which handlers are called. *)
From Coq Require Import Arith NArith Lia ZifyBool ZifyN Bool String List.
From Verif Require Import ExceptionModel.
Import ListNotations.

(** ** Specification *)
(** two exceptions that a reader does not tell apart but for the case of letters *)
Definition fold_case (t : list N) : list N := map (fun c => if (65 <=? c)%N && (c <=? 90)%N then (c + 32)%N else c) t.
Definition alike (a c : element) : Prop :=
  severity a = severity c /\ option_map fold_case (reason a) = option_map fold_case (reason c) /\
  option_map fold_case (description a) = option_map fold_case (description c).
(** kept stands for thrown: the thrown exceptions fall into runs of alike ones, of each run
    the first is kept, and runs that follow each other are not alike *)
Fixpoint apart (l : list element) : Prop :=
  match l with a :: ((c :: _) as l') => ~ alike a c /\ apart l' | _ => True end.
Definition first_of_runs (thrown kept : list element) : Prop :=
  exists runs : list (element * list element),
    thrown = flat_map (fun r => fst r :: snd r) runs /\ kept = map fst runs /\
    Forall (fun r => Forall (alike (fst r)) (snd r)) runs /\ apart kept.

Definition throw (x : info) (e : element) : info := ThrowException x (severity e) (reason e) (description e).
Definition throw_all (x : info) (es : list element) : info := fold_left throw es x.

(** ** Proofs *)
Lemma equal_folded_iff p : forall q, equal_folded p q = true <-> fold_case p = fold_case q.
Proof.
  induction p as [|c p IH]; intros [|d q]; cbn; try (split; [discriminate|discriminate]); [tauto|].
  rewrite andb_true_iff, IH, N.eqb_eq. unfold lower. fold (fold_case p) (fold_case q). split; [intros (-> & ->); reflexivity|intros H; injection H as -> ->; now split].
Qed.
Lemma compare_iff p q : LocaleCompare0 p q = true <-> option_map fold_case p = option_map fold_case q.
Proof.
  destruct p as [p|], q as [q|]; cbn; try (split; intros; congruence). rewrite equal_folded_iff. split; [now intros ->|now intros [= ->]].
Qed.
Lemma alike_refl a : alike a a. Proof. now repeat split. Qed.
Lemma alike_trans a c e : alike a c -> alike c e -> alike a e.
Proof. unfold alike. intuition congruence. Qed.
Lemma alike_sym a c : alike a c -> alike c a.
Proof. unfold alike. intuition congruence. Qed.
Lemma last_snoc l e : last_value (l ++ [e]) = Some e.
Proof. induction l as [|a l IH]; [reflexivity|]. cbn. destruct (l ++ [e]) eqn:E; [now destruct l|]. exact IH. Qed.
Lemma list_rev_case {A} (l : list A) : l = [] \/ exists l' e, l = l' ++ [e].
Proof. induction l as [|a l _] using rev_ind; [now left|right; now exists l, a]. Qed.

(** the fields of the structure are those of the last exception in the list *)
Definition ready (x : info) : Prop :=
  match last_value (exceptions x) with
  | Some p => severity_of x = severity p /\ reason_of x = reason p /\ description_of x = description p
  | None => True
  end.
Lemma throw_spec x e : ready x ->
  (exists l p, exceptions x = l ++ [p] /\ alike p e /\ throw x e = x) \/
  ((forall l p, exceptions x = l ++ [p] -> ~ alike p e) /\
   throw x e = {| severity_of := severity e; reason_of := reason e; description_of := description e; exceptions := exceptions x ++ [e] |}).
Proof.
  intros R. unfold throw, ThrowException. destruct (list_rev_case (exceptions x)) as [E|(l & p & E)]; rewrite E in *.
  - right. split; [intros [|] ? H; discriminate H|]. cbn [last_value]. now destruct e.
  - unfold ready in R. rewrite E, last_snoc in R. destruct R as (_ & Rr & Rd). rewrite last_snoc, Rr, Rd.
    destruct (_ && _) eqn:K.
    + left. exists l, p. split; [reflexivity|split; [|reflexivity]]. rewrite !andb_true_iff, N.eqb_eq, !compare_iff in K. unfold alike. tauto.
    + right. split.
      * intros l' p' H. apply app_inj_tail in H. destruct H as (-> & ->). intros (A & B & C).
        rewrite <- compare_iff in B, C. rewrite <- N.eqb_eq in A. rewrite A, B, C in K. discriminate.
      * now destruct e.
Qed.
Lemma throw_ready x e : ready x -> ready (throw x e).
Proof.
  intros R. destruct (throw_spec x e R) as [(l & p & _ & _ & ->)|(_ & ->)]; [exact R|]. unfold ready. cbn. rewrite last_snoc. now repeat split.
Qed.
Lemma apart_snoc l e : apart l -> (forall l' p, l = l' ++ [p] -> ~ alike p e) -> apart (l ++ [e]).
Proof.
  induction l as [|a l IH]; intros A H; [exact I|]. destruct l as [|c l].
  - cbn. split; [|exact I]. apply (H [] a). reflexivity.
  - cbn [app apart] in *. destruct A as (A1 & A2). split; [exact A1|]. apply IH; [exact A2|]. intros l' p E. apply (H (a :: l') p). now rewrite E.
Qed.
Lemma runs_step x thrown e : ready x -> first_of_runs thrown (exceptions x) -> first_of_runs (thrown ++ [e]) (exceptions (throw x e)).
Proof.
  intros R (runs & T & K & F & A). destruct (throw_spec x e R) as [(l & p & E & Al & ->)|(N & ->)].
  - destruct (list_rev_case runs) as [->|(runs' & (h, r) & ->)]; [rewrite E in K; destruct l; discriminate K|].
    rewrite map_app in K. cbn in K. rewrite E in K. apply app_inj_tail in K. destruct K as (Kl & Kp). subst h.
    exists (runs' ++ [(p, r ++ [e])]). repeat split.
    + rewrite T, !flat_map_app. cbn. now rewrite !app_nil_r, <- !app_assoc.
    + rewrite map_app, E, Kl. reflexivity.
    + apply Forall_app in F. destruct F as (F1 & F2). apply Forall_app. split; [exact F1|]. apply Forall_cons; [|apply Forall_nil].
      cbn. apply Forall_app. split; [now inversion F2|]. apply Forall_cons; [exact Al|apply Forall_nil].
    + exact A.
  - exists (runs ++ [(e, [])]). cbn [exceptions]. repeat split.
    + now rewrite T, flat_map_app.
    + now rewrite map_app, K.
    + apply Forall_app. split; [exact F|]. apply Forall_cons; [apply Forall_nil|apply Forall_nil].
    + now apply apart_snoc.
Qed.
Lemma throw_all_runs es : forall x thrown, ready x -> first_of_runs thrown (exceptions x) ->
  first_of_runs (thrown ++ es) (exceptions (throw_all x es)) /\ ready (throw_all x es).
Proof.
  induction es as [|e es IH]; intros x thrown R F; [now rewrite app_nil_r|].
  change (throw_all x (e :: es)) with (throw_all (throw x e) es). replace (thrown ++ e :: es) with ((thrown ++ [e]) ++ es) by (now rewrite <- app_assoc).
  apply IH; [now apply throw_ready|now apply runs_step].
Qed.
Lemma new_ready : ready GetExceptionInfo. Proof. exact I. Qed.
Lemma new_runs : first_of_runs [] (exceptions GetExceptionInfo).
Proof. exists []. now repeat split. Qed.

(** ** C118: the list holds what was thrown, but for repetitions *)
Theorem throw_list : forall es, first_of_runs es (exceptions (throw_all GetExceptionInfo es)).
Proof. intros es. now apply (throw_all_runs es GetExceptionInfo [] new_ready new_runs). Qed.
Print Assumptions throw_list.
(** so every exception that was thrown is there, up to the case of letters, and nothing else *)
Lemma runs_in thrown kept e : first_of_runs thrown kept -> (In e thrown -> exists k, In k kept /\ alike k e) /\ (In e kept -> In e thrown).
Proof.
  intros (runs & -> & -> & F & _). split.
  - intros H. apply in_flat_map in H. destruct H as (r & Hr & [<-|He]).
    + exists (fst r). split; [now apply in_map|apply alike_refl].
    + exists (fst r). split; [now apply in_map|]. rewrite Forall_forall in F. specialize (F r Hr). rewrite Forall_forall in F. now apply F.
  - intros H. apply in_map_iff in H. destruct H as (r & <- & Hr). apply in_flat_map. exists r. split; [exact Hr|now left].
Qed.
Theorem throw_kept : forall es e,
  (In e es -> exists k, In k (exceptions (throw_all GetExceptionInfo es)) /\ alike k e) /\
  (In e (exceptions (throw_all GetExceptionInfo es)) -> In e es).
Proof. intros es e. apply runs_in, throw_list. Qed.
Print Assumptions throw_kept.
(** inheriting is throwing the exceptions of the relative one after the other *)
Theorem inherit_list : forall es fs,
  first_of_runs (es ++ exceptions (throw_all GetExceptionInfo fs)) (exceptions (InheritException (throw_all GetExceptionInfo es) (throw_all GetExceptionInfo fs))) /\
  (forall e, In e (es ++ fs) -> exists k, In k (exceptions (InheritException (throw_all GetExceptionInfo es) (throw_all GetExceptionInfo fs))) /\ alike k e).
Proof.
  intros es fs. set (r := throw_all GetExceptionInfo fs).
  assert (A : first_of_runs (es ++ exceptions r) (exceptions (InheritException (throw_all GetExceptionInfo es) r))).
  { change (InheritException (throw_all GetExceptionInfo es) r) with (throw_all (throw_all GetExceptionInfo es) (exceptions r)).
    destruct (throw_all_runs es GetExceptionInfo [] new_ready new_runs) as (F & R). now apply throw_all_runs. }
  split; [exact A|]. intros e He. apply in_app_iff in He. destruct He as [He|He].
  - apply (runs_in _ _ e A). apply in_app_iff. now left.
  - destruct (proj1 (throw_kept fs e) He) as (k & Hk & Al). destruct (proj1 (runs_in _ _ k A)) as (k' & Hk' & Al'); [apply in_app_iff; now right|].
    exists k'. split; [exact Hk'|]. now apply alike_trans with k.
Qed.
Print Assumptions inherit_list.
Definition an_error (s : N) (t : string) : element := {| severity := s; reason := Some (b t); description := None |}.
(** hypotheses: none; a list with a repetition *)
Example throw_example : exceptions (throw_all GetExceptionInfo [an_error 485 "no file"; an_error 485 "no file"; an_error 330 "x"; an_error 485 "no file"]) =
  [an_error 485 "no file"; an_error 330 "x"; an_error 485 "no file"].
Proof. vm_compute. reflexivity. Qed.
(** two files whose names differ in case are one exception *)
Theorem throw_case_refuted : exists e f, e <> f /\ In f [e; f] /\ ~ In f (exceptions (throw_all GetExceptionInfo [e; f])).
Proof.
  exists (an_error 485 "unable to open `A'"), (an_error 485 "unable to open `a'"). split; [discriminate|]. split; [right; now left|].
  vm_compute. intros [H|[]]. discriminate H.
Qed.
Print Assumptions throw_case_refuted.

(** ** C119: the fields of the structure are those of the last exception, up to case *)
Theorem severity_last : forall es e, let x := throw_all GetExceptionInfo (es ++ [e]) in
  severity_of x = severity e /\ option_map fold_case (reason_of x) = option_map fold_case (reason e) /\
  option_map fold_case (description_of x) = option_map fold_case (description e).
Proof.
  intros es e x. unfold x, throw_all. rewrite fold_left_app. cbn [fold_left]. fold (throw_all GetExceptionInfo es).
  destruct (throw_all_runs es GetExceptionInfo [] new_ready new_runs) as (_ & R).
  destruct (throw_spec _ e R) as [(l & p & E & (A & B & C) & ->)|(_ & ->)]; [|now repeat split].
  unfold ready in R. rewrite E, last_snoc in R. destruct R as (-> & -> & ->). now repeat split.
Qed.
Print Assumptions severity_last.
(** it is not the greatest severity: an error is hidden by a warning that follows *)
Theorem severity_greatest_refuted : exists es, (exists e, In e es /\ (FatalErrorException <= severity e)%N) /\ (severity_of (throw_all GetExceptionInfo es) < ErrorException)%N.
Proof. exists [an_error 785 "disk full"; an_error 330 "old"]. split; [exists (an_error 785 "disk full"); split; [now left|vm_compute; discriminate]|vm_compute; reflexivity]. Qed.
Print Assumptions severity_greatest_refuted.

(** ** C120: CatchException hands each exception to the handler of its class *)
Definition class (s : N) : option handler :=
  if (s <? 300)%N then None else if (s <? 400)%N then Some Warning else if (s <? 700)%N then Some Error else Some FatalError.
Definition own_call (e : element) : list call := match class (severity e) with Some h => [(h, e)] | None => [] end.
Lemma calls_low s p : (s < 700)%N -> (severity p < 700)%N -> calls_of s p = own_call p.
Proof.
  intros S P. unfold calls_of, own_call, class, WarningException, ErrorException, FatalErrorException.
  destruct (N.ltb_spec (severity p) 300), (N.ltb_spec (severity p) 400), (N.ltb_spec (severity p) 700), (N.leb_spec 300 (severity p)), (N.leb_spec 400 (severity p)),
    (N.leb_spec 700 s); try lia; reflexivity.
Qed.
(** proved when none of them is fatal *)
Theorem catch_calls_partial : forall es, Forall (fun e => (severity e < FatalErrorException)%N) es ->
  let x := throw_all GetExceptionInfo es in
  fst (CatchException x) = flat_map own_call (exceptions x) /\ snd (CatchException x) = GetExceptionInfo.
Proof.
  intros es F x. split; [|reflexivity]. cbn [CatchException fst].
  assert (Fx : Forall (fun e => (severity e < 700)%N) (exceptions x)).
  { rewrite Forall_forall in *. intros e He. apply F. now apply throw_kept. }
  assert (S : (severity_of x < 700)%N).
  { destruct (list_rev_case es) as [E|(l & e & E)]; subst es; [unfold x; cbn; lia|]. destruct (severity_last l e) as (H & _). unfold x. rewrite H.
    rewrite Forall_forall in F. apply F. apply in_app_iff. right. now left. }
  clearbody x. induction (exceptions x) as [|p l IH]; [reflexivity|]. cbn [flat_map]. inversion Fx; subst. rewrite calls_low by assumption. f_equal. now apply IH.
Qed.
Print Assumptions catch_calls_partial.
Example catch_example : fst (CatchException (throw_all GetExceptionInfo [an_error 330 "a"; an_error 485 "c"])) = [(Warning, an_error 330 "a"); (Error, an_error 485 "c")].
Proof. vm_compute. reflexivity. Qed.
(** whether the fatal handler is called depends on the last exception alone *)
Theorem catch_fatal : forall es e, let x := throw_all GetExceptionInfo (es ++ [e]) in
  ((FatalErrorException <= severity e)%N -> forall p, In p (exceptions x) -> In (FatalError, p) (fst (CatchException x))) /\
  ((severity e < FatalErrorException)%N -> forall p, ~ In (FatalError, p) (fst (CatchException x))).
Proof.
  intros es e x. destruct (severity_last es e) as (S & _). fold x in S. cbn [CatchException fst]. rewrite S. split.
  - intros G p Hp. apply in_flat_map. exists p. split; [exact Hp|]. unfold calls_of. destruct (N.leb_spec FatalErrorException (severity e)); [|lia].
    rewrite !in_app_iff. right. right. now left.
  - intros G p H. apply in_flat_map in H. destruct H as (q & _ & H). unfold calls_of in H. rewrite !in_app_iff in H.
    destruct (N.leb_spec FatalErrorException (severity e)); [lia|]. destruct H as [H|[H|H]]; [| |contradiction].
    + destruct (_ && _) in H; [destruct H as [H|[]]; discriminate H|contradiction].
    + destruct (_ && _) in H; [destruct H as [H|[]]; discriminate H|contradiction].
Qed.
Print Assumptions catch_fatal.
(** a fatal exception that is not the last is handed to no handler at all *)
Theorem catch_lost_refuted : exists es e, (FatalErrorException <= severity e)%N /\ In e (exceptions (throw_all GetExceptionInfo es)) /\
  (forall h, ~ In (h, e) (fst (CatchException (throw_all GetExceptionInfo es)))).
Proof.
  exists [an_error 785 "disk full"; an_error 330 "old"], (an_error 785 "disk full"). split; [vm_compute; discriminate|]. split; [vm_compute; now left|].
  intros h H. vm_compute in H. destruct H as [H|[]]. discriminate H.
Qed.
Print Assumptions catch_lost_refuted.
(** a warning before a fatal exception ends the process in its place: the default handler
    exits with the number of the warning and the fatal exception is not reported *)
Theorem catch_exit_refuted : exists es e, (FatalErrorException <= severity e)%N /\ In e es /\
  snd (until_exit (fst (CatchException (throw_all GetExceptionInfo es)))) = Some 330%N /\
  (forall h, ~ In (h, e) (fst (until_exit (fst (CatchException (throw_all GetExceptionInfo es)))))).
Proof.
  exists [an_error 330 "old"; an_error 785 "disk full"], (an_error 785 "disk full"). split; [vm_compute; discriminate|]. split; [right; now left|].
  split; [vm_compute; reflexivity|]. intros h H. vm_compute in H. repeat destruct H as [H|H]; try discriminate H; contradiction.
Qed.
Print Assumptions catch_exit_refuted.

(** ** C121: events and tags *)
(** an exception is logged by the severity of the one before it *)
Theorem log_event_before : forall es e s m, let x := throw_all GetExceptionInfo (es ++ [e]) in
  fst (ThrowWizardExceptionList x s m) = ExceptionEvent <-> (ErrorException <= severity e)%N.
Proof.
  intros es e s m x. destruct (severity_last es e) as (S & _). fold x in S. cbn [ThrowWizardExceptionList fst]. rewrite S.
  destruct (N.leb_spec ErrorException (severity e)); split; intros; try reflexivity; try assumption; try discriminate; lia.
Qed.
Print Assumptions log_event_before.
Theorem log_event_refuted : exists s m, (ErrorException <= s)%N /\ fst (ThrowWizardExceptionList GetExceptionInfo s m) = WarningEvent.
Proof. exists 785%N, (b "disk full"). split; [vm_compute; discriminate|reflexivity]. Qed.
Print Assumptions log_event_refuted.

(** no two severities have the same tag, and the tag names the class *)
Lemma lookup_in s l : lookup s l = ""%string \/ In (s, lookup s l) l.
Proof. induction l as [|(k, t) l IH]; [now left|]. cbn [lookup]. destruct (N.eqb_spec k s) as [->|_]; [right; now left|]. destruct IH; [now left|right; now right]. Qed.
Lemma nodup_tags : NoDup (map snd tags).
Proof.
  assert (D : forall l : list string, (if list_eq_dec string_dec (nodup string_dec l) l then true else false) = true -> NoDup l).
  { intros l H. destruct (list_eq_dec _ _) as [E|]; [|discriminate]. rewrite <- E. apply NoDup_nodup. }
  apply D. vm_compute. reflexivity.
Qed.
Lemma nodup_same (l : list (N * string)) : NoDup (map snd l) -> forall s t n, In (s, n) l -> In (t, n) l -> s = t.
Proof.
  induction l as [|(k, m) l IH]; intros D s t n Hs Ht; [contradiction|]. cbn in D. inversion D as [|? ? X Y]; subst.
  assert (Z : forall q, In (q, m) l -> False) by (intros q Hq; apply X; change m with (snd (q, m)); now apply in_map).
  destruct Hs as [Hs|Hs], Ht as [Ht|Ht].
  - congruence.
  - exfalso. injection Hs as -> ->. exact (Z _ Ht).
  - exfalso. injection Ht as -> ->. exact (Z _ Hs).
  - exact (IH Y s t n Hs Ht).
Qed.
Theorem tag_distinct : forall s t, ExceptionSeverityToTag s = ExceptionSeverityToTag t -> ExceptionSeverityToTag s <> ""%string -> s = t.
Proof.
  unfold ExceptionSeverityToTag. intros s t E Ne. destruct (lookup_in s tags) as [H|Hs]; [contradiction|].
  destruct (lookup_in t tags) as [H|Ht]; [congruence|]. rewrite E in Hs. exact (nodup_same tags nodup_tags s t _ Hs Ht).
Qed.
Print Assumptions tag_distinct.
(** two of the errors have none *)
Definition severities : list N :=
  map (fun k => (305 + 5 * N.of_nat k)%N) (seq 0 19) ++ map (fun k => (405 + 5 * N.of_nat k)%N) (seq 0 19) ++ map (fun k => (705 + 5 * N.of_nat k)%N) (seq 0 19).
Theorem tag_missing_refuted : forall s, In s severities -> (ExceptionSeverityToTag s = ""%string <-> s = 470%N \/ s = 475%N).
Proof.
  assert (H : forallb (fun s => Bool.eqb (String.eqb (ExceptionSeverityToTag s) "") ((s =? 470)%N || (s =? 475)%N)) severities = true) by (vm_compute; reflexivity).
  intros s Hs. rewrite forallb_forall in H. specialize (H s Hs). apply Bool.eqb_prop in H. rewrite <- String.eqb_eq, H, orb_true_iff, !N.eqb_eq. tauto.
Qed.
Print Assumptions tag_missing_refuted.
