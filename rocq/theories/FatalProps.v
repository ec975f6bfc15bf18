(** C290-C291: fatal errors and handlers (FatalModel.v). *)
From Coq Require Import Arith NArith String Bool Lia List.
From Verif Require Import ExceptionModel FatalModel.
Import ListNotations.
Local Open Scope N_scope.

(** exception.h:103-121 *)
Definition fatal_types : list N := [705; 710; 715; 720; 725; 730; 735; 740; 745; 750; 755; 760; 765; 770; 775; 780; 785; 790; 795].
(** exception.h:27-57 *)
Definition is_domain (d : N) : Prop := d <= 15.
Definition is_error (e : N) : Prop := e <= 7.

(** C290: a fatal exception ends the process, never with the status of success; the handler is called once, or the message is shown once *)
Theorem fatal_ends : forall client h s message, In s fatal_types ->
  let e := {| severity := s; reason := Some message; description := None |} in
  let (effects, status) := ThrowFatalException client h s message in
  0 < status < 256 /\
  match fatal_ h with
  | Some Default => effects = [Shown (client ++ b ": " ++ message ++ b "." ++ [10])] /\ exists k, s = 256 * k + status
  | Some (Mine i) => effects = [Called i e] /\ status = 127
  | None => effects = [] /\ status = 127
  end.
Proof.
  intros client h s message I. unfold ThrowFatalException, CatchWizardException, Catch, ThrowWizardExceptionList, CatchException.
  assert (F : 700 <= s) by (cbn in I; repeat destruct I as [<-|I]; [lia..|destruct I]).
  unfold ThrowException, calls_of. cbn [snd fst GetExceptionInfo exceptions last_value app severity_of flat_map severity].
  unfold WarningException, ErrorException, FatalErrorException.
  replace (s <? 400) with false by (symmetry; apply N.ltb_ge; lia). replace (s <? 700) with false by (symmetry; apply N.ltb_ge; lia).
  replace (700 <=? s) with true by (symmetry; apply N.leb_le; lia). rewrite !andb_false_r. cbn [app handle_all handle method_of].
  destruct (fatal_ h) as [[|i]|]; cbn [display reason description severity then_exit fst snd app]; [|split; [cbv; split; reflexivity|split; reflexivity]..].
  split; [|split; [reflexivity|exists (s / 256); apply N.div_mod; discriminate]].
  cbn in I. repeat destruct I as [<-|I]; [vm_compute; split; reflexivity..|destruct I].
Qed.
Example fatal_ends_ex : In 795 fatal_types /\ snd (ThrowFatalException (b "app") at_start 795 (b "memory")) = 27 /\
  ThrowFatalException (b "app") (mkHandlers None None (Some (Mine 4))) 795 (b "memory") = ([Called 4 {| severity := 795; reason := Some (b "memory"); description := None |}], 127).
Proof. split; [cbn; tauto|]. split; vm_compute; reflexivity. Qed.

Lemma packed d e : e <= 7 -> N.lor (N.shiftl d 3) e = 8 * d + e.
Proof.
  intros E. assert (N.land (N.shiftl d 3) e = 0) as Z.
  { apply N.bits_inj. intros n. rewrite N.land_spec, N.bits_0. destruct (N.ltb_spec n 3) as [L|L]; [now rewrite N.shiftl_spec_low|].
    rewrite (N.bits_above_log2 e) by (destruct (N.eq_dec e 0) as [->|]; [cbn; lia|]; assert (N.log2 e <= 2) by (change 2 with (N.log2 7); now apply N.log2_le_mono); lia). apply andb_false_r. }
  rewrite <- N.lxor_lor by exact Z. rewrite <- N.add_nocarry_lxor by exact Z. rewrite N.shiftl_mul_pow2. change (2 ^ 3) with 8. lia.
Qed.
Lemma quiet client h d e message : ThrowWizardFatalError client h d e message = ([], status_of (N.lor (N.shiftl d 3) e)).
Proof. reflexivity. Qed.
(** The status tells domain and error apart, and is that of success for one pair only. *)
Theorem fatal_status : forall client h d e d' e' message message', is_domain d -> is_error e -> is_domain d' -> is_error e' ->
  let status d e message := snd (ThrowWizardFatalError client h d e message) in
  (status d e message = status d' e' message' -> d = d' /\ e = e') /\ status d e message < 128 /\
  (status d e message = 0 <-> d = 0 /\ e = 0).
Proof.
  unfold is_domain, is_error. intros client h d e d' e' message message' D E D' E'. cbv zeta. rewrite !quiet. cbn [snd]. unfold status_of. rewrite !packed by assumption.
  rewrite !N.mod_small by lia. lia.
Qed.
Example fatal_status_ex : is_domain 5 /\ is_error 1 /\ snd (ThrowWizardFatalError (b "app") at_start 5 1 []) = 41.
Proof. repeat split; vm_compute; congruence. Qed.

(** The handlers in force are the last ones set, each call returns the one before, and putting that back undoes the call. *)
Definition handler_eqb (k k' : handler) : bool := match k, k' with Warning, Warning | Error, Error | FatalError, FatalError => true | _, _ => false end.
Definition last_set (m : option method) (k : handler) (l : list (handler * option method)) : option method :=
  last (map snd (filter (fun x => handler_eqb (fst x) k) l)) m.
Lemma last_cons {A} (x d : A) l : last (x :: l) d = last l x.
Proof. revert x d. induction l as [|y l IH]; intros x d; [reflexivity|]. change (last (x :: y :: l) d) with (last (y :: l) d). rewrite IH, IH. reflexivity. Qed.
Theorem handlers_last : forall l h k, method_of (fst (set_all h l)) k = last_set (method_of h k) k l.
Proof.
  induction l as [|[k' m] l IH]; intros h k; [reflexivity|]. cbn [set_all SetHandler].
  destruct (set_all _ l) as [h' rs] eqn:E. cbn [fst]. match type of E with set_all ?g l = _ => specialize (IH g k) end. rewrite E in IH. cbn [fst] in IH. rewrite IH.
  unfold last_set. cbn [filter fst]. destruct k', k; cbn [handler_eqb map snd]; rewrite ?last_cons; reflexivity.
Qed.
Theorem handlers_returned : forall l h i k m, nth_error l i = Some (k, m) ->
  nth_error (snd (set_all h l)) i = Some (last_set (method_of h k) k (firstn i l)).
Proof.
  induction l as [|[k' m'] l IH]; intros h i k m E; [now destruct i|]. cbn [set_all SetHandler].
  destruct (set_all _ l) as [h' rs] eqn:F. cbn [snd]. destruct i as [|i]; [injection E as -> ->; reflexivity|]. cbn [nth_error firstn] in *.
  match type of F with set_all ?g l = _ => specialize (IH g i k m E) end. rewrite F in IH. cbn [snd] in IH. rewrite IH. f_equal.
  unfold last_set. cbn [filter fst]. destruct k', k; cbn [handler_eqb map snd]; rewrite ?last_cons; reflexivity.
Qed.
Theorem handlers_restored : forall h k m, fst (SetHandler (fst (SetHandler h k m)) k (snd (SetHandler h k m))) = h.
Proof. now intros [w e f] [] m. Qed.
Example handlers_ex : set_all at_start [(Error, None); (Warning, Some (Mine 2)); (Error, Some (Mine 1))] =
  (mkHandlers (Some (Mine 2)) (Some (Mine 1)) (Some Default), [Some Default; Some Default; None]).
Proof. reflexivity. Qed.

(** Exceptions the last of which is not fatal are each given once to the handler of their kind, in order, and the process goes on. *)
Definition shown (client : list N) (p : element) : list effect :=
  match reason p, description p with
  | None, _ => []
  | Some r, None => [Shown (client ++ b ": " ++ r ++ b "." ++ [10])]
  | Some r, Some d => [Shown (client ++ b ": " ++ r ++ b " (" ++ d ++ b ")." ++ [10])]
  end.
Lemma display_shown client p : display client p = shown client p.
Proof. unfold display, shown. destruct (reason p); [|reflexivity]. destruct (description p); [|reflexivity]. rewrite <- !app_assoc. reflexivity. Qed.
Definition given (client : list N) (h : handlers) (p : element) : list effect :=
  let to m := match m with None => [] | Some (Mine i) => [Called i p] | Some Default => shown client p end in
  if severity p <? 300 then [] else if severity p <? 400 then to (warning_ h) else if severity p <? 700 then to (error_ h) else [].
Lemma handle_app client h cs ds es : handle_all client h cs = (es, None) ->
  handle_all client h (cs ++ ds) = let (fs, r) := handle_all client h ds in (es ++ fs, r).
Proof.
  revert es. induction cs as [|c cs IH]; intros es E; [injection E as <-; cbn; now destruct (handle_all client h ds)|].
  cbn [app handle_all] in *. destruct (handle client h c) as [gs [n|]]; [discriminate|]. destruct (handle_all client h cs) as [fs r]. injection E as <- ->.
  rewrite (IH fs) by reflexivity. destruct (handle_all client h ds). now rewrite app_assoc.
Qed.
Theorem plain_caught : forall client h x, severity_of x < 700 ->
  Catch client h x = (flat_map (given client h) (exceptions x), None).
Proof.
  intros client h x S. unfold Catch, CatchException. cbn [fst]. induction (exceptions x) as [|p l IH]; [reflexivity|]. cbn [flat_map].
  rewrite (handle_app _ _ _ _ (given client h p)); [now rewrite IH|]. unfold calls_of, given, WarningException, ErrorException, FatalErrorException.
  replace (700 <=? severity_of x) with false by (symmetry; apply N.leb_gt; exact S).
  destruct (N.leb_spec 300 (severity p)), (N.ltb_spec (severity p) 300); try lia; destruct (N.leb_spec 400 (severity p)), (N.ltb_spec (severity p) 400); try lia; destruct (N.ltb_spec (severity p) 700);
    try lia; cbn [andb app handle_all handle method_of]; try reflexivity; destruct (warning_ h) as [[|i]|], (error_ h) as [[|j]|]; cbn [handle_all app]; rewrite ?app_nil_r, ?display_shown; reflexivity.
Qed.
Example plain_ex : Catch (b "app") at_start (ThrowException (ThrowException GetExceptionInfo 305 (Some (b "one")) (Some (b "two"))) 410 (Some (b "three")) None) =
  ([Shown (b "app: one (two)." ++ [10]); Shown (b "app: three." ++ [10])], None).
Proof. vm_compute. reflexivity. Qed.

(** C291 fails: ThrowWizardFatalError shows nothing and calls no handler, whatever went wrong and whatever handlers are set *)
Theorem fatal_silent_refuted : forall client h d e message, fst (ThrowWizardFatalError client h d e message) = [].
Proof. intros. now rewrite quiet. Qed.
(** what stands for success is the status of a lack of memory for random numbers *)
Theorem fatal_success_refuted : forall client h message, snd (ThrowWizardFatalError client h 0 0 message) = 0.
Proof. reflexivity. Qed.
(** severities in the place of domains (sha2224.c:118 and its siblings: HashError 415; lzma.c:103, zip.c:100: EntropyError 425; serpent.c:107: CipherError 435): lack of
    memory for entropy is reported as one of the parser, the others as of no domain at all *)
Theorem fatal_domain_refuted : forall client h message,
  let status d e := snd (ThrowWizardFatalError client h d e message) in
  status 425 0 = status 9 0 /\ (forall d e, is_domain d -> is_error e -> status 415 0 <> status d e /\ status 435 0 <> status d e).
Proof.
  intros client h message. cbv zeta. split; [reflexivity|]. unfold is_domain, is_error. intros d e D E. rewrite !quiet. cbn [snd]. unfold status_of.
  rewrite (packed d e E), (N.mod_small (8 * d + e)) by lia. change (N.lor (N.shiftl 415 3) 0 mod 256) with 248. change (N.lor (N.shiftl 435 3) 0 mod 256) with 152. lia.
Qed.
(** the status of a fatal exception is also that of a domain and an error *)
Theorem fatal_ambiguous_refuted : forall client message, exists s d e, In s fatal_types /\ is_domain d /\ is_error e /\
  snd (ThrowFatalException client at_start s message) = snd (ThrowWizardFatalError client at_start d e message).
Proof. intros client message. exists 795, 3, 3. split; [cbn; tauto|]. repeat split; vm_compute; congruence. Qed.
Lemma cut_twice {A} n (r t : list A) : (n <= length r)%nat -> firstn n (firstn n r ++ t) = firstn n r.
Proof. intros L. rewrite firstn_app, firstn_length_le, Nat.sub_diag by exact L. cbn [firstn]. rewrite app_nil_r, firstn_firstn. f_equal. lia. Qed.
(** a long reason hides where it came from *)
Theorem place_hidden_refuted : forall reason module function line module' function' line', (N.to_nat 4095 <= length reason)%nat ->
  message_of reason module function line = message_of reason module' function' line'.
Proof.
  intros reason module function line module' function' line' L. unfold message_of. generalize dependent (N.to_nat 4095). intros n L. now rewrite !cut_twice by exact L.
Qed.
Print Assumptions fatal_ends.
Print Assumptions fatal_status.
Print Assumptions handlers_last.
Print Assumptions handlers_returned.
Print Assumptions handlers_restored.
Print Assumptions plain_caught.
Print Assumptions fatal_silent_refuted.
Print Assumptions fatal_success_refuted.
Print Assumptions fatal_domain_refuted.
Print Assumptions fatal_ambiguous_refuted.
Print Assumptions place_hidden_refuted.
