(** C57: resource limits. *)
From Coq Require Import ZArith NArith List Bool Lia.
From Coq Require Import ZifyBool ZifyNat ZifyN.
From Verif Require Import Base Outcome ResourceModel ResourceSpec.
Import ListNotations.
Ltac Zify.zify_post_hook ::= Z.div_mod_to_equations.
Local Open Scope Z_scope.

Lemma signed_id x : - 2 ^ 63 <= x < 2 ^ 63 -> signed x = x.
Proof. intros H. unfold signed. rewrite Z.mod_small; lia. Qed.
Lemma rtype_eqb_spec a b : reflect (a = b) (rtype_eqb a b).
Proof. destruct a, b; constructor; congruence. Qed.
Lemma used_set s t u v : used (set_used s t v) u = if rtype_eqb t u then v else used s u.
Proof. now destruct s, t, u. Qed.
Lemma limit_set s t u v : limit (set_used s t v) u = limit s u.
Proof. now destruct s, t, u. Qed.
Lemma used_lim s t u v : used (set_limit s t v) u = used s u.
Proof. now destruct s, t, u. Qed.
Lemma limit_lim s t u v : limit (set_limit s t v) u = if rtype_eqb t u then v else limit s u.
Proof. now destruct s, t, u. Qed.
Lemma rtype_refl t : rtype_eqb t t = true. Proof. now destruct t. Qed.

Definition counted (t : rtype) := t <> AreaResource.

(** one request *)
Lemma acquire_ok s t n : counted t -> 0 <= used s t -> used s t + Z.of_N n < 2 ^ 63 -> sane_limit (limit s t) ->
  snd (AcquireWizardResource s t n) = may_grant (limit s t) (used s t) n /\
  (forall u, used (fst (AcquireWizardResource s t n)) u =
     if rtype_eqb t u && may_grant (limit s t) (used s t) n then used s u + Z.of_N n else used s u) /\
  (forall u, limit (fst (AcquireWizardResource s t n)) u = limit s u).
Proof.
  intros C U B S.
  assert (E : AcquireWizardResource s t n =
    let s1 := set_used s t (signed (used s t + Z.of_N n)) in
    if (limit s1 t =? WizardResourceInfinity)%N || (used s1 t <? signed (Z.of_N (limit s1 t))) then (s1, true)
    else (set_used s1 t (signed (used s1 t - signed (Z.of_N n))), false)) by (destruct t; [now destruct C| reflexivity..]).
  rewrite E. clear E. cbv zeta. rewrite limit_set, used_set, rtype_refl, !(signed_id (used s t + _)) by lia.
  assert (M : ((limit s t =? WizardResourceInfinity)%N || (used s t + Z.of_N n <? signed (Z.of_N (limit s t)))) = may_grant (limit s t) (used s t) n).
  { unfold may_grant, WizardResourceInfinity, sane_limit in *. destruct S as [->|L]; [reflexivity|]. rewrite signed_id by lia. reflexivity. }
  rewrite M. destruct (may_grant (limit s t) (used s t) n); cbn [fst snd].
  - split; [reflexivity|split].
    + intros u. rewrite used_set, andb_true_r. destruct (rtype_eqb_spec t u) as [<-|]; reflexivity.
    + intros u. now rewrite limit_set.
  - split; [reflexivity|split].
    + intros u. rewrite andb_false_r, !used_set. destruct (rtype_eqb_spec t u) as [<-|]; [|reflexivity].
      rewrite (signed_id (Z.of_N n)), signed_id by lia. lia.
    + intros u. now rewrite !limit_set.
Qed.

Lemma relinquish_ok s t n s' : counted t -> 0 <= used s t < 2 ^ 63 -> (n <= 2 ^ 63)%N -> RelinquishWizardResource s t n = Ok s' ->
  Z.of_N n <= used s t /\ (forall u, used s' u = if rtype_eqb t u then used s u - Z.of_N n else used s u) /\
  (forall u, limit s' u = limit s u).
Proof.
  intros C U B H.
  assert (E : RelinquishWizardResource s t n =
    let s1 := set_used s t (signed (used s t - Z.of_N n)) in if 0 <=? used s1 t then Ok s1 else Fatal) by (destruct t; [now destruct C| reflexivity..]).
  rewrite E in H. cbv zeta in H. rewrite used_set, rtype_refl, signed_id in H by lia.
  destruct (Z.leb_spec 0 (used s t - Z.of_N n)) as [L|L]; [|discriminate]. injection H as <-.
  split; [lia|split]; intros u; [|now rewrite limit_set]. rewrite used_set. destruct (rtype_eqb_spec t u) as [<-|]; reflexivity.
Qed.
Lemma relinquish_fatal s t n : counted t -> 0 <= used s t < 2 ^ 63 -> (n <= 2 ^ 63)%N -> used s t < Z.of_N n -> RelinquishWizardResource s t n = Fatal.
Proof.
  intros C U B H.
  assert (E : RelinquishWizardResource s t n =
    let s1 := set_used s t (signed (used s t - Z.of_N n)) in if 0 <=? used s1 t then Ok s1 else Fatal) by (destruct t; [now destruct C| reflexivity..]).
  rewrite E. cbv zeta. rewrite used_set, rtype_refl, signed_id by lia. destruct (Z.leb_spec 0 (used s t - Z.of_N n)); [lia|reflexivity].
Qed.

Lemma relinquish_some s t n : counted t -> 0 <= used s t < 2 ^ 63 -> Z.of_N n <= used s t -> exists s', RelinquishWizardResource s t n = Ok s'.
Proof.
  intros C U H.
  assert (E : RelinquishWizardResource s t n =
    let s1 := set_used s t (signed (used s t - Z.of_N n)) in if 0 <=? used s1 t then Ok s1 else Fatal) by (destruct t; [now destruct C| reflexivity..]).
  rewrite E. cbv zeta. rewrite used_set, rtype_refl, signed_id by lia. destruct (Z.leb_spec 0 (used s t - Z.of_N n)); [eexists; reflexivity|lia].
Qed.

(** ** Histories *)

(** the calls only name counted types, give back and limit what the counters
    can express *)
Definition modest (c : call) : Prop :=
  match c with
  | Acquire t n => counted t
  | Relinquish t n => counted t /\ (n <= 2 ^ 63)%N
  | SetLimit t l => counted t /\ sane_limit l
  end.

(** no request takes what is held to 2^63 or more *)
Definition fits (cs : list call) (bs : list bool) (h : rtype -> Z) : Prop :=
  forall pre t n post, cs = pre ++ Acquire t n :: post -> h t + held t pre bs + Z.of_N n < 2 ^ 63.

Lemma run_ok cs : forall s s' bs, (forall t, counted t -> 0 <= used s t < 2 ^ 63 /\ sane_limit (limit s t)) ->
  Forall modest cs -> run s cs = Ok (s', bs) -> fits cs bs (used s) ->
  length bs = length cs /\
  (forall t, counted t -> used s' t = used s t + held t cs bs /\ limit s' t = limit_after t cs (limit s t) /\ 0 <= used s' t < 2 ^ 63) /\
  (forall pre t n post, cs = pre ++ Acquire t n :: post ->
     nth (length pre) bs false = may_grant (limit_after t pre (limit s t)) (used s t + held t pre bs) n).
Proof.
  induction cs as [|c cs IH]; intros s s' bs I F R B; cbn [run] in R.
  - injection R as <- <-. split; [reflexivity|]. split.
    + intros t C. cbn. destruct (I t C). split; [lia|]. split; [reflexivity|lia].
    + intros pre t n post E. now destruct pre.
  - inversion F as [|? ? M F']; subst. destruct (step s c) as [(s1, b)| |] eqn:ST; try discriminate. cbn [bind] in R.
    destruct (run s1 cs) as [(s2, bs')| |] eqn:R1; try discriminate. cbn [bind] in R. injection R as <- <-.
    assert (H1 : forall t, counted t -> used s1 t = used s t + held t [c] [b] /\ limit s1 t = limit_after t [c] (limit s t) /\
                  0 <= used s1 t < 2 ^ 63 /\ sane_limit (limit s1 t)).
    { intros t C. destruct c as [u n|u n|u l]; cbn [step modest] in *.
      - injection ST as ST. destruct (I u M) as (Iu & Il). pose proof (B [] u n cs eq_refl) as Bu. cbn [held] in Bu.
        destruct (acquire_ok s u n M) as (A1 & A2 & A3); [lia|lia|assumption|]. rewrite ST in A1, A2, A3. cbn [fst snd] in *.
        rewrite A2, A3, <- A1. destruct (I t C) as (It & Itl). cbn [held limit_after].
        destruct (rtype_eqb_spec u t) as [<-|]; destruct b; cbn [andb]; repeat split; try assumption; lia.
      - destruct M as (Mu & Mn). destruct (I u Mu) as (Iu & _).
        destruct (RelinquishWizardResource s u n) as [s3| |] eqn:Q; try discriminate. cbn [bind] in ST. injection ST as <- <-.
        destruct (relinquish_ok s u n s3 Mu Iu Mn Q) as (A1 & A2 & A3). rewrite A2, A3. destruct (I t C) as (It & Itl). cbn [held limit_after].
        destruct (rtype_eqb_spec u t) as [<-|]; repeat split; try assumption; lia.
      - injection ST as <- <-. rewrite used_lim, limit_lim. destruct M as (Mu & Ml). destruct (I t C) as (It & Itl). cbn [held limit_after].
        destruct (rtype_eqb_spec u t) as [<-|]; repeat split; try assumption; lia. }
    assert (HC : forall t l bs0, held t (c :: l) (b :: bs0) = held t [c] [b] + held t l bs0).
    { intros. destruct c; cbn [held]; lia. }
    assert (LC : forall t l m, limit_after t (c :: l) m = limit_after t l (limit_after t [c] m)) by (intros; now destruct c).
    assert (MC : forall t n pre post, cs = pre ++ Acquire t n :: post -> counted t).
    { intros t n pre post ->. apply Forall_app in F' as (_ & F'). now inversion F'. }
    destruct (IH s1 s2 bs') as (L & U & G); [intros t C; destruct (H1 t C) as (? & ? & ? & ?); now split|assumption..| |].
    + intros pre t n post E. pose proof (B (c :: pre) t n post (f_equal (cons c) E)) as Bx. rewrite HC in Bx.
      destruct (H1 t (MC _ _ _ _ E)) as (-> & _). lia.
    + split; [cbn; lia|]. split.
      * intros t C. destruct (U t C) as (U1 & U2 & U3). destruct (H1 t C) as (E1 & E2 & _). rewrite HC, LC, <- E2.
        split; [lia|]. split; [exact U2|exact U3].
      * intros [|c' pre] t n post E; cbn [app] in E; injection E as E1 E2.
        -- subst c. cbn [step] in ST. injection ST as ST. cbn [length nth held limit_after modest] in *. destruct (I t M) as (It & Il).
           pose proof (B [] t n cs eq_refl) as Bu. cbn [held] in Bu.
           destruct (acquire_ok s t n M) as (A1 & _); [lia|lia|assumption|]. rewrite ST in A1. cbn [snd] in A1. rewrite A1. f_equal. lia.
        -- subst c'. cbn [length nth]. rewrite HC, LC. destruct (H1 t (MC _ _ _ _ E2)) as (X1 & X2 & _).
           rewrite <- X2. replace (used s t + (held t [c] [b] + held t pre bs')) with (used s1 t + held t pre bs') by lia.
           now apply (G _ _ _ post).
Qed.

(** ** C57: the accounting is exact while the counters cannot overflow *)
Theorem resource_accounting_partial (cs : list call) (s : resource_info) (bs : list bool) :
  Forall modest cs -> run initial cs = Ok (s, bs) -> fits cs bs (fun _ => 0) ->
  (* what the library says is used is what was granted and not given back *)
  (forall t, counted t -> used s t = held t cs bs /\ 0 <= used s t) /\
  (* a request is granted exactly when it stays below the limit then in force *)
  (forall pre t n post, cs = pre ++ Acquire t n :: post ->
     nth (length pre) bs false = may_grant (limit_after t pre (limit initial t)) (held t pre bs) n).
Proof.
  intros F R B. destruct (run_ok cs initial s bs) as (L & U & G); [|assumption..| |].
  - intros t _. destruct t; (split; [cbn; lia|]); unfold sane_limit; cbn; try (right; reflexivity). now left.
  - intros pre t n post E. replace (used initial t) with 0 by now destruct t. now apply (B pre t n post).
  - split.
    + intros t C. destruct (U t C) as (E & _ & P). replace (used initial t) with 0 in E by now destruct t. split; [exact E|apply P].
    + intros pre t n post E. rewrite (G _ _ _ _ E). f_equal. now destruct t.
Qed.

(** a fixed finite limit is never reached *)
Lemma limit_fixed t cs l : (forall u l', ~ In (SetLimit u l') cs) -> limit_after t cs l = l.
Proof.
  revert l. induction cs as [|c cs IH]; intros l H; [reflexivity|]. destruct c; cbn [limit_after];
    try (apply IH; intros u l1 Hin; apply (H u l1); right; exact Hin). exfalso. eapply H. left. reflexivity.
Qed.
Lemma run_app cs1 cs2 : forall s, run s (cs1 ++ cs2) = let* (s1, b1) := run s cs1 in let* (s2, b2) := run s1 cs2 in Ok (s2, b1 ++ b2).
Proof.
  induction cs1 as [|c cs1 IH]; intros s; cbn [run app bind].
  - destruct (run s cs2) as [(s2, b2)| |]; reflexivity.
  - destruct (step s c) as [(s1, b)| |]; cbn [bind]; [|reflexivity..]. rewrite IH.
    destruct (run s1 cs1) as [(s2, b1)| |]; cbn [bind]; [|reflexivity..]. destruct (run s2 cs2) as [(s3, b2)| |]; reflexivity.
Qed.
Lemma held_app t cs1 : forall b1 cs2 b2, length b1 = length cs1 -> held t (cs1 ++ cs2) (b1 ++ b2) = held t cs1 b1 + held t cs2 b2.
Proof.
  induction cs1 as [|c cs1 IH]; intros [|b b1] cs2 b2 L; try discriminate; [reflexivity|]. cbn [held app]. rewrite IH by (cbn in L; lia). destruct c; lia.
Qed.
Lemma run_length cs : forall s s' bs, run s cs = Ok (s', bs) -> length bs = length cs.
Proof.
  induction cs as [|c cs IH]; intros s s' bs R; cbn [run] in R; [now injection R as <- <-|].
  destruct (step s c) as [(s1, b)| |]; try discriminate. cbn [bind] in R. destruct (run s1 cs) as [(s2, b1)| |] eqn:E; try discriminate.
  injection R as <- <-. cbn. f_equal. eapply IH; eassumption.
Qed.

Lemma held_pre t pre b1 b2 : length b1 = length pre -> held t pre (b1 ++ b2) = held t pre b1.
Proof.
  revert b1. induction pre as [|c pre IH]; intros [|b b1] L; try discriminate; [now destruct b2|]. cbn [held app]. rewrite IH by (cbn in L; lia). reflexivity.
Qed.

Theorem resource_below_limit_partial (cs : list call) (s : resource_info) (bs : list bool) (t : rtype) :
  Forall modest cs -> run initial cs = Ok (s, bs) -> fits cs bs (fun _ => 0) -> (forall u l, ~ In (SetLimit u l) cs) ->
  counted t -> t <> DiskResource -> used s t < Z.of_N (limit initial t).
Proof.
  intros F R B NS C ND. revert s bs R B F NS. induction cs as [|c cs IH] using rev_ind; intros s bs R B F NS.
  - injection R as <- <-. destruct t; try reflexivity; congruence.
  - pose proof (resource_accounting_partial _ _ _ F R B) as (U & G).
    rewrite run_app in R. destruct (run initial cs) as [(s1, b1)| |] eqn:R1; try discriminate. cbn [bind] in R.
    destruct (run s1 [c]) as [(s2, b2)| |] eqn:R2; try discriminate. cbn [bind] in R. injection R as <- <-.
    pose proof (run_length _ _ _ _ R1) as L1.
    assert (B' : fits cs b1 (fun _ => 0)).
    { intros pre u n post E. pose proof (B pre u n (post ++ [c])) as Q. rewrite E, <- app_assoc in Q. specialize (Q eq_refl).
      pose proof L1 as L. rewrite E, app_length in L. cbn [length] in L.
      rewrite <- (firstn_skipn (length pre) b1), <- app_assoc in Q.
      rewrite held_pre in Q by (rewrite firstn_length; lia).
      rewrite <- (firstn_skipn (length pre) b1). rewrite held_pre by (rewrite firstn_length; lia). exact Q. }
    apply Forall_app in F as (F1 & Fc). specialize (IH _ _ eq_refl B' F1 (fun u l H => NS u l (in_or_app _ _ _ (or_introl H)))).
    destruct (resource_accounting_partial _ _ _ F1 R1 B') as (U1 & _).
    destruct (U t C) as (E & _). destruct (U1 t C) as (E1 & _). rewrite held_app in E by assumption.
    pose proof (run_length _ _ _ _ R2) as L2. destruct b2 as [|b [|? ?]]; try discriminate. cbn [held] in E.
    destruct c as [u n|u n|u l].
    + destruct (rtype_eqb_spec u t) as [->|]; [|cbn [andb] in E; lia].
      specialize (G cs t n [] eq_refl). rewrite limit_fixed in G by (intros ? ? H; eapply NS, in_or_app; left; exact H).
      rewrite app_nth2, L1, Nat.sub_diag in G by lia. cbn [nth] in G.
      destruct b; cbn [andb] in E; [|lia].
      unfold may_grant in G. rewrite held_pre in G by assumption.
      destruct (N.eqb_spec (limit initial t) (2 ^ 64 - 1)) as [Q|Q]; [exfalso; destruct t; try (now destruct C); try (now destruct ND); vm_compute in Q; discriminate|]. cbn [orb] in G. lia.
    + destruct (rtype_eqb_spec u t); lia.
    + exfalso. eapply NS, in_or_app. right. left. reflexivity.
Qed.

(** giving back what was just granted restores the counter *)
Theorem resource_restore (s : resource_info) (t : rtype) (n : N) :
  counted t -> 0 <= used s t -> used s t + Z.of_N n < 2 ^ 63 -> sane_limit (limit s t) ->
  match AcquireWizardResource s t n with
  | (s1, true) => exists s2, RelinquishWizardResource s1 t n = Ok s2 /\ (forall u, used s2 u = used s u /\ limit s2 u = limit s u)
  | (s1, false) => forall u, used s1 u = used s u /\ limit s1 u = limit s u
  end.
Proof.
  intros C U B S. destruct (acquire_ok s t n C U B S) as (A1 & A2 & A3). destruct (AcquireWizardResource s t n) as [s1 b]. cbn [fst snd] in *.
  rewrite <- A1 in A2. destruct b.
  - assert (U1 : used s1 t = used s t + Z.of_N n) by (rewrite A2, rtype_refl; reflexivity).
    destruct (relinquish_some s1 t n) as (s2 & Q); [assumption|lia..|].
    exists s2. split; [exact Q|]. apply relinquish_ok in Q as (_ & Q1 & Q2); [|assumption|lia|lia].
    intros u. rewrite Q1, Q2, A2, A3. destruct (rtype_eqb_spec t u) as [<-|]; cbn [andb]; split; reflexivity || lia.
  - intros u. rewrite A2, A3, andb_false_r. split; reflexivity.
Qed.

(** an over-generous return is caught by the assertion *)
Theorem resource_over_return (s : resource_info) (t : rtype) (n : N) :
  counted t -> 0 <= used s t < 2 ^ 63 -> (n <= 2 ^ 63)%N -> used s t < Z.of_N n -> RelinquishWizardResource s t n = Fatal.
Proof. exact (relinquish_fatal s t n). Qed.

(** ** What is false *)

(** a huge request is granted under a finite limit, the counter goes negative,
    and then a request above the limit is granted as well *)
Theorem resource_limit_refuted :
  exists n m, (n < 2 ^ 64)%N /\ limit initial MemoryResource = 1610612736%N /\
    (exists s, run initial [Acquire MemoryResource n; Acquire MemoryResource m] = Ok (s, [true; true]) /\ used s MemoryResource < 0) /\
    (limit initial MemoryResource < n)%N /\ (limit initial MemoryResource < m)%N.
Proof.
  exists (2 ^ 63)%N, (2 ^ 40)%N. split; [reflexivity|]. split; [reflexivity|]. split; [|split; reflexivity].
  eexists. split; [vm_compute; reflexivity|reflexivity].
Qed.

(** a limit of 2^63 or more that is not infinite refuses everything *)
Theorem resource_big_limit_refuted :
  exists l n, (n < l < 2 ^ 64 - 1)%N /\ exists s, run initial [SetLimit MemoryResource l; Acquire MemoryResource n] = Ok (s, [true; false]).
Proof. exists (2 ^ 63)%N, 0%N. split; [split; reflexivity|]. eexists. vm_compute. reflexivity. Qed.

(** a refused area request is recorded all the same *)
Theorem resource_area_refuted :
  exists n s, AcquireWizardResource initial AreaResource n = (s, false) /\ used s AreaResource <> used initial AreaResource.
Proof. exists (2 ^ 40)%N. eexists. split; [vm_compute; reflexivity|discriminate]. Qed.

Example resource_accounting_ex :
  let cs := [Acquire FileResource 700; Acquire FileResource 68; Relinquish FileResource 100; Acquire FileResource 68; SetLimit FileResource 10; Acquire FileResource 0] in
  exists s, run initial cs = Ok (s, [true; false; true; true; true; false]) /\ used s FileResource = 668.
Proof. eexists. split; vm_compute; reflexivity. Qed.
Example resource_fits_ex :
  let cs := [Acquire FileResource 700; Acquire FileResource 68; Relinquish FileResource 100] in
  Forall modest cs /\ fits cs [true; false; true] (fun _ => 0).
Proof.
  split; [repeat constructor; cbn; try discriminate; reflexivity|].
  intros pre t n post E. destruct pre as [|? [|? [|? [|? ?]]]]; cbn in E; inversion E; subst; reflexivity.
Qed.

Print Assumptions resource_accounting_partial.
Print Assumptions resource_below_limit_partial.
Print Assumptions resource_restore.
Print Assumptions resource_over_return.
Print Assumptions resource_limit_refuted.
Print Assumptions resource_big_limit_refuted.
Print Assumptions resource_area_refuted.
