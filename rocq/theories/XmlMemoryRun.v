(** Programs on XML trees keep the memory of a forest. *)
From Coq Require Import NArith Bool Arith List Lia Permutation.
From Verif Require Import Outcome XmlMemoryModel XmlMemorySpec XmlMemoryProof.
Import ListNotations.

(** ** Forests *)
Lemma find_in p f r : find p f = Some r -> In p (ids f).
Proof.
  induction f as [|id i kids IHk rest IHr]; cbn [find ids]; [discriminate|]. destruct (Nat.eqb_spec id p) as [->|]; [cbn; tauto|].
  cbn [In]. rewrite in_app_iff. destruct (find p kids); intros H; [right; left; apply IHk; exact H|right; right; apply IHr; exact H].
Qed.
Lemma find_out p f : ~ In p (ids f) -> find p f = None.
Proof. intros N. destruct (find p f) eqn:E; [|reflexivity]. apply find_in in E. tauto. Qed.
Lemma in_find p f : In p (ids f) -> exists r, find p f = Some r.
Proof.
  induction f as [|id i kids IHk rest IHr]; cbn [find ids]; [intros []|]. destruct (Nat.eqb_spec id p) as [->|N]; [eauto|].
  cbn [In]. rewrite in_app_iff. intros [E|[I|I]]; [congruence| |]; [destruct (IHk I) as [r ->]; eauto|]. destruct (find p kids); eauto.
Qed.
Lemma replace_out p i k f : ~ In p (ids f) -> replace p i k f = f.
Proof.
  induction f as [|id j kids IHk rest IHr]; cbn [replace ids]; [reflexivity|]. cbn [In]. rewrite in_app_iff. intros N. destruct (Nat.eqb_spec id p); [tauto|].
  rewrite IHk, IHr by tauto. reflexivity.
Qed.
Lemma remove_out p f : ~ In p (ids f) -> remove p f = f.
Proof.
  induction f as [|id j kids IHk rest IHr]; cbn [remove ids]; [reflexivity|]. cbn [In]. rewrite in_app_iff. intros N. destruct (Nat.eqb_spec id p); [tauto|].
  rewrite IHk, IHr by tauto. reflexivity.
Qed.
Lemma tops_ids p f : In p (tops f) -> In p (ids f).
Proof. induction f as [|id i kids _ rest IHr]; cbn; [tauto|]. rewrite in_app_iff. tauto. Qed.
Lemma member_in x l : member x l = true <-> In x l.
Proof.
  unfold member. rewrite existsb_exists. split; [intros (y & I & E); apply Nat.eqb_eq in E; subst; exact I|intros I; exists x; split; [exact I|apply Nat.eqb_refl]].
Qed.
(** what is not on top is below some element *)
Lemma below_parent c f : In c (ids f) -> ~ In c (tops f) -> NoDup (ids f) ->
  exists p i kids, find p f = Some (i, kids) /\ In c (tops kids) /\ p <> c /\ remove c f = replace p i (remove c kids) f /\ find c f = find c kids.
Proof.
  induction f as [|id i kids IHk rest IHr]; cbn [ids tops]; [intros []|]. rewrite NoDup_cons_iff, nodup_app. intros I T (NI & Dk & Dr & X).
  cbn [In] in I, T. rewrite in_app_iff in I, NI. destruct I as [I|[I|I]]; [tauto| |].
  - assert (id <> c) as Nc by (intros ->; tauto). destruct (in_dec Nat.eq_dec c (tops kids)) as [Tk|Tk].
    + exists id, i, kids. cbn [find remove replace]. rewrite !Nat.eqb_refl. destruct (Nat.eqb_spec id c); [congruence|]. repeat split; try assumption.
      * rewrite (remove_out c rest); [reflexivity|]. apply X. exact I.
      * destruct (in_find c kids I) as [r ->]. reflexivity.
    + destruct (IHk I Tk Dk) as (p & j & ks & F & C & P & R & G). exists p, j, ks.
      assert (id <> p) as Np by (intros ->; apply find_in in F; tauto). cbn [find remove replace]. destruct (Nat.eqb_spec id p); [congruence|]. destruct (Nat.eqb_spec id c); [congruence|].
      rewrite F. repeat split; try assumption.
      * rewrite R, (remove_out c rest) by (apply X; exact I). rewrite (replace_out p j _ rest); [reflexivity|]. apply X. eapply find_in. exact F.
      * destruct (in_find c kids I) as [r E]. rewrite E in *. congruence.
  - assert (id <> c) as Nc by (intros ->; tauto). assert (~ In c (ids kids)) as Nk by (intros J; exact (X c J I)).
    destruct (IHr I) as (p & j & ks & F & C & P & R & G); [tauto|exact Dr|]. exists p, j, ks.
    assert (id <> p) as Np by (intros ->; apply find_in in F; tauto). cbn [find remove replace]. destruct (Nat.eqb_spec id p); [congruence|]. destruct (Nat.eqb_spec id c); [congruence|].
    assert (~ In p (ids kids)) as Npk by (intros J; exact (X p J (find_in _ _ _ F))).
    rewrite (find_out p kids), (find_out c kids), (remove_out c kids), (replace_out p j _ kids) by assumption. rewrite R. repeat split; assumption.
Qed.

(** ** The elements have different addresses, so they have different numbers *)
Lemma element_self h p e i l : element_at h p e i l -> In p l.
Proof. intros []. cbn. tauto. Qed.
Lemma children_ids h env par p f l x : children_at h env par p f l -> In x (ids f) -> exists a, nth_error env x = Some a /\ In a l.
Proof.
  intros H. induction H as [|par p id i kids rest e l1 l2 l3 N E P Z B K IHK R IHR]; cbn [ids]; [intros []|]. cbn [In]. rewrite in_app_iff. intros [<-|[I|I]].
  - exists p. split; [exact N|]. rewrite in_app_iff. left. eapply element_self. exact E.
  - destruct (IHK I) as (a & A & J). exists a. rewrite !in_app_iff. tauto.
  - destruct (IHR I) as (a & A & J). exists a. rewrite !in_app_iff. tauto.
Qed.
Lemma children_nodup h env par p f l : children_at h env par p f l -> NoDup l -> NoDup (ids f).
Proof.
  intros H. induction H as [|par p id i kids rest e l1 l2 l3 N E P Z B K IHK R IHR]; cbn [ids]; [constructor|].
  rewrite !nodup_app. intros (D1 & (D2 & D3 & X23) & X1). rewrite NoDup_cons_iff, nodup_app. repeat split; [|tauto|tauto|].
  - rewrite in_app_iff. intros [I|I]; [destruct (children_ids _ _ _ _ _ _ _ K I) as (a & A & J)|destruct (children_ids _ _ _ _ _ _ _ R I) as (a & A & J)];
    (assert (a = p) as -> by congruence; apply (X1 p (element_self _ _ _ _ _ E)); rewrite in_app_iff; tauto).
  - intros x I I'. destruct (children_ids _ _ _ _ _ _ _ K I) as (a & A & J), (children_ids _ _ _ _ _ _ _ R I') as (b & B' & J'). assert (a = b) as -> by congruence. exact (X23 b J J').
Qed.
Lemma trees_ids h env f l x : trees_at h env f l -> In x (ids f) -> exists a, nth_error env x = Some a /\ In a l.
Proof.
  intros H. induction H as [|p id i kids rest e l1 l2 l3 l4 N E T O K R IHR]; cbn [ids]; [intros []|]. cbn [In]. rewrite in_app_iff. intros [<-|[I|I]].
  - exists p. split; [exact N|]. rewrite in_app_iff. left. eapply element_self. exact E.
  - destruct (children_ids _ _ _ _ _ _ _ K I) as (a & A & J). exists a. rewrite !in_app_iff. tauto.
  - destruct (IHR I) as (a & A & J). exists a. rewrite !in_app_iff. tauto.
Qed.
Lemma trees_nodup h env f l : trees_at h env f l -> NoDup l -> NoDup (ids f).
Proof.
  intros H. induction H as [|p id i kids rest e l1 l2 l3 l4 N E T O K R IHR]; cbn [ids]; [constructor|].
  rewrite !nodup_app. intros (D1 & (D2 & (D3 & D4 & X34) & X2) & X1). rewrite NoDup_cons_iff, nodup_app. repeat split; [|eapply children_nodup; eassumption|tauto|].
  - rewrite in_app_iff. intros [I|I]; [destruct (children_ids _ _ _ _ _ _ _ K I) as (a & A & J)|destruct (trees_ids _ _ _ _ _ R I) as (a & A & J)];
    (assert (a = p) as -> by congruence; apply (X1 p (element_self _ _ _ _ _ E)); rewrite !in_app_iff; tauto).
  - intros x I I'. destruct (children_ids _ _ _ _ _ _ _ K I) as (a & A & J), (trees_ids _ _ _ _ _ R I') as (b & B' & J'). assert (a = b) as -> by congruence. exact (X34 b J J').
Qed.
Lemma trees_live h env f l q : trees_at h env f l -> In q l -> view h q <> None.
Proof.
  intros H. induction H as [|p id i kids rest e l1 l2 l3 l4 N E T O K R IHR]; [intros []|]. rewrite !in_app_iff. intros [Q|[Q|[Q|Q]]]; [| | |tauto].
  - eapply element_live; eassumption.
  - unfold table_at in T. destruct (i_held i); [destruct T as [_ ->]; destruct Q|]. destruct T as (_ & t & x & _ & V & ->). destruct Q as [<-|[]]. congruence.
  - eapply children_live; eassumption.
Qed.

(** ** One element in the midst of others *)
Definition keeps (e e' : element) : Prop := e_parent e' = e_parent e /\ e_ordered e' = e_ordered e /\ e_entities e' = e_entities e.
Lemma children_focus h env par q f l p i kids : children_at h env par q f l -> NoDup (ids f) -> find p f = Some (i, kids) ->
  exists a e l1 l2 c, nth_error env p = Some a /\ element_at h a e i l1 /\ children_at h env a (e_child e) kids l2 /\ Permutation l (l1 ++ l2 ++ c) /\
  forall h' env' i' e' kids' l1' l2', (forall x, In x c -> view h' x = view h x) -> grows env env' -> element_at h' a e' i' l1' ->
    i_held i' = i_held i -> keeps e e' -> children_at h' env' a (e_child e') kids' l2' ->
    exists l', children_at h' env' par q (replace p i' kids' f) l' /\ Permutation l' (l1' ++ l2' ++ c).
Proof.
  intros H. revert i kids. induction H as [|par q id j below rest e l1 l2 l3 N E P Z B K IHK R IHR]; intros i kids D F; [discriminate|].
  cbn [ids] in D. rewrite NoDup_cons_iff, nodup_app, in_app_iff in D. destruct D as (NI & Dk & Dr & X). cbn [find] in F. destruct (Nat.eqb_spec id p) as [->|NE].
  - injection F as -> ->. exists q, e, l1, l2, l3. repeat split; try assumption; [apply Permutation_refl|].
    intros h' env' i' e' kids' l1' l2' FR G E' HI (P' & O' & _) K'. exists (l1' ++ l2' ++ l3). split; [|apply Permutation_refl].
    cbn [replace]. rewrite Nat.eqb_refl. econstructor; [apply G, N|exact E'|congruence|congruence|congruence|exact K'|]. rewrite O'. eapply children_frame; eassumption.
  - destruct (find p below) as [r|] eqn:FK.
    + injection F as ->. destruct (IHK i kids Dk eq_refl) as (a & e0 & m1 & m2 & c & A & E0 & K0 & PM & CL). exists a, e0, m1, m2, (c ++ l1 ++ l3).
      repeat split; try assumption.
      { eapply perm_trans; [apply Permutation_app_swap_app|]. rewrite PM. rewrite <- !app_assoc. apply Permutation_app_head, Permutation_app_head. apply Permutation_app_head. reflexivity. }
      intros h' env' i' e' kids' l1' l2' FR G E' HI KE K'. destruct (CL h' env' i' e' kids' l1' l2') as (l' & C' & PM'); try assumption; [intros x I; apply FR; rewrite in_app_iff; tauto|].
      exists (l1 ++ l' ++ l3). split.
      * cbn [replace]. destruct (Nat.eqb_spec id p); [congruence|]. rewrite (replace_out p i' kids' rest) by (apply X; eapply find_in; exact FK).
        econstructor; [apply G, N|eapply element_frame; [exact E|]|exact P|exact Z|exact B|exact C'|eapply children_frame; [exact R| |exact G]]; intros x I; apply FR; rewrite !in_app_iff; tauto.
      * eapply perm_trans; [apply Permutation_app_swap_app|]. rewrite PM'. rewrite <- !app_assoc. reflexivity.
    + destruct (IHR i kids Dr F) as (a & e0 & m1 & m2 & c & A & E0 & K0 & PM & CL). exists a, e0, m1, m2, (c ++ l1 ++ l2). repeat split; try assumption.
      { rewrite app_assoc. eapply perm_trans; [apply Permutation_app_comm|]. rewrite PM, <- !app_assoc. reflexivity. }
      intros h' env' i' e' kids' l1' l2' FR G E' HI KE K'. destruct (CL h' env' i' e' kids' l1' l2') as (l' & C' & PM'); try assumption; [intros x I; apply FR; rewrite in_app_iff; tauto|].
      exists (l1 ++ l2 ++ l'). split.
      * cbn [replace]. destruct (Nat.eqb_spec id p); [congruence|]. rewrite (replace_out p i' kids' below) by (intros I; exact (X p I (find_in _ _ _ F))).
        econstructor; [apply G, N|eapply element_frame; [exact E|]|exact P|exact Z|exact B|eapply children_frame; [exact K| |exact G]|exact C']; intros x I; apply FR; rewrite !in_app_iff; tauto.
      * rewrite app_assoc. eapply perm_trans; [apply Permutation_app_comm|]. rewrite PM', <- !app_assoc. reflexivity.
Qed.
Lemma table_keeps h h' e e' i i' l : table_at h e i l -> i_held i' = i_held i -> keeps e e' -> (forall x, In x l -> view h' x = view h x) -> table_at h' e' i' l.
Proof.
  intros T H (P & _ & EN) F. apply (table_frame h h') in T; [|exact F]. unfold table_at in *. rewrite H. destruct (i_held i); rewrite P; [exact T|]. rewrite EN. exact T.
Qed.
Lemma trees_focus h env f l p i kids : trees_at h env f l -> NoDup (ids f) -> find p f = Some (i, kids) ->
  exists a e l1 l2 c, nth_error env p = Some a /\ element_at h a e i l1 /\ children_at h env a (e_child e) kids l2 /\ Permutation l (l1 ++ l2 ++ c) /\
  forall h' env' i' e' kids' l1' l2', (forall x, In x c -> view h' x = view h x) -> grows env env' -> element_at h' a e' i' l1' ->
    i_held i' = i_held i -> keeps e e' -> children_at h' env' a (e_child e') kids' l2' ->
    exists l', trees_at h' env' (replace p i' kids' f) l' /\ Permutation l' (l1' ++ l2' ++ c).
Proof.
  intros H. revert i kids. induction H as [|q id j below rest e l1 l2 l3 l4 N E T O K R IHR]; intros i kids D F; [discriminate|].
  cbn [ids] in D. rewrite NoDup_cons_iff, nodup_app, in_app_iff in D. destruct D as (NI & Dk & Dr & X). cbn [find] in F. destruct (Nat.eqb_spec id p) as [->|NE].
  - injection F as -> ->. exists q, e, l1, l3, (l2 ++ l4). repeat split; try assumption; [apply Permutation_app_head, Permutation_app_swap_app|].
    intros h' env' i' e' kids' l1' l2' FR G E' HI KE K'. exists (l1' ++ l2 ++ l2' ++ l4). split; [|apply Permutation_app_head, Permutation_app_swap_app].
    cbn [replace]. rewrite Nat.eqb_refl. econstructor; [apply G, N|exact E'| | |exact K'|].
    + eapply table_keeps; [exact T|exact HI|exact KE|]. intros x I. apply FR. rewrite in_app_iff. tauto.
    + destruct KE as (_ & -> & _). exact O.
    + eapply trees_frame; [exact R| |exact G]. intros x I. apply FR. rewrite in_app_iff. tauto.
  - destruct (find p below) as [r|] eqn:FK.
    + injection F as ->. destruct (children_focus _ _ _ _ _ _ p i kids K Dk FK) as (a & e0 & m1 & m2 & c & A & E0 & K0 & PM & CL). exists a, e0, m1, m2, (c ++ l1 ++ l2 ++ l4).
      repeat split; try assumption.
      { rewrite (app_assoc l1 l2). eapply perm_trans; [apply Permutation_app_swap_app|]. rewrite PM, <- !app_assoc. reflexivity. }
      intros h' env' i' e' kids' l1' l2' FR G E' HI KE K'. destruct (CL h' env' i' e' kids' l1' l2') as (l' & C' & PM'); try assumption; [intros x I; apply FR; rewrite in_app_iff; tauto|].
      exists (l1 ++ l2 ++ l' ++ l4). split.
      * cbn [replace]. destruct (Nat.eqb_spec id p); [congruence|]. rewrite (replace_out p i' kids' rest) by (apply X; eapply find_in; exact FK).
        econstructor; [apply G, N|eapply element_frame; [exact E|]|eapply table_frame; [exact T|]|exact O|exact C'|eapply trees_frame; [exact R| |exact G]]; intros x I; apply FR; rewrite !in_app_iff; tauto.
      * rewrite (app_assoc l1 l2). eapply perm_trans; [apply Permutation_app_swap_app|]. rewrite PM', <- !app_assoc. reflexivity.
    + destruct (IHR i kids Dr F) as (a & e0 & m1 & m2 & c & A & E0 & K0 & PM & CL). exists a, e0, m1, m2, (c ++ l1 ++ l2 ++ l3). repeat split; try assumption.
      { rewrite 2!app_assoc. eapply perm_trans; [apply Permutation_app_comm|]. rewrite PM, <- !app_assoc. reflexivity. }
      intros h' env' i' e' kids' l1' l2' FR G E' HI KE K'. destruct (CL h' env' i' e' kids' l1' l2') as (l' & C' & PM'); try assumption; [intros x I; apply FR; rewrite in_app_iff; tauto|].
      exists (l1 ++ l2 ++ l3 ++ l'). split.
      * cbn [replace]. destruct (Nat.eqb_spec id p); [congruence|]. rewrite (replace_out p i' kids' below) by (intros I; exact (X p I (find_in _ _ _ F))).
        econstructor; [apply G, N|eapply element_frame; [exact E|]|eapply table_frame; [exact T|]|exact O|eapply children_frame; [exact K| |exact G]|exact C']; intros x I; apply FR; rewrite !in_app_iff; tauto.
      * rewrite 2!app_assoc. eapply perm_trans; [apply Permutation_app_comm|]. rewrite PM', <- !app_assoc. reflexivity.
Qed.
Lemma trees_remove h env f l c : trees_at h env f l -> NoDup (ids f) -> In c (tops f) ->
  exists a e i kids l1 l2 l3 l4, find c f = Some (i, kids) /\ nth_error env c = Some a /\ element_at h a e i l1 /\ table_at h e i l2 /\ e_ordered e = 0 /\
    children_at h env a (e_child e) kids l3 /\ trees_at h env (remove c f) l4 /\ Permutation l (l1 ++ l2 ++ l3 ++ l4).
Proof.
  intros H. induction H as [|q id j below rest e l1 l2 l3 l4 N E T O K R IHR]; cbn [tops]; [intros _ []|]. intros D I.
  cbn [ids] in D. rewrite NoDup_cons_iff, nodup_app, in_app_iff in D. destruct D as (NI & Dk & Dr & X). cbn [find remove]. destruct (Nat.eqb_spec id c) as [->|NE].
  - exists q, e, j, below, l1, l2, l3, l4. repeat split; try assumption. reflexivity.
  - destruct I as [I|I]; [congruence|]. destruct (IHR Dr I) as (a & e0 & i & kids & m1 & m2 & m3 & m4 & F & A & E0 & T0 & O0 & K0 & R0 & PM).
    assert (~ In c (ids below)) as NB by (intros J; exact (X c J (tops_ids _ _ I))). rewrite (find_out c below), (remove_out c below) by exact NB.
    exists a, e0, i, kids, m1, m2, m3, (l1 ++ l2 ++ l3 ++ m4). repeat split; try assumption; [econstructor; eassumption|].
    rewrite PM. replace (l1 ++ l2 ++ l3 ++ m1 ++ m2 ++ m3 ++ m4) with ((l1 ++ l2 ++ l3) ++ (m1 ++ m2 ++ m3) ++ m4) by (rewrite <- !app_assoc; reflexivity).
    eapply perm_trans; [apply Permutation_app_swap_app|]. rewrite <- !app_assoc. reflexivity.
Qed.
