(** Lemmas on the memory of XML trees: what the functions do to the views of the blocks, and destruction. *)
From Coq Require Import NArith Bool Arith List Lia Permutation.
From Verif Require Import Outcome XmlMemoryModel XmlMemorySpec.
Import ListNotations.

Lemma bind_Ok {A B} (m : outcome A) (f : A -> outcome B) y : (let* x := m in f x) = Ok y -> exists x, m = Ok x /\ f x = Ok y.
Proof. destruct m; cbn; try discriminate. eauto. Qed.
Ltac inv_bind H := let x := fresh "x" in let E := fresh "E" in apply bind_Ok in H; destruct H as (x & E & H).

(** ** Views *)
Definition norm (b : block) : block := match b with Elem e => Elem (core e) | _ => b end.
Lemma view_get h p : view h p = match get h p with Some (true, b) => Some (norm b) | _ => None end.
Proof. unfold view. destruct (get h p) as [[[] []]|]; reflexivity. Qed.
Lemma nth_update {A} (l : list A) i x j : nth_error (update i x l) j = if j =? i then match nth_error l j with Some _ => Some x | None => None end else nth_error l j.
Proof. revert i j. induction l as [|a l IH]; intros [|i] [|j]; cbn; try reflexivity; [destruct (j =? i); reflexivity|apply IH]. Qed.
Lemma get_set h p c q : get (set h p c) q = if q =? p then match get h q with Some _ => Some c | None => None end else get h q.
Proof.
  destruct p as [|i]; [destruct q; reflexivity|]. destruct q as [|j]; [reflexivity|]. cbn [set get]. rewrite nth_update. reflexivity.
Qed.
Lemma view_set h p b c q : get h p = Some c -> view (set h p b) q = if q =? p then (if fst b then Some (norm (snd b)) else None) else view h q.
Proof.
  intros E. rewrite !view_get, get_set. destruct (Nat.eqb_spec q p) as [->|]; [|reflexivity]. rewrite E. destruct b as [[] b]; reflexivity.
Qed.
Lemma view_alloc h b q : view (h ++ [(true, b)]) q = if q =? S (length h) then Some (norm b) else view h q.
Proof.
  rewrite !view_get. destruct q as [|q]; [reflexivity|]. cbn [get]. destruct (Nat.eqb_spec (S q) (S (length h))) as [E|E].
  - injection E as ->. rewrite nth_error_app2, Nat.sub_diag by lia. reflexivity.
  - destruct (Nat.lt_ge_cases q (length h)) as [L|L]; [rewrite nth_error_app1 by exact L; reflexivity|].
    assert (nth_error (h ++ [(true, b)]) q = None) as -> by (apply nth_error_None; rewrite app_length; cbn; lia).
    assert (nth_error h q = None) as -> by (apply nth_error_None; lia). reflexivity.
Qed.
Lemma view_fresh h : view h (S (length h)) = None.
Proof. rewrite view_get. cbn [get]. assert (nth_error h (length h) = None) as -> by (apply nth_error_None; lia). reflexivity. Qed.
Lemma view_zero h : view h 0 = None.
Proof. reflexivity. Qed.
Lemma view_bound h p : view h p <> None -> p < S (length h).
Proof.
  rewrite view_get. destruct p as [|p]; [lia|]. cbn [get]. destruct (nth_error h p) eqn:E; [|congruence]. intros _.
  assert (nth_error h p <> None) as L by congruence. apply nth_error_Some in L. lia.
Qed.
Lemma load_view h p b : load h p = Ok b -> view h p = Some (norm b).
Proof. unfold load. rewrite view_get. destruct (get h p) as [[[] c]|]; try discriminate. intros [= ->]. reflexivity. Qed.
Lemma load_element_view h p e : load_element h p = Ok e -> view h p = Some (Elem (core e)).
Proof.
  unfold load_element. intros H. inv_bind H. apply load_view in E. destruct x; try discriminate. injection H as ->. exact E.
Qed.
Lemma view_load_element h p e : view h p = Some (Elem e) -> exists e', load_element h p = Ok e' /\ core e' = e.
Proof.
  rewrite view_get. unfold load_element, load. destruct (get h p) as [[[] [l|l|x]]|]; try discriminate. cbn [norm]. intros [= <-]. cbn. eauto.
Qed.
Lemma view_load_slots h p l : view h p = Some (Slots l) -> load_slots h p = Ok l.
Proof. rewrite view_get. unfold load_slots, load. destruct (get h p) as [[[] [x|x|x]]|]; try discriminate. cbn [norm]. intros [= <-]. reflexivity. Qed.
Lemma view_load_text h p l : view h p = Some (Text l) -> load_text h p = Ok l.
Proof. rewrite view_get. unfold load_text, load. destruct (get h p) as [[[] [x|x|x]]|]; try discriminate. cbn [norm]. intros [= <-]. reflexivity. Qed.
Lemma change_view f p h h' : change p f h = Ok h' ->
  exists e, load_element h p = Ok e /\ forall q, view h' q = if q =? p then Some (Elem (core (f e))) else view h q.
Proof.
  unfold change. intros H. inv_bind H. assert (h' = set h p (true, Elem (f x))) as -> by congruence. exists x. split; [exact E|]. intros q.
  assert (exists c, get h p = Some c) as (c & G).
  { apply load_element_view in E. rewrite view_get in E. destruct (get h p); [eauto|discriminate]. }
  rewrite (view_set _ _ _ c) by exact G. reflexivity.
Qed.
Lemma change_ok f p h e : view h p = Some (Elem e) -> exists h' e', change p f h = Ok h' /\ core e' = e /\
  forall q, view h' q = if q =? p then Some (Elem (core (f e'))) else view h q.
Proof.
  intros V. destruct (view_load_element h p e V) as (e' & E & C). unfold change. rewrite E. cbn [bind]. eexists _, e'. split; [reflexivity|]. split; [exact C|].
  intros q. assert (exists c, get h p = Some c) as (c & G) by (rewrite view_get in V; destruct (get h p); [eauto|discriminate]).
  rewrite (view_set _ _ _ c) by exact G. reflexivity.
Qed.
Lemma Relinquish_ok p h : view h p <> None -> exists h', Relinquish p h = Ok h' /\ forall q, view h' q = if q =? p then None else view h q.
Proof.
  intros V. rewrite view_get in V. destruct p as [|p]; [cbn in V; congruence|]. unfold Relinquish, load. destruct (get h (S p)) as [[[] b]|] eqn:G; try congruence.
  cbn [bind]. exists (set h (S p) (false, b)). split; [reflexivity|]. intros q. rewrite (view_set _ _ _ _ _ G). reflexivity.
Qed.
Lemma Relinquish_view p h h' : Relinquish p h = Ok h' -> p <> 0 -> forall q, view h' q = if q =? p then None else view h q.
Proof.
  intros H N q. destruct p as [|p]; [congruence|]. unfold Relinquish in H. inv_bind H. assert (h' = set h (S p) (false, x)) as -> by congruence.
  unfold load in E. destruct (get h (S p)) as [[[] b]|] eqn:G; try discriminate. rewrite (view_set _ _ _ _ _ G). reflexivity.
Qed.

(** ** Lists of tags: nothing but the links to siblings and to elements with the same tag changes *)
Definition same (h h' : heap) : Prop := forall q, view h' q = view h q.
Lemma same_trans a b c : same a b -> same b c -> same a c.
Proof. intros H K q. rewrite K. apply H. Qed.
Lemma change_same f p h h' : (forall e, core (f e) = core e) -> change p f h = Ok h' -> same h h'.
Proof.
  intros C H. apply change_view in H. destruct H as (e & E & V). intros q. rewrite V. destruct (Nat.eqb_spec q p) as [->|]; [|reflexivity].
  rewrite C. symmetry. apply load_element_view. exact E.
Qed.
Lemma change_next x p h h' : change p (with_next x) h = Ok h' -> same h h'.
Proof. apply change_same. reflexivity. Qed.
Lemma change_sibling x p h h' : change p (with_sibling x) h = Ok h' -> same h h'.
Proof. apply change_same. reflexivity. Qed.
Lemma link_by_tag_same fuel head c o h h' : link_by_tag fuel head c o h = Ok h' -> same h h'.
Proof.
  unfold link_by_tag. intros H. inv_bind H. inv_bind H. inv_bind H. destruct x1 as [previous node]. inv_bind H. destruct x1.
  - inv_bind H. inv_bind H. inv_bind H. apply change_next in E5, H. eapply same_trans; eauto.
  - inv_bind H. assert (same h x1) as S1.
    { destruct previous as [|previous]; [injection E3 as <-; intros q; reflexivity|]. destruct node as [|node]; [injection E3 as <-; intros q; reflexivity|].
      inv_bind E3. apply change_sibling in E3. exact E3. }
    inv_bind H. apply change_next in E4. inv_bind H. destruct x3 as [pr nd]. inv_bind H. apply change_sibling in E6.
    assert (same x3 h') as S2 by (destruct pr; [injection H as <-; intros q; reflexivity|apply change_sibling in H; exact H]).
    intros q. rewrite S2, E6, E4, S1. reflexivity.
Qed.
Lemma unlink_by_tag_same fuel head c h h' : unlink_by_tag fuel head c h = Ok h' -> same h h'.
Proof.
  unfold unlink_by_tag. intros H. inv_bind H. inv_bind H. inv_bind H. inv_bind H. inv_bind H. destruct x3 as [h1 node].
  assert (same h h1) as S1.
  { destruct (tag_eq x2 x0); [injection E3 as <- _; intros q; reflexivity|]. inv_bind E3. inv_bind E3. destruct (e_sibling x4 =? c).
    - inv_bind E3. injection E3 as <- _. destruct (e_next x); [inv_bind E6|]; apply change_sibling in E6; exact E6.
    - injection E3 as <- _. intros q; reflexivity. }
  inv_bind H. inv_bind H. destruct (e_next x4); [injection H as <-; exact S1|]. inv_bind H. apply change_next in H. eapply same_trans; eauto.
Qed.

(** ** Framing *)
Lemma pairs_frame h h' a l r : pairs_at h a l r -> (forall q, In q r -> view h' q = view h q) -> pairs_at h' a l r.
Proof. intros H F. destruct H as [|a k v kp vp A K V]; [constructor|]. constructor; try (rewrite F; cbn; tauto). assumption. Qed.
Lemma element_frame h h' p e i l : element_at h p e i l -> (forall q, In q l -> view h' q = view h q) -> element_at h' p e i l.
Proof.
  intros [r V T C P O M] F. constructor; try assumption; try (rewrite F; [assumption|cbn; tauto]).
  eapply pairs_frame; [exact P|]. intros q Q. apply F. cbn. tauto.
Qed.
Definition grows (env env' : list nat) : Prop := forall k x, nth_error env k = Some x -> nth_error env' k = Some x.
Lemma grows_refl env : grows env env.
Proof. intros k x H. exact H. Qed.
Lemma grows_app env l : grows env (env ++ l).
Proof. intros k x H. rewrite nth_error_app1; [exact H|]. apply nth_error_Some. congruence. Qed.
Lemma children_frame h h' env env' par p f l : children_at h env par p f l -> (forall q, In q l -> view h' q = view h q) -> grows env env' ->
  children_at h' env' par p f l.
Proof.
  intros H F G. induction H as [|par p id i kids rest e l1 l2 l3 N E P Z B K IHK R IHR]; [constructor|]. econstructor; try eassumption.
  - apply G, N.
  - eapply element_frame; [exact E|]. intros q Q. apply F. rewrite in_app_iff. tauto.
  - apply IHK. intros q Q. apply F. rewrite !in_app_iff. tauto.
  - apply IHR. intros q Q. apply F. rewrite !in_app_iff. tauto.
Qed.
Lemma table_frame h h' e i l : table_at h e i l -> (forall q, In q l -> view h' q = view h q) -> table_at h' e i l.
Proof.
  unfold table_at. destruct (i_held i); [tauto|]. intros (P & t & x & E & V & ->) F. split; [exact P|]. exists t, x. rewrite F by (cbn; tauto). tauto.
Qed.
Lemma trees_frame h h' env env' f l : trees_at h env f l -> (forall q, In q l -> view h' q = view h q) -> grows env env' -> trees_at h' env' f l.
Proof.
  intros H F G. induction H as [|p id i kids rest e l1 l2 l3 l4 N E T O K R IHR]; [constructor|]. econstructor; try eassumption.
  - apply G, N.
  - eapply element_frame; [exact E|]. intros q Q. apply F. rewrite in_app_iff. tauto.
  - eapply table_frame; [exact T|]. intros q Q. apply F. rewrite !in_app_iff. tauto.
  - eapply children_frame; [exact K| |exact G]. intros q Q. apply F. rewrite !in_app_iff. tauto.
  - apply IHR. intros q Q. apply F. rewrite !in_app_iff. tauto.
Qed.
(** all blocks of an element are in use *)
Lemma element_live h p e i l q : element_at h p e i l -> In q l -> view h q <> None.
Proof.
  intros [r V T C P O M] [<-|[<-|[<-|Q]]]; try congruence. destruct P as [|a k v kp vp A K W]; [destruct Q|]. destruct Q as [<-|[<-|[<-|[]]]]; congruence.
Qed.
Lemma children_live h env par p f l q : children_at h env par p f l -> In q l -> view h q <> None.
Proof.
  intros H. induction H as [|par p id i kids rest e l1 l2 l3 N E P Z B K IHK R IHR]; [intros []|]. rewrite !in_app_iff. intros [Q|[Q|Q]]; [|tauto|tauto].
  eapply element_live; eassumption.
Qed.
Lemma nodup_app {A} (a b : list A) : NoDup (a ++ b) <-> NoDup a /\ NoDup b /\ forall x, In x a -> ~ In x b.
Proof.
  induction a as [|x a IH]; cbn [app].
  - split; [intros H; repeat split; [constructor|exact H|intros y []]|tauto].
  - rewrite !NoDup_cons_iff, IH, in_app_iff. cbn [In]. split.
    + intros (N & P & Q & R). repeat split; try tauto. intros y [<-|Y]; [tauto|exact (R y Y)].
    + intros ((N & P) & Q & R). repeat split; try tauto; [|intros y Y; apply R; tauto]. intros [I|I]; [tauto|exact (R x (or_introl eq_refl) I)].
Qed.

(** ** Destruction *)
(** the blocks of [l] are given back, the others are as they were *)
Definition gone (h h' : heap) (l : list nat) : Prop := forall q, (In q l -> view h' q = None) /\ (~ In q l -> view h' q = view h q).
Lemma gone_app a b c l m : gone a b l -> gone b c m -> gone a c (l ++ m).
Proof.
  intros H K q. rewrite in_app_iff. destruct (H q) as [H1 H2], (K q) as [K1 K2]. split.
  - intros [I|I]; [|tauto]. destruct (in_dec Nat.eq_dec q m) as [J|J]; [tauto|]. rewrite K2 by exact J. tauto.
  - intros N. rewrite K2, H2 by tauto. reflexivity.
Qed.
Lemma gone_perm a b l m : gone a b l -> (forall q, In q l <-> In q m) -> gone a b m.
Proof. intros H P q. rewrite <- P. apply H. Qed.
Lemma gone_nil a : gone a a [].
Proof. intros q. cbn. tauto. Qed.
Lemma Relinquish_gone p h : view h p <> None -> exists h', Relinquish p h = Ok h' /\ gone h h' [p].
Proof.
  intros V. destruct (Relinquish_ok p h V) as (h' & E & W). exists h'. split; [exact E|]. intros q. rewrite W. cbn. destruct (Nat.eqb_spec q p) as [->|N]; intuition congruence.
Qed.
Lemma destroy_pairs h a l r : pairs_at h a l r -> NoDup r -> exists h', DestroyXMLTreeAttributes a h = Ok h' /\ gone h h' r.
Proof.
  intros [|a' k v kp vp A K V NK] D; [exists h; split; [reflexivity|apply gone_nil]|].
  assert (a' <> 0) as NA by (intros ->; discriminate A). inversion D as [|? ? D1 D2]; subst. inversion D2 as [|? ? D3 D4]; subst. cbn in D1, D3.
  unfold DestroyXMLTreeAttributes. destruct a' as [|a']; [congruence|]. rewrite (view_load_slots _ _ _ A). cbn [bind].
  destruct (Relinquish_gone kp h) as (h1 & E1 & G1); [congruence|].
  assert (vp <> 0) as NV by (intros ->; discriminate V).
  destruct (Relinquish_gone vp h1) as (h2 & E2 & G2); [rewrite (proj2 (G1 vp)); [congruence|cbn; intuition congruence]|].
  destruct (Relinquish_gone (S a') h2) as (h3 & E3 & G3).
  { rewrite (proj2 (G2 _)), (proj2 (G1 _)); [congruence|cbn; intuition|cbn; intuition]. }
  exists h3. split.
  - cbn [length destroy_slots slot nth_error bind Nat.add]. destruct kp as [|kp]; [congruence|]. rewrite E1. cbn [bind]. rewrite E2. cbn [bind]. rewrite E3. reflexivity.
  - eapply gone_perm; [eapply gone_app; [exact G1|eapply gone_app; [exact G2|exact G3]]|]. intros q. cbn. tauto.
Qed.
(** the table of a root that is below no other *)
Definition root_at (h : heap) (e : element) (l : list nat) : Prop :=
  (e_parent e <> 0 /\ l = []) \/ (e_parent e = 0 /\ exists t x, e_entities e = Some t /\ view h t = Some (Slots x) /\ l = [t]).
Lemma table_root h e i l : table_at h e i l -> root_at h e l.
Proof. unfold table_at, root_at. destruct (i_held i); tauto. Qed.
Lemma root_frame h h' e l : root_at h e l -> (forall q, In q l -> view h' q = view h q) -> root_at h' e l.
Proof.
  unfold root_at. intros [H|(P & t & x & E & V & ->)] F; [tauto|]. right. split; [exact P|]. exists t, x. rewrite F by (cbn; tauto). tauto.
Qed.
Lemma destroy_root h p e l : view h p = Some (Elem e) -> root_at h e l -> exists h', DestroyXMLTreeRoot p h = Ok h' /\ gone h h' l.
Proof.
  intros V R. unfold DestroyXMLTreeRoot. destruct (view_load_element h p e V) as (e' & L & C). rewrite L. cbn [bind].
  assert (e_parent e' = e_parent e /\ e_entities e' = e_entities e) as [-> ->] by (rewrite <- C; split; reflexivity).
  destruct R as [(P & ->)|(P & t & x & E & W & ->)].
  - destruct (e_parent e); [congruence|]. exists h. split; [reflexivity|apply gone_nil].
  - rewrite P, E, (view_load_slots _ _ _ W). cbn [bind]. apply Relinquish_gone. congruence.
Qed.
Lemma core_fields e e' : core e' = e -> e_tag e' = e_tag e /\ e_attributes e' = e_attributes e /\ e_content e' = e_content e /\ e_offset e' = e_offset e /\
  e_parent e' = e_parent e /\ e_ordered e' = e_ordered e /\ e_child e' = e_child e /\ e_entities e' = e_entities e.
Proof. intros <-. repeat split. Qed.
Lemma viewed_core h p e : view h p = Some (Elem e) -> core e = e.
Proof. intros V. destruct (view_load_element h p e V) as (e' & _ & <-). reflexivity. Qed.

Section Destroy.
Variable env : list nat.
Definition destroys_tree (n : nat) : Prop := forall fuel h p e i kids rest par l1 l2 l3 l4,
  S (size kids + size rest) <= n -> 2 * n <= fuel -> element_at h p e i l1 -> root_at h e l2 -> children_at h env p (e_child e) kids l3 ->
  children_at h env par (e_ordered e) rest l4 -> NoDup (l1 ++ l2 ++ l3 ++ l4) ->
  exists h', DestroyXMLTree fuel p h = Ok h' /\ gone h h' (l1 ++ l2 ++ l3 ++ l4).
Definition destroys_chain (n : nat) : Prop := forall fuel h up par p f l,
  size f <= n -> 2 * n + 1 <= fuel -> children_at h env par p f l -> NoDup l ->
  exists h', destroy_chain fuel up p h = Ok h' /\ gone h h' l.

Lemma tree_step n : destroys_chain n -> destroys_tree (S n).
Proof.
  intros IH fuel h p e i kids rest par l1 l2 l3 l4 Z U E R K O D. destruct fuel as [|fuel]; [lia|]. cbn [DestroyXMLTree].
  rewrite !nodup_app in D. destruct D as (D1 & (D2 & (D3 & D4 & X34) & X2) & X1).
  assert (forall x, In x l1 -> ~ In x l2 /\ ~ In x l3 /\ ~ In x l4) as X1' by (intros x I; specialize (X1 x I); rewrite !in_app_iff in X1; tauto).
  assert (forall x, In x l2 -> ~ In x l3 /\ ~ In x l4) as X2' by (intros x I; specialize (X2 x I); rewrite !in_app_iff in X2; tauto).
  pose proof E as E0. destruct E0 as [r V T C P OF M]. set (l1 := p :: e_tag e :: e_content e :: r) in *.
  assert (In p l1 /\ In (e_tag e) l1 /\ In (e_content e) l1 /\ forall q, In q r -> In q l1) as (I1 & I2 & I3 & I4) by (subst l1; cbn; tauto).
  destruct (view_load_element h p e V) as (e1 & L1 & C1). rewrite L1. cbn [bind]. destruct (core_fields _ _ C1) as (_ & _ & _ & _ & _ & _ & -> & _).
  destruct (IH fuel h false p (e_child e) kids l3) as (h1 & E1 & G1); [lia|lia|exact K|exact D3|]. rewrite E1. cbn [bind].
  assert (view h1 p = Some (Elem e)) as V1 by (rewrite (proj2 (G1 p)); [exact V|apply X1'; exact I1]).
  destruct (view_load_element h1 p e V1) as (e2 & L2 & C2). rewrite L2. cbn [bind]. destruct (core_fields _ _ C2) as (_ & _ & _ & _ & _ & -> & _ & _).
  destruct (IH fuel h1 true par (e_ordered e) rest l4) as (h2 & E2 & G2); [lia|lia| |exact D4|].
  { eapply children_frame; [exact O| |apply grows_refl]. intros q Q. apply (proj2 (G1 q)). intros J. exact (X34 q J Q). }
  rewrite E2. cbn [bind]. pose proof (gone_app _ _ _ _ _ G1 G2) as G12.
  assert (forall q, In q l1 \/ In q l2 -> view h2 q = view h q) as W2.
  { intros q [Q|Q]; apply (proj2 (G12 q)); rewrite in_app_iff; [specialize (X1' q Q)|specialize (X2' q Q)]; tauto. }
  destruct (destroy_root h2 p e l2) as (h3 & E3 & G3); [rewrite W2 by tauto; exact V|eapply root_frame; [exact R|intros q Q; apply W2; tauto]|].
  rewrite E3. cbn [bind].
  assert (forall q, In q l1 -> view h3 q = view h q) as W3.
  { intros q Q. rewrite (proj2 (G3 q)); [apply W2; tauto|]. apply X1'. exact Q. }
  destruct (view_load_element h3 p e) as (e3 & L3 & C3); [rewrite W3 by tauto; exact V|]. rewrite L3. cbn [bind].
  destruct (core_fields _ _ C3) as (-> & -> & -> & _).
  assert (NoDup (e_tag e :: e_content e :: r) /\ ~ In p (e_tag e :: e_content e :: r)) as [D5 N5] by (unfold l1 in D1; apply NoDup_cons_iff in D1; tauto).
  apply NoDup_cons_iff in D5. destruct D5 as [N6 D6]. apply NoDup_cons_iff in D6. destruct D6 as [N7 D7]. cbn in N5, N6.
  destruct (destroy_pairs h3 (e_attributes e) (i_pairs i) r) as (h4 & E4 & G4); [eapply pairs_frame; [exact P|intros q Q; apply W3, I4, Q]|exact D7|].
  rewrite E4. cbn [bind].
  destruct (Relinquish_gone (e_content e) h4) as (h5 & E5 & G5); [rewrite (proj2 (G4 _)), W3; [congruence|tauto|tauto]|]. rewrite E5. cbn [bind].
  destruct (Relinquish_gone (e_tag e) h5) as (h6 & E6 & G6).
  { rewrite (proj2 (G5 _)), (proj2 (G4 _)), W3; [congruence|tauto|tauto|cbn; intuition]. }
  rewrite E6. cbn [bind].
  destruct (Relinquish_gone p h6) as (h7 & E7 & G7).
  { rewrite (proj2 (G6 _)), (proj2 (G5 _)), (proj2 (G4 _)), W3; [congruence|tauto|tauto|cbn; intuition|cbn; intuition]. }
  exists h7. split; [exact E7|]. eapply gone_perm.
  - eapply gone_app; [exact G12|]. eapply gone_app; [exact G3|]. eapply gone_app; [exact G4|]. eapply gone_app; [exact G5|]. eapply gone_app; [exact G6|exact G7].
  - intros q. unfold l1. rewrite !in_app_iff. cbn. tauto.
Qed.
Lemma chain_step n : (forall m, m < n -> destroys_chain m) -> (forall m, m <= n -> destroys_tree m) -> destroys_chain n.
Proof.
  intros IHC IHT fuel h up par p f l Z U H D. destruct fuel as [|fuel]; [lia|].
  destruct H as [|par p id i kids rest e l1 l2 l3 NE E P ZP B K R]; [exists h; split; [destruct up; reflexivity|apply gone_nil]|].
  cbn [size] in Z. rewrite !nodup_app in D. destruct D as (D1 & (D2 & D3 & X23) & X1).
  assert (forall x, In x l1 -> ~ In x l2 /\ ~ In x l3) as X1' by (intros x I; specialize (X1 x I); rewrite !in_app_iff in X1; tauto).
  pose proof E as E0. destruct E0 as [r V T C PA OF M].
  assert (p <> 0) as NZ by (intros ->; discriminate V).
  set (l1 := p :: e_tag e :: e_content e :: r) in *. assert (In p l1) as I1 by (subst l1; cbn; tauto).
  destruct (view_load_element h p e V) as (e1 & L1 & C1). pose proof (core_fields _ _ C1) as (F1 & F2 & F3 & F4 & F5 & F6 & F7 & F8).
  assert (forall b : bool, exists h1 e2, change p (if b then with_ordered 0 else with_child 0) h = Ok h1 /\
            element_at h1 p e2 i l1 /\ e_parent e2 = e_parent e /\ e_child e2 = (if b then e_child e else 0) /\ e_ordered e2 = (if b then 0 else e_ordered e) /\
            forall q, q <> p -> view h1 q = view h q) as Change.
  { intros b. destruct (change_ok (if b then with_ordered 0 else with_child 0) p h e V) as (h1 & e' & EC & CC & W). exists h1.
    pose proof (core_fields _ _ CC) as (F1' & F2' & F3' & F4' & F5' & F6' & F7' & F8').
    exists (core ((if b then with_ordered 0 else with_child 0) e')). split; [exact EC|].
    assert (forall q, q <> p -> view h1 q = view h q) as WO by (intros q Q; rewrite W; destruct (Nat.eqb_spec q p); [congruence|reflexivity]).
    assert (~ In p (e_tag e :: e_content e :: r)) as N5 by (unfold l1 in D1; apply NoDup_cons_iff in D1; tauto). cbn in N5.
    assert (view h1 (e_tag e) = Some (Text (i_tag i)) /\ view h1 (e_content e) = Some (Text (i_text i)) /\ pairs_at h1 (e_attributes e) (i_pairs i) r) as (A1 & A2 & A3).
    { rewrite !WO by intuition. repeat split; try assumption. eapply pairs_frame; [exact PA|]. intros q Q. apply WO. intros ->. tauto. }
    split; [|destruct b; cbn; rewrite ?F5', ?F6', ?F7'; repeat split; auto].
    unfold l1. destruct b; cbn [core with_ordered with_child with_next with_sibling]; rewrite <- ?F1', <- ?F3' in *; rewrite <- ?F2' in A3; rewrite <- F4' in OF; rewrite <- F8' in M.
    all: match goal with |- element_at _ _ ?x _ _ => change (e_tag e') with (e_tag x); change (e_content e') with (e_content x) end.
    all: constructor; cbn; try assumption; rewrite W, Nat.eqb_refl; reflexivity. }
  cbn [destroy_chain]. destruct p as [|p']; [congruence|]. set (p := S p') in *. rewrite L1. cbn [bind].
  destruct (Change up) as (h1 & e2 & EC & AE & PE & CE & OE & WO). rewrite EC. cbn [bind].
  assert (forall q, In q l2 \/ In q l3 -> view h1 q = view h q) as W1 by (intros q Q; apply WO; intros ->; specialize (X1' p I1); tauto).
  assert (root_at h1 e2 []) as RA by (left; split; [rewrite PE, P; exact ZP|reflexivity]).
  destruct up.
  - destruct (IHT (S (size kids)) ltac:(lia) fuel h1 p e2 i kids Nil par l1 [] l2 []) as (h2 & E2 & G2); try assumption.
    + cbn [size]. lia.
    + lia.
    + rewrite CE. eapply children_frame; [exact K|intros q Q; apply W1; tauto|apply grows_refl].
    + rewrite OE. constructor.
    + cbn [app]. rewrite app_nil_r, nodup_app. repeat split; try assumption. intros x I. apply X1'. exact I.
    + rewrite E2. cbn [bind]. cbn [app] in G2. rewrite app_nil_r in G2. rewrite F6.
      destruct (IHC (size rest) ltac:(lia) fuel h2 true par (e_ordered e) rest l3) as (h3 & E3 & G3); [lia|lia| |exact D3|].
      { eapply children_frame; [exact R| |apply grows_refl]. intros q Q. rewrite (proj2 (G2 q)); [apply W1; tauto|]. rewrite in_app_iff. intros [J|J]; [specialize (X1' q J); tauto|exact (X23 q J Q)]. }
      exists h3. split; [exact E3|]. intros q. pose proof (gone_app _ _ _ _ _ G2 G3 q) as GG. rewrite <- app_assoc in GG. split; [apply GG|].
      intros N. rewrite (proj2 GG N). apply WO. intros ->. apply N. rewrite in_app_iff. tauto.
  - destruct (IHT (S (size rest)) ltac:(lia) fuel h1 p e2 i Nil rest par l1 [] [] l3) as (h2 & E2 & G2); try assumption.
    + cbn [size]. lia.
    + lia.
    + rewrite CE. constructor.
    + rewrite OE. eapply children_frame; [exact R|intros q Q; apply W1; tauto|apply grows_refl].
    + cbn [app]. rewrite nodup_app. repeat split; try assumption. intros x I. apply X1'. exact I.
    + rewrite E2. cbn [bind]. cbn [app] in G2. rewrite F7.
      destruct (IHC (size kids) ltac:(lia) fuel h2 false p (e_child e) kids l2) as (h3 & E3 & G3); [lia|lia| |exact D2|].
      { eapply children_frame; [exact K| |apply grows_refl]. intros q Q. rewrite (proj2 (G2 q)); [apply W1; tauto|]. rewrite in_app_iff. intros [J|J]; [specialize (X1' q J); tauto|exact (X23 q Q J)]. }
      exists h3. split; [exact E3|]. intros q. pose proof (gone_app _ _ _ _ _ G2 G3 q) as GG. rewrite !in_app_iff in *. split; [intros J; apply (proj1 GG); tauto|].
      intros N. rewrite (proj2 GG) by tauto. apply WO. intros ->. tauto.
Qed.
Lemma destroy_all n : (forall m, m <= n -> destroys_chain m) /\ (forall m, m <= n -> destroys_tree m).
Proof.
  induction n as [|n [IHC IHT]].
  - assert (destroys_tree 0) as T0 by (intros fuel h p e i kids rest par l1 l2 l3 l4 Z; lia).
    split; intros m L; assert (m = 0) as -> by lia; [|exact T0]. apply chain_step; [intros m' L'; lia|]. intros m' L'. assert (m' = 0) as -> by lia. exact T0.
  - assert (destroys_tree (S n)) as TS by (apply tree_step, IHC; lia).
    assert (forall m, m <= S n -> destroys_tree m) as TT by (intros m L; destruct (Nat.eq_dec m (S n)) as [->|]; [exact TS|apply IHT; lia]).
    split; [|exact TT]. intros m L. destruct (Nat.eq_dec m (S n)) as [->|]; [|apply IHC; lia]. apply chain_step; [intros k K; apply IHC; lia|exact TT].
Qed.
End Destroy.
