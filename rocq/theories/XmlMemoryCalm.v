(** Programs that prune nothing and give each element one attribute at most always go through. *)
From Coq Require Import NArith Bool Arith List Lia Permutation Sorting.
From Verif Require Import Outcome XmlMemoryModel XmlMemorySpec XmlMemoryProof XmlMemoryRun XmlMemoryOps XmlMemoryMain XmlMemoryInv XmlMemoryTotal.
Import ListNotations.
Notation sorted := (StronglySorted before_or_at).

(** ** Calls that leave the lists of tags alone *)
Definition calm (h h' : heap) : Prop := length h <= length h' /\
  forall a e', a <= length h -> load_element h' a = Ok e' -> exists e, load_element h a = Ok e /\ e_next e' = e_next e /\ e_sibling e' = e_sibling e.
Lemma calm_refl h : calm h h.
Proof. split; [lia|]. intros a e _ E. exists e. tauto. Qed.
Lemma calm_trans a b c : calm a b -> calm b c -> calm a c.
Proof.
  intros [L1 F] [L2 G]. split; [lia|]. intros x e Q E. destruct (G x e) as (e1 & E1 & N1 & S1); [lia|exact E|]. destruct (F x e1 Q E1) as (e2 & E2 & N2 & S2). exists e2. repeat split; congruence.
Qed.
Lemma calm_alloc h b : calm h (h ++ [(true, b)]).
Proof.
  split; [rewrite app_length; lia|]. intros [|a] e Q E; [discriminate|]. exists e. split; [|tauto]. unfold load_element, load in *. cbn [get] in *. rewrite nth_error_app1 in E by lia. exact E.
Qed.
Lemma calm_change p f h h' : change p f h = Ok h' -> (forall x, e_next (f x) = e_next x /\ e_sibling (f x) = e_sibling x) -> calm h h'.
Proof.
  intros C F. split; [rewrite (change_length _ _ _ _ C); lia|]. assert (exists x, load_element h p = Ok x) as (x & X) by (unfold change in C; inv_bind C; eauto). destruct (change_raw p f h x X) as (h1 & C1 & R1 & R2 & _). assert (h1 = h') as -> by congruence.
  intros a e _ E. destruct (Nat.eq_dec a p) as [->|N]; [|rewrite R2 in E by exact N; exists e; tauto]. exists x. assert (e = f x) as -> by congruence. split; [exact X|apply F].
Qed.
Lemma calm_set h p b : (forall e, b <> (true, Elem e)) -> calm h (set h p b).
Proof.
  intros B. split; [rewrite set_length; lia|]. intros a e _ E. destruct (Nat.eq_dec a p) as [->|N].
  - exfalso. unfold load_element, load in E. destruct (get (set h p b) p) as [[[] y]|] eqn:G; try discriminate. cbn [bind] in E. destruct y as [y|y|y]; try discriminate. injection E as ->.
    destruct p as [|p]; [discriminate|]. cbn in G. assert (Some (true, Elem e) = Some b) as Q.
    { rewrite <- G. clear - G. revert p G. induction h as [|z h IH]; intros [|p]; cbn; try discriminate; [reflexivity|]. apply IH. }
    apply (B e). congruence.
  - exists e. split; [|tauto]. unfold load_element, load in *. rewrite get_set_ne in E by exact N. exact E.
Qed.
Lemma calm_Relinquish p h h' : Relinquish p h = Ok h' -> calm h h'.
Proof. unfold Relinquish. destruct p as [|p]; [intros [= <-]; apply calm_refl|]. intros H. inv_bind H. rewrite (Ok_inj _ _ H). apply calm_set. discriminate. Qed.
Lemma calm_content p t h h' : SetXMLTreeContent p t h = Ok h' -> calm h h'.
Proof.
  unfold SetXMLTreeContent. intros H. inv_bind H. inv_bind H. cbn [alloc] in H. eapply calm_trans; [eapply calm_Relinquish, E0|]. eapply calm_trans; [apply calm_alloc|]. eapply calm_change; [exact H|]. intros y. split; reflexivity.
Qed.
Lemma calm_attribute fuel p k v h h' : SetXMLTreeAttribute fuel p k v h = Ok h' -> calm h h'.
Proof.
  unfold SetXMLTreeAttribute. intros H. inv_bind H. inv_bind H. destruct x0 as [l [i found]]. inv_bind H. destruct x0 as [[h1 a] l1]. inv_bind H. inv_bind H. inv_bind H. cbn [alloc] in H. inv_bind H. inv_bind H. rewrite (Ok_inj _ _ H).
  eapply calm_trans; [|eapply calm_trans; [eapply calm_Relinquish, E4|eapply calm_trans; [apply calm_alloc|apply calm_set; discriminate]]].
  clear - E1. destruct found; [injection E1 as <- _ _; apply calm_refl|]. destruct (e_attributes x) as [|n].
  - cbn [alloc] in E1. inv_bind E1. inv_bind E1. inv_bind E1. inv_bind E1. inv_bind E1. injection E1 as <- _ _. eapply calm_trans; [apply calm_alloc|]. eapply calm_trans; [apply calm_alloc|]. eapply calm_trans; [apply calm_alloc|].
    eapply calm_change; [eassumption|]. intros y. split; reflexivity.
  - cbn [alloc] in E1. inv_bind E1. inv_bind E1. inv_bind E1. inv_bind E1. injection E1 as <- _ _. apply calm_alloc.
Qed.
Lemma calm_slots fuel l : forall i h h', destroy_slots fuel l i h = Ok h' -> calm h h'.
Proof.
  induction fuel as [|fuel IH]; intros i h h' H; [discriminate|]. cbn [destroy_slots] in H. inv_bind H. destruct x; [injection H as <-; apply calm_refl|]. inv_bind H. inv_bind H. inv_bind H.
  eapply calm_trans; [exact (calm_Relinquish _ _ _ E0)|]. eapply calm_trans; [exact (calm_Relinquish _ _ _ E2)|]. eapply IH, H.
Qed.
Lemma calm_destroy fuel : (forall p h h', DestroyXMLTree fuel p h = Ok h' -> calm h h') /\ (forall up p h h', destroy_chain fuel up p h = Ok h' -> calm h h').
Proof.
  induction fuel as [|fuel [IHT IHC]]; [split; intros; discriminate|]. split.
  - intros p h h' H. cbn [DestroyXMLTree] in H. inv_bind H. inv_bind H. inv_bind H. inv_bind H. inv_bind H. inv_bind H. inv_bind H. inv_bind H. inv_bind H.
    eapply calm_trans; [exact (IHC _ _ _ _ E0)|]. eapply calm_trans; [exact (IHC _ _ _ _ E2)|]. apply calm_trans with x3; [|apply calm_trans with x5; [|eapply calm_trans; [exact (calm_Relinquish _ _ _ E6)|eapply calm_trans; [exact (calm_Relinquish _ _ _ E7)|exact (calm_Relinquish _ _ _ H)]]]].
    + clear - E3. unfold DestroyXMLTreeRoot in E3. inv_bind E3. destruct (e_parent x); [|injection E3 as <-; apply calm_refl]. destruct (e_entities x); [|discriminate]. inv_bind E3. eapply calm_Relinquish; eassumption.
    + clear - E5. unfold DestroyXMLTreeAttributes in E5. destruct (e_attributes x4); [injection E5 as <-; apply calm_refl|]. inv_bind E5. inv_bind E5. eapply calm_trans; [eapply calm_slots; eassumption|]. eapply calm_Relinquish; eassumption.
  - intros up p h h' H. cbn [destroy_chain] in H. destruct p as [|p]; [injection H as <-; apply calm_refl|]. inv_bind H. inv_bind H. inv_bind H.
    eapply calm_trans; [eapply calm_change; [eassumption|destruct up; split; reflexivity]|]. eapply calm_trans; [eapply IHT; eassumption|]. eapply IHC; eassumption.
Qed.
Lemma lists_calm h h' K : lists h K -> calm h h' -> (forall a, In a K -> exists e, load_element h' a = Ok e) -> lists h' K.
Proof.
  intros L C V a I. destruct (L a I) as (e & E & N & S'). destruct (V a I) as (e' & E'). exists e'. split; [exact E'|]. destruct C as [_ C]. destruct (C a e') as (e1 & E1 & N1 & S1); [|exact E'|].
  - assert (view h a <> None) as W by (apply load_element_view in E; congruence). apply view_bound in W. lia.
  - assert (e1 = e) as -> by congruence. rewrite N1, S1. tauto.
Qed.

(** ** The lists of children of a forest *)
Fixpoint subs (f : forest) : list (list (nat * nat)) := match f with Nil => [] | Cons _ _ kids rest => heads kids :: subs kids ++ subs rest end.
Definition good (h : heap) (env : list nat) (f : forest) : Prop := forall H, In H (subs f) -> sorted H /\ lists h (addrs env H).
Lemma heads_tops f x : In x (heads f) -> In (fst x) (tops f).
Proof. induction f as [|id i kids _ rest IH]; cbn; [tauto|]. intros [<-|I]; cbn; auto. Qed.
Lemma subs_ids f H x : In H (subs f) -> In x H -> In (fst x) (ids f).
Proof.
  induction f as [|id i kids IHk rest IHr]; cbn [subs ids In]; [tauto|]. rewrite !in_app_iff. intros [<-|[I|I]] X; [|tauto|tauto]. right. left. apply tops_ids, heads_tops, X.
Qed.
Lemma heads_unique f x y : NoDup (ids f) -> In x (heads f) -> In y (heads f) -> fst x = fst y -> x = y.
Proof.
  induction f as [|id i kids _ rest IH]; cbn [heads ids In]; [tauto|]. rewrite NoDup_cons_iff, nodup_app, in_app_iff. intros (N & _ & Dr & _) [<-|I] [<-|J] E; [reflexivity| | |auto]; cbn in E; exfalso; apply N; right; apply tops_ids.
  - rewrite E. apply heads_tops, J.
  - rewrite <- E. apply heads_tops, I.
Qed.
(** a list in [subs] has no top *)
Lemma subs_not_top f H x : NoDup (ids f) -> In H (subs f) -> In x H -> ~ In (fst x) (tops f).
Proof.
  induction f as [|id i kids IHk rest IHr]; cbn [subs ids tops In]; [tauto|]. rewrite NoDup_cons_iff, nodup_app, in_app_iff. intros (N & Dk & Dr & X) I J T. rewrite in_app_iff in I. destruct I as [<-|[I|I]].
  - apply heads_tops, tops_ids in J. destruct T as [T|T]; [rewrite T in N; tauto|]. exact (X _ J (tops_ids _ _ T)).
  - pose proof (subs_ids _ _ _ I J) as Y. destruct T as [T|T]; [rewrite T in N; tauto|]. exact (X _ Y (tops_ids _ _ T)).
  - destruct T as [T|T]; [rewrite T in N; pose proof (subs_ids _ _ _ I J); tauto|]. exact (IHr Dr I J T).
Qed.
Lemma subs_disjoint f H1 H2 x y : NoDup (ids f) -> In H1 (subs f) -> In H2 (subs f) -> In x H1 -> In y H2 -> fst x = fst y -> H1 = H2.
Proof.
  induction f as [|id i kids IHk rest IHr]; cbn [subs ids In]; [tauto|]. rewrite NoDup_cons_iff, nodup_app, !in_app_iff. intros (N & Dk & Dr & X) I J XI YJ E. destruct I as [<-|[I|I]], J as [<-|[J|J]]; try reflexivity.
  - exfalso. apply (subs_not_top _ _ _ Dk J YJ). rewrite <- E. apply heads_tops, XI.
  - exfalso. apply (X (fst y)); [rewrite <- E; apply tops_ids, heads_tops, XI|exact (subs_ids _ _ _ J YJ)].
  - exfalso. apply (subs_not_top _ _ _ Dk I XI). rewrite E. apply heads_tops, YJ.
  - apply IHk; assumption.
  - exfalso. apply (X (fst y)); [rewrite <- E; exact (subs_ids _ _ _ I XI)|exact (subs_ids _ _ _ J YJ)].
  - exfalso. apply (X (fst x)); [rewrite E; apply tops_ids, heads_tops, YJ|exact (subs_ids _ _ _ I XI)].
  - exfalso. apply (X (fst x)); [rewrite E; exact (subs_ids _ _ _ J YJ)|exact (subs_ids _ _ _ I XI)].
  - apply IHr; assumption.
Qed.
Lemma subs_find p f i k : find p f = Some (i, k) -> incl (heads k :: subs k) (subs f).
Proof.
  induction f as [|id j kids IHk rest IHr]; cbn [find subs]; [discriminate|]. destruct (id =? p).
  - intros [= -> ->] H [<-|I]; cbn [In]; [tauto|]. rewrite in_app_iff. tauto.
  - destruct (find p kids) as [r|]; intros E H I; right; rewrite in_app_iff; [left; apply IHk; [congruence|exact I]|right; apply IHr; assumption].
Qed.
Lemma heads_replace p i' k' f : (forall q i k, find q f = Some (i, k) -> q = p -> i_offset i' = i_offset i) -> NoDup (ids f) -> heads (replace p i' k' f) = heads f.
Proof.
  induction f as [|id j kids IHk rest IHr]; cbn [replace heads find ids]; [reflexivity|]. rewrite NoDup_cons_iff, nodup_app, in_app_iff. intros F (N & Dk & Dr & X). destruct (Nat.eqb_spec id p) as [->|NE]; cbn [heads].
  - rewrite (F p j kids); [reflexivity| |reflexivity]. rewrite Nat.eqb_refl. reflexivity.
  - f_equal. apply IHr; [|exact Dr]. intros q i k Q ->. apply (F p i k); [|reflexivity]. destruct (Nat.eqb_spec id p); [congruence|]. rewrite find_out; [exact Q|]. intros I. exact (X p I (find_in _ _ _ Q)).
Qed.
Lemma subs_replace p i' k' f i k H : find p f = Some (i, k) -> i_offset i' = i_offset i -> NoDup (ids f) -> In H (subs (replace p i' k' f)) -> In H (subs f) \/ H = heads k' \/ In H (subs k').
Proof.
  intros F O D. assert (forall g, (forall q i0 k0, find q g = Some (i0, k0) -> q = p -> i_offset i' = i_offset i0) -> NoDup (ids g) -> In H (subs (replace p i' k' g)) -> In H (subs g) \/ H = heads k' \/ In H (subs k')) as X.
  { induction g as [|id j kids IHk rest IHr]; cbn [replace subs find ids]; [tauto|]. rewrite NoDup_cons_iff, nodup_app, in_app_iff. intros G (N & Dk & Dr & X). destruct (Nat.eqb_spec id p) as [->|NE]; cbn [subs In]; rewrite !in_app_iff.
    - intros [<-|[I|I]]; tauto.
    - assert (forall q i0 k0, find q kids = Some (i0, k0) -> q = p -> i_offset i' = i_offset i0) as Gk.
      { intros q i0 k0 Q ->. apply (G p i0 k0); [|reflexivity]. destruct (Nat.eqb_spec id p); [congruence|]. rewrite Q. reflexivity. }
      assert (forall q i0 k0, find q rest = Some (i0, k0) -> q = p -> i_offset i' = i_offset i0) as Gr.
      { intros q i0 k0 Q ->. apply (G p i0 k0); [|reflexivity]. destruct (Nat.eqb_spec id p); [congruence|]. rewrite find_out; [exact Q|]. intros I. exact (X p I (find_in _ _ _ Q)). }
      rewrite (heads_replace p i' k' kids Gk Dk). intros [<-|[I|I]]; [tauto|destruct (IHk Gk Dk I); tauto|destruct (IHr Gr Dr I); tauto]. }
  apply X; [|exact D]. intros q i0 k0 Q ->. congruence.
Qed.
Lemma subs_replaced p i' k' f : In p (ids f) -> In (heads k') (subs (replace p i' k' f)).
Proof.
  induction f as [|id j kids IHk rest IHr]; cbn [replace subs ids In]; [tauto|]. destruct (Nat.eqb_spec id p) as [->|N]; cbn [subs In]; [tauto|]. rewrite !in_app_iff. intros [I|[I|I]]; [congruence|tauto|tauto].
Qed.
Lemma subs_place c i k f H : In H (subs (place c i k f)) -> H = heads k \/ In H (subs k) \/ In H (subs f).
Proof.
  induction f as [|id j kids IHk rest IHr]; cbn [place subs In]; [rewrite app_nil_r; intuition|]. destruct (i_offset j <=? i_offset i); cbn [subs In]; rewrite !in_app_iff; [intros [<-|[I|I]]; [tauto|tauto|]; destruct (IHr I) as [J|[J|J]]; tauto|].
  cbn [subs In]. rewrite !in_app_iff. intuition.
Qed.
Lemma subs_remove c f : In c (tops f) -> NoDup (ids f) -> incl (subs (remove c f)) (subs f).
Proof.
  induction f as [|id j kids IHk rest IHr]; cbn [tops remove ids In]; [tauto|]. rewrite NoDup_cons_iff, nodup_app, in_app_iff. intros T (N & Dk & Dr & X). destruct (Nat.eqb_spec id c) as [->|NE].
  - intros H I. cbn [subs In]. rewrite in_app_iff. tauto.
  - destruct T as [T|T]; [congruence|]. rewrite (remove_out c kids) by (intros I; exact (X c I (tops_ids _ _ T))). intros H. cbn [subs In]. rewrite !in_app_iff. intros [I|[I|I]]; [tauto|tauto|]. right. right. apply (IHr T Dr), I.
Qed.
Lemma subs_live_children h env par q f l H x : children_at h env par q f l -> In H (subs f) -> In x H -> exists a e, nth_error env (fst x) = Some a /\ nth (fst x) env 0 = a /\ load_element h a = Ok e.
Proof.
  intros C. induction C as [|par q id j below rest e l1 l2 l3 N E P Z B K IHK R IHR]; cbn [subs In]; [tauto|]. rewrite in_app_iff. intros [<-|[I|I]] J; [|auto|auto].
  destruct (children_heads _ _ _ _ _ _ K x J) as (a & e' & t & A1 & A2 & _ & _ & A3 & _). exists a, e'. tauto.
Qed.
Lemma subs_live h env f l H x : trees_at h env f l -> In H (subs f) -> In x H -> exists a e, nth_error env (fst x) = Some a /\ nth (fst x) env 0 = a /\ load_element h a = Ok e.
Proof.
  intros C. induction C as [|q id j below rest e l1 l2 l3 l4 N E T O K R IHR]; cbn [subs In]; [tauto|]. rewrite in_app_iff. intros [<-|[I|I]] J; [| |auto].
  - destruct (children_heads _ _ _ _ _ _ K x J) as (a & e' & t & A1 & A2 & _ & _ & A3 & _). exists a, e'. tauto.
  - eapply subs_live_children; eassumption.
Qed.
Lemma good_calm h h' env env' f l g l' : good h env f -> calm h h' -> trees_at h env f l -> grows env env' -> trees_at h' env' g l' ->
  (forall H, In H (subs g) -> H = [] \/ In H (subs f)) -> good h' env' g.
Proof.
  intros G C T W T' S' H I. destruct (S' H I) as [->|J]; [split; [constructor|intros a []]|]. destruct (G H J) as [SO L]. split; [exact SO|].
  assert (addrs env' H = addrs env H) as ->.
  { apply map_ext_in. intros x X. destruct (subs_live _ _ _ _ _ _ T J X) as (a & e & A1 & A2 & _). rewrite A2. apply nth_error_nth, W, A1. }
  eapply lists_calm; [exact L|exact C|]. intros a A. apply in_map_iff in A. destruct A as (x & <- & X). destruct (subs_live _ _ _ _ _ _ T J X) as (a & e & A1 & A2 & _). destruct (subs_live _ _ _ _ _ _ T' I X) as (a' & e' & B1 & B2 & B3).
  apply W in A1. exists e'. congruence.
Qed.
Lemma trees_addr_inj h env f l x y a : trees_at h env f l -> NoDup l -> In x (ids f) -> In y (ids f) -> nth_error env x = Some a -> nth_error env y = Some a -> x = y.
Proof.
  assert (forall par q f l x y a, children_at h env par q f l -> NoDup l -> In x (ids f) -> In y (ids f) -> nth_error env x = Some a -> nth_error env y = Some a -> x = y) as CI.
  { clear. intros par q f l x y a H. revert x y. induction H as [|par q id i kids rest e l1 l2 l3 N E P Z B K IHK R IHR]; cbn [ids]; [intros x y _ []|]. intros x y D I J A1 A2.
    rewrite !nodup_app in D. destruct D as (D1 & (D2 & D3 & X23) & X1). pose proof (element_self _ _ _ _ _ E) as S'. cbn [In] in I, J. rewrite in_app_iff in I, J.
    assert (forall z, nth_error env z = Some q -> In z (ids kids) \/ In z (ids rest) -> False) as Bad.
    { intros z Zq [I'|I']; [destruct (children_ids _ _ _ _ _ _ _ K I') as (b & B1 & B2)|destruct (children_ids _ _ _ _ _ _ _ R I') as (b & B1 & B2)]; (assert (b = q) as -> by congruence; apply (X1 q S'); rewrite in_app_iff; tauto). }
    assert (forall u w, In u (ids kids) -> In w (ids rest) -> nth_error env u = Some a -> nth_error env w = Some a -> False) as Bad2.
    { intros u w Iu Iw Au Aw. destruct (children_ids _ _ _ _ _ _ _ K Iu) as (b & B1 & B2), (children_ids _ _ _ _ _ _ _ R Iw) as (b' & B1' & B2'). assert (b = a /\ b' = a) as [-> ->] by (split; congruence). exact (X23 a B2 B2'). }
    destruct I as [<-|[I|I]], J as [<-|[J|J]]; try reflexivity.
    - exfalso. apply (Bad y); [congruence|tauto].
    - exfalso. apply (Bad y); [congruence|tauto].
    - exfalso. apply (Bad x); [congruence|tauto].
    - apply IHK; assumption.
    - exfalso. eapply Bad2; eassumption.
    - exfalso. apply (Bad x); [congruence|tauto].
    - exfalso. eapply (Bad2 y x); eassumption.
    - apply IHR; assumption. }
  intros H. revert x y. induction H as [|q id i kids rest e l1 l2 l3 l4 N E T O K R IHR]; cbn [ids]; [intros x y _ []|]. intros x y D I J A1 A2.
  rewrite !nodup_app in D. destruct D as (D1 & (D2 & (D3 & D4 & X34) & X2) & X1). pose proof (element_self _ _ _ _ _ E) as S'. cbn [In] in I, J. rewrite in_app_iff in I, J.
  assert (forall z, nth_error env z = Some q -> In z (ids kids) \/ In z (ids rest) -> False) as Bad.
  { intros z Zq [I'|I']; [destruct (children_ids _ _ _ _ _ _ _ K I') as (b & B1 & B2)|destruct (trees_ids _ _ _ _ _ R I') as (b & B1 & B2)]; (assert (b = q) as -> by congruence; apply (X1 q S'); rewrite !in_app_iff; tauto). }
  assert (forall u w, In u (ids kids) -> In w (ids rest) -> nth_error env u = Some a -> nth_error env w = Some a -> False) as Bad2.
  { intros u w Iu Iw Au Aw. destruct (children_ids _ _ _ _ _ _ _ K Iu) as (b & B1 & B2), (trees_ids _ _ _ _ _ R Iw) as (b' & B1' & B2'). assert (b = a /\ b' = a) as [-> ->] by (split; congruence). exact (X34 a B2 B2'). }
  destruct I as [<-|[I|I]], J as [<-|[J|J]]; try reflexivity.
  - exfalso. apply (Bad y); [congruence|tauto].
  - exfalso. apply (Bad y); [congruence|tauto].
  - exfalso. apply (Bad x); [congruence|tauto].
  - eapply CI; eassumption.
  - exfalso. eapply Bad2; eassumption.
  - exfalso. apply (Bad x); [congruence|tauto].
  - exfalso. eapply (Bad2 y x); eassumption.
  - apply IHR; assumption.
Qed.
Lemma below_total fuel h env f l p a j kids id c o e i below l1 l2 : trees_at h env f l -> NoDup (l1 ++ l2 ++ l) -> NoDup (ids f) -> find p f = Some (j, kids) -> nth_error env p = Some a ->
  nth_error env id = Some c -> element_at h c e i l1 -> children_at h env c (e_child e) below l2 -> good h env f ->
  (forall H, H = heads below \/ In H (subs below) -> sorted H /\ lists h (addrs env H)) -> length (tops kids) < fuel ->
  exists h', InsertTagIntoXMLTree fuel a c o h = Ok h' /\
    forall l', trees_at h' env (replace p j (place id (hold o i) below kids) f) l' -> NoDup l' -> good h' env (replace p j (place id (hold o i) below kids) f).
Proof.
  intros T D DI F A C E K G GB FU. destruct (trees_focus _ _ _ _ _ _ _ T DI F) as (a' & x & lp & lk & cc & A' & EP & KP & PM & _). assert (a' = a) as -> by congruence.
  assert (NoDup (lp ++ lk ++ l1)) as D1.
  { apply nodup_app in D. destruct D as (D1 & D2 & X). apply nodup_app in D2. destruct D2 as (_ & D2 & _). pose proof (Permutation_NoDup PM D2) as D3. rewrite !nodup_app in D3. destruct D3 as (D3 & (D4 & _ & _) & X3).
    assert (forall z, In z lp \/ In z lk -> ~ In z l1) as Out by (intros z Z I; apply (X z I); rewrite in_app_iff; right; apply (perm_in _ _ PM); rewrite !in_app_iff; tauto).
    rewrite !nodup_app. repeat split; try assumption; [intros z Z; apply Out; tauto|]. intros z Z J. rewrite in_app_iff in J. destruct J as [J|J]; [apply (X3 z Z); rewrite in_app_iff; tauto|apply (Out z); tauto]. }
  destruct (G (heads kids)) as [SO LI]; [eapply (subs_find p f j kids F); cbn; tauto|].
  destruct (insert_total fuel a c o h env id x j kids e i below lp lk l1 EP KP E C D1 LI SO FU) as (h' & H & L' & CO & SN). exists h'. split; [exact H|]. intros l' T' D'.
  set (N := heads (place id (hold o i) below kids)) in *. set (g := replace p j (place id (hold o i) below kids) f) in *. intros H' I'.
  destruct (list_eq_dec (fun u w : nat * nat => ltac:(decide equality; apply Nat.eq_dec)) H' N) as [->|NE]; [split; assumption|].
  assert (In N (subs g)) as IN by (apply subs_replaced; exact (find_in _ _ _ F)). pose proof (trees_nodup _ _ _ _ T' D') as DG.
  assert (sorted H' /\ lists h (addrs env H')) as [SH LH].
  { apply (subs_replace p j _ f j kids) in I'; [|exact F|reflexivity|exact DI]. destruct I' as [I'|[->|I']]; [apply G, I'|exfalso; apply NE; reflexivity|]. apply subs_place in I'. destruct I' as [->|[I'|I']]; [apply GB; tauto|apply GB; tauto|]. apply G. apply (subs_find p f j kids F). cbn. tauto. }
  split; [exact SH|]. intros z I. destruct (LH z I) as (y & Y & P1 & P2). destruct (CO z y) as (y' & Y' & Q1 & Q2); [|exact Y|exists y'; rewrite Q1, Q2; tauto].
  intros J. apply NE. apply in_map_iff in I. destruct I as (u & U & I). apply in_map_iff in J. destruct J as (w & W & J).
  destruct (subs_live _ _ _ _ _ _ T' I' I) as (au & eu & AU1 & AU2 & _). destruct (subs_live _ _ _ _ _ _ T' IN J) as (aw & ew & AW1 & AW2 & _).
  cbv beta in U, W. assert (aw = au) as -> by congruence.
  eapply (subs_disjoint g H' N u w); try assumption. exact (trees_addr_inj h' env g l' _ _ au T' D' (subs_ids _ _ _ I' I) (subs_ids _ _ _ IN J) AU1 AW1).
Qed.
