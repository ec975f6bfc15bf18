(** What the single calls do to the memory of a forest. *)
From Coq Require Import NArith Bool Arith List Lia Permutation.
From Verif Require Import Outcome XmlMemoryModel XmlMemorySpec XmlMemoryProof XmlMemoryRun.
Import ListNotations.

Lemma perm_in {A} (l m : list A) : Permutation l m -> forall x, In x l <-> In x m.
Proof. intros P x. split; apply Permutation_in; [exact P|apply Permutation_sym, P]. Qed.
(** the element changes but for its own texts *)
Lemma element_change h h' p e e' i i' l : element_at h p e i l -> NoDup l -> view h' p = Some (Elem e') -> (forall x, In x l -> x <> p -> view h' x = view h x) ->
  e_tag e' = e_tag e -> e_attributes e' = e_attributes e -> e_content e' = e_content e -> e_entities e' = e_entities e ->
  i_tag i' = i_tag i -> i_text i' = i_text i -> i_pairs i' = i_pairs i -> i_made i' = i_made i -> e_offset e' = i_offset i' -> element_at h' p e' i' l.
Proof.
  intros [r V T C P O M] D V' F ET EA EC EE IT IX IP IM EO. apply NoDup_cons_iff in D. destruct D as [D _]. cbn in D. rewrite <- ET, <- EC. constructor; try assumption.
  - rewrite ET, IT, F; [exact T|cbn; tauto|intros E; apply D; tauto].
  - rewrite EC, IX, F; [exact C|cbn; tauto|intros E; apply D; tauto].
  - rewrite EA, IP. eapply pairs_frame; [exact P|]. intros q Q. apply F; [cbn; tauto|intros ->; tauto].
  - rewrite IM, EE. exact M.
Qed.
Lemma children_nonzero h env par p f l : children_at h env par p f l -> p <> 0 -> exists id i kids rest, f = Cons id i kids rest.
Proof. intros [|]; [congruence|eauto]. Qed.
Lemma children_zero h env par f l : children_at h env par 0 f l -> f = Nil /\ l = [].
Proof. intros H. inversion H; subst; [tauto|]. match goal with E : element_at h 0 _ _ _ |- _ => destruct E; discriminate end. Qed.

Lemma children_first h env par p id i kids rest l : children_at h env par p (Cons id i kids rest) l ->
  exists e, view h p = Some (Elem e) /\ e_offset e = i_offset i /\ In p l.
Proof.
  intros H. inversion H as [|? ? ? ? ? ? e ? ? ? _ E]; subst. exists e. pose proof (element_self _ _ _ _ _ E) as I. destruct E. repeat split; try assumption. rewrite in_app_iff. tauto.
Qed.

(** ** InsertTagIntoXMLTree *)
Lemma place_after h env par q f l o : children_at h env par q f l -> NoDup l -> forall fuel node x, last_before fuel h e_ordered o q = Ok node ->
  load_element h q = Ok x -> e_offset x <= o ->
  exists en, view h node = Some (Elem en) /\ In node l /\
  forall h' env' id c ec i' below l1 l2, view h' node = Some (Elem (with_ordered c en)) -> (forall x, In x l -> x <> node -> view h' x = view h x) ->
    grows env env' -> nth_error env' id = Some c -> element_at h' c ec i' l1 -> e_parent ec = par -> par <> 0 -> i_held i' = true -> i_offset i' = o ->
    e_ordered ec = e_ordered en -> children_at h' env' c (e_child ec) below l2 ->
    exists l', children_at h' env' par q (place id i' below f) l' /\ Permutation l' (l1 ++ l2 ++ l).
Proof.
  intros H. induction H as [|par q qd j kids rest e l1 l2 l3 N E P Z B K IHK R IHR]; intros D fuel node x L X O.
  { discriminate X. }
  rewrite !nodup_app in D. destruct D as (D1 & (D2 & D3 & X23) & X1). clear IHK.
  destruct fuel as [|fuel]; [discriminate|]. cbn [last_before] in L. rewrite X in L. cbn [bind] in L.
  pose proof E as E0. destruct E0 as [r V T C PA OF M]. set (l1 := q :: e_tag e :: e_content e :: r) in *.
  assert (core x = e) as CX by (apply load_element_view in X; congruence). destruct (core_fields _ _ CX) as (_ & _ & _ & F4 & _ & F6 & _). rewrite F6 in L. rewrite F4, OF in O.
  assert (core e = e) as CE by (eapply viewed_core; exact V).
  assert (In q l1) as I1 by (subst l1; cbn; tauto).
  assert (forall h' env' id c ec i' below m1 m2, view h' q = Some (Elem (with_ordered c e)) -> (forall x, In x (l1 ++ l2 ++ l3) -> x <> q -> view h' x = view h x) ->
    grows env env' -> nth_error env' id = Some c -> element_at h' c ec i' m1 -> e_parent ec = par -> i_held i' = true -> i_offset i' = o -> e_ordered ec = e_ordered e ->
    children_at h' env' c (e_child ec) below m2 -> (place id i' below rest = Cons id i' below rest) ->
    exists l', children_at h' env' par q (place id i' below (Cons qd j kids rest)) l' /\ Permutation l' (m1 ++ m2 ++ l1 ++ l2 ++ l3)) as Here.
  { intros h' env' id c ec i' below m1 m2 VQ F G NC EC PC HC OC RC KC PL.
    exists (l1 ++ l2 ++ m1 ++ m2 ++ l3). split.
    - cbn [place]. rewrite OC. destruct (Nat.leb_spec (i_offset j) o); [|lia]. rewrite PL. econstructor.
      + apply G, N.
      + eapply element_change; [exact E|exact D1|exact VQ| |reflexivity|reflexivity|reflexivity|reflexivity|reflexivity|reflexivity|reflexivity|reflexivity|exact OF].
        intros y Y NY. apply F; [rewrite in_app_iff; tauto|exact NY].
      + exact P.
      + exact Z.
      + exact B.
      + eapply children_frame; [exact K| |exact G]. intros y Y. apply F; [rewrite !in_app_iff; tauto|intros ->; apply (X1 q I1); rewrite in_app_iff; tauto].
      + cbn [with_ordered e_ordered]. econstructor; [exact NC|exact EC|exact PC|exact Z|exact HC|exact KC|]. rewrite RC. eapply children_frame; [exact R| |exact G].
        intros y Y. apply F; [rewrite !in_app_iff; tauto|intros ->; apply (X1 q I1); rewrite in_app_iff; tauto].
    - eapply perm_trans; [apply Permutation_app_head, Permutation_app_swap_app|]. eapply perm_trans; [apply Permutation_app_swap_app|]. apply Permutation_app_head.
      eapply perm_trans; [apply Permutation_app_head, Permutation_app_swap_app|]. apply Permutation_app_swap_app. }
  destruct (e_ordered e) as [|w] eqn:EW.
  - injection L as <-. exists e. split; [exact V|]. split; [rewrite in_app_iff; tauto|]. intros h' env' id c ec i' below m1 m2 VQ F G NC EC PC _ HC OC RC KC.
    apply (Here h' env' id c ec i' below m1 m2); try assumption; try congruence. destruct (children_zero _ _ _ _ _ R) as [-> _]. reflexivity.
  - set (w' := S w) in *. inv_bind L. destruct (children_nonzero _ _ _ _ _ _ R) as (qd2 & j2 & ks2 & rest2 & ER); [unfold w'; lia|].
    assert (e_offset x0 = i_offset j2) as OX.
    { rewrite ER in R. inversion R as [|? ? ? ? ? ? e2 ? ? ? _ E2]; subst. destruct E2 as [? V2 _ _ _ O2 _]. apply load_element_view in E0. rewrite V2 in E0.
      assert (e2 = core x0) as -> by congruence. exact O2. }
    destruct (Nat.leb_spec (e_offset x0) o) as [LE|GT].
    + destruct (IHR D3 fuel node x0 L E0 LE) as (en & VN & NN & CL). exists en. split; [exact VN|]. split; [rewrite !in_app_iff; tauto|].
      intros h' env' id c ec i' below m1 m2 VQ F G NC EC PC _ HC OC RC KC.
      destruct (CL h' env' id c ec i' below m1 m2) as (l' & C' & PM); try assumption; [intros y Y NY; apply F; [rewrite !in_app_iff; tauto|exact NY]|].
      assert (node <> q) as NQ by (intros ->; apply (X1 q I1); rewrite in_app_iff; tauto).
      exists (l1 ++ l2 ++ l'). split.
      * cbn [place]. rewrite OC. destruct (Nat.leb_spec (i_offset j) o); [|lia]. econstructor; [apply G, N| |exact P|exact Z|exact B| |rewrite EW; exact C'].
        -- eapply element_frame; [exact E|]. intros y Y. apply F; [rewrite in_app_iff; tauto|intros ->; apply (X1 node Y); rewrite in_app_iff; tauto].
        -- eapply children_frame; [exact K| |exact G]. intros y Y. apply F; [rewrite !in_app_iff; tauto|intros ->; exact (X23 node Y NN)].
      * rewrite PM. replace (l1 ++ l2 ++ m1 ++ m2 ++ l3) with ((l1 ++ l2) ++ (m1 ++ m2) ++ l3) by (rewrite <- !app_assoc; reflexivity).
        eapply perm_trans; [apply Permutation_app_swap_app|]. rewrite <- !app_assoc. reflexivity.
    + injection L as <-. exists e. split; [exact V|]. split; [rewrite in_app_iff; tauto|]. intros h' env' id c ec i' below m1 m2 VQ F G NC EC PC _ HC OC RC KC.
      apply (Here h' env' id c ec i' below m1 m2); try assumption; try congruence. rewrite ER. cbn [place]. rewrite OC. destruct (Nat.leb_spec (i_offset j2) o); [lia|]. reflexivity.
Qed.
Lemma insert_ok fuel p c o h h' env id x j kids e i below lp lk l1 l2 : InsertTagIntoXMLTree fuel p c o h = Ok h' ->
  element_at h p x j lp -> children_at h env p (e_child x) kids lk -> element_at h c e i l1 -> children_at h env c (e_child e) below l2 ->
  nth_error env id = Some c -> NoDup (lp ++ lk ++ l1 ++ l2) ->
  exists x' lk', element_at h' p x' j lp /\ keeps x x' /\ children_at h' env p (e_child x') (place id (hold o i) below kids) lk' /\
    Permutation lk' (l1 ++ l2 ++ lk) /\ forall q, ~ In q (lp ++ lk ++ l1) -> view h' q = view h q.
Proof.
  intros H EP KP EC KC NC D. pose proof (element_self _ _ _ _ _ EP) as IP. pose proof (element_self _ _ _ _ _ EC) as IC.
  rewrite !nodup_app in D. destruct D as (Dp & (Dk & (D1 & D2 & X12) & Xk) & Xp).
  assert (forall y, In y lp -> ~ In y lk /\ ~ In y l1 /\ ~ In y l2) as Xp' by (intros y Y; specialize (Xp y Y); rewrite !in_app_iff in Xp; tauto).
  assert (forall y, In y lk -> ~ In y l1 /\ ~ In y l2) as Xk' by (intros y Y; specialize (Xk y Y); rewrite !in_app_iff in Xk; tauto).
  assert (view h p = Some (Elem x) /\ e_offset x = i_offset j) as [VP OP] by (destruct EP; split; assumption).
  assert (view h c = Some (Elem e)) as VC by (destruct EC; assumption).
  assert (p <> 0) as ZP by (intros ->; discriminate VP). assert (p <> c) as NPC by (intros ->; specialize (Xp' c IP); tauto).
  unfold InsertTagIntoXMLTree in H. inv_bind H. rename x0 into h1. apply change_view in E. destruct E as (e0 & L0 & W1).
  assert (core e0 = e) as C0 by (apply load_element_view in L0; congruence). destruct (core_fields _ _ C0) as (F1 & F2 & F3 & _ & _ & _ & F7 & F8). rewrite F1, F2, F3, F7, F8 in W1.
  change (core (mkElement (e_tag e) (e_attributes e) (e_content e) o p 0 0 0 (e_child e) (e_entities e))) with (mkElement (e_tag e) (e_attributes e) (e_content e) o p 0 0 0 (e_child e) (e_entities e)) in W1.
  set (e1 := mkElement (e_tag e) (e_attributes e) (e_content e) o p 0 0 0 (e_child e) (e_entities e)) in *.
  assert (forall y, y <> c -> view h1 y = view h y) as W1' by (intros y Y; rewrite W1; destruct (Nat.eqb_spec y c); [congruence|reflexivity]).
  assert (view h1 c = Some (Elem e1)) as V1 by (rewrite W1, Nat.eqb_refl; reflexivity).
  (* c with another link to the one behind *)
  assert (forall h2 w, view h2 c = Some (Elem (with_ordered w e1)) -> (forall y, In y l1 \/ In y l2 -> y <> c -> view h2 y = view h y) ->
           element_at h2 c (with_ordered w e1) (hold o i) l1 /\ children_at h2 env c (e_child (with_ordered w e1)) below l2) as Child.
  { intros h2 w V2 F. split.
    - eapply element_change; [exact EC|exact D1|exact V2| |reflexivity|reflexivity|reflexivity|reflexivity|reflexivity|reflexivity|reflexivity|reflexivity|reflexivity].
      intros y Y NY. apply F; tauto.
    - eapply children_frame; [exact KC| |apply grows_refl]. intros y Y. apply F; [tauto|]. intros ->. exact (X12 c IC Y). }
  assert (forall h2 w, view h2 p = Some (Elem (with_child w x)) -> (forall y, In y lp -> y <> p -> view h2 y = view h y) -> element_at h2 p (with_child w x) j lp) as Parent.
  { intros h2 w V2 F. eapply element_change; [exact EP|exact Dp|exact V2|exact F|reflexivity..|exact OP]. }
  inv_bind H. rename x0 into x1. assert (view h1 p = Some (Elem x)) as VP1 by (rewrite W1' by congruence; exact VP).
  assert (core x1 = x) as CX by (apply load_element_view in E; congruence). destruct (core_fields _ _ CX) as (_ & _ & _ & _ & _ & _ & G7 & _). rewrite G7 in H.
  destruct (e_child x) as [|hd] eqn:EX.
  - apply change_view in H. destruct H as (x2 & L2 & W2). assert (core x2 = x) as CX2 by (apply load_element_view in L2; congruence).
    assert (core (with_child c x2) = with_child c x) as CC by (rewrite <- CX2; reflexivity). rewrite CC in W2.
    destruct (children_zero _ _ _ _ _ KP) as [-> ->].
    assert (view h' p = Some (Elem (with_child c x))) as VP' by (rewrite W2, Nat.eqb_refl; reflexivity).
    assert (forall y, y <> p -> view h' y = view h1 y) as W2' by (intros y Y; rewrite W2; destruct (Nat.eqb_spec y p); [congruence|reflexivity]).
    exists (with_child c x), (l1 ++ l2 ++ []). split; [|split; [repeat split|split; [|split]]].
    + apply Parent; [exact VP'|]. intros y Y NY. rewrite W2', W1' by (try exact NY; intros ->; specialize (Xp' c Y); tauto). reflexivity.
    + cbn [place]. destruct (Child h' 0) as [A1 A2].
      * rewrite W2' by congruence. exact V1.
      * intros y Y NY. rewrite W2', W1' by (try exact NY; intros ->; specialize (Xp' p IP); tauto). reflexivity.
      * eapply more_children; [exact NC|exact A1|reflexivity|exact ZP|reflexivity|exact A2|constructor].
    + reflexivity.
    + intros q Q. rewrite !in_app_iff in Q. rewrite W2', W1' by (intros ->; tauto). reflexivity.
  - set (head := S hd) in *. inv_bind H. rename x0 into m. inv_bind H. rename x0 into h2. apply link_by_tag_same in H.
    destruct (children_nonzero _ _ _ _ _ _ KP) as (hid & jh & kh & rh & EK); [unfold head; lia|].
    assert (e_offset m = i_offset jh /\ In head lk) as [OM IH].
    { rewrite EK in KP. destruct (children_first _ _ _ _ _ _ _ _ _ KP) as (eh & VH & OH & IH). split; [|exact IH].
      assert (head <> c) as NH by (intros EQ; rewrite EQ in IH; specialize (Xk' c IH); tauto). apply load_element_view in E0. rewrite W1' in E0 by exact NH.
      assert (eh = core m) as -> by congruence. exact OH. }
    destruct (Nat.ltb_spec o (e_offset m)) as [LT|GE].
    + inv_bind E1. rename x0 into h3. apply change_view in E2, E1. destruct E2 as (e3 & L3 & W3), E1 as (x3 & L4 & W4).
      assert (core e3 = e1) as C3 by (apply load_element_view in L3; congruence). assert (core (with_ordered head e3) = with_ordered head e1) as CC3 by (rewrite <- C3; reflexivity). rewrite CC3 in W3.
      assert (core x3 = x) as C4 by (apply load_element_view in L4; rewrite W3 in L4; destruct (Nat.eqb_spec p c); congruence).
      assert (core (with_child c x3) = with_child c x) as CC4 by (rewrite <- C4; reflexivity). rewrite CC4 in W4.
      assert (forall y, y <> p -> y <> c -> view h' y = view h y) as WO.
      { intros y Y Y'. rewrite H, W4, W3. destruct (Nat.eqb_spec y p); [congruence|]. destruct (Nat.eqb_spec y c); [congruence|]. apply W1'. exact Y'. }
      assert (view h' p = Some (Elem (with_child c x))) as VP' by (rewrite H, W4, Nat.eqb_refl; reflexivity).
      assert (view h' c = Some (Elem (with_ordered head e1))) as VC' by (rewrite H, W4, W3, Nat.eqb_refl; destruct (Nat.eqb_spec c p); [congruence|reflexivity]).
      exists (with_child c x), (l1 ++ l2 ++ lk). split; [|split; [repeat split|split; [|split]]].
      * apply Parent; [exact VP'|]. intros y Y NY. apply WO; [exact NY|]. intros ->. specialize (Xp' c Y). tauto.
      * destruct (Child h' head VC') as [A1 A2].
        { intros y Y NY. apply WO; [|exact NY]. intros ->. specialize (Xp' p IP). tauto. }
        assert (place id (hold o i) below kids = Cons id (hold o i) below kids) as ->.
        { rewrite EK. cbn [place hold i_offset]. destruct (Nat.leb_spec (i_offset jh) o); [lia|reflexivity]. }
        eapply more_children; [exact NC|exact A1|reflexivity|exact ZP|reflexivity|exact A2|]. cbn [with_ordered e_ordered].
        eapply children_frame; [exact KP| |apply grows_refl]. intros y Y. apply WO; intros ->; [specialize (Xp' p IP)|specialize (Xk' c Y)]; tauto.
      * reflexivity.
      * intros q Q. rewrite !in_app_iff in Q. apply WO; intros ->; tauto.
    + inv_bind E1. rename x0 into node. inv_bind E1. rename x0 into n. inv_bind E1. rename x0 into h3. apply change_view in E4, E1. destruct E4 as (e3 & L3 & W3), E1 as (n4 & L4 & W4).
      assert (forall y, In y lk -> view h1 y = view h y) as WK by (intros y Y; apply W1'; intros ->; specialize (Xk' c Y); tauto).
      assert (children_at h1 env p head kids lk) as KP1 by (eapply children_frame; [exact KP|exact WK|apply grows_refl]).
      destruct (place_after _ _ _ _ _ _ o KP1 Dk fuel node m E2 E0 GE) as (en & VN & IN & CL).
      assert (core n = en) as Cn by (apply load_element_view in E3; congruence). destruct (core_fields _ _ Cn) as (_ & _ & _ & _ & _ & N6 & _).
      assert (core e3 = e1) as C3 by (apply load_element_view in L3; congruence). rewrite N6 in W3. assert (core (with_ordered (e_ordered en) e3) = with_ordered (e_ordered en) e1) as CC3 by (rewrite <- C3; reflexivity). rewrite CC3 in W3.
      assert (node <> c) as NNC by (intros ->; specialize (Xk' c IN); tauto).
      assert (core n4 = en) as C4 by (apply load_element_view in L4; rewrite W3 in L4; destruct (Nat.eqb_spec node c); congruence).
      assert (core (with_ordered c n4) = with_ordered c en) as CC4 by (rewrite <- C4; reflexivity). rewrite CC4 in W4.
      assert (forall y, y <> node -> y <> c -> view h' y = view h y) as WO.
      { intros y Y Y'. rewrite H, W4, W3. destruct (Nat.eqb_spec y node); [congruence|]. destruct (Nat.eqb_spec y c); [congruence|]. apply W1'. exact Y'. }
      assert (p <> node) as NPN by (intros ->; specialize (Xp' node IP); tauto).
      destruct (CL h' env id c (with_ordered (e_ordered en) e1) (hold o i) below l1 l2) as (l' & KP' & PM).
      * rewrite H, W4, Nat.eqb_refl. reflexivity.
      * intros y Y NY. rewrite WK by exact Y. apply WO; [exact NY|]. intros ->. specialize (Xk' c Y). tauto.
      * apply grows_refl.
      * exact NC.
      * apply (Child h').
        -- rewrite H, W4, W3, Nat.eqb_refl. destruct (Nat.eqb_spec c node); [congruence|reflexivity].
        -- intros y Y NY. apply WO; [|exact NY]. intros ->. specialize (Xk' node IN). tauto.
      * reflexivity.
      * exact ZP.
      * reflexivity.
      * reflexivity.
      * reflexivity.
      * apply (Child h').
        -- rewrite H, W4, W3, Nat.eqb_refl. destruct (Nat.eqb_spec c node); [congruence|reflexivity].
        -- intros y Y NY. apply WO; [|exact NY]. intros ->. specialize (Xk' node IN). tauto.
      * exists x, l'. split; [|split; [repeat split|split; [|split]]].
        -- eapply element_frame; [exact EP|]. intros y Y. apply WO; intros ->; [specialize (Xp' node Y)|specialize (Xp' c Y)]; tauto.
        -- rewrite EX. exact KP'.
        -- exact PM.
        -- intros q Q. rewrite !in_app_iff in Q. apply WO; intros ->; tauto.
Qed.

(** ** PruneTagFromXMLTree *)
Lemma chain_head h env par c f l id : children_at h env par c f l -> NoDup l -> In id (tops f) -> nth_error env id = Some c ->
  exists i below rest, f = Cons id i below rest.
Proof.
  intros H D I N. destruct H as [|par p qd j kids rest e l1 l2 l3 NE E P Z B K R]; [destruct I|]. cbn [tops] in I. destruct (Nat.eq_dec qd id) as [->|ND]; [eauto|].
  destruct I as [I|I]; [congruence|]. exfalso. destruct (children_ids _ _ _ _ _ _ _ R (tops_ids _ _ I)) as (a & A & J). assert (a = p) as -> by congruence.
  rewrite !nodup_app in D. destruct D as (D1 & _ & X). apply (X p (element_self _ _ _ _ _ E)). rewrite in_app_iff. tauto.
Qed.
Lemma chain_unlink h env par q f l id c : children_at h env par q f l -> NoDup l -> In id (tops f) -> nth_error env id = Some c -> q <> c ->
  forall fuel node, before_ordered fuel h c q = Ok node ->
  exists en ec i below l1 l2 l3, view h node = Some (Elem en) /\ In node l3 /\ find id f = Some (i, below) /\ element_at h c ec i l1 /\ e_parent ec = par /\ par <> 0 /\ i_held i = true /\
    children_at h env c (e_child ec) below l2 /\ Permutation l (l1 ++ l2 ++ l3) /\
    forall h', view h' node = Some (Elem (with_ordered (e_ordered ec) en)) -> (forall x, In x l3 -> x <> node -> view h' x = view h x) -> children_at h' env par q (remove id f) l3.
Proof.
  intros H. induction H as [|par q qd j kids rest e l1 l2 l3 NE E P Z B K IHK R IHR]; intros D I NC NQ fuel node L; [destruct I|].
  pose proof (children_nodup _ _ _ _ _ _ (more_children _ _ _ _ _ _ _ _ _ _ _ _ NE E P Z B K R) D) as DI. cbn [ids] in DI. rewrite NoDup_cons_iff, nodup_app, in_app_iff in DI. destruct DI as (NI & Dk & Dr & X).
  rewrite !nodup_app in D. destruct D as (D1 & (D2 & D3 & X23) & X1). clear IHK. pose proof (element_self _ _ _ _ _ E) as I1.
  assert (qd <> id) as NID by (intros ->; congruence). cbn [tops] in I. destruct I as [I|I]; [congruence|].
  assert (~ In id (ids kids)) as NK by (intros J; exact (X id J (tops_ids _ _ I))).
  destruct fuel as [|fuel]; [discriminate|]. cbn [before_ordered] in L. inv_bind L.
  assert (view h q = Some (Elem e) /\ e_offset e = i_offset j) as [V OF] by (destruct E; split; assumption).
  assert (core x = e) as CX by (apply load_element_view in E0; congruence). destruct (core_fields _ _ CX) as (_ & _ & _ & _ & _ & F6 & _). rewrite F6 in L. clear CX F6.
  cbn [find remove]. destruct (Nat.eqb_spec qd id); [congruence|]. rewrite (find_out id kids NK), (remove_out id kids NK).
  destruct (Nat.eqb_spec (e_ordered e) c) as [EO|NO].
  - injection L as <-. rewrite EO in R. destruct (chain_head _ _ _ _ _ _ _ R D3 I NC) as (i & below & rest2 & ER). subst rest.
    inversion R as [|par0 p0 id0 i0 kids0 rest0 ec m1 m2 m3 NC' EC PC ZC BC KC RC]; subst par0 p0 id0 i0 kids0 rest0 l3. exists e, ec, i, below, m1, m2, (l1 ++ l2 ++ m3). repeat split; try assumption.
    + rewrite in_app_iff. tauto.
    + cbn [find]. rewrite Nat.eqb_refl. reflexivity.
    + replace (l1 ++ l2 ++ m1 ++ m2 ++ m3) with ((l1 ++ l2) ++ (m1 ++ m2) ++ m3) by (rewrite <- !app_assoc; reflexivity).
      eapply perm_trans; [apply Permutation_app_swap_app|]. rewrite <- !app_assoc. reflexivity.
    + intros h' VQ F. cbn [remove]. rewrite Nat.eqb_refl.
      assert (forall y, In y l2 \/ In y m3 -> y <> q) as NY.
      { intros y Y ->. apply (X1 q I1). rewrite !in_app_iff. tauto. }
      eapply more_children with (e := with_ordered (e_ordered ec) e); [exact NE| |exact P|exact Z|exact B| |].
      * eapply element_change; [exact E|exact D1|exact VQ| |reflexivity|reflexivity|reflexivity|reflexivity|reflexivity|reflexivity|reflexivity|reflexivity|exact OF]. intros y Y N. apply F; [rewrite in_app_iff; tauto|exact N].
      * eapply children_frame; [exact K| |apply grows_refl]. intros y Y. apply F; [rewrite !in_app_iff; tauto|apply NY; tauto].
      * cbn [with_ordered e_ordered]. eapply children_frame; [exact RC| |apply grows_refl]. intros y Y. apply F; [rewrite !in_app_iff; tauto|apply NY; tauto].
  - destruct (IHR D3 I NC NO fuel node L) as (en & ec & i & below & m1 & m2 & m3 & VN & IN & FI & EC & PC & _ & BC & KC & PM & CL).
    exists en, ec, i, below, m1, m2, (l1 ++ l2 ++ m3). repeat split; try assumption.
    + rewrite !in_app_iff. tauto.
    + rewrite PM. replace (l1 ++ l2 ++ m1 ++ m2 ++ m3) with ((l1 ++ l2) ++ (m1 ++ m2) ++ m3) by (rewrite <- !app_assoc; reflexivity).
      eapply perm_trans; [apply Permutation_app_swap_app|]. rewrite <- !app_assoc. reflexivity.
    + assert (In node l3) as INL by (apply (perm_in _ _ PM); rewrite !in_app_iff; tauto).
      intros h' VQ F. econstructor; [exact NE| |exact P|exact Z|exact B| |].
      * eapply element_frame; [exact E|]. intros y Y. apply F; [rewrite in_app_iff; tauto|intros ->; apply (X1 node Y); rewrite in_app_iff; tauto].
      * eapply children_frame; [exact K| |apply grows_refl]. intros y Y. apply F; [rewrite !in_app_iff; tauto|intros ->; exact (X23 node Y INL)].
      * apply CL; [exact VQ|]. intros y Y NY. apply F; [rewrite !in_app_iff; tauto|exact NY].
Qed.
Lemma prune_ok fuel p c h h' env id x j kids e i below lp lk : PruneTagFromXMLTree fuel c h = Ok h' ->
  element_at h p x j lp -> children_at h env p (e_child x) kids lk -> nth_error env id = Some c -> In id (tops kids) -> find id kids = Some (i, below) ->
  view h c = Some (Elem e) -> e_parent e = p -> NoDup (lp ++ lk) ->
  exists x' lk' e' l1 l2, element_at h' p x' j lp /\ keeps x x' /\ children_at h' env p (e_child x') (remove id kids) lk' /\ element_at h' c e' i l1 /\
    i_held i = true /\ e_parent e' <> 0 /\ e_ordered e' = 0 /\ children_at h' env c (e_child e') below l2 /\ Permutation lk (l1 ++ l2 ++ lk') /\
    forall q, ~ In q (lp ++ lk) -> view h' q = view h q.
Proof.
  intros H EP KP NC I FI VC PE D. pose proof (element_self _ _ _ _ _ EP) as IP.
  rewrite !nodup_app in D. destruct D as (Dp & Dk & Xp). assert (view h p = Some (Elem x) /\ e_offset x = i_offset j) as [VP OP] by (destruct EP; split; assumption).
  assert (p <> 0) as ZP by (intros ->; discriminate VP).
  destruct (children_ids _ _ _ _ _ _ _ KP (tops_ids _ _ I)) as (c' & NC' & IC). assert (c' = c) as -> by congruence.
  assert (p <> c) as NPC by (intros ->; exact (Xp c IP IC)).
  unfold PruneTagFromXMLTree in H. inv_bind H. rename x0 into e0. assert (core e0 = e) as C0 by (apply load_element_view in E; congruence).
  destruct (core_fields _ _ C0) as (_ & _ & _ & _ & F5 & F6 & F7 & _). inv_bind H. rename x0 into h1.
  assert (same h h1) as S1 by (destruct (e_next e0); [injection E0 as <-; intros q; reflexivity|apply change_sibling in E0; exact E0]). clear E0.
  rewrite F5, PE in H. inv_bind H. rename x0 into h2. apply change_view in H. destruct H as (e9 & L9 & W9).
  destruct p as [|p']; [congruence|]. set (p := S p') in *. inv_bind E0. rename x0 into x1.
  assert (core x1 = x) as CX by (apply load_element_view in E1; rewrite S1 in E1; congruence). destruct (core_fields _ _ CX) as (_ & _ & _ & _ & _ & _ & G7 & _). rewrite G7 in E0.
  assert (children_at h1 env p (e_child x) kids lk) as KP1 by (eapply children_frame; [exact KP|intros q _; apply S1|apply grows_refl]).
  destruct (Nat.eqb_spec (e_child x) c) as [EC|NE].
  - (* the first child *)
    apply change_view in E0. destruct E0 as (x2 & L2 & W2). assert (core x2 = x) as CX2 by (apply load_element_view in L2; rewrite S1 in L2; congruence).
    assert (core (with_child (e_ordered e0) x2) = with_child (e_ordered e) x) as CC by (rewrite <- CX2, F6; reflexivity). rewrite CC in W2.
    rewrite EC in KP. destruct (chain_head _ _ _ _ _ _ _ KP Dk I NC) as (i' & below' & rest & EK). rewrite EK in *. cbn [find] in FI. rewrite Nat.eqb_refl in FI. injection FI as -> ->.
    inversion KP as [|? ? ? ? ? ? ec m1 m2 m3 NC'' AC PC _ BC KC RC]; subst par p0 id0 i0 kids0 rest0.
    assert (ec = e) as -> by (destruct AC as [? VC' _ _ _ _ _]; congruence).
    pose proof (element_self _ _ _ _ _ AC) as I1. subst lk. rewrite !nodup_app in Dk. destruct Dk as (D1 & (D2 & D3 & X23) & X1).
    assert (core e9 = e) as C9 by (apply load_element_view in L9; rewrite W2 in L9; destruct (Nat.eqb_spec c p); [congruence|]; rewrite S1 in L9; congruence).
    assert (core (with_next 0 (with_sibling 0 (with_ordered 0 e9))) = with_ordered 0 e) as CC9 by (rewrite <- C9; reflexivity). rewrite CC9 in W9.
    assert (forall y, y <> p -> y <> c -> view h' y = view h y) as WO.
    { intros y Y Y'. rewrite W9, W2. destruct (Nat.eqb_spec y c); [congruence|]. destruct (Nat.eqb_spec y p); [congruence|]. apply S1. }
    exists (with_child (e_ordered e) x), m3, (with_ordered 0 e), m1, m2. cbn [with_child e_child with_ordered e_parent e_ordered]. split; [|split; [repeat split|split; [|split; [|split; [exact BC|split; [rewrite PE; unfold p; lia|split; [reflexivity|split; [|split]]]]]]]].
    + eapply element_change; [exact EP|exact Dp| | |reflexivity..|exact OP].
      * rewrite W9, W2, Nat.eqb_refl. destruct (Nat.eqb_spec p c); [congruence|reflexivity].
      * intros y Y NY. apply WO; [exact NY|]. intros ->. exact (Xp c Y IC).
    + cbn [remove]. rewrite Nat.eqb_refl. eapply children_frame; [exact RC| |apply grows_refl]. intros y Y. apply WO; intros ->.
      * apply (Xp p IP). rewrite !in_app_iff. tauto.
      * apply (X1 c I1). rewrite in_app_iff. tauto.
    + eapply element_change; [exact AC|exact D1| | |reflexivity..|destruct AC; assumption].
      * rewrite W9, Nat.eqb_refl. reflexivity.
      * intros y Y NY. apply WO; [|exact NY]. intros ->. apply (Xp p IP). rewrite !in_app_iff. tauto.
    + eapply children_frame; [exact KC| |apply grows_refl]. intros y Y. apply WO; intros ->.
      * apply (Xp p IP). rewrite !in_app_iff. tauto.
      * apply (X1 c I1). rewrite in_app_iff. tauto.
    + reflexivity.
    + intros q Q. apply WO; intros ->; apply Q; rewrite !in_app_iff in *; tauto.
  - (* another child *)
    inv_bind E0. rename x0 into node. inv_bind E0. rename x0 into h3. apply unlink_by_tag_same in E0. apply change_view in E3. destruct E3 as (n3 & L3 & W3).
    destruct (chain_unlink _ _ _ _ _ _ _ _ KP1 Dk I NC NE fuel node E2) as (en & ec & i' & below' & m1 & m2 & m3 & VN & IN & FI' & AC & PC & _ & BC & KC & PM & CL).
    rewrite FI in FI'. injection FI' as <- <-.
    assert (ec = e) as -> by (destruct AC as [? VC' _ _ _ _ _]; rewrite S1 in VC'; congruence). pose proof (element_self _ _ _ _ _ AC) as I1.
    pose proof (Permutation_NoDup PM Dk) as Dm. rewrite !nodup_app in Dm. destruct Dm as (D1 & (D2 & D3 & X23) & X1).
    assert (forall y, In y m1 \/ In y m2 \/ In y m3 -> In y lk) as IM by (intros y Y; apply (perm_in _ _ PM); rewrite !in_app_iff; exact Y).
    assert (node <> c) as NNC by (intros ->; apply (X1 c I1); rewrite in_app_iff; tauto).
    assert (p <> node) as NPN by (intros EQ; apply (Xp p IP); rewrite EQ; apply IM; tauto).
    assert (core n3 = en) as Cn by (apply load_element_view in L3; congruence). assert (core (with_ordered (e_ordered e0) n3) = with_ordered (e_ordered e) en) as CCn by (rewrite <- Cn, F6; reflexivity). rewrite CCn in W3.
    assert (core e9 = e) as C9 by (apply load_element_view in L9; rewrite E0, W3 in L9; destruct (Nat.eqb_spec c node); [congruence|]; rewrite S1 in L9; congruence).
    assert (core (with_next 0 (with_sibling 0 (with_ordered 0 e9))) = with_ordered 0 e) as CC9 by (rewrite <- C9; reflexivity). rewrite CC9 in W9.
    assert (forall y, y <> node -> y <> c -> view h' y = view h y) as WO.
    { intros y Y Y'. rewrite W9, E0, W3. destruct (Nat.eqb_spec y c); [congruence|]. destruct (Nat.eqb_spec y node); [congruence|]. apply S1. }
    exists x, m3, (with_ordered 0 e), m1, m2. cbn [with_ordered e_child e_parent e_ordered]. split; [|split; [repeat split|split; [|split; [|split; [exact BC|split; [rewrite PE; unfold p; lia|split; [reflexivity|split; [|split; [exact PM|]]]]]]]]].
    + eapply element_frame; [exact EP|]. intros y Y. apply WO; intros ->; apply (Xp _ Y); apply IM; tauto.
    + apply CL; [rewrite W9, E0, W3, Nat.eqb_refl; destruct (Nat.eqb_spec node c); [congruence|reflexivity]|].
      intros y Y NY. rewrite S1. apply WO; [exact NY|]. intros ->. apply (X1 c I1). rewrite in_app_iff. tauto.
    + eapply element_change; [exact AC|exact D1| | |reflexivity..|destruct AC; assumption].
      * rewrite W9, Nat.eqb_refl. reflexivity.
      * intros y Y NY. rewrite S1. apply WO; [|exact NY]. intros ->. apply (X1 node Y). rewrite in_app_iff. tauto.
    + eapply children_frame; [exact KC| |apply grows_refl]. intros y Y. rewrite S1. apply WO; intros ->; [exact (X23 node Y IN)|]. apply (X1 c I1). rewrite in_app_iff. tauto.
    + intros q Q. apply WO; intros ->; apply Q; rewrite in_app_iff; right; apply IM; tauto.
Qed.
