(** Programs act like programs on forests. *)
From Coq Require Import NArith Bool Arith List Lia Permutation.
From Verif Require Import Outcome XmlMemoryModel XmlMemorySpec XmlMemoryProof XmlMemoryRun XmlMemoryOps XmlMemoryMain.
Import ListNotations.

(** ** More fuel changes nothing *)
Lemma destroy_more fuel : (forall p h h', DestroyXMLTree fuel p h = Ok h' -> DestroyXMLTree (S fuel) p h = Ok h') /\
  (forall up p h h', destroy_chain fuel up p h = Ok h' -> destroy_chain (S fuel) up p h = Ok h').
Proof.
  induction fuel as [|fuel [IHT IHC]]; [split; intros; discriminate|]. split.
  - intros p h h' H. cbn [DestroyXMLTree] in H. change (DestroyXMLTree (S (S fuel)) p h) with
      (let* e := load_element h p in
       let* h := destroy_chain (S fuel) false (e_child e) h in
       let* e := load_element h p in
       let* h := destroy_chain (S fuel) true (e_ordered e) h in
       let* h := DestroyXMLTreeRoot p h in
       let* e := load_element h p in
       let* h := DestroyXMLTreeAttributes (e_attributes e) h in
       let* h := Relinquish (e_content e) h in
       let* h := Relinquish (e_tag e) h in
       Relinquish p h).
    inv_bind H. rewrite E. cbn [bind]. inv_bind H. rewrite (IHC _ _ _ _ E0). cbn [bind]. inv_bind H. rewrite E1. cbn [bind].
    inv_bind H. rewrite (IHC _ _ _ _ E2). cbn [bind]. exact H.
  - intros up p h h' H. cbn [destroy_chain] in H. destruct p as [|p]; [exact H|]. change (destroy_chain (S (S fuel)) up (S p) h) with
      (let* e := load_element h (S p) in
       let* h := change (S p) (if up then with_ordered 0 else with_child 0) h in
       let* h := DestroyXMLTree (S fuel) (S p) h in
       destroy_chain (S fuel) up (if up then e_ordered e else e_child e) h).
    inv_bind H. rewrite E. cbn [bind]. inv_bind H. rewrite E0. cbn [bind]. inv_bind H. rewrite (IHT _ _ _ E1). cbn [bind]. apply IHC, H.
Qed.
Lemma destroy_fuel n m p h h' : DestroyXMLTree n p h = Ok h' -> n <= m -> DestroyXMLTree m p h = Ok h'.
Proof. intros H L. induction L as [|m L IH]; [exact H|]. apply destroy_more, IH. Qed.
Lemma destroy_same n m p h a b : DestroyXMLTree n p h = Ok a -> DestroyXMLTree m p h = Ok b -> a = b.
Proof.
  intros A B. destruct (Nat.le_ge_cases n m) as [L|L]; [rewrite (destroy_fuel _ _ _ _ _ A L) in B|rewrite (destroy_fuel _ _ _ _ _ B L) in A]; congruence.
Qed.

(** ** Links into the memory *)
Lemma child_parent h env par q f l c a : children_at h env par q f l -> In c (tops f) -> nth_error env c = Some a ->
  exists e, view h a = Some (Elem e) /\ e_parent e = par.
Proof.
  intros H. induction H as [|par q id j below rest e l1 l2 l3 N E P Z B K IHK R IHR]; [intros []|]. cbn [tops In]. intros [<-|I] A.
  - exists e. assert (q = a) as -> by congruence. destruct E; auto.
  - auto.
Qed.

Lemma destroy_ok h env s p : represents h env s -> In p (tops (trees s)) ->
  exists a h', nth_error env p = Some a /\ (forall fuel, 2 * size (trees s) <= fuel -> DestroyXMLTree fuel a h = Ok h') /\
    represents h' env (mkSpec (remove p (trees s)) (count s) (lost s)) /\
    (forall q, view h' q <> None -> view h' q = view h q).
Proof.
  intros (NE & l & m & T & D & M & L) I. pose proof (proj1 (nodup_app l m) D) as (Dl & Dm & X). pose proof (trees_nodup _ _ _ _ T Dl) as DI.
  destruct (trees_remove _ _ _ _ _ T DI I) as (a & e & i & kids & l1 & l2 & l3 & l4 & F & A & E & TA & O & K & R & PM).
  assert (S (size kids) <= size (trees s)) as Z.
  { clear - F I. revert F I. generalize (trees s). induction f as [|id j k1 IH1 r IH2]; [discriminate|]. cbn [find tops In size]. intros F. destruct (Nat.eqb_spec id p) as [->|N].
    - intros _. injection F as -> ->. lia.
    - intros [J|J]; [congruence|]. destruct (find p k1) as [x|] eqn:F1.
      + injection F as ->. clear IH2. assert (S (size kids) <= size k1); [|lia]. clear - F1. revert F1. induction k1 as [|id' j' k2 H2 r2 H3]; [discriminate|]. cbn [find size]. destruct (id' =? p); [intros [= -> ->]; lia|].
        destruct (find p k2); [intros [= ->]; specialize (H2 eq_refl); lia|]. intros G. specialize (H3 G). lia.
      + specialize (IH2 F J). lia. }
  pose proof (Permutation_NoDup PM Dl) as D'.
  assert (NoDup (l1 ++ l2 ++ l3 ++ [])) as D1.
  { rewrite app_nil_r. replace (l1 ++ l2 ++ l3 ++ l4) with ((l1 ++ l2 ++ l3) ++ l4) in D' by (rewrite <- !app_assoc; reflexivity). apply nodup_app in D'. tauto. }
  pose proof (proj2 (destroy_all env (S (size kids))) (S (size kids)) (le_n _)) as DT.
  assert (children_at h env 0 (e_ordered e) Nil []) as KO by (rewrite O; constructor).
  destruct (DT (2 * S (size kids)) h a e i kids Nil 0 l1 l2 l3 []) as (h' & H & G); try assumption; [cbn [size]; lia|lia|apply table_root with i; exact TA|].
  exists a, h'. split; [exact A|]. split; [|split].
  - intros fuel U. apply (destroy_fuel _ _ _ _ _ H). lia.
  - split; [exact NE|]. cbn [trees lost]. rewrite app_nil_r in G.
    assert (forall q, In q l4 \/ In q m -> ~ In q (l1 ++ l2 ++ l3)) as Out.
    { intros q Q J. destruct Q as [Q|Q].
      - replace (l1 ++ l2 ++ l3 ++ l4) with ((l1 ++ l2 ++ l3) ++ l4) in D' by (rewrite <- !app_assoc; reflexivity). apply nodup_app in D'. destruct D' as (_ & _ & D'). exact (D' q J Q).
      - apply (X q); [|exact Q]. apply (perm_in _ _ PM). rewrite !in_app_iff in *. tauto. }
    exists l4, m. split; [eapply trees_frame; [exact R|intros q Q; apply G, Out; tauto|apply grows_refl]|]. split; [|split; [exact M|]].
    + rewrite nodup_app. rewrite !nodup_app in D'. repeat split; try tauto. intros x J1 J2. apply (X x); [|exact J2]. apply (perm_in _ _ PM). rewrite !in_app_iff. tauto.
    + intros q. rewrite in_app_iff. split.
      * intros V. destruct (in_dec Nat.eq_dec q (l1 ++ l2 ++ l3)) as [J|J]; [rewrite (proj1 (G q) J) in V; congruence|]. rewrite (proj2 (G q) J) in V. apply L in V.
        rewrite in_app_iff, (perm_in _ _ PM), !in_app_iff in V. rewrite !in_app_iff in J. tauto.
      * intros Q. rewrite (proj2 (G q) (Out q Q)). apply L. rewrite in_app_iff, (perm_in _ _ PM), !in_app_iff. tauto.
  - intros q V. rewrite app_nil_r in G. destruct (in_dec Nat.eq_dec q (l1 ++ l2 ++ l3)) as [J|J]; [rewrite (proj1 (G q) J) in V; congruence|]. apply G, J.
Qed.
Lemma new_ok h env s t h' a : NewXMLTreeTag (Some t) h = (h', a) -> represents h env s ->
  represents h' (env ++ [a]) (mkSpec (Cons (count s) (mkInfo t [] [] 0 true false) Nil (trees s)) (S (count s)) (lost s)).
Proof.
  intros H (NE & l & m & T & D & M & L). cbn -[app] in H. set (h1 := h ++ [(true, Text t)]) in *. set (n1 := S (length h)) in *. set (h2 := h1 ++ [(true, Text [])]) in *. set (n2 := S (length h1)) in *.
  set (h3 := h2 ++ [(true, Slots [])]) in *. set (n3 := S (length h2)) in *. set (x := mkElement n1 0 n2 0 0 0 0 0 0 (Some n3)) in *.
  assert (h' = h3 ++ [(true, Elem x)]) as -> by exact (eq_sym (f_equal fst H)). assert (a = S (length h3)) as Ha by exact (eq_sym (f_equal snd H)). clear H.
  pose proof (live_alloc _ _ (Text t) L) as L1. fold h1 n1 in L1. pose proof (live_alloc _ _ (Text []) L1) as L2. fold h2 n2 in L2. pose proof (live_alloc _ _ (Slots []) L2) as L3. fold h3 n3 in L3.
  pose proof (live_alloc _ _ (Elem x) L3) as L4. rewrite <- Ha in L4. pose proof (fresh_out _ _ L) as N1. fold n1 in N1. pose proof (fresh_out _ _ L1) as N2. fold n2 in N2. pose proof (fresh_out _ _ L2) as N3. fold n3 in N3.
  pose proof (fresh_out _ _ L3) as N4. rewrite <- Ha in N4. set (h4 := h3 ++ [(true, Elem x)]) in *. cbn [In] in *.
  assert (forall q, view h4 q = if q =? a then Some (Elem x) else if q =? n3 then Some (Slots []) else if q =? n2 then Some (Text []) else if q =? n1 then Some (Text t) else view h q) as W.
  { intros q. unfold h4. rewrite view_alloc, <- Ha. destruct (q =? a); [reflexivity|]. unfold h3. rewrite view_alloc. fold n3. destruct (q =? n3); [reflexivity|]. unfold h2. rewrite view_alloc. fold n2. destruct (q =? n2); [reflexivity|].
    unfold h1. rewrite view_alloc. fold n1. destruct (q =? n1); reflexivity. }
  assert (forall q, In q (l ++ m) -> view h4 q = view h q) as WO.
  { intros q Q. rewrite W. destruct (Nat.eqb_spec q a) as [->|]; [tauto|]. destruct (Nat.eqb_spec q n3) as [->|]; [tauto|]. destruct (Nat.eqb_spec q n2) as [->|]; [tauto|]. destruct (Nat.eqb_spec q n1) as [->|]; [tauto|reflexivity]. }
  split; [cbn; rewrite app_length; cbn; lia|]. exists ([a; n1; n2] ++ [n3] ++ [] ++ l), m. cbn [trees lost]. split; [|split; [|split; [exact M|]]].
  - apply more_trees with (p := a) (e := x).
    + rewrite <- NE, nth_error_app2, Nat.sub_diag by lia. reflexivity.
    + change [a; n1; n2] with (a :: e_tag x :: e_content x :: []). constructor; cbn; try reflexivity.
      * rewrite W, Nat.eqb_refl. reflexivity.
      * rewrite W. destruct (Nat.eqb_spec n1 a) as [Q|]; [exfalso; tauto|]. destruct (Nat.eqb_spec n1 n3) as [Q|]; [exfalso; tauto|]. destruct (Nat.eqb_spec n1 n2) as [Q|]; [exfalso; tauto|]. rewrite Nat.eqb_refl. reflexivity.
      * rewrite W. destruct (Nat.eqb_spec n2 a) as [Q|]; [exfalso; tauto|]. destruct (Nat.eqb_spec n2 n3) as [Q|]; [exfalso; tauto|]. rewrite Nat.eqb_refl. reflexivity.
      * constructor.
      * split; [discriminate|reflexivity].
    + cbn. split; [reflexivity|]. exists n3, []. split; [reflexivity|]. split; [|reflexivity]. rewrite W. destruct (Nat.eqb_spec n3 a) as [Q|]; [exfalso; tauto|]. rewrite Nat.eqb_refl. reflexivity.
    + reflexivity.
    + constructor.
    + eapply trees_frame; [exact T|intros q Q; apply WO; rewrite in_app_iff; tauto|apply grows_app].
  - cbn [app]. constructor; [cbn [In]; intuition congruence|]. constructor; [cbn [In]; intuition congruence|]. constructor; [cbn [In]; intuition congruence|]. constructor; [tauto|exact D].
  - intros q. rewrite (L4 q). cbn [app In]. tauto.
Qed.
(** an element at [c] with the blocks [l1] and [l2] is put below the one named [p]; its other blocks [l0] are given up *)
Lemma below_ok fuel h h' env f l m p a j kids id c o e i below l1 l2 l0 g :
  trees_at h env f l -> NoDup (l1 ++ l2 ++ l ++ l0 ++ m) -> (forall q, view h q <> None <-> In q (l1 ++ l2 ++ l ++ l0 ++ m)) ->
  NoDup (ids f) -> find p f = Some (j, kids) -> nth_error env p = Some a -> nth_error env id = Some c -> element_at h c e i l1 -> children_at h env c (e_child e) below l2 ->
  InsertTagIntoXMLTree fuel a c o h = Ok h' -> g = replace p j (place id (hold o i) below kids) f ->
  exists l', trees_at h' env g l' /\ NoDup (l' ++ l0 ++ m) /\ forall q, view h' q <> None <-> In q (l' ++ l0 ++ m).
Proof.
  intros T D L DI F A C E K H ->. destruct (trees_focus _ _ _ _ _ _ _ T DI F) as (a' & x & lp & lk & cc & A' & EP & KP & PM & CL). assert (a' = a) as -> by congruence.
  assert (Permutation (l1 ++ l2 ++ l ++ l0 ++ m) ((lp ++ lk ++ l1 ++ l2) ++ cc ++ l0 ++ m)) as P1.
  { replace (l1 ++ l2 ++ l ++ l0 ++ m) with ((l1 ++ l2) ++ l ++ l0 ++ m) by (rewrite <- !app_assoc; reflexivity). rewrite PM.
    replace ((l1 ++ l2) ++ (lp ++ lk ++ cc) ++ l0 ++ m) with (((l1 ++ l2) ++ lp ++ lk) ++ cc ++ l0 ++ m) by (rewrite <- !app_assoc; reflexivity). apply Permutation_app_tail.
    rewrite Permutation_app_comm, <- app_assoc. reflexivity. }
  pose proof (Permutation_NoDup P1 D) as D1. rewrite nodup_app in D1. destruct D1 as (D2 & D3 & X).
  destruct (insert_ok _ _ _ _ _ _ _ _ _ _ _ _ _ _ _ _ _ _ H EP KP E K C D2) as (x' & lk' & EP' & KE & KP' & P2 & W).
  assert (forall q, ~ In q (lp ++ lk ++ l1 ++ l2) -> view h' q = view h q) as W'.
  { intros q N. apply W. rewrite !in_app_iff in *. tauto. }
  destruct (CL h' env j x' (place id (hold o i) below kids) lp lk') as (l' & T' & P3); try assumption; [|apply grows_refl|reflexivity|].
  { intros y I. apply W'. intros J. apply (X y J). rewrite !in_app_iff. tauto. }
  exists l'. split; [exact T'|].
  assert (Permutation (l' ++ l0 ++ m) ((lp ++ lk ++ l1 ++ l2) ++ cc ++ l0 ++ m)) as P4.
  { rewrite P3, P2. replace ((lp ++ (l1 ++ l2 ++ lk) ++ cc) ++ l0 ++ m) with (lp ++ ((l1 ++ l2) ++ lk) ++ cc ++ l0 ++ m) by (rewrite <- !app_assoc; reflexivity). rewrite (Permutation_app_comm (l1 ++ l2) lk).
    rewrite <- !app_assoc. reflexivity. }
  split; [apply (Permutation_NoDup (Permutation_sym P4)); apply (Permutation_NoDup P1); exact D|].
  intros q. split.
  - intros V. apply (perm_in _ _ P4). destruct (in_dec Nat.eq_dec q (lp ++ lk ++ l1 ++ l2)) as [J|J]; [rewrite in_app_iff; tauto|]. rewrite W' in V by exact J. apply L in V. apply (perm_in _ _ P1), V.
  - intros I. rewrite in_app_iff in I. destruct I as [I|I]; [eapply trees_live; eassumption|]. rewrite W'; [apply L, (perm_in _ _ P1); rewrite !in_app_iff in *; tauto|].
    intros J. apply (X q J). rewrite !in_app_iff in *. tauto.
Qed.
Lemma add_ok fuel h env s p a t o h' c j kids : AddChildToXMLTree fuel a t o h = Ok (h', c) -> represents h env s -> find p (trees s) = Some (j, kids) -> nth_error env p = Some a ->
  represents h' (env ++ [c]) (mkSpec (replace p j (place (count s) (mkInfo t [] [] o false true) Nil kids) (trees s)) (S (count s)) (lost s)).
Proof.
  intros H (NE & l & m & T & D & M & L) F A. cbn -[app] in H. set (h1 := h ++ [(true, Text t)]) in *. set (n1 := S (length h)) in *. set (h2 := h1 ++ [(true, Text [])]) in *. set (n2 := S (length h1)) in *.
  set (x := mkElement n1 0 n2 0 0 0 0 0 0 None) in *. set (n3 := S (length h2)) in *. set (h3 := h2 ++ [(true, Elem x)]) in *.
  pose proof (proj1 (nodup_app l m) D) as (Dl & Dm & X). pose proof (trees_nodup _ _ _ _ T Dl) as DI.
  inv_bind H. rename x0 into h4, E into E4. assert (h4 = h' /\ n3 = c) as [<- <-] by (split; congruence). clear H.
  pose proof (live_alloc _ _ (Text t) L) as L1. fold h1 n1 in L1. pose proof (live_alloc _ _ (Text []) L1) as L2. fold h2 n2 in L2. pose proof (live_alloc _ _ (Elem x) L2) as L3. fold h3 n3 in L3.
  pose proof (fresh_out _ _ L) as N1. fold n1 in N1. pose proof (fresh_out _ _ L1) as N2. fold n2 in N2. pose proof (fresh_out _ _ L2) as N3. fold n3 in N3. cbn [In] in N1, N2, N3.
  assert (forall q, view h3 q = if q =? n3 then Some (Elem x) else if q =? n2 then Some (Text []) else if q =? n1 then Some (Text t) else view h q) as W.
  { intros q. unfold h3. rewrite view_alloc. fold n3. destruct (q =? n3); [reflexivity|]. unfold h2. rewrite view_alloc. fold n2. destruct (q =? n2); [reflexivity|].
    unfold h1. rewrite view_alloc. fold n1. destruct (q =? n1); reflexivity. }
  assert (forall q, In q (l ++ m) -> view h3 q = view h q) as WO.
  { intros q Q. rewrite W. destruct (Nat.eqb_spec q n3) as [->|]; [tauto|]. destruct (Nat.eqb_spec q n2) as [->|]; [tauto|]. destruct (Nat.eqb_spec q n1) as [->|]; [tauto|reflexivity]. }
  assert (element_at h3 n3 x (mkInfo t [] [] 0 false false) [n3; n1; n2]) as EX.
  { change [n3; n1; n2] with (n3 :: e_tag x :: e_content x :: []). constructor; cbn; try reflexivity.
    * rewrite W, Nat.eqb_refl. reflexivity.
    * rewrite W. destruct (Nat.eqb_spec n1 n3) as [Q|]; [exfalso; tauto|]. destruct (Nat.eqb_spec n1 n2) as [Q|]; [exfalso; tauto|]. rewrite Nat.eqb_refl. reflexivity.
    * rewrite W. destruct (Nat.eqb_spec n2 n3) as [Q|]; [exfalso; tauto|]. rewrite Nat.eqb_refl. reflexivity.
    * constructor.
    * split; [discriminate|congruence]. }
  destruct (below_ok fuel h3 h4 (env ++ [n3]) (trees s) l m p a j kids (count s) n3 o x (mkInfo t [] [] 0 false false) Nil [n3; n1; n2] [] [] (replace p j (place (count s) (mkInfo t [] [] o false true) Nil kids) (trees s))) as (l' & T' & D' & L'); try assumption.
  - eapply trees_frame; [exact T|intros q Q; apply WO; rewrite in_app_iff; tauto|apply grows_app].
  - cbn [app]. constructor; [cbn [In]; intuition congruence|]. constructor; [cbn [In]; intuition congruence|]. constructor; [tauto|exact D].
  - intros q. rewrite (L3 q). cbn [app In]. tauto.
  - apply grows_app, A.
  - rewrite <- NE, nth_error_app2, Nat.sub_diag by lia. reflexivity.
  - constructor.
  - reflexivity.
  - split; [cbn; rewrite app_length; cbn; lia|]. exists l', m. tauto.
Qed.
Lemma insert_step fuel h env s p a c b o h' j kids i below : InsertTagIntoXMLTree fuel a b o h = Ok h' -> represents h env s -> In c (tops (trees s)) ->
  find c (trees s) = Some (i, below) -> find p (remove c (trees s)) = Some (j, kids) -> nth_error env p = Some a -> nth_error env c = Some b ->
  represents h' env (mkSpec (replace p j (place c (hold o i) below kids) (remove c (trees s))) (count s) (if i_held i then lost s else c :: lost s)).
Proof.
  intros H (NE & l & m & T & D & M & L) I F FP A B. pose proof (proj1 (nodup_app l m) D) as (Dl & Dm & X). pose proof (trees_nodup _ _ _ _ T Dl) as DI.
  destruct (trees_remove _ _ _ _ _ T DI I) as (b' & e & i' & below' & l1 & l2 & l3 & l4 & F' & B' & E & TA & O & K & R & PM). assert (b' = b) as -> by congruence. assert (i' = i /\ below' = below) as [-> ->] by (split; congruence).
  assert (Permutation (l ++ m) (l1 ++ l3 ++ l4 ++ l2 ++ m)) as P1.
  { rewrite PM. rewrite <- !app_assoc. apply Permutation_app_head. rewrite Permutation_app_swap_app. apply Permutation_app_head. apply Permutation_app_swap_app. }
  pose proof (Permutation_NoDup P1 D) as D1.
  assert (NoDup (ids (remove c (trees s)))) as DR by (apply (trees_nodup _ _ _ _ R); rewrite !nodup_app in D1; tauto).
  destruct (below_ok fuel h h' env (remove c (trees s)) l4 m p a j kids c b o e i below l1 l3 l2 (replace p j (place c (hold o i) below kids) (remove c (trees s))) R D1) as (l' & T' & D' & L'); try assumption.
  - intros q. rewrite <- (perm_in _ _ P1). apply L.
  - reflexivity.
  - split; [exact NE|]. cbn [trees lost]. exists l', (l2 ++ m). split; [exact T'|]. split; [exact D'|]. split; [|exact L'].
    unfold table_at in TA. rewrite app_length, M. destruct (i_held i); [destruct TA as [_ ->]; reflexivity|]. destruct TA as (_ & t & y & _ & _ & ->). reflexivity.
Qed.
Lemma cut_step fuel h env s c b h' i below : PruneTagFromXMLTree fuel b h = Ok h' -> represents h env s -> ~ In c (tops (trees s)) ->
  find c (trees s) = Some (i, below) -> nth_error env c = Some b ->
  represents h' env (mkSpec (Cons c i below (remove c (trees s))) (count s) (lost s)).
Proof.
  intros H (NE & l & m & T & D & M & L) I F B. pose proof (proj1 (nodup_app l m) D) as (Dl & Dm & X). pose proof (trees_nodup _ _ _ _ T Dl) as DI.
  destruct (below_parent c (trees s)) as (p & j & kids & FP & IK & NP & RP & FK); try assumption.
  { destruct (in_dec Nat.eq_dec c (ids (trees s))) as [J|J]; [exact J|]. rewrite find_out in F by exact J. discriminate. }
  destruct (trees_focus _ _ _ _ _ _ _ T DI FP) as (a & x & lp & lk & cc & A & EP & KP & PM & CL).
  destruct (child_parent _ _ _ _ _ _ _ _ KP IK B) as (e & VE & PE). rewrite F in FK. symmetry in FK.
  assert (Permutation (l ++ m) ((lp ++ lk) ++ cc ++ m)) as P1 by (rewrite PM, <- !app_assoc; reflexivity).
  pose proof (Permutation_NoDup P1 D) as D1. rewrite nodup_app in D1. destruct D1 as (D2 & D3 & Y).
  destruct (prune_ok _ _ _ _ _ _ _ _ _ _ _ _ _ _ _ H EP KP B IK FK VE PE D2) as (x' & lk' & e' & l1 & l2 & EP' & KE & KP' & EC & HI & PZ & OZ & KC & P2 & W).
  destruct (CL h' env j x' (remove c kids) lp lk') as (l' & T' & P3); try assumption; [|apply grows_refl|reflexivity|].
  { intros y J. apply W. intros J'. apply (Y y J'). rewrite in_app_iff. tauto. }
  rewrite <- RP in T'. split; [exact NE|]. cbn [trees lost]. exists (l1 ++ [] ++ l2 ++ l'), m.
  assert (Permutation ((l1 ++ [] ++ l2 ++ l') ++ m) ((lp ++ lk) ++ cc ++ m)) as P4.
  { cbn [app]. rewrite P3, P2. replace ((l1 ++ l2 ++ lp ++ lk' ++ cc) ++ m) with ((l1 ++ l2) ++ lp ++ lk' ++ cc ++ m) by (rewrite <- !app_assoc; reflexivity). rewrite Permutation_app_swap_app. rewrite <- !app_assoc. reflexivity. }
  split; [|split; [|split; [exact M|]]].
  - apply more_trees with (p := b) (e := e'); try assumption. unfold table_at. rewrite HI. tauto.
  - apply (Permutation_NoDup (Permutation_sym P4)), (Permutation_NoDup P1), D.
  - assert (trees_at h' env (Cons c i below (remove c (trees s))) (l1 ++ [] ++ l2 ++ l')) as TT.
    { apply more_trees with (p := b) (e := e'); try assumption. unfold table_at. rewrite HI. tauto. }
    intros q. split.
    + intros V. apply (perm_in _ _ P4). destruct (in_dec Nat.eq_dec q (lp ++ lk)) as [J|J]; [rewrite in_app_iff; tauto|]. rewrite W in V by exact J. apply (perm_in _ _ P1), L, V.
    + intros J. rewrite in_app_iff in J. destruct J as [J|J]; [eapply trees_live; eassumption|]. rewrite W; [apply L; rewrite in_app_iff; tauto|]. intros J'. apply (Y q J'). rewrite in_app_iff. tauto.
Qed.

Lemma var_Ok env i p : var env i = Ok p -> nth_error env i = Some p.
Proof. unfold var. destruct (nth_error env i); congruence. Qed.
Lemma step_represents fuel h env s x h' env' s' : represents h env s -> step fuel (h, env) x = Ok (h', env') -> spec_step s x = Some s' -> represents h' env' s'.
Proof.
  intros R H Z. destruct x as [t|p t o|p c o|c|p t|p k v|p t|p]; cbn [step] in H; unfold spec_step in Z; cbv zeta in Z.
  - destruct (NewXMLTreeTag (Some t) h) as [h1 a] eqn:E. injection H as <- <-. injection Z as <-. exact (new_ok _ _ _ _ _ _ E R).
  - inv_bind H. apply var_Ok in E. inv_bind H. destruct x0 as [h1 c]. injection H as <- <-. destruct (find p (trees s)) as [[j kids]|] eqn:F; [|discriminate]. injection Z as <-. exact (add_ok _ _ _ _ _ _ _ _ _ _ _ _ E0 R F E).
  - inv_bind H. apply var_Ok in E. inv_bind H. apply var_Ok in E0. inv_bind H. injection H as <- <-. destruct (member c (tops (trees s))) eqn:I; [|discriminate]. apply member_in in I.
    destruct (find c (trees s)) as [[i below]|] eqn:F; [|discriminate]. destruct (find p (remove c (trees s))) as [[j kids]|] eqn:FP; [|discriminate]. injection Z as <-. exact (insert_step _ _ _ _ _ _ _ _ _ _ _ _ _ _ E1 R I F FP E E0).
  - inv_bind H. apply var_Ok in E. inv_bind H. injection H as <- <-. destruct (member c (tops (trees s))) eqn:I; [discriminate|].
    destruct (find c (trees s)) as [[i below]|] eqn:F; [|discriminate]. injection Z as <-. eapply cut_step; try eassumption. intros J. apply member_in in J. congruence.
  - inv_bind H. apply var_Ok in E. inv_bind H. injection H as <- <-. destruct (find p (trees s)) as [[i kids]|] eqn:F; [|discriminate]. injection Z as <-.
    eapply own_change; [exact R|exact F|reflexivity|]. intros a e l A EA D. assert (a = x) as -> by congruence. eapply content_ok; eassumption.
  - inv_bind H. apply var_Ok in E. inv_bind H. injection H as <- <-. destruct (find p (trees s)) as [[i kids]|] eqn:F; [|discriminate]. injection Z as <-.
    eapply own_change; [exact R|exact F|reflexivity|]. intros a e l A EA D. assert (a = x) as -> by congruence. eapply attribute_ok; eassumption.
  - inv_bind H. inv_bind H. injection H as <- <-. destruct (find p (trees s)); congruence.
  - inv_bind H. apply var_Ok in E. inv_bind H. injection H as <- <-. destruct (member p (tops (trees s))) eqn:I; [|discriminate]. apply member_in in I. injection Z as <-.
    destruct (destroy_ok _ _ _ _ R I) as (a & h1 & A & U & R' & _). assert (a = x) as -> by congruence. specialize (U _ (le_n _)). rewrite (destroy_same _ _ _ _ _ _ E0 U). exact R'.
Qed.
Lemma run_represents fuel l : forall h env s h' env' s', represents h env s -> run fuel l (h, env) = Ok (h', env') -> spec_run l s = Some s' -> represents h' env' s'.
Proof.
  unfold run. induction l as [|x l IH]; intros h env s h' env' s' R H Z.
  - cbn in H, Z. injection H as <- <-. injection Z as <-. exact R.
  - cbn [fold_outcome spec_run] in H, Z. destruct (spec_step s x) as [s1|] eqn:Z1; [|discriminate]. inv_bind H. destruct x0 as [h1 env1]. eapply IH; [|exact H|exact Z]. eapply step_represents; eassumption.
Qed.
Lemma represents_nothing : represents [] [] nothing.
Proof.
  split; [reflexivity|]. exists [], []. split; [constructor|]. split; [constructor|]. split; [reflexivity|]. intros p. split; [|intros []]. intros V. destruct V. destruct p as [|[|p]]; reflexivity.
Qed.

(** ** Blocks in use *)
Lemma count_live h : forall l, NoDup l -> (forall q, view h q <> None <-> In q l) -> in_use h = length l.
Proof.
  intros l D L. unfold in_use.
  assert (forall (g : heap) n, exists k, NoDup k /\ length k = length (filter fst g) /\ forall i, In i k <-> exists b, nth_error g (i - n) = Some (true, b) /\ n <= i) as X.
  { induction g as [|[u b] g IH]; intros n.
    - exists []. split; [constructor|]. split; [reflexivity|]. intros i. split; [intros []|]. intros (c & C & _). destruct (i - n); discriminate.
    - destruct (IH (S n)) as (k & Dk & Lk & Ik). assert (forall i, In i k -> S n <= i) as Big by (intros i I; apply Ik in I; destruct I as (_ & _ & I); exact I).
      destruct u; cbn [filter fst].
      + exists (n :: k). split; [constructor; [intros I; apply Big in I; lia|exact Dk]|]. split; [cbn; lia|]. intros i. cbn [In]. rewrite Ik. split.
        * intros [<-|(c & C & Q)]; [exists b; rewrite Nat.sub_diag; split; [reflexivity|lia]|]. exists c. replace (i - n) with (S (i - S n)) by lia. split; [exact C|lia].
        * intros (c & C & Q). destruct (Nat.eq_dec n i) as [E|N]; [tauto|]. right. exists c. replace (i - n) with (S (i - S n)) in C by lia. split; [exact C|lia].
      + exists k. split; [exact Dk|]. split; [exact Lk|]. intros i. rewrite Ik. split.
        * intros (c & C & Q). exists c. replace (i - n) with (S (i - S n)) by lia. split; [exact C|lia].
        * intros (c & C & Q). destruct (Nat.eq_dec n i) as [<-|N]; [rewrite Nat.sub_diag in C; discriminate|]. exists c. replace (i - n) with (S (i - S n)) in C by lia. split; [exact C|lia]. }
  destruct (X h 1) as (k & Dk & Lk & Ik). rewrite <- Lk. apply Permutation_length, NoDup_Permutation; [exact Dk|exact D|]. intros q. rewrite Ik, <- L, view_get. split.
  - intros (b & B & Q). destruct q as [|q]; [lia|]. cbn [get]. replace q with (S q - 1) by lia. rewrite B. destruct b; discriminate.
  - intros V. destruct q as [|q]; [cbn in V; congruence|]. cbn [get] in V. destruct (nth_error h q) as [[[] b]|] eqn:G; try congruence. exists b. replace (S q - 1) with q by lia. split; [exact G|lia].
Qed.
