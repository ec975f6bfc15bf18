(** Programs that prune nothing and give each element one attribute at most always go through: the steps. *)
From Coq Require Import NArith Bool Arith List Lia Permutation Sorting.
From Verif Require Import Outcome XmlMemoryModel XmlMemorySpec XmlMemoryProof XmlMemoryRun XmlMemoryOps XmlMemoryMain XmlMemoryInv XmlMemoryTotal XmlMemoryCalm.
Import ListNotations.

Lemma size_ids f : size f = length (ids f).
Proof. induction f as [|id i kids IHk rest IHr]; cbn; [reflexivity|]. rewrite app_length. lia. Qed.
Lemma tops_size f : length (tops f) <= size f.
Proof. induction f as [|id i kids _ rest IH]; cbn; lia. Qed.
Lemma find_size p f i k : find p f = Some (i, k) -> S (size k) <= size f.
Proof.
  induction f as [|id j kids IHk rest IHr]; cbn [find size]; [discriminate|]. destruct (id =? p); [intros [= -> ->]; lia|]. destruct (find p kids) as [r|]; [intros [= ->]; specialize (IHk eq_refl); lia|]. intros F. specialize (IHr F). lia.
Qed.
Lemma size_count h env s : represents h env s -> size (trees s) <= count s.
Proof.
  intros (NE & l & m & T & D & _). apply nodup_app in D. destruct D as (D & _). pose proof (trees_nodup _ _ _ _ T D) as DI. rewrite size_ids, <- NE, <- (seq_length (length env) 0). apply NoDup_incl_length; [exact DI|].
  intros x I. destruct (trees_ids _ _ _ _ _ T I) as (a & A & _). apply in_seq. split; [lia|]. cbn. apply nth_error_Some. congruence.
Qed.
Lemma find_var h env s p r : represents h env s -> find p (trees s) = Some r -> exists a, nth_error env p = Some a /\ var env p = Ok a.
Proof.
  intros (_ & l & m & T & _) F. destruct r as [i k]. destruct (trees_ids _ _ _ _ _ T (find_in _ _ _ F)) as (a & A & _). exists a. split; [exact A|]. unfold var. rewrite A. reflexivity.
Qed.
Lemma content_total p t h e i l : element_at h p e i l -> NoDup l -> exists h', SetXMLTreeContent p t h = Ok h'.
Proof.
  intros [r V T C P O M] D. destruct (view_load_element _ _ _ V) as (e0 & L & CE). unfold SetXMLTreeContent. rewrite L. cbn [bind]. destruct (core_fields _ _ CE) as (_ & _ & F3 & _). rewrite F3.
  destruct (Relinquish_ok (e_content e) h) as (h1 & R & W); [congruence|]. rewrite R. cbn [bind alloc]. apply NoDup_cons_iff in D. destruct D as [N _]. cbn in N.
  assert (view (h1 ++ [(true, Text t)]) p = Some (Elem e)) as V1.
  { rewrite view_alloc, W. destruct (Nat.eqb_spec p (S (length h1))) as [Q|_].
    - exfalso. pose proof (Relinquish_length _ _ _ R) as LR. assert (view h p <> None) as VN by congruence. apply view_bound in VN. lia.
    - destruct (Nat.eqb_spec p (e_content e)) as [Q|_]; [exfalso; apply N; right; left; congruence|exact V]. }
  destruct (view_load_element _ _ _ V1) as (e1 & L1 & _). destruct (change_raw p (with_content (S (length h1))) _ _ L1) as (h2 & C2 & _). eauto.
Qed.
Lemma attribute_total fuel p k v h e i l : element_at h p e i l -> NoDup l -> 3 <= fuel -> i_pairs i = [] \/ (exists w, i_pairs i = [(k, w)]) -> exists h', SetXMLTreeAttribute fuel p k v h = Ok h'.
Proof.
  intros [r V T C P O M] D FU Z. destruct (view_load_element _ _ _ V) as (e0 & L & CE). unfold SetXMLTreeAttribute. rewrite L. cbn [bind]. destruct (core_fields _ _ CE) as (_ & F2 & _). rewrite F2. clear L F2 CE.
  destruct fuel as [|[|[|fuel]]]; try lia. assert (p < S (length h)) as NP by (apply view_bound; congruence).
  destruct Z as [Z|(w & Z)]; rewrite Z in P; inversion P as [PA PP PR|a k0 v0 kp vp A K0 V0 ZK PA PP PR].
  - cbn -[change Relinquish load_slots load_text app set]. set (h1 := h ++ [(true, Text [])]). set (n1 := S (length h)). set (h2 := h1 ++ [(true, Text k)]). set (n2 := S (length h1)).
    set (sl := [Some n2; Some n1; Some 0; None]). set (h3 := h2 ++ [(true, Slots sl)]). set (n3 := S (length h2)).
    assert (n2 = S n1 /\ n3 = S n2) as [Q2 Q3] by (unfold n2, n3, h2, n1, h1; rewrite ?app_length; cbn [length]; rewrite ?app_length; cbn [length]; lia).
    assert (forall q, view h2 q = if q =? n2 then Some (Text k) else if q =? n1 then Some (Text []) else view h q) as W2.
    { intros q. unfold h2. rewrite view_alloc. fold n2. destruct (q =? n2); [reflexivity|]. unfold h1. rewrite view_alloc. fold n1. destruct (q =? n1); reflexivity. }
    assert (forall q, view h3 q = if q =? n3 then Some (Slots sl) else view h2 q) as W3 by (intros q; unfold h3; rewrite view_alloc; fold n3; destruct (q =? n3); reflexivity).
    assert (view h2 n1 = Some (Text [])) as V1 by (rewrite W2, (proj2 (Nat.eqb_neq n1 n2)), Nat.eqb_refl by lia; reflexivity). rewrite (view_load_text _ _ _ V1). cbn -[change Relinquish load_slots load_text app set].
    assert (view h3 p = Some (Elem e)) as VP by (rewrite W3, W2, (proj2 (Nat.eqb_neq p n3)), (proj2 (Nat.eqb_neq p n2)), (proj2 (Nat.eqb_neq p n1)) by (unfold n1 in *; lia); exact V).
    destruct (view_load_element _ _ _ VP) as (e1 & L1 & _). destruct (change_raw p (with_attributes n3) _ _ L1) as (h4 & C4 & _). rewrite C4. cbn -[Relinquish load_slots load_text app set].
    destruct (change_view _ _ _ _ C4) as (e2 & _ & W4). destruct (Relinquish_ok n1 h4) as (h5 & R5 & W5).
    { rewrite W4, W3. destruct (n1 =? p); [discriminate|]. destruct (n1 =? n3); [discriminate|]. congruence. }
    rewrite R5. cbn -[load_slots load_text app set].
    assert (view (h5 ++ [(true, Text v)]) n3 = Some (Slots sl)) as V6.
    { rewrite view_alloc, W5, W4, W3. pose proof (Relinquish_length _ _ _ R5) as L5. pose proof (change_length _ _ _ _ C4) as L4. assert (length h3 = S (length h2)) as L3 by (unfold h3; rewrite app_length; cbn; lia).
      rewrite (proj2 (Nat.eqb_neq n3 (S (length h5)))), (proj2 (Nat.eqb_neq n3 n1)), (proj2 (Nat.eqb_neq n3 p)), Nat.eqb_refl by (unfold n3, n1 in *; lia). reflexivity. }
    rewrite (view_load_slots _ _ _ V6). cbn [bind]. eauto.
  - rewrite <- PA in A |- *. assert (a <> 0) as NZ by (intros Q; rewrite Q in A; discriminate A). destruct a as [|a]; [congruence|]. rewrite (view_load_slots _ _ _ A). cbn [bind find_slot]. unfold slot. cbn [nth_error bind].
    destruct kp as [|kp]; [congruence|]. rewrite (view_load_text _ _ _ K0). cbn [bind]. unfold tag_eq. destruct (list_eq_dec N.eq_dec k k); [|congruence]. cbn -[Relinquish load_slots app set].
    destruct (Relinquish_ok vp h) as (h1 & R & W); [congruence|]. rewrite R. cbn -[load_slots app set].
    assert (view (h1 ++ [(true, Text v)]) (S a) = Some (Slots [Some (S kp); Some vp; Some 0; None])) as V1.
    { rewrite view_alloc, W. pose proof (Relinquish_length _ _ _ R) as LR. assert (S a < S (length h)) as B by (apply view_bound; congruence). rewrite (proj2 (Nat.eqb_neq (S a) (S (length h1)))) by lia.
      destruct (Nat.eqb_spec (S a) vp) as [Q|_]; [|exact A]. exfalso. rewrite Q in A. congruence. }
    rewrite (view_load_slots _ _ _ V1). cbn [bind]. eauto.
Qed.
Lemma good_mem h env f g l : good h env f -> trees_at h env f l -> (forall H, In H (subs g) -> In H (subs f)) -> good h env g.
Proof. intros G _ S' H I. apply G, S', I. Qed.

Lemma step_total fuel h env s x s' : represents h env s -> good h env (trees s) -> spec_step s x = Some s' -> safe s x = true -> 2 * count s + 3 <= fuel ->
  exists h' env', step fuel (h, env) x = Ok (h', env') /\ good h' env' (trees s').
Proof.
  intros R G Z SA FU. pose proof (size_count _ _ _ R) as SC.
  assert (forall h' env', step fuel (h, env) x = Ok (h', env') -> exists l', trees_at h' env' (trees s') l' /\ NoDup l') as After.
  { intros h' env' H. destruct (step_represents _ _ _ _ _ _ _ _ R H Z) as (_ & l' & m' & T' & D' & _). exists l'. apply nodup_app in D'. tauto. }
  pose proof R as (NE & l & m & T & D & M & L). pose proof (proj1 (nodup_app l m) D) as (Dl & Dm & X). pose proof (trees_nodup _ _ _ _ T Dl) as DI.
  destruct x as [t|p t o|p c o|c|p t|p k v|p t|p]; cbn [step] in *; unfold spec_step in Z; cbv zeta in Z; cbn [safe] in SA; try discriminate.
  - injection Z as <-. cbn [NewXMLTreeTag alloc] in *. do 2 eexists. split; [reflexivity|]. destruct (After _ _ eq_refl) as (l' & T' & _). cbn [trees] in *.
    eapply good_calm; [exact G| |exact T|apply grows_app|exact T'|cbn [subs heads In app]; intros H [<-|I]; tauto].
    eapply calm_trans; [apply calm_alloc|]. eapply calm_trans; [apply calm_alloc|]. eapply calm_trans; [apply calm_alloc|]. apply calm_alloc.
  - destruct (find p (trees s)) as [[j kids]|] eqn:F; [|discriminate]. injection Z as <-. cbn [trees] in *. destruct (find_var _ _ _ _ _ R F) as (a & A & VA). rewrite VA in *. cbn [bind] in *.
    unfold AddChildToXMLTree in *. cbn [alloc] in *. set (h1 := h ++ [(true, Text t)]) in *. set (n1 := S (length h)) in *. set (h2 := h1 ++ [(true, Text [])]) in *. set (n2 := S (length h1)) in *.
    set (x := mkElement n1 0 n2 0 0 0 0 0 0 None) in *. set (n3 := S (length h2)) in *. set (h3 := h2 ++ [(true, Elem x)]) in *.
    pose proof (live_alloc _ _ (Text t) L) as L1. fold h1 n1 in L1. pose proof (live_alloc _ _ (Text []) L1) as L2. fold h2 n2 in L2. pose proof (live_alloc _ _ (Elem x) L2) as L3. fold h3 n3 in L3.
    pose proof (fresh_out _ _ L) as N1. fold n1 in N1. pose proof (fresh_out _ _ L1) as N2. fold n2 in N2. pose proof (fresh_out _ _ L2) as N3. fold n3 in N3. cbn [In] in N1, N2, N3.
    assert (forall q, view h3 q = if q =? n3 then Some (Elem x) else if q =? n2 then Some (Text []) else if q =? n1 then Some (Text t) else view h q) as W.
    { intros q. unfold h3. rewrite view_alloc. fold n3. destruct (q =? n3); [reflexivity|]. unfold h2. rewrite view_alloc. fold n2. destruct (q =? n2); [reflexivity|].
      unfold h1. rewrite view_alloc. fold n1. destruct (q =? n1); reflexivity. }
    assert (forall q, In q (l ++ m) -> view h3 q = view h q) as WO.
    { intros q Q. rewrite W. destruct (Nat.eqb_spec q n3) as [->|]; [tauto|]. destruct (Nat.eqb_spec q n2) as [->|]; [tauto|]. destruct (Nat.eqb_spec q n1) as [->|]; [tauto|reflexivity]. }
    assert (element_at h3 n3 x (mkInfo t [] [] 0 false false) [n3; n1; n2]) as EX.
    { change [n3; n1; n2] with (n3 :: e_tag x :: e_content x :: []). constructor; cbn; try reflexivity.
      * rewrite W, Nat.eqb_refl. reflexivity.
      * rewrite W. destruct (Nat.eqb_spec n1 n3) as [Q|]; [exfalso; tauto|]. destruct (Nat.eqb_spec n1 n2) as [Q|]; [exfalso; tauto|]. rewrite Nat.eqb_refl. reflexivity.
      * rewrite W. destruct (Nat.eqb_spec n2 n3) as [Q|]; [exfalso; tauto|]. rewrite Nat.eqb_refl. reflexivity.
      * constructor.
      * split; [discriminate|congruence]. }
    assert (trees_at h3 (env ++ [n3]) (trees s) l) as T3 by (eapply trees_frame; [exact T|intros q Q; apply WO; rewrite in_app_iff; tauto|apply grows_app]).
    destruct (below_total fuel h3 (env ++ [n3]) (trees s) l p a j kids (count s) n3 o x (mkInfo t [] [] 0 false false) Nil [n3; n1; n2] []) as (h4 & C4 & G4); try assumption.
    + cbn [app]. constructor; [cbn [In]; rewrite in_app_iff in *; intuition congruence|]. constructor; [cbn [In]; rewrite in_app_iff in *; intuition congruence|]. constructor; [rewrite in_app_iff in N2; intros J; apply N2; right; left; exact J|exact Dl].
    + apply grows_app, A.
    + rewrite <- NE, nth_error_app2, Nat.sub_diag by lia. reflexivity.
    + constructor.
    + eapply good_calm; [exact G| |exact T|apply grows_app|exact T3|intros H J; right; exact J]. eapply calm_trans; [apply calm_alloc|]. eapply calm_trans; [apply calm_alloc|]. apply calm_alloc.
    + cbn [subs heads In]. intros H [->|[]]. split; [constructor|intros y []].
    + pose proof (tops_size kids). apply find_size in F. lia.
    + rewrite C4 in *. cbn [bind] in *. exists h4, (env ++ [n3]). split; [reflexivity|]. destruct (After _ _ eq_refl) as (l' & T' & D'). exact (G4 l' T' D').
  - destruct (member c (tops (trees s))) eqn:I; [|discriminate]. apply member_in in I. destruct (find c (trees s)) as [[i below]|] eqn:F; [|discriminate]. destruct (find p (remove c (trees s))) as [[j kids]|] eqn:FP; [|discriminate].
    injection Z as <-. cbn [trees] in *. destruct (find_var _ _ _ _ _ R F) as (b & B & VB).
    destruct (trees_remove _ _ _ _ _ T DI I) as (b' & e & i' & below' & l1 & l2 & l3 & l4 & F' & B' & E & TA & O & K & RT & PM). assert (b' = b) as -> by congruence. assert (i' = i /\ below' = below) as [-> ->] by (split; congruence).
    destruct (trees_ids _ _ _ _ _ RT (find_in _ _ _ FP)) as (a & A & _). assert (var env p = Ok a) as VA by (unfold var; rewrite A; reflexivity). rewrite VA, VB in *. cbn [bind] in *.
    pose proof (Permutation_NoDup PM Dl) as D1. assert (NoDup (l1 ++ l3 ++ l4)) as D2.
    { rewrite !nodup_app in *. destruct D1 as (Q1 & (Q2 & (Q3 & Q4 & Q34) & Q5) & Q6). repeat split; try assumption. intros z Z1 Z2. apply (Q6 z Z1). rewrite in_app_iff. tauto. }
    assert (NoDup (ids (remove c (trees s)))) as DR by (apply (trees_nodup _ _ _ _ RT); rewrite !nodup_app in D2; tauto).
    destruct (below_total fuel h env (remove c (trees s)) l4 p a j kids c b o e i below l1 l3) as (h4 & C4 & G4); try assumption.
    + intros H J. apply G, (subs_remove c _ I DI), J.
    + intros H J. apply G. apply (subs_find c _ _ _ F). cbn [In]. intuition.
    + pose proof (tops_size kids). apply find_size in FP. assert (size (remove c (trees s)) <= count s); [|lia]. rewrite size_ids in *. etransitivity; [|exact SC]. apply NoDup_incl_length; [exact DR|].
      clear - I. intros z Zr. revert z Zr. generalize (trees s). induction f as [|id y k1 IH1 k2 IH2]; cbn [remove ids]; [tauto|]. destruct (id =? c); cbn [ids In]; intros z; rewrite !in_app_iff; intuition.
    + rewrite C4 in *. cbn [bind] in *. exists h4, env. split; [reflexivity|]. destruct (After _ _ eq_refl) as (l' & T' & D'). exact (G4 l' T' D').
  - destruct (find p (trees s)) as [[i kids]|] eqn:F; [|discriminate]. injection Z as <-. cbn [trees] in *. destruct (find_var _ _ _ _ _ R F) as (a & A & VA). rewrite VA in *. cbn [bind] in *.
    destruct (trees_focus _ _ _ _ _ _ _ T DI F) as (a' & e & l1 & l2 & cc & A' & E & K & PM & _). assert (a' = a) as -> by congruence. assert (NoDup l1) as D1 by (pose proof (Permutation_NoDup PM Dl) as D1; apply nodup_app in D1; tauto).
    destruct (content_total a t h e i l1 E D1) as (h4 & C4). rewrite C4 in *. cbn [bind] in *. exists h4, env. split; [reflexivity|]. destruct (After _ _ eq_refl) as (l' & T' & D').
    eapply good_calm; [exact G|eapply calm_content, C4|exact T|apply grows_refl|exact T'|]. intros H J. eapply subs_replace in J; [|exact F|reflexivity|exact DI]. right. pose proof (subs_find _ _ _ _ F H) as Q. cbn [In] in Q. intuition.
  - destruct (find p (trees s)) as [[i kids]|] eqn:F; [|discriminate]. injection Z as <-. cbn [trees] in *. destruct (find_var _ _ _ _ _ R F) as (a & A & VA). rewrite VA in *. cbn [bind] in *.
    destruct (trees_focus _ _ _ _ _ _ _ T DI F) as (a' & e & l1 & l2 & cc & A' & E & K & PM & _). assert (a' = a) as -> by congruence. assert (NoDup l1) as D1 by (pose proof (Permutation_NoDup PM Dl) as D1; apply nodup_app in D1; tauto).
    destruct (attribute_total fuel a k v h e i l1 E D1) as (h4 & C4); [lia| |].
    { destruct E as [r V0 T0 C0 P0 _ _]. inversion P0 as [PA PP PR|q k0 v0 kp vp Q K0 V1 ZK PA PP PR]; [left; reflexivity|]. right. rewrite <- PP in SA. destruct (list_eq_dec N.eq_dec k0 k) as [->|]; [eauto|discriminate]. }
    rewrite C4 in *. cbn [bind] in *. exists h4, env. split; [reflexivity|]. destruct (After _ _ eq_refl) as (l' & T' & D').
    eapply good_calm; [exact G|eapply calm_attribute, C4|exact T|apply grows_refl|exact T'|]. intros H J. eapply subs_replace in J; [|exact F|reflexivity|exact DI]. right. pose proof (subs_find _ _ _ _ F H) as Q. cbn [In] in Q. intuition.
  - destruct (find p (trees s)) as [[i kids]|] eqn:F; [|discriminate]. injection Z as <-. destruct (find_var _ _ _ _ _ R F) as (a & A & VA). rewrite VA in *. cbn [bind] in *.
    destruct (trees_focus _ _ _ _ _ _ _ T DI F) as (a' & e & l1 & l2 & cc & A' & E & K & PM & _). assert (a' = a) as -> by congruence. unfold GetXMLTreeChild.
    assert (view h a = Some (Elem e)) as VE by (destruct E; assumption). destruct (view_load_element _ _ _ VE) as (e0 & LE & CE). rewrite LE. cbn [bind]. assert (e_child e0 = e_child e) as CC by (rewrite <- CE; reflexivity). rewrite CC.
    destruct (G (heads kids)) as [SO LI]; [eapply (subs_find p _ i kids F); cbn; tauto|]. assert (NoDup l2) as D2 by (pose proof (Permutation_NoDup PM Dl) as D1; rewrite !nodup_app in D1; tauto). pose proof (heads_nodup _ _ _ _ _ _ K D2) as DK.
    assert (linked h (addrs env (heads kids))) as LK.
    { intros b I. destruct (LI b I) as (y & Y & P1). apply in_map_iff in I. destruct I as (w & W & I). destruct (children_heads _ _ _ _ _ _ K w I) as (b' & y' & u & _ & W2 & W3 & _ & W4 & _ & W5). assert (b' = b) as -> by congruence. assert (y' = y) as -> by congruence. split; [exact W3|]. exists y, u. tauto. }
    destruct (find_tag_total h _ DK LK t fuel 0 (e_child e)) as (q & n & FT & _).
    { apply room_all; [|unfold addrs; rewrite map_length, heads_length; pose proof (tops_size kids); apply find_size in F; lia]. inversion K as [|? ? id' j' below' rest' f' m1 m2 m3 N' E' P' Z' B' K' R' X1 X2 X3]; [tauto|]. right. cbn [heads addrs map In fst]. left. apply nth_error_nth, N'. }
    rewrite FT. cbn [bind]. exists h, env. split; [reflexivity|exact G].
  - destruct (member p (tops (trees s))) eqn:I; [|discriminate]. apply member_in in I. injection Z as <-. cbn [trees] in *. destruct (destroy_ok _ _ _ _ R I) as (a & h4 & A & U & _). assert (var env p = Ok a) as VA by (unfold var; rewrite A; reflexivity). rewrite VA in *. cbn [bind] in *.
    specialize (U fuel ltac:(lia)). rewrite U in *. cbn [bind] in *. exists h4, env. split; [reflexivity|]. destruct (After _ _ eq_refl) as (l' & T' & D').
    eapply good_calm; [exact G|exact (proj1 (calm_destroy fuel) _ _ _ U)|exact T|apply grows_refl|exact T'|]. intros H J. right. apply (subs_remove p _ I DI), J.
Qed.
Lemma count_step s x s' : spec_step s x = Some s' -> count s' <= S (count s).
Proof.
  unfold spec_step. cbv zeta. destruct x as [t|p t o|p c o|c|p t|p k v|p t|p].
  - intros [= <-]. cbn. lia.
  - destruct (find p (trees s)) as [[]|]; [|discriminate]. intros [= <-]. cbn. lia.
  - destruct (member c (tops (trees s))); [|discriminate]. destruct (find c (trees s)) as [[]|]; [|discriminate]. destruct (find p (remove c (trees s))) as [[]|]; [|discriminate]. intros [= <-]. cbn. lia.
  - destruct (member c (tops (trees s))); [discriminate|]. destruct (find c (trees s)) as [[]|]; [|discriminate]. intros [= <-]. cbn. lia.
  - destruct (find p (trees s)) as [[]|]; [|discriminate]. intros [= <-]. cbn. lia.
  - destruct (find p (trees s)) as [[]|]; [|discriminate]. intros [= <-]. cbn. lia.
  - destruct (find p (trees s)) as [[]|]; [|discriminate]. intros [= <-]. lia.
  - destruct (member p (tops (trees s))); [|discriminate]. intros [= <-]. cbn. lia.
Qed.
Lemma run_total fuel l : forall h env s, represents h env s -> good h env (trees s) -> safe_run l s = true -> 2 * (count s + length l) + 3 <= fuel ->
  exists h' env' s', run fuel l (h, env) = Ok (h', env') /\ spec_run l s = Some s' /\ represents h' env' s'.
Proof.
  unfold run. induction l as [|x l IH]; intros h env s R G SA FU.
  - exists h, env, s. split; [reflexivity|]. split; [reflexivity|exact R].
  - cbn [safe_run length fold_outcome spec_run] in *. apply andb_prop in SA. destruct SA as [S1 S2]. destruct (spec_step s x) as [s1|] eqn:Z; [|discriminate].
    destruct (step_total fuel h env s x s1 R G Z S1) as (h1 & env1 & H1 & G1); [lia|]. rewrite H1. cbn [bind]. pose proof (step_represents _ _ _ _ _ _ _ _ R H1 Z) as R1. pose proof (count_step _ _ _ Z) as C1.
    apply (IH h1 env1 s1 R1 G1 S2). lia.
Qed.
