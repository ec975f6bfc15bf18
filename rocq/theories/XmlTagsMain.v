(** Programs that prune nothing: the lists of tags are those of the children. *)
From Coq Require Import NArith Bool Arith List Lia Permutation Sorting.
From Verif Require Import Outcome XmlMemoryModel XmlMemorySpec XmlMemoryProof XmlMemoryRun XmlMemoryOps XmlMemoryMain XmlMemoryInv XmlMemoryTotal XmlMemoryCalm XmlMemorySafe.
From Verif Require Import XmlTagsModel XmlTagsSpec XmlTagsProof XmlTagsLink XmlTagsInsert.
Import ListNotations.

Definition goodt (h : heap) (env : list nat) (T : nat -> list N) (f : forest) : Prop := forall H, In H (subs f) -> wired (nx h) (sb h) (pairs env T H).
Lemma typed_find T f p i k : typed T f -> find p f = Some (i, k) -> i_tag i = T p /\ typed T k.
Proof.
  induction f as [|id j kids IHk rest IHr]; cbn [typed find]; [discriminate|]. intros (A & B & C). destruct (Nat.eqb_spec id p) as [->|_]; [intros [= -> ->]; tauto|]. destruct (find p kids) as [r|] eqn:E; intros Q; [apply IHk; [exact B|congruence]|apply IHr; assumption].
Qed.
Lemma typed_replace T f p i k : typed T f -> i_tag i = T p -> typed T k -> typed T (replace p i k f).
Proof.
  induction f as [|id j kids IHk rest IHr]; cbn [typed replace]; [tauto|]. intros (A & B & C) I K. destruct (Nat.eqb_spec id p) as [->|_]; cbn [typed]; tauto.
Qed.
Lemma typed_remove T f c : typed T f -> typed T (remove c f).
Proof. induction f as [|id j kids IHk rest IHr]; cbn [typed remove]; [tauto|]. intros (A & B & C). destruct (id =? c); cbn [typed]; tauto. Qed.
Lemma typed_place T f c i k : typed T f -> i_tag i = T c -> typed T k -> typed T (place c i k f).
Proof. induction f as [|id j kids IHk rest IHr]; cbn [typed place]; [tauto|]. intros (A & B & C) I K. destruct (i_offset j <=? i_offset i); cbn [typed]; tauto. Qed.
(** the tags that a program gives to the elements from number [n] on *)
Fixpoint agrees (T : nat -> list N) (n : nat) (l : list op) : Prop :=
  match l with
  | [] => True
  | New t :: l | Add _ t _ :: l => T n = t /\ agrees T (S n) l
  | _ :: l => agrees T n l
  end.
Fixpoint made (l : list op) : list (list N) := match l with [] => [] | New t :: l | Add _ t _ :: l => t :: made l | _ :: l => made l end.
Lemma agrees_made l : exists T, agrees T 0 l.
Proof.
  assert (forall P, agrees (fun n => nth n (P ++ made l) []) (length P) l) as A.
  { induction l as [|x l IH]; intros P; [exact I|]. assert (forall t, nth (length P) (P ++ t :: made l) [] = t) as NT by (intros t; rewrite app_nth2, Nat.sub_diag by lia; reflexivity).
    assert (forall t, agrees (fun n => nth n (P ++ t :: made l) []) (S (length P)) l) as NX.
    { intros t. specialize (IH (P ++ [t])). rewrite app_length, Nat.add_1_r in IH. rewrite <- app_assoc in IH. exact IH. }
    destruct x; cbn [agrees made]; try apply IH; (split; [apply NT|apply NX]). }
  exists (fun n => nth n (made l) []). apply (A []).
Qed.
Lemma typed_step T s x l s' : typed T (trees s) -> agrees T (count s) (x :: l) -> spec_step s x = Some s' -> typed T (trees s') /\ agrees T (count s') l.
Proof.
  intros TY AG. unfold spec_step. cbv zeta. destruct x as [t|p t o|p c o|c|p t|p k v|p t|p]; cbn [agrees] in AG.
  - intros [= <-]. cbn. repeat split; try tauto. symmetry. tauto.
  - destruct (find p (trees s)) as [[i kids]|] eqn:F; [|discriminate]. intros [= <-]. cbn [trees count]. destruct (typed_find _ _ _ _ _ TY F) as [A B]. split; [|tauto]. apply typed_replace; [exact TY|exact A|]. apply typed_place; [exact B|cbn; symmetry; tauto|exact I].
  - destruct (member c (tops (trees s))); [|discriminate]. destruct (find c (trees s)) as [[i below]|] eqn:F; [|discriminate]. destruct (find p (remove c (trees s))) as [[j kids]|] eqn:FP; [|discriminate]. intros [= <-]. cbn [trees count].
    destruct (typed_find _ _ _ _ _ TY F) as [A B]. destruct (typed_find _ _ _ _ _ (typed_remove T _ c TY) FP) as [A' B']. split; [|exact AG]. apply typed_replace; [apply typed_remove, TY|exact A'|]. apply typed_place; [exact B'|exact A|exact B].
  - destruct (member c (tops (trees s))); [discriminate|]. destruct (find c (trees s)) as [[i below]|] eqn:F; [|discriminate]. intros [= <-]. cbn [trees count typed]. destruct (typed_find _ _ _ _ _ TY F) as [A B]. pose proof (typed_remove T _ c TY). tauto.
  - destruct (find p (trees s)) as [[i kids]|] eqn:F; [|discriminate]. intros [= <-]. cbn [trees count]. destruct (typed_find _ _ _ _ _ TY F) as [A B]. split; [|exact AG]. apply typed_replace; assumption.
  - destruct (find p (trees s)) as [[i kids]|] eqn:F; [|discriminate]. intros [= <-]. cbn [trees count]. destruct (typed_find _ _ _ _ _ TY F) as [A B]. split; [|exact AG]. apply typed_replace; assumption.
  - destruct (find p (trees s)) as [[i kids]|] eqn:F; [|discriminate]. intros [= <-]. tauto.
  - destruct (member p (tops (trees s))); [|discriminate]. intros [= <-]. cbn [trees count]. split; [apply typed_remove, TY|exact AG].
Qed.

Lemma goodt_calm h h' env env' T f l g l' : goodt h env T f -> calm h h' -> trees_at h env f l -> grows env env' -> trees_at h' env' g l' ->
  (forall H, In H (subs g) -> H = [] \/ In H (subs f)) -> goodt h' env' T g.
Proof.
  intros G C TR W TR' S' H I. destruct (S' H I) as [->|J]; [apply wired_empty|].
  assert (pairs env' T H = pairs env T H) as ->.
  { apply map_ext_in. intros x X. destruct (subs_live _ _ _ _ _ _ TR J X) as (a & e & A1 & A2 & _). rewrite A2. f_equal. apply nth_error_nth, W, A1. }
  eapply wired_same; [exact (G H J)|]. intros y Y. apply in_map_iff in Y. destruct Y as (x & <- & X). cbn [fst]. destruct (subs_live _ _ _ _ _ _ TR J X) as (a & e & A1 & A2 & A3). destruct (subs_live _ _ _ _ _ _ TR' I X) as (a' & e' & B1 & B2 & B3).
  apply W in A1. assert (a' = a) as -> by congruence. rewrite A2. destruct C as [_ C]. destruct (C a e') as (e1 & E1 & N1 & S1); [|exact B3|].
  - assert (view h a <> None) as V by (apply load_element_view in A3; congruence). apply view_bound in V. lia.
  - unfold nx, sb. rewrite E1, B3. tauto.
Qed.
Lemma below_wired fuel h env T f l p a j kids id c o e i below l1 l2 h' l' : trees_at h env f l -> NoDup (l1 ++ l2 ++ l) -> NoDup (ids f) -> find p f = Some (j, kids) -> nth_error env p = Some a ->
  nth_error env id = Some c -> element_at h c e i l1 -> children_at h env c (e_child e) below l2 -> good h env f -> goodt h env T f -> typed T f -> i_tag i = T id ->
  (forall H, H = heads below \/ In H (subs below) -> wired (nx h) (sb h) (pairs env T H)) -> (forall H x, (H = heads below \/ In H (subs below)) -> In x H -> exists y, load_element h (nth (fst x) env 0) = Ok y) -> length (tops kids) < fuel ->
  InsertTagIntoXMLTree fuel a c o h = Ok h' -> trees_at h' env (replace p j (place id (hold o i) below kids) f) l' -> NoDup l' -> goodt h' env T (replace p j (place id (hold o i) below kids) f).
Proof.
  intros TR D DI F A C E K G GT TY TI GB LB FU HI T' D'. destruct (trees_focus _ _ _ _ _ _ _ TR DI F) as (a' & x & lp & lk & cc & A' & EP & KP & PM & _). assert (a' = a) as -> by congruence.
  assert (NoDup (lp ++ lk ++ l1)) as D1.
  { apply nodup_app in D. destruct D as (D1 & D2 & X). apply nodup_app in D2. destruct D2 as (_ & D2 & _). pose proof (Permutation_NoDup PM D2) as D3. rewrite !nodup_app in D3. destruct D3 as (D3 & (D4 & _ & _) & X3).
    assert (forall z, In z lp \/ In z lk -> ~ In z l1) as Out by (intros z Z I; apply (X z I); rewrite in_app_iff; right; apply (perm_in _ _ PM); rewrite !in_app_iff; tauto).
    rewrite !nodup_app. repeat split; try assumption; [intros z Z; apply Out; tauto|]. intros z Z J. rewrite in_app_iff in J. destruct J as [J|J]; [apply (X3 z Z); rewrite in_app_iff; tauto|apply (Out z); tauto]. }
  assert (In (heads kids) (subs f)) as IK by (eapply (subs_find p f j kids F); cbn; tauto). destruct (G _ IK) as [SO LI]. destruct (typed_find _ _ _ _ _ TY F) as [_ TK].
  destruct (insert_total fuel a c o h env id x j kids e i below lp lk l1 EP KP E C D1 LI SO FU) as (h1 & H1 & _ & CO & _). assert (h1 = h') as -> by congruence.
  pose proof (insert_wired fuel a c o h env T id x j kids e i below lp lk l1 h' EP KP E C D1 (GT _ IK) SO TK TI FU HI) as WN.
  set (N := heads (place id (hold o i) below kids)) in *. set (g := replace p j (place id (hold o i) below kids) f) in *. intros H' I'.
  destruct (list_eq_dec (fun u w : nat * nat => ltac:(decide equality; apply Nat.eq_dec)) H' N) as [->|NE]; [exact WN|].
  assert (In N (subs g)) as IN by (apply subs_replaced; exact (find_in _ _ _ F)). pose proof (trees_nodup _ _ _ _ T' D') as DG.
  assert (wired (nx h) (sb h) (pairs env T H') /\ forall y, In y H' -> exists z, load_element h (nth (fst y) env 0) = Ok z) as [WH LH].
  { apply (subs_replace p j _ f j kids) in I'; [|exact F|reflexivity|exact DI]. assert (forall H, In H (subs f) -> wired (nx h) (sb h) (pairs env T H) /\ forall y, In y H -> exists z, load_element h (nth (fst y) env 0) = Ok z) as Old.
    { intros H J. split; [apply GT, J|]. intros y Y. destruct (subs_live _ _ _ _ _ _ TR J Y) as (b & z & _ & B2 & B3). exists z. congruence. }
    destruct I' as [I'|[->|I']]; [apply Old, I'|exfalso; apply NE; reflexivity|]. apply subs_place in I'. destruct I' as [->|[I'|I']]; [split; [apply GB; tauto|intros y; apply LB; tauto]|split; [apply GB; tauto|intros y; apply LB; tauto]|]. apply Old. apply (subs_find p f j kids F). cbn. tauto. }
  eapply wired_same; [exact WH|]. intros y Y. apply in_map_iff in Y. destruct Y as (u & <- & I). cbn [fst]. destruct (LH u I) as (z & Z). destruct (CO (nth (fst u) env 0) z) as (z' & Z' & Q1 & Q2); [|exact Z|unfold nx, sb; rewrite Z, Z'; tauto].
  intros J. apply NE. apply in_map_iff in J. destruct J as (w & W & J).
  destruct (subs_live _ _ _ _ _ _ T' I' I) as (au & eu & AU1 & AU2 & _). destruct (subs_live _ _ _ _ _ _ T' IN J) as (aw & ew & AW1 & AW2 & _).
  cbv beta in W. assert (aw = au) as -> by congruence.
  eapply (subs_disjoint g H' N u w); try assumption. exact (trees_addr_inj h' env g l' _ _ au T' D' (subs_ids _ _ _ I' I) (subs_ids _ _ _ IN J) AU1 AW1).
Qed.

Lemma step_wired fuel h env s x s' h' env' T l0 : represents h env s -> good h env (trees s) -> goodt h env T (trees s) -> typed T (trees s) -> agrees T (count s) (x :: l0) -> spec_step s x = Some s' -> safe s x = true ->
  2 * count s + 3 <= fuel -> step fuel (h, env) x = Ok (h', env') -> goodt h' env' T (trees s').
Proof.
  intros R G GT TY AG Z SA FU HS. pose proof (size_count _ _ _ R) as SC.
  destruct (step_represents _ _ _ _ _ _ _ _ R HS Z) as (_ & l' & m' & T' & D' & _). apply nodup_app in D'. destruct D' as (D' & _).
  pose proof R as (NE & l & m & TR & D & M & L). pose proof (proj1 (nodup_app l m) D) as (Dl & Dm & X). pose proof (trees_nodup _ _ _ _ TR Dl) as DI.
  destruct x as [t|p t o|p c o|c|p t|p k v|p t|p]; cbn [step] in *; unfold spec_step in Z; cbv zeta in Z; cbn [safe agrees] in *; try discriminate.
  - injection Z as <-. cbn [NewXMLTreeTag alloc] in *. injection HS as <- <-. cbn [trees] in *.
    eapply goodt_calm; [exact GT| |exact TR|apply grows_app|exact T'|cbn [subs heads In app]; intros H [<-|I]; tauto].
    eapply calm_trans; [apply calm_alloc|]. eapply calm_trans; [apply calm_alloc|]. eapply calm_trans; [apply calm_alloc|]. apply calm_alloc.
  - destruct (find p (trees s)) as [[j kids]|] eqn:F; [|discriminate]. injection Z as <-. cbn [trees] in *. destruct (find_var _ _ _ _ _ R F) as (a & A & VA). rewrite VA in *. cbn [bind] in *.
    unfold AddChildToXMLTree in *. cbn [alloc] in *. set (h1 := h ++ [(true, Text t)]) in *. set (n1 := S (length h)) in *. set (h2 := h1 ++ [(true, Text [])]) in *. set (n2 := S (length h1)) in *.
    set (x := mkElement n1 0 n2 0 0 0 0 0 0 None) in *. set (n3 := S (length h2)) in *. set (h3 := h2 ++ [(true, Elem x)]) in *.
    pose proof (live_alloc _ _ (Text t) L) as L1. fold h1 n1 in L1. pose proof (live_alloc _ _ (Text []) L1) as L2. fold h2 n2 in L2. pose proof (live_alloc _ _ (Elem x) L2) as L3. fold h3 n3 in L3.
    pose proof (fresh_out _ _ L) as N1. fold n1 in N1. pose proof (fresh_out _ _ L1) as N2. fold n2 in N2. pose proof (fresh_out _ _ L2) as N3. fold n3 in N3. cbn [In] in N1, N2, N3.
    assert (forall q, view h3 q = if q =? n3 then Some (Elem x) else if q =? n2 then Some (Text []) else if q =? n1 then Some (Text t) else view h q) as W.
    { intros q. unfold h3. rewrite view_alloc. fold n3. destruct (q =? n3); [reflexivity|]. unfold h2. rewrite view_alloc. fold n2. destruct (q =? n2); [reflexivity|].
      unfold h1. rewrite view_alloc. fold n1. destruct (q =? n1); reflexivity. }
    assert (forall q, In q (l ++ m) -> view h3 q = view h q) as WO.
    { intros q Q. rewrite W. destruct (Nat.eqb_spec q n3) as [->|]; [tauto|]. destruct (Nat.eqb_spec q n2) as [->|]; [tauto|]. destruct (Nat.eqb_spec q n1) as [->|]; [tauto|reflexivity]. }
    assert (element_at h3 n3 x (mkInfo t [] [] 0 false false) [n3; n1; n2]) as EX.
    { change [n3; n1; n2] with (n3 :: e_tag x :: e_content x :: []). constructor; cbn; try reflexivity.
      * rewrite W, Nat.eqb_refl. reflexivity.
      * rewrite W. destruct (Nat.eqb_spec n1 n3) as [Q|]; [exfalso; tauto|]. destruct (Nat.eqb_spec n1 n2) as [Q|]; [exfalso; tauto|]. rewrite Nat.eqb_refl. reflexivity.
      * rewrite W. destruct (Nat.eqb_spec n2 n3) as [Q|]; [exfalso; tauto|]. rewrite Nat.eqb_refl. reflexivity.
      * constructor.
      * split; [discriminate|congruence]. }
    assert (trees_at h3 (env ++ [n3]) (trees s) l) as T3 by (eapply trees_frame; [exact TR|intros q Q; apply WO; rewrite in_app_iff; tauto|apply grows_app]).
    assert (calm h h3) as C3 by (eapply calm_trans; [apply calm_alloc|]; eapply calm_trans; [apply calm_alloc|]; apply calm_alloc).
    inv_bind HS. destruct x0 as [h4 c4]. inv_bind E. assert (x0 = h4 /\ c4 = n3) as [-> ->] by (injection E as -> ->; split; reflexivity). injection HS as <- <-.
    apply (below_wired fuel h3 (env ++ [n3]) T (trees s) l p a j kids (count s) n3 o x (mkInfo t [] [] 0 false false) Nil [n3; n1; n2] [] h4 l'); try assumption.
    + cbn [app]. constructor; [cbn [In]; rewrite in_app_iff in *; intuition congruence|]. constructor; [cbn [In]; rewrite in_app_iff in *; intuition congruence|]. constructor; [rewrite in_app_iff in N2; intros J; apply N2; right; left; exact J|exact Dl].
    + apply grows_app, A.
    + rewrite <- NE, nth_error_app2, Nat.sub_diag by lia. reflexivity.
    + constructor.
    + eapply good_calm; [exact G|exact C3|exact TR|apply grows_app|exact T3|intros H J; right; exact J].
    + eapply goodt_calm; [exact GT|exact C3|exact TR|apply grows_app|exact T3|intros H J; right; exact J].
    + cbn. symmetry. tauto.
    + cbn [subs heads In]. intros H [->|[]]. apply wired_empty.
    + cbn [subs heads In]. intros H y [->|[]] [].
    + pose proof (tops_size kids). apply find_size in F. lia.
  - destruct (member c (tops (trees s))) eqn:I; [|discriminate]. apply member_in in I. destruct (find c (trees s)) as [[i below]|] eqn:F; [|discriminate]. destruct (find p (remove c (trees s))) as [[j kids]|] eqn:FP; [|discriminate].
    injection Z as <-. cbn [trees] in *. destruct (find_var _ _ _ _ _ R F) as (b & B & VB).
    destruct (trees_remove _ _ _ _ _ TR DI I) as (b' & e & i' & below' & l1 & l2 & l3 & l4 & F' & B' & E & TA & O & K & RT & PM). assert (b' = b) as -> by congruence. assert (i' = i /\ below' = below) as [-> ->] by (split; congruence).
    destruct (trees_ids _ _ _ _ _ RT (find_in _ _ _ FP)) as (a & A & _). assert (var env p = Ok a) as VA by (unfold var; rewrite A; reflexivity). rewrite VA, VB in *. cbn [bind] in *.
    pose proof (Permutation_NoDup PM Dl) as D1. assert (NoDup (l1 ++ l3 ++ l4)) as D2.
    { rewrite !nodup_app in *. destruct D1 as (Q1 & (Q2 & (Q3 & Q4 & Q34) & Q5) & Q6). repeat split; try assumption. intros z Z1 Z2. apply (Q6 z Z1). rewrite in_app_iff. tauto. }
    assert (NoDup (ids (remove c (trees s)))) as DR by (apply (trees_nodup _ _ _ _ RT); rewrite !nodup_app in D2; tauto).
    inv_bind HS. injection HS as <- <-. assert (forall H, H = heads below \/ In H (subs below) -> In H (subs (trees s))) as SB by (intros H J; apply (subs_find c _ _ _ F); cbn [In]; intuition).
    apply (below_wired fuel h env T (remove c (trees s)) l4 p a j kids c b o e i below l1 l3 x l'); try assumption.
    + intros H J. apply G, (subs_remove c _ I DI), J.
    + intros H J. apply GT, (subs_remove c _ I DI), J.
    + apply typed_remove, TY.
    + exact (proj1 (typed_find _ _ _ _ _ TY F)).
    + intros H J. apply GT, SB, J.
    + intros H y J Y. destruct (subs_live _ _ _ _ _ _ TR (SB H J) Y) as (q & z & _ & Q2 & Q3). exists z. congruence.
    + pose proof (tops_size kids). apply find_size in FP. assert (size (remove c (trees s)) <= count s); [|lia]. rewrite size_ids in *. etransitivity; [|exact SC]. apply NoDup_incl_length; [exact DR|].
      clear - I. intros z Zr. revert z Zr. generalize (trees s). induction f as [|id y k1 IH1 k2 IH2]; cbn [remove ids]; [tauto|]. destruct (id =? c); cbn [ids In]; intros z; rewrite !in_app_iff; intuition.
  - destruct (find p (trees s)) as [[i kids]|] eqn:F; [|discriminate]. injection Z as <-. cbn [trees] in *. inv_bind HS. inv_bind HS. injection HS as <- <-.
    eapply goodt_calm; [exact GT|eapply calm_content; eassumption|exact TR|apply grows_refl|exact T'|]. intros H J. eapply subs_replace in J; [|exact F|reflexivity|exact DI]. right. pose proof (subs_find _ _ _ _ F H) as Q. cbn [In] in Q. intuition.
  - destruct (find p (trees s)) as [[i kids]|] eqn:F; [|discriminate]. injection Z as <-. cbn [trees] in *. inv_bind HS. inv_bind HS. injection HS as <- <-.
    eapply goodt_calm; [exact GT|eapply calm_attribute; eassumption|exact TR|apply grows_refl|exact T'|]. intros H J. eapply subs_replace in J; [|exact F|reflexivity|exact DI]. right. pose proof (subs_find _ _ _ _ F H) as Q. cbn [In] in Q. intuition.
  - destruct (find p (trees s)) as [[i kids]|] eqn:F; [|discriminate]. injection Z as <-. inv_bind HS. inv_bind HS. injection HS as <- <-. exact GT.
  - destruct (member p (tops (trees s))) eqn:I; [|discriminate]. apply member_in in I. injection Z as <-. cbn [trees] in *. inv_bind HS. inv_bind HS. injection HS as <- <-.
    eapply goodt_calm; [exact GT|eapply (proj1 (calm_destroy fuel)); eassumption|exact TR|apply grows_refl|exact T'|]. intros H J. right. apply (subs_remove p _ I DI), J.
Qed.
Lemma run_wired fuel T l : forall h env s, represents h env s -> good h env (trees s) -> goodt h env T (trees s) -> typed T (trees s) -> agrees T (count s) l -> safe_run l s = true -> 2 * (count s + length l) + 3 <= fuel ->
  exists h' env' s', run fuel l (h, env) = Ok (h', env') /\ spec_run l s = Some s' /\ represents h' env' s' /\ goodt h' env' T (trees s') /\ typed T (trees s') /\ count s' <= count s + length l.
Proof.
  unfold run. induction l as [|x l IH]; intros h env s R G GT TY AG SA FU.
  - exists h, env, s. split; [reflexivity|]. split; [reflexivity|]. split; [exact R|]. split; [exact GT|]. split; [exact TY|cbn; lia].
  - cbn [safe_run length fold_outcome spec_run] in *. apply andb_prop in SA. destruct SA as [S1 S2]. destruct (spec_step s x) as [s1|] eqn:Z; [|discriminate].
    destruct (step_total fuel h env s x s1 R G Z S1) as (h1 & env1 & H1 & G1); [lia|]. rewrite H1. cbn [bind]. pose proof (step_represents _ _ _ _ _ _ _ _ R H1 Z) as R1. pose proof (count_step _ _ _ Z) as C1.
    destruct (typed_step _ _ _ _ _ TY AG Z) as [TY1 AG1]. pose proof (step_wired fuel h env s x s1 h1 env1 T l R G GT TY AG Z S1 ltac:(lia) H1) as GT1.
    destruct (IH h1 env1 s1 R1 G1 GT1 TY1 AG1 S2) as (h' & env' & s' & Q1 & Q2 & Q3 & Q4 & Q5 & Q6); [lia|]. exists h', env', s'. split; [exact Q1|]. split; [exact Q2|]. split; [exact Q3|]. split; [exact Q4|]. split; [exact Q5|lia].
Qed.
Lemma follow_named h env T par q f l t : children_at h env par q f l -> typed T f -> nexts (nx h) (pairs env T (heads f)) -> follow h env (first t (pairs env T (heads f))) (named t f).
Proof.
  intros H. induction H as [|par q id j below rest e l1 l2 l3 N E P Z B K IHK R IHR]; cbn [typed heads pairs map fst nexts named first]; [reflexivity|]. intros (TI & _ & TR) [NX NR]. fold (pairs env T (heads rest)) in *.
  rewrite TI. destruct (list_eq_dec N.eq_dec (T id) t) as [Q|_]; [|apply IHR; assumption]. cbn [follow]. rewrite (nth_error_nth _ _ _ N) in *. split; [exact N|].
  assert (view h q = Some (Elem e)) as V by (destruct E; assumption). destruct (view_load_element _ _ _ V) as (e' & L & _). unfold GetNextXMLTreeTag. rewrite L. cbn [bind]. exists (e_next e'). split; [reflexivity|].
  unfold nx in NX. rewrite L in NX. rewrite NX, Q. apply IHR; assumption.
Qed.
Lemma child_found fuel h env s T p i kids t : represents h env s -> goodt h env T (trees s) -> typed T (trees s) -> find p (trees s) = Some (i, kids) -> count s < fuel ->
  exists a q, nth_error env p = Some a /\ GetXMLTreeChild fuel a t h = Ok q /\ follow h env q (named t kids).
Proof.
  intros R GT TY F FU. pose proof (size_count _ _ _ R) as SC. destruct R as (NE & l & m & TR & D & M & L). apply nodup_app in D. destruct D as (Dl & _). pose proof (trees_nodup _ _ _ _ TR Dl) as DI.
  destruct (trees_focus _ _ _ _ _ _ _ TR DI F) as (a & e & l1 & l2 & cc & A & E & K & PM & _). destruct (typed_find _ _ _ _ _ TY F) as [_ TK]. assert (In (heads kids) (subs (trees s))) as IK by (eapply (subs_find p _ i kids F); cbn; tauto).
  destruct (GT _ IK) as (NX & C & SG & SU & FI). rewrite (children_hd _ _ T _ _ _ _ K) in SG.
  assert (view h a = Some (Elem e)) as V by (destruct E; assumption). destruct (view_load_element _ _ _ V) as (e' & LE & CE). exists a, (first t (pairs env T (heads kids))). split; [exact A|]. split; [|eapply follow_named; eassumption].
  unfold GetXMLTreeChild. rewrite LE. cbn [bind]. assert (e_child e' = e_child e) as CC by (rewrite <- CE; reflexivity). rewrite CC.
  assert (forall C L, sub C L -> length C <= length L) as Len by (clear; intros C L H; induction H; cbn; lia).
  destruct (find_tag_seg h t C fuel 0 (e_child e) SG) as [(N & q & FT)|(C1 & n & C2 & -> & N & FT)].
  - intros y I. apply (sub_in _ _ SU) in I. apply in_map_iff in I. destruct I as (w & <- & I). destruct (children_tags _ _ _ _ _ _ _ K TK w I) as (b & z & A2 & A3 & _ & A5 & _ & A7). subst b. split; [exact A3|]. exists z. tauto.
  - apply Len in SU. unfold pairs in SU. rewrite map_length, heads_length in SU. pose proof (tops_size kids). apply find_size in F. lia.
  - rewrite FT. cbn [bind snd]. rewrite <- FI, (first_no _ _ N). reflexivity.
  - rewrite FT. cbn [bind snd]. rewrite <- FI, first_hit by exact N. reflexivity.
Qed.
