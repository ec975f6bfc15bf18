(** Inserting an element: the lists of tags of its new parent. *)
From Coq Require Import NArith Bool Arith List Lia Permutation Sorting.
From Verif Require Import Outcome XmlMemoryModel XmlMemorySpec XmlMemoryProof XmlMemoryRun XmlMemoryOps XmlMemoryMain XmlMemoryInv XmlMemoryTotal XmlMemoryCalm XmlTagsProof XmlTagsLink.
Import ListNotations.

(** [T]: the tags of the elements by their numbers *)
Fixpoint typed (T : nat -> list N) (f : forest) : Prop := match f with Nil => True | Cons id i kids rest => i_tag i = T id /\ typed T kids /\ typed T rest end.
Definition pairs (env : list nat) (T : nat -> list N) (H : list (nat * nat)) : list child := map (fun x => (nth (fst x) env 0, T (fst x))) H.
Lemma pairs_addrs env T H : map fst (pairs env T H) = addrs env H.
Proof. unfold pairs, addrs. rewrite map_map. reflexivity. Qed.
Lemma children_tags h env T par q f l : children_at h env par q f l -> typed T f -> forall x, In x (heads f) ->
  exists a e, nth (fst x) env 0 = a /\ a <> 0 /\ In a l /\ load_element h a = Ok e /\ e_offset e = snd x /\ load_text h (e_tag e) = Ok (T (fst x)).
Proof.
  intros H. induction H as [|par q id j below rest e l1 l2 l3 N E P Z B K IHK R IHR]; [intros _ x []|]. cbn [heads In typed]. intros (TI & _ & TR) x [<-|I].
  - pose proof (element_self _ _ _ _ _ E) as IS. destruct E as [r V TV C PA O M]. destruct (view_load_element _ _ _ V) as (e' & L & CE). exists q, e'. cbn [fst snd]. split; [apply nth_error_nth, N|].
    split; [intros ->; discriminate V|]. split; [rewrite in_app_iff; tauto|]. split; [exact L|]. destruct (core_fields _ _ CE) as (F1 & _ & _ & F4 & _). split; [congruence|]. rewrite F1, <- TI. apply view_load_text, TV.
  - destruct (IHR TR x I) as (a & e' & A1 & A2 & A3 & A4). exists a, e'. rewrite !in_app_iff. tauto.
Qed.
Lemma children_hd h env T par q f l : children_at h env par q f l -> hd0 (pairs env T (heads f)) = q.
Proof. intros H. destruct H as [|par q id j below rest e l1 l2 l3 N]; [reflexivity|]. cbn. apply nth_error_nth, N. Qed.

Lemma insert_wired fuel p c o h env T id x j kids e i below lp lk l1 h' : element_at h p x j lp -> children_at h env p (e_child x) kids lk -> element_at h c e i l1 ->
  nth_error env id = Some c -> NoDup (lp ++ lk ++ l1) -> wired (nx h) (sb h) (pairs env T (heads kids)) -> StronglySorted before_or_at (heads kids) -> typed T kids -> i_tag i = T id -> length (tops kids) < fuel ->
  InsertTagIntoXMLTree fuel p c o h = Ok h' -> wired (nx h') (sb h') (pairs env T (heads (place id (hold o i) below kids))).
Proof.
  intros EP KP EC NC D WI SO TK TI FU HI. pose proof (element_self _ _ _ _ _ EP) as IP. pose proof (element_self _ _ _ _ _ EC) as IC.
  rewrite !nodup_app in D. destruct D as (Dp & (Dk & D1 & Xk) & Xp). assert (p <> c) as NPC by (intros ->; apply (Xp c IP); rewrite in_app_iff; tauto). assert (~ In c lk) as NCK by (intros J; exact (Xk c J IC)).
  assert (view h (e_tag e) = Some (Text (i_tag i))) as TV by (destruct EC; assumption).
  assert (view h c = Some (Elem e) /\ view h p = Some (Elem x)) as [VC VP] by (destruct EC, EP; tauto). assert (c <> 0) as ZC by (intros ->; discriminate VC).
  destruct (view_load_element _ _ _ VC) as (e0 & LC & CE). destruct (view_load_element _ _ _ VP) as (x0 & LP & CX).
  destruct (place_heads id (hold o i) below kids SO) as (A & B & E1 & E2 & FA & FB). cbn [i_offset hold] in *.
  set (K := pairs env T (heads kids)) in *. assert (K = pairs env T A ++ pairs env T B) as EK by (unfold K, pairs; rewrite E1, map_app; reflexivity).
  assert (pairs env T (heads (place id (hold o i) below kids)) = pairs env T A ++ (c, T id) :: pairs env T B) as EK' by (rewrite E2; unfold pairs; rewrite map_app; cbn [map fst]; rewrite (nth_error_nth _ _ _ NC); reflexivity).
  rewrite EK'. pose proof (heads_nodup _ _ _ _ _ _ KP Dk) as DK. rewrite <- (pairs_addrs env T) in DK. fold K in DK. pose proof (children_hd _ _ T _ _ _ _ KP) as HD. fold K in HD.
  assert (forall y, In y K -> exists w z, In w (heads kids) /\ y = (nth (fst w) env 0, T (fst w)) /\ fst y <> 0 /\ In (fst y) lk /\ load_element h (fst y) = Ok z /\ e_offset z = snd w /\ load_text h (e_tag z) = Ok (snd y)) as KK.
  { intros y I. apply in_map_iff in I. destruct I as (w & Y & I). destruct (children_tags _ _ _ _ _ _ _ KP TK w I) as (a' & z & A2 & A3 & A4 & A5 & A6 & A7). exists w, z. subst a'. rewrite <- Y. cbn [fst snd]. tauto. }
  assert (forall y, In y K -> fst y <> c) as NCK' by (intros y J Q; destruct (KK y J) as (_ & _ & _ & _ & _ & J' & _); rewrite Q in J'; contradiction).
  set (reset := fun e => mkElement (e_tag e) (e_attributes e) (e_content e) o p 0 0 0 (e_child e) (e_entities e)).
  unfold InsertTagIntoXMLTree in HI. fold reset in HI. destruct (change_raw c reset h e0 LC) as (h1 & C1 & R1 & R2 & R3). rewrite C1 in HI. cbn [bind] in HI.
  assert (load_element h1 p = Ok x0) as LP1 by (rewrite R2 by exact NPC; exact LP). rewrite LP1 in HI. cbn [bind] in HI. assert (e_child x0 = e_child x) as CC by (rewrite <- CX; reflexivity). rewrite CC in HI.
  assert (e_tag (reset e0) = e_tag e) as TE by (rewrite <- CE; reflexivity).
  destruct (e_child x) as [|head] eqn:EH.
  - assert (K = []) as HN by (destruct K as [|y K'] eqn:QK; [reflexivity|]; destruct (KK y) as (_ & _ & _ & _ & Zy & _); [cbn; tauto|]; destruct y as [y u]; cbn in HD, Zy; congruence).
    rewrite HN in EK. assert (pairs env T A = [] /\ pairs env T B = []) as [-> ->] by (destruct (pairs env T A), (pairs env T B); try discriminate; split; reflexivity).
    destruct (change_raw p (with_child c) h1 x0 LP1) as (h2 & C2 & Q1 & Q2 & Q3). assert (h2 = h') as -> by congruence. cbn [app]. split.
    + cbn. split; [|exact I]. unfold nx. rewrite Q2, R1 by congruence. reflexivity.
    + exists [(c, T id)]. split; [|split; [constructor; constructor|reflexivity]]. cbn. split; [reflexivity|]. unfold sb. rewrite Q2, R1 by congruence. reflexivity.
  - assert (exists zh, load_element h1 (S head) = Ok zh) as (zh & LH1).
    { destruct K as [|y K'] eqn:QK; [cbn in HD; discriminate|]. destruct (KK y) as (_ & z & _ & _ & _ & _ & LZ & _); [cbn; tauto|]. exists z. destruct y as [y u]. cbn in HD, LZ. subst y. rewrite R2; [exact LZ|]. apply (NCK' (S head, u)). cbn; tauto. }
    rewrite LH1 in HI. cbn [bind] in HI.
    assert (children_at h1 env p (S head) kids lk) as KP1.
    { eapply children_frame; [exact KP| |apply grows_refl]. intros q Q. pose proof (change_view _ _ _ _ C1) as (e1 & LE & W). rewrite W. destruct (Nat.eqb_spec q c) as [->|]; [contradiction|reflexivity]. }
    assert (exists h2, (if o <? e_offset zh then let* h := change c (with_ordered (S head)) h1 in change p (with_child c) h
                        else let* node := last_before fuel h1 e_ordered o (S head) in let* m := load_element h1 node in
                             let* h := change c (with_ordered (e_ordered m)) h1 in change node (with_ordered c) h) = Ok h2 /\ (forall a, alike h1 h2 a) /\ texts h1 h2) as (h2 & C2 & AL & TX).
    { destruct (o <? e_offset zh).
      - destruct (change_alike c (with_ordered (S head)) h1 _ R1) as (g & G1 & G2 & G3); [intros; cbn; tauto|]. rewrite G1. cbn [bind]. destruct (G2 p x0 LP1) as (x1 & LX & _).
        destruct (change_alike p (with_child c) g x1 LX) as (g' & G1' & G2' & G3'); [intros; cbn; tauto|]. exists g'. split; [exact G1'|]. split; [intros a; eapply alike_trans; [apply G2|apply G2']|eapply texts_trans; eassumption].
      - destruct (last_ordered_total _ _ _ _ _ _ KP1 ltac:(discriminate) fuel o FU) as (n & m & LB & LM & _). rewrite LB. cbn [bind]. rewrite LM. cbn [bind].
        destruct (change_alike c (with_ordered (e_ordered m)) h1 _ R1) as (g & G1 & G2 & G3); [intros; cbn; tauto|]. rewrite G1. cbn [bind]. destruct (G2 n m LM) as (x1 & LX & _).
        destruct (change_alike n (with_ordered c) g x1 LX) as (g' & G1' & G2' & G3'); [intros; cbn; tauto|]. exists g'. split; [exact G1'|]. split; [intros a; eapply alike_trans; [apply G2|apply G2']|eapply texts_trans; eassumption]. }
    rewrite C2 in HI. cbn [bind] in HI. destruct (AL c _ R1) as (ec & L2 & T2 & O2 & N2 & S2).
    assert (forall y, In y K -> alike h h2 (fst y)) as AK.
    { intros y I. eapply alike_trans; [|apply AL]. intros z Z. exists z. rewrite R2 by (apply NCK', I). tauto. }
    assert (forall y, In y K -> exists w z', In w (heads kids) /\ y = (nth (fst w) env 0, T (fst w)) /\ fst y <> 0 /\ load_element h2 (fst y) = Ok z' /\ e_offset z' = snd w /\ load_text h2 (e_tag z') = Ok (snd y) /\ nx h2 (fst y) = nx h (fst y) /\ sb h2 (fst y) = sb h (fst y)) as KK2.
    { intros y I. destruct (KK y I) as (w & z & IW & EY & ZY & _ & LZ & OZ & TZ). destruct (AK y I z LZ) as (z' & LZ' & P1 & P2 & P3 & P4). exists w, z'. unfold nx, sb. rewrite LZ, LZ', P1, P2. repeat split; try assumption. apply TX, R3, TZ. }
    assert (forall w, In w (heads kids) -> In (nth (fst w) env 0, T (fst w)) K) as InK by (intros w I; apply (in_map (fun x => (nth (fst x) env 0, T (fst x)))), I).
    assert (forall w z, In w (heads kids) -> load_element h2 (nth (fst w) env 0) = Ok z -> e_offset z = snd w) as Off.
    { intros w z I Z. destruct (children_tags _ _ _ _ _ _ _ KP TK w I) as (a' & z1 & A2 & _ & _ & A5 & A6 & _). subst a'. destruct (AK _ (InK w I) z1 A5) as (z' & LZ' & _ & P2 & _). cbn [fst] in LZ'. congruence. }
    rewrite <- HD in HI. rewrite EK in *. apply (link_wired fuel h2 (pairs env T A) (pairs env T B) c (T id) o ec h').
    + eapply wired_same; [exact WI|]. intros y I. destruct (KK2 y I) as (_ & _ & _ & _ & _ & _ & _ & _ & Q). exact Q.
    + rewrite map_app in *. cbn [map fst]. apply NoDup_Add with (a := c) (l := map fst (pairs env T A) ++ map fst (pairs env T B)); [apply Add_app|]. split; [exact DK|]. rewrite <- map_app. intros I. apply in_map_iff in I. destruct I as (y & Q & I). exact (NCK' y I Q).
    + exact ZC.
    + intros y I. destruct (KK2 y I) as (w & z & _ & _ & P1 & P2 & _ & P3 & _). split; [exact P1|]. exists z. tauto.
    + intros y I. destruct (KK2 y) as (_ & z & _ & _ & _ & P2 & _); [rewrite in_app_iff; tauto|]. apply in_map_iff in I. destruct I as (w & W & I). exists z. split; [exact P2|]. rewrite <- W in P2. cbn [fst] in P2. rewrite (Off w z); [|rewrite E1, in_app_iff; tauto|exact P2]. rewrite Forall_forall in FA. apply FA, I.
    + intros y I. destruct (KK2 y) as (_ & z & _ & _ & _ & P2 & _); [rewrite in_app_iff; tauto|]. apply in_map_iff in I. destruct I as (w & W & I). exists z. split; [exact P2|]. rewrite <- W in P2. cbn [fst] in P2. rewrite (Off w z); [|rewrite E1, in_app_iff; tauto|exact P2]. rewrite Forall_forall in FB. apply FB, I.
    + exact L2.
    + rewrite T2, TE, <- TI. apply TX, R3, view_load_text, TV.
    + rewrite S2. reflexivity.
    + rewrite <- EK. unfold K, pairs. rewrite map_length, heads_length. exact FU.
    + exact HI.
Qed.
