(** Each call of a program keeps [represents]. *)
From Coq Require Import NArith Bool Arith List Lia Permutation.
From Verif Require Import Outcome XmlMemoryModel XmlMemorySpec XmlMemoryProof XmlMemoryRun XmlMemoryOps.
Import ListNotations.

Definition live_are (h : heap) (l : list nat) : Prop := forall q, view h q <> None <-> In q l.
Lemma live_perm h l l' : live_are h l -> Permutation l l' -> live_are h l'.
Proof. intros H P q. rewrite <- (perm_in _ _ P). apply H. Qed.
Lemma fresh_out h l : live_are h l -> ~ In (S (length h)) l.
Proof. intros H I. apply H in I. apply I, view_fresh. Qed.
Lemma live_alloc h l b : live_are h l -> live_are (h ++ [(true, b)]) (S (length h) :: l).
Proof.
  intros H q. rewrite view_alloc. cbn [In]. destruct (Nat.eqb_spec q (S (length h))) as [->|N]; [intuition discriminate|]. pose proof (H q) as Hq. rewrite Hq. intuition congruence.
Qed.
Lemma frame_alloc h l b q : live_are h l -> In q l -> view (h ++ [(true, b)]) q = view h q.
Proof. intros H I. rewrite view_alloc. destruct (Nat.eqb_spec q (S (length h))) as [->|]; [|reflexivity]. exfalso. exact (fresh_out h l H I). Qed.

(** ** Calls that change one element only *)
Lemma own_change h env s h' p i i' kids : represents h env s -> find p (trees s) = Some (i, kids) -> i_held i' = i_held i ->
  (forall a e l1, nth_error env p = Some a -> element_at h a e i l1 -> NoDup l1 ->
     exists e' l1', element_at h' a e' i' l1' /\ keeps e e' /\ e_child e' = e_child e /\ NoDup l1' /\
       (forall q, ~ In q l1 -> ~ In q l1' -> view h' q = view h q) /\ (forall q, In q l1 -> ~ In q l1' -> view h' q = None) /\
       (forall q, ~ In q l1 -> In q l1' -> view h q = None)) ->
  represents h' env (mkSpec (replace p i' kids (trees s)) (count s) (lost s)).
Proof.
  intros (NE & l & m & T & D & M & L) F HI Own. split; [exact NE|]. cbn [trees lost].
  pose proof (proj1 (nodup_app l m) D) as (Dl & Dm & X). pose proof (trees_nodup _ _ _ _ T Dl) as DI.
  destruct (trees_focus _ _ _ _ _ _ _ T DI F) as (a & e & l1 & l2 & c & A & E & K & PM & CL).
  pose proof (Permutation_NoDup PM Dl) as D'. rewrite !nodup_app in D'. destruct D' as (D1 & (D2 & D3 & X23) & X1).
  destruct (Own a e l1 A E D1) as (e' & l1' & E' & KE & CE & D1' & W1 & W2 & W3).
  assert (forall q, In q l2 \/ In q c \/ In q m -> ~ In q l1 /\ view h q <> None) as Out.
  { intros q Q. split.
    - intros I. destruct Q as [Q|[Q|Q]]; [apply (X1 q I); rewrite in_app_iff; tauto|apply (X1 q I); rewrite in_app_iff; tauto|].
      apply (X q); [|exact Q]. apply (perm_in _ _ PM). rewrite in_app_iff. tauto.
    - apply L. rewrite in_app_iff, (perm_in _ _ PM), !in_app_iff. tauto. }
  assert (forall q, In q l2 \/ In q c \/ In q m -> ~ In q l1') as Out'.
  { intros q Q I. destruct (Out q Q) as [N V]. apply V. apply W3; assumption. }
  assert (forall q, In q l2 \/ In q c \/ In q m -> view h' q = view h q) as W.
  { intros q Q. apply W1; [apply (Out q Q)|apply (Out' q Q)]. }
  destruct (CL h' env i' e' kids l1' l2) as (l' & T' & PM'); try assumption; [intros x I; apply W; tauto|apply grows_refl| |].
  { rewrite CE. eapply children_frame; [exact K|intros q Q; apply W; tauto|apply grows_refl]. }
  exists l', m. split; [exact T'|]. split; [|split; [exact M|]].
  - apply (Permutation_NoDup (l := (l1' ++ l2 ++ c) ++ m)); [apply Permutation_app_tail, Permutation_sym, PM'|]. rewrite !nodup_app. repeat split; try assumption.
    + intros x I J. rewrite in_app_iff in J. apply (Out' x); tauto.
    + intros x I J. rewrite !in_app_iff in I. destruct I as [I|[I|I]]; [apply (Out' x); tauto| |]; (apply (X x); [apply (perm_in _ _ PM); rewrite !in_app_iff; tauto|exact J]).
  - intros q. rewrite in_app_iff. split.
    + intros V. rewrite (perm_in _ _ PM'), !in_app_iff. destruct (in_dec Nat.eq_dec q l1') as [I|N']; [tauto|]. destruct (in_dec Nat.eq_dec q l1) as [I|N]; [rewrite W2 in V by assumption; congruence|].
      rewrite W1 in V by assumption. apply L in V. rewrite in_app_iff, (perm_in _ _ PM), !in_app_iff in V. tauto.
    + intros [I|I]; [eapply trees_live; eassumption|]. rewrite W by tauto. apply L. rewrite in_app_iff. tauto.
Qed.
Lemma content_ok p t h h' e i l : SetXMLTreeContent p t h = Ok h' -> element_at h p e i l -> NoDup l ->
  exists e' l', element_at h' p e' (mkInfo (i_tag i) t (i_pairs i) (i_offset i) (i_made i) (i_held i)) l' /\ keeps e e' /\ e_child e' = e_child e /\ NoDup l' /\
    (forall q, ~ In q l -> ~ In q l' -> view h' q = view h q) /\ (forall q, In q l -> ~ In q l' -> view h' q = None) /\ (forall q, ~ In q l -> In q l' -> view h q = None).
Proof.
  intros H E D. unfold SetXMLTreeContent in H. inv_bind H. rename x into e0. pose proof E as EA. destruct E as [r V T C P O M].
  assert (core e0 = e) as C0 by (apply load_element_view in E0; congruence). destruct (core_fields _ _ C0) as (_ & _ & F3 & _). rewrite F3 in H. inv_bind H. rename x into h1.
  assert (e_content e <> 0) as ZC by (intros Z; rewrite Z in C; discriminate C). pose proof (Relinquish_view _ _ _ E ZC) as W1.
  cbn [alloc] in H. set (h2 := h1 ++ [(true, Text t)]) in *. set (n := S (length h1)) in *. apply change_view in H. destruct H as (e1 & L1 & W3).
  assert (forall q, view h2 q = if q =? n then Some (Text t) else view h1 q) as W2 by (intros q; unfold h2; rewrite view_alloc; reflexivity).
  assert (view h n = None) as VN.
  { assert (length h1 = length h) as LE.
    { unfold Relinquish in E. destruct (e_content e) as [|k]; [congruence|]. inv_bind E. assert (h1 = set h (S k) (false, x)) as -> by congruence. clear. cbn [set]. revert k. induction h as [|a h IH]; intros [|k]; cbn; auto. }
    unfold n. rewrite LE. apply view_fresh. }
  apply NoDup_cons_iff in D. destruct D as [N1 D]. apply NoDup_cons_iff in D. destruct D as [N2 D]. apply NoDup_cons_iff in D. destruct D as [N3 D]. cbn in N1, N2.
  assert (forall q, In q (p :: e_tag e :: e_content e :: r) -> q <> n) as NN by (intros q Q ->; exact (element_live _ _ _ _ _ _ EA Q VN)).
  assert (p <> n /\ e_tag e <> n /\ e_content e <> n) as (NNp & NNt & NNc) by (repeat split; apply NN; cbn; tauto).
  assert (core e1 = e) as C1 by (apply load_element_view in L1; rewrite W2, W1 in L1; destruct (Nat.eqb_spec p n); [congruence|]; destruct (Nat.eqb_spec p (e_content e)); [exfalso; apply N1; right; left; congruence|congruence]).
  assert (core (with_content n e1) = with_content n e) as CC by (rewrite <- C1; reflexivity). rewrite CC in W3.
  assert (forall q, q <> p -> q <> n -> q <> e_content e -> view h' q = view h q) as W.
  { intros q Q1 Q2 Q3. rewrite W3, W2, W1. destruct (Nat.eqb_spec q p); [congruence|]. destruct (Nat.eqb_spec q n); [congruence|]. destruct (Nat.eqb_spec q (e_content e)); [congruence|reflexivity]. }
  exists (with_content n e), (p :: e_tag e :: n :: r). split; [|split; [repeat split|split; [reflexivity|split; [|split; [|split]]]]].
  - change (e_tag e) with (e_tag (with_content n e)). change (p :: e_tag (with_content n e) :: n :: r) with (p :: e_tag (with_content n e) :: e_content (with_content n e) :: r). constructor; cbn.
    + rewrite W3, Nat.eqb_refl. reflexivity.
    + rewrite W; [exact T|intros EQ; apply N1; tauto|exact NNt|intros EQ; apply N2; left; congruence].
    + rewrite W3, W2, Nat.eqb_refl. destruct (Nat.eqb_spec n p); [congruence|reflexivity].
    + eapply pairs_frame; [exact P|]. intros q Q. apply W; [intros ->; tauto|apply NN; cbn; tauto|intros ->; tauto].
    + exact O.
    + exact M.
  - constructor; [|constructor; [|constructor; [|exact D]]]; cbn.
    + intros [J|[J|J]]; [apply N1; tauto|congruence|tauto].
    + intros [J|J]; [congruence|tauto].
    + intros J. apply (NN n); [cbn; tauto|reflexivity].
  - intros q N N'. cbn in N, N'. apply W; intros EQ; subst q; tauto.
  - intros q Q N'. cbn in Q, N'. assert (q = e_content e) as -> by (destruct Q as [Q|[Q|[Q|Q]]]; [exfalso; tauto|exfalso; tauto|symmetry; exact Q|exfalso; tauto]).
    rewrite W3, W2, W1, Nat.eqb_refl. destruct (Nat.eqb_spec (e_content e) p); [exfalso; apply N1; tauto|]. destruct (Nat.eqb_spec (e_content e) n); [congruence|reflexivity].
  - intros q N Q. cbn in N, Q. assert (q = n) as -> by (destruct Q as [Q|[Q|[Q|Q]]]; [exfalso; tauto|exfalso; tauto|symmetry; exact Q|exfalso; tauto]). exact VN.
Qed.
Lemma update_length {A} i (x : A) l : length (update i x l) = length l.
Proof. revert i. induction l as [|a l IH]; intros [|i]; cbn; auto. Qed.
Lemma set_length h p c : length (set h p c) = length h.
Proof. destruct p as [|p]; [reflexivity|]. apply update_length. Qed.
Lemma change_length p f h h' : change p f h = Ok h' -> length h' = length h.
Proof. unfold change. intros H. inv_bind H. assert (h' = set h p (true, Elem (f x))) as -> by congruence. apply set_length. Qed.
Lemma Relinquish_length p h h' : Relinquish p h = Ok h' -> length h' = length h.
Proof.
  unfold Relinquish. destruct p as [|p]; [congruence|]. intros H. inv_bind H. assert (h' = set h (S p) (false, x)) as -> by congruence. apply set_length.
Qed.
Lemma Ok_inj {A} (a b : A) : Ok a = Ok b -> b = a.
Proof. congruence. Qed.
Lemma attribute_ok fuel p k v h h' e i l : SetXMLTreeAttribute fuel p k v h = Ok h' -> element_at h p e i l -> NoDup l ->
  exists e' l', element_at h' p e' (mkInfo (i_tag i) (i_text i) (put_pair k v (i_pairs i)) (i_offset i) (i_made i) (i_held i)) l' /\ keeps e e' /\
    e_child e' = e_child e /\ NoDup l' /\
    (forall q, ~ In q l -> ~ In q l' -> view h' q = view h q) /\ (forall q, In q l -> ~ In q l' -> view h' q = None) /\ (forall q, ~ In q l -> In q l' -> view h q = None).
Proof.
  intros H E D. unfold SetXMLTreeAttribute in H. inv_bind H. rename x into e0. pose proof E as EA. destruct E as [r V T C P O M].
  assert (core e0 = e) as C0 by (apply load_element_view in E0; congruence). destruct (core_fields _ _ C0) as (_ & F2 & _). rewrite F2 in H.
  assert (forall q, In q (p :: e_tag e :: e_content e :: r) -> q < S (length h)) as NN.
  { intros q Q. apply view_bound. exact (element_live _ _ _ _ _ _ EA Q). }
  apply NoDup_cons_iff in D. destruct D as [N1 D]. apply NoDup_cons_iff in D. destruct D as [N2 D]. apply NoDup_cons_iff in D. destruct D as [N3 D]. cbn in N1, N2.
  assert (p < S (length h) /\ e_tag e < S (length h) /\ e_content e < S (length h)) as (NNp & NNt & NNc) by (repeat split; apply NN; cbn; tauto).
  inversion P as [PA PP PR|a k0 v0 kp vp A K0 V0 Z PA PP PR].
  - rewrite <- PA in H. cbn -[set Relinquish change read_slots load_slots load_text app] in H. subst r.
    set (h1 := h ++ [(true, Text [])]) in *. set (n1 := S (length h)) in *. set (h2 := h1 ++ [(true, Text k)]) in *. set (n2 := S (length h1)) in *.
    inv_bind H. rename x into r0, E into E1. inv_bind E1. rename x into t0, E into E2. clear E2.
    set (sl := [Some n2; Some n1; Some 0; None]) in *. set (h3 := h2 ++ [(true, Slots sl)]) in *. set (n3 := S (length h2)) in *.
    inv_bind E1. rename x into h4, E into E4. injection E1 as <-. inv_bind H. clear E x. cbn -[set Relinquish load_slots app] in H. inv_bind H. rename x into h5, E into E5.
    unfold set_slot in H. cbn -[set load_slots app] in H.
    set (h6 := h5 ++ [(true, Text v)]) in *. set (n6 := S (length h5)) in *. inv_bind H. rename x into s0, E into E6. assert (h' = set h6 n3 (true, Slots [Some n2; Some n6; Some 0; None])) as H' by exact (Ok_inj _ _ H). clear H.
    pose proof (change_length _ _ _ _ E4) as L4. pose proof (Relinquish_length _ _ _ E5) as L5. apply change_view in E4. destruct E4 as (e1 & LE & W4).
    pose proof (Relinquish_view _ _ _ E5 ltac:(discriminate)) as W5.
    assert (length h3 = 3 + length h) as L3 by (unfold h3, h2, h1; rewrite !app_length; cbn [length]; lia).
    assert (length h2 = 2 + length h) as L2 by (unfold h2, h1; rewrite !app_length; cbn [length]; lia). assert (length h1 = 1 + length h) as L1 by (unfold h1; rewrite !app_length; cbn [length]; lia).
    assert (n2 = S (S (length h)) /\ n3 = S (S (S (length h))) /\ n6 = S (S (S (S (length h))))) as (Q2 & Q3 & Q6) by (unfold n2, n3, n6; lia).
    assert (forall q, view h3 q = if q =? n3 then Some (Slots sl) else if q =? n2 then Some (Text k) else if q =? n1 then Some (Text []) else view h q) as W3.
    { intros q. unfold h3. rewrite view_alloc. fold n3. destruct (q =? n3); [reflexivity|]. unfold h2. rewrite view_alloc. fold n2. destruct (q =? n2); [reflexivity|]. unfold h1. rewrite view_alloc. fold n1. destruct (q =? n1); reflexivity. }
    assert (core e1 = e) as C1 by (apply load_element_view in LE; rewrite W3 in LE; destruct (Nat.eqb_spec p n3); [lia|]; destruct (Nat.eqb_spec p n2); [lia|]; destruct (Nat.eqb_spec p n1); [lia|congruence]).
    assert (core (with_attributes n3 e1) = with_attributes n3 e) as CC by (rewrite <- C1; reflexivity). rewrite CC in W4.
    assert (forall q, view h' q = if q =? n3 then Some (Slots [Some n2; Some n6; Some 0; None]) else if q =? n6 then Some (Text v) else if q =? n1 then None
                                  else if q =? p then Some (Elem (with_attributes n3 e)) else if q =? n2 then Some (Text k) else view h q) as W.
    { intros q. assert (exists c, get h6 n3 = Some c) as (c & G).
      { destruct (bind_Ok _ _ _ E6) as (b & B & _). unfold load in B. destruct (get h6 n3); [eauto|discriminate]. }
      rewrite H', (view_set _ _ _ _ _ G). cbn [fst snd norm]. destruct (Nat.eqb_spec q n3) as [X3|X3]; [reflexivity|]. unfold h6. rewrite view_alloc. fold n6. destruct (q =? n6); [reflexivity|].
      rewrite W5. destruct (Nat.eqb_spec q n1) as [X1|X1]; [reflexivity|]. rewrite W4. destruct (q =? p); [reflexivity|]. rewrite W3. destruct (Nat.eqb_spec q n3); [congruence|]. destruct (q =? n2); [reflexivity|]. destruct (Nat.eqb_spec q n1); [congruence|reflexivity]. }
    clear W3 W4 W5 E5 E6 LE CC C1.
    assert (forall q, q < S (length h) -> q <> p -> view h' q = view h q) as WO.
    { intros q L N. rewrite W. destruct (Nat.eqb_spec q n3); [lia|]. destruct (Nat.eqb_spec q n6); [lia|]. destruct (Nat.eqb_spec q n1); [lia|]. destruct (Nat.eqb_spec q p); [congruence|]. destruct (Nat.eqb_spec q n2); [lia|reflexivity]. }
    exists (with_attributes n3 e), [p; e_tag e; e_content e; n3; n2; n6]. cbn [In] in *. split; [|split; [repeat split|split; [reflexivity|split; [|split; [|split]]]]].
    + change [p; e_tag e; e_content e; n3; n2; n6] with (p :: e_tag (with_attributes n3 e) :: e_content (with_attributes n3 e) :: [n3; n2; n6]). constructor; cbn.
      * rewrite W, (proj2 (Nat.eqb_neq p n3)), (proj2 (Nat.eqb_neq p n6)), (proj2 (Nat.eqb_neq p n1)), Nat.eqb_refl by lia. reflexivity.
      * rewrite WO; [exact T|lia|intros EQ; apply N1; tauto].
      * rewrite WO; [exact C|lia|intros EQ; apply N1; tauto].
      * constructor; [| | |lia]; rewrite W.
        -- rewrite Nat.eqb_refl. reflexivity.
        -- rewrite (proj2 (Nat.eqb_neq n2 n3)), (proj2 (Nat.eqb_neq n2 n6)), (proj2 (Nat.eqb_neq n2 n1)), (proj2 (Nat.eqb_neq n2 p)), Nat.eqb_refl by lia. reflexivity.
        -- rewrite (proj2 (Nat.eqb_neq n6 n3)), Nat.eqb_refl by lia. reflexivity.
      * exact O.
      * exact M.
    + constructor; [|constructor; [|constructor; [|constructor; [|constructor; [|constructor; [|constructor]]]]]]; cbn [In]; lia.
    + intros q N N'. rewrite W. destruct (Nat.eqb_spec q n3); [lia|]. destruct (Nat.eqb_spec q n6); [lia|]. destruct (Nat.eqb_spec q n1) as [->|]; [symmetry; apply view_fresh|]. destruct (Nat.eqb_spec q p); [lia|]. destruct (Nat.eqb_spec q n2); [lia|reflexivity].
    + intros q Q N'. exfalso. tauto.
    + intros q N Q. destruct (view h q) eqn:VQ; [|reflexivity]. exfalso. assert (q < S (length h)) by (apply view_bound; congruence). lia.
  - rewrite <- PA in A, H. assert (a <> 0) as NZ by (intros Z0; rewrite Z0 in A; discriminate A).
    destruct a as [|a]; [congruence|]. rewrite (view_load_slots _ _ _ A) in H. cbn [bind] in H.
    inv_bind H. rename x into r0, E into E1. inv_bind E1. rename x into r1, E into E2. injection E1 as <-.
    destruct fuel as [|fuel]; [discriminate|]. cbn [find_slot] in E2. unfold slot in E2 at 1. cbn [nth_error bind] in E2. destruct kp as [|kp]; [congruence|].
    rewrite (view_load_text _ _ _ K0) in E2. cbn [bind] in E2. unfold tag_eq in E2. destruct (list_eq_dec N.eq_dec k0 k) as [->|NK].
    + injection E2 as <-. cbn [bind] in H. inv_bind H. clear E x. unfold slot in H. cbn [nth_error bind] in H. change (0 + 1) with 1 in H. cbn [nth_error bind] in H. inv_bind H. rename x into h1, E into E1.
      unfold set_slot in H. cbn -[set load_slots app] in H. set (h2 := h1 ++ [(true, Text v)]) in *. set (n := S (length h1)) in *. inv_bind H. rename x into s0, E into E3.
      assert (h' = set h2 (S a) (true, Slots [Some (S kp); Some n; Some 0; None])) as H' by exact (Ok_inj _ _ H). clear H.
      pose proof (Relinquish_length _ _ _ E1) as L1. assert (vp <> 0) as ZV by (intros Z0; rewrite Z0 in V0; discriminate V0). pose proof (Relinquish_view _ _ _ E1 ZV) as W1.
      rewrite <- PR in *. cbn [In] in *.
      assert (forall q, view h' q = if q =? S a then Some (Slots [Some (S kp); Some n; Some 0; None]) else if q =? n then Some (Text v) else if q =? vp then None else view h q) as W.
      { intros q. assert (exists c, get h2 (S a) = Some c) as (c & G).
        { destruct (bind_Ok _ _ _ E3) as (b & B & _). unfold load in B. destruct (get h2 (S a)); [eauto|discriminate]. }
        rewrite H', (view_set _ _ _ _ _ G). cbn [fst snd norm]. destruct (q =? S a); [reflexivity|]. unfold h2. rewrite view_alloc. fold n. destruct (q =? n); [reflexivity|]. rewrite W1. reflexivity. }
      clear W1 E1 E3. assert (n = S (length h)) as Qn by (unfold n; rewrite L1; reflexivity). clearbody n. clear H' h2 L1 EA P. rewrite <- PA in N1, N2, N3, D, NN.
      assert (S a < S (length h) /\ S kp < S (length h) /\ vp < S (length h)) as (Ba & Bk & Bv) by (repeat split; apply NN; tauto).
      apply NoDup_cons_iff in D. destruct D as [M1 D]. apply NoDup_cons_iff in D. destruct D as [M2 D]. cbn in M1, M2.
      assert (forall q, q < S (length h) -> n <> q) as Hn by (intros q Q; clear - Q Qn; lia).
      assert (forall q, q < S (length h) -> q <> S a -> q <> vp -> view h' q = view h q) as WO.
      { intros q L X1 X2. rewrite W. destruct (Nat.eqb_spec q (S a)); [congruence|]. destruct (Nat.eqb_spec q n) as [X|]; [destruct (Hn q L); congruence|]. destruct (Nat.eqb_spec q vp); [congruence|reflexivity]. }
      pose proof (Hn _ NNp). pose proof (Hn _ NNt). pose proof (Hn _ NNc). pose proof (Hn _ Ba). pose proof (Hn _ Bk). pose proof (Hn _ Bv).
      rewrite <- PA. exists e, (p :: e_tag e :: e_content e :: [S a; S kp; n]). cbn [In]. split; [|split; [repeat split|split; [reflexivity|split; [|split; [|split]]]]].
      * constructor; cbn.
        -- rewrite WO; [exact V|exact NNp|intros ->; apply N1; tauto|intros ->; apply N1; tauto].
        -- rewrite WO; [exact T|exact NNt|intros Q; apply N2; rewrite Q; tauto|intros Q; apply N2; rewrite Q; tauto].
        -- rewrite WO; [exact C|exact NNc|intros Q; apply N3; rewrite Q; tauto|intros Q; apply N3; rewrite Q; tauto].
        -- rewrite <- PA. destruct (list_eq_dec N.eq_dec k k); [|congruence]. constructor; [| | |discriminate].
           ++ rewrite W, Nat.eqb_refl. reflexivity.
           ++ rewrite WO; [exact K0|exact Bk|intros Q; apply M1; tauto|]. intros Q. apply M2. left. congruence.
           ++ rewrite W, (proj2 (Nat.eqb_neq n (S a))), Nat.eqb_refl by assumption. reflexivity.
        -- exact O.
        -- exact M.
      * constructor; [|constructor; [|constructor; [|constructor; [|constructor; [|constructor; [|constructor]]]]]]; cbn [In]; tauto.
      * intros q X1 X2. rewrite W. destruct (Nat.eqb_spec q (S a)) as [->|]; [tauto|]. destruct (Nat.eqb_spec q n) as [->|]; [tauto|]. destruct (Nat.eqb_spec q vp) as [->|]; [tauto|reflexivity].
      * intros q X1 X2. assert (vp = q) as <- by tauto. rewrite W. destruct (Nat.eqb_spec vp (S a)) as [X|X]; [tauto|]. destruct (Nat.eqb_spec vp n) as [X'|X']; [congruence|]. rewrite Nat.eqb_refl. reflexivity.
      * intros q X1 X2. assert (n = q) as <- by tauto. rewrite Qn. apply view_fresh.
    + destruct fuel as [|fuel]; [discriminate|]. cbn in E2. injection E2 as <-. cbn -[change Relinquish] in H. discriminate.
Qed.
