(** Programs that prune nothing always go through: the lists of tags lead to later children only. *)
From Coq Require Import NArith Bool Arith List Lia Permutation Sorting.
From Verif Require Import Outcome XmlMemoryModel XmlMemorySpec XmlMemoryProof XmlMemoryRun XmlMemoryOps XmlMemoryMain XmlMemoryInv.
Import ListNotations.

(** ** Places in a list *)
Definition later (K : list nat) (a b : nat) : Prop := exists P Q, K = P ++ a :: Q /\ In b Q.
Definition none_or_later K a b := b = 0 \/ later K a b.
Lemma later_in K a b : later K a b -> In b K.
Proof. intros (P & Q & -> & I). rewrite in_app_iff. cbn. tauto. Qed.
Lemma later_cons K x a b : later K a b -> later (x :: K) a b.
Proof. intros (P & Q & -> & I). exists (x :: P), Q. split; [reflexivity|exact I]. Qed.
Lemma later_head K a b : In b K -> later (a :: K) a b.
Proof. intros I. exists [], K. split; [reflexivity|exact I]. Qed.
Lemma later_tail K x a b : later (x :: K) a b -> ~ In x K -> a = x /\ In b K \/ a <> x /\ later K a b.
Proof.
  intros (P & Q & E & I) N. destruct P as [|y P]; cbn in E; injection E as <- ->; [left; tauto|]. right. split; [|exists P, Q; split; [reflexivity|exact I]].
  intros ->. apply N. rewrite in_app_iff. cbn. tauto.
Qed.
Lemma later_trans K a b c : NoDup K -> later K a b -> later K b c -> later K a c.
Proof.
  induction K as [|x K IH]; intros D H1 H2; [destruct H1 as ([|] & Q & E & _); discriminate|]. apply NoDup_cons_iff in D. destruct D as [N D].
  apply later_tail in H1; [|exact N]. apply later_tail in H2; [|exact N]. destruct H1 as [(-> & I)|(Nx & H1)], H2 as [(-> & J)|(Nb & H2)].
  - apply later_head, J.
  - apply later_head. exact (later_in _ _ _ H2).
  - apply later_in in H1. contradiction.
  - apply later_cons. apply IH; assumption.
Qed.
Lemma later_insert A B c a b : later (A ++ B) a b -> later (A ++ c :: B) a b.
Proof.
  intros (P & Q & E & I). revert P E. induction A as [|x A IH]; intros P E.
  - cbn in E. subst B. exists (c :: P), Q. split; [reflexivity|exact I].
  - destruct P as [|y P]; cbn in E; injection E as -> E.
    + exists [], (A ++ c :: B). split; [reflexivity|]. rewrite <- E, in_app_iff in I. rewrite in_app_iff. cbn. tauto.
    + cbn. apply later_cons. apply (IH P). exact E.
Qed.
Lemma later_new A B c a : In a A -> later (A ++ c :: B) a c.
Proof.
  intros I. apply in_split in I. destruct I as (P & Q & ->). exists P, (Q ++ c :: B). rewrite <- app_assoc. split; [reflexivity|]. rewrite in_app_iff. cbn. tauto.
Qed.
Lemma new_later A B c b : In b B -> later (A ++ c :: B) c b.
Proof. intros I. exists A, B. split; [reflexivity|exact I]. Qed.

(** ** The raw memory *)
Lemma get_set_ne h p b q : q <> p -> get (set h p b) q = get h q.
Proof.
  destruct p as [|p], q as [|q]; cbn; try reflexivity. intros N. assert (q <> p) as M by congruence. clear N. revert p q M. induction h as [|x h IH]; intros [|p] [|q] M; cbn; try reflexivity; [congruence|]. apply IH. congruence.
Qed.
Lemma change_raw q f h e : load_element h q = Ok e -> exists h', change q f h = Ok h' /\ load_element h' q = Ok (f e) /\
  (forall a, a <> q -> load_element h' a = load_element h a) /\ (forall a t, load_text h a = Ok t -> load_text h' a = Ok t).
Proof.
  intros L. unfold change. rewrite L. cbn [bind]. exists (set h q (true, Elem (f e))). split; [reflexivity|]. unfold load_element, load in L. destruct (get h q) as [[[] [x|x|x]]|] eqn:G; try discriminate.
  cbn [bind] in L. injection L as ->. assert (get (set h q (true, Elem (f e))) q = Some (true, Elem (f e))) as S1.
  { destruct q as [|q]; [discriminate|]. cbn in *. clear - G. revert q G. induction h as [|y h IH]; intros [|q]; cbn; try discriminate; [reflexivity|]. apply IH. }
  split; [unfold load_element, load; rewrite S1; reflexivity|]. split.
  - intros a N. unfold load_element, load. rewrite get_set_ne by exact N. reflexivity.
  - intros a t T. unfold load_text, load in *. destruct (Nat.eq_dec a q) as [->|N]; [rewrite G in T; discriminate|]. rewrite get_set_ne by exact N. exact T.
Qed.
(** the lists of tags of the children at [K] *)
Definition linked (h : heap) (K : list nat) : Prop :=
  forall a, In a K -> a <> 0 /\ exists e t, load_element h a = Ok e /\ load_text h (e_tag e) = Ok t /\ none_or_later K a (e_next e) /\ none_or_later K a (e_sibling e).
(** walks end because they go on to later children: [m] is the number of children after the one at [p] *)
Lemma later_count K a b : NoDup K -> later K a b -> exists P Q P' Q', K = P ++ a :: Q /\ K = P' ++ b :: Q' /\ length Q' < length Q.
Proof.
  intros D (P & Q & -> & I). apply in_split in I. destruct I as (R & S' & ->). exists P, (R ++ b :: S'), (P ++ a :: R), S'. split; [reflexivity|]. split; [rewrite <- app_assoc; reflexivity|]. rewrite app_length. cbn. lia.
Qed.
Lemma split_unique (K P Q P' Q' : list nat) a : NoDup K -> K = P ++ a :: Q -> K = P' ++ a :: Q' -> Q = Q'.
Proof.
  intros D -> E. revert P' E D. induction P as [|x P IH]; intros [|y P'] E D; cbn in *.
  - injection E as E. exact E.
  - injection E as E0 E. exfalso. apply NoDup_cons_iff in D. destruct D as [N _]. apply N. rewrite E, in_app_iff. cbn. tauto.
  - injection E as E0 E. exfalso. apply NoDup_cons_iff in D. destruct D as [N _]. apply N. rewrite E0, in_app_iff. cbn. tauto.
  - injection E as E0 E. apply (IH P'); [exact E|]. apply NoDup_cons_iff in D. tauto.
Qed.
(** [room K a n]: fewer than [n] children are not before [a] *)
Definition room (K : list nat) (a n : nat) : Prop := a = 0 /\ 0 < n \/ exists P Q, K = P ++ a :: Q /\ S (length Q) < n.
Lemma room_all K a : a = 0 \/ In a K -> forall n, length K < n -> room K a n.
Proof. intros [->|I] n L; [left; split; [reflexivity|lia]|]. right. apply in_split in I. destruct I as (P & Q & ->). exists P, Q. split; [reflexivity|]. rewrite app_length in L. cbn in L. lia. Qed.
Lemma room_next K a b n : NoDup K -> a <> 0 -> room K a (S n) -> none_or_later K a b -> room K b n.
Proof.
  intros D Z [(Q & _)|(P & Q & E & L)] H; [congruence|]. destruct H as [->|H]; [left; split; [reflexivity|lia]|]. right. destruct (later_count _ _ _ D H) as (P1 & Q1 & P2 & Q2 & E1 & E2 & L').
  rewrite (split_unique _ _ _ _ _ _ D E E1) in *. exists P2, Q2. split; [exact E2|lia].
Qed.
Lemma room_in K a n : room K a n -> a <> 0 -> In a K.
Proof. intros [(Q & _)|(P & Q & -> & _)] Z; [congruence|]. rewrite in_app_iff. cbn. tauto. Qed.
Lemma room_pos K a n : room K a n -> 0 < n.
Proof. intros [(_ & L)|(P & Q & _ & L)]; lia. Qed.

Section Walks.
Variables (h : heap) (K : list nat).
Hypothesis D : NoDup K.
Hypothesis L : linked h K.

Lemma find_tag_total t fuel : forall previous p, room K p fuel ->
  exists q n, find_tag fuel h t previous p = Ok (q, n) /\ (n = 0 \/ In n K) /\
    (q = previous /\ n = p \/ In q K /\ exists e, load_element h q = Ok e /\ e_sibling e = n).
Proof.
  induction fuel as [|fuel IH]; intros previous p R; [apply room_pos in R; lia|]. cbn [find_tag]. destruct p as [|p].
  - exists previous, 0. tauto.
  - pose proof (room_in _ _ _ R ltac:(discriminate)) as I. destruct (L _ I) as (_ & e & s & E & T & _ & S'). rewrite E. cbn [bind]. rewrite T. cbn [bind]. destruct (tag_eq s t).
    + exists previous, (S p). tauto.
    + destruct (IH (S p) (e_sibling e)) as (q & n & F & N & O); [eapply room_next; try eassumption; discriminate|]. exists q, n. split; [exact F|]. split; [exact N|]. right. destruct O as [(-> & ->)|O]; [|exact O].
      split; [exact I|]. exists e. tauto.
Qed.
Lemma find_offset_total o fuel : forall previous p, room K p fuel ->
  exists q n, find_offset fuel h o previous p = Ok (q, n) /\ (n = 0 \/ In n K /\ exists e, load_element h n = Ok e /\ o < e_offset e) /\
    (q = previous \/ In q K /\ exists e, load_element h q = Ok e /\ e_offset e <= o).
Proof.
  induction fuel as [|fuel IH]; intros previous p R; [apply room_pos in R; lia|]. cbn [find_offset]. destruct p as [|p].
  - exists previous, 0. tauto.
  - pose proof (room_in _ _ _ R ltac:(discriminate)) as I. destruct (L _ I) as (_ & e & s & E & T & _ & S'). rewrite E. cbn [bind]. destruct (Nat.leb_spec (e_offset e) o) as [O|O].
    + destruct (IH (S p) (e_sibling e)) as (q & n & F & N & B); [eapply room_next; try eassumption; discriminate|]. exists q, n. split; [exact F|]. split; [exact N|]. right. destruct B as [->|B]; [|exact B]. eauto.
    + exists previous, (S p). split; [reflexivity|]. split; [right; split; [exact I|exists e; tauto]|tauto].
Qed.
Lemma last_next_total o fuel : forall p, p <> 0 -> room K p fuel -> (exists e, load_element h p = Ok e /\ e_offset e <= o) ->
  exists n e, last_before fuel h e_next o p = Ok n /\ In n K /\ load_element h n = Ok e /\ e_offset e <= o /\
    (e_next e = 0 \/ In (e_next e) K /\ exists f, load_element h (e_next e) = Ok f /\ o < e_offset f).
Proof.
  induction fuel as [|fuel IH]; intros p Z R (e & E & O); [apply room_pos in R; lia|]. cbn [last_before].
  pose proof (room_in _ _ _ R Z) as I. destruct (L _ I) as (_ & e0 & s & E0 & T & N & S'). assert (e0 = e) as -> by congruence. rewrite E. cbn [bind]. destruct (e_next e) as [|q] eqn:EN.
  - exists p, e. split; [reflexivity|]. split; [exact I|]. split; [exact E|]. split; [exact O|]. tauto.
  - assert (In (S q) K) as IQ by (destruct N as [N|N]; [discriminate|exact (later_in _ _ _ N)]). destruct (L _ IQ) as (_ & f & s' & F & _). rewrite F. cbn [bind]. destruct (Nat.leb_spec (e_offset f) o) as [Q|Q].
    + apply IH; [discriminate|eapply room_next; try eassumption|eauto].
    + exists p, e. split; [reflexivity|]. split; [exact I|]. split; [exact E|]. split; [exact O|]. rewrite EN. right. split; [exact IQ|eauto].
Qed.
End Walks.

(** ** The lists of tags with one more child *)
Lemma linked_change h K q f e h' : linked h K -> load_element h q = Ok e -> change q f h = Ok h' ->
  e_tag (f e) = e_tag e -> (In q K -> none_or_later K q (e_next (f e)) /\ none_or_later K q (e_sibling (f e))) -> linked h' K.
Proof.
  intros L E C T F a I. destruct (change_raw q f h e E) as (h1 & C1 & R1 & R2 & R3). assert (h1 = h') as -> by congruence. destruct (L _ I) as (Z & x & t & X & XT & N & S'). split; [exact Z|].
  destruct (Nat.eq_dec a q) as [->|NE].
  - assert (x = e) as -> by congruence. exists (f e), t. rewrite T. specialize (F I). split; [exact R1|]. split; [apply R3, XT|exact F].
  - exists x, t. rewrite R2 by exact NE. split; [exact X|]. split; [apply R3, XT|tauto].
Qed.
Definition frame (h h' : heap) (K : list nat) : Prop := forall a e, ~ In a K -> load_element h a = Ok e -> load_element h' a = Ok e.
Lemma frame_change h q f h' K : change q f h = Ok h' -> In q K -> frame h h' K.
Proof.
  intros C I a e N E. assert (exists x, load_element h q = Ok x) as (x & X) by (unfold change in C; inv_bind C; eauto). destruct (change_raw q f h x X) as (h1 & C1 & _ & R2 & _). assert (h1 = h') as -> by congruence.
  rewrite R2; [exact E|]. intros ->. contradiction.
Qed.
Lemma frame_trans a b c K : frame a b K -> frame b c K -> frame a c K.
Proof. intros F G x e N E. apply G, F; assumption. Qed.

Lemma link_total fuel h A B c o head x s : linked h (A ++ B) -> NoDup (A ++ c :: B) -> c <> 0 ->
  (forall a e, In a A -> load_element h a = Ok e -> e_offset e <= o) -> (forall b e, In b B -> load_element h b = Ok e -> o < e_offset e) ->
  load_element h c = Ok x -> load_text h (e_tag x) = Ok s -> e_next x = 0 -> e_sibling x = 0 -> In head (A ++ B) -> length (A ++ B) < fuel ->
  exists h', link_by_tag fuel head c o h = Ok h' /\ linked h' (A ++ c :: B) /\ frame h h' (A ++ c :: B).
Proof.
  intros L DC ZC OA OB X S' NX SX IH FU. set (K := A ++ B) in *. set (K' := A ++ c :: B) in *.
  assert (NoDup K /\ ~ In c K) as [D NC] by (apply NoDup_remove in DC; exact DC).
  assert (linked h K') as L0.
  { intros a I. destruct (Nat.eq_dec a c) as [->|N].
    - split; [exact ZC|]. exists x, s. rewrite NX, SX. unfold none_or_later. tauto.
    - assert (In a K) as I' by (unfold K, K' in *; rewrite in_app_iff in *; cbn in I; intuition congruence). destruct (L _ I') as (Z & e & t & E & T & P1 & P2). split; [exact Z|]. exists e, t. split; [exact E|]. split; [exact T|].
      unfold none_or_later in *. split; [destruct P1 as [P1|P1]|destruct P2 as [P2|P2]]; try tauto; right; apply later_insert; assumption. }
  assert (forall n e, In n K -> load_element h n = Ok e -> e_offset e <= o -> In n A) as InA.
  { intros n e I E O. unfold K in I. rewrite in_app_iff in I. destruct I as [I|I]; [exact I|]. specialize (OB n e I E). lia. }
  assert (forall n e, In n K -> load_element h n = Ok e -> o < e_offset e -> In n B) as InB.
  { intros n e I E O. unfold K in I. rewrite in_app_iff in I. destruct I as [I|I]; [|exact I]. specialize (OA n e I E). lia. }
  assert (forall n, In n K -> In n K') as InK by (intros n I; unfold K, K' in *; rewrite in_app_iff in *; cbn; tauto).
  assert (In c K') as IC by (unfold K'; rewrite in_app_iff; cbn; tauto).
  unfold link_by_tag. rewrite X. cbn [bind]. rewrite S'. cbn [bind].
  destruct (find_tag_total h K D L s fuel 0 head) as (previous & node & FT & IN & PN); [apply room_all; tauto|]. rewrite FT. cbn [bind].
  assert (exists before, match node with 0 => Ok false | _ => let* m := load_element h node in Ok (e_offset m <=? o) end = Ok before /\
            (before = true -> node <> 0 /\ exists e, load_element h node = Ok e /\ e_offset e <= o) /\
            (before = false -> node = 0 \/ In node B)) as (before & EB & B1 & B2).
  { destruct node as [|node]; [exists false; repeat split; try discriminate; tauto|]. destruct IN as [IN|IN]; [discriminate|]. destruct (L _ IN) as (_ & e & t & E & _). rewrite E. cbn [bind]. exists (e_offset e <=? o). split; [reflexivity|]. split.
    - intros O. apply Nat.leb_le in O. split; [discriminate|eauto].
    - intros O. apply Nat.leb_gt in O. right. eapply InB; eassumption. }
  rewrite EB. cbn [bind]. destruct before.
  - destruct (B1 eq_refl) as (ZN & EN). assert (In node K) as IK by (destruct IN; [congruence|assumption]).
    destruct (last_next_total h K D L o fuel node ZN) as (n & e & LB & I & E & O & NE); [apply room_all; tauto|exact EN|]. rewrite LB. cbn [bind]. rewrite E. cbn [bind].
    pose proof (InA n e I E O) as IA. assert (n <> c) as Nc by (intros ->; contradiction).
    destruct (change_raw c (with_next (e_next e)) h x X) as (h1 & C1 & R1 & R2 & R3). rewrite C1. cbn [bind].
    assert (load_element h1 n = Ok e) as E1 by (rewrite R2 by exact Nc; exact E).
    destruct (change_raw n (with_next c) h1 e E1) as (h2 & C2 & R1' & R2' & R3'). exists h2. split; [exact C2|]. split.
    + apply (linked_change h1 K' n (with_next c) e h2); try assumption; [|reflexivity|].
      * apply (linked_change h K' c (with_next (e_next e)) x h1); try assumption; [reflexivity|]. intros _. cbn. rewrite SX. split; [|left; reflexivity].
        destruct NE as [->|(J & f & F & OF)]; [left; reflexivity|]. right. apply new_later. eapply InB; eassumption.
      * intros _. cbn. split; [right; apply later_new; exact IA|]. destruct (L0 n (InK n I)) as (_ & e' & t & E' & _ & _ & P). assert (e' = e) as -> by congruence. exact P.
    + eapply frame_trans; [eapply frame_change; [exact C1|exact IC]|eapply frame_change; [exact C2|exact (InK n I)]].
  - assert (exists h1, match previous, node with 0, _ | _, 0 => Ok h | _, _ => let* m := load_element h node in change previous (with_sibling (e_sibling m)) h end = Ok h1 /\
              linked h1 K' /\ linked h1 K /\ load_element h1 c = Ok x /\ frame h h1 K' /\
              (forall a e, load_element h a = Ok e -> exists e', load_element h1 a = Ok e' /\ e_offset e' = e_offset e)) as (h1 & C1 & L1 & LK1 & X1 & F1 & OO).
    { destruct previous as [|previous]; [exists h; split; [reflexivity|split; [exact L0|split; [exact L|split; [exact X|split; [intros a e _ E; exact E|intros a e E; eauto]]]]]|]. destruct node as [|node]; [exists h; split; [reflexivity|split; [exact L0|split; [exact L|split; [exact X|split; [intros a e _ E; exact E|intros a e E; eauto]]]]]|].
      destruct IN as [IN|IN]; [discriminate|]. destruct PN as [(PN & _)|(IP & e & E & SE)]; [discriminate|]. destruct (L _ IN) as (_ & m & t & M & _ & _ & PM). rewrite M. cbn [bind].
      destruct (change_raw (S previous) (with_sibling (e_sibling m)) h e E) as (h1 & C1 & R1 & R2 & R3). exists h1. split; [exact C1|].
      destruct (L _ IP) as (_ & e' & t' & E' & _ & P1 & P2). assert (e' = e) as -> by congruence. rewrite SE in P2.
      assert (none_or_later K (S previous) (e_sibling m)) as PS by (destruct PM as [->|PM]; [left; reflexivity|]; right; destruct P2 as [P2|P2]; [discriminate|]; eapply later_trans; eassumption).
      split; [|split; [|split; [|split]]].
      - apply (linked_change h K' (S previous) (with_sibling (e_sibling m)) e h1); try assumption; [reflexivity|]. intros _. cbn. split.
        + destruct P1 as [->|P1]; [left; reflexivity|right; apply later_insert, P1].
        + destruct PS as [->|PS]; [left; reflexivity|right; apply later_insert, PS].
      - apply (linked_change h K (S previous) (with_sibling (e_sibling m)) e h1); try assumption; [reflexivity|]. intros _. cbn. split; assumption.
      - rewrite R2; [exact X|]. intros ->. contradiction.
      - eapply frame_change; [exact C1|exact (InK _ IP)].
      - intros a y Y. destruct (Nat.eq_dec a (S previous)) as [->|N]; [|rewrite R2 by exact N; eauto]. assert (y = e) as -> by congruence. eauto. }
    rewrite C1. cbn [bind]. destruct (change_raw c (with_next node) h1 x X1) as (h2 & C2 & R1 & R2 & R3). rewrite C2. cbn [bind].
    assert (linked h2 K') as L2.
    { apply (linked_change h1 K' c (with_next node) x h2); try assumption; [reflexivity|]. intros _. cbn. rewrite SX. split; [|left; reflexivity]. destruct (B2 eq_refl) as [->|J]; [left; reflexivity|right; apply new_later, J]. }
    assert (linked h2 K) as LK2 by (apply (linked_change h1 K c (with_next node) x h2); try assumption; [reflexivity|]; intros J; contradiction).
    destruct (find_offset_total h2 K D LK2 o fuel 0 head) as (p2 & n2 & FO & N2 & P2); [apply room_all; tauto|]. rewrite FO. cbn [bind].
    destruct (change_raw c (with_sibling n2) h2 (with_next node x) R1) as (h3 & C3 & R1' & R2' & R3'). rewrite C3. cbn [bind].
    assert (forall a e, a <> c -> load_element h2 a = Ok e -> In a K -> exists e', load_element h a = Ok e' /\ e_offset e' = e_offset e) as Back.
    { intros a e N E I. destruct (L _ I) as (_ & e0 & _ & E0 & _). destruct (OO a e0 E0) as (e1 & E1 & O1). rewrite R2 in E by exact N. assert (e1 = e) as -> by congruence. eauto. }
    assert (linked h3 K') as L3.
    { apply (linked_change h2 K' c (with_sibling n2) (with_next node x) h3); try assumption; [reflexivity|]. intros _. cbn. split; [destruct (B2 eq_refl) as [->|J]; [left; reflexivity|right; apply new_later, J]|].
      destruct N2 as [->|(J & e & E & O)]; [left; reflexivity|right]. apply new_later. destruct (Back n2 e) as (e' & E' & O'); try assumption; [intros ->; contradiction|]. eapply InB; [exact J|exact E'|lia]. }
    assert (frame h h3 K') as F3.
    { eapply frame_trans; [exact F1|]. eapply frame_trans; [eapply frame_change; [exact C2|exact IC]|eapply frame_change; [exact C3|exact IC]]. }
    destruct p2 as [|p2]; [exists h3; split; [reflexivity|]; split; assumption|]. destruct P2 as [P2|(J & e & E & O)]; [discriminate|]. assert (S p2 <> c) as Nc by (intros Q; rewrite Q in J; contradiction).
    assert (load_element h3 (S p2) = Ok e) as E3 by (rewrite R2' by exact Nc; exact E).
    destruct (change_raw (S p2) (with_sibling c) h3 e E3) as (h4 & C4 & R1'' & R2'' & R3''). exists h4. split; [exact C4|]. split.
    + apply (linked_change h3 K' (S p2) (with_sibling c) e h4); try assumption; [reflexivity|]. intros _. cbn. destruct (L3 _ (InK _ J)) as (_ & e' & t & E' & _ & Q & _). assert (e' = e) as -> by congruence. split; [exact Q|]. right. apply later_new.
      destruct (Back (S p2) e Nc E J) as (e1 & E1 & O1). eapply InA; [exact J|exact E1|lia].
    + eapply frame_trans; [exact F3|]. eapply frame_change; [exact C4|exact (InK _ J)].
Qed.

(** ** One more child *)
Fixpoint heads (f : forest) : list (nat * nat) := match f with Nil => [] | Cons id i _ rest => (id, i_offset i) :: heads rest end.
Definition addrs (env : list nat) (H : list (nat * nat)) : list nat := map (fun x => nth (fst x) env 0) H.
Definition lists (h : heap) (K : list nat) : Prop :=
  forall a, In a K -> exists e, load_element h a = Ok e /\ none_or_later K a (e_next e) /\ none_or_later K a (e_sibling e).
Definition before_or_at (x y : nat * nat) : Prop := snd x <= snd y.
Notation sorted := (StronglySorted before_or_at).

Lemma children_heads h env par q f l : children_at h env par q f l -> forall x, In x (heads f) ->
  exists a e t, nth_error env (fst x) = Some a /\ nth (fst x) env 0 = a /\ a <> 0 /\ In a l /\ load_element h a = Ok e /\ e_offset e = snd x /\ load_text h (e_tag e) = Ok t.
Proof.
  intros H. induction H as [|par q id j below rest e l1 l2 l3 N E P Z B K IHK R IHR]; [intros x []|]. cbn [heads In]. intros x [<-|I].
  - pose proof (element_self _ _ _ _ _ E) as IS. destruct E as [r V T C PA O M]. destruct (view_load_element _ _ _ V) as (e' & L & CE). exists q, e', (i_tag j). cbn [fst snd]. split; [exact N|]. split; [apply nth_error_nth, N|].
    split; [intros ->; discriminate V|]. split; [rewrite in_app_iff; tauto|]. split; [exact L|]. destruct (core_fields _ _ CE) as (F1 & _ & _ & F4 & _). split; [congruence|]. rewrite F1. apply view_load_text, T.
  - destruct (IHR x I) as (a & e' & t & A1 & A2 & A3 & A4 & A5). exists a, e', t. rewrite !in_app_iff. tauto.
Qed.
Lemma heads_nodup h env par q f l : children_at h env par q f l -> NoDup l -> NoDup (addrs env (heads f)).
Proof.
  intros H. induction H as [|par q id j below rest e l1 l2 l3 N E P Z B K IHK R IHR]; [constructor|]. intros D. rewrite !nodup_app in D. destruct D as (D1 & (D2 & D3 & X2) & X1). cbn [heads addrs map fst]. constructor; [|apply IHR, D3].
  rewrite (nth_error_nth _ _ _ N). intros I. apply in_map_iff in I. destruct I as (y & Y & I). destruct (children_heads _ _ _ _ _ _ R y I) as (a & e' & t & _ & A2 & _ & A4 & _). apply (X1 q (element_self _ _ _ _ _ E)). rewrite in_app_iff. right. congruence.
Qed.
Lemma heads_length f : length (heads f) = length (tops f).
Proof. induction f as [|id i kids _ rest IH]; cbn; [reflexivity|congruence]. Qed.
Lemma place_heads c i kids f : sorted (heads f) -> exists A B, heads f = A ++ B /\ heads (place c i kids f) = A ++ (c, i_offset i) :: B /\
  Forall (fun x => snd x <= i_offset i) A /\ Forall (fun x => i_offset i < snd x) B.
Proof.
  induction f as [|id j below _ rest IH]; cbn [heads place]; intros S'.
  - exists [], []. repeat split; constructor.
  - inversion S' as [|x y S1 F]; subst. destruct (Nat.leb_spec (i_offset j) (i_offset i)) as [L|L].
    + destruct (IH S1) as (A & B & E1 & E2 & FA & FB). exists ((id, i_offset j) :: A), B. cbn [heads]. rewrite E1, E2. repeat split; try assumption. constructor; assumption.
    + exists [], ((id, i_offset j) :: heads rest). cbn [heads]. repeat split; [constructor|]. constructor; [exact L|]. eapply Forall_impl; [|exact F]. intros y Y. unfold before_or_at in Y. cbn in Y. lia.
Qed.
Lemma sorted_insert A B c : sorted (A ++ B) -> Forall (fun x => snd x <= snd c) A -> Forall (fun x => snd c < snd x) B -> sorted (A ++ c :: B).
Proof.
  induction A as [|a A IH]; cbn; intros S' FA FB.
  - constructor; [exact S'|]. eapply Forall_impl; [|exact FB]. unfold before_or_at. intros x X. lia.
  - inversion S' as [|x y S1 F]; subst. inversion FA as [|x y F1 F2]; subst. constructor; [apply IH; assumption|]. rewrite Forall_app in *. destruct F as [G1 G2]. split; [exact G1|]. constructor; [exact F1|exact G2].
Qed.
Lemma last_ordered_total h env par q f l : children_at h env par q f l -> q <> 0 -> forall fuel o, length (tops f) < fuel ->
  exists n e, last_before fuel h e_ordered o q = Ok n /\ load_element h n = Ok e /\ In n l.
Proof.
  intros H. induction H as [|par q id j below rest e l1 l2 l3 N E P Z B K IHK R IHR]; [congruence|]. intros Zq fuel o U. destruct fuel as [|fuel]; [lia|]. cbn [last_before tops length] in *.
  pose proof (element_self _ _ _ _ _ E) as IS. destruct E as [r V T C PA O M]. destruct (view_load_element _ _ _ V) as (e' & L & CE). rewrite L. cbn [bind]. assert (e_ordered e' = e_ordered e) as OE by (rewrite <- CE; reflexivity).
  rewrite OE. destruct (e_ordered e) as [|n] eqn:EO; [exists q, e'; split; [reflexivity|]; split; [exact L|]; rewrite in_app_iff; tauto|].
  inversion R as [|? ? id' j' below' rest' f' m1 m2 m3 N' E' P' Z' B' K' R']; subst. pose proof E' as EE. destruct E' as [r' V' T' C' PA' O' M']. destruct (view_load_element _ _ _ V') as (f'' & L' & CF). rewrite L'. cbn [bind]. destruct (e_offset f'' <=? o).
  - destruct (IHR ltac:(discriminate) fuel o) as (k & x & X1 & X2 & X3); [lia|]. exists k, x. split; [exact X1|]. split; [exact X2|]. apply in_or_app; right; apply in_or_app; right; exact X3.
  - exists q, e'. split; [reflexivity|]. split; [exact L|]. apply in_or_app; left; exact IS.
Qed.
(** everything but the links to children *)
Definition alike (h h' : heap) (a : nat) : Prop := forall e, load_element h a = Ok e -> exists e', load_element h' a = Ok e' /\
  e_tag e' = e_tag e /\ e_offset e' = e_offset e /\ e_next e' = e_next e /\ e_sibling e' = e_sibling e.
Definition texts (h h' : heap) : Prop := forall a t, load_text h a = Ok t -> load_text h' a = Ok t.
Lemma alike_trans a b c x : alike a b x -> alike b c x -> alike a c x.
Proof. intros F G e E. destruct (F e E) as (e1 & E1 & P1 & P2 & P3 & P4). destruct (G e1 E1) as (e2 & E2 & Q1 & Q2 & Q3 & Q4). exists e2. repeat split; congruence. Qed.
Lemma alike_refl h x : alike h h x.
Proof. intros e E. exists e. tauto. Qed.
Lemma texts_trans a b c : texts a b -> texts b c -> texts a c.
Proof. intros F G x t E. apply G, F, E. Qed.
Lemma change_alike q f h e : load_element h q = Ok e -> (forall x, e_tag (f x) = e_tag x /\ e_offset (f x) = e_offset x /\ e_next (f x) = e_next x /\ e_sibling (f x) = e_sibling x) ->
  exists h', change q f h = Ok h' /\ (forall a, alike h h' a) /\ texts h h'.
Proof.
  intros L F. destruct (change_raw q f h e L) as (h' & C & R1 & R2 & R3). exists h'. split; [exact C|]. split; [|exact R3]. intros a x X. destruct (Nat.eq_dec a q) as [->|N]; [|rewrite R2 by exact N; exists x; tauto].
  assert (x = e) as -> by congruence. exists (f e). split; [exact R1|apply F].
Qed.
Definition calm_out (h h' : heap) (K : list nat) : Prop := forall a e, ~ In a K -> load_element h a = Ok e ->
  exists e', load_element h' a = Ok e' /\ e_next e' = e_next e /\ e_sibling e' = e_sibling e.

Lemma insert_total fuel p c o h env id x j kids e i below lp lk l1 : element_at h p x j lp -> children_at h env p (e_child x) kids lk -> element_at h c e i l1 ->
  nth_error env id = Some c -> NoDup (lp ++ lk ++ l1) -> lists h (addrs env (heads kids)) -> sorted (heads kids) -> length (tops kids) < fuel ->
  exists h', InsertTagIntoXMLTree fuel p c o h = Ok h' /\ lists h' (addrs env (heads (place id (hold o i) below kids))) /\
    calm_out h h' (addrs env (heads (place id (hold o i) below kids))) /\ sorted (heads (place id (hold o i) below kids)).
Proof.
  intros EP KP EC NC D LI SO FU. pose proof (element_self _ _ _ _ _ EP) as IP. pose proof (element_self _ _ _ _ _ EC) as IC.
  rewrite !nodup_app in D. destruct D as (Dp & (Dk & D1 & Xk) & Xp). assert (p <> c) as NPC by (intros ->; apply (Xp c IP); rewrite in_app_iff; tauto). assert (~ In c lk) as NCK by (intros J; exact (Xk c J IC)).
  assert (exists s, view h (e_tag e) = Some (Text s)) as (s & TV) by (destruct EC; eauto).
  assert (view h c = Some (Elem e) /\ view h p = Some (Elem x)) as [VC VP] by (destruct EC, EP; tauto). assert (c <> 0) as ZC by (intros ->; discriminate VC).
  destruct (view_load_element _ _ _ VC) as (e0 & LC & CE). destruct (view_load_element _ _ _ VP) as (x0 & LP & CX).
  destruct (place_heads id (hold o i) below kids SO) as (A & B & E1 & E2 & FA & FB). cbn [i_offset hold] in *.
  assert (sorted (heads (place id (hold o i) below kids))) as SN by (rewrite E2; rewrite E1 in SO; apply sorted_insert; assumption).
  set (K := addrs env (heads kids)) in *. assert (K = addrs env A ++ addrs env B) as EK by (unfold K, addrs; rewrite E1, map_app; reflexivity).
  assert (addrs env (heads (place id (hold o i) below kids)) = addrs env A ++ c :: addrs env B) as EK' by (rewrite E2; unfold addrs; rewrite map_app; cbn [map fst]; rewrite (nth_error_nth _ _ _ NC); reflexivity).
  rewrite EK'. pose proof (heads_nodup _ _ _ _ _ _ KP Dk) as DK. fold K in DK.
  assert (forall a, In a K -> exists y z t, In y (heads kids) /\ nth (fst y) env 0 = a /\ a <> 0 /\ In a lk /\ load_element h a = Ok z /\ e_offset z = snd y /\ load_text h (e_tag z) = Ok t) as KK.
  { intros a I. apply in_map_iff in I. destruct I as (y & Y & I). destruct (children_heads _ _ _ _ _ _ KP y I) as (a' & z & t & _ & A2 & A3 & A4 & A5 & A6 & A7). assert (a' = a) as -> by congruence. exists y, z, t. tauto. }
  assert (~ In c K) as NCK' by (intros J; destruct (KK c J) as (_ & _ & _ & _ & _ & _ & J' & _); contradiction).
  set (reset := fun e => mkElement (e_tag e) (e_attributes e) (e_content e) o p 0 0 0 (e_child e) (e_entities e)).
  unfold InsertTagIntoXMLTree. fold reset. destruct (change_raw c reset h e0 LC) as (h1 & C1 & R1 & R2 & R3). rewrite C1. cbn [bind].
  assert (load_element h1 p = Ok x0) as LP1 by (rewrite R2 by exact NPC; exact LP). rewrite LP1. cbn [bind]. assert (e_child x0 = e_child x) as CC by (rewrite <- CX; reflexivity). rewrite CC.
  assert (e_tag (reset e0) = e_tag e) as TE by (rewrite <- CE; reflexivity).
  destruct (e_child x) as [|head] eqn:EH.
  - assert (heads kids = []) as HN by (inversion KP; subst; [reflexivity|]; match goal with H : element_at h 0 _ _ _ |- _ => destruct H as [? W _]; discriminate W end).
    assert (A = [] /\ B = []) as [-> ->] by (rewrite HN in E1; destruct A, B; try discriminate; split; reflexivity).
    destruct (change_raw p (with_child c) h1 x0 LP1) as (h2 & C2 & Q1 & Q2 & Q3). exists h2. split; [exact C2|]. cbn [addrs map app]. split; [|split; [|exact SN]].
    + intros a [<-|[]]. exists (reset e0). rewrite Q2 by congruence. split; [exact R1|]. split; left; reflexivity.
    + intros a y N Y. destruct (Nat.eq_dec a p) as [->|Np].
      * exists (with_child c x0). assert (y = x0) as -> by congruence. split; [exact Q1|]. split; reflexivity.
      * exists y. rewrite Q2, R2 by (try exact Np; intros ->; apply N; cbn; tauto). tauto.
  - assert (In (S head) K) as IH.
    { inversion KP as [|? ? id' j' below' rest' f' m1 m2 m3 N' E' P' Z' B' K' R' X1 X2 X3]. subst. unfold K. cbn [heads addrs map In fst]. left. apply nth_error_nth, N'. }
    destruct (KK _ IH) as (yh & zh & th & IYH & AH & _ & ILH & LH & OH & TH). assert (S head <> c) as NHC by (intros Q; rewrite Q in IH; contradiction).
    assert (load_element h1 (S head) = Ok zh) as LH1 by (rewrite R2 by exact NHC; exact LH). rewrite LH1. cbn [bind].
    assert (children_at h1 env p (S head) kids lk) as KP1.
    { eapply children_frame; [exact KP| |apply grows_refl]. intros q Q. pose proof (change_view _ _ _ _ C1) as (e1 & LE & W). rewrite W. destruct (Nat.eqb_spec q c) as [->|]; [contradiction|reflexivity]. }
    assert (exists h2, (if o <? e_offset zh then let* h := change c (with_ordered (S head)) h1 in change p (with_child c) h
                        else let* node := last_before fuel h1 e_ordered o (S head) in let* m := load_element h1 node in
                             let* h := change c (with_ordered (e_ordered m)) h1 in change node (with_ordered c) h) = Ok h2 /\ (forall a, alike h1 h2 a) /\ texts h1 h2) as (h2 & C2 & AL & TX).
    { destruct (o <? e_offset zh).
      - destruct (change_alike c (with_ordered (S head)) h1 _ R1) as (g & G1 & G2 & G3); [intros; cbn; tauto|]. rewrite G1. cbn [bind]. destruct (G2 p x0 LP1) as (x1 & LX & _).
        destruct (change_alike p (with_child c) g x1 LX) as (g' & G1' & G2' & G3'); [intros; cbn; tauto|]. exists g'. split; [exact G1'|]. split; [intros a; eapply alike_trans; [apply G2|apply G2']|eapply texts_trans; eassumption].
      - destruct (last_ordered_total _ _ _ _ _ _ KP1 ltac:(discriminate) fuel o FU) as (n & m & LB & LM & _). rewrite LB. cbn [bind]. rewrite LM. cbn [bind].
        destruct (change_alike c (with_ordered (e_ordered m)) h1 _ R1) as (g & G1 & G2 & G3); [intros; cbn; tauto|]. rewrite G1. cbn [bind]. destruct (G2 n m LM) as (x1 & LX & _).
        destruct (change_alike n (with_ordered c) g x1 LX) as (g' & G1' & G2' & G3'); [intros; cbn; tauto|]. exists g'. split; [exact G1'|]. split; [intros a; eapply alike_trans; [apply G2|apply G2']|eapply texts_trans; eassumption]. }
    rewrite C2. cbn [bind]. destruct (AL c _ R1) as (ec & L2 & T2 & O2 & N2 & S2).
    assert (forall a, In a K -> alike h h2 a) as AK.
    { intros a I. eapply alike_trans; [|apply AL]. intros y Y. exists y. rewrite R2 by (intros ->; contradiction). tauto. }
    assert (NoDup (addrs env A ++ c :: addrs env B)) as DN by (rewrite EK in DK, NCK'; apply NoDup_Add with (a := c) (l := addrs env A ++ addrs env B); [apply Add_app|tauto]).
    destruct (link_total fuel h2 (addrs env A) (addrs env B) c o (S head) ec s) as (h3 & C3 & L3 & F3); try assumption.
    + rewrite <- EK. intros a I. destruct (KK a I) as (y & z & t & IY & AY & ZA & IL & LZ & OZ & TZ). split; [exact ZA|]. destruct (AK a I z LZ) as (z' & LZ' & P1 & P2 & P3 & P4). exists z', t. split; [exact LZ'|]. rewrite P1. split; [apply TX, R3, TZ|].
      rewrite P3, P4. destruct (LI a I) as (z2 & LZ2 & Q). assert (z2 = z) as -> by congruence. exact Q.
    + intros a y I Y. assert (In a K) as IK by (rewrite EK, in_app_iff; tauto). apply in_map_iff in I. destruct I as (w & W & I). destruct (children_heads _ _ _ _ _ _ KP w) as (a' & z & t & _ & W2 & _ & _ & LZ & OZ & _); [rewrite E1, in_app_iff; tauto|].
      assert (a' = a) as -> by congruence. destruct (AK a IK z LZ) as (z' & LZ' & _ & P2 & _). assert (z' = y) as -> by congruence. rewrite P2, OZ. rewrite Forall_forall in FA. apply FA, I.
    + intros a y I Y. assert (In a K) as IK by (rewrite EK, in_app_iff; tauto). apply in_map_iff in I. destruct I as (w & W & I). destruct (children_heads _ _ _ _ _ _ KP w) as (a' & z & t & _ & W2 & _ & _ & LZ & OZ & _); [rewrite E1, in_app_iff; tauto|].
      assert (a' = a) as -> by congruence. destruct (AK a IK z LZ) as (z' & LZ' & _ & P2 & _). assert (z' = y) as -> by congruence. rewrite P2, OZ. rewrite Forall_forall in FB. apply FB, I.
    + rewrite T2, TE. apply TX, R3, view_load_text, TV.
    + rewrite <- EK. exact IH.
    + rewrite <- EK. unfold K, addrs. rewrite map_length, heads_length. exact FU.
    + exists h3. split; [exact C3|]. split; [|split; [|exact SN]].
      * intros a I. destruct (L3 a I) as (_ & y & t & Y & _ & Q). exists y. tauto.
      * intros a y N Y. assert (a <> c) as Nc by (intros ->; apply N; rewrite in_app_iff; cbn; tauto). assert (load_element h1 a = Ok y) as Y1 by (rewrite R2 by exact Nc; exact Y).
        destruct (AL a y Y1) as (y' & Y' & _ & _ & Q). exists y'. split; [apply F3; assumption|exact Q].
Qed.
