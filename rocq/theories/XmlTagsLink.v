(** One more child: the lists of tags afterwards. *)
From Coq Require Import NArith Bool Arith List Lia Permutation Sorting.
From Verif Require Import Outcome XmlMemoryModel XmlMemorySpec XmlMemoryProof XmlMemoryRun XmlMemoryOps XmlMemoryMain XmlMemoryInv XmlMemoryTotal XmlTagsProof.
Import ListNotations.

Lemma change_links q f h h' : change q f h = Ok h' -> exists e, load_element h q = Ok e /\ load_element h' q = Ok (f e) /\ (forall a, a <> q -> load_element h' a = load_element h a) /\
  nx h' q = e_next (f e) /\ sb h' q = e_sibling (f e) /\ (forall a, a <> q -> nx h' a = nx h a /\ sb h' a = sb h a).
Proof.
  intros C. assert (exists e, load_element h q = Ok e) as (e & E) by (unfold change in C; inv_bind C; eauto). destruct (change_raw q f h e E) as (h1 & C1 & R1 & R2 & _). assert (h1 = h') as -> by congruence.
  exists e. unfold nx, sb. rewrite R1. repeat split; try assumption; rewrite R2 by assumption; reflexivity.
Qed.
Lemma hd0_app A X Y : A <> [] -> hd0 (A ++ X) = hd0 (A ++ Y).
Proof. destruct A as [|[a s] A]; [congruence|reflexivity]. Qed.
Lemma nodup_parts (A B : list child) c s : NoDup (map fst (A ++ (c, s) :: B)) -> ~ In c (map fst (A ++ B)) /\ NoDup (map fst A) /\ (forall x y, In x A -> In y B -> fst x <> fst y).
Proof.
  intros D. rewrite map_app in D. cbn in D. pose proof (NoDup_remove_2 _ _ _ D) as N. apply NoDup_remove_1 in D. rewrite <- map_app in N. rewrite nodup_app in D. destruct D as (D1 & _ & X). repeat split; try assumption.
  intros x y I J E. apply (X (fst x)); [apply in_map, I|rewrite E; apply in_map, J].
Qed.

(** 1272-1284: from the state [h1] on, in which the list of tags has no element of the new tag before *)
Lemma tail_wired fuel h1 h' A B CA CB c s o x node : nexts (nx h1) (A ++ B) -> NoDup (map fst (A ++ (c, s) :: B)) -> c <> 0 -> (forall y, In y (A ++ B) -> fst y <> 0) ->
  (forall y, In y A -> at_most h1 o y) -> (forall y, In y B -> beyond h1 o y) -> load_element h1 c = Ok x -> e_sibling x = 0 -> length (A ++ B) < fuel ->
  seg (sb h1) (hd0 (A ++ B)) (CA ++ CB) 0 -> sub CA A -> sub CB B -> (forall t, t <> s -> first t (CA ++ CB) = first t (A ++ B)) -> no s A -> node = first s B ->
  (let* h := change c (with_next node) h1 in
   let* r := find_offset fuel h o 0 (hd0 (A ++ B)) in
   let '(previous, node) := r in
   let* h := change c (with_sibling node) h in
   match previous with 0 => Ok h | _ => change previous (with_sibling c) h end) = Ok h' ->
  wired (nx h') (sb h') (A ++ (c, s) :: B).
Proof.
  intros NX D ZC Z OA OB X SX FU SG SA SB FI NA EN H. destruct (nodup_parts _ _ _ _ D) as (NC & DA & XAB).
  assert (forall y, In y (A ++ B) -> fst y <> c) as Nc by (intros y I Q; apply NC; rewrite <- Q; apply in_map, I).
  assert (forall y, In y (CA ++ CB) -> In y (A ++ B)) as Sub by (apply sub_in, sub_app; assumption).
  inv_bind H. rename x0 into h2. destruct (change_links _ _ _ _ E) as (x1 & X1 & L2 & O2 & N2 & S2 & R2). assert (x1 = x) as -> by congruence. cbn [with_sibling with_next e_next e_sibling] in N2, S2.
  assert (forall y, In y A -> at_most h2 o y) as OA2 by (intros y I; destruct (OA y I) as (e & P & Q); exists e; rewrite O2 by (apply Nc; rewrite in_app_iff; tauto); tauto).
  assert (forall y, In y B -> beyond h2 o y) as OB2 by (intros y I; destruct (OB y I) as (e & P & Q); exists e; rewrite O2 by (apply Nc; rewrite in_app_iff; tauto); tauto).
  assert (seg (sb h2) (hd0 (A ++ B)) (CA ++ CB) 0) as SG2 by (eapply seg_same; [|exact SG]; intros y I; apply R2, Nc, Sub, I).
  assert (forall C L, sub C L -> length C <= length L) as Len by (clear; intros C L H; induction H; cbn; lia).
  rewrite (find_offset_seg h2 o CB CA fuel 0 (hd0 (A ++ B)) SG2) in H; cycle 1.
  { intros y I. apply Z, Sub, I. } { intros y I. apply OA2, (sub_in _ _ SA), I. } { intros y I. apply OB2, (sub_in _ _ SB), I. } { apply Len in SA. rewrite app_length in FU. lia. }
  cbn [bind] in H. inv_bind H. rename x0 into h3. destruct (change_links _ _ _ _ E0) as (x1 & X1' & L3 & O3 & N3 & S3 & R3). assert (x1 = with_next node x) as -> by congruence. cbn [with_sibling with_next e_next e_sibling] in N3, S3.
  assert (exists nx', nx' = nx h' /\ nx' c = node /\ (forall a, a <> c -> nx' a = nx h1 a) /\ sb h' c = hd0 CB /\ (CA <> [] -> sb h' (lastaddr 0 CA) = c) /\ (forall a, a <> c -> CA = [] \/ a <> lastaddr 0 CA -> sb h' a = sb h1 a)) as (nx' & QN & W1 & W2 & W3 & W4 & W5).
  { destruct CA as [|y CA].
    - cbn [lastaddr] in H. injection H as <-. exists (nx h3). split; [reflexivity|]. split; [exact N3|]. split; [intros a Na; rewrite (proj1 (R3 a Na)), (proj1 (R2 a Na)); reflexivity|]. split; [exact S3|]. split; [congruence|]. intros a Na _. rewrite (proj2 (R3 a Na)), (proj2 (R2 a Na)). reflexivity.
    - destruct (lastaddr_in 0 (y :: CA)) as (z & I & EZ); [discriminate|]. assert (In z (A ++ B)) as IZ by (apply Sub; rewrite in_app_iff; tauto). pose proof (Z z IZ) as Zz. pose proof (Nc z IZ) as Nz. rewrite EZ in Zz, Nz.
      assert (change (lastaddr 0 (y :: CA)) (with_sibling c) h3 = Ok h') as CH by (destruct (lastaddr 0 (y :: CA)); [congruence|exact H]). clear H. set (q := lastaddr 0 (y :: CA)) in *.
      destruct (change_links _ _ _ _ CH) as (x2 & X2 & L4 & O4 & N4 & S4 & R4). cbn [with_sibling with_next e_next e_sibling] in N4, S4.
      exists (nx h'). split; [reflexivity|]. split; [rewrite (proj1 (R4 c ltac:(congruence))); exact N3|]. split.
      { intros a Na. destruct (Nat.eq_dec a q) as [->|Nq]; [|rewrite (proj1 (R4 a Nq)), (proj1 (R3 a Na)), (proj1 (R2 a Na)); reflexivity]. rewrite N4. rewrite <- (proj1 (R2 _ Na)), <- (proj1 (R3 _ Na)). unfold nx. rewrite X2. reflexivity. }
      split; [rewrite (proj2 (R4 c ltac:(congruence))); exact S3|]. split; [intros _; exact S4|]. intros a Na [Q|Q]; [discriminate|]. rewrite (proj2 (R4 a Q)), (proj2 (R3 a Na)), (proj2 (R2 a Na)). reflexivity. }
  rewrite <- QN. split.
  { eapply nexts_new; [exact NA|exact NX| |congruence]. intros y I. apply W2, Nc, I. }
  assert (forall y, In y CB -> sb h' (fst y) = sb h1 (fst y)) as SCB.
  { intros y I. apply W5; [apply Nc, Sub; rewrite in_app_iff; tauto|]. destruct CA as [|z CA]; [tauto|]. right. destruct (lastaddr_in 0 (z :: CA)) as (w & J & EW); [discriminate|]. rewrite <- EW. intros Q. apply (XAB w y); [apply (sub_in _ _ SA), J|apply (sub_in _ _ SB), I|congruence]. }
  apply seg_app in SG. destruct SG as (r & SG1 & SGB). pose proof (seg_hd _ _ _ SGB) as HB. assert (seg (sb h') r CB 0) as SGB' by (eapply seg_same; [exact SCB|exact SGB]).
  exists (CA ++ (c, s) :: CB). split; [|split].
  - apply seg_app. exists c. split; [|cbn [seg]; split; [reflexivity|]; rewrite W3, HB; exact SGB']. destruct CA as [|z CA].
    + destruct A as [|[a u] A]; [reflexivity|]. exfalso. cbn in SG1. subst r. destruct CB as [|[b v] CB]; cbn in HB.
      * apply (Z (a, u)); cbn; [tauto|congruence].
      * apply (XAB (a, u) (b, v)); [cbn; tauto|apply (sub_in _ _ SB); cbn; tauto|cbn; congruence].
    + assert (A <> []) as An by (intros ->; inversion SA). rewrite (hd0_app A _ B An). eapply (seg_last (sb h1) (sb h') c (z :: CA) (hd0 (A ++ B)) r 0); [discriminate| | |apply W4; discriminate|exact SG1].
      * clear - SA DA. revert DA. generalize (z :: CA) SA. clear. intros C H. induction H as [|y C L H IH|y C L H IH]; cbn; intros D; [constructor| |]; apply NoDup_cons_iff in D; destruct D as [N D]; [|auto]. constructor; [|auto]. intros I. apply N. apply in_map_iff in I. destruct I as (w & <- & J). apply in_map, (sub_in _ _ H), J.
      * intros y I Q. apply W5; [apply Nc, Sub; rewrite in_app_iff; tauto|tauto].
  - apply sub_app; [exact SA|constructor; exact SB].
  - intros t. destruct (list_eq_dec N.eq_dec t s) as [->|NE].
    + rewrite !first_hit; [reflexivity|exact NA|]. intros y I. apply NA, (sub_in _ _ SA), I.
    + rewrite !first_other by congruence. apply FI, NE.
Qed.

Lemma link_wired fuel h A B c s o x h' : wired (nx h) (sb h) (A ++ B) -> NoDup (map fst (A ++ (c, s) :: B)) -> c <> 0 -> (forall y, In y (A ++ B) -> known h y) ->
  (forall y, In y A -> at_most h o y) -> (forall y, In y B -> beyond h o y) -> load_element h c = Ok x -> load_text h (e_tag x) = Ok s -> e_sibling x = 0 -> length (A ++ B) < fuel ->
  link_by_tag fuel (hd0 (A ++ B)) c o h = Ok h' -> wired (nx h') (sb h') (A ++ (c, s) :: B).
Proof.
  intros (NX & C & SG & SU & FI) D ZC K OA OB X TX SX FU H. destruct (nodup_parts _ _ _ _ D) as (NC & DA & XAB).
  assert (forall C L, sub C L -> length C <= length L) as Len by (clear; intros C L H; induction H; cbn; lia).
  assert (forall y, In y (A ++ B) -> fst y <> c) as Nc by (intros y I Q; apply NC; rewrite <- Q; apply in_map, I).
  assert (forall y, In y (A ++ B) -> fst y <> 0) as Z by (intros y I; apply K, I).
  assert (forall y, In y C -> In y (A ++ B)) as Sub by (apply sub_in, SU).
  destruct (sub_split A B C SU) as (CA & CB & EC & SA & SB).
  unfold link_by_tag in H. rewrite X in H. cbn [bind] in H. rewrite TX in H. cbn [bind] in H.
  destruct (find_tag_seg h s C fuel 0 (hd0 (A ++ B)) SG) as [(N & q & FT)|(C1 & n & C2 & EC' & N1 & FT)]; [intros y I; apply K, Sub, I|apply Len in SU; lia| |]; rewrite FT in H; cbn [bind] in H.
  - assert (no s (A ++ B)) as NL by (eapply first_same_no; [exact Z|intros y; apply Sub|apply FI|exact N]).
    assert (no s A /\ no s B) as [NA NB] by (split; intros y I; apply NL; rewrite in_app_iff; tauto).
    assert (Ok h = match q with 0 => Ok h | S _ => Ok h end) as EQ by (destruct q; reflexivity). rewrite <- EQ in H. cbn [bind] in H.
    eapply (tail_wired fuel h h' A B CA CB c s o x 0); try eassumption; [rewrite <- EC; exact SG| |rewrite (first_no _ _ NB); reflexivity]. intros t _. rewrite <- EC. apply FI.
  - assert (In (n, s) C) as IC by (rewrite EC', in_app_iff; cbn; tauto). destruct (K (n, s) (Sub _ IC)) as (Zn & en & En & _). cbn [fst] in *. assert (first s (A ++ B) = n) as FN by (rewrite <- FI, EC'; apply first_hit, N1).
    destruct n as [|n]; [congruence|]. set (m := S n) in *. rewrite En in H. cbn [bind] in H. destruct (Nat.leb_spec (e_offset en) o) as [LE|GT].
    + destruct (first_cases s A) as [NA|(P & n' & QA & EA & NP)].
      { exfalso. assert (In (m, s) B) as J by (specialize (Sub _ IC); rewrite in_app_iff in Sub; destruct Sub as [J|J]; [exfalso; apply (NA _ J); reflexivity|exact J]). destruct (OB _ J) as (e & E & O). cbn [fst] in E. assert (e = en) as -> by congruence. lia. }
      assert (n' = m) as -> by (rewrite EA, <- app_assoc in FN; cbn [app] in FN; rewrite first_hit in FN by exact NP; congruence).
      rewrite EA, <- app_assoc in NX. cbn [app] in NX. pose proof (nexts_app _ _ _ NX) as NX1.
      destruct (last_next h o s B (S (length QA)) QA m fuel) as (R & k & T & EQ & NT & LB); try assumption.
      { lia. } { rewrite EA, !app_length in FU. cbn in FU. lia. } { intros y I. apply K. rewrite EA, <- app_assoc, in_app_iff. right. exact I. } { intros y I. apply OA. rewrite EA, in_app_iff. right. exact I. }
      rewrite LB in H. cbn [bind] in H. assert (A = (P ++ R) ++ (k, s) :: T) as EA' by (rewrite EA, <- app_assoc, EQ; reflexivity).
      assert (In (k, s) (A ++ B)) as IK by (rewrite EA', !in_app_iff; cbn; tauto). destruct (K _ IK) as (Zk & ek & Ek & _). cbn [fst] in *. rewrite Ek in H. cbn [bind] in H.
      assert (nexts (nx h) ((P ++ R) ++ (k, s) :: T ++ B)) as NX2.
      { assert ((P ++ R) ++ (k, s) :: T ++ B = P ++ (m, s) :: QA ++ B) as ->; [|exact NX]. change ((k, s) :: T ++ B) with (((k, s) :: T) ++ B). rewrite <- !app_assoc. f_equal. rewrite app_assoc. rewrite <- EQ. reflexivity. }
      assert (e_next ek = first s B) as NE.
      { pose proof (nexts_app _ _ _ NX2) as Q. cbn [nexts] in Q. destruct Q as [Q _]. rewrite first_app_no in Q by exact NT. unfold nx in Q. rewrite Ek in Q. exact Q. }
      inv_bind H. rename x0 into h1. destruct (change_links _ _ _ _ E) as (x1 & X1 & L2 & O2 & M2 & S2 & R2). assert (x1 = x) as -> by congruence. cbn [with_sibling with_next e_next e_sibling] in M2, S2.
      destruct (change_links _ _ _ _ H) as (x2 & X2 & L3 & O3 & M3 & S3 & R3). cbn [with_sibling with_next e_next e_sibling] in M3, S3. pose proof (Nc _ IK) as Nk. cbn in Nk. assert (x2 = ek) as -> by (rewrite O2 in X2 by exact Nk; congruence).
      assert (forall y, In y (A ++ B) -> sb h' (fst y) = sb h (fst y)) as SS.
      { intros y I. pose proof (Nc y I) as Ny. destruct (Nat.eq_dec (fst y) k) as [Q|Q]; [rewrite Q, S3; unfold sb; rewrite Ek; reflexivity|]. rewrite (proj2 (R3 _ Q)), (proj2 (R2 _ Ny)). reflexivity. }
      assert (~ In k (map fst (((P ++ R) ++ T) ++ B))) as NK.
      { pose proof D as D'. rewrite map_app in D'. cbn in D'. apply NoDup_remove_1 in D'. rewrite <- map_app in D'. rewrite EA', <- !app_assoc in D'. rewrite <- !app_assoc. cbn [app] in D'. rewrite app_assoc, map_app in D'. cbn [map fst] in D'. apply NoDup_remove_2 in D'. rewrite <- map_app, <- app_assoc in D'. exact D'. }
      split.
      * rewrite EA', <- app_assoc. cbn [app]. eapply nexts_mid; [exact NT|exact NX2| |exact M3|rewrite (proj1 (R3 c ltac:(congruence))), M2; exact NE].
        intros y I. assert (In y (A ++ B)) as I' by (rewrite EA', <- app_assoc; rewrite in_app_iff in *; cbn; tauto). assert (fst y <> k) as Q by (intros Q; apply NK; rewrite <- Q; apply in_map; rewrite <- app_assoc; exact I).
        rewrite (proj1 (R3 _ Q)), (proj1 (R2 _ (Nc y I'))). reflexivity.
      * exists C. assert (A <> []) as An by (rewrite EA; destruct P; discriminate). split; [rewrite (hd0_app A _ B An); eapply seg_same; [|exact SG]; intros y I; apply SS, Sub, I|]. split; [rewrite EC; apply sub_app; [exact SA|constructor; exact SB]|].
        intros t. rewrite FI. destruct (list_eq_dec N.eq_dec t s) as [->|NE']; [|rewrite first_other by congruence; reflexivity]. rewrite EA, <- !app_assoc. cbn [app]. apply first_within.
    + assert (no s A) as NA.
      { destruct (first_cases s A) as [NA|(P & n' & QA & EA & NP)]; [exact NA|]. exfalso. assert (n' = m) as -> by (rewrite EA, <- app_assoc in FN; cbn [app] in FN; rewrite first_hit in FN by exact NP; congruence).
        destruct (OA (m, s)) as (e & E & O); [rewrite EA, in_app_iff; cbn; tauto|]. cbn [fst] in E. assert (e = en) as -> by congruence. lia. }
      assert (m = first s B) as FB by (rewrite <- FN; apply first_app_no, NA).
      assert (~ In (m, s) CA) as NCA by (intros J; apply (NA (m, s)); [apply (sub_in _ _ SA), J|reflexivity]). rewrite EC in EC'. destruct (prefix_split _ _ _ _ _ EC' NCA) as (C' & EC1 & ECB).
      destruct C1 as [|y C1].
      * cbn [lastaddr] in H. cbn [bind] in H. eapply (tail_wired fuel h h' A B CA CB c s o x m); try eassumption; [rewrite <- EC; exact SG|]. intros t _. rewrite <- EC. apply FI.
      * destruct (lastaddr_in 0 (y :: C1)) as (z & I & EZ); [discriminate|]. assert (In z (A ++ B)) as IZ by (apply Sub; rewrite EC, EC', in_app_iff; tauto). pose proof (Z z IZ) as Zz. pose proof (Nc z IZ) as Nz. rewrite EZ in Zz, Nz.
        inv_bind H. rename x0 into h1. assert (change (lastaddr 0 (y :: C1)) (with_sibling (e_sibling en)) h = Ok h1) as CH by (destruct (lastaddr 0 (y :: C1)) as [|q]; [congruence|exact E]).
        destruct (change_links _ _ _ _ CH) as (x1 & X1 & L2 & O2 & M2 & S2 & R2). set (q := lastaddr 0 (y :: C1)) in *. cbn [with_sibling with_next e_next e_sibling] in M2, S2.
        assert (forall a, nx h1 a = nx h a) as NN by (intros a; destruct (Nat.eq_dec a q) as [->|Na]; [rewrite M2; unfold nx; rewrite X1; reflexivity|apply R2, Na]).
        assert (NoDup (map fst C)) as DC.
        { pose proof D as D'. rewrite map_app in D'. cbn in D'. apply NoDup_remove_1 in D'. rewrite <- map_app in D'. revert D'. clear - SU. induction SU as [|w C0 L0 H0 IH|w C0 L0 H0 IH]; cbn; intros D'; [constructor| |]; apply NoDup_cons_iff in D'; destruct D' as [N' D']; [|auto].
          constructor; [|auto]. intros I. apply N'. apply in_map_iff in I. destruct I as (v & <- & J). apply in_map, (sub_in _ _ H0), J. }
        rewrite EC, EC', map_app in DC. cbn [map fst] in DC. pose proof (proj1 (nodup_app _ _) DC) as (DC1 & DC2 & XC). apply NoDup_cons_iff in DC2. destruct DC2 as [Nm DC2].
        assert (seg (sb h1) (hd0 (A ++ B)) ((y :: C1) ++ C2) 0) as SG1.
        { rewrite EC, EC' in SG. apply seg_app in SG. destruct SG as (r & G1 & G2). cbn [seg] in G2. destruct G2 as [-> G2]. apply seg_app. exists (e_sibling en). split.
          - eapply (seg_last (sb h) (sb h1) (e_sibling en) (y :: C1) (hd0 (A ++ B)) m 0); [discriminate|exact DC1| |exact S2|exact G1]. intros w J Q. apply R2. exact Q.
          - assert (sb h m = e_sibling en) as SM by (unfold sb; rewrite En; reflexivity). rewrite SM in G2. eapply seg_same; [|exact G2]. intros w J. apply R2. intros Q. apply (XC (fst z)); [exact (in_map fst (y :: C1) z I)|]. right. rewrite <- (eq_trans Q (eq_sym EZ)). apply in_map, J. }
        assert (forall a e, load_element h a = Ok e -> exists e', load_element h1 a = Ok e' /\ e_offset e' = e_offset e) as OO.
        { intros a e Ea. destruct (Nat.eq_dec a q) as [->|Na]; [|rewrite O2 by exact Na; eauto]. assert (e = x1) as -> by congruence. eauto. }
        eapply (tail_wired fuel h1 h' A B CA (C' ++ C2) c s o x m); try eassumption.
        -- eapply nexts_same; [|exact NX]. intros w _. apply NN.
        -- intros w J. destruct (OA w J) as (e & Ee & Oe). destruct (OO _ _ Ee) as (e' & Ee' & Oe'). exists e'. split; [exact Ee'|lia].
        -- intros w J. destruct (OB w J) as (e & Ee & Oe). destruct (OO _ _ Ee) as (e' & Ee' & Oe'). exists e'. split; [exact Ee'|lia].
        -- rewrite O2 by congruence. exact X.
        -- rewrite app_assoc, <- EC1. exact SG1.
        -- apply (sub_drop C' (m, s) C2). rewrite <- ECB. exact SB.
        -- intros t NEt. rewrite <- FI, EC, EC', EC1, app_assoc, first_other by congruence. reflexivity.
Qed.
