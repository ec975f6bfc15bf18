(** The lists of tags of children that were inserted at any offsets. *)
From Coq Require Import NArith Bool Arith List Lia Permutation Sorting.
From Verif Require Import Outcome XmlMemoryModel XmlMemorySpec XmlMemoryProof XmlMemoryRun XmlMemoryOps XmlMemoryMain XmlMemoryInv XmlMemoryTotal.
Import ListNotations.

(** ** Children as a list of their addresses and tags *)
Notation child := (nat * list N)%type.
Fixpoint first (t : list N) (L : list child) : nat :=
  match L with [] => 0 | (a, s) :: L => if list_eq_dec N.eq_dec s t then a else first t L end.
Definition hd0 (L : list child) : nat := match L with [] => 0 | (a, _) :: _ => a end.
Fixpoint lastaddr (d : nat) (L : list child) : nat := match L with [] => d | (a, _) :: L => lastaddr a L end.
Definition no (t : list N) (L : list child) : Prop := forall x, In x L -> snd x <> t.
Inductive sub : list child -> list child -> Prop :=
| sub_nil : sub [] []
| sub_cons x C L : sub C L -> sub (x :: C) (x :: L)
| sub_skip x C L : sub C L -> sub C (x :: L).
Lemma sub_in C L : sub C L -> incl C L.
Proof. intros H. induction H as [|x C L H IH|x C L H IH]; intros y; cbn; [tauto| |]; intros I; [destruct I as [->|I]; [tauto|]|]; right; apply IH, I. Qed.
Lemma sub_empty L : sub [] L.
Proof. induction L; constructor; assumption. Qed.
Lemma sub_app C L C' L' : sub C L -> sub C' L' -> sub (C ++ C') (L ++ L').
Proof. intros H H'. induction H; cbn; [exact H'|constructor; assumption|constructor; assumption]. Qed.
Lemma sub_split A B : forall C, sub C (A ++ B) -> exists CA CB, C = CA ++ CB /\ sub CA A /\ sub CB B.
Proof.
  induction A as [|x A IH]; intros C H; cbn in H.
  - exists [], C. repeat split; [constructor|exact H].
  - inversion H as [|y D M S' E1 E2|y D M S' E1 E2]; subst.
    + destruct (IH D S') as (CA & CB & -> & P & Q). exists (x :: CA), CB. repeat split; [constructor; exact P|exact Q].
    + destruct (IH C S') as (CA & CB & -> & P & Q). exists CA, CB. repeat split; [constructor; exact P|exact Q].
Qed.
Lemma sub_drop C1 z C2 : forall L, sub (C1 ++ z :: C2) L -> sub (C1 ++ C2) L.
Proof.
  intros L H. remember (C1 ++ z :: C2) as C eqn:E. revert C1 E. induction H as [|x C L H IH|x C L H IH]; intros C1 E.
  - destruct C1; discriminate.
  - destruct C1 as [|y C1]; cbn in E; injection E as -> ->; cbn; constructor; [exact H|apply IH; reflexivity].
  - constructor. apply IH, E.
Qed.
Lemma first_no t L : no t L -> first t L = 0.
Proof. induction L as [|[a s] L IH]; cbn; [reflexivity|]. intros N. destruct (list_eq_dec N.eq_dec s t) as [->|_]; [destruct (N (a, t)); cbn; tauto|]. apply IH. intros x I. apply N. cbn. tauto. Qed.
Lemma first_app_no t A B : no t A -> first t (A ++ B) = first t B.
Proof. induction A as [|[a s] A IH]; cbn; [reflexivity|]. intros N. destruct (list_eq_dec N.eq_dec s t) as [->|_]; [destruct (N (a, t)); cbn; tauto|]. apply IH. intros x I. apply N. cbn. tauto. Qed.
Lemma first_other t s c A B : s <> t -> first t (A ++ (c, s) :: B) = first t (A ++ B).
Proof.
  intros N. induction A as [|[a u] A IH]; cbn.
  - destruct (list_eq_dec N.eq_dec s t); [congruence|reflexivity].
  - rewrite IH. reflexivity.
Qed.
Lemma first_hit t n A B : no t A -> first t (A ++ (n, t) :: B) = n.
Proof. intros N. rewrite first_app_no by exact N. cbn. destruct (list_eq_dec N.eq_dec t t); [reflexivity|congruence]. Qed.
Lemma first_within t n R X Y : first t (R ++ (n, t) :: X) = first t (R ++ (n, t) :: Y).
Proof.
  induction R as [|[a u] R IH]; cbn.
  - destruct (list_eq_dec N.eq_dec t t); [reflexivity|congruence].
  - rewrite IH. reflexivity.
Qed.
Lemma first_cases t L : no t L \/ exists P n Q, L = P ++ (n, t) :: Q /\ no t P.
Proof.
  induction L as [|[a s] L IH]; [left; intros x []|]. destruct (list_eq_dec N.eq_dec s t) as [->|NE].
  - right. exists [], a, L. split; [reflexivity|intros x []].
  - destruct IH as [N|(P & n & Q & -> & N)]; [left|right; exists ((a, s) :: P), n, Q; split; [reflexivity|]]; intros x [<-|I]; cbn; auto.
Qed.
Lemma first_same_no t C L : (forall x, In x L -> fst x <> 0) -> incl C L -> first t C = first t L -> no t C -> no t L.
Proof.
  intros Z I E N. destruct (first_cases t L) as [H|(P & n & Q & -> & H)]; [exact H|]. rewrite first_hit in E by exact H. rewrite (first_no _ _ N) in E. exfalso. apply (Z (n, t)); [rewrite in_app_iff; cbn; tauto|cbn; congruence].
Qed.
Lemma lastaddr_app d A B : lastaddr d (A ++ B) = lastaddr (lastaddr d A) B.
Proof. revert d. induction A as [|[a s] A IH]; intros d; cbn; auto. Qed.
Lemma lastaddr_in d L : L <> [] -> exists x, In x L /\ fst x = lastaddr d L.
Proof.
  revert d. induction L as [|[a s] L IH]; intros d N; [congruence|]. cbn. destruct L as [|y L]; [exists (a, s); cbn; tauto|]. destruct (IH a) as (x & I & E); [discriminate|]. exists x. tauto.
Qed.

(** ** The lists: [nx] and [sb] are the links of an address *)
Fixpoint nexts (nx : nat -> nat) (L : list child) : Prop := match L with [] => True | (a, t) :: L => nx a = first t L /\ nexts nx L end.
Fixpoint seg (sb : nat -> nat) (p : nat) (C : list child) (q : nat) : Prop := match C with [] => p = q | (a, _) :: C => p = a /\ seg sb (sb a) C q end.
Definition wired (nx sb : nat -> nat) (L : list child) : Prop :=
  nexts nx L /\ exists C, seg sb (hd0 L) C 0 /\ sub C L /\ forall t, first t C = first t L.
Lemma seg_app sb C D : forall p q, seg sb p (C ++ D) q <-> exists r, seg sb p C r /\ seg sb r D q.
Proof.
  induction C as [|[a t] C IH]; intros p q; cbn.
  - split; [intros H; exists p; tauto|intros (r & -> & H); exact H].
  - rewrite IH. split; [intros (-> & r & H); exists r; tauto|intros (r & (-> & H) & H'); split; [reflexivity|exists r; tauto]].
Qed.
Lemma seg_same sb sb' C : (forall x, In x C -> sb' (fst x) = sb (fst x)) -> forall p q, seg sb p C q -> seg sb' p C q.
Proof.
  induction C as [|[a t] C IH]; cbn; [tauto|]. intros S' p q (-> & H). split; [reflexivity|]. pose proof (S' (a, t) (or_introl eq_refl)) as Q. cbn [fst] in Q. rewrite Q. apply IH; [|exact H]. intros x I. apply S'. tauto.
Qed.
Lemma seg_last sb sb' q' C : forall p q d, C <> [] -> NoDup (map fst C) -> (forall x, In x C -> fst x <> lastaddr d C -> sb' (fst x) = sb (fst x)) -> sb' (lastaddr d C) = q' ->
  seg sb p C q -> seg sb' p C q'.
Proof.
  induction C as [|[a t] C IH]; intros p q d N D S' E H; [congruence|]. cbn in *. destruct H as (-> & H). split; [reflexivity|]. apply NoDup_cons_iff in D. destruct D as [Na D]. destruct C as [|y C].
  - cbn in *. exact E.
  - assert (sb' a = sb a) as ->.
    2: { eapply (IH _ q a); [discriminate|exact D| |exact E|exact H]. intros x I. apply S'. tauto. }
    apply (S' (a, t)); [tauto|]. cbn [fst]. intros Q. apply Na. rewrite Q. destruct (lastaddr_in a (y :: C)) as (x & I & X); [discriminate|]. rewrite <- X. apply in_map, I.
Qed.
Lemma seg_hd sb p C : seg sb p C 0 -> hd0 C = p.
Proof. destruct C as [|[a t] C]; cbn; [congruence|]. intros [-> _]. reflexivity. Qed.
Lemma nexts_app nx A B : nexts nx (A ++ B) -> nexts nx B.
Proof. induction A as [|[a t] A IH]; cbn; tauto. Qed.
Lemma nexts_same nx nx' L : (forall x, In x L -> nx' (fst x) = nx (fst x)) -> nexts nx L -> nexts nx' L.
Proof. induction L as [|[a t] L IH]; cbn; [tauto|]. intros S' [E H]. split; [rewrite <- E; apply (S' (a, t)); tauto|]. apply IH; [|exact H]. intros x I. apply S'. tauto. Qed.
Lemma nexts_new nx nx' A B c s : no s A -> nexts nx (A ++ B) -> (forall x, In x (A ++ B) -> nx' (fst x) = nx (fst x)) -> nx' c = first s B -> nexts nx' (A ++ (c, s) :: B).
Proof.
  induction A as [|[a t] A IH]; cbn; intros N H S' E.
  - split; [exact E|]. eapply nexts_same; eassumption.
  - destruct H as [E1 H]. split; [|apply IH; try assumption; [intros x I; apply N; cbn; tauto|intros x I; apply S'; tauto]]. rewrite first_other by (intros ->; apply (N (a, t)); cbn; tauto). rewrite <- E1. apply (S' (a, t)). tauto.
Qed.
Lemma nexts_mid nx nx' R m T B c s : no s T -> nexts nx (R ++ (m, s) :: T ++ B) -> (forall x, In x (R ++ T ++ B) -> nx' (fst x) = nx (fst x)) -> nx' m = c -> nx' c = first s B ->
  nexts nx' (R ++ (m, s) :: T ++ (c, s) :: B).
Proof.
  intros N. induction R as [|[a t] R IH]; cbn [app nexts]; intros H S' E1 E2.
  - destruct H as [E H]. split; [rewrite first_hit by exact N; exact E1|]. eapply nexts_new; eassumption.
  - destruct H as [E H]. split; [|apply IH; try assumption; intros x I; apply S'; right; exact I]. etransitivity; [apply (S' (a, t)); cbn; tauto|]. cbn [fst]. rewrite E. clear. destruct (list_eq_dec N.eq_dec s t) as [->|NE].
    + apply first_within.
    + rewrite !first_other by exact NE. rewrite !app_assoc, first_other by exact NE. reflexivity.
Qed.
Lemma wired_same nx sb nx' sb' L : wired nx sb L -> (forall x, In x L -> nx' (fst x) = nx (fst x) /\ sb' (fst x) = sb (fst x)) -> wired nx' sb' L.
Proof.
  intros (N & C & H & S' & F) E. split; [eapply nexts_same; [|exact N]; intros x I; apply E, I|]. exists C. split; [|tauto]. eapply seg_same; [|exact H]. intros x I. apply E, (sub_in _ _ S'), I.
Qed.
Lemma wired_empty nx sb : wired nx sb [].
Proof. split; [exact I|]. exists []. repeat split; constructor. Qed.
(** a prefix that lacks [z] *)
Lemma prefix_split (X Y C1 C2 : list child) z : X ++ Y = C1 ++ z :: C2 -> ~ In z X -> exists C', C1 = X ++ C' /\ Y = C' ++ z :: C2.
Proof.
  revert C1. induction X as [|x X IH]; intros C1 E N; cbn in *; [exists C1; tauto|]. destruct C1 as [|y C1]; cbn in E; injection E as -> E; [tauto|]. destruct (IH C1 E) as (C' & -> & Q); [tauto|]. exists C'. tauto.
Qed.

(** the links of an address in memory *)
Definition nx (h : heap) (a : nat) : nat := match load_element h a with Ok e => e_next e | _ => 0 end.
Definition sb (h : heap) (a : nat) : nat := match load_element h a with Ok e => e_sibling e | _ => 0 end.
Definition known (h : heap) (x : child) : Prop := fst x <> 0 /\ exists e, load_element h (fst x) = Ok e /\ load_text h (e_tag e) = Ok (snd x).
Definition at_most (h : heap) (o : nat) (x : child) : Prop := exists e, load_element h (fst x) = Ok e /\ e_offset e <= o.
Definition beyond (h : heap) (o : nat) (x : child) : Prop := exists e, load_element h (fst x) = Ok e /\ o < e_offset e.

Lemma find_tag_seg h t : forall C fuel previous p, seg (sb h) p C 0 -> (forall x, In x C -> known h x) -> length C < fuel ->
  no t C /\ (exists q, find_tag fuel h t previous p = Ok (q, 0)) \/
  exists C1 n C2, C = C1 ++ (n, t) :: C2 /\ no t C1 /\ find_tag fuel h t previous p = Ok (lastaddr previous C1, n).
Proof.
  induction C as [|[a s] C IH]; intros fuel previous p H K U; (destruct fuel as [|fuel]; [cbn in U; lia|]); cbn [find_tag].
  - cbn in H. subst p. left. split; [intros x []|]. eauto.
  - cbn in H. destruct H as [-> H]. destruct (K (a, s)) as (Z & e & E & T); [cbn; tauto|]. cbn [fst snd] in *. destruct a as [|a]; [congruence|]. rewrite E. cbn [bind]. rewrite T. cbn [bind]. unfold tag_eq. destruct (list_eq_dec N.eq_dec s t) as [->|NE].
    + right. exists [], (S a), C. repeat split. intros x [].
    + assert (sb h (S a) = e_sibling e) as SB by (unfold sb; rewrite E; reflexivity). rewrite SB in H. destruct (IH fuel (S a) (e_sibling e) H) as [(N & q & Q)|(C1 & n & C2 & -> & N & Q)]; [intros x I; apply K; cbn; tauto|cbn in U; lia| |].
      * left. split; [intros x [<-|I]; [exact NE|apply N, I]|]. exists q. exact Q.
      * right. exists ((S a, s) :: C1), n, C2. split; [reflexivity|]. split; [intros x [<-|I]; [exact NE|apply N, I]|]. exact Q.
Qed.
Lemma find_offset_seg h o CB : forall CA fuel previous p, seg (sb h) p (CA ++ CB) 0 -> (forall x, In x (CA ++ CB) -> fst x <> 0) -> (forall x, In x CA -> at_most h o x) -> (forall x, In x CB -> beyond h o x) ->
  length CA < fuel -> find_offset fuel h o previous p = Ok (lastaddr previous CA, hd0 CB).
Proof.
  induction CA as [|[a s] CA IH]; intros fuel previous p H Z A B U; (destruct fuel as [|fuel]; [cbn in U; lia|]); cbn [find_offset app] in *.
  - destruct CB as [|[b s] CB]; cbn in H; [subst p; reflexivity|]. destruct H as [-> H]. destruct (B (b, s)) as (e & E & O); [cbn; tauto|]. cbn [fst] in *. pose proof (Z (b, s) ltac:(cbn; tauto)) as Zb. cbn in Zb. destruct b as [|b]; [congruence|]. rewrite E. cbn [bind].
    rewrite (proj2 (Nat.leb_gt _ _)) by exact O. reflexivity.
  - cbn in H. destruct H as [-> H]. destruct (A (a, s)) as (e & E & O); [cbn; tauto|]. cbn [fst] in *. pose proof (Z (a, s) ltac:(cbn; tauto)) as Za. cbn in Za. destruct a as [|a]; [congruence|]. rewrite E. cbn [bind].
    rewrite (proj2 (Nat.leb_le _ _)) by exact O. cbn [lastaddr]. assert (sb h (S a) = e_sibling e) as SB by (unfold sb; rewrite E; reflexivity). rewrite SB in H. apply IH; [exact H| | |exact B|cbn in U; lia]; intros x I; [apply Z|apply A]; cbn; tauto.
Qed.
(** the last one at or before the offset *)
Lemma last_next h o s B : forall k QA n fuel, length QA < k -> k <= fuel -> nexts (nx h) ((n, s) :: QA ++ B) -> (forall x, In x ((n, s) :: QA ++ B) -> known h x) -> (forall x, In x ((n, s) :: QA) -> at_most h o x) -> (forall x, In x B -> beyond h o x) ->
  exists R m T, (n, s) :: QA = R ++ (m, s) :: T /\ no s T /\ last_before fuel h e_next o n = Ok m.
Proof.
  induction k as [|k IH]; intros QA n fuel U V H K A Bo; [lia|]. destruct fuel as [|fuel]; [lia|]. cbn [last_before nexts] in *. destruct H as [E H]. destruct (K (n, s)) as (Zn & e & L & _); [cbn; tauto|]. cbn [fst] in *. rewrite L. cbn [bind].
  unfold nx in E. rewrite L in E. rewrite E. destruct (first_cases s QA) as [N|(Q1 & n' & Q2 & -> & N)].
  - rewrite first_app_no by exact N. exists [], n, QA. split; [reflexivity|]. split; [exact N|]. destruct (first_cases s B) as [NB|(B1 & b & B2 & -> & NB)].
    + rewrite (first_no _ _ NB). reflexivity.
    + rewrite first_hit by exact NB. destruct (Bo (b, s)) as (eb & Eb & Ob); [rewrite in_app_iff; cbn; tauto|]. destruct (K (b, s)) as (Zb & _); [right; rewrite !in_app_iff; cbn; tauto|]. cbn [fst] in *. destruct b as [|b]; [congruence|]. rewrite Eb. cbn [bind].
      rewrite (proj2 (Nat.leb_gt _ _)) by exact Ob. reflexivity.
  - rewrite <- app_assoc in *. cbn [app] in *. rewrite first_hit by exact N. assert (In (n', s) (Q1 ++ (n', s) :: Q2 ++ B)) as I' by (rewrite in_app_iff; cbn; tauto).
    destruct (A (n', s)) as (e' & E' & O'); [right; rewrite in_app_iff; cbn; tauto|]. destruct (K (n', s)) as (Zn' & _); [right; exact I'|]. cbn [fst] in *. destruct n' as [|n']; [congruence|]. rewrite E'. cbn [bind]. rewrite (proj2 (Nat.leb_le _ _)) by exact O'.
    destruct (IH Q2 (S n') fuel) as (R & m & T & Q & NT & LB).
    + rewrite app_length in U. cbn in U. lia.
    + lia.
    + apply nexts_app in H. exact H.
    + intros x [<-|I]; apply K; right; rewrite in_app_iff; cbn; tauto.
    + intros x [<-|I]; apply A; right; rewrite in_app_iff; cbn; tauto.
    + exact Bo.
    + exists ((n, s) :: Q1 ++ R), m, T. split; [|tauto]. cbn. rewrite <- app_assoc, Q. reflexivity.
Qed.
