(** The counters of resource.c and the trees of splay-tree.c keep the laws of ThreadProof.v. *)
From Coq Require Import ZArith NArith Bool Arith Lia List.
From Verif Require Import Base Outcome SplayModel ResourceModel RandomModel HmacModel ThreadModel ThreadSpec ThreadProof.
Import ListNotations.

(** ** resource.c *)
Definition rrank (l : rlocal) : nat :=
  match l with
  | AcquireRead _ _ => 4 | AcquireWrite _ _ _ => 3 | AcquireTest _ _ => 2 | AcquireUndoRead _ _ => 1 | AcquireUndo _ _ _ => 0
  | RelinquishRead _ _ => 2 | RelinquishWrite _ _ _ => 1 | RelinquishTest _ => 0
  | LimitWrite _ _ | UsedRead _ | LimitRead _ => 0
  end.
Lemma rrank_next l s s' l' : go resource_code l s = Next s' l' -> rrank l' < rrank l.
Proof.
  destruct l as [t n|t n u|t n|t n|t n u|t n|t n u|t|t n|t|t]; cbn [go resource_code rgo]; try discriminate;
    repeat match goal with |- context [match ?x with _ => _ end] => destruct x end; intros E; try discriminate; injection E as <- <-; cbn [rrank]; lia.
Qed.
Lemma rrank_begin c : rrank (begin resource_code c) < 5.
Proof. destruct c as [[]| |]; cbn; lia. Qed.
Lemma ralone c a : alone resource_code 5 (begin resource_code c) a = rseq a c.
Proof.
  destruct c as [[t n|t n|t n]|t|t]; cbn [begin resource_code rbegin]; [| |reflexivity|reflexivity|reflexivity].
  - unfold rseq, ResourceModel.step, AcquireWizardResource. destruct t; cbn [alone go resource_code rgo]; [reflexivity|..];
      match goal with |- context [if ?b then _ else _] => destruct b end; reflexivity.
  - unfold rseq, ResourceModel.step, RelinquishWizardResource. destruct t; cbn [alone go resource_code rgo bind]; [reflexivity|..];
      match goal with |- context [if ?b then _ else _] => destruct b end; reflexivity.
Qed.
Theorem resource_lawful : lawful resource_code rseq (fun _ => True) (fun _ _ => True) (fun _ _ => True).
Proof.
  constructor; auto; try discriminate.
  intros t c a l s _ _ _ RE.
  apply (body_alone resource_code rrank (fun _ => True)) with (c := c) (a := a) (n := 5); auto.
  - intros l1 s1 s' l' _ G. split; [exact I|]. eapply rrank_next; eauto.
  - apply rrank_begin.
  - apply ralone.
Qed.

(** ** splay-tree.c *)
Section Splay.
Variables (K : Type) (compare : K -> K -> Z) (by_pointer : bool).
Notation C := (splay_code K compare by_pointer).
Notation E := (E K). Notation Node := (Node K).

Lemma Splay_node key : forall t d p t', t <> E -> Splay K compare d key t = Some (p, t') -> t' <> E.
Proof.
  intros t d p t' N H. destruct t as [|l k v r]; [congruence|]. cbn [Splay] in H.
  destruct (compare k key =? 0)%Z; [injection H as _ <-; discriminate|]. destruct (MaxSplayTreeDepth <=? d); [discriminate|].
  destruct (0 <? compare k key)%Z.
  - destruct l as [|l1 k1 v1 r1]; [injection H as _ <-; discriminate|]. destruct (Splay K compare (S d) key _) as [[[] l']|]; [| | |discriminate]; injection H as _ <-; try discriminate;
      unfold rotate_left_side; repeat match goal with |- context [match ?x with _ => _ end] => destruct x end; discriminate.
  - destruct r as [|l1 k1 v1 r1]; [injection H as _ <-; discriminate|]. destruct (Splay K compare (S d) key _) as [[[] l']|]; [| | |discriminate]; injection H as _ <-; try discriminate;
      unfold rotate_right_side; repeat match goal with |- context [match ?x with _ => _ end] => destruct x end; discriminate.
Qed.
Lemma single_node p t : t <> E -> single_rotation K (p, t) <> E.
Proof. intros N. unfold single_rotation. repeat match goal with |- context [match ?x with _ => _ end] => destruct x end; try discriminate; exact N. Qed.
Lemma Link_node : forall n l a b t, LinkSplayTreeNodes K n l a b = Some t -> t <> E.
Proof.
  intros [|n] l a b t H; [discriminate|]. cbn [LinkSplayTreeNodes] in H. cbv zeta in H. destruct (nth_error _ _) as [[k v]|]; [|discriminate].
  repeat match type of H with context [match ?x with _ => _ end] => destruct x end; try discriminate; injection H as <-; discriminate.
Qed.
Lemma Balance_node n t t' : t <> E -> BalanceSplayTree K n t = Some t' -> t' <> E.
Proof.
  unfold BalanceSplayTree. intros N H. destruct (n <=? 2)%N; [congruence|]. destruct (IterateOverSplayTree K t); [|discriminate]. eapply Link_node; eauto.
Qed.
Lemma splayed s key s' : SplaySplayTree K compare by_pointer s key = Some s' ->
  (sp_root K s <> E -> sp_root K s' <> E) /\ sp_next K s' = sp_next K s /\ sp_nodes K s' = sp_nodes K s.
Proof.
  unfold SplaySplayTree. destruct (sp_root K s) as [|a k v b] eqn:Er.
  - intros H. injection H as <-. rewrite Er. auto.
  - destruct (match sp_key K s with Some _ => _ | None => _ end); [intros H; injection H as <-; rewrite Er; auto|].
    destruct (Splay K compare 0 key (Node a k v b)) as [[p t']|] eqn:S1.
    + intros H. injection H as <-. cbn [sp_root sp_next sp_nodes]. split; [|auto]. intros N. apply single_node. eapply Splay_node; eauto.
    + destruct (BalanceSplayTree K (sp_nodes K s) _) as [t|] eqn:B; [|discriminate]. destruct (Splay K compare 0 key t) as [[p t']|] eqn:S2; [|discriminate].
      intros H. injection H as <-. cbn [sp_root sp_next sp_nodes]. split; [|auto]. intros N. apply single_node. eapply Splay_node; [|exact S2]. eapply Balance_node; eauto.
Qed.

Notation tseq := (tseq K compare by_pointer). Notation adding := (adding K).
Definition has (c : tcall K) (s : SplayTreeInfo K) : Prop :=
  match c with
  | TGet _ _ => sp_root K s <> E
  | TNextKey _ | TNextValue _ => sp_root K s <> E /\ sp_next K s <> None
  | TCount _ => False
  | _ => True
  end.
Definition trank (l : tlocal K) : nat :=
  match l with
  | AddSplay _ _ _ _ => 2 | AddLink _ _ _ _ => 1 | AddCount _ => 0 | GetSplay _ _ => 1 | GetLook _ _ => 0
  | TakeSplay _ _ _ => 2 | TakeOut _ _ _ => 1 | TakeJoin _ _ _ _ => 0 | NextSplay _ _ => 1 | NextLook _ _ => 0 | Rewind _ | Empty _ => 0
  end.
Lemma trank_next l s s' l' : go C l s = Next s' l' -> trank l' < trank l.
Proof.
  destruct l; cbn [go splay_code tgo]; cbv zeta; try discriminate;
    repeat match goal with |- context [match ?x with _ => _ end] => destruct x end; intros H; try discriminate; injection H as <- <-; cbn [trank]; lia.
Qed.
Lemma trank_begin c : trank (begin C c) < 3.
Proof. destruct c; cbn; lia. Qed.

Lemma talone reader t c a : adding reader t c -> has c a -> alone C 3 (begin C c) a = tseq a c.
Proof.
  intros A N. destruct c as [mem k v|k|k|k| | | | |]; cbn [ThreadSpec.adding] in A; try contradiction; cbn [begin splay_code tbegin alone go tgo has] in *; unfold ThreadSpec.tseq; cbn [as_sop sstep].
  - unfold AddValueToSplayTree. destruct (SplaySplayTree K compare by_pointer a k) as [s|]; [|reflexivity]. cbn [tgo].
    destruct (sp_root K s) as [|x k' v' y]; [destruct mem; reflexivity|]. cbv zeta. destruct (compare k' k =? 0)%Z; [reflexivity|]. destruct mem; [|reflexivity]. cbn [negb]. destruct (compare k' k <? 0)%Z; reflexivity.
  - unfold GetValueFromSplayTree. destruct (sp_root K a) as [|x k' v' y] eqn:Er; [congruence|].
    destruct (SplaySplayTree K compare by_pointer a k) as [s|] eqn:Es; [|reflexivity]. cbn [tgo]. apply splayed in Es. destruct Es as [Es _].
    destruct (sp_root K s) as [|x1 k1 v1 y1] eqn:Er1; [exfalso; apply Es; [rewrite Er; discriminate|reflexivity]|]. cbn [out]. destruct (compare k1 k =? 0)%Z; reflexivity.
  - unfold GetNextKeyInSplayTree, NextNode. destruct N as [N N']. destruct (sp_root K a) as [|x k' v' y] eqn:Er; [congruence|]. destruct (sp_next K a) as [k|]; [|congruence].
    destruct (SplaySplayTree K compare by_pointer a k) as [s|] eqn:Es; [|reflexivity]. cbn [tgo]. apply splayed in Es. destruct Es as [Es _].
    destruct (sp_root K s) as [|x1 k1 v1 y1] eqn:Er1; [exfalso; apply Es; [rewrite Er; discriminate|reflexivity]|]. reflexivity.
  - unfold GetNextValueInSplayTree, NextNode. destruct N as [N N']. destruct (sp_root K a) as [|x k' v' y] eqn:Er; [congruence|]. destruct (sp_next K a) as [k|]; [|congruence].
    destruct (SplaySplayTree K compare by_pointer a k) as [s|] eqn:Es; [|reflexivity]. cbn [tgo]. apply splayed in Es. destruct Es as [Es _].
    destruct (sp_root K s) as [|x1 k1 v1 y1] eqn:Er1; [exfalso; apply Es; [rewrite Er; discriminate|reflexivity]|]. reflexivity.
  - reflexivity.
Qed.
Lemma check_has reader t c a : adding reader t c -> check C c a = None -> has c a.
Proof.
  intros A N. destruct c; cbn [ThreadSpec.adding has check splay_code tcheck] in *; auto; destruct (sp_root K a); try discriminate; destruct (sp_next K a); try discriminate; split; discriminate.
Qed.
Lemma check_not reader t c a r : adding reader t c -> check C c a = Some r -> ~ has c a.
Proof.
  intros A H. destruct c; cbn [ThreadSpec.adding has check splay_code tcheck] in *; auto; try discriminate; destruct (sp_root K a); try discriminate; auto; destruct (sp_next K a); try discriminate; intros [? ?]; congruence.
Qed.
Lemma not_has_seq reader t c a m r : adding reader t c -> check C c m = Some r -> sp_nodes K m = sp_nodes K a -> ~ has c a -> tseq a c = Some (a, r).
Proof.
  intros A H D N. destruct c as [mem k v|k|k|k| | | | |]; cbn [ThreadSpec.adding has] in *; try contradiction; try (exfalso; apply N; exact I); cbn [check splay_code tcheck] in H; unfold ThreadSpec.tseq; cbn [as_sop sstep].
  - unfold GetValueFromSplayTree. destruct (sp_root K a); [|exfalso; apply N; discriminate]. destruct (sp_root K m); [|discriminate]. injection H as <-. reflexivity.
  - unfold GetNextKeyInSplayTree, NextNode. assert (r = SKey K None) as ->. { destruct (_ || _); congruence. }
    destruct (sp_root K a); [reflexivity|]. destruct (sp_next K a); [|reflexivity]. exfalso. apply N. split; discriminate.
  - unfold GetNextValueInSplayTree, NextNode. assert (r = SVal K 0) as ->. { destruct (_ || _); congruence. }
    destruct (sp_root K a); [reflexivity|]. destruct (sp_next K a); [|reflexivity]. exfalso. apply N. split; discriminate.
  - unfold GetNumberOfNodesInSplayTree. congruence.
Qed.

(** the statements of calls that take nothing out *)
Definition keeps_root (l : tlocal K) : Prop := match l with TakeSplay _ _ _ | TakeOut _ _ _ | TakeJoin _ _ _ _ | Empty _ => False | _ => True end.
Definition keeps_next (l : tlocal K) : Prop := match l with TakeSplay _ _ _ | TakeOut _ _ _ | TakeJoin _ _ _ _ | Empty _ | NextSplay _ _ | NextLook _ _ => False | _ => True end.
Lemma first_some x k v y : first_key K (Node x k v y) <> None.
Proof. revert k v y. induction x as [|x1 IH k1 v1 y1 _]; intros k v y; [discriminate|]. exact (IH k1 v1 y1). Qed.
Lemma go_root l s : keeps_root l -> sp_root K s <> E ->
  match go C l s with Next s' l' => keeps_root l' /\ sp_root K s' <> E | Finish s' _ => sp_root K s' <> E | Crash => True end.
Proof.
  intros A N. destruct l as [mem k v|mem k v| |k|k|v k|v k|x y z|v|v| |]; cbn [keeps_root] in A; try contradiction; cbn [go splay_code tgo].
  - destruct (SplaySplayTree K compare by_pointer s k) eqn:Es; [|exact I]. apply splayed in Es. cbn. tauto.
  - destruct (sp_root K s) as [|x k' v' y] eqn:Er; [congruence|]. cbv zeta. destruct (compare k' k =? 0)%Z; [discriminate|]. destruct mem; cbn [negb]; [|rewrite Er; discriminate].
    destruct (compare k' k <? 0)%Z; (split; [exact I|discriminate]).
  - exact N.
  - destruct (SplaySplayTree K compare by_pointer s k) eqn:Es; [|exact I]. apply splayed in Es. cbn. tauto.
  - destruct (sp_root K s) eqn:Er; [exact I|]. rewrite Er. exact N.
  - destruct (sp_root K s) eqn:Er; [congruence|]. destruct (sp_next K s); [|exact I]. destruct (SplaySplayTree K compare by_pointer s k0) eqn:Es; [|exact I].
    apply splayed in Es. rewrite Er in Es. cbn. tauto.
  - destruct (sp_root K s) eqn:Er; [exact I|]. cbn [sp_root]. exact N.
  - exact N.
Qed.
Lemma go_next l s : keeps_next l -> sp_root K s <> E /\ sp_next K s <> None ->
  match go C l s with Next s' l' => keeps_next l' /\ sp_root K s' <> E /\ sp_next K s' <> None | Finish s' _ => sp_root K s' <> E /\ sp_next K s' <> None | Crash => True end.
Proof.
  intros A [N N']. pose proof (go_root l s) as G. destruct l as [mem k v|mem k v| |k|k|v k|v k|x y z|v|v| |]; cbn [keeps_next keeps_root] in *; try contradiction; specialize (G I N); cbn [go splay_code tgo] in *.
  - destruct (SplaySplayTree K compare by_pointer s k) eqn:Es; [|exact I]. apply splayed in Es. destruct Es as (_ & -> & _). tauto.
  - destruct (sp_root K s) as [|x k' v' y] eqn:Er; [congruence|]. cbv zeta in *. destruct (compare k' k =? 0)%Z; [split; [discriminate|exact N']|]. destruct mem; cbn [negb] in *; [|rewrite Er; split; [discriminate|exact N']].
    destruct (compare k' k <? 0)%Z; (split; [exact I|split; [discriminate|exact N']]).
  - split; [exact N|exact N'].
  - destruct (SplaySplayTree K compare by_pointer s k) eqn:Es; [|exact I]. apply splayed in Es. destruct Es as (_ & -> & _). tauto.
  - destruct (sp_root K s) eqn:Er; [exact I|]. rewrite Er. split; [exact N|exact N'].
  - unfold ResetSplayTreeIterator. cbn [sp_root sp_next]. split; [exact N|]. destruct (sp_root K s); [congruence|apply first_some].
Qed.
Lemma go_count l s : keeps_root l -> match go C l s with Next s' l' => sp_nodes K s' = sp_nodes K s | _ => True end.
Proof.
  intros A. destruct l as [mem k v|mem k v| |k|k|v k|v k|x y z|v|v| |]; cbn [keeps_root] in A; try contradiction; cbn [go splay_code tgo]; try exact I.
  - destruct (SplaySplayTree K compare by_pointer s k) eqn:Es; [|exact I]. apply splayed in Es. tauto.
  - destruct (sp_root K s) as [|x k' v' y] eqn:Er; [destruct mem; cbn; auto|]. cbv zeta. destruct (compare k' k =? 0)%Z; [exact I|]. destruct mem; cbn [negb]; [|exact I]. destruct (compare k' k <? 0)%Z; reflexivity.
  - destruct (SplaySplayTree K compare by_pointer s k) eqn:Es; [|exact I]. apply splayed in Es. tauto.
  - destruct (sp_root K s); exact I.
  - destruct (sp_root K s) eqn:Er; [reflexivity|]. destruct (sp_next K s); [|exact I]. destruct (SplaySplayTree K compare by_pointer s k0) eqn:Es; [|exact I]. apply splayed in Es. tauto.
  - destruct (sp_root K s); exact I.
Qed.
Lemma begin_root reader t c : adding reader t c -> keeps_root (begin C c).
Proof. destruct c; cbn; tauto. Qed.
Lemma begin_next reader t u c d : t <> u -> adding reader t c -> adding reader u d -> (c = TNextKey K \/ c = TNextValue K) -> keeps_next (begin C d).
Proof. intros D A B H. destruct d; cbn in *; auto; destruct H as [-> | ->]; cbn in A; congruence. Qed.
Lemma go_keeps_root l s s' l' : keeps_root l -> go C l s = Next s' l' -> keeps_root l'.
Proof.
  intros A G. destruct l; cbn [keeps_root] in A; try contradiction; cbn [go splay_code tgo] in G;
    repeat match type of G with context [match ?x with _ => _ end] => destruct x end; try discriminate; injection G as <- <-; exact I.
Qed.
Lemma go_keeps_next l s s' l' : keeps_next l -> go C l s = Next s' l' -> keeps_next l'.
Proof.
  intros A G. destruct l; cbn [keeps_next] in A; try contradiction; cbn [go splay_code tgo] in G;
    repeat match type of G with context [match ?x with _ => _ end] => destruct x end; try discriminate; injection G as <- <-; exact I.
Qed.
Lemma reaches_root d a l s : keeps_root (begin C d) -> reaches C d a l s -> keeps_root l.
Proof. intros A RE. induction RE as [|l s s' l' RE IH G]; [exact A|]. eapply go_keeps_root; eauto. Qed.
Lemma reaches_count d a l s : keeps_root (begin C d) -> reaches C d a l s -> sp_nodes K s = sp_nodes K a.
Proof.
  intros A RE. induction RE as [|l s s' l' RE IH G]; [reflexivity|]. pose proof (go_count l s (reaches_root _ _ _ _ A RE)) as H. rewrite G in H. congruence.
Qed.

(** what a call may rely on is kept by the statements of others *)
Definition kept_by (c : tcall K) (l : tlocal K) : Prop := match c with TNextKey _ | TNextValue _ => keeps_next l | _ => keeps_root l end.
Lemma go_has c l s : kept_by c l -> has c s -> match go C l s with Next s' l' => kept_by c l' /\ has c s' | Finish s' _ => has c s' | Crash => True end.
Proof.
  intros A H. pose proof (go_root l s) as G1. pose proof (go_next l s) as G2.
  destruct c; cbn [kept_by has] in *; try contradiction; try (apply G1; assumption); try (apply G2; assumption);
    destruct (go C l s) as [s' l'|s' r|] eqn:G; auto; split; auto;
    (eapply go_keeps_root; [exact A|exact G]).
Qed.
Lemma kept_next c l s s' l' : kept_by c l -> go C l s = Next s' l' -> kept_by c l'.
Proof. intros A G. destruct c; cbn [kept_by] in *; (eapply go_keeps_root || eapply go_keeps_next); eauto. Qed.
Lemma kept_begin reader t u c d : t <> u -> adding reader t c -> adding reader u d -> kept_by c (begin C d).
Proof. intros D A B. destruct c; cbn [kept_by]; try (eapply begin_root; exact B); eapply (begin_next reader t u); eauto. Qed.

Theorem splay_lawful reader : lawful C tseq (fun _ => True) (adding reader) has.
Proof.
  assert (RK : forall l s s' l', True -> go C l s = Next s' l' -> True /\ trank l' < trank l).
  { intros l s s' l' _ G. split; [exact I|]. eapply trank_next; eauto. }
  constructor.
  - reflexivity.
  - auto.
  - intros t c a r _ A H. eapply not_has_seq; eauto. eapply check_not; eauto.
  - intros t c a _ A H. eapply check_has; eauto.
  - intros t c a l s _ A H RE. apply (body_alone C trank (fun _ => True) RK) with (c := c) (a := a) (n := 3); auto.
    + apply trank_begin.
    + eapply talone; eauto.
  - intros t u c d a l s r _ D A B H RE CK. eapply not_has_seq; eauto.
    + eapply reaches_count; eauto. eapply begin_root; eauto.
    + intros HA. apply (check_not _ _ _ _ _ A CK). exact (proj2 (reaches_keeps C (has c) (kept_by c) d a (go_has c) (kept_begin _ _ _ _ _ D A B) HA _ _ RE)).
  - intros t u c d a l s s' r _ D A B H RE CK SQ. pose proof (check_has _ _ _ _ A CK) as HS.
    rewrite <- (talone _ _ _ _ B H) in SQ.
    destruct (reaches_alone C trank (fun _ => True) RK d a l s 3 I RE (trank_begin d)) as (_ & _ & EQ). rewrite EQ in SQ.
    eapply (alone_keeps C (has c) (kept_by c) (go_has c)); [|exact HS|exact SQ].
    clear - RE D A B. pose proof (kept_begin _ _ _ _ _ D A B) as KB. induction RE as [|l s s' l' RE IH G]; [exact KB|]. eapply kept_next; eauto.
  - intros t u c d a s' r _ D A B HA SQ.
    destruct (check C d a) as [x|] eqn:CK.
    + assert (NH := check_not _ _ _ _ _ B CK). rewrite (not_has_seq _ _ _ _ _ _ B CK eq_refl NH) in SQ. injection SQ as <- <-. exact HA.
    + rewrite <- (talone _ _ _ _ B (check_has _ _ _ _ B CK)) in SQ. eapply (alone_keeps C (has c) (kept_by c) (go_has c)); [|exact HA|exact SQ]. eapply kept_begin; eauto.
Qed.
End Splay.
