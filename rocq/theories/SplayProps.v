(** Properties of wizard/splay-tree.c (C38, C39, C40, C66, C67). *)
From Coq Require Import NArith ZArith Arith List Bool Lia Sorting Permutation ZifyBool ZifyNat ZifyN.
From Verif Require Import SplayModel SplaySpec SplayProof SplayProof2.
Import ListNotations.

(** C38: any history of calls on a new tree runs to its end, and every answer is
    that of a finite map whose keys are compared by the compare method; in the
    end the tree lists exactly the bindings of that map *)
Theorem splay_tree_is_a_finite_map : forall (K : Type) (compare : K -> K -> Z) (by_pointer : bool) (ops : list (sop K)),
  order K compare -> (N.of_nat (length ops) < 2 ^ 1024)%N ->
  exists s rs f l, srun K compare by_pointer (NewSplayTree K) ops = Some (s, rs) /\
    fm_run K compare (fm_empty K) ops rs f /\
    IterateOverSplayTree K (sp_root K s) = Some l /\ bindings K compare f l.
Proof.
  intros K compare bp ops O B. destruct (run_ok K compare bp O ops _ _ (new_inv K compare) B) as (s & rs & l & E1 & I1 & _ & R).
  exists s, rs, (amap K compare l), l. split; [exact E1|]. split; [exact R|]. split.
  - rewrite IterateOverSplayTree_ok. f_equal. apply I1.
  - apply amap_bindings; [exact O | apply I1].
Qed.
Print Assumptions splay_tree_is_a_finite_map.

Definition zcompare (x y : Z) : Z := (x - y)%Z.
Lemma zorder : order Z zcompare.
Proof. split; unfold zcompare; intros; lia. Qed.
Definition sample : list (sop Z) :=
  [SAdd Z true 5 50; SAdd Z true 3 30; SAdd Z true 9 90; SAdd Z true 3 31; SGet Z 3; SGet Z 4; SAdd Z false 4 40;
   SCount Z; SRemove Z 5; SDelete Z 5; SAdd Z true 1 90; SRemoveValue Z 90; SDeleteValue Z 90; SCount Z; SGet Z 3]%Z.
Example splay_sample_hypotheses : order Z zcompare /\ (N.of_nat (length sample) < 2 ^ 1024)%N.
Proof. split; [exact zorder | reflexivity]. Qed.
Example splay_sample_answers : option_map snd (srun Z zcompare false (NewSplayTree Z) sample) =
  Some [SBool Z true; SBool Z true; SBool Z true; SBool Z true; SVal Z 31; SVal Z 0; SBool Z false;
        SVal Z 3; SVal Z 50; SBool Z false; SBool Z true; SKey Z (Some 1%Z); SBool Z true; SVal Z 1; SVal Z 31].
Proof. vm_compute. reflexivity. Qed.

(** the map a history leads to is determined by the answers' specification:
    two listings of one map are equal *)
Theorem splay_bindings_unique : forall (K : Type) (compare : K -> K -> Z) (f : fmap K) (l l' : list (K * N)),
  order K compare -> bindings K compare f l -> bindings K compare f l' -> l = l'.
Proof.
  intros K compare f l l' O [S1 B1] [S2 B2].
  assert (M : forall e, In e l <-> In e l').
  { intros e. specialize (B1 (fst e) e). specialize (B2 (fst e) e). pose proof (cmp_refl K compare O (fst e)). tauto. }
  clear B1 B2. revert l' S2 M. induction l as [|e l IH]; intros [|e' l'] S2 M; [reflexivity | exfalso; apply (M e'); now left | exfalso; apply (M e); now left|].
  apply StronglySorted_inv in S1, S2. destruct S1 as [S1 F1], S2 as [S2 F2]. rewrite Forall_forall in F1, F2.
  assert (asym : forall x y, before K compare x y -> before K compare y x -> False).
  { intros x y X Y. unfold before in *. pose proof (cmp_sign K compare O (fst x) (fst y)). lia. }
  assert (e = e') as <-.
  { destruct (proj1 (M e) (or_introl eq_refl)) as [X|X]; [now symmetry|]. destruct (proj2 (M e') (or_introl eq_refl)) as [Y|Y]; [exact Y|].
    destruct (asym e e'); auto. }
  f_equal. apply IH; [exact S1 | exact S2|]. intros x. split; intros I.
  - destruct (proj1 (M x) (or_intror I)) as [<-|Y]; [|exact Y]. destruct (asym e e); auto.
  - destruct (proj2 (M x) (or_intror I)) as [<-|Y]; [|exact Y]. destruct (asym e e); auto.
Qed.
Print Assumptions splay_bindings_unique.

(** C39: after any history, ResetSplayTreeIterator() and then any sequence of
    reading calls: GetNextKeyInSplayTree() and GetNextValueInSplayTree() return
    the bindings in ascending order, each once, and then NULL, whatever lookups
    are made in between *)
Theorem splay_iteration_sorted_complete : forall (K : Type) (compare : K -> K -> Z) (by_pointer : bool) (ops reads : list (sop K)),
  order K compare -> (N.of_nat (length ops) < 2 ^ 1024)%N -> forallb (reading K) reads = true ->
  exists s rs f l s', srun K compare by_pointer (NewSplayTree K) ops = Some (s, rs) /\
    fm_run K compare (fm_empty K) ops rs f /\ bindings K compare f l /\
    srun K compare by_pointer s (SResetIterator K :: reads) = Some (s', SUnit K :: answers K f (N.of_nat (length l)) l reads).
Proof.
  intros K compare bp ops reads O B Hr. destruct (run_ok K compare bp O ops _ _ (new_inv K compare) B) as (s & rs & l & E1 & I1 & Ln & R).
  assert (F : fits K l) by (unfold fits; cbn [length] in Ln; generalize dependent (2 ^ 1024)%N; intros; lia).
  destruct (reading_ok K compare bp O l F reads (ResetSplayTreeIterator K s) [] l) as (s' & E2 & _); [exact I1 | reflexivity | | exact Hr |].
  { cbn [ResetSplayTreeIterator sp_next]. rewrite first_key_ok. f_equal. apply I1. }
  exists s, rs, (amap K compare l), l, s'. split; [exact E1|]. split; [exact R|]. split; [apply amap_bindings; [exact O | apply I1]|].
  cbn [srun sstep]. now rewrite E2.
Qed.
Print Assumptions splay_iteration_sorted_complete.

Example splay_iteration_sample : option_map snd (srun Z zcompare true (NewSplayTree Z)
  ([SAdd Z true 5 50; SAdd Z true 3 30; SAdd Z true 9 90; SAdd Z true 7 70] ++
   SResetIterator Z :: [SNextKey Z; SGet Z 9; SNextKey Z; SGet Z 1; SNextValue Z; SNextKey Z; SNextKey Z])%Z) =
  Some ([SBool Z true; SBool Z true; SBool Z true; SBool Z true] ++
    SUnit Z :: [SKey Z (Some 3); SVal Z 90; SKey Z (Some 5); SVal Z 0; SVal Z 70; SKey Z (Some 9); SKey Z None])%Z.
Proof. vm_compute. reflexivity. Qed.

(** C40: rebalancing keeps the contents and leaves a tree of logarithmic height *)
Theorem splay_balance_depth : forall (K : Type) (compare : K -> K -> Z) (by_pointer : bool) (ops : list (sop K)) s rs,
  order K compare -> (N.of_nat (length ops) < 2 ^ 1024)%N ->
  srun K compare by_pointer (NewSplayTree K) ops = Some (s, rs) -> 2 < size K (sp_root K s) ->
  exists t, BalanceSplayTree K (sp_nodes K s) (sp_root K s) = Some t /\
    IterateOverSplayTree K t = IterateOverSplayTree K (sp_root K s) /\
    height K t <= Nat.log2 (size K (sp_root K s)) + 1.
Proof.
  intros K compare bp ops s rs O B Hs Hn. destruct (run_ok K compare bp O ops _ _ (new_inv K compare) B) as (s1 & rs1 & l & E1 & I1 & _ & _).
  rewrite Hs in E1. injection E1 as <- <-. destruct I1 as (Ei & _ & En & _).
  destruct (Balance_ok K (sp_root K s) Hn) as (t & Eb & Et & Hh). exists t.
  rewrite En, <- Ei, inorder_length. split; [exact Eb|]. split; [|exact Hh]. rewrite !IterateOverSplayTree_ok. now f_equal.
Qed.
Print Assumptions splay_balance_depth.
(** and no history ends in the fatal error of SplaySplayTree() *)
Theorem splay_never_fatal : forall (K : Type) (compare : K -> K -> Z) (by_pointer : bool) (ops : list (sop K)),
  order K compare -> (N.of_nat (length ops) < 2 ^ 1024)%N -> srun K compare by_pointer (NewSplayTree K) ops <> None.
Proof.
  intros K compare bp ops O B. destruct (splay_tree_is_a_finite_map K compare bp ops O B) as (s & rs & f & l & -> & _). discriminate.
Qed.
Print Assumptions splay_never_fatal.
(** a search in a tree of height at most MaxSplayTreeDepth is not too deep, and
    one in a taller tree can be *)
Theorem splay_depth_limit : forall (K : Type) (compare : K -> K -> Z) key (t : tree K),
  height K t <= MaxSplayTreeDepth -> Splay K compare 0 key t <> None.
Proof. intros K compare key t H. apply Splay_total. lia. Qed.
Print Assumptions splay_depth_limit.

(** ascending insertion builds a chain; 1100 of them make a later search for
    the least key too deep, so that the tree is rebalanced *)
Fixpoint ascending (n : nat) (k : Z) : list (sop Z) :=
  match n with O => [] | S n => SAdd Z true k 1 :: ascending n (k + 1)%Z end.
Example splay_rebalances : 
  match srun Z zcompare false (NewSplayTree Z) (ascending 1100 0) with
  | Some (s, _) => (1024 <? height Z (sp_root Z s)) && match Splay Z zcompare 0 (-1)%Z (sp_root Z s) with None => true | Some _ => false end &&
      match GetValueFromSplayTree Z zcompare false s 0%Z with Some (s, v) => (v =? 1)%N && (height Z (sp_root Z s) <=? 13) | None => false end
  | None => false
  end = true.
Proof. vm_compute. reflexivity. Qed.

(** C66: freeing visits every node of any tree exactly once *)
Theorem splay_free_once : forall (K : Type) (t : tree K),
  exists o l, free_order K t = Some o /\ IterateOverSplayTree K t = Some l /\ Permutation o l.
Proof.
  intros K t. destruct t as [|l k v r] eqn:Et; [exists [], []; repeat split; constructor|]. rewrite <- Et.
  destruct (free_loop_ok K (2 * size K t + 1) [t] []) as (o & E1 & P); [constructor; [subst t; discriminate | constructor] | constructor | cbn [map list_sum fold_right]; lia|].
  exists o, (inorder K t). split; [unfold free_order; rewrite Et at 1; exact E1|]. split; [apply IterateOverSplayTree_ok|].
  cbn [flat_map] in P. rewrite !app_nil_r in P. exact P.
Qed.
Print Assumptions splay_free_once.
Example splay_free_sample :
  match srun Z zcompare false (NewSplayTree Z) [SAdd Z true 5 50; SAdd Z true 3 30; SAdd Z true 9 90; SAdd Z true 7 70]%Z with
  | Some (s, _) => free_order Z (sp_root Z s) = Some [(7, 70%N); (9, 90%N); (5, 50%N); (3, 30%N)]%Z
  | None => False
  end.
Proof. vm_compute. reflexivity. Qed.

(** C67: CloneSplayTree() with monotone clone methods leaves the contents of the
    original and makes a tree with the cloned bindings, on which any further
    history behaves like the finite map of these bindings *)
Theorem splay_clone : forall (K : Type) (compare : K -> K -> Z) (by_pointer : bool) (ops : list (sop K)) s rs (ck : K -> K) (cv : N -> N),
  order K compare -> (N.of_nat (length ops) < 2 ^ 1024)%N -> (forall a b, compare a b < 0 -> compare (ck a) (ck b) < 0)%Z ->
  srun K compare by_pointer (NewSplayTree K) ops = Some (s, rs) ->
  exists s' clone l, CloneSplayTree K compare by_pointer ck cv (fun _ => true) s = Some (s', clone) /\
    IterateOverSplayTree K (sp_root K s) = Some l /\ IterateOverSplayTree K (sp_root K s') = Some l /\
    sp_next K s' = sp_next K s /\ sp_nodes K s' = sp_nodes K s /\
    IterateOverSplayTree K (sp_root K clone) = Some (map (fun e => (ck (fst e), cv (snd e))) l) /\
    sp_nodes K clone = N.of_nat (length l) /\ sp_next K clone = None /\
    (forall more, (N.of_nat (length l + length more) < 2 ^ 1024)%N ->
      exists f s2 rs2 f2, bindings K compare f (map (fun e => (ck (fst e), cv (snd e))) l) /\
        srun K compare by_pointer clone more = Some (s2, rs2) /\ fm_run K compare f more rs2 f2).
Proof.
  intros K compare bp ops s rs ck cv O B Mono Hs. destruct (run_ok K compare bp O ops _ _ (new_inv K compare) B) as (s1 & rs1 & l & E1 & I1 & Ln & _).
  rewrite Hs in E1. injection E1 as <- <-.
  assert (F : fits K l) by (unfold fits; cbn [length] in Ln; generalize dependent (2 ^ 1024)%N; intros; lia).
  pose proof I1 as (Ei & _ & En & _).
  destruct (clone_ok K compare bp O ck cv Mono l (size K (sp_root K s)) s [] (NewSplayTree K) I1 F) as (s' & clone & Ec & I2 & Nx & I3).
  { rewrite <- Ei, inorder_length. lia. }
  { apply new_inv. }
  cbn [app] in *. exists s', clone, l. unfold CloneSplayTree. rewrite first_key_ok, Ei. split; [exact Ec|].
  rewrite !IterateOverSplayTree_ok. split; [now f_equal|]. split; [f_equal; apply I2|]. split; [exact Nx|].
  split; [rewrite En; apply I2|]. split; [f_equal; apply I3|]. pose proof I3 as (_ & S3 & N3 & _).
  split; [rewrite N3, map_length; reflexivity|].
  assert (NxC : forall fuel s next c s' c', clone_loop K compare bp fuel ck cv (fun _ => true) s next c = Some (s', c') -> sp_next K c = None -> sp_next K c' = None).
  { clear. intros fuel. induction fuel as [|fuel IH]; intros s next c s' c' H Hc; destruct next as [key|]; cbn [clone_loop] in H; try (injection H as <- <-; exact Hc); try discriminate H.
    destruct (SplaySplayTree K compare bp s key) as [s1|]; [|discriminate H]. destruct (sp_root K s1) as [|a k v b]; [discriminate H|].
    destruct (AddValueToSplayTree K compare bp true c (ck k) (cv v)) as [[c1 ?]|] eqn:Ea; [|discriminate H]. apply IH in H; [exact H|].
    assert (Sp : forall c key c2, SplaySplayTree K compare bp c key = Some c2 -> sp_next K c2 = sp_next K c).
    { clear. intros c key c2 H. unfold SplaySplayTree in H. destruct (sp_root K c) as [|? ? ? ?]; [now injection H as <-|].
      destruct (match sp_key K c with Some sk => _ | None => false end); [now injection H as <-|].
      destruct (Splay _ _ _ _ _) as [?|]; [now injection H as <-|]. destruct (BalanceSplayTree _ _ _) as [?|]; [|discriminate H].
      destruct (Splay _ _ _ _ _) as [?|]; [now injection H as <-|discriminate H]. }
    unfold AddValueToSplayTree in Ea. destruct (SplaySplayTree K compare bp c (ck k)) as [c2|] eqn:E2; [|discriminate Ea]. apply Sp in E2.
    destruct (sp_root K c2) as [|? k2 ? ?]; [injection Ea as <- <-; cbn [sp_next]; congruence|].
    destruct (compare k2 (ck k) =? 0)%Z; [injection Ea as <- <-; cbn [sp_next]; congruence|]. cbn [negb] in Ea.
    destruct (compare k2 (ck k) <? 0)%Z; injection Ea as <- <-; cbn [sp_next]; congruence. }
  split; [eapply NxC; [exact Ec | reflexivity]|].
  intros more Bm. destruct (run_ok K compare bp O more clone _ I3) as (s2 & rs2 & l2 & E2 & _ & _ & R2); [now rewrite map_length|].
  eexists _, s2, rs2, _. split; [apply amap_bindings; [exact O | exact S3]|]. split; [exact E2 | exact R2].
Qed.
Print Assumptions splay_clone.
Example splay_clone_sample :
  match srun Z zcompare false (NewSplayTree Z) [SAdd Z true 5 50; SAdd Z true 3 30; SAdd Z true 9 90]%Z with
  | Some (s, _) => match CloneSplayTree Z zcompare false (fun k => k + 100)%Z (fun v => v + 1)%N (fun _ => true) s with
                   | Some (_, c) => IterateOverSplayTree Z (sp_root Z c) = Some [(103, 31%N); (105, 51%N); (109, 91%N)]%Z
                   | None => False
                   end
  | None => False
  end.
Proof. vm_compute. reflexivity. Qed.
