(** Properties of objects that threads share (C240 ...). *)
From Coq Require Import ZArith NArith Bool Arith Lia List.
From Verif Require Import Base Outcome HashModel HmacModel SplayModel SplaySpec SplayProof2 SplayProps ResourceModel RandomModel RandomSpec RandomProps
  ThreadModel ThreadSpec ThreadProof ThreadObjects ThreadRandom.
Import ListNotations.

(** what holds of every order of the steps of the threads *)
Definition in_order {S C L R : Type} (P : code S C L R) (seq : S -> C -> option (S * R)) (s0 : S) (f : nat -> list C) : Prop :=
  linearizable P seq s0 f /\ crashes_sequentially P seq s0 f /\ progress P s0 f.

Lemma growth {C R : Type} (log : list nat -> list (nat * C * R)) (good : list nat -> Prop) : log [] = [] ->
  (forall ts t, good (ts ++ [t]) -> good ts /\ (log (ts ++ [t]) = log ts \/ exists c r, log (ts ++ [t]) = log ts ++ [(t, c, r)])) ->
  forall ts, good ts -> length (log ts) <= length ts.
Proof.
  intros L0 H ts. induction ts as [|t ts IH] using rev_ind; intros G; [rewrite L0; cbn; lia|]. destruct (H _ _ G) as [G' E]. specialize (IH G').
  rewrite app_length. cbn [length]. destruct E as [->|(c & r & ->)]; [lia|]. rewrite app_length. cbn [length]. lia.
Qed.
Lemma explained {S C L R : Type} (P : code S C L R) seq s0 f ts m : linearizable P seq s0 f -> steps P ts (start s0 f) = Some m ->
  exists log s, history seq s0 log s /\ length log <= length ts /\ (owner m = None -> shared m = s) /\ forall t, mine t log = done_ (threads m t).
Proof.
  intros (log & L0 & G & H) ST. destruct (H _ _ ST) as (s & HH & HO & HM). exists (log ts), s. split; [exact HH|]. split; [|auto].
  apply (growth log (fun ts => exists m, steps P ts (start s0 f) = Some m) L0); [|eauto]. intros ts' t (m' & ST'). destruct (steps_snoc _ _ _ _ _ ST') as (m1 & S1 & _).
  split; [eauto|eapply G; eauto].
Qed.

(** ** resource.c *)
(** C240: calls of the functions of resource.c by any number of threads take effect one after the other, whatever the
    order of their loads, stores and tests; there is no deadlock and a call takes at most 8 steps *)
Theorem resource_threads : forall s0 f, in_order resource_code rseq s0 f /\ bounded resource_code 8 s0 f.
Proof.
  intros s0 f. assert (A : forall t, Forall (fun _ : rcall => True) (f t)) by (intros t; apply Forall_forall; auto).
  split; [split; [|split]|].
  - eapply in_some_order; [exact resource_lawful|exact I|exact A].
  - eapply only_sequential_crashes; [exact resource_lawful|exact I|exact A].
  - eapply no_deadlock; [exact resource_lawful|exact I|exact A].
  - exact (steps_bounded resource_code rrank 5 rrank_begin rrank_next s0 f).
Qed.
Print Assumptions resource_threads.

(** so that what is proved of histories of calls (C26-C29) holds of threads *)
Definition counted (c : rcall) : list call := match c with RCall c => [c] | _ => [] end.
Definition answered (r : rresult) : list bool := match r with RBool b => [b] | _ => [] end.
Theorem resource_threads_run : forall s0 f ts m, steps resource_code ts (start s0 f) = Some m -> owner m = None ->
  exists log, (forall t, mine t log = done_ (threads m t)) /\
    run s0 (flat_map counted (calls_of log)) = Ok (shared m, flat_map answered (results_of log)).
Proof.
  intros s0 f ts m ST O. destruct (explained _ _ _ _ _ _ (proj1 (proj1 (resource_threads s0 f))) ST) as (log & s & HH & _ & HS & HM).
  exists log. split; [exact HM|]. rewrite (HS O). clear - HH. induction HH as [s|s t c r s' log s'' E HH IH]; [reflexivity|].
  unfold calls_of, results_of in *. cbn [map fst snd flat_map]. unfold rseq in E. destruct c as [c|t'|t'].
  - cbn [counted app run]. destruct (ResourceModel.step s c) as [[s1 b]| |]; try discriminate. injection E as <- <-. cbn [bind]. cbn [answered app]. rewrite IH. reflexivity.
  - injection E as <- <-. exact IH.
  - injection E as <- <-. exact IH.
Qed.
Print Assumptions resource_threads_run.

(** two threads that acquire memory at the same time: both amounts are counted *)
Definition two {C : Type} (a b : list C) (t : nat) : list C := match t with 0 => a | 1 => b | _ => [] end.
Example resource_two : option_map (fun m => (memory (shared m), got (threads m 0), got (threads m 1)))
  (steps resource_code [0; 1; 0; 0; 0; 0; 0; 1; 1; 1; 1; 1] (start initial (two [RCall (Acquire MemoryResource 5)] [RCall (Acquire MemoryResource 7)]))) =
  Some (12%Z, [(RCall (Acquire MemoryResource 5), RBool true)], [(RCall (Acquire MemoryResource 7), RBool true)]).
Proof. vm_compute. reflexivity. Qed.
(** the second has to wait while the first has the lock *)
Example resource_waits : steps resource_code [0; 1; 0; 0; 1] (start initial (two [RCall (Acquire MemoryResource 5)] [RCall (Acquire MemoryResource 7)])) = None.
Proof. reflexivity. Qed.

(** ** splay-tree.c *)
(** C241: the same for a tree, with any compare method and from any state, as long as nothing is taken out and one thread
    walks through it *)
Theorem splay_threads : forall (K : Type) (compare : K -> K -> Z) (by_pointer : bool) walker s0 f, (forall t, Forall (adding K walker t) (f t)) ->
  in_order (splay_code K compare by_pointer) (tseq K compare by_pointer) s0 f /\ bounded (splay_code K compare by_pointer) 6 s0 f.
Proof.
  intros K compare bp walker s0 f A. split; [split; [|split]|].
  - eapply in_some_order; [exact (splay_lawful K compare bp walker)|exact I|exact A].
  - eapply only_sequential_crashes; [exact (splay_lawful K compare bp walker)|exact I|exact A].
  - eapply no_deadlock; [exact (splay_lawful K compare bp walker)|exact I|exact A].
  - exact (steps_bounded (splay_code K compare bp) (trank K) 3 (trank_begin K compare bp) (trank_next K compare bp) s0 f).
Qed.
Print Assumptions splay_threads.

Lemma history_srun K compare bp s log s' : history (tseq K compare bp) s log s' -> srun K compare bp s (map (as_sop K) (calls_of log)) = Some (s', results_of log).
Proof.
  unfold calls_of, results_of. induction 1 as [s|s t c r s' log s'' E HH IH]; [reflexivity|]. cbn [map fst snd srun]. unfold tseq in E. rewrite E, IH. reflexivity.
Qed.

(** a new tree with a consistent compare method: no thread crashes, and the results are those of a finite map *)
Theorem splay_threads_map : forall (K : Type) (compare : K -> K -> Z) (by_pointer : bool) walker f ts m,
  order K compare -> (forall t, Forall (adding K walker t) (f t)) -> (N.of_nat (S (length ts)) < 2 ^ 1024)%N ->
  steps (splay_code K compare by_pointer) ts (start (NewSplayTree K) f) = Some m ->
  (forall t, ~ crashes (splay_code K compare by_pointer) t m) /\
  exists log g, (forall t, mine t log = done_ (threads m t)) /\ fm_run K compare (fm_empty K) (map (as_sop K) (calls_of log)) (results_of log) g /\
    (owner m = None -> exists l, IterateOverSplayTree K (sp_root K (shared m)) = Some l /\ bindings K compare g l).
Proof.
  intros K compare bp walker f ts m O A B ST. destruct (splay_threads K compare bp walker (NewSplayTree K) f A) as [[LI [CR _]] _]. split.
  - intros t CS. destruct (CR _ _ _ ST CS) as (log & s & c & HH & LE & _ & _ & SQ). apply history_srun in HH.
    destruct (splay_tree_is_a_finite_map K compare bp (map (as_sop K) (calls_of log) ++ [as_sop K c]) O) as (s' & rs & g & l & E & _).
    { rewrite app_length, map_length. unfold calls_of. rewrite map_length. cbn [length]. generalize dependent (2 ^ 1024)%N. intros; lia. }
    assert (APP : forall a b s0, srun K compare bp s0 (a ++ [b]) = match srun K compare bp s0 a with
        | Some (s1, rs1) => match sstep K compare bp s1 b with Some (s2, r2) => Some (s2, rs1 ++ [r2]) | None => None end | None => None end).
    { induction a as [|x a IH]; intros b s1; cbn [srun app]; [destruct (sstep K compare bp s1 b) as [[? ?]|]; reflexivity|].
      destruct (sstep K compare bp s1 x) as [[s2 r2]|]; [|reflexivity]. rewrite IH. destruct (srun K compare bp s2 a) as [[s3 r3]|]; [|reflexivity].
      destruct (sstep K compare bp s3 b) as [[? ?]|]; reflexivity. }
    rewrite APP, HH in E. unfold tseq in SQ. rewrite SQ in E. discriminate.
  - destruct (explained _ _ _ _ _ _ LI ST) as (log & s & HH & LE & HS & HM). apply history_srun in HH.
    destruct (splay_tree_is_a_finite_map K compare bp (map (as_sop K) (calls_of log)) O) as (s' & rs & g & l & E & R & IT & BI).
    { rewrite map_length. unfold calls_of. rewrite map_length. generalize dependent (2 ^ 1024)%N. intros; lia. }
    rewrite HH in E. injection E as <- <-. exists log, g. split; [exact HM|]. split; [exact R|]. intros OW. rewrite (HS OW). eauto.
Qed.
Print Assumptions splay_threads_map.

Notation tree_code := (splay_code Z zcompare false).
Definition run_two (a b : list (tcall Z)) (ts : list nat) (s : SplayTreeInfo Z) := steps tree_code ts (start s (two a b)).
(** one thread adds what the other looks up; the lookup that comes first does not wait and finds nothing *)
Example splay_two : option_map (fun m => (got (threads m 0), got (threads m 1)))
  (run_two [TAdd Z true 5%Z 50] [TGet Z 5%Z; TGet Z 5%Z] [0; 0; 0; 1; 0; 1; 0; 0; 1; 1; 1; 1] (NewSplayTree Z)) =
  Some ([(TAdd Z true 5%Z 50, SBool Z true)], [(TGet Z 5%Z, SVal Z 0); (TGet Z 5%Z, SVal Z 50)]).
Proof. vm_compute. reflexivity. Qed.

(** ** C242: with removals the look without the lock is not enough *)
Definition one_node : SplayTreeInfo Z := mkSplay Z (Node Z (E Z) 5%Z 50 (E Z)) None (Some 5%Z) 1.
Definition two_nodes : SplayTreeInfo Z := mkSplay Z (Node Z (Node Z (E Z) 3%Z 30 (E Z)) 5%Z 50 (E Z)) None (Some 3%Z) 2.
(** the last node is removed between the look and the lock: NULL is dereferenced, although no call ends the process when
    the calls are made one after the other *)
Theorem splay_get_removed_refuted : exists ts m, run_two [TGet Z 5%Z] [TRemove Z 5%Z] ts one_node = Some m /\ crashes tree_code 0 m /\
  ~ crashes_sequentially tree_code (tseq Z zcompare false) one_node (two [TGet Z 5%Z] [TRemove Z 5%Z]).
Proof.
  destruct (run_two [TGet Z 5%Z] [TRemove Z 5%Z] [0; 1; 1; 1; 1; 1; 1; 0; 0] one_node) as [m|] eqn:ST; [|vm_compute in ST; discriminate].
  exists [0; 1; 1; 1; 1; 1; 1; 0; 0], m. split; [exact ST|].
  assert (CR : crashes tree_code 0 m). { vm_compute in ST. injection ST as <-. exists (TGet Z 5%Z), (GetLook Z 5%Z). split; reflexivity. }
  split; [exact CR|]. intros H. destruct (H _ _ _ ST CR) as (log & s & c & HH & _ & HM & (l & At) & SQ).
  vm_compute in ST. injection ST as <-. cbn in At. injection At as <- <-. unfold tseq in SQ. cbn [as_sop sstep] in SQ.
  assert (sp_root Z s = E Z).
  { destruct log as [|[[u c] r] log].
    - specialize (HM 1). discriminate HM.
    - inversion HH as [|? ? ? ? s1 ? ? E1 HH1]; subst. pose proof (HM u) as HU. cbn [mine] in HU. rewrite Nat.eqb_refl in HU.
      destruct u as [|[|u]]; [discriminate HU| |discriminate HU]. injection HU as -> -> HU.
      vm_compute in E1. injection E1 as <-. destruct log as [|[[u c] r] log]; [inversion HH1; subst; reflexivity|].
      pose proof (HM u) as HV. cbn [mine] in HV. rewrite Nat.eqb_refl in HV. destruct u as [|[|u]]; discriminate HV. }
  unfold GetValueFromSplayTree in SQ. rewrite H0 in SQ. discriminate.
Qed.
Print Assumptions splay_get_removed_refuted.
(** while a node is taken out the root is NULL for a while: a key that is there all the time is not found *)
Theorem splay_get_missed_refuted : exists ts m, run_two [TGet Z 5%Z] [TDelete Z 3%Z] ts two_nodes = Some m /\ owner m = None /\
  got (threads m 0) = [(TGet Z 5%Z, SVal Z 0)] /\ ~ linearizable tree_code (tseq Z zcompare false) two_nodes (two [TGet Z 5%Z] [TDelete Z 3%Z]).
Proof.
  destruct (run_two [TGet Z 5%Z] [TDelete Z 3%Z] [1; 1; 1; 1; 0; 1; 1] two_nodes) as [m|] eqn:ST; [|vm_compute in ST; discriminate].
  exists [1; 1; 1; 1; 0; 1; 1], m. split; [exact ST|]. assert (GOT : owner m = None /\ got (threads m 0) = [(TGet Z 5%Z, SVal Z 0)] /\ done_ (threads m 1) = [(TDelete Z 3%Z, SBool Z true)] /\
    done_ (threads m 0) = [(TGet Z 5%Z, SVal Z 0)] /\ forall t, 2 <= t -> done_ (threads m t) = []).
  { vm_compute in ST. injection ST as <-. repeat split. intros [|[|t]] H; [lia|lia|reflexivity]. }
  destruct GOT as (O & G0 & D1 & D0 & D2). split; [exact O|]. split; [exact G0|]. intros LI.
  destruct (explained _ _ _ _ _ _ LI ST) as (log & s & HH & _ & _ & HM).
  assert (FIRST : forall (l : list (nat * tcall Z * sout Z)) s1 s2, history (tseq Z zcompare false) s1 l s2 -> (forall t, mine t l = done_ (threads m t)) -> s1 = two_nodes -> False).
  { intros l s1 s2 H1 M1 ->. destruct l as [|[[u c] r] l]; [specialize (M1 0); rewrite D0 in M1; discriminate|].
    inversion H1 as [|? ? ? ? s3 ? ? E1 HH1]; subst. pose proof (M1 u) as HU. cbn [mine] in HU. rewrite Nat.eqb_refl in HU.
    destruct u as [|[|u]]; [| |rewrite D2 in HU by lia; discriminate].
    - rewrite D0 in HU. injection HU as -> -> _. vm_compute in E1. discriminate.
    - rewrite D1 in HU. injection HU as -> -> HU1. vm_compute in E1. injection E1 as <-. pose proof (M1 0) as H0. cbn [mine Nat.eqb] in H0. rewrite D0 in H0.
      destruct l as [|[[u c] r] l]; [discriminate|]. inversion HH1 as [|? ? ? ? s4 ? ? E2 HH2]; subst. pose proof (M1 u) as HV. cbn [mine] in HV. rewrite Nat.eqb_refl in HV.
      destruct u as [|[|u]]; cbn [Nat.eqb] in HV; [|rewrite D1 in HV; discriminate|rewrite D2 in HV by lia; discriminate].
      rewrite D0 in HV. injection HV as -> -> _. vm_compute in E2. discriminate. }
  eapply FIRST; eauto.
Qed.
Print Assumptions splay_get_missed_refuted.
(** two threads that walk: the second finds that there is no next key only after its look; the NULL key is compared *)
Theorem splay_walkers_refuted : exists ts m, run_two [TNextKey Z] [TNextKey Z] ts one_node = Some m /\ crashes tree_code 0 m /\
  forall s, tseq Z zcompare false s (TNextKey Z) = None -> sp_next Z s <> None.
Proof.
  destruct (run_two [TNextKey Z] [TNextKey Z] [0; 1; 1; 1; 1; 1; 0] one_node) as [m|] eqn:ST; [|vm_compute in ST; discriminate].
  exists [0; 1; 1; 1; 1; 1; 0], m. split; [exact ST|]. split.
  - vm_compute in ST. injection ST as <-. exists (TNextKey Z), (NextSplay Z false). split; reflexivity.
  - intros s H E0. unfold tseq in H. cbn [as_sop sstep] in H. unfold GetNextKeyInSplayTree, NextNode in H. rewrite E0 in H. destruct (sp_root Z s); discriminate.
Qed.
Print Assumptions splay_walkers_refuted.

(** ** C243: linked lists *)
(** every full list but for one place: two threads that append both see room for one *)
Theorem list_capacity_refuted : forall l v w, exists ts m,
  steps list_code ts (start (l, S (length l)) (two [LAppend v] [LAppend w])) = Some m /\ owner m = None /\ (forall t, todo (threads m t) = [] /\ at_ (threads m t) = Between) /\
  got (threads m 0) = [(LAppend v, LBool true)] /\ got (threads m 1) = [(LAppend w, LBool true)] /\
  length (fst (shared m)) = S (snd (shared m)).
Proof.
  intros l v w. exists [0; 1; 0; 0; 0; 1; 1; 1]. eexists. split.
  - unfold start. cbn [steps step threads two at_ todo got check list_code lcheck shared fst snd locked].
    assert (E : Nat.eqb (length l) (S (length l)) = false) by (apply Nat.eqb_neq; lia).
    repeat (cbn [steps step threads put two at_ todo got check list_code lcheck shared fst snd locked owner begin go lgo Nat.eqb app]; rewrite ?E). reflexivity.
  - cbn [owner threads put Nat.eqb todo at_ got shared fst snd app]. split; [reflexivity|]. split.
    + intros [|[|t]]; split; reflexivity.
    + split; [reflexivity|]. split; [reflexivity|]. rewrite !app_length. cbn [length]. lia.
Qed.
Print Assumptions list_capacity_refuted.
Lemma removelast_length (y : N) k : length (removelast (y :: k)) = length k.
Proof. revert y. induction k as [|z k IH]; intros y; [reflexivity|]. change (removelast (y :: z :: k)) with (y :: removelast (z :: k)). cbn [length]. rewrite IH. reflexivity. Qed.
(** a call alone never goes beyond the capacity *)
Theorem list_capacity_alone : forall s c s' r, lseq s c = Some (s', r) -> length (fst s) <= snd s -> length (fst s') <= snd s'.
Proof.
  intros [l n] c s' r H. destruct c; cbn [lseq fst snd] in *.
  - destruct (Nat.ltb_spec (length l) n); injection H as <- <-; cbn [fst snd]; rewrite ?app_length; cbn [length]; lia.
  - destruct l as [|x l]; [injection H as <- <-; cbn; lia|]. injection H as <- <-. intros H. change (length (removelast (x :: l)) <= n). rewrite removelast_length. cbn [length] in H. lia.
Qed.
(** and every list of one value: two threads that remove the last, one of them dereferences NULL *)
Theorem list_remove_refuted : forall v n, exists ts m,
  steps list_code ts (start ([v], n) (two [LRemoveLast] [LRemoveLast])) = Some m /\ crashes list_code 1 m /\
  forall s c, lseq s c <> None.
Proof.
  intros v n. exists [0; 1; 0; 0; 0; 1]. eexists. split; [vm_compute; reflexivity|]. split.
  - exists LRemoveLast, LRemoveLast. split; reflexivity.
  - intros [l k] []; cbn [lseq fst snd]; [destruct (length l <? k); discriminate|destruct l; discriminate].
Qed.
Print Assumptions list_remove_refuted.

(** ** random.c *)
(** C244: calls of SetRandomKey by any number of threads take effect one after the other *)
Theorem random_threads : forall fuel lsb junk s0 f, in_order (random_code fuel lsb junk) (kseq fuel lsb junk) s0 f.
Proof.
  intros fuel lsb junk s0 f. assert (A : forall t, Forall (fun _ : nat => True) (f t)) by (intros t; apply Forall_forall; auto). split; [|split].
  - eapply in_some_order; [exact (random_lawful fuel lsb junk)|exact I|exact A].
  - eapply only_sequential_crashes; [exact (random_lawful fuel lsb junk)|exact I|exact A].
  - eapply no_deadlock; [exact (random_lawful fuel lsb junk)|exact I|exact A].
Qed.
Print Assumptions random_threads.
(** the keys that threads get are pieces of one stream, each byte of which goes to one thread *)
Theorem random_threads_stream : forall fuel lsb junk hash key r, length junk = 64 -> 3 <= fuel -> ready fuel lsb junk hash key r ->
  exists blocks : nat -> list N, (forall k, length (blocks k) = GetHashDigestsize hash) /\
  forall f ts m, steps (random_code fuel lsb junk) ts (start r f) = Some m ->
    exists log, (forall t, mine t log = done_ (threads m t)) /\ map (@length N) (results_of log) = calls_of log /\
      concat (results_of log) = stream (GetHashDigestsize hash) blocks 0 (list_sum (calls_of log)).
Proof.
  intros fuel lsb junk hash key r J F Y. destruct (random_stream_any_hash fuel lsb junk J F hash key r Y) as (blocks & BL & H). exists blocks. split; [exact BL|].
  intros f ts m ST. destruct (explained _ _ _ _ _ _ (proj1 (random_threads fuel lsb junk r f)) ST) as (log & s & HH & _ & _ & HM). exists log. split; [exact HM|].
  assert (RQ : exists used, requests fuel lsb junk r (calls_of log) = Done (s, results_of log, used)).
  { clear - HH. unfold calls_of, results_of. induction HH as [s|s t c x s' log s'' E HH IH]; [exists []; reflexivity|]. cbn [map fst snd requests]. unfold kseq in E.
    destruct (SetRandomKey fuel lsb junk s c) as [[[s1 k1] u1]| |]; try discriminate. injection E as <- <-. destruct IH as [u ->]. eexists. reflexivity. }
  destruct RQ as [u RQ]. specialize (H (calls_of log)). cbv zeta in H. destruct (_ <? _)%N; [|congruence]. destruct H as (r' & outs & E & L1 & L2 & _). rewrite RQ in E. injection E as <- <- _. auto.
Qed.
Print Assumptions random_threads_stream.

(** C245: the values of GetPseudoRandomValue: from every state two threads can get the same value, and a step of the generator is lost *)
Section Lost.
Variables (next : seeds -> seeds) (value : seeds -> N).
Definition lost_go (l : plocal) (s : seeds) : turn seeds plocal N := match l with SeedRead => Next s (SeedWrite s) | SeedWrite r => Finish (next r) (value r) end.
Lemma lost_step s : exists ts m, steps (mkCode (fun (_ : unit) _ => None) (fun _ => false) (fun _ => SeedRead) lost_go) ts (start s (two [tt] [tt])) = Some m /\
  got (threads m 0) = [(tt, value s)] /\ got (threads m 1) = [(tt, value s)] /\ shared m = next s.
Proof. exists [0; 1; 0; 1; 0; 1; 0; 1; 0; 1]. eexists. split; [vm_compute; reflexivity|]. vm_compute. auto. Qed.
End Lost.
Theorem pseudo_random_refuted : forall s, exists ts m, steps pseudo_code ts (start s (two [tt] [tt])) = Some m /\
  got (threads m 0) = [(tt, xoshiro_value s)] /\ got (threads m 1) = [(tt, xoshiro_value s)] /\ shared m = xoshiro_next s.
Proof. exact (lost_step xoshiro_next xoshiro_value). Qed.
Print Assumptions pseudo_random_refuted.
(** the seeds that the object starts with: the values differ when the calls are made one after the other *)
Theorem pseudo_random_order_refuted : exists s, ~ linearizable pseudo_code pseq s (two [tt] [tt]).
Proof.
  exists (0x76e15d3efefdcbbf, 0xc5004e441c522fb3, 0x77710069854ee241, 0x39109bb02acbe635)%N. set (s := (_, _, _, _)). intros LI.
  destruct (steps pseudo_code [0; 1; 0; 1; 0; 1; 0; 1; 0; 1] (start s (two [tt] [tt]))) as [m1|] eqn:S1; [|vm_compute in S1; discriminate].
  destruct (explained _ _ _ _ _ _ LI S1) as (log & s' & HH & _ & HS & HM).
  assert (D : done_ (threads m1 0) = [(tt, xoshiro_value s)] /\ done_ (threads m1 1) = [(tt, xoshiro_value s)] /\ forall t, 2 <= t -> done_ (threads m1 t) = []).
  { vm_compute in S1. injection S1 as <-. split; [vm_compute; reflexivity|]. split; [vm_compute; reflexivity|]. intros [|[|t]] H; [lia|lia|reflexivity]. }
  destruct D as (D0 & D1 & D2).
  assert (V : xoshiro_value (xoshiro_next s) <> xoshiro_value s) by (vm_compute; discriminate). clear LI S1. clearbody s.
  assert (B : forall u c r, In (u, c, r) log -> r = xoshiro_value s).
  { intros u c r I1. assert (I2 : In (c, r) (mine u log)).
    { clear - I1. induction log as [|[[v d] x] log IH]; [destruct I1|]. cbn [mine]. destruct I1 as [E1|I1]; [injection E1 as -> -> ->; rewrite Nat.eqb_refl; left; reflexivity|].
      destruct (Nat.eqb v u); [right|]; apply IH; exact I1. }
    rewrite HM in I2. destruct u as [|[|u]]; [rewrite D0 in I2|rewrite D1 in I2|rewrite D2 in I2 by lia; destruct I2]; destruct I2 as [E1|[]]; injection E1 as _ <-; reflexivity. }
  destruct log as [|[[u c] r] [|[[u' c'] r'] log]].
  - specialize (HM 0). rewrite D0 in HM. discriminate.
  - pose proof (HM 0) as H0. pose proof (HM 1) as H1. rewrite D0 in H0. rewrite D1 in H1. cbn [mine] in H0, H1. destruct (Nat.eqb_spec u 0), (Nat.eqb_spec u 1); try discriminate. lia.
  - inversion HH as [|? ? ? ? s1 ? ? E1 HH1]; subst. inversion HH1 as [|? ? ? ? s2 ? ? E2 HH2]; subst. unfold pseq in E1, E2. injection E1 as <- <-. injection E2 as <- <-.
    apply V. apply (B u' c'). right. left. reflexivity.
Qed.
Print Assumptions pseudo_random_order_refuted.

(** ** The hypotheses can be met *)
Example splay_two_adding : forall t, Forall (adding Z 1 t) (two [TAdd Z true 5%Z 50; TCount Z] [TGet Z 5%Z; TResetIterator Z; TNextKey Z] t).
Proof. intros [|[|t]]; repeat constructor. Qed.
Example random_ready : exists r, ready 3 true (repeat 0%N 64) MD5Hash [1; 2; 3]%N r.
Proof.
  destruct (seed_ready 3 true (repeat 0%N 64) eq_refl (le_n 3) MD5Hash 7 [4; 5]%N [1; 2; 3]%N) as (r & _ & Y & _); [| |exists r; exact Y];
    (split; [repeat constructor; reflexivity|reflexivity]).
Qed.
Example list_room : lcheck (LAppend 9) ([1; 2]%N, 3) = None /\ lcheck (LAppend 9) ([1; 2; 3]%N, 3) = Some (LBool false).
Proof. split; reflexivity. Qed.
