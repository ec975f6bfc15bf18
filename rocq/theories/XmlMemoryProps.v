(** What programs on XML elements do to memory. *)
From Coq Require Import NArith Bool Arith List Lia Permutation.
From Verif Require Import Outcome XmlMemoryModel XmlMemorySpec XmlMemoryProof XmlMemoryRun XmlMemoryOps XmlMemoryMain XmlMemoryInv XmlMemoryTotal XmlMemoryCalm XmlMemorySafe.
Import ListNotations.
Open Scope N_scope.
Local Definition ta : list N := [97]. Local Definition tb : list N := [98]. Local Definition tc : list N := [99].
Close Scope N_scope.

Lemma inner_length h env par p f l : children_at h env par p f l -> length l = inner f.
Proof.
  intros H. induction H as [|par p id i kids rest e l1 l2 l3 N E P Z B K IHK R IHR]; [reflexivity|]. cbn [inner]. rewrite !app_length, IHK, IHR. destruct E as [r _ _ _ PA _ _]. cbn [length].
  assert (length r = 3 * length (i_pairs i)) as -> by (destruct PA; reflexivity). lia.
Qed.
Lemma blocks_length h env f l : trees_at h env f l -> length l = blocks f.
Proof.
  intros H. induction H as [|p id i kids rest e l1 l2 l3 l4 N E T O K R IHR]; [reflexivity|]. cbn [blocks]. rewrite !app_length, IHR, (inner_length _ _ _ _ _ _ K). destruct E as [r _ _ _ PA _ _]. cbn [length].
  assert (length r = 3 * length (i_pairs i)) as -> by (destruct PA; reflexivity). unfold table_at in T. destruct (i_held i); [destruct T as [_ ->]|destruct T as (_ & t & x & _ & _ & ->)]; cbn [length]; lia.
Qed.

(** ** C246: a program whose calls all return has built the forest that it means; there is nothing else in memory than the blocks of this
    forest and one table for each root that was put below another element *)
Theorem xml_programs_build_forests fuel l h env s : run fuel l ([], []) = Ok (h, env) -> spec_run l nothing = Some s ->
  represents h env s /\ in_use h = blocks (trees s) + length (lost s).
Proof.
  intros H Z. pose proof (run_represents _ _ _ _ _ _ _ _ represents_nothing H Z) as R. split; [exact R|]. destruct R as (_ & k & m & T & D & M & L).
  rewrite (count_live h (k ++ m) D L), app_length, M, (blocks_length _ _ _ _ T). reflexivity.
Qed.
(** no leaks: when everything was destroyed and no root was put below another element, no block is in use *)
Theorem xml_programs_leak_nothing fuel l h env s : run fuel l ([], []) = Ok (h, env) -> spec_run l nothing = Some s ->
  trees s = Nil -> lost s = [] -> in_use h = 0.
Proof. intros H Z T M. destruct (xml_programs_build_forests _ _ _ _ _ H Z) as [_ ->]. rewrite T, M. reflexivity. Qed.
Definition sample : list op :=
  [New ta; Add 0 tb 5; Add 0 tc 3; Add 0 tb 4; Add 2 ta 0; Content 4 tb; Attribute 1 ta tb; Attribute 1 ta tc; Find 0 tb; Cut 1; Insert 2 1 7; New tb].
Example sample_runs : exists h env s, run 20 sample ([], []) = Ok (h, env) /\ spec_run sample nothing = Some s /\
  trees s = Cons 5 (mkInfo tb [] [] 0 true false) Nil
              (Cons 0 (mkInfo ta [] [] 0 true false)
                (Cons 2 (mkInfo tc [] [] 3 false true) (Cons 4 (mkInfo ta tb [] 0 false true) Nil (Cons 1 (mkInfo tb [] [(ta, tc)] 7 false true) Nil Nil))
                (Cons 3 (mkInfo tb [] [] 4 false true) Nil Nil)) Nil) /\ in_use h = 23.
Proof. do 3 eexists. vm_compute. repeat split; reflexivity. Qed.
Example sample_clean : exists h env s, run 20 (sample ++ [Cut 2; Destroy 0; Destroy 5; Destroy 2]) ([], []) = Ok (h, env) /\
  spec_run (sample ++ [Cut 2; Destroy 0; Destroy 5; Destroy 2]) nothing = Some s /\ trees s = Nil /\ lost s = [] /\ in_use h = 0 /\ length h = 26.
Proof. do 3 eexists. vm_compute. repeat split; reflexivity. Qed.

(** ** C247: DestroyXMLTree of an element that is below no other one returns, gives back its own blocks and those below it, and leaves all
    others as they are *)
Theorem xml_destroy_exact h env s p : represents h env s -> In p (tops (trees s)) ->
  exists a h', nth_error env p = Some a /\ (forall fuel, 2 * size (trees s) <= fuel -> DestroyXMLTree fuel a h = Ok h') /\
    represents h' env (mkSpec (remove p (trees s)) (count s) (lost s)) /\
    (forall q, view h' q <> None -> view h' q = view h q) /\
    in_use h' + blocks (trees s) = in_use h + blocks (remove p (trees s)).
Proof.
  intros R I. destruct (destroy_ok _ _ _ _ R I) as (a & h' & A & U & R' & V). exists a, h'. repeat split; try assumption; [apply R'|apply R'|].
  destruct R as (_ & k & m & T & D & M & L). destruct R' as (_ & k' & m' & T' & D' & M' & L'). cbn [trees lost] in *.
  rewrite (count_live h (k ++ m) D L), (count_live h' (k' ++ m') D' L'), !app_length, M, M', (blocks_length _ _ _ _ T), (blocks_length _ _ _ _ T'). lia.
Qed.

(** ** C248: programs that prune nothing and give each element one attribute at most always go through *)
Theorem xml_safe_programs_return fuel l : safe_run l nothing = true -> 2 * length l + 3 <= fuel ->
  exists h env s, run fuel l ([], []) = Ok (h, env) /\ spec_run l nothing = Some s /\ represents h env s /\ in_use h = blocks (trees s) + length (lost s).
Proof.
  intros SA FU. destruct (run_total fuel l [] [] nothing) as (h & env & s & H & Z & R); [exact represents_nothing|intros H []|exact SA|cbn; lia|].
  exists h, env, s. destruct (xml_programs_build_forests _ _ _ _ _ H Z) as [_ B]. tauto.
Qed.
Definition safe_sample : list op :=
  [New ta; Add 0 tb 5; Add 0 tc 3; Add 0 tb 4; Add 2 ta 0; Content 4 tb; Attribute 1 ta tb; Attribute 1 ta tc; Find 0 tb; New tb; Add 5 tc 1; Insert 3 5 2; Find 3 ta; Add 0 tb 1; Destroy 0].
Example safe_sample_runs : safe_run safe_sample nothing = true /\
  exists h env, run 40 safe_sample ([], []) = Ok (h, env) /\ in_use h = 1.
Proof. split; [reflexivity|]. do 2 eexists. vm_compute. split; reflexivity. Qed.

(** ** C249, refuted: elements that were pruned and destroyed are still in the lists of tags *)
Definition pruned : list op := [New ta; Add 0 tb 5; Add 0 tb 3; Cut 1; Destroy 1; Find 0 tc].
Theorem xml_prune_refuted : spec_run pruned nothing <> None /\ forall fuel, 10 <= fuel -> run fuel pruned ([], []) = UB.
Proof. split; [discriminate|]. intros fuel L. do 10 (destruct fuel as [|fuel]; [lia|]). reflexivity. Qed.
(** ... and elements that are still there are not found any more *)
Definition hidden : list op := [New ta; Add 0 tb 1; Add 0 tc 2; Add 0 tb 3; Cut 1].
Theorem xml_prune_hides_refuted : exists h env s a, run 20 hidden ([], []) = Ok (h, env) /\ spec_run hidden nothing = Some s /\
  find 0 (trees s) = Some (mkInfo ta [] [] 0 true false, Cons 2 (mkInfo tc [] [] 2 false true) Nil (Cons 3 (mkInfo tb [] [] 3 false true) Nil Nil)) /\
  nth_error env 0 = Some a /\ GetXMLTreeChild 20 a tb h = Ok 0.
Proof. do 4 eexists. vm_compute. repeat split; reflexivity. Qed.

(** ** C250, refuted: not every program that destroys all its elements gives back all its blocks *)
Definition leaking : list op := [New ta; New tb; Insert 0 1 0; Destroy 0].
Theorem xml_insert_root_leaks_refuted : exists h env s, run 20 leaking ([], []) = Ok (h, env) /\ spec_run leaking nothing = Some s /\ trees s = Nil /\ in_use h = 1.
Proof. do 3 eexists. vm_compute. repeat split; reflexivity. Qed.
Theorem xml_no_tag_leaks_refuted xml : exists h, NewXMLTree_no_tag xml [] = Ok (h, 0) /\ in_use h = 3.
Proof. eexists. split; [reflexivity|]. reflexivity. Qed.

(** ** C251, refuted: an element may not be destroyed while it is below another one: those behind it go with it, and the other one still
    has its address *)
Theorem xml_destroy_inner_refuted : exists h env a, run 20 [New ta; Add 0 tb 1; Add 0 tc 2; Destroy 1] ([], []) = Ok (h, env) /\
  nth_error env 2 = Some a /\ load_element h a = UB /\ in_use h = 4 /\ forall fuel, 10 <= fuel -> run fuel [New ta; Add 0 tb 1; Add 0 tc 2; Destroy 1; Destroy 0] ([], []) = UB.
Proof. do 3 eexists. split; [vm_compute; reflexivity|]. split; [reflexivity|]. split; [reflexivity|]. split; [reflexivity|]. intros fuel L. do 10 (destruct fuel as [|fuel]; [lia|]). reflexivity. Qed.

Print Assumptions xml_programs_build_forests.
Print Assumptions xml_programs_leak_nothing.
Print Assumptions xml_destroy_exact.
Print Assumptions xml_safe_programs_return.
Print Assumptions xml_prune_refuted.
Print Assumptions xml_prune_hides_refuted.
Print Assumptions xml_insert_root_leaks_refuted.
Print Assumptions xml_no_tag_leaks_refuted.
Print Assumptions xml_destroy_inner_refuted.
