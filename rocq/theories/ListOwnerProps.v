(** Values of linked lists are relinquished once or returned, but for those inserted in the middle. *)
From Coq Require Import Arith NArith ZArith Bool Lia ZifyBool ZifyNat ZifyN Permutation List.
From Verif Require Import ListModel ListSpec ListProof ListProps ListOwnerModel.
Import ListNotations.

(** * what the calls take and give back, from the calls and their answers alone; NULL is nothing *)
Definition notnull (p : N) : list N := if (p =? 0)%N then [] else [p].
Definition pointers (l : list N) : list N := flat_map notnull l.
Fixpoint taken (l : list lop) (r : list lout) : list N :=
  match l, r with
  | LAppend v :: l, OBool true :: r | LInsert _ v :: l, OBool true :: r => notnull v ++ taken l r
  | _ :: l, _ :: r => taken l r
  | _, _ => []
  end.
Fixpoint returned (l : list lop) (r : list lout) : list N :=
  match l, r with
  | LRemove _ :: l, OVal v :: r | LRemoveValue _ :: l, OVal v :: r | LRemoveLast :: l, OVal v :: r => notnull v ++ returned l r
  | _ :: l, _ :: r => returned l r
  | _, _ => []
  end.

(** * proof *)
Lemma count_perm l l' : Permutation l l' <-> forall x, count_occ N.eq_dec l x = count_occ N.eq_dec l' x.
Proof. apply Permutation_count_occ. Qed.
Lemma pointers_app a b : pointers (a ++ b) = pointers a ++ pointers b. Proof. apply flat_map_app. Qed.
Lemma remove_perm l i : i < length l -> Permutation (pointers l) (pointers (remove_at l i) ++ notnull (nth i l 0%N)).
Proof.
  intros H. assert (l = firstn i l ++ nth i l 0%N :: skipn (S i) l) as E.
  { revert i H. induction l as [|x l IH]; intros i H; [cbn in H; lia|]. destruct i; [reflexivity|]. cbn [firstn nth skipn app]. f_equal. apply IH. cbn in H. lia. }
  unfold remove_at. rewrite E at 1. rewrite !pointers_app. cbn [pointers flat_map]. fold (pointers (skipn (S i) l)). rewrite <- app_assoc. apply Permutation_app_head, Permutation_app_comm.
Qed.
Lemma index_of_lt v l i : index_of v l = Some i -> i < length l.
Proof. revert i. induction l as [|x l IH]; intros i; cbn [index_of]; [discriminate|]. destruct (x =? v)%N; [injection 1 as <-; cbn; lia|]. destruct (index_of v l) as [j|]; [|discriminate]. injection 1 as <-. specialize (IH j eq_refl). cbn. lia. Qed.
Lemma insert_perm l i v : Permutation (notnull v ++ pointers l) (pointers (insert_at l i v)).
Proof. unfold insert_at. rewrite <- (firstn_skipn i l) at 1. rewrite !pointers_app. cbn [pointers flat_map]. fold (pointers (skipn i l)). rewrite !app_assoc. apply Permutation_app_tail, Permutation_app_comm. Qed.
Lemma seq_owner cap m s o : let (s', r) := seq_step cap m s o in
  Permutation (taken [o] [r] ++ pointers (sq_vals s)) (pointers (sq_vals s') ++ (if match o with LClear => true | _ => false end then pointers (sq_vals s) else []) ++ returned [o] [r]).
Proof.
  destruct s as [l pos]. destruct o as [v|i v|i|v| |i| | | | | |]; cbn [seq_step sq_vals sq_pos].
  - destruct (m && _); cbn [taken returned sq_vals]; rewrite ?app_nil_r; [|apply Permutation_refl]. rewrite pointers_app. cbn [pointers flat_map]. rewrite ?app_nil_r. apply Permutation_app_comm.
  - destruct (_ && _); cbn [taken returned sq_vals]; rewrite ?app_nil_r; [apply insert_perm|apply Permutation_refl].
  - destruct (N.ltb_spec i (N.of_nat (length l))); cbn [taken returned sq_vals app]; rewrite ?app_nil_r; [apply remove_perm; lia|]. change (notnull 0) with (@nil N). rewrite ?app_nil_r. apply Permutation_refl.
  - destruct (v =? 0)%N; [cbn; rewrite ?app_nil_r; apply Permutation_refl|]. destruct (index_of v l) as [i|] eqn:E; [|cbn; rewrite ?app_nil_r; apply Permutation_refl]. apply index_of_lt in E. cbn [taken returned sq_vals app]. rewrite ?app_nil_r. now apply remove_perm.
  - destruct l as [|x l]; [apply Permutation_refl|]. cbn [taken returned sq_vals app]. rewrite ?app_nil_r. apply remove_perm. cbn [length]. lia.
  - cbn. rewrite ?app_nil_r. apply Permutation_refl.
  - cbn. rewrite ?app_nil_r. apply Permutation_refl.
  - cbn. rewrite ?app_nil_r. apply Permutation_refl.
  - cbn. rewrite ?app_nil_r. apply Permutation_refl.
  - cbn. rewrite ?app_nil_r. apply Permutation_refl.
  - cbn. rewrite ?app_nil_r. apply Permutation_refl.
  - cbn. rewrite ?app_nil_r. apply Permutation_refl.
Qed.
Lemma relinquish_all_ok own l : forall h fuel, length l <= fuel -> seg h l None -> NoDup (ids l) ->
  exists h', relinquish_all fuel own h (addr l None) = Some (h', if own then vals l else []) /\ free_all fuel h (addr l None) = Some h'.
Proof.
  induction l as [|[a v] l IH]; intros h fuel Hf S Nd.
  - exists h. destruct own, fuel; split; reflexivity.
  - destruct fuel as [|fuel]; [cbn in Hf; lia|]. cbn [addr free_all relinquish_all]. destruct S as [-> S]. cbn [e_next e_value].
    cbn [ids map fst] in Nd. inversion_clear Nd as [|? ? N1 N2].
    destruct (IH (hset h a None) fuel ltac:(cbn in Hf; lia)) as (h' & -> & ->); [now apply seg_hset|exact N2|]. exists h'. now destruct own.
Qed.

Section Alloc.
Variable alloc : heap -> option nat.
Hypothesis alloc_fresh : forall h a, alloc h = Some a -> h a = None.

(** relinquishing changes nothing else *)
Lemma step_lstep own h L l pos fuel o : rep h L l pos -> length l <= fuel ->
  owner_step alloc fuel own (h, L) o =
  let? (s, r) := lstep fuel alloc (h, L) o in Some (s, r, if match o with LClear => own | _ => false end then vals l else []).
Proof.
  intros R Hf. destruct o; cbn [owner_step]; try reflexivity. cbn [lstep]. unfold ClearLinkedList, ListModel.ClearLinkedList. rewrite (r_head _ _ _ _ R).
  destruct (relinquish_all_ok own l h fuel Hf (r_seg _ _ _ _ R) (r_nodup _ _ _ _ R)) as (h' & -> & ->). reflexivity.
Qed.
Lemma run_owner ops : forall own fuel h L l pos, rep h L l pos -> length l + length ops <= fuel -> ends_only alloc fuel (h, L) ops ->
  exists h' L' l' pos' rs f, owner_run alloc fuel own (h, L) ops = Some ((h', L'), rs, f) /\ rep h' L' l' pos' /\ length l' <= fuel /\ lrun fuel alloc (h, L) ops = Some ((h', L'), rs) /\
    (own = true -> Permutation (taken ops rs ++ pointers (vals l)) (pointers (vals l') ++ pointers f ++ returned ops rs)) /\ (own = false -> f = []).
Proof.
  induction ops as [|o ops IH]; intros own fuel h L l pos R Hf E.
  - exists h, L, l, pos, [], []. cbn [length] in Hf. split; [reflexivity|]. split; [exact R|]. split; [lia|]. split; [reflexivity|]. split; [|reflexivity]. intros _. cbn. rewrite app_nil_r. apply Permutation_refl.
  - cbn [ends_only] in E. destruct E as [E1 E2]. cbn [length] in Hf.
    destruct (list_step alloc alloc_fresh h L l pos fuel o R ltac:(lia) E1) as (h1 & L1 & l1 & pos1 & r & Er & R1 & _ & _ & Es).
    pose proof (step_lstep own h L l pos fuel o R ltac:(lia)) as St. rewrite Er in St, E2.
    pose proof (seq_owner (ll_capacity L) (has_memory alloc h) (seq_of l pos) o) as So. rewrite Es in So. cbn [seq_of sq_vals] in So.
    pose proof (seq_step_length alloc alloc_fresh (ll_capacity L) (has_memory alloc h) (seq_of l pos) o) as Len. rewrite Es in Len. cbn [fst sq_vals seq_of] in Len. rewrite !vals_length in Len.
    destruct (IH own fuel h1 L1 l1 pos1 R1 ltac:(lia) E2) as (h2 & L2 & l2 & pos2 & rs & f & Er2 & R2 & Ln2 & Elr & P & Q).
    cbn [owner_run lrun]. rewrite St, Er2, Er, Elr. exists h2, L2, l2, pos2. do 2 eexists. split; [reflexivity|]. split; [exact R2|]. split; [exact Ln2|]. split; [reflexivity|]. split.
    + intros ->. specialize (P eq_refl).
      assert (Et : taken (o :: ops) (r :: rs) = taken [o] [r] ++ taken ops rs) by (destruct o; try reflexivity; destruct r as [[]| | |]; try reflexivity; cbn [taken]; now rewrite app_nil_r).
      assert (Eb : returned (o :: ops) (r :: rs) = returned [o] [r] ++ returned ops rs) by (destruct o; try reflexivity; destruct r; try reflexivity; cbn [returned]; now rewrite app_nil_r).
      rewrite Et, Eb, pointers_app. assert (Ef : pointers (if match o with LClear => true | _ => false end then vals l else []) = if match o with LClear => true | _ => false end then pointers (vals l) else []) by now destruct o. rewrite Ef.
      apply count_perm. intros x. pose proof (proj1 (count_perm _ _) So x) as C1. pose proof (proj1 (count_perm _ _) P x) as C2. rewrite !count_occ_app in *. lia.
    + intros ->. rewrite (Q eq_refl), app_nil_r. now destruct o.
Qed.

(** * C270: every value a list has taken is in the list, or has been relinquished, or has been returned, once; relinquish
    methods change nothing else.  For programs that insert at the ends *)
Theorem list_relinquishes h0 capacity ops fuel own : length ops <= fuel -> ends_only alloc fuel (h0, NewLinkedList capacity) ops ->
  exists s rs f held h d, owner_run alloc fuel own (h0, NewLinkedList capacity) ops = Some (s, rs, f) /\ lrun fuel alloc (h0, NewLinkedList capacity) ops = Some (s, rs) /\
  LinkedListToArray fuel s = Some held /\ DestroyLinkedList fuel own s = Some (h, d) /\
  (if own then Permutation (taken ops rs) (pointers held ++ pointers f ++ returned ops rs) /\ d = held else f = [] /\ d = []).
Proof.
  intros Hf E. destruct (run_owner ops own fuel h0 (NewLinkedList capacity) [] 0) as (h' & L' & l' & pos' & rs & f & E1 & R & Ln & E2 & P & Q); try assumption.
  { split; cbn [NewLinkedList ll_head ll_tail ll_elements ll_next seg ids map addr skipn length]; [exact I | constructor | reflexivity | | reflexivity | reflexivity | lia]. intros l' a v X. destruct l'; discriminate X. }
  destruct (relinquish_all_ok own l' h' fuel Ln (r_seg _ _ _ _ R) (r_nodup _ _ _ _ R)) as (h & D & _).
  exists (h', L'), rs, f, (vals l'), h. eexists. split; [exact E1|]. split; [exact E2|]. split.
  { unfold LinkedListToArray. cbn [fst snd]. rewrite (r_head _ _ _ _ R). apply to_array_ok; [exact Ln|apply R]. }
  split; [unfold DestroyLinkedList; cbn [fst snd]; rewrite (r_head _ _ _ _ R); exact D|].
  destruct own; [|split; [now apply Q|reflexivity]]. specialize (P eq_refl). cbn [vals map pointers flat_map] in P. rewrite app_nil_r in P. now split.
Qed.
(** values that are taken once are relinquished once *)
Theorem list_once h0 capacity ops fuel : length ops <= fuel -> ends_only alloc fuel (h0, NewLinkedList capacity) ops ->
  exists s rs f h d, owner_run alloc fuel true (h0, NewLinkedList capacity) ops = Some (s, rs, f) /\ DestroyLinkedList fuel true s = Some (h, d) /\
  (NoDup (taken ops rs) -> NoDup (pointers f ++ pointers d ++ returned ops rs)).
Proof.
  intros Hf E. destruct (list_relinquishes h0 capacity ops fuel true Hf E) as (s & rs & f & held & h & d & E1 & _ & _ & E2 & P & ->). exists s, rs, f, h, held. split; [exact E1|]. split; [exact E2|].
  intros Nd. eapply Permutation_NoDup; [|exact Nd]. apply count_perm. intros x. pose proof (proj1 (count_perm _ _) P x) as C. rewrite !count_occ_app in *. lia.
Qed.
End Alloc.
Print Assumptions list_relinquishes.
Print Assumptions list_once.
Definition sample_ops : list lop := [LAppend 10; LAppend 20; LInsert 0 5; LAppend 0; LRemoveValue 20; LClear; LAppend 30; LInsert 1 40; LRemoveLast; LAppend 50]%N.
Example sample_owned : length sample_ops <= 20 /\ ends_only first_fit 20 (empty_heap, NewLinkedList 4) sample_ops /\
  match owner_run first_fit 20 true (empty_heap, NewLinkedList 4) sample_ops with
  | Some (s, rs, f) => f = [5; 10; 0]%N /\ returned sample_ops rs = [20; 40]%N /\ taken sample_ops rs = [10; 20; 5; 30; 40; 50]%N /\ NoDup (taken sample_ops rs) /\
      match DestroyLinkedList 20 true s with Some (_, d) => d = [30; 50]%N | None => False end
  | None => False end.
Proof. split; [cbn; lia|]. split; [vm_compute; repeat split; try (right; discriminate); left; reflexivity|]. vm_compute. do 3 (split; [reflexivity|]). split; [|reflexivity]. repeat constructor; cbn; intuition discriminate. Qed.

(** * C271: a value that is inserted in the middle is lost: the call returns True, the list does not hold it, and it is
    never relinquished nor returned *)
Theorem insert_leak_refuted alloc h L l pos i v a : rep h L l pos -> alloc h = Some a -> h a = None -> v <> 0%N ->
  (0 < i < N.of_nat (length l))%N -> (N.of_nat (length l) <> ll_capacity L)%N -> ~ In v (vals l) ->
  exists s, lstep (S (length l)) alloc (h, L) (LInsert i v) = Some (s, OBool true) /\ taken [LInsert i v] [OBool true] = [v] /\
  LinkedListToArray (S (length l)) s = Some (vals l) /\ exists h' d, DestroyLinkedList (S (length l)) true s = Some (h', d) /\ d = vals l /\ ~ In v d.
Proof.
  intros R A Ha Nv Hi Hc Nin. destruct (linked_list_insert_lost alloc h L l pos i v a R A Ha Nv Hi Hc) as (h' & L' & E & S & Hh & _).
  exists (h', L'). cbn [lstep]. rewrite E. split; [reflexivity|]. split; [cbn; unfold notnull; destruct (N.eqb_spec v 0); [contradiction|reflexivity]|]. split.
  - unfold LinkedListToArray. cbn [fst snd]. rewrite Hh. apply to_array_ok; [lia|exact S].
  - destruct (relinquish_all_ok true l h' (Datatypes.S (length l)) ltac:(lia) S (r_nodup _ _ _ _ R)) as (h2 & D & _). exists h2, (vals l). split; [|now split]. unfold DestroyLinkedList. cbn [fst snd]. now rewrite Hh.
Qed.
Print Assumptions insert_leak_refuted.
Example insert_leak_ex : match owner_run first_fit 20 true (empty_heap, NewLinkedList 0) [LAppend 10; LAppend 20; LInsert 1 15]%N with
  | Some (s, rs, f) => rs = [OBool true; OBool true; OBool true] /\ f = [] /\ match DestroyLinkedList 20 true s with Some (_, d) => d = [10; 20]%N | None => False end
  | None => False end.
Proof. vm_compute. repeat split. Qed.
