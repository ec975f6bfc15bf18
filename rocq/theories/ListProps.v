(** Properties of the linked lists of wizard/hashmap.c: C45, C46. *)
From Coq Require Import NArith ZArith Arith List Bool Lia Sorting Permutation ZifyBool ZifyNat ZifyN.
From Verif Require Import ListModel ListSpec ListProof.
Import ListNotations.

(** * C45 *)

Section Alloc.
Variable alloc : heap -> option nat.
Hypothesis alloc_fresh : forall h a, alloc h = Some a -> h a = None.

(** the insertions that hashmap.c gets right *)
Definition at_end (s : st) (o : lop) : Prop :=
  match o with LInsert i _ => i = 0%N \/ (ll_elements (snd s) <= i)%N | _ => True end.

Lemma val_step h l r cap s : step_ok h l r cap s ->
  step_okO h l (let? (s, v) := r in Some (s, OVal v)) cap s.
Proof.
  intros (h' & L' & l' & pos' & v & -> & R & C & F & ->). exists h', L', l', pos', (OVal v). repeat split; try assumption; apply R || (apply F; assumption).
Qed.

(** one call: no NULL or dangling pointer is followed, the sequence changes as
    it should, removed elements are freed and nothing else is touched *)
Theorem list_step h L l pos fuel o : rep h L l pos -> length l <= fuel -> at_end (h, L) o ->
  step_okO h l (lstep fuel alloc (h, L) o) (ll_capacity L)
    (seq_step (ll_capacity L) (has_memory alloc h) (seq_of l pos) o).
Proof.
  intros R Hf E. destruct o as [v|i v|i|v| |i| | | | | |]; cbn [lstep].
  - now apply Append_ok.
  - apply Insert_ok; try assumption. cbn [at_end snd] in E. rewrite (r_count _ _ _ _ R) in E. exact E.
  - apply val_step. now apply Remove_ok.
  - apply val_step. now apply RemoveValue_ok.
  - apply val_step. now apply RemoveLast_ok.
  - rewrite (Get_ok _ _ _ _ _ R). now apply step_same_O.
  - rewrite (Last_ok _ _ _ _ R). now apply step_same_O.
  - apply val_step. now apply Next_ok.
  - pose proof (Reset_ok _ _ _ _ R) as R'. do 5 eexists. split; [reflexivity|]. split; [exact R'|].
    split; [reflexivity|]. split; [apply frame_refl | reflexivity].
  - now apply (Clear_ok h L l pos fuel).
  - unfold LinkedListToArray. cbn [fst snd]. rewrite (r_head _ _ _ _ R), to_array_ok by (assumption || apply R).
    now apply step_same_O.
  - cbn [snd]. rewrite (r_count _ _ _ _ R). unfold seq_step. cbn [sq_vals seq_of]. rewrite vals_length.
    now apply step_same_O.
Qed.

Lemma seq_step_length cap m s o : length (sq_vals (fst (seq_step cap m s o))) <= S (length (sq_vals s)).
Proof.
  assert (R : forall l i, length (remove_at l i) <= S (length l)).
  { intros l i. unfold remove_at. rewrite app_length, firstn_length, skipn_length. lia. }
  destruct s as [l pos]. destruct o; cbn [seq_step sq_vals sq_pos]; try (cbn [fst sq_vals]; lia).
  - destruct (m && _); cbn [fst sq_vals]; [rewrite app_length; cbn [length]; lia | lia].
  - destruct (_ && _); cbn [fst sq_vals]; [|lia]. unfold insert_at. rewrite app_length, firstn_length.
    cbn [length]. rewrite skipn_length. lia.
  - destruct (_ <? _)%N; cbn [fst sq_vals]; [apply R | lia].
  - destruct (v =? 0)%N; [cbn [fst sq_vals]; lia|].
    destruct (index_of v l); cbn [fst sq_vals]; [apply R | lia].
  - destruct l; cbn [fst sq_vals]; [lia | apply R].
  - cbn [fst sq_vals length]. lia.
Qed.

Fixpoint ends_only (fuel : nat) (s : st) (ops : list lop) : Prop :=
  match ops with
  | [] => True
  | o :: t => at_end s o /\ match lstep fuel alloc s o with Some (s, _) => ends_only fuel s t | None => True end
  end.

Lemma list_run ops : forall fuel h L l pos, rep h L l pos -> length l + length ops <= fuel ->
  ends_only fuel (h, L) ops ->
  exists s' outs mems, lrun fuel alloc (h, L) ops = Some (s', outs) /\ length mems = length ops /\
    outs = seq_run (ll_capacity L) (seq_of l pos) ops mems /\
    ((forall h, alloc h <> None) -> Forall (eq true) mems).
Proof.
  induction ops as [|o ops IH]; intros fuel h L l pos R Hf E.
  - exists (h, L), [], []. repeat split. constructor.
  - cbn [ends_only] in E. destruct E as [E1 E2]. cbn [length] in Hf.
    destruct (list_step h L l pos fuel o R ltac:(lia) E1) as (h' & L' & l' & pos' & r & Er & R' & C & F & Es).
    rewrite Er in E2. pose proof (seq_step_length (ll_capacity L) (has_memory alloc h) (seq_of l pos) o) as Len.
    rewrite Es in Len. cbn [fst sq_vals seq_of] in Len. rewrite !vals_length in Len.
    destruct (IH fuel h' L' l' pos' R' ltac:(lia) E2) as (s' & outs & mems & Eo & Em & Eq & Ea).
    exists s', (r :: outs), (has_memory alloc h :: mems). cbn [lrun]. rewrite Er, Eo. split; [reflexivity|].
    split; [cbn [length]; now rewrite Em|]. split.
    + cbn [seq_run]. rewrite Es, Eq, C. reflexivity.
    + intros A. constructor; [|now apply Ea]. unfold has_memory. specialize (A h). destruct (alloc h); [reflexivity | contradiction].
Qed.

Definition full_capacity (capacity : N) : N := if (capacity =? 0)%N then max_size else capacity.

(** C45 but for insertion in the middle: a list made by NewLinkedList in any
    heap answers every call as the sequence does and never follows a bad
    pointer.  [fuel] only bounds the loops of the model. *)
Theorem linked_list_sequence_partial h0 capacity ops fuel : length ops <= fuel ->
  ends_only fuel (h0, NewLinkedList capacity) ops ->
  exists s' outs mems, lrun fuel alloc (h0, NewLinkedList capacity) ops = Some (s', outs) /\
    length mems = length ops /\
    outs = seq_run (full_capacity capacity) (mkSeq [] 0) ops mems /\
    ((forall h, alloc h <> None) -> Forall (eq true) mems).
Proof.
  intros Hf E. apply (list_run ops fuel h0 (NewLinkedList capacity) [] 0); [|exact Hf | exact E].
  split; cbn [NewLinkedList ll_head ll_tail ll_elements ll_next seg ids map addr skipn length];
    [exact I | constructor | reflexivity | | reflexivity | reflexivity | lia].
  intros l' a v X. destruct l'; discriminate X.
Qed.
End Alloc.

(** an allocator for the examples: the first free address below 100 *)
Definition first_fit (h : heap) : option nat :=
  find (fun a => match h a with None => true | Some _ => false end) (seq 0 100).
Lemma first_fit_fresh h a : first_fit h = Some a -> h a = None.
Proof. unfold first_fit. intros E. apply find_some in E. destruct E as [_ E]. now destruct (h a). Qed.
Definition empty_heap : heap := fun _ => None.

Example linked_list_ex :
  let ops := [LAppend 10; LAppend 20; LInsert 0 5; LNext; LInsert 3 30; LRemoveValue 20; LGet 1; LNext; LRemoveLast; LLast; LToArray; LCount]%N in
  ends_only first_fit 20 (empty_heap, NewLinkedList 0) ops /\
  option_map snd (lrun 20 first_fit (empty_heap, NewLinkedList 0) ops) =
  Some [OBool true; OBool true; OBool true; OVal 5; OBool true; OVal 20; OVal 10; OVal 10; OVal 30; OVal 10;
        OArray [5; 10]; OVal 2]%N.
Proof. split; [vm_compute; repeat split; try (right; discriminate); left; reflexivity | vm_compute; reflexivity]. Qed.

(** C45 fails for insertion in the middle (hashmap.c 1030-1049): the value is
    lost while the count goes up, and removing the element that the count
    promises follows a NULL pointer *)
Theorem linked_list_insert_refuted : exists ops,
  option_map snd (lrun 20 first_fit (empty_heap, NewLinkedList 0) ops) <>
    Some (seq_run max_size (mkSeq [] 0) ops (repeat true (length ops))) /\
  option_map snd (lrun 20 first_fit (empty_heap, NewLinkedList 0) ops) =
    Some [OBool true; OBool true; OBool true; OArray [10; 20]; OVal 3]%N /\
  lrun 20 first_fit (empty_heap, NewLinkedList 0) (ops ++ [LRemove 2%N]) = None.
Proof.
  exists [LAppend 10; LAppend 20; LInsert 1 15; LToArray; LCount]%N.
  split; [vm_compute; discriminate|]. split; vm_compute; reflexivity.
Qed.

(** in general: an insertion strictly inside a list leaves its elements as
    they were and counts one more *)
Theorem linked_list_insert_lost alloc h L l pos i v a :
  rep h L l pos -> alloc h = Some a -> h a = None -> v <> 0%N ->
  (0 < i < N.of_nat (length l))%N -> (N.of_nat (length l) <> ll_capacity L)%N ->
  exists h' L', InsertValueInLinkedList alloc (h, L) i v = Some ((h', L'), true) /\
    seg h' l None /\ ll_head L' = addr l None /\ ll_elements L' = (N.of_nat (length l) + 1)%N.
Proof.
  intros R A Ha Nv Hi Hc. unfold InsertValueInLinkedList. rewrite (r_count _ _ _ _ R), A.
  replace (v =? 0)%N with false by lia. replace (N.of_nat (length l) <? i)%N with false by lia.
  replace (N.of_nat (length l) =? ll_capacity L)%N with false by lia. cbn [orb].
  replace (N.of_nat (length l) =? 0)%N with false by lia. replace (i =? 0)%N with false by lia.
  replace (i =? N.of_nat (length l))%N with false by lia.
  destruct (split_at l (N.to_nat i - 1) ltac:(lia)) as (l1 & b & w & l2 & -> & E).
  pose proof (r_seg _ _ _ _ R) as S. pose proof (seg_live _ _ _ _ S Ha) as Na.
  pose proof (seg_hset _ a (Some (mkElement v None)) _ _ Na S) as S1.
  rewrite (r_head _ _ _ _ R), (walk_ok _ _ None (N.to_nat i - 1) l1 ((b, w) :: l2) eq_refl E S1).
  cbn [addr deref]. pose proof (deref_mid _ _ _ _ _ _ S1) as Eb. rewrite Eb. cbn [e_next].
  rewrite (set_next_some _ a v None) by apply hset_same.
  set (h1 := hset (hset h a _) a _). pose proof (seg_hset _ a (Some (mkElement v (addr l2 None))) _ _ Na S1) as S2.
  fold h1 in S2. pose proof (deref_mid _ _ _ _ _ _ S2) as Eb2.
  rewrite (set_next_some _ _ _ _ _ Eb2).
  assert (S3 : seg (hset h1 b (Some (mkElement w (addr l2 None)))) (l1 ++ (b, w) :: l2) None).
  { revert S2. apply seg_frame. intros q _. unfold hset at 1. destruct (Nat.eqb_spec q b) as [->|]; [now rewrite Eb2 | reflexivity]. }
  destruct l2 as [|[c x] l2].
  { rewrite app_length in Hi. cbn [length] in Hi. lia. }
  cbn [addr deref]. assert (Ec : hset h1 b (Some (mkElement w (Some c))) c = Some (mkElement x (addr l2 None))).
  { pose proof S3 as S4. apply seg_app in S4. destruct S4 as [_ [_ [S4 _]]]. exact S4. }
  rewrite Ec. do 2 eexists. split; [reflexivity|]. split; [exact S3|]. split; reflexivity.
Qed.

(** * C46 *)

(** what sorted insertion does to the values *)
Fixpoint sorted_put (compare : N -> N -> Z) (replace : bool) (v : N) (l : list N) : list N * option N :=
  match l with
  | [] => ([v], None)
  | x :: t =>
      if (compare v x <? 0)%Z then (v :: l, None)
      else if replace && (compare v x =? 0)%Z then (v :: t, Some x)
      else let (r, o) := sorted_put compare replace v t in (x :: r, o)
  end.

Definition laddr (l : cells) : option nat := last (map (fun c => Some (fst c)) l) None.
Lemma laddr_snoc l a v : laddr (l ++ [(a, v)]) = Some a.
Proof. unfold laddr. rewrite map_app. cbn. apply last_last. Qed.

Definition gone_cells (g : option (N * option nat)) : cells :=
  match g with Some (v, Some b) => [(b, v)] | _ => [] end.
Definition gone_ok (g : option (N * option nat)) : Prop := match g with Some (_, None) => False | _ => True end.

Lemma sorted_place_ok compare replace h value m : forall p fuel, length m <= fuel -> seg h m None ->
  exists m1 m2 g, m = m1 ++ gone_cells g ++ m2 /\ gone_ok g /\
    sorted_place fuel compare replace h value (laddr p) (addr m None) = Some (laddr (p ++ m1), addr m2 None, g) /\
    sorted_put compare replace value (vals m) = (vals m1 ++ value :: vals m2, match g with Some (v, _) => Some v | None => None end).
Proof.
  induction m as [|[a v] m IH]; intros p fuel Hf S.
  - exists [], [], None. cbn. rewrite app_nil_r. repeat split. destruct fuel; reflexivity.
  - destruct fuel as [|fuel]; [cbn in Hf; lia|]. cbn [addr sorted_place]. destruct S as [E S]. rewrite E.
    cbn [e_value e_next vals map snd sorted_put]. fold (vals m).
    destruct (compare value v <? 0)%Z.
    { exists [], ((a, v) :: m), None. rewrite app_nil_r. repeat split. }
    destruct (replace && (compare value v =? 0)%Z).
    { exists [], m, (Some (v, Some a)). rewrite app_nil_r. repeat split. }
    destruct (IH (p ++ [(a, v)]) fuel ltac:(cbn in Hf; lia) S) as (m1 & m2 & g & E1 & G & E2 & E3).
    exists ((a, v) :: m1), m2, g. rewrite laddr_snoc in E2. rewrite <- app_assoc in E2. cbn [app] in *.
    split; [now rewrite E1|]. split; [exact G|]. split; [exact E2|]. rewrite E3. reflexivity.
Qed.

(** the list after sorted insertion; the iterator must be reset before it is
    used again (see below) *)
Theorem sorted_insert_list alloc compare replace h L l pos fuel value a :
  (forall h a, alloc h = Some a -> h a = None) ->
  rep h L l pos -> length l <= fuel -> value <> 0%N -> (N.of_nat (length l) <> ll_capacity L)%N ->
  alloc h = Some a ->
  exists h' L' l', InsertValueInSortedLinkedList alloc fuel compare replace (h, L) value =
      Some ((h', L'), (true, snd (sorted_put compare replace value (vals l)))) /\
    rep h' (snd (ResetLinkedListIterator (h', L'))) l' 0 /\ ll_capacity L' = ll_capacity L /\
    vals l' = fst (sorted_put compare replace value (vals l)).
Proof.
  intros Fr R Hf Nv Hc A. unfold InsertValueInSortedLinkedList. rewrite (r_count _ _ _ _ R), A.
  replace (value =? 0)%N with false by lia. replace (N.of_nat (length l) =? ll_capacity L)%N with false by lia.
  pose proof (Fr _ _ A) as Ha. pose proof (r_seg _ _ _ _ R) as S0. pose proof (seg_live _ _ _ _ S0 Ha) as Na.
  rewrite (r_head _ _ _ _ R). set (h1 := hset h a _).
  assert (S : seg h1 l None) by now apply seg_hset.
  destruct (sorted_place_ok compare replace h1 value l [] fuel Hf S) as (m1 & m2 & g & E1 & G & E2 & E3).
  change (laddr []) with (@None nat) in E2. cbn [app] in E2. rewrite E2, E3. cbn [snd fst].
  pose proof (r_nodup _ _ _ _ R) as N. rewrite E1 in N, Na, S.
  rewrite !ids_app in N, Na. rewrite !in_app_iff in Na.
  apply seg_app in S. destruct S as [S1 S2]. apply seg_app in S2. destruct S2 as [S2 S3].
  rewrite (set_next_some h1 a value (addr l None)) by apply hset_same.
  set (h2 := hset h1 a (Some (mkElement value (addr m2 None)))).
  assert (N12 : NoDup (ids m1 ++ ids m2)).
  { clear - N. destruct g as [[x [b|]]|]; cbn [gone_cells ids map fst app] in N; try exact N.
    apply NoDup_remove_1 in N. exact N. }
  assert (Dis : forall q, In q (ids (gone_cells g)) -> ~ In q (ids m1) /\ ~ In q (ids m2)).
  { intros q. clear - N. destruct g as [[x [b|]]|]; cbn [gone_cells ids map fst app] in *; try contradiction.
    apply NoDup_remove_2 in N. rewrite in_app_iff in N. intros [<-|[]]. tauto. }
  set (h3 := match g with Some (_, q) => match laddr m1 with Some _ => hfree h2 q | None => h2 end | None => h2 end).
  assert (H3 : forall q, In q (ids m1) \/ In q (ids m2) -> h3 q = h1 q).
  { intros q Hq. assert (X : h2 q = h1 q).
    { apply hset_other. intros ->. destruct Hq; apply Na; auto. }
    unfold h3. destruct g as [[x [b|]]|]; [|contradiction | exact X].
    destruct (laddr m1); [|exact X]. cbn [hfree]. rewrite hset_other; [exact X|].
    intros ->. destruct (Dis b (or_introl eq_refl)). destruct Hq; contradiction. }
  assert (H3a : h3 a = Some (mkElement value (addr m2 None))).
  { assert (X : h2 a = Some (mkElement value (addr m2 None))) by apply hset_same.
    unfold h3. destruct g as [[x [b|]]|]; [|contradiction | exact X].
    destruct (laddr m1); [|exact X]. cbn [hfree]. rewrite hset_other; [exact X|].
    intros ->. apply Na. right. left. now left. }
  replace (match g with Some (_, q) => match laddr m1 with Some _ => hfree h2 q | None => h2 end | None => h2 end)
    with h3 by reflexivity.
  assert (Last : m1 = [] \/ exists m b w, m1 = m ++ [(b, w)]).
  { destruct m1; [now left | right; apply split_last; discriminate]. }
  assert (S3' : seg h3 m2 None) by (revert S3; apply seg_frame; intros q Hq; apply H3; now right).
  assert (Tail : forall l' b w, m1 ++ (a, value) :: m2 = l' ++ [(b, w)] ->
    match addr m2 None with None => Some a | Some _ => ll_tail L end = Some b).
  { intros l' b w E. destruct m2 as [|[c x] m2'] eqn:Em.
    - cbn [addr]. apply app_inj_tail in E. destruct E as [_ E]. now injection E as -> ->.
    - cbn [addr]. rewrite <- Em in *. destruct (split_last m2) as (m & c' & x' & E'); [subst; discriminate|].
      rewrite E' in E. change ((a, value) :: m ++ [(c', x')]) with (((a, value) :: m) ++ [(c', x')]) in E.
      rewrite app_assoc in E. apply app_inj_tail in E. destruct E as [_ E]. injection E as -> ->.
      apply (r_tail _ _ _ _ R (m1 ++ gone_cells g ++ m) b w). rewrite E1, E', <- !app_assoc. reflexivity. }
  assert (Cnt : N.of_nat (length (m1 ++ (a, value) :: m2)) =
     (match g with Some _ => N.of_nat (length l) - 1 | None => N.of_nat (length l) end + 1)%N).
  { rewrite E1, !app_length. cbn [length]. destruct g as [[x [b|]]|]; cbn [gone_cells length]; [lia | contradiction | lia]. }
  assert (ND : NoDup (ids (m1 ++ (a, value) :: m2))).
  { rewrite ids_app. cbn [ids map fst]. apply (NoDup_Add (a := a) (l := ids m1 ++ ids m2)); [apply Add_app|].
    split; [exact N12|]. rewrite in_app_iff. tauto. }
  destruct Last as [-> | (m & b & w & ->)].
  - change (laddr []) with (@None nat) in *. cbn [app] in *.
    exists h3. do 1 eexists. exists ((a, value) :: m2). split; [reflexivity|].
    split; [|split; reflexivity].
    split; cbn [ResetLinkedListIterator snd ll_head ll_tail ll_elements ll_next skipn].
    + split; [exact H3a | exact S3'].
    + exact ND.
    + reflexivity.
    + exact Tail.
    + symmetry. exact Cnt.
    + reflexivity.
    + lia.
  - rewrite laddr_snoc in *.
    assert (Eb : h3 b = Some (mkElement w (addr (gone_cells g ++ m2) None))).
    { rewrite H3 by (left; rewrite ids_app; apply in_or_app; right; now left).
      apply seg_app in S1. destruct S1 as [_ [S1 _]]. exact S1. }
    rewrite (set_next_some _ _ _ _ _ Eb).
    assert (Nb : ~ In b (ids m) /\ ~ In b (ids m2) /\ b <> a).
    { rewrite <- app_assoc in ND. cbn [app] in ND. destruct (NoDup_mid _ _ _ _ ND) as (X & Y & _).
      cbn [ids map fst In] in Y. repeat split; [exact X | tauto |]. intros ->. tauto. }
    destruct Nb as (Nb1 & Nb2 & Nb3).
    exists (hset h3 b (Some (mkElement w (Some a)))). do 1 eexists. exists ((m ++ [(b, w)]) ++ (a, value) :: m2).
    split; [reflexivity|]. split; [|split; [reflexivity | now rewrite vals_app]].
    split; cbn [ResetLinkedListIterator snd ll_head ll_tail ll_elements ll_next skipn].
    + apply seg_app. split; [apply seg_app; split|].
      * apply seg_app in S1. destruct S1 as [S1 _]. apply seg_hset; [exact Nb1|]. cbn [addr].
        revert S1. apply seg_frame. intros q Hq. apply H3. left. rewrite ids_app. apply in_or_app. now left.
      * split; [apply hset_same | exact I].
      * split; [rewrite hset_other by congruence; exact H3a|]. now apply seg_hset.
    + exact ND.
    + rewrite E1. destruct m as [|[]]; reflexivity.
    + exact Tail.
    + symmetry. exact Cnt.
    + rewrite E1. destruct m as [|[]]; reflexivity.
    + lia.
Qed.

(** what [sorted_put] means: the list stays sorted, ... *)
Lemma sorted_put_sorted compare replace v l : preorder compare -> StronglySorted (cle compare) l ->
  StronglySorted (cle compare) (fst (sorted_put compare replace v l)).
Proof.
  intros [Sg Tr] S. unfold cle in *. induction S as [|x l S IH F]; cbn [sorted_put fst]; [repeat constructor|].
  destruct (Z.ltb_spec (compare v x) 0) as [Lt|Ge].
  { cbn [fst]. constructor; [now constructor|]. constructor; [lia|].
    eapply Forall_impl; [|exact F]. intros y Hy. apply (Tr v x y); [lia | exact Hy]. }
  destruct (replace && (compare v x =? 0)%Z) eqn:E.
  { apply andb_true_iff in E. destruct E as [_ E]. cbn [fst]. constructor; [exact S|].
    eapply Forall_impl; [|exact F]. intros y Hy. apply (Tr v x y); [lia | exact Hy]. }
  destruct (sorted_put compare replace v l) as [r o] eqn:Er. cbn [fst] in *. constructor; [exact IH|].
  assert (X : (compare x v <= 0)%Z) by (apply Sg; exact Ge).
  assert (G : forall y, In y r -> y = v \/ In y l).
  { clear - Er. revert r o Er. induction l as [|z l IH]; intros r o; cbn [sorted_put].
    - intros E. injection E as <- <-. intros y [<-|[]]. now left.
    - destruct (compare v z <? 0)%Z; [intros E; injection E as <- <-; intros y [<-|Hy]; auto|].
      destruct (replace && _); [intros E; injection E as <- <-; intros y [<-|Hy]; [now left | right; now right]|].
      destruct (sorted_put compare replace v l) as [r' o'] eqn:Er. intros E. injection E as <- <-.
      intros y [<-|Hy]; [right; now left|]. destruct (IH _ _ eq_refl y Hy); [now left | right; now right]. }
  apply Forall_forall. intros y Hy. destruct (G y Hy) as [->|Hy']; [exact X|].
  rewrite Forall_forall in F. now apply F.
Qed.

(** ... without replacement the value is added after its equals, ... *)
Lemma sorted_put_insert compare v l : preorder compare -> StronglySorted (cle compare) l ->
  exists l1 l2, l = l1 ++ l2 /\ sorted_put compare false v l = (l1 ++ v :: l2, None) /\
    Forall (fun x => (compare x v <= 0)%Z) l1 /\ Forall (fun x => (compare v x < 0)%Z) l2.
Proof.
  intros [Sg Tr] S. unfold cle in *. induction S as [|x l S IH F]; cbn [sorted_put andb].
  - exists [], []. repeat split; constructor.
  - destruct (Z.ltb_spec (compare v x) 0) as [Lt|Ge].
    + exists [], (x :: l). repeat split; [constructor|]. constructor; [exact Lt|].
      eapply Forall_impl; [|exact F]. cbn beta. intros y Hy.
      destruct (Z.lt_ge_cases (compare v y) 0) as [|C]; [assumption|]. exfalso.
      assert (compare x v <= 0)%Z by (apply (Tr x y v); [exact Hy | now apply Sg]).
      apply Sg in H. lia.
    + destruct IH as (l1 & l2 & -> & -> & F1 & F2). exists (x :: l1), l2. repeat split; [|exact F2].
      constructor; [now apply Sg | exact F1].
Qed.

(** ... and with it the first equal value is replaced when there is one *)
Lemma sorted_put_replace compare v l : preorder compare -> StronglySorted (cle compare) l ->
  exists l1 l2, Forall (fun x => (compare x v < 0)%Z) l1 /\
   ((exists x, l = l1 ++ x :: l2 /\ compare v x = 0%Z /\ sorted_put compare true v l = (l1 ++ v :: l2, Some x)) \/
    (l = l1 ++ l2 /\ Forall (fun x => (compare v x < 0)%Z) l2 /\ sorted_put compare true v l = (l1 ++ v :: l2, None))).
Proof.
  intros [Sg Tr] S. unfold cle in *. induction S as [|x l S IH F]; cbn [sorted_put andb].
  - exists [], []. split; [constructor|]. right. repeat split; constructor.
  - destruct (Z.ltb_spec (compare v x) 0) as [Lt|Ge].
    + exists [], (x :: l). split; [constructor|]. right. repeat split. constructor; [exact Lt|].
      eapply Forall_impl; [|exact F]. cbn beta. intros y Hy.
      destruct (Z.lt_ge_cases (compare v y) 0) as [|C]; [assumption|]. exfalso.
      assert (compare x v <= 0)%Z by (apply (Tr x y v); [exact Hy | now apply Sg]).
      apply Sg in H. lia.
    + destruct (Z.eqb_spec (compare v x) 0) as [E|Ne].
      { exists [], l. split; [constructor|]. left. exists x. repeat split. exact E. }
      assert (X : (compare x v < 0)%Z).
      { assert (compare x v <= 0)%Z by now apply Sg. destruct (Z.eq_dec (compare x v) 0) as [C|]; [|lia].
        assert (0 <= compare x v)%Z by lia. apply Sg in H0. lia. }
      destruct IH as (l1 & l2 & F1 & [(y & -> & Ey & ->) | (-> & F2 & ->)]); exists (x :: l1), l2; (split; [now constructor|]).
      * left. exists y. repeat split. exact Ey.
      * right. repeat split. exact F2.
Qed.

(** C46: sorted insertion in a sorted list.  The list stays well formed and
    sorted; the new value lands after its equals, or takes the place of the
    first of them, which is handed back. *)
Theorem sorted_insert_correct alloc compare h L l pos fuel value a :
  (forall h a, alloc h = Some a -> h a = None) -> preorder compare ->
  rep h L l pos -> length l <= fuel -> value <> 0%N -> (N.of_nat (length l) <> ll_capacity L)%N ->
  alloc h = Some a -> StronglySorted (cle compare) (vals l) ->
  (exists h' L' l' l1 l2,
     InsertValueInSortedLinkedList alloc fuel compare false (h, L) value = Some ((h', L'), (true, None)) /\
     rep h' (snd (ResetLinkedListIterator (h', L'))) l' 0 /\ StronglySorted (cle compare) (vals l') /\
     vals l = l1 ++ l2 /\ vals l' = l1 ++ value :: l2 /\
     Forall (fun x => (compare x value <= 0)%Z) l1 /\ Forall (fun x => (compare value x < 0)%Z) l2) /\
  (exists h' L' l' l1 l2 old,
     InsertValueInSortedLinkedList alloc fuel compare true (h, L) value = Some ((h', L'), (true, old)) /\
     rep h' (snd (ResetLinkedListIterator (h', L'))) l' 0 /\ StronglySorted (cle compare) (vals l') /\
     vals l' = l1 ++ value :: l2 /\ Forall (fun x => (compare x value < 0)%Z) l1 /\
     match old with
     | Some x => vals l = l1 ++ x :: l2 /\ compare value x = 0%Z
     | None => vals l = l1 ++ l2 /\ Forall (fun x => (compare value x < 0)%Z) l2
     end).
Proof.
  intros Fr P R Hf Nv Hc A S. split.
  - destruct (sorted_insert_list alloc compare false h L l pos fuel value a Fr R Hf Nv Hc A) as (h' & L' & l' & E & R' & _ & V).
    pose proof (sorted_put_sorted compare false value _ P S) as S'.
    destruct (sorted_put_insert compare value _ P S) as (l1 & l2 & El & Ep & F1 & F2).
    rewrite Ep in *. exists h', L', l', l1, l2. rewrite V. repeat (split; [assumption || reflexivity|]). exact F2.
  - destruct (sorted_insert_list alloc compare true h L l pos fuel value a Fr R Hf Nv Hc A) as (h' & L' & l' & E & R' & _ & V).
    pose proof (sorted_put_sorted compare true value _ P S) as S'.
    destruct (sorted_put_replace compare value _ P S) as (l1 & l2 & F1 & [(x & El & Ex & Ep) | (El & F2 & Ep)]);
      rewrite Ep in *; cbn [fst snd] in *.
    + exists h', L', l', l1, l2, (Some x). rewrite V. repeat (split; [assumption || reflexivity|]). assumption.
    + exists h', L', l', l1, l2, None. rewrite V. repeat (split; [assumption || reflexivity|]). assumption.
Qed.

Definition zcompare (x y : N) : Z := (Z.of_N x / 10 - Z.of_N y / 10)%Z.
Lemma zcompare_preorder : preorder zcompare.
Proof. split; unfold zcompare; intros; [split; intros|]; lia. Qed.

Definition three_tens : option (st * list lout) :=
  lrun 20 first_fit (empty_heap, NewLinkedList 0) [LAppend 10; LAppend 20; LAppend 30]%N.

Example sorted_insert_ex :
  match three_tens with
  | Some (s, _) =>
      option_map (fun r => (snd r, option_map snd (lrun 20 first_fit (fst r) [LToArray; LCount; LLast])))
        (InsertValueInSortedLinkedList first_fit 20 zcompare true s 24) =
        Some ((true, Some 20%N), Some [OArray [10; 24; 30]%N; OVal 3; OVal 30]) /\
      option_map (fun r => (snd r, option_map snd (lrun 20 first_fit (fst r) [LToArray; LCount; LLast])))
        (InsertValueInSortedLinkedList first_fit 20 zcompare false s 34) =
        Some ((true, None), Some [OArray [10; 20; 30; 34]%N; OVal 4; OVal 34])
  | None => False
  end.
Proof. vm_compute. split; reflexivity. Qed.

(** the two flaws of a replacement: an iterator that stands on the replaced
    element is left dangling (the next GetNextValueInLinkedList reads freed
    memory) *)
Theorem sorted_replace_iterator_refuted : exists s r,
  lrun 20 first_fit (empty_heap, NewLinkedList 0) [LAppend 10; LAppend 20; LAppend 30; LNext]%N = Some (s, r) /\
  match InsertValueInSortedLinkedList first_fit 20 zcompare true s 24 with
  | Some (s', _) => lstep 20 first_fit s' LNext = None
  | None => False
  end.
Proof. do 2 eexists. split; [vm_compute; reflexivity|]. vm_compute. reflexivity. Qed.

(** and a replaced first element is never freed: no element is reachable from
    the list at its address, which stays allocated *)
Theorem sorted_replace_leak_refuted : exists s r a h' L' l',
  lrun 20 first_fit (empty_heap, NewLinkedList 0) [LAppend 10; LAppend 20]%N = Some (s, r) /\
  InsertValueInSortedLinkedList first_fit 20 zcompare true s 14 = Some ((h', L'), (true, Some 10%N)) /\
  seg h' l' None /\ ll_head L' = addr l' None /\ h' a <> None /\ ~ In a (ids l').
Proof.
  do 2 eexists. exists 0. do 2 eexists. exists [(2, 14%N); (1, 20%N)]. split; [vm_compute; reflexivity|].
  split; [vm_compute; reflexivity|]. split; [vm_compute; repeat split|]. split; [reflexivity|].
  split; [vm_compute; discriminate|]. cbn. intros [E|[E|[]]]; discriminate E.
Qed.

Print Assumptions linked_list_sequence_partial.
Print Assumptions list_step.
Print Assumptions linked_list_insert_refuted.
Print Assumptions linked_list_insert_lost.
Print Assumptions sorted_insert_correct.
Print Assumptions sorted_replace_iterator_refuted.
Print Assumptions sorted_replace_leak_refuted.
