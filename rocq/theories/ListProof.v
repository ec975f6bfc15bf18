(** The heap of a linked list: representation and one lemma per function. *)
From Coq Require Import NArith ZArith Arith List Bool Lia ZifyBool ZifyNat ZifyN.
From Verif Require Import ListModel ListSpec.
Import ListNotations.

Definition cells := list (nat * N).
Definition ids (l : cells) : list nat := map fst l.
Definition vals (l : cells) : list N := map snd l.
Definition addr (l : cells) (q : option nat) : option nat :=
  match l with [] => q | (a, _) :: _ => Some a end.

Fixpoint seg (h : heap) (l : cells) (q : option nat) : Prop :=
  match l with
  | [] => True
  | (a, v) :: t => h a = Some (mkElement v (addr t q)) /\ seg h t q
  end.

Lemma addr_app l m q : addr (l ++ m) q = addr l (addr m q).
Proof. now destruct l as [|[]]. Qed.

Lemma seg_app h l m q : seg h (l ++ m) q <-> seg h l (addr m q) /\ seg h m q.
Proof.
  induction l as [|[a v] l IH]; cbn [app seg]; [tauto|]. rewrite IH, addr_app. tauto.
Qed.

Lemma hset_same h a c : hset h a c a = c.
Proof. unfold hset. now rewrite Nat.eqb_refl. Qed.
Lemma hset_other h a c q : q <> a -> hset h a c q = h q.
Proof. intros H. unfold hset. destruct (Nat.eqb_spec q a); [contradiction | reflexivity]. Qed.

Lemma seg_frame h h' l q : (forall a, In a (ids l) -> h' a = h a) -> seg h l q -> seg h' l q.
Proof.
  induction l as [|[a v] l IH]; cbn [seg ids map]; [trivial|]. intros E [S1 S2]. split.
  - rewrite E; [exact S1 | now left].
  - apply IH; [|exact S2]. intros b Hb. apply E. now right.
Qed.

Lemma seg_hset h a c l q : ~ In a (ids l) -> seg h l q -> seg (hset h a c) l q.
Proof. intros N. apply seg_frame. intros b Hb. apply hset_other. intros ->. contradiction. Qed.

Lemma ids_app l m : ids (l ++ m) = ids l ++ ids m.
Proof. apply map_app. Qed.
Lemma vals_app l m : vals (l ++ m) = vals l ++ vals m.
Proof. apply map_app. Qed.
Lemma ids_length l : length (ids l) = length l.
Proof. apply map_length. Qed.
Lemma vals_length l : length (vals l) = length l.
Proof. apply map_length. Qed.

Record rep (h : heap) (L : LinkedListInfo) (l : cells) (pos : nat) : Prop := {
  r_seg : seg h l None;
  r_nodup : NoDup (ids l);
  r_head : ll_head L = addr l None;
  r_tail : forall l' a v, l = l' ++ [(a, v)] -> ll_tail L = Some a;
  r_count : ll_elements L = N.of_nat (length l);
  r_next : ll_next L = addr (skipn pos l) None;
  r_pos : pos <= length l
}.

(** memory outside the list is untouched and removed elements are freed *)
Definition frame (h : heap) (l : cells) (h' : heap) (l' : cells) : Prop :=
  forall q, ~ In q (ids l') -> (In q (ids l) -> h' q = None) /\ (~ In q (ids l) -> h' q = h q).

Lemma frame_refl h l : frame h l h l.
Proof. intros q N. split; [contradiction | reflexivity]. Qed.

Lemma deref_mid h l1 a v l2 q : seg h (l1 ++ (a, v) :: l2) q -> h a = Some (mkElement v (addr l2 q)).
Proof. rewrite seg_app. cbn [seg]. intros (_ & E & _). exact E. Qed.

Lemma NoDup_mid l1 a v l2 : NoDup (ids (l1 ++ (a, v) :: l2)) ->
  ~ In a (ids l1) /\ ~ In a (ids l2) /\ NoDup (ids (l1 ++ l2)).
Proof.
  rewrite !ids_app. cbn [ids map fst]. intros N. apply NoDup_remove in N. destruct N as [N1 N2].
  rewrite in_app_iff in N2. tauto.
Qed.

(** splitting at an index *)
Lemma split_at (l : cells) i : i < length l -> exists l1 a v l2, l = l1 ++ (a, v) :: l2 /\ length l1 = i.
Proof.
  intros H. destruct (nth_error l i) as [[a v]|] eqn:E; [|apply nth_error_None in E; lia].
  destruct (nth_error_split _ _ E) as (l1 & l2 & -> & L). eauto 6.
Qed.

Lemma split_last (l : cells) : l <> [] -> exists l' a v, l = l' ++ [(a, v)].
Proof. intros H. destruct (exists_last H) as (l' & [a v] & ->). eauto. Qed.

Lemma walk_ok h l q : forall n l1 l2, l = l1 ++ l2 -> length l1 = n -> seg h l q -> walk h (addr l q) n = Some (addr l2 q).
Proof.
  intros n. revert l. induction n as [|n IH]; intros l l1 l2 -> L S.
  - destruct l1; [reflexivity | discriminate].
  - destruct l1 as [|[a v] l1]; [discriminate|]. cbn [app seg addr] in *. destruct S as [E S].
    cbn [walk deref]. rewrite E. cbn [e_next]. apply (IH (l1 ++ l2) l1 l2 eq_refl); [now injection L | exact S].
Qed.

Lemma set_next_some h a v n q : h a = Some (mkElement v n) ->
  set_next h (Some a) q = Some (hset h a (Some (mkElement v q))).
Proof. intros E. unfold set_next. cbn [deref]. rewrite E. reflexivity. Qed.

Lemma peq_refl p : peq p p = true.
Proof. destruct p; [apply Nat.eqb_refl | reflexivity]. Qed.
Lemma peq_true p q : peq p q = true -> p = q.
Proof. destruct p, q; cbn; try discriminate; [|reflexivity]. intros E. apply Nat.eqb_eq in E. now subst. Qed.

(** where two places of a list without repetition are the same place *)
Lemma addr_skipn_inj l i j : NoDup (ids l) -> i <= length l -> j <= length l ->
  addr (skipn i l) None = addr (skipn j l) None -> i = j.
Proof.
  intros N. revert i j. induction l as [|[a v] l IH]; intros i j Hi Hj E; cbn [length] in *; [lia|].
  cbn [ids map fst] in N. inversion_clear N as [|? ? N1 N2].
  assert (F : forall k, k <= length l -> addr (skipn k l) None <> Some a).
  { intros k Hk C. apply N1. rewrite <- (firstn_skipn k l), ids_app. apply in_or_app. right.
    destruct (skipn k l) as [|[b w] t]; [discriminate|]. cbn in C. injection C as ->. now left. }
  destruct i as [|i], j as [|j]; cbn [skipn addr] in E.
  - reflexivity.
  - exfalso. apply (F j); [lia | now symmetry].
  - exfalso. apply (F i); [lia | exact E].
  - f_equal. apply IH; try lia; assumption.
Qed.

Lemma peq_addr l i j : NoDup (ids l) -> i <= length l -> j <= length l ->
  peq (addr (skipn i l) None) (addr (skipn j l) None) = (i =? j).
Proof.
  intros N Hi Hj. destruct (Nat.eqb_spec i j) as [->|D]; [apply peq_refl|].
  destruct (peq _ _) eqn:E; [|reflexivity]. apply peq_true in E. exfalso. apply D.
  now apply (addr_skipn_inj l).
Qed.

Lemma skipn_mid {A} (l1 : list A) x l2 pos : pos <= length l1 ->
  skipn pos (l1 ++ x :: l2) = skipn pos l1 ++ x :: l2.
Proof. intros H. rewrite skipn_app. replace (pos - length l1) with 0 by lia. reflexivity. Qed.
Lemma skipn_mid2 {A} (l1 : list A) x l2 pos : length l1 < pos ->
  skipn pos (l1 ++ x :: l2) = skipn (pred pos) (l1 ++ l2).
Proof.
  intros H. rewrite !skipn_app, (skipn_all2 l1 (n := pos)), (skipn_all2 l1 (n := pred pos)) by lia.
  replace (pos - length l1) with (S (pred pos - length l1)) by lia. reflexivity.
Qed.

Lemma remove_mid l1 a v l2 :
  remove_at (vals (l1 ++ (a, v) :: l2)) (length l1) = vals (l1 ++ l2) /\
  nth (length l1) (vals (l1 ++ (a, v) :: l2)) 0%N = v.
Proof.
  rewrite !vals_app. cbn [vals map snd]. split.
  - unfold remove_at. rewrite <- (vals_length l1), firstn_app, firstn_all, Nat.sub_diag. cbn [firstn].
    rewrite app_nil_r. f_equal. rewrite skipn_app, skipn_all2 by lia.
    replace (S (length (vals l1)) - length (vals l1)) with 1 by lia. reflexivity.
  - rewrite <- (vals_length l1), app_nth2, Nat.sub_diag by lia. reflexivity.
Qed.

(** ** removal of the element [a] in the middle or at the head *)

Lemma rep_remove h L h' L' l1 a v l2 pos :
  rep h L (l1 ++ (a, v) :: l2) pos ->
  (forall q, In q (ids (removelast l1)) \/ ~ In q (ids (l1 ++ (a, v) :: l2)) \/ In q (ids l2) -> h' q = h q) ->
  h' a = None ->
  (forall l b w, l1 = l ++ [(b, w)] -> h' b = Some (mkElement w (addr l2 None))) ->
  ll_head L' = addr (l1 ++ l2) None ->
  (l2 <> [] -> ll_tail L' = ll_tail L) ->
  (l2 = [] -> forall l b w, l1 = l ++ [(b, w)] -> ll_tail L' = Some b) ->
  ll_elements L' = (ll_elements L - 1)%N ->
  ll_next L' = (if peq (ll_next L) (Some a) then addr l2 None else ll_next L) ->
  rep h' L' (l1 ++ l2) (cursor_remove pos (length l1)) /\
  frame h (l1 ++ (a, v) :: l2) h' (l1 ++ l2).
Proof.
  intros R Ho Ha Hb Hh Ht1 Ht2 He Hn.
  pose proof (r_seg _ _ _ _ R) as S. apply seg_app in S. cbn [seg addr] in S. destruct S as (S1 & S2 & S3).
  pose proof (NoDup_mid _ _ _ _ (r_nodup _ _ _ _ R)) as (N1 & N2 & N3).
  pose proof (r_pos _ _ _ _ R) as P. rewrite app_length in P. cbn [length] in P.
  assert (F : frame h (l1 ++ (a, v) :: l2) h' (l1 ++ l2)).
  { intros q Nq. split; intros Iq.
    - rewrite ids_app in Iq. cbn [ids map fst] in Iq. rewrite ids_app in Nq.
      rewrite in_app_iff in Iq, Nq. destruct Iq as [Iq|[<-|Iq]]; [tauto | exact Ha | tauto].
    - apply Ho. tauto. }
  split; [split|exact F].
  - apply seg_app. split.
    + destruct l1 as [|c l1'] eqn:E1; [exact I|]. destruct (split_last (c :: l1')) as (l & b & w & El);
        [discriminate|]. rewrite <- E1 in *. rewrite El in *. rewrite removelast_last in Ho.
      apply seg_app in S1. destruct S1 as [S1 S4]. apply seg_app. split.
      * cbn [addr] in *. revert S1. apply seg_frame. intros q Iq. apply Ho. now left.
      * cbn [seg addr]. split; [|exact I]. now apply (Hb l b w).
    + revert S3. apply seg_frame. intros q Iq. apply Ho. tauto.
  - exact N3.
  - exact Hh.
  - intros l' b w E. destruct l2 as [|c l2'] eqn:E2.
    + rewrite app_nil_r in E. now apply (Ht2 eq_refl l' b w).
    + rewrite Ht1 by discriminate. rewrite <- E2 in *.
      destruct (split_last l2) as (l3 & b' & w' & E3); [subst; discriminate|].
      assert (b = b' /\ w = w') as [-> ->].
      { rewrite E3, app_assoc in E. apply app_inj_tail in E. destruct E as [_ E]. now injection E. }
      apply (r_tail _ _ _ _ R (l1 ++ (a, v) :: l3) b' w'). rewrite E3, <- !app_assoc. reflexivity.
  - rewrite He, (r_count _ _ _ _ R), !app_length. cbn [length]. lia.
  - rewrite Hn, (r_next _ _ _ _ R). unfold cursor_remove.
    destruct (Nat.ltb_spec (length l1) pos) as [Lt|Ge].
    + rewrite skipn_mid2 by exact Lt.
      replace (peq (addr (skipn (pred pos) (l1 ++ l2)) None) (Some a)) with false; [reflexivity|].
      symmetry. destruct (skipn (pred pos) (l1 ++ l2)) as [|[b w] t] eqn:E; [reflexivity|]. cbn.
      apply Nat.eqb_neq. intros ->.
      assert (In a (ids (l1 ++ l2))).
      { rewrite <- (firstn_skipn (pred pos) (l1 ++ l2)), E, ids_app. apply in_or_app. right. now left. }
      rewrite ids_app, in_app_iff in H. tauto.
    + rewrite skipn_mid by exact Ge. rewrite addr_app. cbn [addr].
      destruct (Nat.eq_dec pos (length l1)) as [->|D].
      * rewrite skipn_all. cbn [addr]. rewrite peq_refl, skipn_app, skipn_all, Nat.sub_diag. reflexivity.
      * rewrite skipn_app. replace (pos - length l1) with 0 by lia. cbn [skipn]. rewrite addr_app.
        destruct (skipn pos l1) as [|[b w] t] eqn:E.
        { exfalso. apply (f_equal (@length _)) in E. rewrite skipn_length in E. cbn in E. lia. }
        cbn [addr peq]. replace (b =? a) with false; [reflexivity|]. symmetry. apply Nat.eqb_neq. intros ->.
        apply N1. rewrite <- (firstn_skipn pos l1), E, ids_app. apply in_or_app. right. now left.
  - unfold cursor_remove. rewrite app_length. destruct (Nat.ltb_spec (length l1) pos); lia.
Qed.

Lemma removelast_ids_not (l : cells) b w q : NoDup (ids (l ++ [(b, w)])) -> In q (ids l) -> q <> b.
Proof.
  intros N I ->. apply NoDup_mid in N. tauto.
Qed.

Definition seq_of (l : cells) (pos : nat) : seq_st := mkSeq (vals l) pos.

Lemma Remove_head h L a v l2 pos nx :
  rep h L ((a, v) :: l2) pos ->
  nx = (if peq (ll_next L) (ll_head L) then addr l2 None else ll_next L) ->
  rep (hfree h (ll_head L)) (mkList (ll_capacity L) (ll_elements L - 1) (addr l2 None) (ll_tail L) nx) l2
    (cursor_remove pos 0) /\
  frame h ((a, v) :: l2) (hfree h (ll_head L)) l2.
Proof.
  intros R ->. pose proof (r_head _ _ _ _ R) as Hh. cbn [addr] in Hh. rewrite Hh. cbn [hfree].
  pose proof (NoDup_mid [] a v l2 (r_nodup _ _ _ _ R)) as (_ & N2 & _).
  apply (rep_remove h L _ _ [] a v l2 pos R); cbn [ll_head ll_tail ll_elements ll_next app].
  - intros q [[]|[Nq|Iq]]; apply hset_other.
    + intros ->. apply Nq. now left.
    + intros ->. contradiction.
  - apply hset_same.
  - intros l b w E. destruct l; discriminate E.
  - reflexivity.
  - reflexivity.
  - intros _ l b w E. destruct l; discriminate E.
  - reflexivity.
  - reflexivity.
Qed.

(** the cell before [a] is made to skip it *)
Lemma Remove_mid h L l b w a v l2 pos tl nx :
  rep h L ((l ++ [(b, w)]) ++ (a, v) :: l2) pos ->
  tl = (if peq (Some a) (ll_tail L) then Some b else ll_tail L) ->
  nx = (if peq (ll_next L) (Some a) then addr l2 None else ll_next L) ->
  let h' := hset (hset h b (Some (mkElement w (addr l2 None)))) a None in
  rep h' (mkList (ll_capacity L) (ll_elements L - 1) (ll_head L) tl nx) ((l ++ [(b, w)]) ++ l2)
    (cursor_remove pos (length (l ++ [(b, w)]))) /\
  frame h ((l ++ [(b, w)]) ++ (a, v) :: l2) h' ((l ++ [(b, w)]) ++ l2).
Proof.
  intros R -> -> h'. pose proof (r_nodup _ _ _ _ R) as N.
  destruct (NoDup_mid _ _ _ _ N) as (N1 & N2 & N3).
  assert (N4 : ~ In b (ids l) /\ ~ In b (ids l2)).
  { rewrite <- app_assoc in N3. cbn [app] in N3. destruct (NoDup_mid _ _ _ _ N3) as (A & B & _). now split. }
  assert (Dab : b <> a) by (intros ->; apply N1; rewrite ids_app; apply in_or_app; right; now left).
  apply (rep_remove h L _ _ (l ++ [(b, w)]) a v l2 pos R); cbn [ll_head ll_tail ll_elements ll_next].
  - intros q Hq. rewrite removelast_last in Hq. unfold h'. rewrite !hset_other; [reflexivity| |].
    + destruct Hq as [Iq|[Nq|Iq]]; intros ->; [tauto | | tauto].
      apply Nq. rewrite !ids_app. apply in_or_app. left. apply in_or_app. right. now left.
    + destruct Hq as [Iq|[Nq|Iq]]; intros ->.
      * apply N1. rewrite ids_app. apply in_or_app. now left.
      * apply Nq. rewrite ids_app. apply in_or_app. right. now left.
      * contradiction.
  - apply hset_same.
  - intros l' b' w' E. apply app_inj_tail in E. destruct E as [-> E]. injection E as <- <-.
    unfold h'. rewrite hset_other by exact Dab. apply hset_same.
  - rewrite (r_head _ _ _ _ R). destruct l as [|[]]; reflexivity.
  - intros Hl2. destruct (split_last l2 Hl2) as (l3 & c & x & E3).
    assert (T : ll_tail L = Some c).
    { apply (r_tail _ _ _ _ R ((l ++ [(b, w)]) ++ (a, v) :: l3) c x). rewrite E3, <- !app_assoc. reflexivity. }
    rewrite T. cbn [peq]. replace (a =? c) with false; [reflexivity|]. symmetry. apply Nat.eqb_neq. intros ->.
    apply N2. rewrite E3, ids_app. apply in_or_app. right. now left.
  - intros -> l' b' w' E. apply app_inj_tail in E. destruct E as [-> E]. injection E as <- <-.
    rewrite (r_tail _ _ _ _ R (l' ++ [(b, w)]) a v eq_refl). now rewrite peq_refl.
  - reflexivity.
  - reflexivity.
Qed.

Definition step_ok (h : heap) (l : cells) (r : option (st * N)) (cap : N) (s : seq_st * lout) : Prop :=
  exists h' L' l' pos' v, r = Some ((h', L'), v) /\ rep h' L' l' pos' /\ ll_capacity L' = cap /\
    frame h l h' l' /\ s = (seq_of l' pos', OVal v).

Lemma step_same h L l pos v : rep h L l pos ->
  step_ok h l (Some ((h, L), v)) (ll_capacity L) (seq_of l pos, OVal v).
Proof.
  intros R. exists h, L, l, pos, v. split; [reflexivity|]. split; [exact R|]. split; [reflexivity|].
  split; [apply frame_refl | reflexivity].
Qed.

Lemma seq_of_remove l1 a v l2 pos :
  (mkSeq (remove_at (vals (l1 ++ (a, v) :: l2)) (length l1)) (cursor_remove pos (length l1)),
   OVal (nth (length l1) (vals (l1 ++ (a, v) :: l2)) 0%N))
  = (seq_of (l1 ++ l2) (cursor_remove pos (length l1)), OVal v).
Proof. destruct (remove_mid l1 a v l2) as [-> ->]. reflexivity. Qed.

Lemma Remove_ok h L l pos index : rep h L l pos ->
  step_ok h l (RemoveElementFromLinkedList (h, L) index) (ll_capacity L)
    (seq_step (ll_capacity L) true (seq_of l pos) (LRemove index)).
Proof.
  intros R. unfold RemoveElementFromLinkedList, seq_step. cbn [sq_vals sq_pos seq_of].
  rewrite vals_length, (r_count _ _ _ _ R).
  destruct (N.leb_spec (N.of_nat (length l)) index) as [Le|Lt].
  - replace (index <? N.of_nat (length l))%N with false by lia.
    now apply step_same.
  - replace (index <? N.of_nat (length l))%N with true by lia.
    destruct (split_at l (N.to_nat index) ltac:(lia)) as (l1 & a & v & l2 & -> & E). rewrite <- E.
    rewrite seq_of_remove. destruct (N.eqb_spec index 0) as [->|D].
    + destruct l1; [|discriminate]. cbn [app length] in *.
      rewrite (r_head _ _ _ _ R). cbn [addr deref]. destruct (r_seg _ _ _ _ R) as [-> _].
      cbn [e_next e_value]. 
      destruct (Remove_head h L a v l2 pos _ R eq_refl) as [R' F]. rewrite (r_head _ _ _ _ R) in R', F.
      cbn [addr hfree] in R', F. rewrite (r_count _ _ _ _ R) in R'. cbn [length] in R'.
      do 5 eexists. split; [reflexivity|]. split; [exact R'|]. split; [reflexivity|]. split; [exact F | reflexivity].
    + destruct l1 as [|c l1'] eqn:E1; [cbn in E; lia|].
      destruct (split_last (c :: l1')) as (l & b & w & El); [discriminate|]. rewrite El in *. clear E1 El c l1'.
      rewrite app_length in E. cbn [length] in E.
      pose proof (r_seg _ _ _ _ R) as S. pose proof S as S'. rewrite <- app_assoc in S'. cbn [app] in S'.
      rewrite (r_head _ _ _ _ R).
      rewrite (walk_ok h _ None (length (l ++ [(b, w)]) - 1) l ((b, w) :: (a, v) :: l2)
        (eq_sym (app_assoc l [(b, w)] _)) ltac:(rewrite app_length; cbn [length]; lia) S).
      cbn [addr deref]. pose proof (deref_mid _ _ _ _ _ _ S') as Eb. rewrite Eb. cbn [e_next addr deref].
      rewrite (deref_mid _ _ _ _ _ _ S). cbn [e_next e_value].
      rewrite (set_next_some _ _ _ _ _ Eb). cbn [hfree].
      destruct (Remove_mid h L l b w a v l2 pos _ _ R eq_refl eq_refl) as [R' F].
      rewrite (r_head _ _ _ _ R), (r_count _ _ _ _ R) in R'.
      do 5 eexists. split; [reflexivity|]. split; [exact R'|]. split; [reflexivity|]. split; [exact F | reflexivity].
Qed.

(** ** removal by value *)

Lemma before_value_ok h value t : forall fuel a v, length t < fuel -> seg h ((a, v) :: t) None ->
  match index_of value (vals t) with
  | Some i => exists l1 b w c x l2, (a, v) :: t = (l1 ++ [(b, w)]) ++ (c, x) :: l2 /\ length l1 = i /\ x = value /\
      before_value fuel h value (Some a) = Some (Some b)
  | None => exists l1 b w, (a, v) :: t = l1 ++ [(b, w)] /\ before_value fuel h value (Some a) = Some (Some b)
  end.
Proof.
  induction t as [|[b w] t IH]; intros fuel a v Hf S; (destruct fuel as [|fuel]; [cbn in Hf; lia|]);
    cbn [before_value deref]; destruct S as [-> S]; cbn [addr e_next].
  - cbn. exists [], a, v. split; reflexivity.
  - pose proof S as [E _]. rewrite E. cbn [e_value vals map snd index_of].
    destruct (N.eqb_spec w value) as [->|D].
    + exists [], a, v, b, value, t. repeat split.
    + specialize (IH fuel b w ltac:(cbn in Hf; lia) S). unfold vals in IH.
      destruct (index_of value (map snd t)) as [i|]; cbn [option_map].
      * destruct IH as (l1 & b' & w' & c & x & l2 & E1 & E2 & E3 & E4).
        exists ((a, v) :: l1), b', w', c, x, l2. split; [cbn [app]; now rewrite E1|].
        split; [cbn; now rewrite E2|]. split; assumption.
      * destruct IH as (l1 & b' & w' & E1 & E2). exists ((a, v) :: l1), b', w'.
        split; [cbn [app]; now rewrite E1 | exact E2].
Qed.

Lemma RemoveValue_ok h L l pos value fuel : rep h L l pos -> length l <= fuel ->
  step_ok h l (RemoveElementByValueFromLinkedList fuel (h, L) value) (ll_capacity L)
    (seq_step (ll_capacity L) true (seq_of l pos) (LRemoveValue value)).
Proof.
  intros R Hf. unfold RemoveElementByValueFromLinkedList, seq_step. cbn [sq_vals sq_pos seq_of].
  rewrite (r_count _ _ _ _ R).
  destruct (N.eqb_spec value 0) as [->|Nz].
  { rewrite orb_true_r. now apply step_same. }
  rewrite orb_false_r. destruct l as [|[a v] t].
  { cbn [length vals map index_of]. now apply step_same. }
  replace (N.of_nat (length ((a, v) :: t)) =? 0)%N with false by (cbn [length]; lia).
  pose proof (r_seg _ _ _ _ R) as S. rewrite (r_head _ _ _ _ R). cbn [addr deref].
  pose proof S as [E _]. rewrite E. cbn [e_value e_next]. cbn [vals map snd index_of].
  fold (vals t). rewrite (N.eqb_sym value v).
  destruct (N.eqb_spec v value) as [->|D].
  - pose proof (seq_of_remove [] a value t pos : (mkSeq (remove_at (value :: vals t) 0) (cursor_remove pos 0),
      OVal (nth 0 (value :: vals t) 0%N)) = (seq_of t (cursor_remove pos 0), OVal value)) as Q. rewrite Q. clear Q.
    destruct (Remove_head h L a value t pos _ R eq_refl) as [R' F]. rewrite (r_head _ _ _ _ R) in R', F.
    cbn [addr hfree] in *. rewrite (r_count _ _ _ _ R) in R'.
    do 5 eexists. split; [reflexivity|]. split; [exact R'|]. split; [reflexivity|]. split; [exact F | reflexivity].
  - pose proof (before_value_ok h value t fuel a v ltac:(cbn in Hf; lia) S) as B.
    destruct (index_of value (vals t)) as [i|]; cbn [option_map].
    + destruct B as (l1 & b & w & c & x & l2 & E1 & E2 & -> & ->).
      change (v :: vals t) with (vals ((a, v) :: t)). cbn [deref]. 
      replace (Datatypes.S i) with (length (l1 ++ [(b, w)])) by (rewrite app_length; cbn [length]; lia).
      rewrite E1 in *. rewrite (seq_of_remove (l1 ++ [(b, w)]) c value l2 pos).
      pose proof S as S'. rewrite <- app_assoc in S'. cbn [app] in S'.
      pose proof (deref_mid _ _ _ _ _ _ S') as Eb. rewrite Eb. cbn [e_next addr].
      cbn [deref]. rewrite (deref_mid _ _ _ _ _ _ S). cbn [e_next e_value].
      rewrite (set_next_some _ _ _ _ _ Eb). cbn [hfree].
      destruct (Remove_mid h L l1 b w c value l2 pos _ _ R eq_refl eq_refl) as [R' F].
      assert (HA : addr ((l1 ++ [(b, w)]) ++ (c, value) :: l2) None = Some a) by now rewrite <- E1.
      rewrite (r_head _ _ _ _ R), HA, (r_count _ _ _ _ R) in R'.
      do 5 eexists. split; [reflexivity|]. split; [exact R'|]. split; [reflexivity|]. split; [exact F | reflexivity].
    + destruct B as (l1 & b & w & E1 & ->). cbn [deref]. rewrite E1 in S.
      rewrite (deref_mid _ _ _ _ _ _ S). cbn [e_next addr]. 
      change (mkSeq (v :: vals t) pos) with (seq_of ((a, v) :: t) pos). now apply step_same.
Qed.

(** ** removal of the last element *)

Lemma before_tail_ok h b w a v : forall l fuel, length l < fuel -> seg h (l ++ [(b, w); (a, v)]) None ->
  NoDup (ids (l ++ [(b, w); (a, v)])) ->
  before_tail fuel h (Some a) (addr (l ++ [(b, w); (a, v)]) None) = Some (Some b).
Proof.
  induction l as [|[c x] l IH]; intros fuel Hf S N; (destruct fuel as [|fuel]; [cbn in Hf; lia|]).
  - cbn [app addr before_tail deref]. destruct S as [-> _]. cbn [e_next addr peq]. now rewrite Nat.eqb_refl.
  - cbn [app addr before_tail deref]. destruct S as [-> S]. fold (seg h) in S. cbn [e_next].
    inversion_clear N as [|? ? N1 N2].
    assert (P : peq (addr (l ++ [(b, w); (a, v)]) None) (Some a) = false).
    { fold (ids (l ++ [(b, w); (a, v)])) in N2. destruct l as [|[d y] l]; cbn [app addr peq].
      - apply Nat.eqb_neq. intros ->. cbn in N2. inversion_clear N2. apply H. now left.
      - apply Nat.eqb_neq. intros ->. cbn [app ids map fst] in N2. inversion_clear N2. apply H.
        fold (ids (l ++ [(b, w); (a, v)])). rewrite ids_app. apply in_or_app. right. right. now left. }
    change (map fst (l ++ [(b, w); (a, v)])) with (ids (l ++ [(b, w); (a, v)])) in N2.
    cbn [app] in P. rewrite P. apply IH; [cbn in Hf; lia | exact S | exact N2].
Qed.

Lemma RemoveLast_ok h L l pos fuel : rep h L l pos -> length l <= fuel ->
  step_ok h l (RemoveLastElementFromLinkedList fuel (h, L)) (ll_capacity L)
    (seq_step (ll_capacity L) true (seq_of l pos) LRemoveLast).
Proof.
  intros R Hf. unfold RemoveLastElementFromLinkedList, seq_step. cbn [sq_vals sq_pos seq_of].
  rewrite (r_count _ _ _ _ R).
  destruct l as [|c0 l0] eqn:El; [now apply step_same|].
  replace (N.of_nat (length (c0 :: l0)) =? 0)%N with false by (cbn [length]; lia).
  destruct (split_last (c0 :: l0)) as (l1 & a & v & E1); [discriminate|].
  assert (V : exists x y, vals (c0 :: l0) = x :: y) by (cbn; eauto). destruct V as (x & y & V).
  rewrite V. rewrite <- V. clear V x y. rewrite vals_length. rewrite E1 in *. clear El E1 c0 l0 l.
  rewrite app_length in *. cbn [length] in *. rewrite Nat.add_sub.
  rewrite (seq_of_remove l1 a v [] pos), app_nil_r.
  pose proof (r_seg _ _ _ _ R) as S. pose proof (r_nodup _ _ _ _ R) as N.
  destruct (NoDup_mid _ _ _ _ N) as (N1 & _ & N3).
  pose proof (r_tail _ _ _ _ R l1 a v eq_refl) as T. pose proof (r_pos _ _ _ _ R) as P.
  rewrite app_length in P. cbn [length] in P.
  assert (Nx : (if peq (ll_next L) (ll_tail L) then None else ll_next L) =
               (if peq (ll_next L) (Some a) then addr [] None else ll_next L))
    by now rewrite T.
  destruct (N.eqb_spec (N.of_nat (length l1 + 1)) 1) as [C|C].
  - destruct l1; [|cbn in C; lia]. cbn [app length] in *.
    rewrite (r_head _ _ _ _ R). cbn [addr deref]. destruct S as [-> _]. cbn [e_value]. rewrite Nx, T. cbn [hfree].
    destruct (rep_remove h L (hset h a None)
      (mkList (ll_capacity L) (N.of_nat 1 - 1) None None
         (if peq (ll_next L) (Some a) then addr [] None else ll_next L)) [] a v [] pos R)
      as [R' F]; cbn [ll_head ll_tail ll_elements ll_next app].
    + intros q [[]|[Nq|[]]]. apply hset_other. intros ->. apply Nq. now left.
    + apply hset_same.
    + intros l b w E. destruct l; discriminate E.
    + reflexivity.
    + intros H. now contradiction H.
    + intros _ l b w E. destruct l; discriminate E.
    + rewrite (r_count _ _ _ _ R). reflexivity.
    + reflexivity.
    + do 5 eexists. split; [reflexivity|]. split; [exact R'|]. split; [reflexivity|]. split; [exact F | reflexivity].
  - destruct (split_last l1) as (l & b & w & E1); [intros ->; cbn in C; lia|]. subst l1.
    rewrite T. cbn [deref]. rewrite (deref_mid _ _ _ _ _ _ S). cbn [e_value].
    pose proof S as S'. pose proof N as N'. rewrite <- app_assoc in S', N'. cbn [app] in S', N'.
    rewrite (r_head _ _ _ _ R).
    replace (addr ((l ++ [(b, w)]) ++ [(a, v)]) None) with (addr (l ++ [(b, w); (a, v)]) None)
      by (rewrite <- app_assoc; reflexivity).
    rewrite (before_tail_ok h b w a v l fuel ltac:(rewrite app_length in Hf; cbn in Hf; lia) S' N').
    cbn [hfree]. 
    assert (Dab : b <> a) by (intros ->; apply N1; rewrite ids_app; apply in_or_app; right; now left).
    pose proof (deref_mid _ _ _ _ _ _ S') as Eb.
    assert (Eb' : hset h a None b = Some (mkElement w (addr [(a, v)] None))) by (rewrite hset_other; assumption).
    rewrite (set_next_some _ _ _ _ _ Eb').
    rewrite <- T, Nx.
    assert (N4 : ~ In b (ids l)).
    { rewrite app_nil_r in N3. apply NoDup_mid in N3. tauto. }
    destruct (rep_remove h L (hset (hset h a None) b (Some (mkElement w None)))
      (mkList (ll_capacity L) (N.of_nat (length (l ++ [(b, w)]) + 1) - 1) (addr (l ++ [(b, w); (a, v)]) None) (Some b)
         (if peq (ll_next L) (Some a) then addr [] None else ll_next L)) (l ++ [(b, w)]) a v [] pos R)
      as [R' F]; cbn [ll_head ll_tail ll_elements ll_next app].
    + intros q Hq. rewrite removelast_last in Hq. rewrite !hset_other; [reflexivity| |].
      * destruct Hq as [Iq|[Nq|[]]]; intros ->.
        -- apply N1. rewrite ids_app. apply in_or_app. now left.
        -- apply Nq. rewrite ids_app. apply in_or_app. right. now left.
      * destruct Hq as [Iq|[Nq|[]]]; intros ->; [contradiction|].
        apply Nq. rewrite !ids_app. apply in_or_app. left. apply in_or_app. right. now left.
    + rewrite hset_other by now apply not_eq_sym. apply hset_same.
    + intros l' b' w' E. apply app_inj_tail in E. destruct E as [-> E]. injection E as <- <-. apply hset_same.
    + rewrite app_nil_r. destruct l as [|[]]; reflexivity.
    + intros H. now contradiction H.
    + intros _ l' b' w' E. apply app_inj_tail in E. destruct E as [-> E]. now injection E as <- <-.
    + rewrite (r_count _ _ _ _ R), !app_length. cbn [length]. reflexivity.
    + reflexivity.
    + rewrite app_nil_r in R', F. do 5 eexists. split; [reflexivity|]. split; [exact R'|]. split; [reflexivity|].
      split; [exact F | reflexivity].
Qed.

(** ** insertion at the ends *)

Lemma addr_none (l : cells) : addr l None = None -> l = [].
Proof. destruct l as [|[]]; [reflexivity | discriminate]. Qed.

Lemma NoDup_snoc (l : cells) a v : NoDup (ids l) -> ~ In a (ids l) -> NoDup (ids (l ++ [(a, v)])).
Proof.
  intros N Na. rewrite ids_app. cbn [ids map fst]. apply (NoDup_Add (a := a) (l := ids l)).
  - rewrite <- (app_nil_r (ids l)) at 1. apply Add_app.
  - now split.
Qed.

(** the memory of the list is allocated, so a fresh address is not in it *)
Lemma seg_live h l q a : seg h l q -> h a = None -> ~ In a (ids l).
Proof.
  induction l as [|[b v] l IH]; cbn [seg ids map fst]; intros S E; [tauto|].
  destruct S as [S1 S2]. intros [->|I]; [congruence | now apply IH].
Qed.

Lemma skipn_snoc_next (l : cells) a v pos : pos <= length l ->
  addr (skipn pos (l ++ [(a, v)])) None = match addr (skipn pos l) None with None => Some a | p => p end.
Proof.
  intros P. rewrite skipn_app. replace (pos - length l) with 0 by lia. cbn [skipn]. rewrite addr_app.
  cbn [addr]. destruct (skipn pos l) as [|[]]; reflexivity.
Qed.

Lemma rep_append_first h L pos a v : rep h L [] pos ->
  rep (hset h a (Some (mkElement v None)))
    (mkList (ll_capacity L) (ll_elements L + 1) (Some a) (Some a)
       (match ll_next L with None => Some a | p => p end)) [(a, v)] pos.
Proof.
  intros R. pose proof (r_pos _ _ _ _ R) as P. cbn [length] in P. assert (pos = 0) as -> by lia.
  split; cbn [ll_head ll_tail ll_elements ll_next].
  - split; [apply hset_same | exact I].
  - constructor; [intros [] | constructor].
  - reflexivity.
  - intros l' b w E. destruct l' as [|? [|? ?]]; try discriminate E. cbn in E. now injection E as <- <-.
  - rewrite (r_count _ _ _ _ R). reflexivity.
  - rewrite (r_next _ _ _ _ R). reflexivity.
  - cbn. lia.
Qed.

Lemma rep_append h L l b w pos a v : rep h L (l ++ [(b, w)]) pos -> h a = None ->
  rep (hset (hset h a (Some (mkElement v None))) b (Some (mkElement w (Some a))))
    (mkList (ll_capacity L) (ll_elements L + 1) (ll_head L) (Some a)
       (match ll_next L with None => Some a | p => p end)) ((l ++ [(b, w)]) ++ [(a, v)]) pos.
Proof.
  intros R Ha. pose proof (r_seg _ _ _ _ R) as S. pose proof (r_nodup _ _ _ _ R) as N.
  pose proof (seg_live _ _ _ _ S Ha) as Na. apply seg_app in S. destruct S as [S1 [S2 _]].
  destruct (NoDup_mid _ _ _ _ N) as (Nb & _ & _).
  assert (Dab : a <> b) by (intros ->; apply Na; rewrite ids_app; apply in_or_app; right; now left).
  assert (Nal : ~ In a (ids l)) by (intros C; apply Na; rewrite ids_app; apply in_or_app; now left).
  split; cbn [ll_head ll_tail ll_elements ll_next].
  - rewrite <- app_assoc. apply seg_app. split; [|split; [|split; [|exact I]]].
    + cbn [addr]. apply seg_hset; [exact Nb|]. apply seg_hset; [exact Nal | exact S1].
    + cbn [addr]. apply hset_same.
    + rewrite hset_other by exact Dab. apply hset_same.
  - now apply NoDup_snoc.
  - rewrite (r_head _ _ _ _ R). destruct l as [|[]]; reflexivity.
  - intros l' b' w' E. apply app_inj_tail in E. destruct E as [_ E]. now injection E as -> ->.
  - rewrite (r_count _ _ _ _ R), !app_length. cbn [length]. lia.
  - rewrite (r_next _ _ _ _ R). symmetry. apply skipn_snoc_next. apply (r_pos _ _ _ _ R).
  - rewrite app_length. pose proof (r_pos _ _ _ _ R). lia.
Qed.

Lemma frame_append h l b w a v x : h a = None -> seg h (l ++ [(b, w)]) None ->
  frame h (l ++ [(b, w)]) (hset (hset h a x) b (Some (mkElement w (Some a)))) ((l ++ [(b, w)]) ++ [(a, v)]).
Proof.
  intros Ha S q Nq. rewrite ids_app in Nq. cbn [ids map fst] in Nq. rewrite in_app_iff in Nq.
  split; intros Iq; [exfalso; apply Nq; now left|].
  rewrite !hset_other; [reflexivity| |].
  - intros ->. apply Nq. right. now left.
  - intros ->. apply Iq. rewrite ids_app. apply in_or_app. right. now left.
Qed.

Lemma rep_prepend h L c x l pos a v : rep h L ((c, x) :: l) pos -> h a = None ->
  rep (hset (hset h a (Some (mkElement v None))) a (Some (mkElement v (Some c))))
    (mkList (ll_capacity L) (ll_elements L + 1) (Some a) (ll_tail L)
       (if peq (ll_next L) (ll_head L) then Some a else ll_next L)) ((a, v) :: (c, x) :: l) (cursor_insert pos 0) /\
  frame h ((c, x) :: l) (hset (hset h a (Some (mkElement v None))) a (Some (mkElement v (Some c)))) ((a, v) :: (c, x) :: l).
Proof.
  intros R Ha. pose proof (r_seg _ _ _ _ R) as S. pose proof (r_nodup _ _ _ _ R) as N.
  pose proof (seg_live _ _ _ _ S Ha) as Na. pose proof (r_pos _ _ _ _ R) as P.
  split; [split; cbn [ll_head ll_tail ll_elements ll_next]|].
  - split; [cbn [addr]; apply hset_same|]. apply seg_hset; [exact Na|]. now apply seg_hset.
  - cbn [ids map fst]. constructor; [exact Na | exact N].
  - reflexivity.
  - intros l' b w E. destruct l' as [|y l']; [discriminate E|]. injection E as _ E.
    exact (r_tail _ _ _ _ R l' b w E).
  - rewrite (r_count _ _ _ _ R). cbn [length]. lia.
  - rewrite (r_head _ _ _ _ R), (r_next _ _ _ _ R).
    change (addr ((c, x) :: l) None) with (addr (skipn 0 ((c, x) :: l)) None).
    rewrite peq_addr by (try exact N; cbn [length] in *; lia). unfold cursor_insert.
    destruct pos as [|pos]; reflexivity.
  - unfold cursor_insert. cbn [length] in *. destruct (0 <? pos); lia.
  - intros q Nq. cbn [ids map fst] in Nq. split; intros Iq; [exfalso; apply Nq; now right|].
    rewrite !hset_other; [reflexivity| |]; intros ->; apply Nq; now left.
Qed.

Definition step_okO (h : heap) (l : cells) (r : option (st * lout)) (cap : N) (s : seq_st * lout) : Prop :=
  exists h' L' l' pos' o, r = Some ((h', L'), o) /\ rep h' L' l' pos' /\ ll_capacity L' = cap /\
    frame h l h' l' /\ s = (seq_of l' pos', o).

Lemma step_same_O h L l pos o : rep h L l pos ->
  step_okO h l (Some ((h, L), o)) (ll_capacity L) (seq_of l pos, o).
Proof.
  intros R. exists h, L, l, pos, o. split; [reflexivity|]. split; [exact R|]. split; [reflexivity|].
  split; [apply frame_refl | reflexivity].
Qed.

Section Alloc.
Variable alloc : heap -> option nat.
Hypothesis alloc_fresh : forall h a, alloc h = Some a -> h a = None.
Definition has_memory (h : heap) : bool := match alloc h with Some _ => true | None => false end.

Lemma Append_ok h L l pos v : rep h L l pos ->
  step_okO h l (let? (s, b) := AppendValueToLinkedList alloc (h, L) v in Some (s, OBool b)) (ll_capacity L)
    (seq_step (ll_capacity L) (has_memory h) (seq_of l pos) (LAppend v)).
Proof.
  intros R. unfold AppendValueToLinkedList, seq_step, has_memory. cbn [sq_vals sq_pos seq_of].
  rewrite vals_length, (r_count _ _ _ _ R).
  destruct (N.of_nat (length l) =? ll_capacity L)%N.
  { rewrite andb_false_r. now apply step_same_O. }
  destruct (alloc h) as [a|] eqn:A; [|now apply step_same_O].
  pose proof (alloc_fresh _ _ A) as Ha. cbn [andb negb]. destruct l as [|c0 l0] eqn:El.
  - cbn [length]. change (N.of_nat 0 =? 0)%N with true. cbv iota.
    pose proof (rep_append_first h L pos a v R) as R'. rewrite (r_count _ _ _ _ R) in R'.
    do 5 eexists. split; [reflexivity|]. split; [exact R'|]. split; [reflexivity|]. split; [|reflexivity].
    intros q Nq. split; [intros []|]. intros _. apply hset_other. intros ->. apply Nq. now left.
  - destruct (split_last (c0 :: l0)) as (l' & b & w & E); [discriminate|]. rewrite E in *. clear E El l c0 l0.
    replace (N.of_nat (length (l' ++ [(b, w)])) =? 0)%N with false by (rewrite app_length; cbn [length]; lia).
    rewrite (r_tail _ _ _ _ R l' b w eq_refl).
    pose proof (r_seg _ _ _ _ R) as S. pose proof (deref_mid _ _ _ _ _ _ S) as Eb.
    assert (Dab : b <> a) by congruence.
    assert (Eb' : hset h a (Some (mkElement v None)) b = Some (mkElement w (addr [] None)))
      by (rewrite hset_other; assumption).
    rewrite (set_next_some _ _ _ _ _ Eb').
    pose proof (rep_append h L l' b w pos a v R Ha) as R'. rewrite (r_count _ _ _ _ R) in R'.
    do 5 eexists. split; [reflexivity|]. split; [exact R'|]. split; [reflexivity|].
    split; [now apply frame_append|]. unfold seq_of. rewrite (vals_app _ [(a, v)]). reflexivity.
Qed.

(** insertion at the two ends; the middle is another matter *)
Lemma Insert_ok h L l pos i v : rep h L l pos -> i = 0%N \/ (N.of_nat (length l) <= i)%N ->
  step_okO h l (let? (s, b) := InsertValueInLinkedList alloc (h, L) i v in Some (s, OBool b)) (ll_capacity L)
    (seq_step (ll_capacity L) (has_memory h) (seq_of l pos) (LInsert i v)).
Proof.
  intros R Hi. unfold InsertValueInLinkedList, seq_step, has_memory. cbn [sq_vals sq_pos seq_of].
  rewrite vals_length, (r_count _ _ _ _ R).
  destruct (v =? 0)%N; [rewrite andb_false_r; now apply step_same_O|]. cbn [negb]. rewrite andb_true_r.
  destruct (N.ltb_spec (N.of_nat (length l)) i) as [Lt|Le].
  { replace (i <=? N.of_nat (length l))%N with false by lia. rewrite andb_false_r. now apply step_same_O. }
  replace (i <=? N.of_nat (length l))%N with true by lia. rewrite andb_true_r. cbn [orb].
  destruct (N.of_nat (length l) =? ll_capacity L)%N.
  { rewrite andb_false_r. now apply step_same_O. }
  destruct (alloc h) as [a|] eqn:A; [|now apply step_same_O].
  pose proof (alloc_fresh _ _ A) as Ha. cbn [andb negb]. destruct l as [|c0 l0] eqn:El.
  - cbn [length] in *. change (N.of_nat 0 =? 0)%N with true. cbv iota.
    pose proof (rep_append_first h L pos a v R) as R'. rewrite (r_count _ _ _ _ R) in R'.
    assert (i = 0%N) as -> by lia. pose proof (r_pos _ _ _ _ R) as P. cbn [length] in P. assert (pos = 0) as -> by lia.
    do 5 eexists. split; [reflexivity|]. split; [exact R'|]. split; [reflexivity|]. split; [|reflexivity].
    intros q Nq. split; [intros []|]. intros _. apply hset_other. intros ->. apply Nq. now left.
  - replace (N.of_nat (length (c0 :: l0)) =? 0)%N with false by (cbn [length]; lia).
    destruct (N.eqb_spec i 0) as [->|Nz].
    + destruct c0 as [c x]. cbn [set_next deref].
      destruct (rep_prepend h L c x l0 pos a v R Ha) as [R' F]. rewrite (r_count _ _ _ _ R) in R'.
      rewrite hset_same, (r_head _ _ _ _ R) in *. cbn [addr e_value] in *.
      do 5 eexists. split; [reflexivity|]. split; [exact R'|]. split; [reflexivity|]. split; [exact F | reflexivity].
    + assert (E0 : i = N.of_nat (length (c0 :: l0))) by lia. rewrite E0, N.eqb_refl, Nat2N.id.
      destruct (split_last (c0 :: l0)) as (l' & b & w & E); [discriminate|]. rewrite E in *. clear E El l c0 l0.
      rewrite (r_tail _ _ _ _ R l' b w eq_refl).
      pose proof (r_seg _ _ _ _ R) as S. pose proof (deref_mid _ _ _ _ _ _ S) as Eb.
      assert (Dab : b <> a) by congruence.
      assert (Eb' : hset h a (Some (mkElement v None)) b = Some (mkElement w (addr [] None)))
        by (rewrite hset_other; assumption).
      rewrite (set_next_some _ _ _ _ _ Eb').
      pose proof (rep_append h L l' b w pos a v R Ha) as R'. rewrite (r_count _ _ _ _ R) in R'.
      do 5 eexists. split; [reflexivity|]. split; [exact R'|]. split; [reflexivity|].
      split; [now apply frame_append|]. unfold seq_of. rewrite (vals_app _ [(a, v)]).
      f_equal. f_equal.
      * unfold insert_at. rewrite <- vals_length, firstn_all, skipn_all. reflexivity.
      * unfold cursor_insert. pose proof (r_pos _ _ _ _ R).
        destruct (Nat.ltb_spec (length (l' ++ [(b, w)])) pos); [lia | reflexivity].
Qed.
End Alloc.

(** ** reading *)

Lemma nth_mid l1 a v l2 : nth (length l1) (vals (l1 ++ (a, v) :: l2)) 0%N = v.
Proof. apply remove_mid. Qed.

Lemma Get_ok h L l pos i : rep h L l pos -> GetValueFromLinkedList (h, L) i = Some (nth (N.to_nat i) (vals l) 0%N).
Proof.
  intros R. unfold GetValueFromLinkedList. rewrite (r_count _ _ _ _ R).
  pose proof (r_seg _ _ _ _ R) as S.
  destruct (N.leb_spec (N.of_nat (length l)) i) as [Le|Lt].
  { rewrite nth_overflow; [reflexivity|]. rewrite vals_length. lia. }
  destruct (split_at l (N.to_nat i) ltac:(lia)) as (l1 & a & v & l2 & -> & E).
  rewrite <- E, nth_mid. pose proof (deref_mid _ _ _ _ _ _ S) as Ea.
  destruct (N.eqb_spec i 0) as [->|Nz].
  { destruct l1; [|discriminate]. rewrite (r_head _ _ _ _ R). cbn [app addr deref]. now rewrite Ea. }
  destruct (N.eqb_spec i (N.of_nat (length (l1 ++ (a, v) :: l2)) - 1)) as [C|C].
  { rewrite app_length in C. cbn [length] in C. destruct l2; [|cbn [length] in C; lia].
    rewrite (r_tail _ _ _ _ R l1 a v eq_refl). cbn [deref]. now rewrite Ea. }
  rewrite (r_head _ _ _ _ R), (walk_ok h _ None (length l1) l1 ((a, v) :: l2) eq_refl eq_refl S).
  cbn [addr deref]. now rewrite Ea.
Qed.

Lemma Last_ok h L l pos : rep h L l pos -> GetLastValueInLinkedList (h, L) = Some (last (vals l) 0%N).
Proof.
  intros R. unfold GetLastValueInLinkedList. rewrite (r_count _ _ _ _ R). destruct l as [|c0 l0] eqn:El; [reflexivity|].
  replace (N.of_nat (length (c0 :: l0)) =? 0)%N with false by (cbn [length]; lia).
  destruct (split_last (c0 :: l0)) as (l' & b & w & E); [discriminate|]. rewrite E in *.
  rewrite (r_tail _ _ _ _ R l' b w eq_refl). cbn [deref].
  rewrite (deref_mid _ _ _ _ _ _ (r_seg _ _ _ _ R)), vals_app. cbn [vals map snd option_map e_value].
  now rewrite last_last.
Qed.

Lemma Next_ok h L l pos : rep h L l pos ->
  step_ok h l (GetNextValueInLinkedList (h, L)) (ll_capacity L) (seq_step (ll_capacity L) true (seq_of l pos) LNext).
Proof.
  intros R. unfold GetNextValueInLinkedList, seq_step. cbn [sq_vals sq_pos seq_of]. rewrite vals_length.
  rewrite (r_next _ _ _ _ R). pose proof (r_pos _ _ _ _ R) as P.
  destruct (Nat.eq_dec pos (length l)) as [->|D].
  - rewrite skipn_all. cbn [addr]. rewrite nth_overflow by (rewrite vals_length; lia).
    rewrite Nat.min_r by lia. change (mkSeq (vals l) (length l)) with (seq_of l (length l)). now apply step_same.
  - destruct (split_at l pos ltac:(lia)) as (l1 & a & v & l2 & -> & E). subst pos.
    rewrite nth_mid, skipn_app, skipn_all, Nat.sub_diag. cbn [skipn app addr deref].
    rewrite (deref_mid _ _ _ _ _ _ (r_seg _ _ _ _ R)). cbn [e_next e_value].
    rewrite Nat.min_l by lia. exists h. do 1 eexists. exists (l1 ++ (a, v) :: l2), (S (length l1)), v.
    split; [reflexivity|]. split; [|split; [reflexivity | split; [apply frame_refl | reflexivity]]].
    split; cbn [ll_head ll_tail ll_elements ll_next]; try apply R.
    + rewrite skipn_app, skipn_all2 by lia. replace (S (length l1) - length l1) with 1 by lia. reflexivity.
    + rewrite app_length in *. cbn [length] in *. lia.
Qed.

Lemma Reset_ok h L l pos : rep h L l pos ->
  rep (fst (ResetLinkedListIterator (h, L))) (snd (ResetLinkedListIterator (h, L))) l 0.
Proof.
  intros R. split; cbn [ResetLinkedListIterator fst snd ll_head ll_tail ll_elements ll_next]; try apply R. lia.
Qed.

Lemma free_all_ok l : forall h fuel, length l <= fuel -> seg h l None -> NoDup (ids l) ->
  exists h', free_all fuel h (addr l None) = Some h' /\ frame h l h' [].
Proof.
  induction l as [|[a v] l IH]; intros h fuel Hf S N.
  - exists h. split; [destruct fuel; reflexivity | apply frame_refl].
  - destruct fuel as [|fuel]; [cbn in Hf; lia|]. cbn [addr free_all]. destruct S as [-> S]. cbn [e_next].
    cbn [ids map fst] in N. inversion_clear N as [|? ? N1 N2].
    destruct (IH (hset h a None) fuel ltac:(cbn in Hf; lia)) as (h' & E & F).
    + now apply seg_hset.
    + exact N2.
    + exists h'. split; [exact E|]. intros q Nq. cbn [ids map fst In]. destruct (F q Nq) as [F1 F2].
      fold (ids l) in *. destruct (in_dec Nat.eq_dec q (ids l)) as [I|I].
      * split; [intros _; exact (F1 I) | intros H; exfalso; tauto].
      * rewrite (F2 I). split; intros H.
        -- destruct H as [<-|H]; [apply hset_same | contradiction].
        -- apply hset_other. intros ->. tauto.
Qed.

Lemma Clear_ok h L l pos fuel : rep h L l pos -> length l <= fuel ->
  step_okO h l (let? s := ClearLinkedList fuel (h, L) in Some (s, OUnit)) (ll_capacity L)
    (seq_of [] 0, OUnit).
Proof.
  intros R Hf. unfold ClearLinkedList. rewrite (r_head _ _ _ _ R).
  destruct (free_all_ok l h fuel Hf (r_seg _ _ _ _ R) (r_nodup _ _ _ _ R)) as (h' & -> & F).
  exists h'. do 1 eexists. exists [], 0, OUnit. split; [reflexivity|].
  split; [|split; [reflexivity | split; [exact F | reflexivity]]].
  split; cbn [ll_head ll_tail ll_elements ll_next seg ids map addr skipn length];
    [exact I | constructor | reflexivity | | reflexivity | reflexivity | lia].
  intros l' a v E. destruct l'; discriminate E.
Qed.

Lemma to_array_ok h l : forall fuel, length l <= fuel -> seg h l None -> to_array fuel h (addr l None) = Some (vals l).
Proof.
  induction l as [|[a v] l IH]; intros fuel Hf S; [destruct fuel; reflexivity|].
  destruct fuel as [|fuel]; [cbn in Hf; lia|]. cbn [addr to_array]. destruct S as [-> S]. cbn [e_next e_value].
  rewrite IH by (try exact S; cbn in Hf; lia). reflexivity.
Qed.
