(** Keys and values of hash-maps are relinquished once, unless a pointer is put again. *)
From Coq Require Import Arith NArith Bool Lia ZifyBool ZifyNat ZifyN Permutation List.
From Verif Require Import Outcome HashmapModel HashmapProof HashmapOwnerModel.
Import ListNotations.

(** * what the calls take and return, from the calls alone *)
Definition key_taken (o : hop N) : list N := match o with HPut _ true true _ (Some k) v => if (v =? 0)%N then [] else [k] | _ => [] end.
Definition value_taken (o : hop N) : list N := match o with HPut _ true true _ (Some k) v => if (v =? 0)%N then [] else [v] | _ => [] end.
Definition keys_taken (l : list (hop N)) : list N := flat_map key_taken l.
Definition values_taken (l : list (hop N)) : list N := flat_map value_taken l.
(** the values RemoveEntryFromHashmap has returned to the caller; NULL is none *)
Fixpoint returned (l : list (hop N)) (r : list (hout N)) : list N :=
  match l, r with
  | HRemove _ _ :: l, HVal _ v :: r => (if (v =? 0)%N then [] else [v]) ++ returned l r
  | _ :: l, _ :: r => returned l r
  | _, _ => []
  end.
Definition keys_held (m : HashmapInfo N) : list N := map (en_key N) (all_entries N (hm_map N m)).
Definition values_held (m : HashmapInfo N) : list N := map (en_value N) (all_entries N (hm_map N m)).

(** permutations of numbers by counting *)
Lemma count_perm l l' : Permutation l l' <-> forall x, count_occ N.eq_dec l x = count_occ N.eq_dec l' x.
Proof. apply Permutation_count_occ. Qed.
Lemma count_cons y l x : count_occ N.eq_dec (y :: l) x = count_occ N.eq_dec [y] x + count_occ N.eq_dec l x.
Proof. cbn [count_occ]. destruct (N.eq_dec y x); lia. Qed.
Section Proof.
Variable hash : N -> N.
Variable compare : option (N -> N -> bool).
Notation all := (all_entries N).
Notation entry := (EntryInfo N).

Lemma find_split h k l j e : find_entry N compare h k l = Some (j, e) -> exists l1 l2, l = l1 ++ e :: l2 /\ length l1 = j.
Proof.
  revert j. induction l as [|x l IH]; intros j; cbn [find_entry]; [discriminate|]. destruct (entry_matches N compare h k x); [injection 1 as <- <-; now exists [], l|].
  destruct (find_entry N compare h k l) as [[i e']|]; [|discriminate]. injection 1 as <- <-. destruct (IH i eq_refl) as (l1 & l2 & -> & <-). now exists (x :: l1), l2.
Qed.
(** a bucket in its place *)
Lemma bucket_view (m : HashmapInfo N) i : i < length (hm_map N m) -> exists p q, all (hm_map N m) = p ++ bucket_entries N (get_bucket N m i) ++ q /\
  forall b', all (hm_map N (set_bucket N m i b')) = p ++ b_entries N b' ++ q /\ length (hm_map N (set_bucket N m i b')) = length (hm_map N m).
Proof.
  intros H. destruct (nth_split_opt (hm_map N m) None i H) as (p & q & E & L). exists (all p), (all q). unfold get_bucket. set (o := nth i (hm_map N m) None) in *. split.
  - rewrite E. unfold all_entries. now rewrite flat_map_app.
  - intros b'. unfold set_bucket. cbn [hm_map]. rewrite set_nth_length by exact H. split; [|reflexivity]. rewrite E, <- L, set_nth_app. unfold all_entries. now rewrite flat_map_app.
Qed.
Lemma slot_in (m : HashmapInfo N) h : hm_map N m <> [] -> slot (hm_capacity N m) h < length (hm_map N m).
Proof. intros H. unfold hm_capacity. now apply slot_lt. Qed.

Lemma set_all (m : HashmapInfo N) i b n : get_bucket N m i = Some b -> all (hm_map N (set_bucket N m i (mkBucket N (b_entries N b) n))) = all (hm_map N m) /\ length (hm_map N (set_bucket N m i (mkBucket N (b_entries N b) n))) = length (hm_map N m).
Proof.
  intros E. assert (i < length (hm_map N m)) as H.
  { destruct (Nat.lt_ge_cases i (length (hm_map N m))); [assumption|]. unfold get_bucket in E. rewrite nth_overflow in E by assumption. discriminate. }
  destruct (bucket_view m i H) as (p & q & A & B). destruct (B (mkBucket N (b_entries N b) n)) as [C D]. rewrite A, C, E. now split.
Qed.
Lemma get_all (m : HashmapInfo N) k : all (hm_map N (fst (GetValueFromHashmap N hash compare m k))) = all (hm_map N m) /\ length (hm_map N (fst (GetValueFromHashmap N hash compare m k))) = length (hm_map N m).
Proof.
  destruct k as [k|]; [|now split]. cbn [GetValueFromHashmap]. destruct (get_bucket N m _) as [bk|] eqn:E; [|now split]. destruct (find_entry N compare _ k _) as [[j e]|]; cbn [fst]; now apply set_all.
Qed.
Lemma next_all fuel : forall m, all (hm_map N (fst (next_entry N fuel m))) = all (hm_map N m) /\ length (hm_map N (fst (next_entry N fuel m))) = length (hm_map N m).
Proof.
  induction fuel as [|fuel IH]; intros m; [now split|]. cbn [next_entry]. destruct (get_bucket N m (hm_next N m)) as [bk|] eqn:E; [|exact (IH (mkHashmap N (hm_map N m) (hm_entries N m) (S (hm_next N m)) (hm_head_of_list N m)))].
  destruct (nth_error _ _) as [e|]; [now apply set_all|]. destruct (set_all m (hm_next N m) bk (length (b_entries N bk)) E) as [A B].
  match goal with |- context [next_entry N fuel ?x] => destruct (IH x) as [C D] end. cbn [hm_map] in C, D. now rewrite C, D.
Qed.
Lemma grow_all mem (m : HashmapInfo N) : Permutation (all (hm_map N (fst (IncreaseHashmapCapacity N mem m)))) (all (hm_map N m)) /\ (hm_map N m <> [] -> hm_map N (fst (IncreaseHashmapCapacity N mem m)) <> []).
Proof.
  unfold IncreaseHashmapCapacity. destruct (next_capacity _ _) as [c|] eqn:C; [|now split]. destruct mem; [|now split]. cbn [fst hm_map].
  destruct (next_capacity_in _ _ C) as [_ P].
  assert (forall es mp, mp <> [] -> Permutation (all (fold_left (move_entry N) es mp)) (es ++ all mp) /\ fold_left (move_entry N) es mp <> []) as G.
  { induction es as [|e es IH]; intros mp Ne; [now split|]. cbn [fold_left]. destruct (move_entry_ok N hash mp e Ne) as (L & Pm & _).
    destruct (IH (move_entry N mp e)) as [A B]; [intros K; rewrite K in L; destruct mp; [contradiction|discriminate]|]. split; [|exact B]. rewrite A, Pm. cbn [app]. symmetry. apply Permutation_middle. }
  assert (repeat (@None (bucket N)) (N.to_nat c) <> []) as R by (destruct (N.to_nat c) eqn:Z; [lia|discriminate]).
  destruct (G (all (hm_map N m)) _ R) as [A B]. split; [|now intros _]. rewrite A, all_repeat_none, app_nil_r. reflexivity.
Qed.

(** ** one call *)
Lemma perm_in {A} (p q l1 l2 : list A) e : Permutation (p ++ (l1 ++ e :: l2) ++ q) (e :: p ++ (l1 ++ l2) ++ q).
Proof. rewrite <- !app_assoc. rewrite !(app_assoc p l1). symmetry. apply Permutation_middle. Qed.
Lemma remove_all (m : HashmapInfo N) k : hm_map N m <> [] ->
  let r := RemoveEntryFromHashmap N hash compare m (Some k) in
  hm_map N (fst r) <> [] /\
  match found hash compare m k with
  | Some e => Permutation (all (hm_map N m)) (e :: all (hm_map N (fst r))) /\ snd r = en_value N e
  | None => all (hm_map N (fst r)) = all (hm_map N m) /\ snd r = 0%N
  end.
Proof.
  intros Ne. cbn [RemoveEntryFromHashmap]. pose proof (slot_in m (hash k) Ne) as Si. unfold found. destruct (get_bucket N m _) as [bk|] eqn:E; [|now split].
  destruct (find_entry N compare _ k _) as [[j e]|] eqn:F; cbn [option_map fst snd].
  - destruct (find_split _ _ _ _ _ F) as (l1 & l2 & El & <-). destruct (bucket_view m _ Si) as (p & q & A & B). rewrite E in A. cbn [bucket_entries] in A.
    match goal with |- context [set_bucket N m _ ?b] => destruct (B b) as [C D] end. cbn [hm_map]. rewrite El in *. rewrite remove_index_entries in *.
    split; [intros K; rewrite K in D; destruct (hm_map N m); [contradiction|discriminate]|]. split; [|reflexivity]. rewrite A, C. apply perm_in.
  - destruct (set_all m _ bk (length (b_entries N bk)) E) as [A B]. split; [|now split]. intros K. rewrite K in B. destruct (hm_map N m); [contradiction|discriminate].
Qed.
Definition stored (m2 : bool) (k v : N) : list entry := if m2 then [mkEntry N (hash k) k v] else [].
Lemma put_all m1 m2 m3 (m : HashmapInfo N) k v : hm_map N m <> [] ->
  let r := PutEntryInHashmap N hash compare m1 m2 m3 m (Some k) v in
  hm_map N (fst r) <> [] /\
  if (v =? 0)%N || negb m1 then fst r = m
  else match found hash compare m k with
       | Some e => exists rest, Permutation (all (hm_map N m)) (e :: rest) /\ Permutation (all (hm_map N (fst r))) (stored m2 k v ++ rest)
       | None => Permutation (all (hm_map N (fst r))) (stored m2 k v ++ all (hm_map N m))
       end.
Proof.
  intros Ne. cbn [PutEntryInHashmap]. destruct (v =? 0)%N; [now split|]. destruct m1; [|now split]. cbn [negb orb]. pose proof (slot_in m (hash k) Ne) as Si. unfold found.
  set (i := slot (hm_capacity N m) (hash k)) in *. destruct (bucket_view m i Si) as (p & q & A & B).
  set (b0 := match get_bucket N m i with None => _ | Some _ => _ end).
  assert (hm_map N (set_bucket N m i b0) <> []) as Ne0 by (destruct (B b0) as [_ D]; intros K; rewrite K in D; destruct (hm_map N m); [contradiction|discriminate]).
  set (r := if negb m2 then _ else _).
  assert (hm_map N (fst r) <> [] /\ Permutation (all (hm_map N (fst r))) (stored m2 k v ++ p ++ b_entries N b0 ++ q)) as [R1 R2].
  { unfold r. destruct m2; cbn [negb].
    - set (b1 := insert_front N b0 (mkEntry N (hash k) k v)). destruct (B b1) as [C D].
      assert (Permutation (all (hm_map N (set_bucket N m i b1))) (stored true k v ++ p ++ b_entries N b0 ++ q)) as Pm by (rewrite C; unfold b1, stored; cbn [insert_front b_entries app]; symmetry; apply Permutation_middle).
      assert (hm_map N (set_bucket N m i b1) <> []) as Ne1 by (intros K; rewrite K in D; destruct (hm_map N m); [contradiction|discriminate]).
      destruct (_ <=? _)%N.
      + destruct (grow_all m3 (set_bucket N m i b1)) as [G1 G2]. destruct (IncreaseHashmapCapacity N m3 (set_bucket N m i b1)) as [m' g]. cbn [fst] in G1, G2. destruct g; cbn [fst hm_map]; (split; [now apply G2|now rewrite G1]).
      + cbn [fst hm_map]. split; assumption.
    - cbn [fst]. split; [exact Ne0|]. destruct (B b0) as [C _]. rewrite C. reflexivity. }
  split; [exact R1|]. destruct (get_bucket N m i) as [bk|] eqn:E; cbn [bucket_entries app] in A.
  - destruct (find_entry N compare (hash k) k (b_entries N bk)) as [[j e]|] eqn:F; cbn [option_map snd].
    + destruct (find_split _ _ _ _ _ F) as (l1 & l2 & El & <-). exists (p ++ (l1 ++ l2) ++ q). unfold b0 in R2. rewrite El in A, R2. rewrite remove_index_entries in R2.
      split; [rewrite A; apply perm_in|exact R2].
    + rewrite A. exact R2.
  - rewrite A. exact R2.
Qed.

(** ** the ledger *)
Lemma run_owner l : forall m, hm_map N m <> [] ->
  let '(m', r, (fk, fv)) := owner_run hash compare true true m l in
  hm_map N m' <> [] /\ Permutation (keys_held m ++ keys_taken l) (keys_held m' ++ fk) /\
  ((forall e, In e (all (hm_map N m)) -> en_value N e <> 0%N) ->
   (forall e, In e (all (hm_map N m')) -> en_value N e <> 0%N) /\ Permutation (values_held m ++ values_taken l) (values_held m' ++ fv ++ returned l r)).
Proof.
  induction l as [|o l IH]; intros m Ne.
  - cbn [owner_run keys_taken values_taken flat_map returned app nothing]. rewrite !app_nil_r. now repeat split.
  - cbn [owner_run]. unfold owner_step.
    assert (let (m1, r1) := hstep N hash compare m o in hm_map N m1 <> [] /\
      match (match o with HPut _ m1 _ _ k v => freed_by_put hash compare true true m1 m k v | HRemove _ k => freed_by_remove hash compare true m k | _ => nothing end) with (fk, fv) =>
      Permutation (keys_held m ++ key_taken o) (keys_held m1 ++ fk) /\
      ((forall e, In e (all (hm_map N m)) -> en_value N e <> 0%N) ->
       (forall e, In e (all (hm_map N m1)) -> en_value N e <> 0%N) /\ Permutation (values_held m ++ value_taken o) (values_held m1 ++ fv ++ returned [o] [r1])) end) as Step.
    { assert (forall m1, all (hm_map N m1) = all (hm_map N m) -> Permutation (keys_held m ++ []) (keys_held m1 ++ []) /\
        ((forall e, In e (all (hm_map N m)) -> en_value N e <> 0%N) -> (forall e, In e (all (hm_map N m1)) -> en_value N e <> 0%N) /\ Permutation (values_held m ++ []) (values_held m1 ++ [] ++ []))) as Same.
      { intros m1 E. unfold keys_held, values_held. rewrite E. cbn [app]. now repeat split. }
      assert (forall m1, length (hm_map N m1) = length (hm_map N m) -> hm_map N m1 <> []) as Long by (intros m1 E K; rewrite K in E; destruct (hm_map N m); [contradiction|discriminate]).
      destruct o as [m1 m2 m3 k v|k|k| | | |]; cbn [hstep key_taken value_taken].
      - destruct (PutEntryInHashmap N hash compare m1 m2 m3 m k v) as [m' rb] eqn:E. destruct k as [k|].
        + pose proof (put_all m1 m2 m3 m k v Ne) as [P1 P2]. rewrite E in P1, P2. cbn [fst] in P1, P2. split; [exact P1|]. cbn [returned app].
          unfold freed_by_put. destruct (v =? 0)%N eqn:V0; [cbn [orb] in P2; subst m'; destruct m1, m2; now apply Same|]. destruct m1; cbn [negb orb] in *; [|subst m'; now apply Same].
          destruct (found hash compare m k) as [e|].
          * destruct P2 as (rest & Q1 & Q2). unfold relinquish_key, relinquish_value. unfold keys_held, values_held. rewrite app_nil_r.
            split; [|intros Nz; split].
            -- rewrite (Permutation_map (en_key N) Q1), (Permutation_map (en_key N) Q2). destruct m2; cbn [stored map app en_key].
               ++ rewrite (Permutation_app_comm _ [en_key N e]), (Permutation_app_comm _ [k]). cbn [app]. apply perm_swap.
               ++ rewrite app_nil_r, (Permutation_app_comm _ [en_key N e]). reflexivity.
            -- intros x Hx. rewrite Q2 in Hx. apply in_app_or in Hx as [Hx|Hx]; [destruct m2; [|destruct Hx]; destruct Hx as [<-|[]]; cbn [en_value]; lia|]. apply Nz. rewrite Q1. now right.
            -- rewrite (Permutation_map (en_value N) Q1), (Permutation_map (en_value N) Q2). destruct m2; cbn [stored map app en_value].
               ++ rewrite (Permutation_app_comm _ [en_value N e]), (Permutation_app_comm _ [v]). cbn [app]. apply perm_swap.
               ++ rewrite app_nil_r, (Permutation_app_comm _ [en_value N e]). reflexivity.
          * unfold keys_held, values_held. cbn [nothing]. rewrite !app_nil_r. split; [|intros Nz; split].
            -- rewrite (Permutation_map (en_key N) P2). destruct m2; cbn [stored map app en_key]; [apply (Permutation_app_comm _ [k])|now rewrite app_nil_r].
            -- intros x Hx. rewrite P2 in Hx. apply in_app_or in Hx as [Hx|Hx]; [destruct m2; [|destruct Hx]; destruct Hx as [<-|[]]; cbn [en_value]; lia|]. now apply Nz.
            -- rewrite (Permutation_map (en_value N) P2). destruct m2; cbn [stored map app en_value]; [apply (Permutation_app_comm _ [v])|now rewrite app_nil_r].
        + injection E as <- <-. split; [exact Ne|]. cbn [freed_by_put nothing returned]. destruct m1, m2; now apply Same.
      - destruct (GetValueFromHashmap N hash compare m k) as [m' x] eqn:E. pose proof (get_all m k) as [A B]. rewrite E in A, B. cbn [fst] in A, B. split; [now apply Long|now apply Same].
      - destruct (RemoveEntryFromHashmap N hash compare m k) as [m' x] eqn:E. destruct k as [k|].
        + pose proof (remove_all m k Ne) as [P1 P2]. rewrite E in P1, P2. cbn [fst snd] in P1, P2. split; [exact P1|]. cbn [freed_by_remove returned]. destruct (found hash compare m k) as [e|].
          * destruct P2 as [Q1 ->]. unfold keys_held, values_held, relinquish_key. rewrite !app_nil_r. split; [|intros Nz; split].
            -- rewrite (Permutation_map (en_key N) Q1). cbn [map]. apply (Permutation_app_comm [_]).
            -- intros y Hy. apply Nz. rewrite Q1. now right.
            -- rewrite (Permutation_map (en_value N) Q1). cbn [map app]. assert (en_value N e <> 0%N) as Ze by (apply Nz; rewrite Q1; now left). destruct (N.eqb_spec (en_value N e) 0); [contradiction|]. apply (Permutation_app_comm [_]).
          * destruct P2 as [Q1 ->]. cbn [nothing]. now apply Same.
        + injection E as <- <-. split; [exact Ne|]. now apply Same.
      - unfold GetNextKeyInHashmap, NextEntry. destruct (next_entry N _ m) as [m' e] eqn:E. pose proof (next_all (length (hm_map N m) - hm_next N m) m) as [A B]. rewrite E in A, B. cbn [fst] in A, B. split; [now apply Long|now apply Same].
      - unfold GetNextValueInHashmap, NextEntry. destruct (next_entry N _ m) as [m' e] eqn:E. pose proof (next_all (length (hm_map N m) - hm_next N m) m) as [A B]. rewrite E in A, B. cbn [fst] in A, B. split; [now apply Long|now apply Same].
      - split; [exact Ne|]. now apply Same.
      - split; [exact Ne|]. now apply Same. }
    destruct (hstep N hash compare m o) as [m1 r1]. set (f := match o with HPut _ _ _ _ _ _ => _ | _ => _ end) in *. destruct f as [fk fv]. destruct Step as (S1 & S2 & S3).
    specialize (IH m1 S1). destruct (owner_run hash compare true true m1 l) as [[m' rs] [gk gv]]. destruct IH as (I1 & I2 & I3). split; [exact I1|]. split.
    + cbn [keys_taken flat_map]. fold (keys_taken l). apply count_perm. intros x. pose proof (proj1 (count_perm _ _) S2 x) as S2'. pose proof (proj1 (count_perm _ _) I2 x) as I2'. rewrite !count_occ_app in *. lia.
    + intros Nz. destruct (S3 Nz) as [Nz1 T]. destruct (I3 Nz1) as [Nz2 I4]. split; [exact Nz2|]. cbn [values_taken flat_map]. fold (values_taken l).
      assert (returned (o :: l) (r1 :: rs) = returned [o] [r1] ++ returned l rs) as ->.
      { destruct o, r1; cbn [returned app]; rewrite ?app_nil_r; reflexivity. }
      apply count_perm. intros x. pose proof (proj1 (count_perm _ _) T x) as T'. pose proof (proj1 (count_perm _ _) I4 x) as I4'. rewrite !count_occ_app in *. lia.
Qed.
End Proof.

(** * C263: what a hash-map takes it relinquishes once, or returns *)
Lemma new_all c : all_entries N (hm_map N (NewHashmap N c)) = [].
Proof. apply all_repeat_none. Qed.
Lemma flat_single {A B} (f : A -> B) l : flat_map (fun x => [f x]) l = map f l.
Proof. induction l as [|x l IH]; [reflexivity|]. cbn [flat_map map app]. now rewrite IH. Qed.
(** while the map lives *)
Theorem hashmap_holds hash compare c l : 0 < c ->
  let '(m, r, (fk, fv)) := owner_run hash compare true true (NewHashmap N c) l in
  Permutation (keys_taken l) (keys_held m ++ fk) /\ Permutation (values_taken l) (values_held m ++ fv ++ returned l r).
Proof.
  intros C. assert (hm_map N (NewHashmap N c) <> []) as Ne by (cbn; destruct c; [lia|discriminate]). pose proof (run_owner hash compare l _ Ne) as H.
  destruct (owner_run hash compare true true (NewHashmap N c) l) as [[m r] [fk fv]]. destruct H as (_ & H1 & H2). unfold keys_held, values_held in H1, H2 |- *. rewrite new_all in H1, H2. cbn [map app] in H1, H2.
  split; [exact H1|]. apply H2. intros e [].
Qed.
Print Assumptions hashmap_holds.
(** and with its end *)
Theorem hashmap_relinquishes hash compare c l : 0 < c ->
  let '(m, r, (fk, fv)) := owner_run hash compare true true (NewHashmap N c) l in
  let (dk, dv) := DestroyHashmap true true m in
  Permutation (keys_taken l) (fk ++ dk) /\ Permutation (values_taken l) (fv ++ dv ++ returned l r).
Proof.
  intros C. pose proof (hashmap_holds hash compare c l C) as H. destruct (owner_run hash compare true true (NewHashmap N c) l) as [[m r] [fk fv]]. destruct H as [H1 H2].
  unfold DestroyHashmap, relinquish_key, relinquish_value. rewrite !flat_single. fold (keys_held m) (values_held m).
  split; apply count_perm; intros x; [pose proof (proj1 (count_perm _ _) H1 x) as H|pose proof (proj1 (count_perm _ _) H2 x) as H]; rewrite !count_occ_app in *; lia.
Qed.
Print Assumptions hashmap_relinquishes.
(** pointers that are given once are not relinquished twice, and what is in the map has not been relinquished *)
Theorem hashmap_once hash compare c l : 0 < c -> NoDup (keys_taken l) -> NoDup (values_taken l) ->
  let '(m, r, (fk, fv)) := owner_run hash compare true true (NewHashmap N c) l in
  let (dk, dv) := DestroyHashmap true true m in
  NoDup (fk ++ dk) /\ NoDup (fv ++ dv ++ returned l r) /\ (forall p, In p (keys_held m) -> ~ In p fk) /\ (forall p, In p (values_held m) -> ~ In p fv /\ ~ In p (returned l r)).
Proof.
  intros C K V. pose proof (hashmap_relinquishes hash compare c l C) as H. pose proof (hashmap_holds hash compare c l C) as G.
  destruct (owner_run hash compare true true (NewHashmap N c) l) as [[m r] [fk fv]]. destruct (DestroyHashmap true true m) as [dk dv]. destruct H as [H1 H2], G as [G1 G2].
  split; [eapply Permutation_NoDup; eassumption|]. split; [eapply Permutation_NoDup; eassumption|].
  assert (forall l l' : list N, NoDup (l ++ l') -> forall p, In p l -> ~ In p l') as D.
  { induction l0 as [|x l0 IH]; intros l' Nd p []; inversion Nd as [|? ? Nx Nd']; subst; [intros I; apply Nx; apply in_or_app; now right|eauto]. }
  split.
  - apply D. eapply Permutation_NoDup; eassumption.
  - intros p I. assert (~ In p (fv ++ returned l r)) as Q by (revert p I; apply D; eapply Permutation_NoDup; eassumption). split; intros J; apply Q, in_or_app; tauto.
Qed.
Print Assumptions hashmap_once.
Definition sample_calls : list (hop N) := [HPut N true true true (Some 10%N) 20%N; HPut N true true true (Some 12%N) 21%N; HPut N true false true (Some 14%N) 22%N; HPut N true true true (Some 11%N) 23%N; HRemove N (Some 30%N); HNextKey N].
(** keys are the same if they are in the same ten *)
Definition tens (k k' : N) : bool := (k / 10 =? k' / 10)%N.
Example sample_owned : keys_taken sample_calls = [10; 12; 11]%N /\ values_taken sample_calls = [20; 21; 23]%N /\ NoDup (keys_taken sample_calls) /\ NoDup (values_taken sample_calls) /\
  match owner_run (fun k => (k / 10)%N) (Some tens) true true (NewHashmap N 3) (sample_calls ++ [HPut N true true true (Some 13%N) 24%N; HRemove N (Some 19%N)]) with
  | (m, r, (fk, fv)) => fk = [10; 12; 11; 13]%N /\ fv = [20; 21; 23]%N /\ keys_held m = [] /\ nth 7 r (HUnit N) = HVal N 24%N
  end.
Proof. split; [reflexivity|]. split; [reflexivity|]. split; [|split]; [repeat constructor; cbn; intuition discriminate..|]. vm_compute. repeat split. Qed.

(** * C264: without methods nothing is relinquished, and the methods do not change what the map does *)
Theorem hashmap_methods hash compare a c m l :
  let '(m1, r1, (fk, fv)) := owner_run hash compare true true m l in
  owner_run hash compare a c m l = (m1, r1, (if a then fk else [], if c then fv else [])) /\
  DestroyHashmap a c m1 = (if a then keys_held m1 else [], if c then values_held m1 else []).
Proof.
  revert m. induction l as [|o l IH]; intros m.
  - cbn [owner_run nothing]. split; [destruct a, c; reflexivity|]. unfold DestroyHashmap, relinquish_key, relinquish_value.
    assert (forall (x : list (EntryInfo N)), flat_map (fun _ => []) x = @nil N) as Z by (induction x; [reflexivity|assumption]). destruct a, c; rewrite ?flat_single, ?Z; reflexivity.
  - cbn [owner_run]. unfold owner_step. destruct (hstep N hash compare m o) as [m1 r1]. specialize (IH m1).
    set (f := match o with HPut _ m1 _ _ k v => freed_by_put hash compare true true m1 m k v | HRemove _ k => freed_by_remove hash compare true m k | _ => nothing end).
    set (g := match o with HPut _ m1 _ _ k v => freed_by_put hash compare a c m1 m k v | HRemove _ k => freed_by_remove hash compare a m k | _ => nothing end).
    assert (g = (if a then fst f else [], if c then snd f else [])) as ->.
    { unfold f, g. destruct o as [m1' m2 m3 k v|k|k| | | |]; try (destruct a, c; reflexivity).
      - destruct k as [k|]; [|destruct a, c; reflexivity]. unfold freed_by_put. destruct (v =? 0)%N; [destruct a, c; reflexivity|]. destruct m1'; [|destruct a, c; reflexivity]. destruct (found hash compare m k); destruct a, c; reflexivity.
      - destruct k as [k|]; [|destruct a, c; reflexivity]. unfold freed_by_remove. destruct (found hash compare m k); destruct a, c; reflexivity. }
    destruct f as [fk fv]. cbn [fst snd]. destruct (owner_run hash compare true true m1 l) as [[m2 rs] [gk gv]]. destruct IH as [IH1 IH2]. rewrite IH1. split; [|exact IH2]. destruct a, c; reflexivity.
Qed.
Print Assumptions hashmap_methods.

(** * C265: a pointer that is put again *)
(** True means taken, False not taken unless the map should have grown and could not *)
Theorem put_answer hash compare m1 m2 m3 m k v : let r := PutEntryInHashmap N hash compare m1 m2 m3 m k v in
  (snd r = true -> key_taken (HPut N m1 m2 m3 k v) = match k with Some k => [k] | None => [] end /\ k <> None) /\
  (snd r = false -> key_taken (HPut N m1 m2 m3 k v) <> [] -> m3 = false \/ (4194301 <= hm_capacity N m)%N).
Proof.
  cbn [key_taken]. destruct k as [k|]; [|cbn; split; [discriminate|destruct m1, m2; congruence]]. cbn [PutEntryInHashmap]. destruct (v =? 0)%N; [cbn; split; [discriminate|destruct m1, m2; congruence]|].
  destruct m1; [|cbn; split; [discriminate|congruence]]. destruct m2; cbn [negb]; [|split; [discriminate|congruence]]. set (bk := match get_bucket N m _ with None => _ | Some _ => _ end). split; [now split|].
  set (m1 := set_bucket N m _ _). destruct (hm_capacity N m1 - 1 <=? _)%N; [|discriminate]. intros H _. unfold IncreaseHashmapCapacity in H. destruct m3; [right|now left].
  destruct (next_capacity (hm_capacity N m1) capacities) as [x|] eqn:Nc; [discriminate|]. apply next_capacity_none in Nc. unfold m1, hm_capacity, set_bucket in Nc. cbn [hm_map] in Nc.
  destruct (hm_map N m) as [|z zs] eqn:Em; [unfold set_nth in Nc; rewrite firstn_nil in Nc; cbn [app length] in Nc; rewrite skipn_nil in Nc; cbn in Nc; lia|].
  rewrite <- Em in *. rewrite set_nth_length in Nc; [exact Nc|]. apply slot_in. congruence.
Qed.
Print Assumptions put_answer.
(** the value of a key is replaced, with the same pointer to the key: the key is relinquished and stays in the map *)
Theorem put_again_refuted hash compare c k v v' : 2 < c -> (N.of_nat c < 4194301)%N -> v <> 0%N -> v' <> 0%N -> match compare with Some eq => eq k k = true | None => True end ->
  let '(m, r, (fk, fv)) := owner_run hash compare true true (NewHashmap N c) [HPut N true true true (Some k) v; HPut N true true true (Some k) v'] in
  r = [HBool N true; HBool N true] /\ In k fk /\ In k (keys_held m) /\ (v = v' -> In v fv /\ In v (values_held m)) /\ let (dk, dv) := DestroyHashmap true true m in In k dk.
Proof.
  intros C2 C3 V V' R. assert (0 < c) as C by lia.
  assert (exists m, PutEntryInHashmap N hash compare true true true (NewHashmap N c) (Some k) v = (m, true) /\ found hash compare m k = Some (mkEntry N (hash k) k v) /\ length (hm_map N m) = c) as (m & E & Fd & Lc).
  { cbn [PutEntryInHashmap]. destruct (N.eqb_spec v 0); [contradiction|]. cbn [negb].
    set (i := slot _ _). assert (i < c) as Hi. { assert (hm_map N (NewHashmap N c) <> []) as Ne by (cbn; destruct c; [lia|discriminate]). pose proof (slot_in (NewHashmap N c) (hash k) Ne) as Q. assert (length (hm_map N (NewHashmap N c)) = c) as Lc by apply repeat_length. rewrite Lc in Q. exact Q. }
    assert (get_bucket N (NewHashmap N c) i = None) as -> by (unfold get_bucket; cbn; apply nth_repeat).
    cbn [insert_front b_entries b_next length]. set (m1 := set_bucket N (NewHashmap N c) i _).
    assert (length (hm_map N m1) = c) as Lm. { unfold m1, set_bucket. cbn [hm_map]. rewrite set_nth_length; [apply repeat_length|]. cbn. now rewrite repeat_length. }
    unfold hm_capacity at 1. rewrite Lm. destruct (N.leb_spec (N.of_nat c - 1) (N.of_nat 1)); [lia|]. eexists. split; [reflexivity|]. split; [|exact Lm].
    unfold found, hm_capacity. cbn [hm_map]. rewrite Lm. assert (slot (N.of_nat c) (hash k) = i) as -> by (unfold i, hm_capacity; cbn; now rewrite repeat_length).
    unfold get_bucket. cbn [hm_map]. unfold m1, set_bucket. cbn [hm_map]. rewrite set_nth_same by (cbn; now rewrite repeat_length). unfold insert_front. cbn [b_entries find_entry option_map]. unfold entry_matches. cbn [en_hash en_key]. rewrite N.eqb_refl.
    destruct compare as [eq|]; [now rewrite R|reflexivity]. }
  assert (exists m', PutEntryInHashmap N hash compare true true true m (Some k) v' = (m', true)) as [m' E'].
  { destruct (put_answer hash compare true true true m (Some k) v') as [_ P]. destruct (PutEntryInHashmap N hash compare true true true m (Some k) v') as [m' [|]]; [now exists m'|]. cbn [snd] in P. cbn [key_taken] in P.
    destruct (N.eqb_spec v' 0); [contradiction|]. destruct P as [P|P]; [reflexivity|discriminate|discriminate|]. unfold hm_capacity in P. lia. }
  pose proof (hashmap_holds hash compare c [HPut N true true true (Some k) v; HPut N true true true (Some k) v'] C) as H.
  cbn [owner_run] in *. unfold owner_step in *. cbn [hstep] in *. rewrite E, E' in *. cbn [freed_by_put] in *. destruct (N.eqb_spec v 0); [contradiction|]. destruct (N.eqb_spec v' 0); [contradiction|]. cbn [negb] in *.
  rewrite Fd in *. assert (found hash compare (NewHashmap N c) k = None) as F0 by (unfold found, get_bucket; cbn; now rewrite nth_repeat). rewrite F0 in *. cbn [nothing app] in *.
  destruct H as [H1 H2]. cbn [keys_taken values_taken flat_map key_taken value_taken app returned relinquish_key relinquish_value en_key en_value] in *.
  destruct (N.eqb_spec v 0); [contradiction|]. destruct (N.eqb_spec v' 0); [contradiction|]. cbn [app] in *.
  assert (In k (keys_held m')) as Kh.
  { apply (count_occ_In N.eq_dec). pose proof (proj1 (count_perm _ _) H1 k) as Q. rewrite count_occ_app in Q. cbn [count_occ] in Q. destruct (N.eq_dec k k); [lia|congruence]. }
  split; [reflexivity|]. split; [now left|]. split; [exact Kh|]. split.
  - intros <-. split; [now left|]. apply (count_occ_In N.eq_dec). pose proof (proj1 (count_perm _ _) H2 v) as Q. rewrite count_occ_app in Q. cbn [count_occ] in Q. destruct (N.eq_dec v v); [lia|congruence].
  - unfold DestroyHashmap, relinquish_key. rewrite flat_single. exact Kh.
Qed.
Print Assumptions put_again_refuted.
(** PutEntryInHashmap returns False although it has taken the key and the value, if the map cannot grow: a caller that relinquishes what was refused does it a second time *)
Theorem put_refused_refuted hash : exists c k v, let '(m, r, (fk, fv)) := owner_run hash None true true (NewHashmap N c) [HPut N true true false (Some k) v] in
  r = [HBool N false] /\ In k (keys_held m) /\ In v (values_held m) /\ GetNumberOfEntriesInHashmap N m = 0%N.
Proof.
  exists 1, 8%N, 9%N. cbn [owner_run]. unfold owner_step. destruct (freed_by_put _ _ _ _ _ _ _ _) as [fk fv]. cbn [hstep PutEntryInHashmap]. change (9 =? 0)%N with false. cbn [negb].
  assert (slot (hm_capacity N (NewHashmap N 1)) (hash 8%N) = 0) as -> by (unfold slot; cbn; now rewrite N.mod_1_r). cbn. split; [reflexivity|]. split; [now left|]. split; [now left|reflexivity].
Qed.
Print Assumptions put_refused_refuted.
Example put_again_ex : match owner_run (fun k => k) (Some N.eqb) true true (NewHashmap N 17) [HPut N true true true (Some 5%N) 6%N; HPut N true true true (Some 5%N) 7%N] with
  | (m, r, (fk, fv)) => fk = [5%N] /\ fv = [6%N] /\ keys_held m = [5%N] /\ values_held m = [7%N] end.
Proof. vm_compute. repeat split. Qed.
