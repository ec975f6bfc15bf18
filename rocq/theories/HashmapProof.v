(** Lemmas on the hash-map model. *)
From Coq Require Import NArith Arith List Bool Lia Permutation ZifyBool ZifyNat ZifyN.
From Verif Require Import HashmapModel HashmapSpec.
Import ListNotations.

Lemma fop_app {A} (R : A -> A -> Prop) l1 l2 :
  ForallOrdPairs R (l1 ++ l2) <->
  ForallOrdPairs R l1 /\ ForallOrdPairs R l2 /\ (forall x y, In x l1 -> In y l2 -> R x y).
Proof.
  induction l1 as [|x l1 IH]; cbn [app].
  - split; [intros H; repeat split; [constructor | exact H | intros ? ? []] | intros (_ & H & _); exact H].
  - split.
    + intros H. inversion H as [|? ? F P]; subst. apply IH in P. destruct P as (P1 & P2 & P3).
      rewrite Forall_app in F. destruct F as [F1 F2]. repeat split; [now constructor | exact P2 |].
      intros a b [<-|Ha] Hb; [|now apply P3]. rewrite Forall_forall in F2. now apply F2.
    + intros (P1 & P2 & P3). inversion P1 as [|? ? F P]; subst. constructor.
      * apply Forall_app. split; [exact F|]. apply Forall_forall. intros y Hy. apply P3; [now left | exact Hy].
      * apply IH. repeat split; [exact P | exact P2 |]. intros a b Ha Hb. apply P3; [now right | exact Hb].
Qed.

Lemma fop_perm {A} (R : A -> A -> Prop) (Sym : forall x y, R x y -> R y x) l l' :
  Permutation l l' -> ForallOrdPairs R l -> ForallOrdPairs R l'.
Proof.
  induction 1 as [|x l l' P IH|x y l|l l' l'' P1 IH1 P2 IH2]; intros H.
  - exact H.
  - inversion H; subst. constructor; [|now apply IH]. eapply Permutation_Forall; eassumption.
  - inversion H as [|? ? F1 H1]; subst. inversion H1 as [|? ? F2 H2]; subst. inversion F1; subst.
    constructor; [constructor; [now apply Sym | assumption]|]. now constructor.
  - auto.
Qed.

Lemma nth_split_opt {A} (l : list A) d i : i < length l ->
  exists p q, l = p ++ nth i l d :: q /\ length p = i.
Proof. intros H. destruct (nth_split l d H) as (p & q & E & L). now exists p, q. Qed.

Lemma set_nth_app {A} (p q : list A) x y : set_nth (p ++ x :: q) (length p) y = p ++ y :: q.
Proof.
  unfold set_nth. rewrite firstn_app, firstn_all, Nat.sub_diag. cbn [firstn]. rewrite app_nil_r. f_equal. f_equal.
  change (S (length p)) with (1 + length p). rewrite Nat.add_comm.
  rewrite skipn_app. rewrite (skipn_all2 p) by lia.
  replace (length p + 1 - length p) with 1 by lia. reflexivity.
Qed.
Lemma set_nth_length {A} (l : list A) i x : i < length l -> length (set_nth l i x) = length l.
Proof. intros H. unfold set_nth. rewrite app_length, firstn_length. cbn [length]. rewrite skipn_length. lia. Qed.

Section Keys.
Variable K : Type.
Variable hash : K -> N.
Variable compare : option (K -> K -> bool).
Notation same := (same K hash compare).
Hypothesis good : good_methods K hash compare.
Notation entry := (EntryInfo K).
Notation all := (all_entries K).
Notation be := (bucket_entries K).

Lemma same_false_sym k k' : same k k' = false -> same k' k = false.
Proof. intros H. destruct (same k' k) eqn:E; [|reflexivity]. apply (same_sym _ _ _ good) in E. congruence. Qed.
Lemma same_left k k' x : same k k' = true -> same k x = same k' x.
Proof.
  intros H. destruct (same k x) eqn:E1, (same k' x) eqn:E2; try reflexivity.
  - apply (same_sym _ _ _ good) in H. rewrite (same_trans _ _ _ good _ _ _ H E1) in E2. discriminate.
  - rewrite (same_trans _ _ _ good _ _ _ H E2) in E1. discriminate.
Qed.
Lemma same_right k k' x : same k k' = true -> same x k = same x k'.
Proof.
  intros H. destruct (same x k) eqn:E1, (same x k') eqn:E2; try reflexivity.
  - rewrite (same_trans _ _ _ good _ _ _ E1 H) in E2. discriminate.
  - apply (same_sym _ _ _ good) in H. rewrite (same_trans _ _ _ good _ _ _ E2 H) in E1. discriminate.
Qed.

(** ** entries as association lists *)
Definition apart (e e' : entry) : Prop := same (en_key _ e) (en_key _ e') = false.
Definition distinct (l : list entry) : Prop := ForallOrdPairs apart l.
Fixpoint lookup (k : K) (l : list entry) : option N :=
  match l with [] => None | e :: t => if same k (en_key _ e) then Some (en_value _ e) else lookup k t end.

Lemma lookup_app k l1 l2 : lookup k (l1 ++ l2) = match lookup k l1 with Some v => Some v | None => lookup k l2 end.
Proof. induction l1 as [|e l1 IH]; [reflexivity|]. cbn [app lookup]. now destruct (same k _). Qed.
Lemma lookup_none k l : lookup k l = None <-> forall e, In e l -> same k (en_key _ e) = false.
Proof.
  induction l as [|e l IH]; cbn [lookup].
  - split; [intros _ ? [] | reflexivity].
  - destruct (same k (en_key _ e)) eqn:E.
    + split; [discriminate|]. intros H. specialize (H e (or_introl eq_refl)). congruence.
    + rewrite IH. split; [intros H x [<-|Hx]; auto | intros H x Hx; apply H; now right].
Qed.
Lemma lookup_in k l e : distinct l -> In e l -> same k (en_key _ e) = true -> lookup k l = Some (en_value _ e).
Proof.
  intros D. induction D as [|x l F D IH]; intros I E; [destruct I|]. cbn [lookup]. destruct I as [->|I].
  - now rewrite E.
  - rewrite Forall_forall in F. specialize (F e I). unfold apart in F.
    rewrite (same_left _ _ _ E), same_false_sym by exact F. now apply IH.
Qed.
Lemma lookup_perm k l l' : Permutation l l' -> distinct l -> lookup k l = lookup k l'.
Proof.
  intros P D. assert (D' : distinct l').
  { revert D. apply fop_perm; [intros x y; apply same_false_sym | exact P]. }
  destruct (lookup k l) eqn:E.
  - assert (X : exists e, In e l /\ same k (en_key _ e) = true).
    { clear - E. revert E. induction l as [|e l IH]; cbn [lookup]; [discriminate|].
      destruct (same k (en_key _ e)) eqn:S; [intros _; exists e; split; [now left | exact S]|].
      intros E. destruct (IH E) as (x & I & Ex). exists x. split; [now right | exact Ex]. }
    destruct X as (e & I & S). rewrite (lookup_in k l e D I S) in E.
    rewrite (lookup_in k l' e D' (Permutation_in _ P I) S). congruence.
  - symmetry. apply lookup_none. intros e I. apply (proj1 (lookup_none k l) E).
    eapply Permutation_in; [apply Permutation_sym; exact P | exact I].
Qed.

(** ** entries at their place *)
Definition placed (cap : N) (i : nat) (e : entry) : Prop :=
  en_hash _ e = hash (en_key _ e) /\ slot cap (en_hash _ e) = i.

Lemma matches_same key e : en_hash _ e = hash (en_key _ e) ->
  entry_matches K compare (hash key) key e = same key (en_key _ e).
Proof.
  intros H. unfold entry_matches. rewrite H. unfold HashmapSpec.same. pose proof (same_hash _ _ _ good key (en_key _ e)) as Hh.
  unfold HashmapSpec.same in Hh. destruct compare as [c|].
  - destruct (c key (en_key _ e)) eqn:E; destruct (N.eqb_spec (hash (en_key _ e)) (hash key)) as [X|X]; try reflexivity.
    exfalso. apply X. symmetry. now apply Hh.
  - rewrite (N.eqb_sym (hash key)). now destruct (N.eqb (hash (en_key _ e)) (hash key)).
Qed.

Lemma find_entry_ok key l : (forall e, In e l -> en_hash _ e = hash (en_key _ e)) ->
  match find_entry K compare (hash key) key l with
  | Some (j, e) => exists l1 l2, l = l1 ++ e :: l2 /\ length l1 = j /\ same key (en_key _ e) = true /\
      (forall x, In x l1 -> same key (en_key _ x) = false)
  | None => lookup key l = None
  end.
Proof.
  induction l as [|e l IH]; intros H; cbn [find_entry]; [reflexivity|].
  rewrite matches_same by (apply H; now left). cbn [lookup]. destruct (same key (en_key _ e)) eqn:E.
  - exists [], l. repeat split; [exact E | intros ? []].
  - specialize (IH (fun x Hx => H x (or_intror Hx))). destruct (find_entry K compare (hash key) key l) as [[j x]|].
    + destruct IH as (l1 & l2 & -> & <- & Ex & F). exists (e :: l1), l2. repeat split; [exact Ex|].
      intros y [<-|Hy]; [exact E | now apply F].
    + exact IH.
Qed.

Record inv (m : HashmapInfo K) (f : fmap K) : Prop := {
  i_pos : hm_map _ m <> [];
  i_placed : forall i b e, nth_error (hm_map _ m) i = Some (Some b) -> In e (b_entries _ b) -> placed (hm_capacity _ m) i e;
  i_distinct : distinct (all (hm_map _ m));
  i_lookup : forall k, f k = lookup k (all (hm_map _ m))
}.

Lemma all_app p q : all (p ++ q) = all p ++ all q.
Proof. apply flat_map_app. Qed.
Lemma all_cons b q : all (b :: q) = be b ++ all q.
Proof. reflexivity. Qed.
Lemma all_repeat_none n : all (repeat None n) = [].
Proof. induction n; [reflexivity | assumption]. Qed.

Lemma in_all map e : In e (all map) -> exists i b, nth_error map i = Some (Some b) /\ In e (b_entries _ b).
Proof.
  unfold all_entries. rewrite in_flat_map. intros ([b|] & Hb & He); [|destruct He].
  apply In_nth_error in Hb. destruct Hb as [i Hi]. now exists i, b.
Qed.

Lemma slot_lt (map : list (option (bucket K))) h : map <> [] -> slot (N.of_nat (length map)) h < length map.
Proof.
  intros H. assert (0 < length map) by (destruct map; [contradiction | cbn; lia]). unfold slot.
  pose proof (N.mod_lt h (N.of_nat (length map)) ltac:(lia)). lia.
Qed.

(** the map seen from the bucket of a key *)
Lemma view m f key : inv m f ->
  exists p ob q, hm_map _ m = p ++ ob :: q /\ length p = slot (hm_capacity _ m) (hash key) /\
    get_bucket _ m (slot (hm_capacity _ m) (hash key)) = ob /\
    lookup key (all p) = None /\ lookup key (all q) = None /\
    (forall e, In e (be ob) -> en_hash _ e = hash (en_key _ e)).
Proof.
  intros H. set (i := slot (hm_capacity _ m) (hash key)).
  assert (Hi : i < length (hm_map _ m)) by (apply slot_lt; apply H).
  destruct (nth_split_opt (hm_map _ m) None i Hi) as (p & q & E & L).
  exists p, (nth i (hm_map _ m) None), q. split; [exact E|]. split; [exact L|]. split; [reflexivity|].
  set (ob := nth i (hm_map _ m) None) in *.
  assert (Other : forall j b e, nth_error (hm_map _ m) j = Some (Some b) -> In e (b_entries _ b) -> j <> i ->
    same key (en_key _ e) = false).
  { intros j b e Hj He Ne. destruct (i_placed _ _ H j b e Hj He) as [Eh Es].
    destruct (same key (en_key _ e)) eqn:S; [|reflexivity]. exfalso. apply Ne.
    rewrite <- Es, Eh, <- (same_hash _ _ _ good _ _ S). reflexivity. }
  split; [|split].
  - apply lookup_none. intros e He. apply in_all in He. destruct He as (j & b & Hj & He).
    assert (j < length p) by (apply nth_error_Some; congruence).
    apply (Other j b e); [rewrite E, nth_error_app1 by assumption; exact Hj | exact He | lia].
  - apply lookup_none. intros e He. apply in_all in He. destruct He as (j & b & Hj & He).
    apply (Other (S i + j) b e); [|exact He | lia].
    rewrite E, nth_error_app2 by lia. rewrite L. replace (S i + j - i) with (S j) by lia. exact Hj.
  - intros e He. destruct ob as [b|] eqn:Eb; [|destruct He].
    apply (i_placed _ _ H i b e); [|exact He]. rewrite E, nth_error_app2 by lia.
    rewrite L, Nat.sub_diag. reflexivity.
Qed.

(** replacing a bucket *)
Lemma inv_bucket m f p ob q b' f' key :
  inv m f -> hm_map _ m = p ++ ob :: q -> length p = slot (hm_capacity _ m) (hash key) ->
  (forall e, In e (b_entries _ b') -> In e (be ob) \/ (e = mkEntry _ (hash key) key (en_value _ e))) ->
  distinct (all p ++ b_entries _ b' ++ all q) ->
  (forall k, f' k = lookup k (all p ++ b_entries _ b' ++ all q)) ->
  inv (set_bucket _ m (slot (hm_capacity _ m) (hash key)) b') f'.
Proof.
  intros H E L In1 D Lk. set (i := slot _ _) in *.
  assert (Em : hm_map _ (set_bucket _ m i b') = p ++ Some b' :: q).
  { unfold set_bucket. cbn [hm_map]. rewrite E, <- L. apply set_nth_app. }
  assert (Ec : hm_capacity _ (set_bucket _ m i b') = hm_capacity _ m).
  { unfold hm_capacity. rewrite Em, E, !app_length. reflexivity. }
  split; rewrite ?Ec, ?Em.
  - intros C. destruct p; discriminate C.
  - intros j b e Hj He. destruct (lt_eq_lt_dec j i) as [[Lt| ->]|Gt].
    + rewrite nth_error_app1 in Hj by lia. apply (i_placed _ _ H j b e); [|exact He].
      rewrite E, nth_error_app1 by lia. exact Hj.
    + rewrite nth_error_app2, L, Nat.sub_diag in Hj by lia. injection Hj as <-.
      destruct (In1 e He) as [Ho| ->].
      * destruct ob as [b|]; [|destruct Ho]. apply (i_placed _ _ H i b e); [|exact Ho].
        rewrite E, nth_error_app2, L, Nat.sub_diag by lia. reflexivity.
      * split; reflexivity.
    + rewrite nth_error_app2, L in Hj by lia. apply (i_placed _ _ H j b e); [|exact He].
      rewrite E, nth_error_app2, L by lia. destruct (j - i) as [|d] eqn:Ej; [lia|]. exact Hj.
  - rewrite all_app, all_cons. exact D.
  - rewrite all_app, all_cons. exact Lk.
Qed.

Lemma inv_meta m f n h e : inv m f -> inv (mkHashmap _ (hm_map _ m) e n h) f.
Proof. intros [A B C D]. split; assumption. Qed.

(** *** lookup *)
Lemma Get_ok m f key : inv m f ->
  let r := GetValueFromHashmap K hash compare m (Some key) in
  inv (fst r) f /\ snd r = fm_get K f key.
Proof.
  intros H. cbn zeta. unfold GetValueFromHashmap.
  destruct (view m f key H) as (p & ob & q & E & L & G & Np & Nq & Wf). rewrite G.
  assert (Fk : f key = lookup key (be ob)).
  { rewrite (i_lookup _ _ H), E, all_app, all_cons, !lookup_app, Np, Nq. now destruct (lookup key (be ob)). }
  unfold fm_get. rewrite Fk.
  assert (Same : forall n b, ob = Some b -> inv (set_bucket _ m (slot (hm_capacity _ m) (hash key)) (mkBucket _ (b_entries _ b) n)) f).
  { intros n b ->. apply (inv_bucket m f p (Some b) q _ f key H E L); cbn [b_entries bucket_entries].
    - intros e He. now left.
    - pose proof (i_distinct _ _ H) as D. rewrite E, all_app, all_cons in D. exact D.
    - intros k. rewrite (i_lookup _ _ H), E, all_app, all_cons. reflexivity. }
  destruct ob as [b|]; [|cbn [bucket_entries lookup]; now split].
  pose proof (find_entry_ok key (b_entries _ b) Wf) as F. cbn [bucket_entries].
  destruct (find_entry K compare (hash key) key (b_entries _ b)) as [[j e]|]; cbn [fst snd].
  - destruct F as (l1 & l2 & El & _ & S & F). split; [now apply Same|].
    rewrite El, lookup_app, (proj2 (lookup_none key l1) F). cbn [lookup]. now rewrite S.
  - split; [now apply Same|]. now rewrite F.
Qed.

(** the two ways a bucket loses the entry of a key *)
Lemma remove_lookup k key p l1 e l2 q : distinct (p ++ (l1 ++ e :: l2) ++ q) ->
  same key (en_key _ e) = true ->
  lookup k (p ++ (l1 ++ l2) ++ q) = if same k key then None else lookup k (p ++ (l1 ++ e :: l2) ++ q).
Proof.
  intros D S. assert (P : Permutation (p ++ (l1 ++ e :: l2) ++ q) (e :: p ++ (l1 ++ l2) ++ q)).
  { rewrite <- !app_assoc. cbn [app]. rewrite !app_assoc. symmetry. rewrite <- !app_assoc.
    rewrite (app_assoc p l1 (e :: l2 ++ q)), (app_assoc p l1 (l2 ++ q)). apply Permutation_middle. }
  rewrite (lookup_perm k _ _ P D). cbn [lookup].
  assert (D' : distinct (e :: p ++ (l1 ++ l2) ++ q)).
  { revert D. apply fop_perm; [intros x y; apply same_false_sym | exact P]. }
  inversion D' as [|? ? F D'']; subst. rewrite <- (same_right _ _ k S).
  destruct (same k key) eqn:E; [|reflexivity]. apply lookup_none. intros x Hx. rewrite Forall_forall in F.
  rewrite (same_left _ _ _ E), (same_left _ _ _ S). apply (F x Hx).
Qed.
Lemma remove_distinct p l1 e l2 q : distinct (p ++ (l1 ++ e :: l2) ++ q) -> distinct (p ++ (l1 ++ l2) ++ q).
Proof.
  intros D. assert (P : Permutation (p ++ (l1 ++ e :: l2) ++ q) (e :: p ++ (l1 ++ l2) ++ q)).
  { rewrite <- !app_assoc. cbn [app].
    rewrite (app_assoc p l1 (e :: l2 ++ q)), (app_assoc p l1 (l2 ++ q)). symmetry. apply Permutation_middle. }
  apply (fop_perm apart (fun x y => same_false_sym _ _) _ _ P) in D. now inversion D.
Qed.
Lemma remove_index_entries l1 e l2 n :
  b_entries K (remove_index K (mkBucket K (l1 ++ e :: l2) n) (length l1)) = l1 ++ l2.
Proof.
  unfold remove_index. cbn [b_entries]. rewrite firstn_app, firstn_all, Nat.sub_diag. cbn [firstn]. rewrite app_nil_r. f_equal.
  rewrite skipn_app, skipn_all2 by lia. replace (S (length l1) - length l1) with 1 by lia. reflexivity.
Qed.

(** *** removal *)
Lemma Remove_ok m f key : inv m f ->
  let r := RemoveEntryFromHashmap K hash compare m (Some key) in
  inv (fst r) (fm_remove K hash compare f key) /\ snd r = fm_get K f key.
Proof.
  intros H. cbn zeta. unfold RemoveEntryFromHashmap.
  destruct (view m f key H) as (p & ob & q & E & L & G & Np & Nq & Wf). rewrite G.
  assert (Fk : f key = lookup key (be ob)).
  { rewrite (i_lookup _ _ H), E, all_app, all_cons, !lookup_app, Np, Nq. now destruct (lookup key (be ob)). }
  pose proof (i_distinct _ _ H) as D. rewrite E, all_app, all_cons in D.
  assert (Lk : forall k, f k = lookup k (all p ++ be ob ++ all q)).
  { intros k. rewrite (i_lookup _ _ H), E, all_app, all_cons. reflexivity. }
  assert (Absent : f key = None -> forall k, fm_remove K hash compare f key k = lookup k (all p ++ be ob ++ all q)).
  { intros N0 k. unfold fm_remove. destruct (same k key) eqn:S; [|apply Lk]. symmetry.
    rewrite Lk in N0. apply lookup_none. intros x Hx. rewrite (same_left _ _ _ S). now apply (proj1 (lookup_none _ _) N0). }
  unfold fm_get. rewrite Fk.
  destruct ob as [b|]; cbn [bucket_entries] in *.
  2:{ cbn [fst snd lookup]. split; [|reflexivity]. split; try apply H. intros k. rewrite (Absent Fk k), E, all_app. reflexivity. }
  pose proof (find_entry_ok key (b_entries _ b) Wf) as F.
  destruct (find_entry K compare (hash key) key (b_entries _ b)) as [[j e]|]; cbn [fst snd].
  - destruct F as (l1 & l2 & El & <- & S & F). rewrite El in *. split.
    + apply inv_meta with (m := set_bucket K m _ _).
      apply (inv_bucket m f p (Some b) q _ _ key H E L); rewrite remove_index_entries.
      * intros x Hx. left. cbn [bucket_entries]. rewrite El. rewrite in_app_iff in *. cbn [In]. tauto.
      * revert D. apply remove_distinct.
      * intros k. rewrite (remove_lookup k key _ _ e _ _ D S). unfold fm_remove. destruct (same k key); [reflexivity | apply Lk].
    + rewrite lookup_app, (proj2 (lookup_none key l1) F). cbn [lookup]. now rewrite S.
  - rewrite F in *. split; [|reflexivity].
    apply (inv_bucket m f p (Some b) q _ _ key H E L); cbn [b_entries bucket_entries].
    + intros x Hx. now left.
    + exact D.
    + apply Absent. exact Fk.
Qed.

(** *** growth *)
Lemma move_entry_ok map e : map <> [] ->
  length (move_entry K map e) = length map /\ Permutation (all (move_entry K map e)) (e :: all map) /\
  (forall cap, cap = N.of_nat (length map) -> en_hash _ e = hash (en_key _ e) ->
   (forall i b x, nth_error map i = Some (Some b) -> In x (b_entries _ b) -> placed cap i x) ->
   forall i b x, nth_error (move_entry K map e) i = Some (Some b) -> In x (b_entries _ b) -> placed cap i x).
Proof.
  intros Ne. unfold move_entry. set (i := slot _ _). assert (Hi : i < length map) by now apply slot_lt.
  destruct (nth_split_opt map None i Hi) as (p & q & E & L). set (ob := nth i map None) in *.
  assert (Es : forall y, set_nth map i y = p ++ y :: q) by (intros y; rewrite E, <- L; apply set_nth_app).
  rewrite Es. split; [rewrite E, !app_length; reflexivity|]. split.
  - rewrite E, !all_app, !all_cons. cbn [bucket_entries b_entries]. change (match ob with Some b => b_entries _ b | None => [] end) with (be ob).
    cbn [app]. symmetry. apply Permutation_middle.
  - intros cap Ec Eh Pl j b x Hj Hx. destruct (lt_eq_lt_dec j i) as [[Lt| ->]|Gt].
    + apply (Pl j b x); [|exact Hx]. rewrite E. rewrite nth_error_app1 in * by lia. exact Hj.
    + rewrite nth_error_app2, L, Nat.sub_diag in Hj by lia. injection Hj as <-. cbn [b_entries] in Hx.
      destruct Hx as [<-|Hx].
      * split; [exact Eh|]. rewrite Ec. reflexivity.
      * destruct ob as [b'|] eqn:Eo; [|destruct Hx]. apply (Pl i b' x); [|exact Hx].
        rewrite E, nth_error_app2, L, Nat.sub_diag by lia. reflexivity.
    + apply (Pl j b x); [|exact Hx]. rewrite E. rewrite nth_error_app2, L in * by lia.
      destruct (j - i) as [|d] eqn:Ej; [lia | exact Hj].
Qed.

Lemma move_all_ok es : forall map cap, map <> [] -> cap = N.of_nat (length map) ->
  (forall e, In e es -> en_hash _ e = hash (en_key _ e)) ->
  (forall i b x, nth_error map i = Some (Some b) -> In x (b_entries _ b) -> placed cap i x) ->
  length (fold_left (move_entry K) es map) = length map /\
  Permutation (all (fold_left (move_entry K) es map)) (es ++ all map) /\
  (forall i b x, nth_error (fold_left (move_entry K) es map) i = Some (Some b) -> In x (b_entries _ b) -> placed cap i x).
Proof.
  induction es as [|e es IH]; intros map cap Ne Ec Wf Pl.
  - cbn [fold_left app]. repeat split; [constructor 1 with (1 := eq_refl) || apply Permutation_refl | |]; now apply (Pl i b x).
  - cbn [fold_left]. destruct (move_entry_ok map e Ne) as (L & P & Pl').
    destruct (IH (move_entry K map e) cap) as (L2 & P2 & Pl2).
    + intros C. rewrite C in L. destruct map; [contradiction | discriminate L].
    + congruence.
    + intros x Hx. apply Wf. now right.
    + apply Pl'; [exact Ec | apply Wf; now left | exact Pl].
    + repeat split; [congruence | | |]; try now apply (Pl2 i b x).
      rewrite P2, P. cbn [app]. symmetry. apply Permutation_middle.
Qed.

Lemma next_capacity_in c d : next_capacity c capacities = Some d -> (c < d /\ 17 < d)%N.
Proof.
  unfold capacities. cbn [next_capacity].
  repeat match goal with |- (if ?x then _ else _) = _ -> _ => destruct x eqn:? ; [intros E; injection E as <-; lia|] end.
  discriminate.
Qed.
Lemma next_capacity_none c : next_capacity c capacities = None -> (4194301 <= c)%N.
Proof.
  unfold capacities. cbn [next_capacity].
  repeat match goal with |- (if ?x then _ else _) = _ -> _ => destruct x eqn:? ; [discriminate|] end.
  lia.
Qed.

Lemma grow_ok mem m f : inv m f ->
  let r := IncreaseHashmapCapacity K mem m in
  inv (fst r) f /\ Permutation (all (hm_map _ (fst r))) (all (hm_map _ m)) /\ hm_entries _ (fst r) = hm_entries _ m /\
  (mem = true -> (hm_capacity _ m < 4194301)%N -> snd r = true).
Proof.
  intros H. cbn zeta. unfold IncreaseHashmapCapacity.
  destruct (next_capacity (hm_capacity K m) capacities) as [c|] eqn:Ec.
  2:{ apply next_capacity_none in Ec. cbn [fst snd]. split; [exact H|]. split; [apply Permutation_refl|]. split; [reflexivity | lia]. }
  apply next_capacity_in in Ec. destruct mem; cbn [fst snd hm_map hm_entries].
  2:{ split; [exact H|]. split; [apply Permutation_refl|]. split; [reflexivity | discriminate]. }
  assert (Ne : repeat (@None (bucket K)) (N.to_nat c) <> []).
  { destruct (N.to_nat c) eqn:E; [lia | discriminate]. }
  destruct (move_all_ok (all (hm_map _ m)) (repeat None (N.to_nat c)) c Ne) as (L & P & Pl).
  - rewrite repeat_length. lia.
  - intros e He. apply in_all in He. destruct He as (i & b & Hi & He). apply (i_placed _ _ H i b e Hi He).
  - intros i b x Hi. apply nth_error_In in Hi. apply repeat_spec in Hi. discriminate Hi.
  - rewrite all_repeat_none, app_nil_r in P. rewrite repeat_length in L. split; [|split; [exact P | split; reflexivity]].
    assert (D : distinct (all (fold_left (move_entry K) (all (hm_map K m)) (repeat None (N.to_nat c))))).
    { apply (fop_perm apart (fun x y => same_false_sym _ _) _ _ (Permutation_sym P)). apply H. }
    split; cbn [hm_map].
    + intros C. rewrite C in L. cbn [length] in L. lia.
    + unfold hm_capacity. cbn [hm_map]. rewrite L, N2Nat.id. exact Pl.
    + exact D.
    + intros k. rewrite (lookup_perm k _ _ P D). apply H.
Qed.

(** *** insertion *)
Lemma put_lookup k key v p l q : lookup key (p ++ l ++ q) = None ->
  lookup k (p ++ (mkEntry K (hash key) key v :: l) ++ q) = if same k key then Some v else lookup k (p ++ l ++ q).
Proof.
  intros Nn. rewrite lookup_app. cbn [app lookup en_key en_value]. destruct (same k key) eqn:S.
  - assert (lookup k p = None) as ->; [|reflexivity].
    apply lookup_none. intros e He. rewrite (same_left _ _ _ S). apply (proj1 (lookup_none _ _) Nn).
    apply in_or_app. now left.
  - now rewrite (lookup_app k p (l ++ q)).
Qed.
Lemma put_distinct key v p l q : lookup key (p ++ l ++ q) = None -> distinct (p ++ l ++ q) ->
  distinct (p ++ (mkEntry K (hash key) key v :: l) ++ q).
Proof.
  intros Nn D. assert (P : Permutation (mkEntry K (hash key) key v :: p ++ l ++ q) (p ++ (mkEntry K (hash key) key v :: l) ++ q)).
  { cbn [app]. apply Permutation_middle. }
  apply (fop_perm apart (fun x y => same_false_sym _ _) _ _ P). constructor; [|exact D].
  apply Forall_forall. intros x Hx. apply (proj1 (lookup_none _ _) Nn x Hx).
Qed.

(** what one put does: [b'] says whether growth, when needed, worked *)
Definition put_result (mem1 mem2 : bool) (f : fmap K) (key : K) (v : N) : fmap K :=
  if (v =? 0)%N || negb mem1 then f else if negb mem2 then fm_remove K hash compare f key else fm_put K hash compare f key v.

Lemma Put_ok mem1 mem2 mem3 m f key v : inv m f ->
  let r := PutEntryInHashmap K hash compare mem1 mem2 mem3 m (Some key) v in
  inv (fst r) (put_result mem1 mem2 f key v) /\
  (mem1 = true -> mem2 = true -> mem3 = true -> v <> 0%N ->
   (N.of_nat (length (all (hm_map _ m))) < 4194299)%N -> snd r = true) /\
  (snd r = true -> v <> 0%N) /\
  length (all (hm_map _ (fst r))) <= S (length (all (hm_map _ m))) /\
  (snd r = true -> f key = None -> length (all (hm_map _ (fst r))) = S (length (all (hm_map _ m))) /\
     hm_entries _ (fst r) = ((hm_entries _ m + 1) mod size64)%N).
Proof.
  intros H. cbn zeta. unfold PutEntryInHashmap, put_result.
  destruct (N.eqb_spec v 0) as [Ev|Nv]; cbn [orb].
  { cbn [fst snd]. split; [exact H|]. split; [intros; contradiction|]. split; [discriminate|]. split; [lia | discriminate]. }
  destruct mem1; cbn [negb].
  2:{ cbn [fst snd]. split; [exact H|]. split; [discriminate|]. split; [discriminate|]. split; [lia | discriminate]. }
  destruct (view m f key H) as (p & ob & q & E & L & G & Np & Nq & Wf). rewrite G.
  set (b := match ob with Some b => _ | None => _ end).
  pose proof (i_distinct _ _ H) as D. rewrite E, all_app, all_cons in D.
  assert (Lk : forall k, f k = lookup k (all p ++ be ob ++ all q)).
  { intros k. rewrite (i_lookup _ _ H), E, all_app, all_cons. reflexivity. }
  assert (Len : length (all (hm_map _ m)) = length (all p ++ be ob ++ all q)).
  { now rewrite E, all_app, all_cons. }
  (* the bucket without the key *)
  assert (B : (forall e, In e (b_entries _ b) -> In e (be ob)) /\
     distinct (all p ++ b_entries _ b ++ all q) /\
     (forall k, fm_remove K hash compare f key k = lookup k (all p ++ b_entries _ b ++ all q)) /\
     length (b_entries _ b) <= length (be ob) /\ (f key = None -> length (b_entries _ b) = length (be ob))).
  { assert (Absent : f key = None -> forall k, fm_remove K hash compare f key k = lookup k (all p ++ be ob ++ all q)).
    { intros N0 k. unfold fm_remove. destruct (same k key) eqn:S; [|apply Lk]. symmetry.
      rewrite Lk in N0. apply lookup_none. intros x Hx. rewrite (same_left _ _ _ S). now apply (proj1 (lookup_none _ _) N0). }
    assert (Fk : f key = lookup key (be ob)).
    { rewrite Lk, !lookup_app, Np, Nq. now destruct (lookup key (be ob)). }
    unfold b. destruct ob as [c|]; cbn [bucket_entries] in *.
    2:{ cbn [b_entries]. repeat split; [auto | exact D | now apply Absent | auto]. }
    pose proof (find_entry_ok key (b_entries _ c) Wf) as F.
    destruct (find_entry K compare (hash key) key (b_entries _ c)) as [[j e]|].
    - destruct F as (l1 & l2 & El & <- & S & F). rewrite El in *. rewrite remove_index_entries. repeat split.
      + intros x Hx. rewrite in_app_iff in *. cbn [In]. tauto.
      + revert D. apply remove_distinct.
      + intros k. rewrite (remove_lookup k key _ _ e _ _ D S). unfold fm_remove. destruct (same k key); [reflexivity | apply Lk].
      + rewrite !app_length. cbn [length]. lia.
      + intros N0. rewrite Fk, lookup_app, (proj2 (lookup_none key l1) F) in N0. cbn [lookup] in N0. rewrite S in N0. discriminate N0.
    - cbn [b_entries]. rewrite F in Fk. repeat split; [auto | exact D | now apply Absent | lia]. }
  destruct B as (B1 & B2 & B3 & B4 & B5).
  assert (Nk : lookup key (all p ++ b_entries _ b ++ all q) = None).
  { rewrite <- B3. unfold fm_remove. now rewrite (same_refl _ _ _ good). }
  assert (Set1 : forall x, length (all (hm_map _ (set_bucket _ m (slot (hm_capacity _ m) (hash key)) x))) =
     length (all p ++ b_entries _ x ++ all q)).
  { intros x. unfold set_bucket. cbn [hm_map]. rewrite E, <- L, set_nth_app, all_app, all_cons. reflexivity. }
  destruct mem2; cbn [negb].
  2:{ cbn [fst snd]. split; [|split; [discriminate|split; [discriminate|split; [|discriminate]]]].
      - apply (inv_bucket m f p ob q _ _ key H E L); [|exact B2 | exact B3]. intros e He. left. now apply B1.
      - rewrite Set1, Len, !app_length. lia. }
  set (b' := insert_front _ b (mkEntry _ (hash key) key v)).
  assert (Eb : b_entries _ b' = mkEntry _ (hash key) key v :: b_entries _ b) by reflexivity.
  set (m1 := set_bucket _ m _ b').
  assert (H1 : inv m1 (fm_put K hash compare f key v)).
  { apply (inv_bucket m f p ob q b' _ key H E L); rewrite Eb.
    - intros e [<-|He]; [right; reflexivity | left; now apply B1].
    - now apply put_distinct.
    - intros k. rewrite put_lookup by exact Nk. rewrite <- B3. unfold fm_put, fm_remove. now destruct (same k key). }
  assert (L1 : length (all (hm_map _ m1)) = S (length (all p ++ b_entries _ b ++ all q))).
  { unfold m1. rewrite Set1, Eb. rewrite !app_length. cbn [length]. lia. }
  assert (LB : length (all p ++ b_entries _ b ++ all q) <= length (all (hm_map _ m))) by (rewrite Len, !app_length; lia).
  assert (LB2 : f key = None -> length (all p ++ b_entries _ b ++ all q) = length (all (hm_map _ m))).
  { intros N0. rewrite Len, !app_length, B5 by exact N0. reflexivity. }
  assert (C1 : hm_capacity _ m1 = hm_capacity _ m).
  { unfold m1, hm_capacity, set_bucket. cbn [hm_map]. rewrite set_nth_length; [reflexivity|]. apply slot_lt. apply H. }
  assert (M1 : hm_entries _ m1 = hm_entries _ m) by reflexivity.
  destruct (N.leb_spec (hm_capacity _ m1 - 1) (N.of_nat (length (b_entries _ b')))) as [Le|Gt].
  2:{ cbn [fst snd hm_map hm_entries]. split; [now apply inv_meta with (m := m1)|]. split; [reflexivity|]. split; [intros _; exact Nv|].
      split; [lia|]. intros _ N0. split; [rewrite L1, LB2 by exact N0; reflexivity | now rewrite M1]. }
  pose proof (grow_ok mem3 m1 _ H1) as (H2 & P & M2 & T). destruct (IncreaseHashmapCapacity K mem3 m1) as [m2 g].
  cbn [fst snd] in *. apply Permutation_length in P.
  assert (Small : length (b_entries _ b') <= length (all (hm_map _ m1))).
  { unfold m1. rewrite Set1, !app_length. lia. }
  split; [destruct g; [now apply inv_meta with (m := m2) | exact H2]|]. split.
  - intros _ _ -> _ Sz. rewrite T by (reflexivity || lia). reflexivity.
  - split; [intros _; exact Nv|]. destruct g; cbn [fst snd hm_map hm_entries].
    + split; [lia|]. intros _ N0. split; [rewrite P, L1, LB2 by exact N0; reflexivity | now rewrite M2, M1].
    + split; [lia | discriminate].
Qed.

(** *** iteration *)
Definition remaining (m : HashmapInfo K) : list entry :=
  if hm_head_of_list _ m then
    match nth (hm_next _ m) (hm_map _ m) None with
    | Some b => skipn (b_next _ b) (b_entries _ b) ++ all (skipn (S (hm_next _ m)) (hm_map _ m))
    | None => all (skipn (S (hm_next _ m)) (hm_map _ m))
    end
  else all (skipn (hm_next _ m) (hm_map _ m)).

Lemma skipn_nth {A} (l : list A) i d : i < length l -> skipn i l = nth i l d :: skipn (S i) l.
Proof.
  revert i. induction l as [|x l IH]; intros [|i] H; cbn [length] in H; try lia; [reflexivity|].
  cbn [skipn nth]. apply IH. lia.
Qed.

Lemma nth_cut {A} (l : list A) (d : A) i : i < length l -> exists p y q, l = p ++ y :: q /\ length p = i.
Proof. intros Hi. destruct (nth_split_opt l d i Hi) as (p & q & E & L). exists p, (nth i l d), q. now split. Qed.
Lemma set_nth_other {A} (l : list A) i j x d : i < length l -> i <> j -> nth j (set_nth l i x) d = nth j l d.
Proof.
  intros Hi Ne. destruct (nth_cut l d i Hi) as (p & y & q & -> & <-). rewrite set_nth_app.
  destruct (lt_eq_lt_dec j (length p)) as [[Lt|Eq]|Gt]; [|congruence|].
  - rewrite !app_nth1 by lia. reflexivity.
  - rewrite !app_nth2 by lia. destruct (j - length p) eqn:Ej; [lia | reflexivity].
Qed.
Lemma set_nth_same {A} (l : list A) i x d : i < length l -> nth i (set_nth l i x) d = x.
Proof.
  intros Hi. destruct (nth_cut l d i Hi) as (p & y & q & -> & <-). rewrite set_nth_app.
  rewrite app_nth2, Nat.sub_diag by lia. reflexivity.
Qed.
Lemma set_nth_skipn {A} (l : list A) i x : i < length l -> skipn (S i) (set_nth l i x) = skipn (S i) l.
Proof.
  intros Hi. destruct (nth_cut l x i Hi) as (p & y & q & -> & <-). rewrite set_nth_app.
  rewrite !skipn_app, !(skipn_all2 p) by lia. replace (S (length p) - length p) with 1 by lia. reflexivity.
Qed.
Lemma all_set_nth map i b b' : i < length map -> nth i map None = Some b -> b_entries _ b' = b_entries _ b ->
  all (set_nth map i (Some b')) = all map.
Proof.
  intros Hi En Eb. destruct (nth_split_opt map None i Hi) as (p & q & E & <-). rewrite En in E. subst map. rewrite set_nth_app.
  rewrite !all_app, !all_cons. cbn [bucket_entries]. now rewrite Eb.
Qed.

(** where the iterator stands after it returned [e] *)
Definition just_returned (m : HashmapInfo K) (e : entry) : Prop :=
  hm_head_of_list _ m = true /\
  exists b l1 l2, nth_error (hm_map _ m) (hm_next _ m) = Some (Some b) /\ b_entries _ b = l1 ++ e :: l2 /\
    b_next _ b = S (length l1).

Lemma inv_cursor m f i b n : inv m f -> i < length (hm_map _ m) -> nth i (hm_map _ m) None = Some b ->
  inv (set_bucket _ m i (mkBucket _ (b_entries _ b) n)) f.
Proof.
  intros H Hi En. assert (A : all (set_nth (hm_map _ m) i (Some (mkBucket _ (b_entries _ b) n))) = all (hm_map _ m)).
  { now apply all_set_nth with (b := b). }
  split; unfold set_bucket; cbn [hm_map]; rewrite ?A; try apply H.
  - pose proof (set_nth_length (hm_map _ m) i (Some (mkBucket _ (b_entries _ b) n)) Hi) as Ls.
    intros C. rewrite C in Ls. cbn [length] in Ls. lia.
  - intros j c e Hj He. unfold hm_capacity. cbn [hm_map]. rewrite set_nth_length by exact Hi.
    apply nth_error_nth with (d := None) in Hj as Hj'. destruct (Nat.eq_dec i j) as [<-|Ne].
    + rewrite set_nth_same in Hj' by exact Hi. injection Hj' as <-. cbn [b_entries] in He.
      apply (i_placed _ _ H i b e); [|exact He]. rewrite <- En. now apply nth_error_nth'.
    + rewrite set_nth_other in Hj' by assumption. apply (i_placed _ _ H j c e); [|exact He].
      rewrite <- Hj'. apply nth_error_nth'.
      rewrite <- (set_nth_length (hm_map _ m) i (Some (mkBucket _ (b_entries _ b) n)) Hi). apply nth_error_Some. congruence.
Qed.

Lemma skipn_nth_error {A} (l : list A) n :
  match nth_error l n with Some x => skipn n l = x :: skipn (S n) l | None => skipn n l = [] end.
Proof.
  revert n. induction l as [|x l IH]; intros [|n]; cbn [nth_error]; try reflexivity. cbn [skipn]. apply IH.
Qed.

(** the cursor of the bucket in hand is in use only when there is a bucket *)
Definition iter_ok (m : HashmapInfo K) : Prop :=
  hm_head_of_list _ m = true -> nth (hm_next _ m) (hm_map _ m) None <> None.

Lemma next_entry_ok f fuel : forall m, inv m f -> hm_next _ m + fuel = length (hm_map _ m) \/ (fuel = 0 /\ length (hm_map _ m) <= hm_next _ m) ->
  iter_ok m ->
  let r := next_entry K fuel m in
  inv (fst r) f /\ all (hm_map _ (fst r)) = all (hm_map _ m) /\ iter_ok (fst r) /\
  match remaining m with
  | [] => snd r = None /\ remaining (fst r) = []
  | e :: l => snd r = Some e /\ remaining (fst r) = l /\ just_returned (fst r) e
  end.
Proof.
  induction fuel as [|fuel IH]; intros m H Hn Ok; cbn zeta; cbn [next_entry].
  - assert (R : remaining m = []).
    { unfold remaining. assert (Hl : length (hm_map _ m) <= hm_next _ m) by lia.
      rewrite !skipn_all2, nth_overflow by lia. now destruct (hm_head_of_list _ m). }
    rewrite R. cbn [fst snd]. split; [exact H|]. split; [reflexivity|]. split; [exact Ok|]. split; [reflexivity | exact R].
  - assert (Hi : hm_next _ m < length (hm_map _ m)) by lia. unfold get_bucket.
    destruct (nth (hm_next _ m) (hm_map _ m) None) as [b|] eqn:En.
    + set (pos := if hm_head_of_list _ m then b_next _ b else 0).
      assert (R : remaining m = skipn pos (b_entries _ b) ++ all (skipn (S (hm_next _ m)) (hm_map _ m))).
      { unfold remaining, pos. rewrite En. destruct (hm_head_of_list _ m); [reflexivity|].
        rewrite (skipn_nth _ _ None Hi), En. reflexivity. }
      pose proof (skipn_nth_error (b_entries _ b) pos) as Sk.
      destruct (nth_error (b_entries _ b) pos) as [e|] eqn:Ep.
      * rewrite R, Sk. cbn [app fst snd].
        pose proof (inv_cursor m f _ b (S pos) H Hi En) as H'.
        split; [now apply inv_meta with (m := set_bucket K m _ _)|].
        split; [now apply all_set_nth with (b := b)|].
        unfold set_bucket; cbn [hm_map hm_next hm_head_of_list]. split.
        { unfold iter_ok. cbn [hm_map hm_next]. rewrite set_nth_same by exact Hi. discriminate. }
        split; [reflexivity|]. split.
        -- unfold remaining. cbn [hm_map hm_next hm_head_of_list].
           rewrite set_nth_same, set_nth_skipn by exact Hi. reflexivity.
        -- split; [reflexivity|]. cbn [hm_map hm_next]. destruct (nth_error_split _ _ Ep) as (l1 & l2 & El & Ll).
           exists (mkBucket _ (b_entries _ b) (S pos)), l1, l2. split; [|split; [exact El | cbn [b_next]; congruence]].
           rewrite <- (set_nth_same (hm_map _ m) _ (Some (mkBucket _ (b_entries _ b) (S pos))) None Hi) at 2.
           apply nth_error_nth'. now rewrite set_nth_length.
      * pose proof (inv_cursor m f _ b (length (b_entries _ b)) H Hi En) as H'.
        set (m1 := mkHashmap _ _ _ _ false).
        assert (I1 : inv m1 f) by now apply inv_meta with (m := set_bucket K m _ _).
        assert (L1 : length (hm_map _ m1) = length (hm_map _ m)) by now apply set_nth_length.
        assert (N1 : hm_next _ m1 = S (hm_next _ m)) by reflexivity.
        assert (A1 : all (hm_map _ m1) = all (hm_map _ m)) by now apply all_set_nth with (b := b).
        destruct (IH m1 I1 ltac:(lia) ltac:(discriminate)) as (A & B & O & C).
        split; [exact A|]. split; [congruence|]. split; [exact O|].
        assert (R1 : remaining m1 = remaining m).
        { rewrite R, Sk. cbn [app]. unfold remaining, m1. cbn [hm_head_of_list hm_next hm_map].
          unfold set_bucket. cbn [hm_map]. now rewrite set_nth_skipn. }
        rewrite <- R1. exact C.
    + assert (Eh : hm_head_of_list _ m = false).
      { destruct (hm_head_of_list _ m) eqn:E; [|reflexivity]. exfalso. now apply Ok. }
      set (m1 := mkHashmap _ (hm_map _ m) (hm_entries _ m) (S (hm_next _ m)) (hm_head_of_list _ m)).
      assert (I1 : inv m1 f) by now apply inv_meta.
      assert (N1 : hm_next _ m1 = S (hm_next _ m)) by reflexivity.
      assert (M1 : hm_map _ m1 = hm_map _ m) by reflexivity.
      assert (O1 : iter_ok m1) by (unfold iter_ok, m1; cbn [hm_head_of_list]; rewrite Eh; discriminate).
      destruct (IH m1 I1 ltac:(rewrite M1; lia) O1) as (A & B & O & C).
      split; [exact A|]. split; [now rewrite B|]. split; [exact O|].
      assert (R1 : remaining m1 = remaining m).
      { unfold remaining, m1. cbn [hm_head_of_list hm_next hm_map]. rewrite Eh, (skipn_nth _ _ None Hi), En. reflexivity. }
      rewrite <- R1. exact C.
Qed.

Lemma NextEntry_ok f m : inv m f -> iter_ok m ->
  let r := NextEntry K m in
  inv (fst r) f /\ all (hm_map _ (fst r)) = all (hm_map _ m) /\ iter_ok (fst r) /\
  match remaining m with
  | [] => snd r = None /\ remaining (fst r) = []
  | e :: l => snd r = Some e /\ remaining (fst r) = l /\ just_returned (fst r) e
  end.
Proof. intros H O. apply next_entry_ok; [exact H | lia | exact O]. Qed.

(** the key just returned is found where the iterator left it *)
Lemma find_just_returned f m e b l1 l2 : inv m f -> nth_error (hm_map _ m) (hm_next _ m) = Some (Some b) ->
  b_entries _ b = l1 ++ e :: l2 ->
  slot (hm_capacity _ m) (hash (en_key _ e)) = hm_next _ m /\
  find_entry K compare (hash (en_key _ e)) (en_key _ e) (b_entries _ b) = Some (length l1, e).
Proof.
  intros H En El.
  assert (Ie : In e (b_entries _ b)) by (rewrite El; apply in_or_app; right; now left).
  destruct (i_placed _ _ H _ _ _ En Ie) as [Eh Es]. split; [now rewrite <- Eh|].
  assert (Wf : forall x, In x (b_entries _ b) -> en_hash _ x = hash (en_key _ x)).
  { intros x Hx. apply (i_placed _ _ H _ _ _ En Hx). }
  assert (D : distinct (b_entries _ b)).
  { apply nth_error_split in En. destruct En as (p & q & E & _). pose proof (i_distinct _ _ H) as D.
    rewrite E, all_app, all_cons in D. apply fop_app in D. destruct D as (_ & D & _). apply fop_app in D. apply D. }
  rewrite El in Wf, D |- *. apply fop_app in D. destruct D as (_ & _ & D). clear - Wf D good.
  induction l1 as [|x l1 IH]; cbn [app find_entry length].
  - rewrite matches_same by (apply Wf; now left). now rewrite (same_refl _ _ _ good).
  - rewrite matches_same by (apply Wf; now left).
    assert (X : same (en_key _ e) (en_key _ x) = false).
    { apply same_false_sym. apply (D x e); [now left | now left]. }
    rewrite X, IH; [reflexivity | |].
    + intros y Hy. apply Wf. now right.
    + intros a c Ha Hc. apply D; [now right | exact Hc].
Qed.

(** looking up the key just returned leaves the iterator where it is *)
Lemma Get_just_returned f m e : inv m f -> just_returned m e ->
  GetValueFromHashmap K hash compare m (Some (en_key _ e)) = (m, en_value _ e).
Proof.
  intros H (Hh & b & l1 & l2 & En & El & Ec). unfold GetValueFromHashmap.
  destruct (find_just_returned f m e b l1 l2 H En El) as [Es F]. rewrite Es. unfold get_bucket.
  rewrite (nth_error_nth _ _ None En), F, <- Ec. f_equal. unfold set_bucket.
  destruct m as [map en nx hd]. cbn [hm_map hm_next hm_entries hm_head_of_list] in *.
  f_equal. apply nth_error_split in En. destruct En as (p & q & -> & <-). rewrite set_nth_app. now destruct b.
Qed.

(** so does removing it *)
Lemma Remove_just_returned f m e : inv m f -> just_returned m e ->
  let m' := fst (RemoveEntryFromHashmap K hash compare m (Some (en_key _ e))) in
  remaining m' = remaining m /\ iter_ok m'.
Proof.
  intros H (Hh & b & l1 & l2 & En & El & Ec). cbn zeta. unfold RemoveEntryFromHashmap.
  destruct (find_just_returned f m e b l1 l2 H En El) as [Es F]. rewrite Es. unfold get_bucket.
  rewrite (nth_error_nth _ _ None En), F. cbn [fst].
  assert (Hi : hm_next _ m < length (hm_map _ m)) by (apply nth_error_Some; congruence).
  unfold remaining, iter_ok, set_bucket. cbn [hm_map hm_next hm_head_of_list]. rewrite Hh.
  rewrite set_nth_same, set_nth_skipn by exact Hi. rewrite (nth_error_nth _ _ None En). split; [|discriminate].
  f_equal. rewrite El, remove_index_entries. unfold remove_index. cbn [b_next].
  destruct (Nat.ltb_spec (length l1) (S (length l1))); [|lia]. rewrite Ec.
  replace (S (length l1) - 1) with (length l1) by lia.
  rewrite !skipn_app, skipn_all, Nat.sub_diag, (skipn_all2 l1) by lia.
  replace (S (length l1) - length l1) with 1 by lia. reflexivity.
Qed.
End Keys.
