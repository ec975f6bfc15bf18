(** C296-C297: GetXMLTreeAttributes (XmlAttributesModel.v). *)
From Coq Require Import NArith ZArith Bool Lia Arith String List.
From Verif Require Import Base SplayModel SplaySpec SplayProps XmlModel DoctypeModel XmlAttributesModel.
Import ListNotations.

(** specification: what the last attribute of that name says *)
Definition last_value (tag : list N) (own : list attr) : option (list N) :=
  match find (fun a => if list_eq_dec N.eq_dec (fst a) tag then true else false) (rev own) with
  | Some (_, v) => Some (match v with Some v => v | None => [] end)
  | None => None
  end.
(** the calls of AddValueToSplayTree *)
Fixpoint adds (mem : nat -> bool) (i : nat) (own : list attr) : list (sop (list N)) :=
  match own with [] => [] | (a, _) :: own => SAdd _ (mem i) a (N.of_nat (S i)) :: adds mem (S i) own end.
Lemma srun_adds : forall compare bp mem own i s rest, srun (list N) compare bp s (adds mem i own ++ rest) =
  match add_all compare bp mem i s own with
  | None => None
  | Some s' => match srun (list N) compare bp s (adds mem i own) with
               | Some (_, rs) => match srun (list N) compare bp s' rest with Some (s'', rs') => Some (s'', rs ++ rs') | None => None end
               | None => None
               end
  end /\ (add_all compare bp mem i s own <> None -> srun (list N) compare bp s (adds mem i own) <> None).
Proof.
  intros compare bp mem own. induction own as [|[a v] own IH]; intros i s rest.
  - cbn. split; [destruct (srun _ _ _ s rest) as [[]|]; reflexivity|discriminate].
  - cbn [adds app srun sstep add_all]. destruct (AddValueToSplayTree _ _ _ _ _ _ _) as [[s' ok]|]; cbn [out]; [|split; [reflexivity|congruence]].
    destruct (IH (S i) s' rest) as [IH1 IH2]. rewrite IH1. split.
    + destruct (add_all _ _ _ _ _ _); [|reflexivity]. destruct (srun _ _ _ s' (adds mem (S i) own)) as [[s1 rs]|]; [|reflexivity].
      destruct (srun _ _ _ _ rest) as [[]|]; reflexivity.
    + intros H. specialize (IH2 H). destruct (srun (list N) compare bp s' (adds mem (S i) own)) as [[]|]; [discriminate|exact IH2].
Qed.
(** the map after the calls *)
Fixpoint put_all (compare : list N -> list N -> Z) (f : fmap (list N)) (i : nat) (own : list attr) : fmap (list N) :=
  match own with [] => f | (a, _) :: own => put_all compare (fm_put _ compare f a (N.of_nat (S i))) (S i) own end.
Lemma put_all_ext : forall compare own f g i, (forall x, f x = g x) -> forall x, put_all compare f i own x = put_all compare g i own x.
Proof.
  intros compare own. induction own as [|[a v] own IH]; intros f g i H x; [apply H|]. cbn [put_all]. apply IH. intros y. unfold fm_put. destruct (same _ _ y a); [reflexivity|apply H].
Qed.
Lemma run_adds : forall compare own i f rest rs f'', fm_run (list N) compare f (adds (fun _ => true) i own ++ rest) rs f'' ->
  exists rs1 rs2 f', rs = rs1 ++ rs2 /\ length rs1 = length own /\ (forall x, f' x = put_all compare f i own x) /\ fm_run (list N) compare f' rest rs2 f''.
Proof.
  intros compare own. induction own as [|[a v] own IH]; intros i f rest rs f'' R.
  - exists [], rs, f. repeat split; exact R.
  - cbn [adds app] in R. inversion R as [|? ? r f' ? rs0 ? St R']. subst. apply IH in R'. destruct R' as (rs1 & rs2 & g & -> & Le & G & R').
    exists (r :: rs1), rs2, g. split; [reflexivity|]. split; [cbn; lia|]. split; [|exact R']. intros x. rewrite G. cbn [put_all]. apply put_all_ext.
    cbn [fm_step] in St. destruct (f a); apply St.
Qed.
Lemma put_all_text : forall compare whole own before f tag, (forall a c, compare a c = 0%Z <-> a = c) -> whole = before ++ own ->
  text_at whole (fm_get _ f tag) = last_value tag before ->
  text_at whole (fm_get _ (put_all compare f (length before) own) tag) = last_value tag whole.
Proof.
  intros compare whole own. induction own as [|[a v] own IH]; intros before f tag C W H; [rewrite app_nil_r in W; subst; exact H|]. cbn [put_all].
  replace (S (length before)) with (length (before ++ [(a, v)])) by (rewrite app_length; cbn; lia). apply IH; [exact C|rewrite <- app_assoc; exact W|].
  unfold fm_get at 1, fm_put, same. unfold last_value. rewrite rev_unit. cbn [find fst].
  destruct (Z.eqb_spec (compare tag a) 0) as [E|N].
  - apply C in E. subst a. destruct (list_eq_dec N.eq_dec tag tag); [|congruence]. unfold text_at. rewrite Nat2N.id, app_length. cbn [length]. rewrite Nat.add_1_r.
    rewrite W, nth_error_app2, Nat.sub_diag by lia. reflexivity.
  - destruct (list_eq_dec N.eq_dec a tag) as [->|_]; [exfalso; apply N; apply C; reflexivity|]. exact H.
Qed.

(** C296: when there is memory, every name is mapped to a copy of the value of its last attribute, other names to nothing *)
Theorem attributes_copied : forall compare bp own tag, order (list N) compare -> (forall a c, compare a c = 0%Z <-> a = c) -> (N.of_nat (length own) < 2 ^ 64)%N ->
  exists s s' p, GetXMLTreeAttributes compare bp (fun _ => true) (NewSplayTree (list N)) own = Some (s, true) /\
    GetValueFromSplayTree (list N) compare bp s tag = Some (s', p) /\ text_at own p = last_value tag own.
Proof.
  intros compare bp own tag O C L.
  destruct (splay_tree_is_a_finite_map (list N) compare bp (adds (fun _ => true) 0 own ++ [SGet _ tag]) O) as (s2 & rs & f & l & R & F & _).
  { rewrite app_length. replace (length (adds (fun _ => true) 0 own)) with (length own).
    - cbn [length]. rewrite Nat2N.inj_add. apply N.lt_le_trans with (2 ^ 64 + 1)%N; [lia|vm_compute; discriminate].
    - generalize 0. induction own as [|[a v] own IH]; intros i; [reflexivity|]. cbn [adds length]. rewrite <- IH; [reflexivity|]. cbn [length] in L. lia. }
  unfold GetXMLTreeAttributes. destruct (srun_adds compare bp (fun _ => true) own 0 (NewSplayTree _) [SGet _ tag]) as [R0 _]. rewrite R in R0.
  destruct (add_all _ _ _ _ _ _) as [s|] eqn:Ea; [|discriminate]. destruct (srun _ _ _ (NewSplayTree _) (adds _ _ _)) as [[s1 rs1]|] eqn:E1; [|discriminate].
  cbn [srun sstep] in R0. destruct (GetValueFromSplayTree _ _ _ s tag) as [[s' p]|] eqn:G; [|discriminate]. cbn [out] in R0. injection R0 as -> ->.
  exists s, s', p. split; [reflexivity|]. split; [exact G|].
  apply run_adds in F. destruct F as (r1 & r2 & f' & Er & Lr & Ef & Fr). inversion Fr as [|? ? r g ? rs0 ? St Fn]. subst. inversion Fn. subst.
  assert (Er' : SVal (list N) p = r) by (apply app_inj_tail in Er; apply Er). subst r. destruct St as [St _]. injection St as ->.
  unfold fm_get at 1. rewrite Ef. change (match put_all compare (fm_empty (list N)) 0 own tag with Some (_, v) => v | None => 0%N end) with (fm_get (list N) (put_all compare (fm_empty (list N)) (@length attr []) own) tag).
  apply put_all_text; [exact C|reflexivity|reflexivity].
Qed.
(** C296: an element without two attributes of the same name and without a default: the tree tells what GetXMLTreeAttribute tells *)
Lemma first_last : forall tag own, NoDup (map fst own) -> last_value tag own = match first_attr tag own with Some v => Some (ConstantString v) | None => None end.
Proof.
  intros tag own. unfold last_value. unfold attr in *. induction own as [|[a v] own IH]; intros D; [reflexivity|]. inversion D as [|? ? Ni D']. subst. specialize (IH D').
  cbn [rev first_attr]. assert (Fa : forall (P : list N * option (list N) -> bool) l m, find P (l ++ m) = match find P l with Some x => Some x | None => find P m end).
  { intros P l m. induction l as [|x l IHl]; [reflexivity|]. cbn. destruct (P x); [reflexivity|exact IHl]. }
  rewrite Fa. match goal with |- context [find ?P (rev own)] => destruct (find P (rev own)) as [[a' v']|] eqn:E end.
  - apply find_some in E. destruct E as [I E]. cbn [fst] in E. destruct (list_eq_dec N.eq_dec a' tag) as [->|]; [|discriminate].
    destruct (list_eq_dec N.eq_dec a tag) as [->|_]; [exfalso; apply Ni; apply in_rev in I; exact (in_map fst _ _ I)|exact IH].
  - cbn [find fst]. destruct (list_eq_dec N.eq_dec a tag) as [->|_]; [reflexivity|exact IH].
Qed.
Theorem attributes_agree : forall compare bp d element own tag, order (list N) compare -> (forall a c, compare a c = 0%Z <-> a = c) -> (N.of_nat (length own) < 2 ^ 64)%N ->
  NoDup (map fst own) -> (forall a, In a own -> snd a <> None) -> first_element element (defaults d) = None ->
  exists s s' p, GetXMLTreeAttributes compare bp (fun _ => true) (NewSplayTree (list N)) own = Some (s, true) /\
    GetValueFromSplayTree (list N) compare bp s tag = Some (s', p) /\ text_at own p = GetXMLTreeAttribute d element own tag.
Proof.
  intros compare bp d element own tag O C L D V E. destruct (attributes_copied compare bp own tag O C L) as (s & s' & p & H1 & H2 & H3). exists s, s', p.
  split; [exact H1|]. split; [exact H2|]. rewrite H3, first_last by exact D. unfold GetXMLTreeAttribute. rewrite E.
  clear -V. induction own as [|[a v] own IH]; [reflexivity|]. cbn [first_attr]. destruct (list_eq_dec N.eq_dec a tag); [|apply IH; intros x I; apply V; right; exact I].
  specialize (V (a, v) (or_introl eq_refl)). cbn [snd] in V. destruct v; [reflexivity|congruence].
Qed.

(** a comparison of texts for the examples *)
Fixpoint texts_compare (a c : list N) : Z :=
  match a, c with
  | [], [] => 0
  | [], _ => -1
  | _, [] => 1
  | x :: a, y :: c => if (x <? y)%N then -1 else if (y <? x)%N then 1 else texts_compare a c
  end%Z.
Lemma texts_compare_eq : forall a c, texts_compare a c = 0%Z <-> a = c.
Proof.
  induction a as [|x a IH]; intros [|y c]; cbn; try (split; [discriminate|discriminate]); [tauto|].
  destruct (N.ltb_spec x y); [split; [discriminate|intros E; injection E as -> ->; lia]|]. destruct (N.ltb_spec y x); [split; [discriminate|intros E; injection E as -> ->; lia]|].
  assert (x = y) by lia. subst y. rewrite IH. split; [intros ->; reflexivity|intros E; injection E as ->; reflexivity].
Qed.
Lemma texts_compare_order : order (list N) texts_compare.
Proof.
  constructor.
  - induction x as [|x a IH]; intros [|y c]; cbn [texts_compare]; [lia..|].
    destruct (N.ltb_spec x y), (N.ltb_spec y x); [lia..|exact (IH c)].
  - induction x as [|x a IH]; intros [|y c] [|z e]; cbn [texts_compare]; [lia..|].
    specialize (IH c e). destruct (N.ltb_spec x y), (N.ltb_spec y x), (N.ltb_spec y z), (N.ltb_spec z y), (N.ltb_spec x z), (N.ltb_spec z x); lia || exact IH.
Qed.
Local Definition b (s : string) : list N := map N.of_nat (map Ascii.nat_of_ascii (list_ascii_of_string s)).
Definition two : list attr := [(b "k", Some (b "1")); (b "m", Some (b "2"))].
Example attributes_agree_meets : NoDup (map fst two) /\ last_value (b "m") two = Some (b "2") /\ last_value (b "x") two = None /\
  exists s s' p, GetXMLTreeAttributes texts_compare false (fun _ => true) (NewSplayTree (list N)) two = Some (s, true) /\
    GetValueFromSplayTree (list N) texts_compare false s (b "m") = Some (s', p) /\ text_at two p = Some (b "2").
Proof.
  split; [repeat constructor; cbn; intuition discriminate|]. split; [reflexivity|]. split; [reflexivity|].
  exact (attributes_copied texts_compare false two (b "m") texts_compare_order texts_compare_eq ltac:(reflexivity)).
Qed.

(** C297: of two attributes of the same name GetXMLTreeAttribute tells the first one and the tree the last one *)
Definition twice : list attr := [(b "k", Some (b "1")); (b "k", Some (b "2"))].
Theorem attributes_twice_refuted : forall d element, GetXMLTreeAttribute d element twice (b "k") = Some (b "1") /\
  exists s s' p, GetXMLTreeAttributes texts_compare false (fun _ => true) (NewSplayTree (list N)) twice = Some (s, true) /\
    GetValueFromSplayTree (list N) texts_compare false s (b "k") = Some (s', p) /\ text_at twice p = Some (b "2").
Proof.
  intros d element. split; [reflexivity|]. exact (attributes_copied texts_compare false twice (b "k") texts_compare_order texts_compare_eq ltac:(reflexivity)).
Qed.
(** C297: attributes by default are not in the tree *)
Theorem attributes_default_refuted : exists d element tag v, GetXMLTreeAttribute d element [] tag = Some v /\
  forall compare bp mem s, GetXMLTreeAttributes compare bp mem s [] = Some (s, true).
Proof.
  exists {| general := []; parameters := []; defaults := [(b "e", [(b "k", Some (b "1"), false)])]; standalone := true |}, (b "e"), (b "k"), (b "1").
  split; reflexivity.
Qed.
(** C297: and when there is no memory for a node, the attribute is missing and the status is WizardTrue all the same *)
Theorem attributes_memory_refuted : exists own tag, GetXMLTreeAttribute (empty_dtd false) (b "e") own tag <> None /\
  GetXMLTreeAttributes texts_compare false (fun _ => false) (NewSplayTree (list N)) own = Some (NewSplayTree (list N), true).
Proof. exists two, (b "k"). split; [discriminate|vm_compute; reflexivity]. Qed.

Print Assumptions attributes_copied.
Print Assumptions attributes_agree.
Print Assumptions attributes_twice_refuted.
Print Assumptions attributes_default_refuted.
Print Assumptions attributes_memory_refuted.
