(** Paths to elements, and processing instructions. *)
From Coq Require Import Arith NArith ZArith Bool Lia String List ZifyBool ZifyNat ZifyN.
From Verif Require Import Base Outcome CStringModel OptionModel Base64Model ScanModel XmlModel PathModel PathProps XmlPathModel.
Import ListNotations.

Section Path.
Variable E : nat.
Variable isdir : list N -> Z.
Variable accessible : list N -> bool.

(** a tag that is not taken apart *)
Definition plain_tag (t : list N) : Prop := t <> [] /\ length t < E /\ free 58 t /\ free 47 t /\ (last t 0%N <> 93%N \/ free 91 t).
Lemma component_plain t : plain_tag t -> component E isdir accessible t = Ok (t, (-1)%Z).
Proof.
  intros (A & B & C & D & F). unfold component. rewrite !get_plain by (repeat split; auto). reflexivity.
Qed.
Definition numbered (t s : list N) : list N := t ++ 91%N :: s ++ [93%N].
Definition numbered_ok (t s : list N) : Prop := length (numbered t s) < E /\ free 58 (numbered t s) /\ free 47 (numbered t s) /\ free 91 s.
Lemma component_numbered t s : numbered_ok t s -> component E isdir accessible (numbered t s) = Ok (t, (strtol s - 1)%Z).
Proof. intros (A & B & C & D). unfold component. destruct (subnode_path E isdir accessible t s A B D) as [P Q]. unfold numbered. rewrite P. cbn [bind]. rewrite Q. reflexivity. Qed.

(** ** What a path means: at each step the first child with the tag *)
Definition is_first (t : list N) (l : list (nat * xml)) (i : nat) (y : xml) : Prop :=
  (exists o, nth_error l i = Some (o, y)) /\ tag_of y = t /\ forall j o z, j < i -> nth_error l j = Some (o, z) -> tag_of z <> t.
Inductive leads : xml -> list (list N) -> list nat -> Prop :=
| leads_here x : leads x [] []
| leads_down x t l i y a : is_first t (kids_of x) i y -> leads y l a -> leads x (t :: l) (i :: a).
Lemma child_first t l i : child t l = Some i -> exists y, is_first t l i y.
Proof.
  revert i. induction l as [|[o x] l IH]; intros i H; [discriminate|]. cbn [child] in H. destruct (list_eq_dec N.eq_dec (tag_of x) t) as [T|T].
  - injection H as <-. exists x. split; [now exists o|]. split; [exact T|lia].
  - destruct (child t l) as [j|]; [|discriminate]. injection H as <-. destruct (IH j eq_refl) as [y ((o' & P) & Q & R)]. exists y. split; [now exists o'|]. split; [exact Q|].
    intros k o1 z Lk K. destruct k as [|k]; cbn in K; [injection K as <- <-; exact T|apply (R k o1); [lia|exact K]].
Qed.
Lemma child_none t l : child t l = None -> forall o y, ~ (In (o, y) l /\ tag_of y = t).
Proof.
  induction l as [|[o x] l IH]; intros H o' y [I T]; [destruct I|]. cbn [child] in H. destruct (list_eq_dec N.eq_dec (tag_of x) t) as [T'|T']; [discriminate|].
  destruct (child t l); [discriminate|]. destruct I as [I|I]; [injection I as <- <-; contradiction|]. now apply (IH eq_refl o' y).
Qed.
Lemma first_child t l i y : is_first t l i y -> child t l = Some i.
Proof.
  revert i. induction l as [|[o x] l IH]; intros i ((o' & P) & T & F); [destruct i; discriminate|]. cbn [child]. destruct i as [|i].
  - cbn in P. injection P as <- <-. now destruct (list_eq_dec N.eq_dec (tag_of x) t).
  - destruct (list_eq_dec N.eq_dec (tag_of x) t) as [C|C]; [exfalso; apply (F 0 o x); [lia|reflexivity|exact C]|]. rewrite (IH i); [reflexivity|]. split; [now exists o'|]. split; [exact T|].
    intros j o1 z L K. apply (F (S j) o1 z); [lia|exact K].
Qed.
Lemma along_none i l : along (-1) i l = Some i. Proof. now destruct l. Qed.

(** * C149: a path leads to the first child with each of its tags, if there is one *)
Lemma walk_spec l : forall x, Forall plain_tag l -> exists r, walk E isdir accessible x l = Ok r /\ forall a, r = Some a <-> leads x l a.
Proof.
  induction l as [|t l IH]; intros x F.
  - exists (Some []). split; [reflexivity|]. intros a. split; [intros [= <-]; constructor|]. now inversion 1.
  - inversion F as [|? ? P F']; subst. cbn [walk]. rewrite component_plain by exact P. cbn [bind]. destruct (child t (kids_of x)) as [i|] eqn:C.
    + rewrite along_none. destruct (child_first _ _ _ C) as [y Fy]. pose proof Fy as ((o & N0) & _). rewrite N0. destruct (IH y F') as [r [-> R]]. cbn [bind]. exists (option_map (cons i) r). split; [reflexivity|]. intros a. split.
      * destruct r as [a'|]; [|discriminate]. intros [= <-]. econstructor; [exact Fy|]. now apply R.
      * inversion 1 as [|? ? ? i' y' a' Fy' L]; subst. pose proof (first_child _ _ _ _ Fy') as C'. rewrite C in C'. injection C' as <-. destruct Fy' as ((o' & N1) & _). rewrite N0 in N1. injection N1 as <- <-. apply R in L. now rewrite L.
    + exists None. split; [reflexivity|]. intros a. split; [discriminate|]. inversion 1 as [|? ? ? i' y' a' Fy' L]; subst. rewrite (first_child _ _ _ _ Fy') in C. discriminate.
Qed.
Theorem path_found : forall x l, l <> [] -> Forall plain_tag l -> exists r, GetXMLTreePath E isdir accessible x (joined l) = Ok r /\ forall a, r = Some a <-> leads x l a.
Proof.
  intros x l N0 F. unfold GetXMLTreePath. rewrite path_components_unique; [now apply walk_spec|exact N0|]. eapply Forall_impl; [|exact F]. now intros t (_ & _ & _ & H & _).
Qed.

(** a number in brackets: the child that many behind the first with the tag *)
Theorem path_number : forall x t s, numbered_ok t s -> GetXMLTreePath E isdir accessible x (numbered t s) =
  Ok (match child t (kids_of x) with
      | Some i => let k := i + Z.to_nat (strtol s - 1) in if k <? length (kids_of x) then Some [k] else None
      | None => None
      end).
Proof.
  intros x t s H. pose proof H as (_ & _ & Sl & _). unfold GetXMLTreePath. pose proof (path_components_unique [numbered t s]) as J. cbn [joined] in J. rewrite J; [|discriminate|repeat constructor; exact Sl].
  cbn [walk]. rewrite component_numbered by exact H. cbn [bind]. destruct (child t (kids_of x)) as [i|] eqn:C; [|reflexivity].
  assert (forall rest j i, along j i rest = if Z.to_nat j <=? length rest then Some (i + Z.to_nat j) else None) as A.
  { clear. induction rest as [|r rest IH]; intros j i; cbn [along length]; destruct (Z.leb_spec j 0) as [L|L].
    - replace (Z.to_nat j) with 0 by lia. cbn. f_equal. lia.
    - destruct (Nat.leb_spec (Z.to_nat j) 0); [lia|reflexivity].
    - replace (Z.to_nat j) with 0 by lia. cbn. f_equal. lia.
    - rewrite IH. replace (Z.to_nat j) with (S (Z.to_nat (j - 1))) by lia. cbn [Nat.leb]. destruct (Z.to_nat (j - 1) <=? length rest); [f_equal; lia|reflexivity]. }
  rewrite A, skipn_length. cbv zeta.
  destruct (child_first _ _ _ C) as [y ((o & N0) & _)]. assert (i < length (kids_of x)) as Li by (apply nth_error_Some; congruence).
  set (k := Z.to_nat (strtol s - 1)). destruct (Nat.leb_spec k (length (kids_of x) - S i)) as [L|L]; destruct (Nat.ltb_spec (i + k) (length (kids_of x))) as [M|M]; try lia; [|reflexivity].
  destruct (nth_error (kids_of x) (i + k)) as [[o' z]|] eqn:Z; [reflexivity|]. apply nth_error_None in Z. lia.
Qed.
(** what a number means: the n-th child with the tag *)
Definition positions (t : list N) (l : list (nat * xml)) : list nat :=
  filter (fun i => match nth_error l i with Some (_, y) => if list_eq_dec N.eq_dec (tag_of y) t then true else false | None => false end) (seq 0 (length l)).
(** it is that one if all children have the tag *)
Theorem path_number_partial : forall x t s n, numbered_ok t s -> strtol s = Z.of_nat (S n) -> Forall (fun k => tag_of (snd k) = t) (kids_of x) ->
  GetXMLTreePath E isdir accessible x (numbered t s) = Ok (option_map (fun i => [i]) (nth_error (positions t (kids_of x)) n)).
Proof.
  intros x t s n H Sn F. rewrite path_number by exact H. f_equal. rewrite Sn. replace (Z.to_nat (Z.of_nat (Datatypes.S n) - 1)) with n by lia. set (l := kids_of x) in *.
  assert (positions t l = seq 0 (length l)) as ->.
  { unfold positions. assert (forall q, (forall i, In i q -> i < length l) -> filter (fun i => match nth_error l i with Some (_, y) => if list_eq_dec N.eq_dec (tag_of y) t then true else false | None => false end) q = q) as G.
    - induction q as [|i q IH]; intros Q; [reflexivity|]. cbn [filter]. destruct (nth_error l i) as [[o y]|] eqn:N0; [|apply nth_error_None in N0; specialize (Q i (or_introl eq_refl)); lia].
      rewrite Forall_forall in F. apply nth_error_In in N0. specialize (F _ N0). cbn in F. destruct (list_eq_dec N.eq_dec (tag_of y) t); [|contradiction]. f_equal. apply IH. intros j J. apply Q. now right.
    - apply G. intros i I. apply in_seq in I. lia. }
  destruct l as [|[o y] l]; [now destruct n|]. cbn [child]. inversion F; subst. cbn [snd] in *. destruct (list_eq_dec N.eq_dec (tag_of y) (tag_of y)); [|congruence]. cbn [Nat.add].
  destruct (Nat.ltb_spec n (length ((o, y) :: l))) as [L|L].
  - rewrite (nth_error_nth' _ 0) by now rewrite seq_length. now rewrite seq_nth.
  - assert (nth_error (seq 0 (length ((o, y) :: l))) n = None) as -> by (apply nth_error_None; now rewrite seq_length). reflexivity.
Qed.
(** In general it is not: any child may be counted (1064 goes on to the next child, not the next with the tag). *)
Theorem path_number_refuted : forall x t s o1 y1 o2 y2 rest, numbered_ok t s -> strtol s = 2%Z -> kids_of x = (o1, y1) :: (o2, y2) :: rest -> tag_of y1 = t -> tag_of y2 <> t ->
  GetXMLTreePath E isdir accessible x (numbered t s) = Ok (Some [1]) /\ at_address [1] x = Some y2 /\ ~ In 1 (positions t (kids_of x)).
Proof.
  intros x t s o1 y1 o2 y2 rest H S K T1 T2. rewrite path_number by exact H. rewrite S, K. cbn [child]. destruct (list_eq_dec N.eq_dec (tag_of y1) t); [|contradiction]. split; [reflexivity|]. split.
  - cbn [at_address]. rewrite K. reflexivity.
  - intros I. apply filter_In in I as [_ I]. cbn [nth_error] in I. destruct (list_eq_dec N.eq_dec (tag_of y2) t); [contradiction|discriminate].
Qed.
(** A tag with a prefix: the path depends on the directories there are. *)
Theorem path_prefix_refuted : forall x fs rest, 2 * length fs + length rest + 1 < E -> free 58 fs -> free 47 fs -> free 47 rest -> last rest 0%N <> 93%N -> rest <> [] ->
  (isdir (fs ++ 58%N :: rest) < 0)%Z -> accessible (fs ++ 58%N :: rest) = false -> (0 <= isdir fs)%Z -> kids_of x = [(0, Xml (fs ++ 58%N :: rest) [] [] [])] ->
  GetXMLTreePath E isdir accessible x (fs ++ 58%N :: rest) = Ok None.
Proof.
  intros x fs rest L C S1 S2 B R D A D2 K. pose proof (path_components_unique [fs ++ 58%N :: rest]) as J. cbn [joined] in J. unfold GetXMLTreePath. rewrite J; [|discriminate|repeat constructor; intros I; apply in_app_or in I as [I|[I|I]]; [contradiction|discriminate|contradiction]].
  cbn [walk]. unfold component. destruct (filesystem_path E isdir accessible fs rest L C D A D2 B) as [_ Q]. rewrite Q.
  destruct (GetPathComponent E isdir accessible (fs ++ 58%N :: rest) SubnodePath) as [sub| |] eqn:Sn; [| |].
  - cbn [bind]. rewrite K. cbn [child tag_of]. destruct (list_eq_dec N.eq_dec (fs ++ 58%N :: rest) rest) as [X|X]; [|reflexivity]. exfalso. apply (f_equal (@length N)) in X. rewrite app_length in X. cbn in X. lia.
  - exfalso. revert Sn Q. unfold GetPathComponent. destruct (fs ++ 58%N :: rest) as [|c p]; [discriminate|]. destruct (strip_filesystem _ _ _ _ _) as [[? q]| |]; cbn [bind]; try discriminate. destruct (strip_subnode q). discriminate.
  - exfalso. revert Sn Q. unfold GetPathComponent. destruct (fs ++ 58%N :: rest) as [|c p]; [discriminate|]. destruct (strip_filesystem _ _ _ _ _) as [[? q]| |]; cbn [bind]; try discriminate. destruct (strip_subnode q). discriminate.
Qed.
(** without such a directory the element is found *)
Theorem path_prefix_found : forall x fs rest, length (fs ++ 58%N :: rest) < E -> free 58 fs -> free 47 fs -> free 47 rest -> last (fs ++ 58%N :: rest) 0%N <> 93%N -> (isdir fs < 0)%Z -> kids_of x = [(0, Xml (fs ++ 58%N :: rest) [] [] [])] ->
  GetXMLTreePath E isdir accessible x (fs ++ 58%N :: rest) = Ok (Some [0]).
Proof.
  intros x fs rest L C S1 S2 B D K. pose proof (path_components_unique [fs ++ 58%N :: rest]) as J. cbn [joined] in J. unfold GetXMLTreePath. rewrite J; [|discriminate|repeat constructor; intros I; apply in_app_or in I as [I|[I|I]]; [contradiction|discriminate|contradiction]].
  assert (component E isdir accessible (fs ++ 58%N :: rest) = Ok (fs ++ 58%N :: rest, (-1)%Z)) as Co.
  { unfold component, GetPathComponent. rewrite firstn_all2 by lia. unfold strip_filesystem. rewrite first_pos_app by (try reflexivity; now apply free_test).
    replace (firstn (length fs) (fs ++ 58%N :: rest)) with fs by (now rewrite firstn_app, Nat.sub_diag, firstn_all, app_nil_r). rewrite (proj2 (Z.ltb_lt _ _) D).
    assert (strip_subnode (fs ++ 58%N :: rest) = ([], fs ++ 58%N :: rest)) as Sn by (unfold strip_subnode; rewrite (last_char_at isdir accessible); now rewrite (proj2 (N.eqb_neq _ _) B)).
    destruct (fs ++ 58%N :: rest) as [|c p] eqn:Ep; [destruct fs; discriminate|]. destruct ((isdir (c :: p) <? 0)%Z && negb (accessible (c :: p))); cbn [bind]; rewrite Sn; reflexivity. }
  cbn [walk]. rewrite Co. cbn [bind]. rewrite K. cbn [child tag_of]. destruct (list_eq_dec N.eq_dec (fs ++ 58%N :: rest) (fs ++ 58%N :: rest)); [|congruence]. reflexivity.
Qed.

(** * C150: adding a path makes it lead somewhere, loses nothing, and adds nothing twice *)
Inductive grown : xml -> xml -> Prop :=
| grown_at t a c k k' : grown_kids k k' -> grown (Xml t a c k) (Xml t a c k')
with grown_kids : list (nat * xml) -> list (nat * xml) -> Prop :=
| grown_nil : grown_kids [] []
| grown_kept o x x' k k' : grown x x' -> grown_kids k k' -> grown_kids ((o, x) :: k) ((o, x') :: k')
| grown_new o t kk k k' : grown_kids k k' -> grown_kids k ((o, Xml t [] [] kk) :: k').
Fixpoint grown_refl (x : xml) : grown x x :=
  match x with Xml t a c k => grown_at t a c k k ((fix go k := match k return grown_kids k k with [] => grown_nil | (o, y) :: k => grown_kept o y y k k (grown_refl y) (go k) end) k) end.
Lemma kids_refl k : grown_kids k k.
Proof. induction k as [|[o y] k IH]; constructor; [apply grown_refl|exact IH]. Qed.
Lemma insert_first o t x k : tag_of x = t -> child t k = None -> let '(i, k') := insert o x k in is_first t k' i x /\ nth_error k' i = Some (o, x) /\ length k' = S (length k).
Proof.
  intros T. induction k as [|[o' y] k IH]; intros C; cbn [insert].
  - split; [|now split]. split; [now exists o|]. split; [exact T|lia].
  - cbn [child] in C. destruct (list_eq_dec N.eq_dec (tag_of y) t) as [|Ty]; [discriminate|]. destruct (child t k) eqn:Ck; [discriminate|]. destruct (o' <=? o).
    + specialize (IH eq_refl). destruct (insert o x k) as [i k']. destruct IH as (((o1 & P) & Q & R) & Nn & Ln). split; [|split; [exact Nn|cbn; now rewrite Ln]]. split; [now exists o1|]. split; [exact Q|].
      intros [|j] o2 z L K; cbn in K; [injection K as <- <-; exact Ty|]. apply (R j o2); [lia|exact K].
    + split; [|now split]. split; [now exists o|]. split; [exact T|lia].
Qed.
Lemma insert_grown o t kk k y : grown (Xml t [] [] []) y -> tag_of y = t -> let '(i, k') := insert o (Xml t [] [] kk) k in grown_kids k (replace i y k').
Proof.
  intros G T. assert (exists q, y = Xml t [] [] q) as [q ->] by (inversion G; subst; eauto). induction k as [|[o' z] k IH]; cbn [insert].
  - cbn [replace]. constructor. constructor.
  - destruct (o' <=? o).
    + destruct (insert o _ k) as [i k']. cbn [replace]. constructor; [apply grown_refl|exact IH].
    + cbn [replace]. constructor. apply kids_refl.
Qed.
Lemma replace_grown i o x y k : nth_error k i = Some (o, x) -> grown x y -> grown_kids k (replace i y k).
Proof.
  revert i. induction k as [|[o' z] k IH]; intros i H G; [destruct i; discriminate|]. destruct i as [|i]; cbn in H |- *.
  - injection H as <- <-. constructor; [exact G|apply kids_refl].
  - constructor; [apply grown_refl|]. now apply (IH i).
Qed.
Lemma replace_first t k i x y : is_first t k i x -> tag_of y = t -> is_first t (replace i y k) i y.
Proof.
  intros ((o & N0) & T & F) Ty. split; [|split; [exact Ty|]].
  - exists o. clear F T. revert i N0. induction k as [|[o' z] k IH]; intros i N0; [destruct i; discriminate|]. destruct i as [|i]; cbn in *; [now injection N0 as <- <-|now apply IH].
  - intros j o1 z L K. apply (F j o1 z); [exact L|]. rewrite <- K. clear -L. revert i j L. induction k as [|[o' w] k IH]; intros i j L; [now destruct i, j|]. destruct i as [|i]; [lia|]. destruct j as [|j]; [reflexivity|]. cbn. apply IH. lia.
Qed.
Lemma replace_same i o x k : nth_error k i = Some (o, x) -> replace i x k = k.
Proof. revert i. induction k as [|[o' z] k IH]; intros i H; [destruct i; discriminate|]. destruct i as [|i]; cbn in *; [now injection H as <- <-|]. now rewrite IH. Qed.
Lemma kids_set x k : kids_of (set_kids x k) = k. Proof. now destruct x. Qed.
Lemma set_same x : set_kids x (kids_of x) = x. Proof. now destruct x. Qed.
Lemma grown_tag x y : grown x y -> tag_of y = tag_of x. Proof. now destruct 1. Qed.
Lemma grown_set x k : grown_kids (kids_of x) k -> grown x (set_kids x k). Proof. destruct x. cbn. now constructor. Qed.
Lemma walk_add_spec o l : forall x, Forall plain_tag l -> exists x' a, walk_add E isdir accessible o x l = Ok (x', Some a) /\ leads x' l a /\ grown x x' /\ forall a', leads x l a' -> x' = x /\ a' = a.
Proof.
  induction l as [|t l IH]; intros x F.
  - exists x, []. split; [reflexivity|]. split; [constructor|]. split; [apply grown_refl|]. intros a' L. inversion L. now split.
  - inversion F as [|? ? P F']; subst. cbn [walk_add]. rewrite component_plain by exact P. cbn [bind]. destruct (child t (kids_of x)) as [i|] eqn:C.
    + rewrite along_none. destruct (child_first _ _ _ C) as [y Fy]. pose proof Fy as ((o' & N0) & Ty & _). rewrite N0. destruct (IH y F') as (y' & a & W & Ld & G & U). rewrite W. cbn [bind option_map].
      exists (set_kids x (replace i y' (kids_of x))), (i :: a). split; [reflexivity|]. pose proof (grown_tag _ _ G) as Tg. split; [|split].
      * econstructor; [rewrite kids_set; apply replace_first with y; [exact Fy|congruence]|exact Ld].
      * apply grown_set. now apply (replace_grown i o' y).
      * intros a' L. inversion L as [|? ? ? i' y1 a1 Fy' L']; subst. pose proof (first_child _ _ _ _ Fy') as C'. rewrite C in C'. injection C' as <-. destruct Fy' as ((o1 & N1) & _). rewrite N0 in N1. injection N1 as <- <-.
        destruct (U _ L') as [-> ->]. split; [|reflexivity]. rewrite (replace_same i o' y) by exact N0. apply set_same.
    + pose proof (insert_first o t (Xml t [] [] []) (kids_of x) eq_refl C) as I. destruct (insert o (Xml t [] [] []) (kids_of x)) as [i k'] eqn:Ins. destruct I as (Fy & N0 & _). rewrite along_none. rewrite N0.
      destruct (IH (Xml t [] [] []) F') as (y' & a & W & Ld & G & U). rewrite W. cbn [bind option_map].
      exists (set_kids x (replace i y' k')), (i :: a). split; [reflexivity|]. pose proof (grown_tag _ _ G) as Tg. cbn [tag_of] in Tg. split; [|split].
      * econstructor; [rewrite kids_set; apply replace_first with (Xml t [] [] []); [exact Fy|exact Tg]|exact Ld].
      * apply grown_set. pose proof (insert_grown o t [] (kids_of x) y' G Tg) as K. rewrite Ins in K. exact K.
      * intros a' L. inversion L as [|? ? ? i' y1 a1 Fy' L']; subst. rewrite (first_child _ _ _ _ Fy') in C. discriminate.
Qed.
Theorem path_added : forall x l o, l <> [] -> Forall plain_tag l -> exists x' a, AddPathToXMLTree E isdir accessible x (joined l) o = Ok (x', Some a) /\
  GetXMLTreePath E isdir accessible x' (joined l) = Ok (Some a) /\ leads x' l a /\ grown x x' /\
  (forall a', GetXMLTreePath E isdir accessible x (joined l) = Ok (Some a') -> x' = x /\ a' = a).
Proof.
  intros x l o N0 F. unfold AddPathToXMLTree. assert (GetPathComponents (joined l) = l) as J by (apply path_components_unique; [exact N0|]; eapply Forall_impl; [|exact F]; now intros t (_ & _ & _ & H & _)).
  rewrite J. destruct (walk_add_spec o l x F) as (x' & a & W & L & G & U). exists x', a. split; [exact W|]. split; [|split; [exact L|split; [exact G|]]].
  - destruct (path_found x' l N0 F) as [r [-> R]]. f_equal. now apply R.
  - intros a' H. apply U. destruct (path_found x l N0 F) as [r [E0 R]]. rewrite E0 in H. injection H as ->. now apply R.
Qed.
Theorem path_added_twice : forall x l o o' x' a, l <> [] -> Forall plain_tag l -> AddPathToXMLTree E isdir accessible x (joined l) o = Ok (x', Some a) -> AddPathToXMLTree E isdir accessible x' (joined l) o' = Ok (x', Some a).
Proof.
  intros x l o o' x' a N0 F H. destruct (path_added x l o N0 F) as (x1 & a1 & W & G & _). rewrite H in W. injection W as <- <-.
  destruct (path_added x' l o' N0 F) as (x2 & a2 & W & _ & _ & _ & U). rewrite W. now destruct (U a G) as [-> ->].
Qed.
(** A number above one is never reached: the element is made, but nothing returned, and neither will be however often it is asked for. *)
Lemma child_end t k x : child t k = None -> tag_of x = t -> forall o, child t (k ++ [(o, x)]) = Some (length k).
Proof.
  intros C T o. induction k as [|[o' y] k IH]; cbn [app child length] in *; [rewrite T; destruct (list_eq_dec N.eq_dec t t); congruence|].
  destruct (list_eq_dec N.eq_dec (tag_of y) t); [discriminate|]. destruct (child t k); [discriminate|]. now rewrite IH.
Qed.
Lemma insert_end o x k : Forall (fun e => fst e <= o) k -> insert o x k = (length k, k ++ [(o, x)]).
Proof. induction 1 as [|[o' y] k L F IH]; [reflexivity|]. cbn [insert fst length app] in *. destruct (Nat.leb_spec o' o); [|lia]. now rewrite IH. Qed.
Theorem path_number_added_refuted : forall x t s o, numbered_ok t s -> (2 <= strtol s)%Z -> child t (kids_of x) = None -> Forall (fun e => fst e <= o) (kids_of x) ->
  let x' := set_kids x (kids_of x ++ [(o, Xml t [] [] [])]) in
  AddPathToXMLTree E isdir accessible x (numbered t s) o = Ok (x', None) /\ AddPathToXMLTree E isdir accessible x' (numbered t s) o = Ok (x', None).
Proof.
  intros x t s o H S C F x'. pose proof H as (_ & _ & Sl & _). unfold AddPathToXMLTree. pose proof (path_components_unique [numbered t s]) as J. cbn [joined] in J. rewrite J by (try discriminate; repeat constructor; exact Sl).
  cbn [walk_add]. rewrite component_numbered by exact H. cbn [bind].
  assert (along (strtol s - 1) (length (kids_of x)) (skipn (Datatypes.S (length (kids_of x))) (kids_of x ++ [(o, Xml t [] [] [])])) = None) as A.
  { rewrite skipn_all2 by (rewrite app_length; cbn; lia). cbn [along]. destruct (Z.leb_spec (strtol s - 1) 0); [lia|reflexivity]. }
  split.
  - rewrite C, insert_end by exact F. rewrite A. reflexivity.
  - unfold x'. rewrite kids_set, (child_end t (kids_of x) (Xml t [] [] []) C eq_refl o). rewrite A. f_equal. now destruct x.
Qed.
End Path.
Print Assumptions path_found.
Print Assumptions path_number.
Print Assumptions path_number_partial.
Print Assumptions path_number_refuted.
Print Assumptions path_prefix_refuted.
Print Assumptions path_prefix_found.
Print Assumptions path_added.
Print Assumptions path_added_twice.
Print Assumptions path_number_added_refuted.
(** concrete cases *)
Definition leaf (t : string) : nat * xml := (0, Xml (b t) [] [] []).
Definition nowhere (_ : list N) : Z := (-1)%Z.
Definition never (_ : list N) : bool := false.
Example path_ex : let x := Xml (b "r") [] [] [leaf "a"; (0, Xml (b "b") [] [] [leaf "c"; leaf "c"]); leaf "a"] in
  Forall (plain_tag 100) [b "b"; b "c"] /\ leads x [b "b"; b "c"] [1; 0] /\ GetXMLTreePath 100 nowhere never x (b "b/c") = Ok (Some [1; 0]) /\
  GetXMLTreePath 100 nowhere never x (b "b/d") = Ok None /\ GetXMLTreePath 100 nowhere never x (b "b/c[2]") = Ok (Some [1; 1]) /\ GetXMLTreePath 100 nowhere never x (b "a[2]") = Ok (Some [1]) /\ positions (b "a") (kids_of x) = [0; 2].
Proof.
  cbv zeta. split; [|split; [|repeat split]].
  - assert (forall s, 0 < length (b s) < 100 -> forallb (fun c => negb (c =? 58)%N && negb (c =? 47)%N && negb (c =? 91)%N) (b s) = true -> plain_tag 100 (b s)) as G.
    { intros s L F. rewrite forallb_forall in F. unfold plain_tag, free. split; [intros K; rewrite K in L; cbn in L; lia|]. split; [lia|]. split; [intros I; specialize (F _ I); discriminate|]. split; [intros I; specialize (F _ I); discriminate|right; intros I; specialize (F _ I); discriminate]. }
    constructor; [|constructor; [|constructor]]; apply G; try reflexivity; cbn; lia.
  - econstructor; [split; [exists 0; reflexivity|split; [reflexivity|]]|econstructor; [split; [exists 0; reflexivity|split; [reflexivity|lia]]|constructor]].
    intros [|j] o z L H; [|lia]. cbn in H. injection H as <- <-. discriminate.
Qed.
Example path_numbered_ex : numbered_ok 100 (b "a") (b "2") /\ numbered (b "a") (b "2") = b "a[2]" /\ strtol (b "2") = 2%Z.
Proof. split; [|now split]. split; [cbn; lia|]. repeat split; intros I; cbn in I; intuition discriminate. Qed.
Example path_prefix_ex : let x := Xml (b "r") [] [] [leaf "rdf:RDF"] in let dirs p := if list_eq_dec N.eq_dec p (b "rdf") then 1%Z else (-1)%Z in
  GetXMLTreePath 100 dirs never x (b "rdf:RDF") = Ok None /\ GetXMLTreePath 100 nowhere never x (b "rdf:RDF") = Ok (Some [0]).
Proof. split; reflexivity. Qed.
Example path_added_ex : AddPathToXMLTree 100 nowhere never (Xml (b "r") [] [] [leaf "a"]) (b "a/b/c") 0 = Ok (Xml (b "r") [] [] [(0, Xml (b "a") [] [] [(0, Xml (b "b") [] [] [leaf "c"])])], Some [0; 0; 0]) /\
  AddPathToXMLTree 100 nowhere never (Xml (b "r") [] [] []) (b "a[2]") 0 = Ok (Xml (b "r") [] [] [leaf "a"], None).
Proof. split; reflexivity. Qed.

(** * C151: processing instructions are kept, by target, in order *)
Record said := { s_target : list N; s_data : list N; s_root : bool }.
Definition said_ok (x : said) : Prop := Forall (fun c => xml_space c = false) (s_target x) /\ s_target x <> b "xml" /\ match s_data x with [] => True | c :: _ => xml_space c = false end.
Definition said_text (x : said) : list N := s_target x ++ 32%N :: s_data x.
Definition parse_all (h : list said) : list instruction := fold_left (fun l x => ParseProcessingInstructions (said_text x) (s_root x) l) h [].
Lemma span_at stop w c r : Forall (fun c => stop c = false) w -> stop c = true -> span stop (w ++ c :: r) = (w, c :: r).
Proof. induction 1 as [|x w H F IH]; intros C; cbn [app span]; [now rewrite C|]. rewrite H. now rewrite IH. Qed.
Lemma parse_one x l : said_ok x -> ParseProcessingInstructions (said_text x) (s_root x) l = record (s_target x) (s_data x) (if s_root x then 62 else 60)%N l.
Proof.
  intros (A & B & C). unfold ParseProcessingInstructions, said_text. rewrite span_at by (try reflexivity; exact A). destruct (list_eq_dec N.eq_dec (s_target x) (b "xml")); [contradiction|]. f_equal.
  destruct (s_data x) as [|c d]; [reflexivity|]. cbn [span]. now rewrite C.
Qed.
Definition of_target (t : list N) (x : said) : bool := if list_eq_dec N.eq_dec (s_target x) t then true else false.
Fixpoint entry (t : list N) (l : list instruction) : option instruction :=
  match l with [] => None | x :: l => if list_eq_dec N.eq_dec (target x) t then Some x else entry t l end.
Lemma record_entry t d p l u : entry u (record t d p l) = if list_eq_dec N.eq_dec t u then Some (match entry t l with Some x => {| target := t; data := data x ++ [d]; places := places x ++ [p] |} | None => {| target := t; data := [d]; places := [p] |} end) else entry u l.
Proof.
  induction l as [|x l IH]; cbn [record entry target].
  - destruct (list_eq_dec N.eq_dec t u); reflexivity.
  - destruct (list_eq_dec N.eq_dec t (target x)) as [->|H].
    + cbn [entry target]. destruct (list_eq_dec N.eq_dec (target x) (target x)); [|congruence]. destruct (list_eq_dec N.eq_dec (target x) u); reflexivity.
    + cbn [entry]. destruct (list_eq_dec N.eq_dec (target x) t); [congruence|]. rewrite IH. destruct (list_eq_dec N.eq_dec (target x) u) as [<-|]; [|reflexivity]. destruct (list_eq_dec N.eq_dec t (target x)); [contradiction|reflexivity].
Qed.
Lemma entries h t : Forall said_ok h -> entry t (parse_all h) = match filter (of_target t) h with [] => None | l => Some {| target := t; data := map s_data l; places := map (fun x => if s_root x then 62 else 60)%N l |} end.
Proof.
  intros F. induction h as [|x h IH] using rev_ind; [reflexivity|]. apply Forall_app in F as [F Fx]. inversion Fx as [|? ? Hx _]; subst. unfold parse_all in *. rewrite fold_left_app. cbn [fold_left]. rewrite parse_one by exact Hx. rewrite record_entry, filter_app. cbn [filter]. unfold of_target at 2.
  destruct (list_eq_dec N.eq_dec (s_target x) t) as [<-|]; [|now rewrite app_nil_r, IH]. rewrite IH by exact F. destruct (filter (of_target (s_target x)) h) as [|y q] eqn:E; [reflexivity|]. cbn [app data places]. f_equal. f_equal; cbn [map]; now rewrite map_app.
Qed.
Lemma get_entry t l : GetXMLTreeProcessingInstructions t l = match entry t l with Some x => data x | None => [] end.
Proof. induction l as [|x l IH]; [reflexivity|]. cbn. now destruct (list_eq_dec N.eq_dec (target x) t). Qed.
Theorem instructions_kept h t : Forall said_ok h -> GetXMLTreeProcessingInstructions t (parse_all h) = map s_data (filter (of_target t) h).
Proof. intros F. rewrite get_entry, entries by exact F. now destruct (filter (of_target t) h). Qed.
Theorem declaration_no_instruction d root l : ParseProcessingInstructions (b "xml " ++ d) root l = l.
Proof. reflexivity. Qed.
Example instructions_ex : let h := [Build_said (b "a") (b "1") false; Build_said (b "b") [] false; Build_said (b "a") (b "2 3") true] in
  Forall said_ok h /\ GetXMLTreeProcessingInstructions (b "a") (parse_all h) = [b "1"; b "2 3"].
Proof.
  cbv zeta. split; [|reflexivity]. repeat constructor; cbn [s_target]; discriminate.
Qed.
Print Assumptions instructions_kept.
Print Assumptions declaration_no_instruction.
(** ** Writing them.  What would be right: *)
Definition right_before (l : list said) : list (list N) := map s_data (filter (fun x => negb (s_root x)) l).
Definition right_behind (l : list said) : list (list N) := map s_data (filter s_root l).
(** What is written: the first twice, each with the place of the one behind it, the last of them always. *)
Theorem instructions_written skipped x d rest : data x = d :: rest -> length (places x) = length (data x) ->
  written_of skipped x = map fst (filter (fun p => negb (snd p =? skipped)%N) (combine (d :: data x) (places x ++ [0%N]))).
Proof.
  intros D L. unfold written_of. rewrite D in L |- *.
  assert (forall rest p flags j, j + length rest = length flags -> written skipped flags p rest (S j) = map fst (filter (fun p => negb (snd p =? skipped)%N) (combine (p :: rest) (skipn j (flags ++ [0%N]))))) as G.
  { clear. induction rest as [|q rest IH]; intros p flags j L; cbn [written]; replace (S j - 1) with j by lia.
    - replace j with (length flags) by (cbn in L; lia). rewrite skipn_app, skipn_all, Nat.sub_diag. cbn [app skipn combine filter snd]. rewrite nth_overflow by lia. destruct (0 =? skipped)%N; reflexivity.
    - cbn [length] in L. rewrite IH by lia. assert (skipn j (flags ++ [0%N]) = nth j flags 0%N :: skipn (S j) (flags ++ [0%N])) as ->.
      { assert (j < length flags) as H by lia. clear L IH. revert j H. induction flags as [|f flags IH]; intros j H; [cbn in H; lia|]. destruct j as [|j]; [reflexivity|]. cbn [app nth]. cbn [skipn]. apply IH. cbn in H. lia. }
      cbn [combine filter snd]. now destruct (nth j flags 0 =? skipped)%N. }
  apply (G (d :: rest) d (places x) 0). exact (eq_sym L).
Qed.
Theorem instructions_last_refuted h t : Forall said_ok h -> filter (of_target t) h <> [] -> exists x, entry t (parse_all h) = Some x /\ forall skipped, skipped <> 0%N -> In (s_data (last (filter (of_target t) h) {| s_target := []; s_data := []; s_root := false |})) (written_of skipped x).
Proof.
  intros F Ne. rewrite entries by exact F. destruct (filter (of_target t) h) as [|y q] eqn:Ef; [congruence|]. eexists. split; [reflexivity|]. intros skipped K.
  set (x := {| target := t; data := map s_data (y :: q); places := _ |}). rewrite (instructions_written skipped x (s_data y) (map s_data q)); [|reflexivity|unfold x; cbn [data places]; now rewrite !map_length].
  apply in_map_iff. set (dd := {| s_target := []; s_data := []; s_root := false |}). exists (s_data (last (y :: q) dd), 0%N). split; [reflexivity|]. apply filter_In. split; [|cbn [snd]; destruct (N.eqb_spec 0 skipped); [congruence|reflexivity]].
  unfold x. cbn [data places]. destruct (exists_last (l := y :: q)) as [q' [z E]]; [discriminate|]. rewrite E, last_last, !map_app. cbn [map].
  assert (forall (a : list (list N)) (c : list N) v (w : N), length a = length c -> In (v, w) (combine (a ++ [v]) (c ++ [w]))) as G.
  { induction a as [|a0 a IH]; intros [|c0 c] v w L; cbn in L; try lia; [now left|]. right. apply IH. lia. }
  change (s_data y :: map s_data q' ++ [s_data z]) with ((s_data y :: map s_data q') ++ [s_data z]). apply G. rewrite app_length, map_length. cbn [length]. rewrite map_length. lia.
Qed.
(** one instruction in front of the root is written three times *)
Theorem instruction_thrice_refuted x : said_ok x -> s_root x = false -> right_before [x] = [s_data x] /\ right_behind [x] = [] /\
  exists e, parse_all [x] = [e] /\ written_of 62 e = [s_data x; s_data x] /\ written_of 60 e = [s_data x].
Proof.
  intros H R. unfold right_before, right_behind. cbn [filter]. rewrite R. split; [reflexivity|]. split; [reflexivity|]. unfold parse_all. cbn [fold_left]. rewrite parse_one by exact H. rewrite R. cbn [record]. eexists. split; [reflexivity|]. split; reflexivity.
Qed.
Example instruction_thrice_ex : let l := parse_all [{| s_target := b "t"; s_data := b "x"; s_root := false |}] in
  before_root l = b "<?t x?>" ++ [10%N] ++ b "<?t x?>" ++ [10%N] /\ behind_root l = 10%N :: b "<?t x?>".
Proof. split; reflexivity. Qed.
Print Assumptions instructions_written.
Print Assumptions instructions_last_refuted.
Print Assumptions instruction_thrice_refuted.
