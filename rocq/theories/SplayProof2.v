(** Splay() keeps the symmetric order and brings a neighbour of the key to the
    root; the operations refine a finite map. *)
From Coq Require Import NArith ZArith Arith List Bool Lia Sorting Permutation ZifyBool ZifyNat ZifyN.
From Verif Require Import SplayModel SplaySpec SplayProof.
Import ListNotations.

Lemma Sorted_app {A} (R : A -> A -> Prop) (x y : list A) :
  StronglySorted R (x ++ y) <-> StronglySorted R x /\ StronglySorted R y /\ Forall (fun a => Forall (R a) y) x.
Proof.
  induction x as [|a x IH]; cbn [app].
  - split; [intros H; split; [constructor | split; [exact H | constructor]] | tauto].
  - split.
    + intros H. apply StronglySorted_inv in H. destruct H as [H1 H2]. apply IH in H1. destruct H1 as (A1 & A2 & A3).
      apply Forall_app in H2. destruct H2 as [B1 B2].
      split; [now constructor | split; [exact A2 | now constructor]].
    + intros (H1 & H2 & H3). apply StronglySorted_inv in H1. destruct H1 as [A1 A2]. inversion H3; subst.
      constructor; [apply IH; auto | apply Forall_app; auto].
Qed.

Lemma log2_bound n : (N.of_nat n < 2 ^ 1024)%N -> Nat.log2 n < MaxSplayTreeDepth.
Proof.
  intros H. destruct (Nat.lt_ge_cases (Nat.log2 n) MaxSplayTreeDepth) as [L|G]; [exact L|exfalso].
  destruct (Nat.eq_dec n 0) as [->|Nz]; [cbn in G; unfold MaxSplayTreeDepth in G; lia|].
  assert (P : forall m, N.of_nat (2 ^ m) = (2 ^ N.of_nat m)%N).
  { induction m as [|m IH]; [reflexivity|]. rewrite Nat.pow_succ_r', Nat2N.inj_mul, IH, (Nat2N.inj_succ m), N.pow_succ_r'. reflexivity. }
  pose proof (Nat.log2_spec n ltac:(lia)) as [L _].
  assert (X : (2 ^ N.of_nat (Nat.log2 n) <= N.of_nat n)%N) by (rewrite <- P; lia).
  assert (Y : (2 ^ 1024 <= 2 ^ N.of_nat (Nat.log2 n))%N).
  { apply N.pow_le_mono_r; [discriminate|]. unfold MaxSplayTreeDepth in G. lia. }
  generalize dependent (2 ^ 1024)%N. intros; lia.
Qed.

Section Order.
Variable K : Type.
Variable compare : K -> K -> Z.
Variable by_pointer : bool.
Hypothesis ord : order K compare.

Notation tree := (tree K).
Notation elt := (K * N)%type.
Notation inorder := (inorder K).
Notation sorted := (StronglySorted (before K compare)).
Notation size := (size K).
Notation height := (height K).

Lemma cmp_sign x y : (compare x y < 0 <-> 0 < compare y x)%Z.
Proof. pose proof (ord_sign _ _ ord x y). pose proof (ord_sign _ _ ord y x). lia. Qed.
Lemma cmp_eq x y : (compare x y = 0 <-> compare y x = 0)%Z.
Proof. pose proof (ord_sign _ _ ord x y). pose proof (ord_sign _ _ ord y x). lia. Qed.
Lemma cmp_refl x : (compare x x = 0)%Z.
Proof. pose proof (ord_sign _ _ ord x x). lia. Qed.
Lemma cmp_lt_le x y z : (compare x y < 0 -> compare y z <= 0 -> compare x z < 0)%Z.
Proof.
  intros H1 H2. destruct (Z_lt_ge_dec (compare x z) 0) as [L|G]; [exact L|exfalso].
  assert (G' : (compare z x <= 0)%Z) by (apply (ord_sign _ _ ord); lia).
  pose proof (ord_trans _ _ ord _ _ _ H2 G'). pose proof (ord_sign _ _ ord y x). lia.
Qed.
Lemma cmp_le_lt x y z : (compare x y <= 0 -> compare y z < 0 -> compare x z < 0)%Z.
Proof.
  intros H1 H2. destruct (Z_lt_ge_dec (compare x z) 0) as [L|G]; [exact L|exfalso].
  assert (G' : (compare z x <= 0)%Z) by (apply (ord_sign _ _ ord); lia).
  pose proof (ord_trans _ _ ord _ _ _ G' H1). pose proof (ord_sign _ _ ord z y). lia.
Qed.
Lemma cmp_lt_trans x y z : (compare x y < 0 -> compare y z < 0 -> compare x z < 0)%Z.
Proof. intros H1 H2. apply cmp_lt_le with (y := y); lia. Qed.
Lemma cmp_congr x y z : (compare x y = 0 -> (compare z x < 0 <-> compare z y < 0) /\ (0 < compare z x <-> 0 < compare z y))%Z.
Proof.
  intros E. pose proof (cmp_eq x y) as S1.
  assert (A : forall a b, compare a b = 0%Z -> (compare z a < 0 -> compare z b < 0)%Z) by (intros a b Eab H; apply cmp_lt_le with (y := a); lia).
  assert (B : forall a b, compare a b = 0%Z -> (0 < compare z a -> 0 < compare z b)%Z).
  { intros a b Eab H. apply cmp_sign. apply cmp_sign in H. apply cmp_le_lt with (y := a); [|exact H]. apply cmp_eq in Eab. lia. }
  repeat split; intros H; [apply (A x) | apply (A y) | apply (B x) | apply (B y)]; tauto || lia.
Qed.

(** ** the node brought to the root *)
Definition above (key : K) (l : list elt) : Prop := Forall (fun e => (0 < compare (fst e) key)%Z) l.
Definition below (key : K) (l : list elt) : Prop := Forall (fun e => (compare (fst e) key < 0)%Z) l.
Definition near (key : K) (L : list elt) (k : K) (R : list elt) : Prop :=
  ((compare k key < 0)%Z -> above key R) /\ ((0 < compare k key)%Z -> below key L).

Lemma near_congr key key' L k R : compare key key' = 0%Z -> near key L k R -> near key' L k R.
Proof.
  intros E [H1 H2]. split; intros H.
  - apply (cmp_congr _ _ _ E) in H. eapply Forall_impl; [|exact (H1 H)]. intros e X. now apply (cmp_congr _ _ _ E).
  - apply (cmp_congr _ _ _ E) in H. eapply Forall_impl; [|exact (H2 H)]. intros e X. now apply (cmp_congr _ _ _ E).
Qed.
Lemma near_eq key L k R : compare k key = 0%Z -> near key L k R.
Proof. intros H. split; intros X; lia. Qed.

Definition shape (p : place) (t : tree) (L : list elt) (k : K) (v : N) (R : list elt) : Prop :=
  match p with
  | AtRoot => exists a b, t = Node K a k v b /\ inorder a = L /\ inorder b = R
  | BelowLeft => exists a b pk pv c, t = Node K (Node K a k v b) pk pv c /\ inorder a = L /\ inorder b ++ (pk, pv) :: inorder c = R
  | BelowRight => exists a pk pv b c, t = Node K a pk pv (Node K b k v c) /\ inorder a ++ (pk, pv) :: inorder b = L /\ inorder c = R
  end.

Lemma sorted_parts l k v r : sorted (l ++ (k, v) :: r) ->
  sorted l /\ sorted r /\ Forall (fun e => (compare (fst e) k < 0)%Z) l /\ Forall (fun e => (compare k (fst e) < 0)%Z) r /\
  Forall (fun e => Forall (fun e' => (compare (fst e) (fst e') < 0)%Z) r) l.
Proof.
  intros H. apply Sorted_app in H. destruct H as (H1 & H2 & H3). apply StronglySorted_inv in H2. destruct H2 as [H2 H4].
  split; [exact H1|]. split; [exact H2|]. split; [|split; [exact H4|]].
  - eapply Forall_impl; [|exact H3]. intros e X. now inversion X.
  - eapply Forall_impl; [|exact H3]. intros e X. now inversion X.
Qed.

Lemma above_root key k r : (0 < compare k key)%Z -> Forall (fun e => (compare k (fst e) < 0)%Z) r -> above key r.
Proof.
  intros H F. eapply Forall_impl; [|exact F]. intros e X. cbn in X. apply cmp_sign. apply cmp_sign in H. eapply cmp_lt_trans; eauto.
Qed.
Lemma below_root key k l : (compare k key < 0)%Z -> Forall (fun e => (compare (fst e) k < 0)%Z) l -> below key l.
Proof. intros H F. eapply Forall_impl; [|exact F]. intros e X. cbn in X. eapply cmp_lt_trans; eauto. Qed.

Lemma Splay_ok key : forall t d p t', t <> E K -> sorted (inorder t) -> Splay K compare d key t = Some (p, t') ->
  exists L k v R, inorder t = L ++ (k, v) :: R /\ near key L k R /\ shape p t' L k v R.
Proof.
  induction t as [|l IHl k v r IHr]; intros d p t' Nn S H; [now destruct Nn|]. clear Nn.
  cbn [Splay] in H. cbn [inorder SplayProof.inorder] in S. apply sorted_parts in S. destruct S as (Sl & Sr & Fl & Fr & _).
  destruct (Z.eqb_spec (compare k key) 0) as [Z0|Z0].
  { injection H as <- <-. exists (inorder l), k, v, (inorder r). split; [reflexivity|]. split; [now apply near_eq|].
    exists l, r. auto. }
  destruct (MaxSplayTreeDepth <=? d); [discriminate H|].
  destruct (Z.ltb_spec 0 (compare k key)) as [G|G].
  - assert (Above : above key (inorder r)) by (eapply above_root; eauto).
    destruct l as [|a x y b] eqn:El.
    { injection H as <- <-. exists [], k, v, (inorder r). split; [reflexivity|]. split; [split; intros; [lia | constructor]|].
      exists (E K), r. auto. }
    rewrite <- El in *. assert (Nl : l <> E K) by (subst l; discriminate).
    destruct (Splay K compare (S d) key l) as [[q l']|] eqn:Es; [|discriminate H].
    destruct (IHl _ _ _ Nl Sl Es) as (L & k1 & v1 & R & Ei & Nr & Sh).
    exists L, k1, v1, (R ++ (k, v) :: inorder r). cbn [inorder SplayProof.inorder]. rewrite Ei, <- app_assoc. split; [reflexivity|].
    split.
    { destruct Nr as [N1 N2]. split; [|exact N2]. intros X. apply Forall_app. split; [now apply N1|]. constructor; [exact G | exact Above]. }
    destruct q; cbn [shape] in Sh.
    + destruct Sh as (a1 & b1 & -> & E1 & E2). injection H as <- <-. exists a1, b1, k, v, r. subst; auto.
    + destruct Sh as (a1 & b1 & pk & pv & c & -> & E1 & E2). injection H as <- <-. cbn [rotate_left_side shape].
      eexists _, _. split; [reflexivity|]. cbn [inorder SplayProof.inorder]. subst. split; [reflexivity|]. now rewrite <- app_assoc.
    + destruct Sh as (a1 & pk & pv & b1 & c & -> & E1 & E2). injection H as <- <-. cbn [rotate_left_side shape].
      eexists _, _. split; [reflexivity|]. cbn [inorder SplayProof.inorder]. subst. split; reflexivity.
  - assert (Below : below key (inorder l)) by (eapply below_root; [|exact Fl]; lia).
    destruct r as [|a x y b] eqn:Er.
    { injection H as <- <-. exists (inorder l), k, v, []. split; [reflexivity|]. split; [split; intros; [constructor | lia]|].
      exists l, (E K). auto. }
    rewrite <- Er in *. assert (Nl : r <> E K) by (subst r; discriminate).
    destruct (Splay K compare (S d) key r) as [[q r']|] eqn:Es; [|discriminate H].
    destruct (IHr _ _ _ Nl Sr Es) as (L & k1 & v1 & R & Ei & Nr & Sh).
    exists (inorder l ++ (k, v) :: L), k1, v1, R. cbn [inorder SplayProof.inorder]. rewrite Ei, <- app_assoc. split; [reflexivity|].
    split.
    { destruct Nr as [N1 N2]. split; [exact N1|]. intros X. apply Forall_app. split; [exact Below|]. constructor; [cbn; lia | now apply N2]. }
    destruct q; cbn [shape] in Sh.
    + destruct Sh as (a1 & b1 & -> & E1 & E2). injection H as <- <-. exists l, k, v, a1, b1. subst; auto.
    + destruct Sh as (a1 & b1 & pk & pv & c & -> & E1 & E2). injection H as <- <-. cbn [rotate_right_side shape].
      eexists _, _. split; [reflexivity|]. cbn [inorder SplayProof.inorder]. subst. split; reflexivity.
    + destruct Sh as (a1 & pk & pv & b1 & c & -> & E1 & E2). injection H as <- <-. cbn [rotate_right_side shape].
      eexists _, _. split; [reflexivity|]. cbn [inorder SplayProof.inorder]. subst. split; [|reflexivity]. now rewrite <- !app_assoc.
Qed.

Lemma single_rotation_ok p t L k v R : shape p t L k v R ->
  exists a b, single_rotation K (p, t) = Node K a k v b /\ inorder a = L /\ inorder b = R.
Proof.
  destruct p; cbn [shape].
  - intros (a & b & -> & E1 & E2). exists a, b. auto.
  - intros (a & b & pk & pv & c & -> & E1 & E2). eexists _, _. split; [reflexivity|]. split; [exact E1 | exact E2].
  - intros (a & pk & pv & b & c & -> & E1 & E2). eexists _, _. split; [reflexivity|]. split; [exact E1 | exact E2].
Qed.

Lemma Splay_total key : forall t d, height t + d <= MaxSplayTreeDepth -> Splay K compare d key t <> None.
Proof.
  induction t as [|l IHl k v r IHr]; intros d H; cbn [Splay]; [discriminate|]. cbn [height SplayProof.height] in H.
  destruct (compare k key =? 0)%Z; [discriminate|].
  destruct (Nat.leb_spec MaxSplayTreeDepth d); [lia|].
  destruct (0 <? compare k key)%Z.
  - specialize (IHl (S d) ltac:(lia)). destruct l; [discriminate|].
    destruct (Splay K compare (S d) key _) as [[[] ?]|]; [discriminate | discriminate | discriminate | now destruct IHl].
  - specialize (IHr (S d) ltac:(lia)). destruct r; [discriminate|].
    destruct (Splay K compare (S d) key _) as [[[] ?]|]; [discriminate | discriminate | discriminate | now destruct IHr].
Qed.
Lemma height_size t : height t <= size t.
Proof. induction t as [|l IHl k v r IHr]; [reflexivity|]. cbn [SplayProof.height SplayModel.size]. lia. Qed.

(** ** the invariant *)
Definition key_ok (s : SplayTreeInfo K) : Prop :=
  match sp_key K s, sp_root K s with
  | Some sk, Node _ a k _ b => near sk (inorder a) k (inorder b)
  | _, _ => True
  end.
Definition sinv (s : SplayTreeInfo K) (l : list elt) : Prop :=
  inorder (sp_root K s) = l /\ sorted l /\ sp_nodes K s = N.of_nat (length l) /\ key_ok s.
Definition fits (l : list elt) : Prop := (N.of_nat (length l) < 2 ^ 1024)%N.

Lemma inorder_nil t : inorder t = [] -> t = E K.
Proof. destruct t; [reflexivity|]. cbn. intros H. apply app_eq_nil in H. now destruct H. Qed.

Lemma SplaySplayTree_ok s l key : sinv s l -> fits l ->
  exists s', SplaySplayTree K compare by_pointer s key = Some s' /\ sinv s' l /\ sp_next K s' = sp_next K s /\
    (l <> [] -> exists a k v b, sp_root K s' = Node K a k v b /\ l = inorder a ++ (k, v) :: inorder b /\ near key (inorder a) k (inorder b)).
Proof.
  intros Inv F. pose proof Inv as (E1 & So & E2 & Ko). unfold SplaySplayTree.
  destruct (sp_root K s) as [|a k v b] eqn:Er.
  { exists s. split; [reflexivity|]. split; [exact Inv|]. split; [reflexivity|]. intros X. destruct X. now rewrite <- E1. }
  assert (Fin : forall t p t', inorder t = l -> t <> E K -> Splay K compare 0 key t = Some (p, t') ->
     exists s', Some (mkSplay K (single_rotation K (p, t')) (Some key) (sp_next K s) (sp_nodes K s)) = Some s' /\ sinv s' l /\ sp_next K s' = sp_next K s /\
    (l <> [] -> exists a k v b, sp_root K s' = Node K a k v b /\ l = inorder a ++ (k, v) :: inorder b /\ near key (inorder a) k (inorder b))).
  { intros t p t' Ei Nn Es. eexists. split; [reflexivity|].
    destruct (Splay_ok key t 0 p t' Nn ltac:(now rewrite Ei) Es) as (L & k1 & v1 & R & Ein & Nr & Sh).
    destruct (single_rotation_ok _ _ _ _ _ _ Sh) as (a1 & b1 & Es1 & Ea & Eb). rewrite Es1.
    assert (Il : l = inorder a1 ++ (k1, v1) :: inorder b1) by (rewrite Ea, Eb; congruence).
    split.
    - split; [cbn [sp_root]; now rewrite Il|]. split; [exact So|]. split; [exact E2|]. unfold key_ok. cbn [sp_key sp_root]. now rewrite Ea, Eb.
    - split; [reflexivity|]. intros _. exists a1, k1, v1, b1. cbn [sp_root]. split; [reflexivity|]. split; [exact Il|]. now rewrite Ea, Eb. }
  destruct (match sp_key K s with Some sk => _ | None => false end) eqn:Early.
  - exists s. split; [reflexivity|]. split; [exact Inv|]. split; [reflexivity|]. intros _. exists a, k, v, b.
    split; [exact Er|]. split; [now rewrite <- E1|]. unfold key_ok in Ko. rewrite Er in Ko.
    destruct (sp_key K s) as [sk|]; [|discriminate Early]. destruct by_pointer.
    + apply near_congr with sk; [lia | exact Ko].
    + apply near_eq. lia.
  - destruct (Splay K compare 0 key (Node K a k v b)) as [[p t']|] eqn:Es; [eapply Fin; [exact E1 | discriminate | exact Es]|].
    assert (Hs : MaxSplayTreeDepth < size (Node K a k v b)).
    { destruct (Nat.lt_ge_cases MaxSplayTreeDepth (size (Node K a k v b))) as [L|G]; [exact L|exfalso].
      pose proof (height_size (Node K a k v b)). apply (Splay_total key (Node K a k v b) 0); [lia | exact Es]. }
    pose proof (inorder_length K (Node K a k v b)) as Len. rewrite E1 in Len.
    destruct (Balance_ok K (Node K a k v b)) as (t & Eb & Ei & Hh); [unfold MaxSplayTreeDepth in Hs; lia|].
    rewrite E2, Len, Eb. rewrite <- Len in Hh. pose proof (log2_bound _ F) as Lg.
    destruct (Splay K compare 0 key t) as [[p t']|] eqn:Es2.
    + rewrite <- Len, <- E2. eapply Fin; [now rewrite Ei | | exact Es2]. intros ->. rewrite E1 in Ei. cbn in Ei.
      rewrite <- Ei in Len. cbn [length] in Len. lia.
    + exfalso. apply (Splay_total key t 0); [|exact Es2]. unfold MaxSplayTreeDepth in *. lia.
Qed.

(** ** the map of a sorted list *)
Definition amap (l : list elt) : fmap K :=
  fun k => find (fun e => same K compare k (fst e)) l.

Lemma amap_spec l : sorted l -> forall k e, amap l k = Some e <-> In e l /\ compare k (fst e) = 0%Z.
Proof.
  induction l as [|[k0 v0] l IH]; intros So k e.
  - cbn. split; [discriminate | now intros ([] & _)].
  - apply StronglySorted_inv in So. destruct So as [So Fo]. specialize (IH So k e). unfold amap in *. cbn [find fst].
    unfold same in *. destruct (Z.eqb_spec (compare k k0) 0) as [Z|Z].
    + split; [intros [= <-]; split; [now left | exact Z]|].
      intros ([X|X] & Z'); [now rewrite <- X|].
      eapply Forall_forall in Fo; [|exact X]. unfold before in Fo. cbn in Fo. exfalso.
      apply (cmp_congr _ _ k0) in Z'. pose proof (cmp_eq k k0). destruct Z' as [Z' _]. apply Z' in Fo. lia.
    + rewrite IH. split; intros (X & Z'); (split; [|exact Z']); [now right|].
      destruct X as [X|X]; [subst e; contradiction | exact X].
Qed.
Lemma amap_bindings l : sorted l -> bindings K compare (amap l) l.
Proof. intros H. split; [exact H | now apply amap_spec]. Qed.
Lemma option_ext {A} (a b : option A) : (forall v, a = Some v <-> b = Some v) -> a = b.
Proof. intros H. destruct a as [x|]; [symmetry; now apply H | destruct b as [y|]; [now apply H | reflexivity]]. Qed.

Lemma amap_here L k v R key : sorted (L ++ (k, v) :: R) -> compare k key = 0%Z -> amap (L ++ (k, v) :: R) key = Some (k, v).
Proof. intros So Z. apply (amap_spec _ So). split; [apply in_or_app; right; now left | now apply cmp_eq]. Qed.
Lemma amap_absent L k v R key : sorted (L ++ (k, v) :: R) -> near key L k R -> compare k key <> 0%Z -> amap (L ++ (k, v) :: R) key = None.
Proof.
  intros So [N1 N2] Nz. destruct (amap _ key) as [w|] eqn:Ea; [|reflexivity]. exfalso.
  apply (amap_spec _ So) in Ea. destruct w as [k' w], Ea as (I & Z). cbn [fst] in Z. apply cmp_eq in Z. apply sorted_parts in So. destruct So as (_ & _ & Fl & Fr & _).
  apply in_app_or in I. destruct I as [I|[I|I]].
  - destruct (Z_lt_ge_dec (compare k key) 0) as [L1|G].
    + eapply Forall_forall in Fl; [|exact I]. cbn in Fl. pose proof (cmp_lt_trans _ _ _ Fl L1). lia.
    + specialize (N2 ltac:(lia)). eapply Forall_forall in N2; [|exact I]. cbn in N2. lia.
  - injection I as -> ->. contradiction.
  - destruct (Z_lt_ge_dec (compare k key) 0) as [L1|G].
    + specialize (N1 L1). eapply Forall_forall in N1; [|exact I]. cbn in N1. lia.
    + eapply Forall_forall in Fr; [|exact I]. cbn in Fr.
      apply (cmp_congr _ _ k) in Z. lia.
Qed.

(** what each update does to the sorted list *)
Definition put_list (key : K) (value : N) (L : list elt) (k : K) (v : N) (R : list elt) : list elt :=
  if (compare k key =? 0)%Z then L ++ (key, value) :: R
  else if (compare k key <? 0)%Z then L ++ (k, v) :: (key, value) :: R
  else L ++ (key, value) :: (k, v) :: R.

Lemma sorted_intro L k v R : sorted L -> sorted R -> Forall (fun e => (compare (fst e) k < 0)%Z) L -> Forall (fun e => (compare k (fst e) < 0)%Z) R ->
  sorted (L ++ (k, v) :: R).
Proof.
  intros H1 H2 H3 H4. apply Sorted_app. split; [exact H1|]. split; [now constructor|].
  rewrite Forall_forall in *. intros e I. constructor; [now apply H3|]. rewrite Forall_forall. intros e' I'.
  unfold before. eapply cmp_lt_trans; [now apply H3 | now apply H4].
Qed.

Lemma put_sorted key value L k v R : sorted (L ++ (k, v) :: R) -> near key L k R -> sorted (put_list key value L k v R).
Proof.
  intros So [N1 N2]. pose proof (sorted_parts _ _ _ _ So) as (Sl & Sr & Fl & Fr & Flr). unfold put_list.
  destruct (Z.eqb_spec (compare k key) 0) as [Z|Z]; [|destruct (Z.ltb_spec (compare k key) 0) as [L1|G]].
  - apply sorted_intro; [exact Sl | exact Sr | |].
    + eapply Forall_impl; [|exact Fl]. intros e X. apply (cmp_congr _ _ _ Z). exact X.
    + eapply Forall_impl; [|exact Fr]. intros e X. apply cmp_sign. apply (cmp_congr _ _ _ Z). now apply cmp_sign.
  - specialize (N1 L1). apply sorted_intro; [exact Sl | | exact Fl |].
    + constructor; [exact Sr|]. eapply Forall_impl; [|exact N1]. intros e X. now apply cmp_sign.
    + constructor; [exact L1 | exact Fr].
  - specialize (N2 ltac:(lia)). apply sorted_intro; [exact Sl | | exact N2 |].
    + constructor; [exact Sr | exact Fr].
    + constructor; [apply cmp_sign; cbn; lia|]. eapply Forall_impl; [|exact Fr]. intros e X. cbn in X. eapply cmp_lt_trans; [|exact X]. apply cmp_sign. lia.
Qed.
Lemma put_length key value L k v R : length (put_list key value L k v R) <= S (length (L ++ (k, v) :: R)).
Proof. unfold put_list. destruct (_ =? _)%Z; [|destruct (_ <? _)%Z]; rewrite !app_length; cbn [length]; lia. Qed.

Lemma amap_put key value L k v R : sorted (L ++ (k, v) :: R) -> near key L k R ->
  forall x, amap (put_list key value L k v R) x = fm_put K compare (amap (L ++ (k, v) :: R)) key value x.
Proof.
  intros So Nr x. pose proof (put_sorted key value _ _ _ _ So Nr) as Sp. unfold fm_put.
  destruct (same K compare x key) eqn:Sx; unfold same in Sx.
  - apply (amap_spec _ Sp). split; [|cbn [fst]; lia]. unfold put_list.
    destruct (compare k key =? 0)%Z; [|destruct (compare k key <? 0)%Z]; apply in_or_app; right; cbn [In]; auto.
  - apply option_ext. intros w. rewrite (amap_spec _ Sp), (amap_spec _ So).
    destruct w as [k' w]; cbn [fst]; split; intros (I & Z); (split; [|exact Z]).
    + revert I. unfold put_list. destruct (Z.eqb_spec (compare k key) 0) as [Z1|Z1]; [|destruct (_ <? _)%Z];
        intros I; apply in_app_or in I; apply in_or_app; cbn [In] in *; intuition; exfalso; match goal with X : (_, _) = (_, _) |- _ => injection X as -> -> end; lia.
    + revert I. unfold put_list. destruct (Z.eqb_spec (compare k key) 0) as [Z1|Z1]; [|destruct (_ <? _)%Z];
        intros I; apply in_app_or in I; apply in_or_app; cbn [In] in *; intuition.
      exfalso. match goal with X : (_, _) = (_, _) |- _ => injection X as -> -> end.
      apply (cmp_eq x) in Z. apply cmp_eq in Z. pose proof (cmp_congr _ _ x Z1). lia.
Qed.

Lemma remove_sorted L k v R : sorted (L ++ (k, v) :: R) -> sorted (L ++ R).
Proof. intros H. apply sorted_parts in H. destruct H as (H1 & H2 & _ & _ & H3). apply Sorted_app. auto. Qed.
Lemma amap_remove key L k v R : sorted (L ++ (k, v) :: R) -> compare k key = 0%Z ->
  forall x, amap (L ++ R) x = fm_remove K compare (amap (L ++ (k, v) :: R)) key x.
Proof.
  intros So Z x. pose proof (remove_sorted _ _ _ _ So) as Sp. unfold fm_remove. apply option_ext. intros w.
  rewrite (amap_spec _ Sp). destruct (same K compare x key) eqn:Sx; unfold same in Sx.
  - split; [|discriminate]. destruct w as [k' w]. cbn [fst]. intros (I & Z'). exfalso.
    assert (Zk : compare x k = 0%Z) by (pose proof (cmp_congr _ _ x Z); lia).
    apply sorted_parts in So. destruct So as (_ & _ & Fl & Fr & _).
    assert (Zk' : compare k k' = 0%Z) by (apply cmp_eq in Zk; pose proof (cmp_congr _ _ k Z'); lia).
    apply in_app_or in I. destruct I as [I|I].
    + eapply Forall_forall in Fl; [|exact I]. cbn in Fl. apply cmp_sign in Fl. lia.
    + eapply Forall_forall in Fr; [|exact I]. cbn in Fr. lia.
  - rewrite (amap_spec _ So). destruct w as [k' w]; cbn [fst]; split; intros (I & Z'); (split; [|exact Z']); apply in_app_or in I; apply in_or_app; cbn [In] in *; intuition.
    exfalso. match goal with X : (_, _) = (_, _) |- _ => injection X as -> -> end. pose proof (cmp_congr _ _ x Z). lia.
Qed.
Lemma amap_remove_absent key l : amap l key = None -> sorted l -> forall x, amap l x = fm_remove K compare (amap l) key x.
Proof.
  intros Ha So x. unfold fm_remove. destruct (same K compare x key) eqn:Sx; [|reflexivity]. unfold same in Sx.
  destruct (amap l x) as [w|] eqn:Ex; [|reflexivity]. exfalso.
  apply (amap_spec _ So) in Ex. destruct Ex as (I & Z).
  assert (X : amap l key = Some w).
  { apply (amap_spec _ So). split; [exact I|]. assert (Zx : compare x key = 0%Z) by lia. apply cmp_eq in Zx. pose proof (cmp_congr _ _ key Z). lia. }
  congruence.
Qed.

(** ** the operations *)
Lemma add_ok mem s l key value : sinv s l -> fits l ->
  exists s' l', AddValueToSplayTree K compare by_pointer mem s key value =
      Some (s', match amap l key with None => mem | Some _ => true end) /\ sinv s' l' /\ length l' <= S (length l) /\
    sp_next K s' = sp_next K s /\
    (if match amap l key with None => mem | Some _ => true end then forall x, amap l' x = fm_put K compare (amap l) key value x else l' = l).
Proof.
  intros Inv F. destruct (SplaySplayTree_ok s l key Inv F) as (s1 & E1 & Inv1 & En & Sh). unfold AddValueToSplayTree. rewrite E1.
  destruct (sp_root K s1) as [|a k v b] eqn:Er.
  - assert (l = []) as ->. { destruct Inv1 as (X & _). rewrite Er in X. now rewrite <- X. }
    change (amap [] key) with (@None elt). destruct mem.
    + eexists _, [(key, value)]. split; [reflexivity|]. split; [|split; [cbn; lia | split; [exact En|]]].
      * split; [reflexivity|]. split; [repeat constructor|]. split; [|exact Logic.I]. cbn [sp_nodes]. destruct Inv1 as (_ & _ & -> & _). reflexivity.
      * intros x. unfold amap, fm_put. cbn [find fst]. now destruct (same K compare x key).
    + exists s1, []. repeat split; try apply Inv1; [auto | exact En].
  - destruct Inv1 as (I1 & So & I3 & Ko). rewrite Er in I1. cbn [SplayProof.inorder] in I1.
    destruct Sh as (a' & k' & v' & b' & X & El & Nr). { rewrite <- I1. now destruct (inorder a). }
    injection X as <- <- <- <-. subst l.
    destruct (Z.eqb_spec (compare k key) 0) as [Z|Z].
    + rewrite (amap_here _ _ _ _ _ So Z). eexists _, (put_list key value (inorder a) k v (inorder b)). split; [reflexivity|].
      pose proof (put_sorted key value _ _ _ _ So Nr) as Sp. pose proof (amap_put key value _ _ _ _ So Nr) as Ap.
      pose proof (put_length key value (inorder a) k v (inorder b)) as Ln.
      split; [|split; [exact Ln | split; [exact En | exact Ap]]].
      split; [unfold put_list; now rewrite (proj2 (Z.eqb_eq _ _) Z)|]. split; [exact Sp|]. split.
      * cbn [sp_nodes]. rewrite I3. unfold put_list. rewrite (proj2 (Z.eqb_eq _ _) Z), !app_length. reflexivity.
      * unfold key_ok in *. cbn [sp_key sp_root]. rewrite Er in Ko. destruct (sp_key K s1) as [sk|]; [|exact Logic.I].
        destruct Ko as [K1 K2]. pose proof (cmp_eq sk k). split; intros X.
        -- apply K1. apply cmp_sign. apply (cmp_congr _ _ _ Z). apply cmp_sign. exact X.
        -- apply K2. apply cmp_sign. apply (cmp_congr _ _ _ Z). apply cmp_sign. exact X.
    + rewrite (amap_absent _ _ _ _ _ So Nr Z). destruct mem; cbn [negb].
      * exists (mkSplay K (if (compare k key <? 0)%Z then Node K (Node K a k v (E K)) key value b else Node K a key value (Node K (E K) k v b)) None (sp_next K s1) (sp_nodes K s1 + 1)),
          (put_list key value (inorder a) k v (inorder b)). split; [destruct (_ <? _)%Z; reflexivity|].
        split; [|split; [apply put_length | split; [exact En | now apply amap_put]]].
        split; [|split; [now apply put_sorted | split; [|exact Logic.I]]].
        -- cbn [sp_root]. unfold put_list. rewrite (proj2 (Z.eqb_neq _ _) Z). destruct (_ <? _)%Z; cbn [SplayProof.inorder]; [now rewrite <- app_assoc | reflexivity].
        -- cbn [sp_nodes]. rewrite I3. unfold put_list. rewrite (proj2 (Z.eqb_neq _ _) Z). destruct (_ <? _)%Z; rewrite !app_length; cbn [length]; lia.
      * exists s1, (inorder a ++ (k, v) :: inorder b). split; [reflexivity|]. split; [|split; [lia | split; [exact En | reflexivity]]].
        split; [now rewrite Er|]. split; [exact So|]. split; [exact I3 | exact Ko].
Qed.

Lemma get_ok s l key : sinv s l -> fits l ->
  exists s', GetValueFromSplayTree K compare by_pointer s key = Some (s', fm_get K (amap l) key) /\ sinv s' l /\ sp_next K s' = sp_next K s.
Proof.
  intros Inv F. unfold GetValueFromSplayTree, fm_get. destruct (sp_root K s) as [|a0 k0 v0 b0] eqn:Er0.
  { assert (l = []) as ->. { destruct Inv as (X & _). rewrite Er0 in X. now rewrite <- X. } exists s. split; [reflexivity | auto]. }
  destruct (SplaySplayTree_ok s l key Inv F) as (s1 & E1 & Inv1 & En & Sh). rewrite E1.
  destruct Sh as (a & k & v & b & Er & El & Nr).
  { destruct Inv as (X & _). rewrite Er0 in X. rewrite <- X. cbn [SplayProof.inorder]. now destruct (inorder a0). }
  rewrite Er. exists s1. split; [|auto]. pose proof Inv1 as (_ & So & _ & _). subst l.
  destruct (Z.eqb_spec (compare k key) 0) as [Z|Z]; [now rewrite (amap_here _ _ _ _ _ So Z) | now rewrite (amap_absent _ _ _ _ _ So Nr Z)].
Qed.

Lemma hang_inorder l r : inorder (hang K l r) = inorder l ++ inorder r.
Proof. induction l as [|a IHa k v b IHb]; cbn [hang SplayProof.inorder]; [reflexivity|]. rewrite IHb, <- app_assoc. reflexivity. Qed.
Lemma join_inorder l r : inorder (join K l r) = inorder l ++ inorder r.
Proof.
  unfold join. destruct l eqn:El; [reflexivity|]. destruct r eqn:Er; [now rewrite app_nil_r|]. apply hang_inorder.
Qed.
Lemma clear_key_inv s l : sinv s l -> sinv (clear_key K s) l.
Proof. intros (H1 & H2 & H3 & _). split; [exact H1|]. split; [exact H2|]. split; [exact H3 | exact Logic.I]. Qed.
Lemma remove_root_inv s a k v b : sinv s (inorder a ++ (k, v) :: inorder b) -> sp_root K s = Node K a k v b ->
  sinv (remove_root K s) (inorder a ++ inorder b).
Proof.
  intros (H1 & H2 & H3 & _) Er. unfold remove_root. rewrite Er. split; [apply join_inorder|]. split; [now apply remove_sorted in H2|].
  split; [|exact Logic.I]. cbn [sp_nodes]. rewrite H3, !app_length. cbn [length]. lia.
Qed.

Lemma take_ok s l key : sinv s l -> fits l ->
  exists s' l', take_node K compare by_pointer s key = Some (s', option_map snd (amap l key)) /\ sinv s' l' /\ length l' <= length l /\
    (forall x, amap l' x = fm_remove K compare (amap l) key x).
Proof.
  intros Inv F. unfold take_node. destruct (sp_root K s) as [|a0 k0 v0 b0] eqn:Er0.
  { assert (l = []) as ->. { destruct Inv as (X & _). rewrite Er0 in X. now rewrite <- X. }
    exists s, []. split; [reflexivity|]. split; [exact Inv|]. split; [reflexivity|]. intros x. unfold fm_remove. now destruct (same K compare x key). }
  destruct (SplaySplayTree_ok s l key Inv F) as (s1 & E1 & Inv1 & En & Sh). rewrite E1.
  destruct Sh as (a & k & v & b & Er & El & Nr).
  { destruct Inv as (X & _). rewrite Er0 in X. rewrite <- X. cbn [SplayProof.inorder]. now destruct (inorder a0). }
  change (sp_root K (clear_key K s1)) with (sp_root K s1). rewrite Er. pose proof Inv1 as (_ & So & _ & _). apply clear_key_inv in Inv1. subst l.
  destruct (Z.eqb_spec (compare k key) 0) as [Z|Z].
  - rewrite (amap_here _ _ _ _ _ So Z). eexists _, (inorder a ++ inorder b). split; [reflexivity|].
    split; [now apply (remove_root_inv _ _ _ _ _ Inv1)|]. split; [rewrite !app_length; cbn [length]; lia|]. now apply amap_remove.
  - pose proof (amap_absent _ _ _ _ _ So Nr Z) as Ab. rewrite Ab. eexists _, _. split; [reflexivity|]. split; [exact Inv1|]. split; [lia|].
    now apply amap_remove_absent.
Qed.

(** ** walking in key order *)
Lemma split_unique L k v R P k1 v1 Q : sorted (L ++ (k, v) :: R) -> L ++ (k, v) :: R = P ++ (k1, v1) :: Q -> compare k k1 = 0%Z ->
  L = P /\ k = k1 /\ v = v1 /\ R = Q.
Proof.
  revert P. induction L as [|e L IH]; intros P So Eq Z.
  - destruct P as [|e' P]; [now injection Eq as -> -> ->|]. exfalso. cbn [app] in Eq. injection Eq as <- ->.
    cbn [app] in So. apply StronglySorted_inv in So. destruct So as [_ Fo]. apply Forall_app in Fo. destruct Fo as [_ Fo]. inversion Fo as [|? ? X]; subst.
    unfold before in X. cbn in X. lia.
  - destruct P as [|e' P].
    + exfalso. cbn [app] in Eq. injection Eq as -> <-. cbn [app] in So. apply StronglySorted_inv in So. destruct So as [_ Fo]. apply Forall_app in Fo. destruct Fo as [_ Fo]. inversion Fo as [|? ? X]; subst.
      unfold before in X. cbn in X. apply cmp_sign in X. lia.
    + cbn [app] in Eq, So. injection Eq as -> Eq. apply StronglySorted_inv in So. destruct (IH P (proj1 So) Eq Z) as (-> & -> & -> & ->). auto.
Qed.
Definition head_key (l : list elt) : option K := match l with (k, _) :: _ => Some k | [] => None end.
Lemma first_key_ok t : first_key K t = head_key (inorder t).
Proof.
  induction t as [|l IHl k v r IHr]; [reflexivity|]. cbn [first_key SplayProof.inorder]. destruct l as [|a x y b] eqn:El; [reflexivity|].
  rewrite IHl. cbn [SplayProof.inorder]. destruct (inorder a) as [|[? ?] ?]; reflexivity.
Qed.

Lemma splay_present s P k v Q : sinv s (P ++ (k, v) :: Q) -> fits (P ++ (k, v) :: Q) ->
  exists s' a b, SplaySplayTree K compare by_pointer s k = Some s' /\ sinv s' (P ++ (k, v) :: Q) /\ sp_next K s' = sp_next K s /\
    sp_root K s' = Node K a k v b /\ inorder a = P /\ inorder b = Q.
Proof.
  intros Inv F. destruct (SplaySplayTree_ok _ _ k Inv F) as (s' & E1 & Inv1 & En & Sh).
  destruct Sh as (a & k1 & v1 & b & Er & El & Nr).
  { clear. destruct P; discriminate. }
  assert (Z : compare k1 k = 0%Z).
  { destruct (Z.eq_dec (compare k1 k) 0) as [Z|Z]; [exact Z|exfalso]. pose proof Inv1 as (_ & So & _ & _).
    pose proof (amap_here P k v Q k So (cmp_refl k)) as H1. rewrite El in H1, So. rewrite (amap_absent _ _ _ _ _ So Nr Z) in H1. discriminate. }
  pose proof Inv1 as (_ & So & _ & _). rewrite El in So. destruct (split_unique _ _ _ _ _ _ _ _ So (eq_sym El) Z) as (E2 & -> & -> & E3).
  exists s', a, b. repeat (split; [assumption|]). assumption.
Qed.

Lemma next_ok s P k v Q : sinv s (P ++ (k, v) :: Q) -> fits (P ++ (k, v) :: Q) -> sp_next K s = Some k ->
  exists s', NextNode K compare by_pointer s = Some (s', Some (k, v)) /\ sinv s' (P ++ (k, v) :: Q) /\ sp_next K s' = head_key Q.
Proof.
  intros Inv F Hn. destruct (splay_present _ _ _ _ _ Inv F) as (s' & a & b & E1 & Inv1 & En & Er & Ea & Eb).
  unfold NextNode. rewrite Hn. destruct (sp_root K s) as [|a0 k0 v0 b0] eqn:Er0.
  { exfalso. destruct Inv as (X & _). rewrite Er0 in X. cbn [SplayProof.inorder] in X. clear -X. destruct P; discriminate. }
  rewrite E1, Er. eexists. split; [reflexivity|]. cbn [sp_next]. rewrite first_key_ok, Eb. split; [|reflexivity].
  destruct Inv1 as (I1 & I2 & I3 & I4). rewrite Er in I1. split; [exact I1|]. split; [exact I2|]. split; [exact I3|].
  unfold key_ok in *. cbn [sp_key sp_root]. now rewrite Er in I4.
Qed.
Lemma next_end s l : sinv s l -> sp_next K s = None -> NextNode K compare by_pointer s = Some (s, None).
Proof. intros Inv Hn. unfold NextNode. rewrite Hn. now destruct (sp_root K s). Qed.
Lemma next_keeps s l : sinv s l -> fits l -> exists s' r, NextNode K compare by_pointer s = Some (s', r) /\ sinv s' l.
Proof.
  intros Inv F. unfold NextNode. destruct (sp_root K s) as [|a0 k0 v0 b0] eqn:Er0; [eauto|]. destruct (sp_next K s) as [key|]; [|eauto].
  destruct (SplaySplayTree_ok _ _ key Inv F) as (s' & -> & Inv1 & En & Sh). destruct (sp_root K s') as [|a k v b] eqn:Er; [eauto|].
  eexists _, _. split; [reflexivity|]. destruct Inv1 as (I1 & I2 & I3 & I4). rewrite Er in I1. split; [exact I1|]. split; [exact I2|]. split; [exact I3|].
  unfold key_ok in *. cbn [sp_key sp_root]. now rewrite Er in I4.
Qed.

Lemma by_value_ok value : forall Q fuel s P, sinv s (P ++ Q) -> fits (P ++ Q) -> length Q <= fuel ->
  Forall (fun e => snd e <> value) P ->
  exists s' l', let r := match find (fun e => (snd e =? value)%N) (P ++ Q) with Some (k, _) => Some k | None => None end in
    by_value_loop K compare by_pointer fuel s (head_key Q) value = Some (s', r) /\ sinv s' l' /\ length l' <= length (P ++ Q) /\
    (forall x, amap l' x = match r with Some k => fm_remove K compare (amap (P ++ Q)) k x | None => amap (P ++ Q) x end).
Proof.
  induction Q as [|[k v] Q IH]; intros fuel s P Inv F Hf Np; cbv zeta.
  - assert (Fn : forall l, Forall (fun e => snd e <> value) l -> find (fun e : elt => (snd e =? value)%N) l = None).
    { intros l X. induction X as [|e l X1 X2 IH2]; [reflexivity|]. cbn [find]. now replace (snd e =? value)%N with false by lia. }
    rewrite app_nil_r in *. rewrite (Fn _ Np). destruct fuel; cbn [by_value_loop head_key]; (exists s, P; auto).
  - destruct fuel as [|fuel]; [cbn [length] in Hf; lia|]. cbn [by_value_loop head_key].
    destruct (splay_present _ _ _ _ _ Inv F) as (s1 & a & b & E1 & Inv1 & En & Er & Ea & Eb). rewrite E1, Er.
    destruct (N.eqb_spec v value) as [->|Nv].
    + destruct (splay_present _ _ _ _ _ Inv1 F) as (s2 & a2 & b2 & E2 & Inv2 & En2 & Er2 & Ea2 & Eb2). rewrite E2.
      assert (Ff : find (fun e : elt => (snd e =? value)%N) (P ++ (k, value) :: Q) = Some (k, value)).
      { clear -Np. induction Np as [|e l X1 X2 IH2]; cbn [app find]; [cbn [snd]; now rewrite N.eqb_refl|]. now replace (snd e =? value)%N with false by lia. }
      rewrite Ff. eexists _, (P ++ Q). split; [reflexivity|]. split.
      * apply clear_key_inv in Inv2. rewrite <- Ea2, <- Eb2 in *. eapply remove_root_inv; [exact Inv2 | exact Er2].
      * split; [rewrite !app_length; cbn [length]; lia|]. apply amap_remove; [apply Inv | apply cmp_refl].
    + rewrite first_key_ok, Eb. replace (P ++ (k, v) :: Q) with ((P ++ [(k, v)]) ++ Q) in * by (now rewrite <- app_assoc).
      destruct (IH fuel s1 (P ++ [(k, v)]) Inv1 F ltac:(cbn [length] in Hf; lia)) as (s' & l' & X).
      * apply Forall_app. split; [exact Np|]. now constructor.
      * exists s', l'. exact X.
Qed.

Lemma clone_add clone C k v : sinv clone C -> fits C -> Forall (fun e => (compare (fst e) k < 0)%Z) C ->
  exists clone', AddValueToSplayTree K compare by_pointer true clone k v = Some (clone', true) /\ sinv clone' (C ++ [(k, v)]).
Proof.
  intros Inv F Fo. destruct (add_ok true clone C k v Inv F) as (c' & l' & E1 & Inv' & _ & _ & Up).
  replace (match amap C k with Some _ => true | None => true end) with true in * by (now destruct (amap C k)).
  exists c'. split; [exact E1|].
  assert (So : sorted (C ++ [(k, v)])) by (apply sorted_intro; [apply Inv | constructor | exact Fo | constructor]).
  assert (l' = C ++ [(k, v)]) as <-; [|exact Inv'].
  assert (Ab : amap C k = None).
  { destruct (amap C k) as [e|] eqn:Ea; [|reflexivity]. exfalso. apply (amap_spec _ (proj1 (proj2 Inv))) in Ea. destruct Ea as [I Z].
    eapply Forall_forall in Fo; [|exact I]. cbn in Fo. apply cmp_eq in Z. lia. }
  assert (Mem : forall e, In e l' <-> In e (C ++ [(k, v)])).
  { assert (A : forall e, In e l' <-> amap l' (fst e) = Some e).
    { intros e. rewrite (amap_spec l' (proj1 (proj2 Inv'))). split; [intros I; split; [exact I | apply cmp_refl] | tauto]. }
    intros [x w]. rewrite A, Up. unfold fm_put. cbn [fst]. destruct (same K compare x k) eqn:Sx; unfold same in Sx.
    - split; [intros [= -> ->]; apply in_or_app; right; now left|]. intros I. apply in_app_or in I. destruct I as [I|[I|[]]]; [|now injection I as -> ->].
      eapply Forall_forall in Fo; [|exact I]. cbn in Fo. lia.
    - rewrite (amap_spec _ (proj1 (proj2 Inv))). cbn [fst]. split; [intros [I _]; apply in_or_app; now left|].
      intros I. apply in_app_or in I. destruct I as [I|[I|[]]]; [split; [exact I | apply cmp_refl]|]. injection I as -> ->. pose proof (cmp_refl x). lia. }
  clear -ord Mem So Inv'. destruct Inv' as (_ & So' & _ & _). revert Mem So So'. generalize (C ++ [(k, v)]) as m. intros m.
  revert m. induction l' as [|e l' IH]; intros m Mem Sm Sl.
  - destruct m as [|e m]; [reflexivity|]. exfalso. apply (Mem e). now left.
  - destruct m as [|e' m]; [exfalso; apply (Mem e); now left|].
    apply StronglySorted_inv in Sm, Sl. destruct Sm as [Sm Fm], Sl as [Sl Fl].
    assert (irr : forall x, ~ before K compare x x) by (intros x X; unfold before in X; pose proof (cmp_refl (fst x)); lia).
    assert (asym : forall x y, before K compare x y -> before K compare y x -> False).
    { intros x y X Y. apply (irr x). unfold before in *. eapply cmp_lt_trans; eauto. }
    assert (e = e') as <-.
    { destruct (proj1 (Mem e) (or_introl eq_refl)) as [X|X]; [now symmetry|].
      destruct (proj2 (Mem e') (or_introl eq_refl)) as [Y|Y]; [exact Y|]. exfalso.
      eapply Forall_forall in Fm; [|exact X]. eapply Forall_forall in Fl; [|exact Y]. eapply asym; eauto. }
    f_equal. apply IH; [|exact Sm | exact Sl]. intros x. specialize (Mem x). cbn [In] in Mem.
    split; intros I.
    + destruct (proj1 Mem (or_intror I)) as [<-|Y]; [|exact Y]. exfalso. eapply Forall_forall in Fl; [|exact I]. now apply irr in Fl.
    + destruct (proj2 Mem (or_intror I)) as [<-|Y]; [|exact Y]. exfalso. eapply Forall_forall in Fm; [|exact I]. now apply irr in Fm.
Qed.

Lemma clone_ok (ck : K -> K) (cv : N -> N) : (forall a b, (compare a b < 0)%Z -> (compare (ck a) (ck b) < 0)%Z) ->
  forall Q fuel s P clone, sinv s (P ++ Q) -> fits (P ++ Q) -> length Q <= fuel ->
  sinv clone (map (fun e => (ck (fst e), cv (snd e))) P) ->
  exists s' clone', clone_loop K compare by_pointer fuel ck cv (fun _ => true) s (head_key Q) clone = Some (s', clone') /\
    sinv s' (P ++ Q) /\ sp_next K s' = sp_next K s /\ sinv clone' (map (fun e => (ck (fst e), cv (snd e))) (P ++ Q)).
Proof.
  intros Mono. induction Q as [|[k v] Q IH]; intros fuel s P clone Inv F Hf Ic.
  - rewrite app_nil_r in *. destruct fuel; cbn [clone_loop head_key]; (exists s, clone; auto).
  - destruct fuel as [|fuel]; [cbn [length] in Hf; lia|]. cbn [clone_loop head_key].
    destruct (splay_present _ _ _ _ _ Inv F) as (s1 & a & b & E1 & Inv1 & En & Er & Ea & Eb). rewrite E1, Er.
    destruct (clone_add clone _ (ck k) (cv v) Ic) as (c' & Ec & Ic').
    + unfold fits in *. rewrite map_length. rewrite app_length in F. generalize dependent (2 ^ 1024)%N. intros; lia.
    + pose proof Inv as (_ & So & _ & _). apply sorted_parts in So. destruct So as (_ & _ & Fl & _). apply Forall_map.
      eapply Forall_impl; [|exact Fl]. intros e X. cbn [fst]. now apply Mono.
    + rewrite Ec, first_key_ok, Eb. replace (P ++ (k, v) :: Q) with ((P ++ [(k, v)]) ++ Q) in * by (now rewrite <- app_assoc).
      destruct (IH fuel s1 (P ++ [(k, v)]) c' Inv1 F ltac:(cbn [length] in Hf; lia)) as (s' & c2 & X1 & X2 & X3 & X4).
      * rewrite map_app. exact Ic'.
      * exists s', c2. rewrite <- En. auto.
Qed.

(** ** histories *)
Lemma step_ok s l o : sinv s l -> fits l ->
  exists s' r l', sstep K compare by_pointer s o = Some (s', r) /\ sinv s' l' /\ length l' <= S (length l) /\
    fm_step K compare (amap l) o r (amap l').
Proof.
  intros Inv F. destruct o as [mem k v|k|k|k|v|v| | | | | ]; cbn [sstep fm_step].
  - destruct (add_ok mem s l k v Inv F) as (s' & l' & E1 & I1 & Ln & _ & Up). rewrite E1. cbn [out].
    eexists _, _, l'. split; [reflexivity|]. split; [exact I1|]. split; [exact Ln|].
    destruct (amap l k) as [e|]; [split; [reflexivity | exact Up]|]. destruct mem; [split; [reflexivity | exact Up]|]. subst l'. auto.
  - destruct (get_ok s l k Inv F) as (s' & E1 & I1 & _). rewrite E1. eexists _, _, l. split; [reflexivity|]. auto.
  - destruct (take_ok s l k Inv F) as (s' & l' & E1 & I1 & Ln & Up). unfold RemoveNodeFromSplayTree. rewrite E1.
    exists s', (SVal K (fm_get K (amap l) k)), l'. split; [unfold fm_get; destruct (amap l k) as [[? ?]|]; reflexivity|]. split; [exact I1|]. split; [lia|]. auto.
  - destruct (take_ok s l k Inv F) as (s' & l' & E1 & I1 & Ln & Up). unfold DeleteNodeFromSplayTree. rewrite E1.
    exists s', (SBool K (fm_has K (amap l) k)), l'. split; [unfold fm_has; destruct (amap l k) as [[? ?]|]; reflexivity|]. split; [exact I1|]. split; [lia|]. auto.
  - pose proof Inv as (Ei & So & _ & _). destruct (by_value_ok v l (size (sp_root K s)) s [] Inv F) as (s' & l' & E1 & I1 & Ln & Up); [rewrite <- Ei, inorder_length; lia | constructor|].
    unfold RemoveNodeByValueFromSplayTree. rewrite first_key_ok, Ei. cbn [app] in *. rewrite E1. cbn [out].
    eexists _, _, l'. split; [reflexivity|]. split; [exact I1|]. split; [lia|].
    eexists. split; [exists l; split; [now apply amap_bindings | reflexivity]|]. split; [reflexivity | exact Up].
  - pose proof Inv as (Ei & So & _ & _). destruct (by_value_ok v l (size (sp_root K s)) s [] Inv F) as (s' & l' & E1 & I1 & Ln & Up); [rewrite <- Ei, inorder_length; lia | constructor|].
    unfold DeleteNodeByValueFromSplayTree. rewrite first_key_ok, Ei. cbn [app] in *. rewrite E1. cbn [out].
    set (q := match find _ l with Some (k, _) => Some k | None => None end) in *.
    exists s', (SBool K (match q with Some _ => true | None => false end)), l'. split; [now destruct q|]. split; [exact I1|]. split; [lia|].
    exists q. split; [exists l; split; [now apply amap_bindings | reflexivity]|]. split; [reflexivity | exact Up].
  - destruct (next_keeps s l Inv F) as (s' & r & E1 & I1). unfold GetNextKeyInSplayTree. rewrite E1. eexists _, _, l. split; [reflexivity|]. auto.
  - destruct (next_keeps s l Inv F) as (s' & r & E1 & I1). unfold GetNextValueInSplayTree. rewrite E1. eexists _, _, l. split; [reflexivity|]. auto.
  - eexists _, _, l. split; [reflexivity|]. split; [exact Inv | auto].
  - eexists _, _, []. split; [reflexivity|]. split; [split; [reflexivity|]; split; [constructor|]; split; [reflexivity | exact Logic.I]|]. split; [cbn; lia|]. auto.
  - eexists _, _, l. split; [reflexivity|]. split; [exact Inv|]. split; [lia|]. split; [|reflexivity]. exists l. split; [apply amap_bindings; apply Inv|].
    unfold GetNumberOfNodesInSplayTree. now rewrite (proj1 (proj2 (proj2 Inv))).
Qed.

Lemma run_ok : forall ops s l, sinv s l -> (N.of_nat (length l + length ops) < 2 ^ 1024)%N ->
  exists s' rs l', srun K compare by_pointer s ops = Some (s', rs) /\ sinv s' l' /\ length l' <= length l + length ops /\
    fm_run K compare (amap l) ops rs (amap l').
Proof.
  induction ops as [|o ops IH]; intros s l Inv F.
  - exists s, [], l. split; [reflexivity|]. split; [exact Inv|]. split; [lia | constructor].
  - cbn [length] in F. assert (Fl : fits l) by (unfold fits; generalize dependent (2 ^ 1024)%N; intros; lia).
    destruct (step_ok s l o Inv Fl) as (s1 & r & l1 & E1 & I1 & Ln & St).
    destruct (IH s1 l1 I1) as (s2 & rs & l2 & E2 & I2 & Ln2 & Rn); [generalize dependent (2 ^ 1024)%N; intros; lia|].
    cbn [srun]. rewrite E1, E2. exists s2, (r :: rs), l2. split; [reflexivity|]. split; [exact I2|]. split; [cbn [length]; lia|]. econstructor; eauto.
Qed.

Lemma new_inv : sinv (NewSplayTree K) [].
Proof. split; [reflexivity|]. split; [constructor|]. split; [reflexivity | exact Logic.I]. Qed.

Lemma reading_ok l : fits l -> forall ops s P Q, sinv s l -> l = P ++ Q -> sp_next K s = head_key Q ->
  forallb (reading K) ops = true ->
  exists s', srun K compare by_pointer s ops = Some (s', answers K (amap l) (N.of_nat (length l)) Q ops) /\ sinv s' l.
Proof.
  intros F. induction ops as [|o ops IH]; intros s P Q Inv El Hn Hr; [exists s; auto|].
  cbn [forallb] in Hr. apply andb_prop in Hr. destruct Hr as [Ho Hr]. cbn [srun].
  assert (Nx : exists s1 P', NextNode K compare by_pointer s = Some (s1, hd_error Q) /\ sinv s1 l /\ l = P' ++ tl Q /\ sp_next K s1 = head_key (tl Q)).
  { destruct Q as [|[k v] Q]; cbn [head_key] in Hn.
    - exists s, P. split; [eapply next_end; eauto|]. auto.
    - subst l. destruct (next_ok s P k v Q Inv F Hn) as (s1 & E1 & I1 & N1). exists s1, (P ++ [(k, v)]). split; [exact E1|].
      split; [exact I1|]. split; [now rewrite <- app_assoc | exact N1]. }
  destruct o; try discriminate Ho; cbn [sstep answers].
  - destruct (get_ok s l k Inv F) as (s1 & E1 & I1 & N1). rewrite E1. cbn [out].
    destruct (IH s1 P Q I1 El ltac:(now rewrite N1) Hr) as (s2 & E2 & I2). rewrite E2. exists s2. auto.
  - destruct Nx as (s1 & P' & E1 & I1 & El1 & N1). unfold GetNextKeyInSplayTree. rewrite E1. cbn [out].
    destruct (IH s1 P' (tl Q) I1 El1 N1 Hr) as (s2 & E2 & I2). rewrite E2. exists s2. split; [|exact I2]. destruct Q as [|[? ?] ?]; reflexivity.
  - destruct Nx as (s1 & P' & E1 & I1 & El1 & N1). unfold GetNextValueInSplayTree. rewrite E1. cbn [out].
    destruct (IH s1 P' (tl Q) I1 El1 N1 Hr) as (s2 & E2 & I2). rewrite E2. exists s2. split; [|exact I2]. destruct Q as [|[? ?] ?]; reflexivity.
  - destruct (IH s P Q Inv El Hn Hr) as (s2 & E2 & I2). rewrite E2. exists s2. split; [|exact I2]. unfold GetNumberOfNodesInSplayTree.
    now rewrite (proj1 (proj2 (proj2 Inv))).
Qed.
End Order.
