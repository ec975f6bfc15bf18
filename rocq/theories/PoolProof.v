(** Representation invariant of the allocator of PoolModel: which chunks there are, and
    what of each is in memory. *)
From Coq Require Import Arith NArith ZArith Bool List Lia Sorted ZifyBool ZifyNat ZifyN.
From Verif Require Import Outcome PoolModel.
Import ListNotations.
Local Open Scope N_scope.
Ltac Zify.zify_post_hook ::= Z.div_mod_to_equations.

(** Raw: the end of a segment before its words are written; Loose: free, but in no list *)
Inductive kind := Free | Used | Loose | End | Raw.
Record chunk := mkChunk { c_size : N; c_kind : kind; c_prev : bool }.
Definition used (k : kind) : bool := match k with Used | End | Raw => true | Free | Loose => false end.
Definition ending (k : kind) : bool := match k with End | Raw => true | _ => false end.
Definition extent (c : chunk) : N := if ending (c_kind c) then 24 else c_size c.
Definition b2n (b : bool) : N := if b then 1 else 0.
Definition heap := N -> option chunk.
Definition set (ch : heap) (a : N) (c : option chunk) : heap := fun x => if x =? a then c else ch x.
Definition size_at (ch : heap) (a : N) : N := match ch a with Some c => c_size c | None => 0 end.

Fixpoint chain (m : N -> N) (prev head : N) (l : list N) (next : N) : Prop :=
  match l with
  | [] => head = next
  | a :: l => head = a /\ m (a + 8) = prev /\ chain m a (m a) l next
  end.

Record Inv (m bl : N -> N) (mp : list (N * N)) (ch : heap) (L : N -> list N) : Prop := mkInv {
  i_al : forall a c, ch a = Some c -> a mod 16 = 0 /\ 16 <= a;
  i_sz : forall a c, ch a = Some c -> if ending (c_kind c) then c_size c = 16 else c_size c mod 32 = 0 /\ 32 <= c_size c;
  i_in : forall a c p, ch a = Some c -> a - 8 <= p -> p + 16 <= a + extent c -> p mod 8 = 0 -> inside mp p = true;
  i_dj : forall a c a' c', ch a = Some c -> ch a' = Some c' -> a < a' -> a + extent c <= a';
  i_hd : forall a c, ch a = Some c -> match c_kind c with Loose | Raw => True | _ => m (a - 8) = c_size c + b2n (c_prev c) end;
  i_ft : forall a c, ch a = Some c -> c_kind c = Free -> m (a + c_size c - 16) = c_size c;
  i_en : forall a c, ch a = Some c -> c_kind c = End -> m (a + 8) = 1;
  i_nx : forall a c, ch a = Some c -> ending (c_kind c) = false -> exists d, ch (a + c_size c) = Some d /\ c_prev d = used (c_kind c);
  i_pv : forall a c, ch a = Some c -> c_prev c = false -> exists p d, ch p = Some d /\ used (c_kind d) = false /\ p + c_size d = a;
  i_co : forall a c d, ch a = Some c -> c_kind c = Free -> ch (a + c_size c) = Some d -> c_kind d <> Free;
  i_ls : forall i a, In a (L i) <-> exists c, ch a = Some c /\ c_kind c = Free /\ policy (c_size c) = i;
  i_nd : forall i, NoDup (L i);
  i_so : forall i, StronglySorted (fun x y => size_at ch x <= size_at ch y) (L i);
  i_dl : forall i, i < 49 -> chain m 0 (bl i) (L i) 0;
  i_se : bl 49 <> 0 }.
Definition Good (st : pool) := Inv (mem st) (blocks st) (mapped st).

Lemma upd_same m p v : upd m p v p = v. Proof. unfold upd. now rewrite N.eqb_refl. Qed.
Lemma upd_other m p v q : q <> p -> upd m p v q = m q. Proof. unfold upd. intros H. destruct (N.eqb_spec q p); [congruence|reflexivity]. Qed.
Lemma set_same ch a c : set ch a c a = c. Proof. unfold set. now rewrite N.eqb_refl. Qed.
Lemma set_other ch a c x : x <> a -> set ch a c x = ch x. Proof. unfold set. intros H. destruct (N.eqb_spec x a); [congruence|reflexivity]. Qed.

(** regions of different chunks have no word in common *)
Lemma apart m bl mp ch L a c a' c' p q : Inv m bl mp ch L -> ch a = Some c -> ch a' = Some c' -> a <> a' ->
  a - 8 <= p -> p + 8 < a + extent c -> a' - 8 <= q -> q + 8 < a' + extent c' -> p <> q.
Proof.
  intros I C C' N P1 P2 Q1 Q2 ->. pose proof (i_al _ _ _ _ _ I _ _ C). pose proof (i_al _ _ _ _ _ I _ _ C').
  destruct (N.lt_total a a') as [H1|[H1|H1]]; [|lia|].
  - pose proof (i_dj _ _ _ _ _ I _ _ _ _ C C' H1). lia.
  - pose proof (i_dj _ _ _ _ _ I _ _ _ _ C' C H1). lia.
Qed.

(** * the policy *)
Lemma halvings_ge fuel : forall s i, i <= halvings fuel s i.
Proof. induction fuel as [|fuel IH]; intros s i; cbn [halvings]; [lia|]. destruct (1024 <? s); [|lia]. specialize (IH (s / 2) (i + 1)). lia. Qed.
Lemma halvings_mono fuel : forall s s' i, s <= s' -> halvings fuel s i <= halvings fuel s' i.
Proof.
  induction fuel as [|fuel IH]; intros s s' i H; cbn [halvings]; [lia|]. destruct (N.ltb_spec 1024 s), (N.ltb_spec 1024 s'); try lia.
  - apply IH. lia.
  - pose proof (halvings_ge fuel (s' / 2) (i + 1)). lia.
Qed.
Lemma halvings_le : forall k fuel s i, s <= 1024 * 2 ^ N.of_nat k -> halvings fuel s i <= i + N.of_nat k.
Proof.
  induction k as [|k IH]; intros fuel s i H; destruct fuel as [|fuel]; cbn [halvings]; try lia; destruct (N.ltb_spec 1024 s); try lia.
  replace (N.of_nat (S k)) with (1 + N.of_nat k) in * by lia. rewrite N.pow_add_r in H. change (2 ^ 1) with 2 in H. specialize (IH fuel (s / 2) (i + 1)). 
  assert (s / 2 <= 1024 * 2 ^ N.of_nat k) as G by (generalize dependent (2 ^ N.of_nat k); intros; lia). specialize (IH G). lia.
Qed.
Lemma policy_bound s : policy s < 49.
Proof.
  unfold policy, MaxBlocks. destruct (N.leb_spec s 1024); [lia|]. destruct (N.ltb_spec 33554432 s); [lia|].
  pose proof (halvings_le 15 16 s 32). change (1024 * 2 ^ N.of_nat 15) with 33554432 in *. lia.
Qed.
Lemma policy_mono s s' : s <= s' -> policy s <= policy s'.
Proof.
  intros H. unfold policy, MaxBlocks. destruct (N.leb_spec s 1024), (N.leb_spec s' 1024); try lia.
  - destruct (N.ltb_spec 33554432 s'); [lia|]. pose proof (halvings_ge 16 s' 32). lia.
  - destruct (N.ltb_spec 33554432 s), (N.ltb_spec 33554432 s'); try lia.
    + pose proof (halvings_le 15 16 s 32). change (1024 * 2 ^ N.of_nat 15) with 33554432 in *. lia.
    + now apply halvings_mono.
Qed.
(** the assertions at 341 and 342 *)
Lemma policy_assert s : 1024 < s -> s <= 33554432 -> 32 < policy s < 48.
Proof.
  intros H1 H2. unfold policy, MaxBlocks. destruct (N.leb_spec s 1024); [lia|]. destruct (N.ltb_spec 33554432 s); [lia|]. split.
  - change (halvings 16 s 32) with (if 1024 <? s then halvings 15 (s / 2) (32 + 1) else 32). destruct (N.ltb_spec 1024 s); [|lia]. pose proof (halvings_ge 15 (s / 2) (32 + 1)). lia.
  - pose proof (halvings_le 15 16 s 32). change (1024 * 2 ^ N.of_nat 15) with 33554432 in *. lia.
Qed.
Lemma policy_ok s : s mod 32 = 0 -> 32 <= s -> AllocationPolicy s = Ok (policy s).
Proof. intros H1 H2. unfold AllocationPolicy. destruct (N.eqb_spec s 0); [lia|]. rewrite H1. reflexivity. Qed.

(** * chains *)
Lemma chain_app m : forall l1 l2 p h n, chain m p h (l1 ++ l2) n <-> exists k, chain m p h l1 k /\ chain m (last l1 p) k l2 n.
Proof.
  induction l1 as [|a l1 IH]; intros l2 p h n.
  - cbn. split; [intros H; exists h; tauto|intros (k & -> & H); exact H].
  - cbn [app chain]. rewrite IH. replace (last (a :: l1) p) with (last l1 a).
    2:{ clear. revert a p. induction l1 as [|x l1 IH]; intros a p; [reflexivity|]. change (last (a :: x :: l1) p) with (last (x :: l1) p). now rewrite <- (IH x p), <- (IH x a). }
    split; [intros (H1 & H2 & k & H3 & H4)|intros (k & (H1 & H2 & H3) & H4)]; [exists k|]; try tauto. split; [tauto|]. split; [tauto|]. exists k. tauto.
Qed.
Lemma chain_frame m m' : forall l p h n, (forall x, In x l -> m' x = m x /\ m' (x + 8) = m (x + 8)) -> chain m p h l n -> chain m' p h l n.
Proof.
  induction l as [|a l IH]; intros p h n F; cbn [chain]; [tauto|]. intros (-> & H2 & H3).
  destruct (F a (or_introl eq_refl)) as [-> ->]. split; [reflexivity|]. split; [assumption|]. apply IH; [|assumption]. intros x X. apply F. now right.
Qed.
(** another way out: the last element's word *)
Lemma chain_exit m l p h n n' : l <> [] -> NoDup l -> Forall (fun a => a mod 16 = 0) l -> chain m p h l n -> chain (upd m (last l 0) n') p h l n'.
Proof.
  intros E D M C. destruct (exists_last E) as (l' & x & ->). rewrite last_last. apply chain_app in C as (k & C1 & C2).
  apply chain_app. exists k. apply NoDup_remove in D as [D1 D2]. rewrite app_nil_r in D1, D2. rewrite Forall_app in M. destruct M as [M1 M2]. inversion M2; subst.
  split.
  - eapply chain_frame; [|exact C1]. intros y Y. rewrite Forall_forall in M1. specialize (M1 _ Y). rewrite !upd_other; [tauto| |]; [lia|]. intros ->. contradiction.
  - cbn [chain] in *. destruct C2 as (-> & Q2 & Q3). rewrite upd_same. rewrite upd_other by lia. tauto.
Qed.
(** another way in *)
Lemma chain_entry m a l p p' h n : ~ In a l -> Forall (fun a => a mod 16 = 0) (a :: l) -> chain m p h (a :: l) n -> chain (upd m (a + 8) p') p' h (a :: l) n.
Proof.
  intros D M (-> & H2 & H3). inversion M as [|? ? M1 M2]; subst. cbn [chain]. rewrite upd_same. rewrite (upd_other _ _ _ a) by lia. split; [reflexivity|]. split; [reflexivity|].
  eapply chain_frame; [|exact H3]. intros y Y. rewrite Forall_forall in M2. specialize (M2 _ Y). rewrite !upd_other; [tauto| |lia]. intros K. assert (y = a) by lia. congruence.
Qed.

Lemma size_mask_eq n b : n mod 32 = 0 -> size_mask (n + b2n b) = n.
Proof. intros H. unfold size_mask. destruct b; cbn [b2n]; lia. Qed.
Lemma previous_bit_eq n b : n mod 32 = 0 -> previous_bit (n + b2n b) = b2n b.
Proof. intros H. unfold previous_bit. destruct b; cbn [b2n]; lia. Qed.

(** * a chunk goes into a list or comes out of it *)
Lemma relink m bl mp ch L a c k' m' bl' L' : Inv m bl mp ch L -> ch a = Some c ->
  c_kind c = Free \/ c_kind c = Loose -> k' = Free \/ k' = Loose ->
  (forall p, (forall x d, ch x = Some d -> c_kind d = Free \/ x = a -> p <> x /\ p <> x + 8) -> m' p = m p) ->
  let ch' := set ch a (Some (mkChunk (c_size c) k' (c_prev c))) in
  (k' = Free -> m (a - 8) = c_size c + b2n (c_prev c) /\ m (a + c_size c - 16) = c_size c /\
     (forall d, ch (a + c_size c) = Some d -> c_kind d <> Free) /\
     (forall p d, ch p = Some d -> c_kind d = Free -> p + c_size d <> a)) ->
  (forall i x, In x (L' i) <-> exists d, ch' x = Some d /\ c_kind d = Free /\ policy (c_size d) = i) ->
  (forall i, NoDup (L' i)) ->
  (forall i, StronglySorted (fun x y => size_at ch x <= size_at ch y) (L' i)) ->
  (forall i, i < 49 -> chain m' 0 (bl' i) (L' i) 0) -> bl' 49 <> 0 -> Inv m' bl' mp ch' L'.
Proof.
  intros I C K K' F ch' HF Hls Hnd Hso Hdl Hse.
  pose proof (i_al _ _ _ _ _ I) as Al. pose proof (i_sz _ _ _ _ _ I) as Sz.
  assert (forall x d, ch' x = Some d -> exists d0, ch x = Some d0 /\ c_size d = c_size d0 /\ c_prev d = c_prev d0 /\ extent d = extent d0 /\
            used (c_kind d) = used (c_kind d0) /\ ending (c_kind d) = ending (c_kind d0) /\ (x <> a -> d = d0)) as Old.
  { intros x d X. unfold ch' in X. destruct (N.eq_dec x a) as [->|Na].
    - rewrite set_same in X. injection X as <-. exists c. cbn [c_size c_prev c_kind]. unfold extent. cbn [c_size c_kind].
      destruct K as [K|K], K' as [-> | ->]; rewrite K; cbn [used ending]; repeat split; try reflexivity; try assumption; congruence.
    - rewrite set_other in X by assumption. exists d. repeat split; auto. }
  assert (forall x d0, ch x = Some d0 -> exists d, ch' x = Some d /\ c_size d = c_size d0 /\ c_prev d = c_prev d0 /\ used (c_kind d) = used (c_kind d0) /\ (x <> a -> d = d0)) as New.
  { intros x d X. unfold ch'. destruct (N.eq_dec x a) as [->|Na].
    - rewrite C in X. injection X as <-. rewrite set_same. eexists. split; [reflexivity|]. cbn [c_size c_prev c_kind].
      destruct K as [K|K], K' as [-> | ->]; rewrite K; cbn [used]; repeat split; congruence.
    - exists d. rewrite set_other by assumption. repeat split; auto. }
  assert (c_size c mod 32 = 0 /\ 32 <= c_size c /\ extent c = c_size c) as (Z1 & Z2 & Z3).
  { pose proof (Sz _ _ C) as Z. unfold extent. destruct K as [K|K]; rewrite K in *; cbn [ending] in *; tauto. }
  (* words that are no links *)
  assert (forall x d p, ch x = Some d -> x - 8 <= p -> p + 8 < x + extent d -> c_kind d <> Free -> x <> a -> m' p = m p) as F1.
  { intros x d p X P1 P2 Nf Na. apply F. intros y e Y E. assert (x <> y) as Ny.
    { destruct E as [E | ->]; [|assumption]. intros ->. congruence. }
    pose proof (Sz _ _ Y) as Zy. assert (extent e = c_size e /\ 32 <= c_size e) as [E1 E2].
    { unfold extent. destruct E as [E | ->]; [rewrite E in *; cbn [ending] in *; lia|]. rewrite C in Y. injection Y as <-. split; [exact Z3|lia]. }
    pose proof (Al _ _ Y). split; [apply (apart _ _ _ _ _ x d y e p y I X Y Ny P1 P2); lia | apply (apart _ _ _ _ _ x d y e p (y + 8) I X Y Ny P1 P2); lia]. }
  assert (forall x d p, ch x = Some d -> c_kind d = Free \/ x = a -> p = x - 8 \/ p = x + c_size d - 16 -> m' p = m p) as F2.
  { intros x d p X D P. apply F. intros y e Y E.
    assert (forall z f, ch z = Some f -> c_kind f = Free \/ z = a -> extent f = c_size f /\ 32 <= c_size f) as W.
    { intros z f Z E'. pose proof (Sz _ _ Z) as Zy. unfold extent. destruct E' as [E' | ->]; [rewrite E' in *; cbn [ending] in *; lia|]. rewrite C in Z. injection Z as <-. split; [exact Z3|lia]. }
    destruct (W _ _ X D), (W _ _ Y E). pose proof (Al _ _ X). pose proof (Al _ _ Y).
    destruct (N.eq_dec x y) as [->|Nxy]; [rewrite X in Y; injection Y as <-; lia|].
    split; [apply (apart _ _ _ _ _ x d y e p y I X Y Nxy); lia | apply (apart _ _ _ _ _ x d y e p (y + 8) I X Y Nxy); lia]. }
  constructor.
  - intros x d X. apply Old in X as (d0 & X0 & _). eauto.
  - intros x d X. apply Old in X as (d0 & X0 & S0 & _ & _ & _ & E0 & _). rewrite S0, E0. exact (Sz _ _ X0).
  - intros x d p X. apply Old in X as (d0 & X0 & _ & _ & E0 & _). rewrite E0. intros. eapply i_in; eauto.
  - intros x d y e X Y. apply Old in X as (d0 & X0 & _ & _ & E0 & _). apply Old in Y as (e0 & Y0 & _). rewrite E0. intros. eapply i_dj; eauto.
  - intros x d X. destruct (N.eq_dec x a) as [->|Na].
    + unfold ch' in X. rewrite set_same in X. injection X as <-. cbn [c_kind c_size c_prev]. destruct K' as [-> | ->]; [|trivial].
      destruct (HF eq_refl) as (H1 & _). rewrite <- H1. apply (F2 a c); auto.
    + unfold ch' in X. rewrite set_other in X by assumption. pose proof (i_hd _ _ _ _ _ I _ _ X) as H. pose proof (Al _ _ X). pose proof (Sz _ _ X) as Zx. unfold extent in *.
      destruct (c_kind d) eqn:Kd; cbn [ending] in Zx; try exact Logic.I; rewrite <- H.
      * apply (F2 x d); auto.
      * apply (F1 x d); [assumption| | |congruence|assumption]; try lia. unfold extent. rewrite Kd. cbn [ending]. lia.
      * apply (F1 x d); [assumption| | |congruence|assumption]; try lia. unfold extent. rewrite Kd. cbn [ending]. lia.
  - intros x d X Kd. destruct (N.eq_dec x a) as [->|Na].
    + unfold ch' in X. rewrite set_same in X. injection X as <-. cbn [c_kind c_size c_prev] in *. destruct (HF Kd) as (_ & H1 & _). rewrite <- H1 at 2. apply (F2 a c); auto.
    + unfold ch' in X. rewrite set_other in X by assumption. rewrite <- (i_ft _ _ _ _ _ I _ _ X Kd) at 2. apply (F2 x d); auto.
  - intros x d X Kd. destruct (N.eq_dec x a) as [->|Na].
    + unfold ch' in X. rewrite set_same in X. injection X as <-. cbn [c_kind] in Kd. destruct K'; congruence.
    + unfold ch' in X. rewrite set_other in X by assumption. rewrite <- (i_en _ _ _ _ _ I _ _ X Kd). apply (F1 x d); [assumption|lia| |congruence|assumption].
      unfold extent. rewrite Kd. cbn [ending]. lia.
  - intros x d X Ed. apply Old in X as (d0 & X0 & S0 & P0 & _ & U0 & E0 & _). rewrite S0, U0. rewrite E0 in Ed.
    destruct (i_nx _ _ _ _ _ I _ _ X0 Ed) as (e & Y & Pe). apply New in Y as (e' & Y' & _ & Pe' & _). exists e'. split; [assumption|]. congruence.
  - intros x d X Pd. apply Old in X as (d0 & X0 & S0 & P0 & _). rewrite P0 in Pd. destruct (i_pv _ _ _ _ _ I _ _ X0 Pd) as (p & e & Y & Ue & Se).
    apply New in Y as (e' & Y' & S' & _ & U' & _). exists p, e'. rewrite S', U'. tauto.
  - intros x d e X Kd Y Ke. destruct (N.eq_dec x a) as [->|Na].
    + unfold ch' in X. rewrite set_same in X. injection X as <-. cbn [c_kind c_size] in *. destruct (HF Kd) as (_ & _ & H & _).
      unfold ch' in Y. rewrite set_other in Y by lia. exact (H _ Y Ke).
    + unfold ch' in X. rewrite set_other in X by assumption. unfold ch' in Y. destruct (N.eq_dec (x + c_size d) a) as [E|Na'].
      * rewrite E, set_same in Y. injection Y as <-. cbn [c_kind] in Ke. destruct (HF Ke) as (_ & _ & _ & H). exact (H _ _ X Kd E).
      * rewrite set_other in Y by assumption. exact (i_co _ _ _ _ _ I _ _ _ X Kd Y Ke).
  - exact Hls.
  - exact Hnd.
  - intros i. assert (forall x, size_at ch' x = size_at ch x) as E.
    { intros x. unfold size_at. destruct (ch x) as [d|] eqn:X.
      - apply New in X as (d' & -> & -> & _). reflexivity.
      - unfold ch'. rewrite set_other by congruence. now rewrite X. }
    specialize (Hso i). induction Hso as [|x l H IH G]; constructor; [assumption|]. eapply Forall_impl; [|exact G]. cbv beta. intros y. now rewrite !E.
  - exact Hdl.
  - exact Hse.
Qed.
