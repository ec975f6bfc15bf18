(** Writing into a chunk, splitting, joining and marking chunks keep the invariant. *)
From Coq Require Import Arith NArith ZArith Bool List Lia Sorted ZifyBool ZifyNat ZifyN.
From Verif Require Import Outcome PoolModel PoolProof PoolProof2.
Import ListNotations.
Local Open Scope N_scope.
Ltac Zify.zify_post_hook ::= Z.div_mod_to_equations.

Lemma inv_frame m bl mp ch L m' : Inv m bl mp ch L ->
  (forall a c p, ch a = Some c ->
     match c_kind c with
     | Loose | Raw => False
     | Used => p = a - 8
     | Free => p = a - 8 \/ p = a + c_size c - 16 \/ p = a \/ p = a + 8
     | End => p = a - 8 \/ p = a + 8
     end -> m' p = m p) -> Inv m' bl mp ch L.
Proof.
  intros I F. constructor.
  - exact (i_al _ _ _ _ _ I).
  - exact (i_sz _ _ _ _ _ I).
  - exact (i_in _ _ _ _ _ I).
  - exact (i_dj _ _ _ _ _ I).
  - intros a c C. pose proof (i_hd _ _ _ _ _ I _ _ C) as H. pose proof (F a c (a - 8) C) as G. destruct (c_kind c); auto; rewrite G; auto.
  - intros a c C K. pose proof (i_ft _ _ _ _ _ I _ _ C K) as H. rewrite (F a c) ; [assumption|assumption|]. rewrite K. auto.
  - intros a c C K. rewrite (F a c); [exact (i_en _ _ _ _ _ I _ _ C K)|assumption|]. rewrite K. auto.
  - exact (i_nx _ _ _ _ _ I).
  - exact (i_pv _ _ _ _ _ I).
  - exact (i_co _ _ _ _ _ I).
  - exact (i_ls _ _ _ _ _ I).
  - exact (i_nd _ _ _ _ _ I).
  - exact (i_so _ _ _ _ _ I).
  - intros i Hi. eapply chain_frame; [|exact (i_dl _ _ _ _ _ I i Hi)]. intros x X. apply (i_ls _ _ _ _ _ I) in X as (d & X & K & _).
    split; apply (F x d); auto; rewrite K; auto.
  - exact (i_se _ _ _ _ _ I).
Qed.
(** a word of a chunk that means nothing to the allocator *)
Lemma write_own m bl mp ch L a c p v : Inv m bl mp ch L -> ch a = Some c ->
  match c_kind c with Loose | Raw => a - 8 <= p | Used => a <= p | _ => False end -> p + 8 < a + extent c -> Inv (upd m p v) bl mp ch L.
Proof.
  intros I C K P. apply (inv_frame m); [assumption|]. intros x d q X Q. apply upd_other.
  pose proof (i_al _ _ _ _ _ I _ _ X). pose proof (i_sz _ _ _ _ _ I _ _ X) as Z. pose proof (i_al _ _ _ _ _ I _ _ C).
  destruct (N.eq_dec x a) as [->|Nx].
  - rewrite C in X. injection X as <-. destruct (c_kind c); try contradiction. lia.
  - assert (a - 8 <= p) by (destruct (c_kind c); lia).
    assert (x - 8 <= q /\ q + 8 < x + extent d) as [Q1 Q2] by (unfold extent; destruct (c_kind d); cbn [ending] in *; lia).
    apply (apart _ _ _ _ _ x d a c q p I X C Nx); assumption.
Qed.

Definition plain_kind (k : kind) : Prop := k = Used \/ k = Loose.
Lemma plain_ending k : plain_kind k -> ending k = false. Proof. intros [-> | ->]; reflexivity. Qed.

(** no chunk begins inside another *)
Lemma nothing_inside m bl mp ch L a c x : Inv m bl mp ch L -> ch a = Some c -> a < x -> x < a + extent c -> ch x = None.
Proof. intros I C X1 X2. destruct (ch x) as [d|] eqn:X; [|reflexivity]. pose proof (i_dj _ _ _ _ _ I _ _ _ _ C X X1). lia. Qed.

(** one before the other *)
Lemma before m bl mp ch L a c x d : Inv m bl mp ch L -> ch a = Some c -> ch x = Some d -> x <> a -> ending (c_kind c) = false -> ending (c_kind d) = false ->
  x + c_size d <> a + c_size c.
Proof.
  intros I C X Nx E1 E2 Q. destruct (free_facts _ _ _ _ _ _ _ I C E1) as (? & ? & ? & ? & Z1). destruct (free_facts _ _ _ _ _ _ _ I X E2) as (? & ? & ? & ? & Z2).
  destruct (N.lt_total a x) as [Ht|[Ht|Ht]]; [|congruence|].
  - pose proof (i_dj _ _ _ _ _ I _ _ _ _ C X Ht). lia.
  - pose proof (i_dj _ _ _ _ _ I _ _ _ _ X C Ht). lia.
Qed.

Ltac look x a H := destruct (N.eq_dec x a) as [->|H]; [rewrite ?set_same in * | rewrite ?(set_other _ a _ x) in * by assumption].

Lemma split_ok m bl mp ch L a s pv n : Inv m bl mp ch L -> ch a = Some (mkChunk s Loose pv) -> n mod 32 = 0 -> 32 <= n -> n < s ->
  Inv m bl mp (set (set ch a (Some (mkChunk n Loose pv))) (a + n) (Some (mkChunk (s - n) Loose false))) L.
Proof.
  intros I C N1 N2 N3. set (ch' := set _ (a + n) _).
  destruct (free_facts _ _ _ _ _ _ _ I C eq_refl) as (A1 & A2 & S1 & S2 & Ex). cbn [c_size] in *.
  assert (ch (a + n) = None) as No by (apply (nothing_inside _ _ _ _ _ _ _ _ I C); lia).
  assert (ch' a = Some (mkChunk n Loose pv)) as Ha by (unfold ch'; rewrite set_other by lia; apply set_same).
  assert (ch' (a + n) = Some (mkChunk (s - n) Loose false)) as Hb by apply set_same.
  assert (forall x, x <> a -> x <> a + n -> ch' x = ch x) as Hx by (intros; unfold ch'; rewrite !set_other; auto).
  assert (forall x d, ch' x = Some d -> (x = a /\ d = mkChunk n Loose pv) \/ (x = a + n /\ d = mkChunk (s - n) Loose false) \/ (x <> a /\ x <> a + n /\ ch x = Some d)) as Inv'.
  { intros x d X. destruct (N.eq_dec x a) as [->|]; [left; split; congruence|]. destruct (N.eq_dec x (a + n)) as [->|]; [right; left; split; congruence|]. rewrite Hx in X by assumption. auto. }
  assert (forall x d, ch' x = Some d -> c_kind d <> Loose -> ch x = Some d) as Same.
  { intros x d X Nl. apply Inv' in X as [(-> & ->)|[(-> & ->)|(_ & _ & X)]]; cbn in *; congruence. }
  assert (forall x d, ch x = Some d -> c_kind d <> Loose -> ch' x = Some d) as Same'.
  { intros x d X Nl. rewrite Hx; [assumption| |]; intros ->; [rewrite C in X; injection X as <-; auto|congruence]. }
  constructor.
  - intros x d X. apply Inv' in X as [(-> & ->)|[(-> & ->)|(_ & _ & X)]]; [lia|lia|exact (i_al _ _ _ _ _ I _ _ X)].
  - intros x d X. apply Inv' in X as [(-> & ->)|[(-> & ->)|(_ & _ & X)]]; cbn; [lia|lia|exact (i_sz _ _ _ _ _ I _ _ X)].
  - intros x d p X P1 P2 P3. apply Inv' in X as [(-> & ->)|[(-> & ->)|(_ & _ & X)]]; unfold extent in P2; cbn [c_kind ending c_size] in P2; [| |exact (i_in _ _ _ _ _ I _ _ _ X P1 P2 P3)];
      apply (i_in _ _ _ _ _ I _ _ _ C); lia.
  - intros x d y e X Y Lt. apply Inv' in X as [(-> & ->)|[(-> & ->)|(Nx1 & Nx2 & X)]]; apply Inv' in Y as [(-> & ->)|[(-> & ->)|(Ny1 & Ny2 & Y)]]; unfold extent at 1; cbn [c_kind ending c_size]; try lia.
    + pose proof (i_dj _ _ _ _ _ I _ _ _ _ C Y Lt). lia.
    + assert (a < y) as Lt' by lia. pose proof (i_dj _ _ _ _ _ I _ _ _ _ C Y Lt'). lia.
    + exact (i_dj _ _ _ _ _ I _ _ _ _ X C Lt).
    + destruct (N.lt_total a x) as [Q|[Q|Q]]; [|congruence|]; [pose proof (i_dj _ _ _ _ _ I _ _ _ _ C X Q); lia|]. pose proof (i_dj _ _ _ _ _ I _ _ _ _ X C Q) as W. unfold extent in W at 1. lia.
    + exact (i_dj _ _ _ _ _ I _ _ _ _ X Y Lt).
  - intros x d X. apply Inv' in X as [(-> & ->)|[(-> & ->)|(_ & _ & X)]]; cbn; trivial. exact (i_hd _ _ _ _ _ I _ _ X).
  - intros x d X K. apply Same in X; [|congruence]. exact (i_ft _ _ _ _ _ I _ _ X K).
  - intros x d X K. apply Same in X; [|congruence]. exact (i_en _ _ _ _ _ I _ _ X K).
  - intros x d X E. apply Inv' in X as [(-> & ->)|[(-> & ->)|(Nx1 & Nx2 & X)]]; cbn [c_size c_kind used].
    + eexists. split; [exact Hb|reflexivity].
    + destruct (i_nx _ _ _ _ _ I _ _ C eq_refl) as (e & Y & P). cbn [c_size c_kind used] in *. replace (a + n + (s - n)) with (a + s) by lia. exists e. rewrite Hx by lia. auto.
    + destruct (i_nx _ _ _ _ _ I _ _ X E) as (e & Y & P). destruct (N.eq_dec (x + c_size d) a) as [Q|Nq].
      * rewrite Q in *. rewrite C in Y. injection Y as <-. cbn [c_prev] in P. eexists. split; [exact Ha|]. exact P.
      * exists e. rewrite Hx; [auto|assumption|]. intros Q. rewrite Q in Y. congruence.
  - intros x d X P. apply Inv' in X as [(-> & ->)|[(-> & ->)|(Nx1 & Nx2 & X)]]; cbn [c_prev] in P.
    + subst pv. destruct (i_pv _ _ _ _ _ I _ _ C eq_refl) as (p & e & Y & U & S). assert (p <> a) by (intros ->; rewrite C in Y; injection Y as <-; cbn in S; lia).
      exists p, e. rewrite Hx; [auto|assumption|]. intros ->. congruence.
    + exists a, (mkChunk n Loose pv). auto.
    + destruct (i_pv _ _ _ _ _ I _ _ X P) as (p & e & Y & U & S). destruct (N.eq_dec p a) as [->|Np].
      * rewrite C in Y. injection Y as <-. cbn [c_size] in S. exists (a + n), (mkChunk (s - n) Loose false). split; [exact Hb|]. split; [reflexivity|]. cbn [c_size]. lia.
      * exists p, e. rewrite Hx; [auto|assumption|]. intros ->. congruence.
  - intros x d e X K Y. apply Same in X; [|congruence]. intros Ke. apply Same in Y; [|congruence]. exact (i_co _ _ _ _ _ I _ _ _ X K Y Ke).
  - intros i x. rewrite (i_ls _ _ _ _ _ I). split; intros (d & X & K & P); exists d; (split; [|auto]).
    + apply Same'; [assumption|congruence].
    + apply Same; [assumption|congruence].
  - exact (i_nd _ _ _ _ _ I).
  - intros i. pose proof (i_so _ _ _ _ _ I i) as So. assert (forall x, In x (L i) -> size_at ch' x = size_at ch x) as Sa.
    { intros x X. apply (i_ls _ _ _ _ _ I) in X as (d & X & K & _). unfold size_at. rewrite X. rewrite (Same' _ _ X); [reflexivity|congruence]. }
    induction So as [|x l S IH F]; constructor; [apply IH; intros; apply Sa; now right|].
    rewrite Forall_forall in *. intros y Y. rewrite !Sa by (try (now left); now right). now apply F.
  - exact (i_dl _ _ _ _ _ I).
  - exact (i_se _ _ _ _ _ I).
Qed.

Lemma merge_ok m bl mp ch L a s1 k1 pv s2 k2 pv2 : Inv m bl mp ch L -> ch a = Some (mkChunk s1 k1 pv) -> ch (a + s1) = Some (mkChunk s2 k2 pv2) ->
  plain_kind k1 -> plain_kind k2 ->
  Inv (upd m (a - 8) (s1 + s2 + b2n pv)) bl mp (set (set ch (a + s1) None) a (Some (mkChunk (s1 + s2) k2 pv))) L.
Proof.
  intros I C1 C2 K1 K2. set (ch' := set _ a _). set (m' := upd _ _ _).
  destruct (free_facts _ _ _ _ _ _ _ I C1 (plain_ending _ K1)) as (A1 & A2 & S1 & S2 & Ex1). destruct (free_facts _ _ _ _ _ _ _ I C2 (plain_ending _ K2)) as (B1 & B2 & S3 & S4 & Ex2). cbn [c_size] in *.
  assert (extent (mkChunk (s1 + s2) k2 pv) = s1 + s2) as Ex3 by (unfold extent; cbn [c_kind]; now rewrite (plain_ending _ K2)).
  assert (ch' a = Some (mkChunk (s1 + s2) k2 pv)) as Ha by apply set_same.
  assert (ch' (a + s1) = None) as Hb by (unfold ch'; rewrite set_other by lia; apply set_same).
  assert (forall x, x <> a -> x <> a + s1 -> ch' x = ch x) as Hx by (intros; unfold ch'; rewrite !set_other; auto).
  assert (forall x d, ch' x = Some d -> (x = a /\ d = mkChunk (s1 + s2) k2 pv) \/ (x <> a /\ x <> a + s1 /\ ch x = Some d)) as Inv'.
  { intros x d X. destruct (N.eq_dec x a) as [->|]; [left; split; congruence|]. destruct (N.eq_dec x (a + s1)) as [->|]; [congruence|]. rewrite Hx in X by assumption. auto. }
  assert (forall x d, ch' x = Some d -> ~ plain_kind (c_kind d) -> ch x = Some d) as Same.
  { intros x d X Nl. apply Inv' in X as [(-> & ->)|(_ & _ & X)]; cbn in *; tauto. }
  assert (forall x d, ch x = Some d -> ~ plain_kind (c_kind d) -> ch' x = Some d) as Same'.
  { intros x d X Nl. rewrite Hx; [assumption| |]; intros ->; [rewrite C1 in X|rewrite C2 in X]; injection X as <-; auto. }
  assert (forall x d p, ch x = Some d -> x <> a -> x - 8 <= p -> p + 8 < x + extent d -> m' p = m p) as Fr.
  { intros x d p X Nx P1 P2. apply upd_other. apply (apart _ _ _ _ _ x d a _ p (a - 8) I X C1 Nx P1 P2); lia. }
  assert (~ plain_kind Free) as NF by (intros [Q|Q]; discriminate). assert (~ plain_kind End) as NE by (intros [Q|Q]; discriminate).
  constructor.
  - intros x d X. apply Inv' in X as [(-> & ->)|(_ & _ & X)]; [lia|exact (i_al _ _ _ _ _ I _ _ X)].
  - intros x d X. apply Inv' in X as [(-> & ->)|(_ & _ & X)]; [cbn [c_kind c_size]; rewrite (plain_ending _ K2); lia|exact (i_sz _ _ _ _ _ I _ _ X)].
  - intros x d p X P1 P2 P3. apply Inv' in X as [(-> & ->)|(_ & _ & X)]; [|exact (i_in _ _ _ _ _ I _ _ _ X P1 P2 P3)]. rewrite Ex3 in P2.
    destruct (N.lt_ge_cases p (a + s1 - 8)); [apply (i_in _ _ _ _ _ I _ _ _ C1)|apply (i_in _ _ _ _ _ I _ _ _ C2)]; lia.
  - intros x d y e X Y Lt. apply Inv' in X as [(-> & ->)|(Nx1 & Nx2 & X)]; apply Inv' in Y as [(-> & ->)|(Ny1 & Ny2 & Y)]; try lia.
    + rewrite Ex3. pose proof (i_dj _ _ _ _ _ I _ _ _ _ C1 Y Lt). assert (a + s1 < y) as Lt' by lia. pose proof (i_dj _ _ _ _ _ I _ _ _ _ C2 Y Lt'). lia.
    + exact (i_dj _ _ _ _ _ I _ _ _ _ X C1 Lt).
    + exact (i_dj _ _ _ _ _ I _ _ _ _ X Y Lt).
  - intros x d X. apply Inv' in X as [(-> & ->)|(Nx & _ & X)].
    + cbn [c_kind c_size c_prev]. destruct K2 as [-> | ->]; [apply upd_same|trivial].
    + pose proof (i_hd _ _ _ _ _ I _ _ X) as H. pose proof (i_al _ _ _ _ _ I _ _ X). pose proof (i_sz _ _ _ _ _ I _ _ X) as Z.
      assert (m' (x - 8) = m (x - 8)) as -> by (apply (Fr x d); auto; unfold extent; destruct (ending (c_kind d)); lia). exact H.
  - intros x d X K. apply Same in X; [|now rewrite K]. assert (x <> a) as Nx by (intros ->; rewrite C1 in X; injection X as <-; cbn in K; subst; tauto).
    destruct (free_facts _ _ _ _ _ _ _ I X ltac:(now rewrite K)) as (? & ? & ? & ? & ?). rewrite (Fr x d); auto; try lia. exact (i_ft _ _ _ _ _ I _ _ X K).
  - intros x d X K. apply Same in X; [|now rewrite K]. assert (x <> a) as Nx by (intros ->; rewrite C1 in X; injection X as <-; cbn in K; subst; tauto).
    rewrite (Fr x d); auto; try lia; [exact (i_en _ _ _ _ _ I _ _ X K)|]. unfold extent. rewrite K. cbn [ending]. lia.
  - intros x d X E. apply Inv' in X as [(-> & ->)|(Nx1 & Nx2 & X)]; cbn [c_size c_kind].
    + destruct (i_nx _ _ _ _ _ I _ _ C2 (plain_ending _ K2)) as (e & Y & P). cbn [c_size c_kind] in *. rewrite N.add_assoc. exists e. rewrite Hx by lia. auto.
    + destruct (i_nx _ _ _ _ _ I _ _ X E) as (e & Y & P).
      destruct (N.eq_dec (x + c_size d) a) as [Q|Nq].
      * rewrite Q in *. rewrite C1 in Y. injection Y as <-. cbn [c_prev] in P. eexists. split; [exact Ha|]. exact P.
      * exists e. rewrite Hx; [auto|assumption|]. exact (before _ _ _ _ _ _ _ _ _ I C1 X Nx1 (plain_ending _ K1) E).
  - intros x d X P. apply Inv' in X as [(-> & ->)|(Nx1 & Nx2 & X)]; cbn [c_prev] in P.
    + subst pv. destruct (i_pv _ _ _ _ _ I _ _ C1 eq_refl) as (p & e & Y & U & S). assert (p <> a) by (intros ->; rewrite C1 in Y; injection Y as <-; cbn in S; lia).
      exists p, e. rewrite Hx; [auto|assumption|]. lia.
    + destruct (i_pv _ _ _ _ _ I _ _ X P) as (p & e & Y & U & S). destruct (N.eq_dec p a) as [->|Np].
      * rewrite C1 in Y. injection Y as <-. cbn [c_size] in S. congruence.
      * destruct (N.eq_dec p (a + s1)) as [->|Np2].
        -- rewrite C2 in Y. injection Y as <-. cbn [c_size c_kind] in *. exists a, (mkChunk (s1 + s2) k2 pv). cbn [c_size c_kind]. repeat split; auto. lia.
        -- exists p, e. rewrite Hx; auto.
  - intros x d e X K Y. apply Same in X; [|now rewrite K]. intros Ke. apply Same in Y; [|now rewrite Ke]. exact (i_co _ _ _ _ _ I _ _ _ X K Y Ke).
  - intros i x. rewrite (i_ls _ _ _ _ _ I). split; intros (d & X & K & P); exists d; (split; [|auto]).
    + apply Same'; [assumption|now rewrite K].
    + apply Same; [assumption|now rewrite K].
  - exact (i_nd _ _ _ _ _ I).
  - intros i. pose proof (i_so _ _ _ _ _ I i) as So. assert (forall x, In x (L i) -> size_at ch' x = size_at ch x) as Sa.
    { intros x X. apply (i_ls _ _ _ _ _ I) in X as (d & X & K & _). unfold size_at. rewrite X. rewrite (Same' _ _ X); [reflexivity|now rewrite K]. }
    induction So as [|x l S IH F]; constructor; [apply IH; intros; apply Sa; now right|].
    rewrite Forall_forall in *. intros y Y. rewrite !Sa by (try (now left); now right). now apply F.
  - intros i Hi. eapply chain_frame; [|exact (i_dl _ _ _ _ _ I i Hi)]. intros x X. apply (i_ls _ _ _ _ _ I) in X as (d & X & K & _).
    assert (x <> a) as Nx by (intros ->; rewrite C1 in X; injection X as <-; cbn in K; subst; tauto).
    destruct (free_facts _ _ _ _ _ _ _ I X ltac:(now rewrite K)) as (? & ? & ? & ? & ?). split; apply (Fr x d); auto; lia.
  - exact (i_se _ _ _ _ _ I).
Qed.

Lemma mark_ok m bl mp ch L a s k pv d k' : Inv m bl mp ch L -> ch a = Some (mkChunk s k pv) -> plain_kind k -> plain_kind k' ->
  ch (a + s) = Some d -> c_kind d <> Loose -> c_kind d <> Raw -> (k' = Used -> m (a - 8) = s + b2n pv) ->
  Inv (upd m (a + s - 8) (c_size d + b2n (used k'))) bl mp
    (set (set ch a (Some (mkChunk s k' pv))) (a + s) (Some (mkChunk (c_size d) (c_kind d) (used k')))) L.
Proof.
  intros I C K K' D Nl Nr Hh. set (ch' := set _ (a + s) _). set (m' := upd _ _ _).
  destruct (free_facts _ _ _ _ _ _ _ I C (plain_ending _ K)) as (A1 & A2 & S1 & S2 & Ex1). cbn [c_size] in *.
  pose proof (i_al _ _ _ _ _ I _ _ D) as [B1 B2]. pose proof (i_sz _ _ _ _ _ I _ _ D) as Zd.
  assert (32 <= extent d \/ c_kind d = End /\ extent d = 24) as Ed by (unfold extent; destruct (c_kind d); cbn [ending] in *; auto; try (left; lia); congruence).
  assert (ch' a = Some (mkChunk s k' pv)) as Ha by (unfold ch'; rewrite set_other by lia; apply set_same).
  assert (ch' (a + s) = Some (mkChunk (c_size d) (c_kind d) (used k'))) as Hb by apply set_same.
  assert (forall x, x <> a -> x <> a + s -> ch' x = ch x) as Hx by (intros; unfold ch'; rewrite !set_other; auto).
  assert (forall x e, ch' x = Some e -> exists e0, ch x = Some e0 /\ c_size e = c_size e0 /\ extent e = extent e0 /\ ending (c_kind e) = ending (c_kind e0) /\
    (x <> a -> c_kind e = c_kind e0) /\ (x <> a + s -> c_prev e = c_prev e0)) as Old.
  { intros x e X. destruct (N.eq_dec x a) as [->|].
    - rewrite Ha in X. injection X as <-. eexists. split; [exact C|]. unfold extent. cbn [c_size c_kind c_prev]. rewrite (plain_ending _ K), (plain_ending _ K'). repeat split; congruence.
    - destruct (N.eq_dec x (a + s)) as [->|]; [|rewrite Hx in X by assumption; exists e; repeat split; auto].
      rewrite Hb in X. injection X as <-. exists d. unfold extent. cbn [c_size c_kind c_prev]. repeat split; auto; congruence. }
  assert (forall x e0, ch x = Some e0 -> exists e, ch' x = Some e /\ c_size e = c_size e0 /\ (x <> a -> c_kind e = c_kind e0) /\ (x <> a + s -> c_prev e = c_prev e0)) as New.
  { intros x e X. destruct (N.eq_dec x a) as [->|].
    - rewrite C in X. injection X as <-. eexists. split; [exact Ha|]. cbn. repeat split; congruence.
    - destruct (N.eq_dec x (a + s)) as [->|]; [|exists e; rewrite Hx; auto].
      rewrite D in X. injection X as <-. eexists. split; [exact Hb|]. cbn. repeat split; congruence. }
  assert (forall x e p, ch x = Some e -> x - 8 <= p -> p + 8 < x + extent e -> p <> a + s - 8 -> m' p = m p) as Fr by (intros; now apply upd_other).
  assert (forall x e p, ch x = Some e -> x <> a + s -> x - 8 <= p -> p + 8 < x + extent e -> m' p = m p) as Fr'.
  { intros x e p X Nx P1 P2. apply upd_other. apply (apart _ _ _ _ _ x e (a + s) d p (a + s - 8) I X D Nx P1 P2); lia. }
  constructor.
  - intros x e X. apply Old in X as (e0 & X0 & _). eauto using (i_al _ _ _ _ _ I).
  - intros x e X. apply Old in X as (e0 & X0 & S0 & _ & E0 & _). rewrite S0, E0. exact (i_sz _ _ _ _ _ I _ _ X0).
  - intros x e p X. apply Old in X as (e0 & X0 & _ & E0 & _). rewrite E0. exact (i_in _ _ _ _ _ I _ _ _ X0).
  - intros x e y f X Y. apply Old in X as (e0 & X0 & _ & E0 & _). apply Old in Y as (f0 & Y0 & _). rewrite E0. exact (i_dj _ _ _ _ _ I _ _ _ _ X0 Y0).
  - intros x e X. destruct (N.eq_dec x a) as [->|Nx]; [|destruct (N.eq_dec x (a + s)) as [->|Nx2]].
    + rewrite Ha in X. injection X as <-. cbn [c_kind c_size c_prev]. destruct K' as [-> | ->]; [|trivial]. rewrite <- (Hh eq_refl). apply (Fr' a _ _ C); lia.
    + rewrite Hb in X. injection X as <-. cbn [c_kind c_size c_prev]. destruct (c_kind d); trivial; apply upd_same.
    + rewrite Hx in X by assumption. pose proof (i_hd _ _ _ _ _ I _ _ X) as H. pose proof (i_al _ _ _ _ _ I _ _ X). pose proof (i_sz _ _ _ _ _ I _ _ X) as Z.
      assert (m' (x - 8) = m (x - 8)) as -> by (apply (Fr' x e); auto; unfold extent; destruct (ending (c_kind e)); lia). exact H.
  - intros x e X Ke. pose proof X as X'. apply Old in X' as (e0 & X0 & S0 & _ & _ & K0 & _).
    assert (x <> a) as Nx by (intros ->; rewrite Ha in X; injection X as <-; cbn in Ke; subst; destruct K'; discriminate).
    rewrite (K0 Nx) in Ke. rewrite S0. destruct (free_facts _ _ _ _ _ _ _ I X0 ltac:(now rewrite Ke)) as (? & ? & ? & ? & ?).
    rewrite <- (i_ft _ _ _ _ _ I _ _ X0 Ke) at 2. destruct (N.eq_dec x (a + s)) as [->|]; [apply upd_other; lia|apply (Fr' x e0); auto; lia].
  - intros x e X Ke. pose proof X as X'. apply Old in X' as (e0 & X0 & S0 & _ & _ & K0 & _).
    assert (x <> a) as Nx by (intros ->; rewrite Ha in X; injection X as <-; cbn in Ke; subst; destruct K'; discriminate).
    rewrite (K0 Nx) in Ke. rewrite <- (i_en _ _ _ _ _ I _ _ X0 Ke). assert (extent e0 = 24) by (unfold extent; now rewrite Ke).
    destruct (N.eq_dec x (a + s)) as [->|]; [apply upd_other; lia|apply (Fr' x e0); auto; lia].
  - intros x e X E. destruct (N.eq_dec x a) as [->|Nx].
    + rewrite Ha in X. injection X as <-. cbn [c_size c_kind]. eexists. split; [exact Hb|reflexivity].
    + apply Old in X as (e0 & X0 & S0 & _ & E0 & K0 & _). rewrite (K0 Nx), S0. rewrite E0 in E.
      destruct (i_nx _ _ _ _ _ I _ _ X0 E) as (f & Y & P). apply New in Y as (f' & Y' & _ & _ & P'). exists f'. split; [assumption|]. rewrite P'; [assumption|].
      exact (before _ _ _ _ _ _ _ _ _ I C X0 Nx (plain_ending _ K) E).
  - intros x e X P. destruct (N.eq_dec x (a + s)) as [->|Nx].
    + rewrite Hb in X. injection X as <-. cbn [c_prev] in P. exists a, (mkChunk s k' pv). auto.
    + apply Old in X as (e0 & X0 & S0 & _ & E0 & K0 & P0). rewrite (P0 Nx) in P. destruct (i_pv _ _ _ _ _ I _ _ X0 P) as (p & f & Y & U & S).
      assert (p <> a) as Np by (intros ->; rewrite C in Y; injection Y as <-; cbn in S; congruence).
      apply New in Y as (f' & Y' & S' & K1 & _). exists p, f'. rewrite S', (K1 Np). auto.
  - intros x e f X Ke Y Kf. assert (x <> a) as Nx by (intros ->; rewrite Ha in X; injection X as <-; cbn in Ke; subst; destruct K'; discriminate).
    assert (x + c_size e <> a) as Nx2 by (intros Q; rewrite Q in Y; rewrite Ha in Y; injection Y as <-; cbn in Kf; subst; destruct K'; discriminate).
    apply Old in X as (e0 & X0 & S0 & _ & E0 & K0 & P0). apply Old in Y as (f0 & Y0 & _ & _ & _ & K1 & _). rewrite (K0 Nx) in Ke. rewrite (K1 Nx2) in Kf. rewrite S0 in Y0. exact (i_co _ _ _ _ _ I _ _ _ X0 Ke Y0 Kf).
  - intros i x. rewrite (i_ls _ _ _ _ _ I). split; intros (e & X & Ke & P).
    + assert (x <> a) as Nx by (intros ->; rewrite C in X; injection X as <-; cbn in Ke; subst; destruct K; discriminate).
      apply New in X as (e' & X' & S' & K1 & _). exists e'. rewrite S', (K1 Nx). auto.
    + assert (x <> a) as Nx by (intros ->; rewrite Ha in X; injection X as <-; cbn in Ke; subst; destruct K'; discriminate).
      apply Old in X as (e' & X' & S' & _ & _ & K1 & _). exists e'. rewrite <- S', <- (K1 Nx). auto.
  - exact (i_nd _ _ _ _ _ I).
  - intros i. pose proof (i_so _ _ _ _ _ I i) as So. assert (forall x, size_at ch' x = size_at ch x) as Sa.
    { intros x. unfold size_at. destruct (ch x) as [e|] eqn:X; [apply New in X as (e' & -> & -> & _); reflexivity|]. destruct (ch' x) as [e|] eqn:X'; [|reflexivity]. apply Old in X' as (e0 & X0 & _). congruence. }
    induction So as [|x l S IH F]; constructor; [assumption|]. eapply Forall_impl; [|exact F]. cbv beta. intros y. now rewrite !Sa.
  - intros i Hi. eapply chain_frame; [|exact (i_dl _ _ _ _ _ I i Hi)]. intros x X. apply (i_ls _ _ _ _ _ I) in X as (e & X & Ke & _).
    destruct (free_facts _ _ _ _ _ _ _ I X ltac:(now rewrite Ke)) as (? & ? & ? & ? & ?).
    destruct (N.eq_dec x (a + s)) as [->|]; [split; apply upd_other; lia|split; apply (Fr' x e); auto; lia].
  - exact (i_se _ _ _ _ _ I).
Qed.

(** the places of the chunks: the first chunk of a segment starts 32 bytes behind its
    beginning, the last one ends 40 bytes before its end, and no chunk spans two segments *)
Record Shape (mp : list (N * N)) (ch : heap) : Prop := {
  h_aw : forall s l s' l', In (s, l) mp -> In (s', l') mp -> (s = s' /\ l = l') \/ s + l <= s' \/ s' + l' <= s;
  h_fi : forall s l, In (s, l) mp -> 128 <= l /\ exists c, ch (s + 32) = Some c /\ ending (c_kind c) = false;
  h_in : forall x c, ch x = Some c -> exists s l, In (s, l) mp /\ s + 32 <= x /\ (if ending (c_kind c) then x = s + l - 64 else x + c_size c <= s + l - 64) }.
Lemma shape_set mp ch a c c' : Shape mp ch -> ch a = Some c -> c_size c' = c_size c -> ending (c_kind c') = ending (c_kind c) -> Shape mp (set ch a (Some c')).
Proof.
  intros H C S E. constructor; [exact (h_aw _ _ H)| |].
  - intros s l I. destruct (h_fi _ _ H s l I) as (G & d & D & K). split; [assumption|]. destruct (N.eq_dec (s + 32) a) as [Q|Q].
    + exists c'. rewrite Q, set_same. split; [reflexivity|]. rewrite Q in D. congruence.
    + exists d. now rewrite set_other.
  - intros x d. destruct (N.eq_dec x a) as [->|Nx].
    + rewrite set_same. intros Q. injection Q as <-. destruct (h_in _ _ H a c C) as (s & l & I & J & K). exists s, l. rewrite S, E. auto.
    + rewrite set_other by assumption. apply (h_in _ _ H).
Qed.
Lemma shape_split mp ch a s k pv n k1 pv1 k2 pv2 : Shape mp ch -> ch a = Some (mkChunk s k pv) -> plain_kind k -> plain_kind k1 -> plain_kind k2 -> n <= s -> 0 < n ->
  Shape mp (set (set ch a (Some (mkChunk n k1 pv1))) (a + n) (Some (mkChunk (s - n) k2 pv2))).
Proof.
  intros H C Kk K1 K2 Ns Np. apply plain_ending in Kk, K1, K2. constructor; [exact (h_aw _ _ H)| |].
  - intros b l I. destruct (h_fi _ _ H b l I) as (G & d & D & K). split; [assumption|]. destruct (N.eq_dec (b + 32) (a + n)) as [Q|Q].
    + eexists. rewrite Q, set_same. split; [reflexivity|]. exact K2.
    + rewrite set_other by assumption. destruct (N.eq_dec (b + 32) a) as [Q2|Q2]; [eexists; rewrite Q2, set_same; split; [reflexivity|exact K1]|]. exists d. now rewrite set_other.
  - destruct (h_in _ _ H a _ C) as (b & l & I & J & K). cbn [c_kind c_size] in K. rewrite Kk in K.
    intros x d. destruct (N.eq_dec x (a + n)) as [->|Nx]; [|rewrite set_other by assumption; destruct (N.eq_dec x a) as [->|Nx2]; [|rewrite set_other by assumption; apply (h_in _ _ H)]];
      rewrite set_same; intros Q; injection Q as <-; exists b, l; cbn [c_kind c_size]; rewrite ?K1, ?K2; (split; [assumption|]); lia.
Qed.
Lemma shape_merge mp ch a s1 k1 pv1 s2 k2 pv2 k pv : Shape mp ch -> ch a = Some (mkChunk s1 k1 pv1) -> ch (a + s1) = Some (mkChunk s2 k2 pv2) ->
  plain_kind k1 -> plain_kind k2 -> plain_kind k -> 0 < s1 -> Shape mp (set (set ch (a + s1) None) a (Some (mkChunk (s1 + s2) k pv))).
Proof.
  intros H C1 C2 K1 K2 K Sp. apply plain_ending in K1, K2, K.
  destruct (h_in _ _ H a _ C1) as (b & l & I & J & Q). cbn [c_kind c_size] in Q. rewrite K1 in Q.
  destruct (h_in _ _ H _ _ C2) as (b2 & l2 & I2 & J2 & Q2). cbn [c_kind c_size] in Q2. rewrite K2 in Q2.
  constructor; [exact (h_aw _ _ H)| |].
  - intros b' l' I'. destruct (h_fi _ _ H b' l' I') as (G & d & D & Kd). split; [assumption|]. destruct (N.eq_dec (b' + 32) a) as [E|E].
    + eexists. rewrite E, set_same. split; [reflexivity|]. exact K.
    + rewrite set_other by assumption. rewrite set_other; [eauto|]. intros E2. destruct (h_aw _ _ H b l b' l' I I'); lia.
  - intros x d. destruct (N.eq_dec x a) as [->|Nx].
    + rewrite set_same. intros X. injection X as <-. cbn [c_kind c_size]. rewrite K. exists b2, l2. split; [assumption|]. destruct (h_aw _ _ H b l b2 l2 I I2); lia.
    + rewrite set_other by assumption. destruct (N.eq_dec x (a + s1)) as [->|Ny]; [rewrite set_same; discriminate|]. rewrite set_other by assumption. apply (h_in _ _ H).
Qed.
