(** ExpandHeap keeps the invariant; copying. *)
From Coq Require Import Arith NArith ZArith Bool List Lia Sorted ZifyBool ZifyNat ZifyN.
From Verif Require Import Outcome PoolModel PoolProof PoolProof2 PoolProof3 PoolProof4 PoolProof5.
Import ListNotations.
Local Open Scope N_scope.
Ltac Zify.zify_post_hook ::= Z.div_mod_to_equations.

Definition away (mp : list (N * N)) (sg len : N) : Prop := forall s l, In (s, l) mp -> sg + len <= s \/ s + l <= sg.
Lemma inside_some mp p : inside mp p = true -> exists s l, In (s, l) mp /\ s <= p /\ p + 8 <= s + l.
Proof.
  unfold inside. intros H. apply andb_true_iff in H as [H _]. apply existsb_exists in H as ([s l] & I & H). cbn [fst snd] in H. exists s, l. split; [assumption|]. lia.
Qed.
Lemma inside_new mp sg len p : sg <= p -> p + 8 <= sg + len -> p mod 8 = 0 -> inside (mp ++ [(sg, len)]) p = true.
Proof.
  intros H1 H2 H3. unfold inside. apply andb_true_iff. split; [|lia]. apply existsb_exists. exists (sg, len). split; [apply in_or_app; right; now left|]. cbn [fst snd]. lia.
Qed.
Lemma inside_old mp x p : inside mp p = true -> inside (mp ++ x) p = true.
Proof. unfold inside. rewrite existsb_app. intros H. apply andb_true_iff in H as [-> ->]. reflexivity. Qed.

Definition fresh_heap (ch : heap) (a size e : N) : heap := set (set ch a (Some (mkChunk size Loose true))) e (Some (mkChunk 16 Raw false)).
Lemma extend_ok m bl mp ch L sg len : Inv m bl mp ch L -> away mp sg len -> sg mod 16 = 0 -> len mod 32 = 0 -> 128 <= len ->
  Inv m bl (mp ++ [(sg, len)]) (fresh_heap ch (sg + 32) (len - 96) (sg + len - 64)) L /\ (forall x c, ch x = Some c -> x < sg \/ sg + len <= x).
Proof.
  intros I Aw A1 A2 A3. set (a := sg + 32). set (e := sg + len - 64). set (ch' := fresh_heap ch a (len - 96) e).
  assert (forall p, inside mp p = true -> p + 8 <= sg \/ sg + len <= p) as Out.
  { intros p P. apply inside_some in P as (s & l & P1 & P2 & P3). destruct (Aw s l P1); lia. }
  assert (forall x c, ch x = Some c -> 16 <= x /\ x mod 16 = 0 /\ (x + extent c <= sg + 8 \/ sg + len + 8 <= x) /\ 24 <= extent c /\ extent c mod 8 = 0) as Far.
  { intros x c X. pose proof (i_al _ _ _ _ _ I _ _ X) as [B1 B2]. pose proof (i_sz _ _ _ _ _ I _ _ X) as Z. assert (24 <= extent c /\ extent c mod 8 = 0) as [Ex Ey] by (unfold extent; destruct (ending (c_kind c)); lia).
    split; [assumption|]. split; [assumption|]. split; [|tauto].
    pose proof (i_in _ _ _ _ _ I _ _ (x - 8) X ltac:(lia) ltac:(lia) ltac:(lia)) as P1. apply Out in P1.
    destruct P1 as [P1|P1]; [|right; lia]. left. destruct (N.le_gt_cases (x + extent c) (sg + 8)) as [|Q]; [assumption|]. exfalso.
    pose proof (i_in _ _ _ _ _ I _ _ sg X ltac:(lia) ltac:(lia) ltac:(lia)) as P2. apply Out in P2. lia. }
  split; [|intros x c X; destruct (Far x c X) as (? & ? & [?|?] & ? & ?); lia].
  assert (a < e) as Ae by lia.
  assert (ch' a = Some (mkChunk (len - 96) Loose true)) as Ha by (unfold ch', fresh_heap; rewrite set_other by lia; apply set_same).
  assert (ch' e = Some (mkChunk 16 Raw false)) as He by apply set_same.
  assert (forall x, x <> a -> x <> e -> ch' x = ch x) as Hx by (intros; unfold ch', fresh_heap; rewrite !set_other; auto).
  assert (ch a = None /\ ch e = None) as [Na Ne].
  { split; [destruct (ch a) as [c|] eqn:E|destruct (ch e) as [c|] eqn:E]; try reflexivity; destruct (Far _ _ E) as (? & ? & [?|?] & ? & ?); lia. }
  assert (forall x d, ch' x = Some d -> (x = a /\ d = mkChunk (len - 96) Loose true) \/ (x = e /\ d = mkChunk 16 Raw false) \/ ch x = Some d) as Inv'.
  { intros x d X. destruct (N.eq_dec x a) as [->|]; [left; split; congruence|]. destruct (N.eq_dec x e) as [->|]; [right; left; split; congruence|]. rewrite Hx in X by assumption. auto. }
  assert (forall x d, ch x = Some d -> ch' x = Some d) as Keep by (intros x d X; rewrite Hx; congruence).
  assert (forall x d, ch' x = Some d -> settled_kind (c_kind d) -> ch x = Some d) as Same.
  { intros x d X K. apply Inv' in X as [(-> & ->)|[(-> & ->)|X]]; [destruct K|destruct K|assumption]. }
  constructor.
  - intros x d X. apply Inv' in X as [(-> & ->)|[(-> & ->)|X]]; [lia|lia|exact (i_al _ _ _ _ _ I _ _ X)].
  - intros x d X. apply Inv' in X as [(-> & ->)|[(-> & ->)|X]]; cbn [c_kind ending c_size]; [lia|reflexivity|exact (i_sz _ _ _ _ _ I _ _ X)].
  - intros x d p X P1 P2 P3. apply Inv' in X as [(-> & ->)|[(-> & ->)|X]]; unfold extent in P2; cbn [c_kind ending c_size] in P2; [apply inside_new; lia|apply inside_new; lia|].
    apply inside_old. exact (i_in _ _ _ _ _ I _ _ _ X P1 P2 P3).
  - intros x d y f X Y Lt. apply Inv' in X as [(-> & ->)|[(-> & ->)|X]]; apply Inv' in Y as [(-> & ->)|[(-> & ->)|Y]]; try (exact (i_dj _ _ _ _ _ I _ _ _ _ X Y Lt)); unfold extent at 1; cbn [c_kind ending c_size]; try lia;
      try (destruct (Far _ _ X) as (? & ? & [?|?] & ? & ?); unfold extent in *; lia); destruct (Far _ _ Y) as (? & ? & [?|?] & ? & ?); unfold extent in *; lia.
  - intros x d X. apply Inv' in X as [(-> & ->)|[(-> & ->)|X]]; cbn [c_kind]; trivial. exact (i_hd _ _ _ _ _ I _ _ X).
  - intros x d X K. apply Same in X; [|now rewrite K]. exact (i_ft _ _ _ _ _ I _ _ X K).
  - intros x d X K. apply Same in X; [|now rewrite K]. exact (i_en _ _ _ _ _ I _ _ X K).
  - intros x d X E. apply Inv' in X as [(-> & ->)|[(-> & ->)|X]]; [|discriminate|].
    + exists (mkChunk 16 Raw false). cbn [c_size c_kind used c_prev]. split; [|reflexivity]. replace (a + (len - 96)) with e by lia. exact He.
    + destruct (i_nx _ _ _ _ _ I _ _ X E) as (f & Y & P). exists f. auto.
  - intros x d X P. apply Inv' in X as [(-> & ->)|[(-> & ->)|X]]; [discriminate| |].
    + exists a, (mkChunk (len - 96) Loose true). split; [exact Ha|]. split; [reflexivity|]. cbn [c_size]. lia.
    + destruct (i_pv _ _ _ _ _ I _ _ X P) as (p & f & Y & U & S). exists p, f. auto.
  - intros x d f X K Y Kf. apply Same in X; [|now rewrite K]. apply Same in Y; [|now rewrite Kf]. exact (i_co _ _ _ _ _ I _ _ _ X K Y Kf).
  - intros i x. rewrite (i_ls _ _ _ _ _ I). split; intros (d & X & K & P); exists d; (split; [|auto]); [auto|]. apply Same; [assumption|now rewrite K].
  - exact (i_nd _ _ _ _ _ I).
  - intros i. pose proof (i_so _ _ _ _ _ I i) as So. assert (forall x, In x (L i) -> size_at ch' x = size_at ch x) as Sa.
    { intros x X. apply (i_ls _ _ _ _ _ I) in X as (d & X & K & _). unfold size_at. rewrite X. now rewrite (Keep _ _ X). }
    induction So as [|x l S IH F]; constructor; [apply IH; intros; apply Sa; now right|].
    rewrite Forall_forall in *. intros y Y. rewrite !Sa by (try (now left); now right). now apply F.
  - exact (i_dl _ _ _ _ _ I).
  - exact (i_se _ _ _ _ _ I).
Qed.

Lemma seal_ok m bl mp ch L e pv : Inv m bl mp ch L -> ch e = Some (mkChunk 16 Raw pv) -> m (e - 8) = 16 + b2n pv -> m (e + 8) = 1 ->
  Inv m bl mp (set ch e (Some (mkChunk 16 End pv))) L.
Proof.
  intros I C H1 H2. set (ch' := set ch e _).
  assert (ch' e = Some (mkChunk 16 End pv)) as He by apply set_same.
  assert (forall x, x <> e -> ch' x = ch x) as Hx by (intros; now apply set_other).
  assert (forall x d, ch' x = Some d -> exists d0, ch x = Some d0 /\ c_size d = c_size d0 /\ c_prev d = c_prev d0 /\ extent d = extent d0 /\ used (c_kind d) = used (c_kind d0) /\ ending (c_kind d) = ending (c_kind d0) /\ (c_kind d = Free -> d0 = d)) as Old.
  { intros x d X. destruct (N.eq_dec x e) as [->|]; [|rewrite Hx in X by assumption; exists d; repeat split; auto]. rewrite He in X. injection X as <-. eexists. split; [exact C|]. repeat split; cbn; congruence. }
  assert (forall x d0, ch x = Some d0 -> exists d, ch' x = Some d /\ c_size d = c_size d0 /\ c_prev d = c_prev d0 /\ used (c_kind d) = used (c_kind d0) /\ (c_kind d0 = Free -> d = d0)) as New.
  { intros x d X. destruct (N.eq_dec x e) as [->|]; [|exists d; rewrite Hx; auto]. rewrite C in X. injection X as <-. eexists. split; [exact He|]. repeat split; cbn; congruence. }
  constructor.
  - intros x d X. apply Old in X as (d0 & X & _). exact (i_al _ _ _ _ _ I _ _ X).
  - intros x d X. apply Old in X as (d0 & X & S & _ & _ & _ & E & _). rewrite S, E. exact (i_sz _ _ _ _ _ I _ _ X).
  - intros x d p X. apply Old in X as (d0 & X & _ & _ & E & _). rewrite E. exact (i_in _ _ _ _ _ I _ _ _ X).
  - intros x d y f X Y. apply Old in X as (d0 & X & _ & _ & E & _). apply Old in Y as (f0 & Y & _). rewrite E. exact (i_dj _ _ _ _ _ I _ _ _ _ X Y).
  - intros x d X. destruct (N.eq_dec x e) as [->|]; [rewrite He in X; injection X as <-; exact H1|]. rewrite Hx in X by assumption. exact (i_hd _ _ _ _ _ I _ _ X).
  - intros x d X K. apply Old in X as (d0 & X & _ & _ & _ & _ & _ & E). specialize (E K). subst d0. exact (i_ft _ _ _ _ _ I _ _ X K).
  - intros x d X K. destruct (N.eq_dec x e) as [->|]; [exact H2|]. rewrite Hx in X by assumption. exact (i_en _ _ _ _ _ I _ _ X K).
  - intros x d X E. apply Old in X as (d0 & X & S & _ & _ & U & E0 & _). rewrite E0 in E. destruct (i_nx _ _ _ _ _ I _ _ X E) as (f & Y & P). apply New in Y as (f' & Y & _ & P' & _). exists f'. rewrite S, U. split; [assumption|congruence].
  - intros x d X P. apply Old in X as (d0 & X & _ & P0 & _). rewrite P0 in P. destruct (i_pv _ _ _ _ _ I _ _ X P) as (p & f & Y & U & S). apply New in Y as (f' & Y & S' & _ & U' & _). exists p, f'. rewrite S', U'. auto.
  - intros x d f X K Y Kf. apply Old in X as (d0 & X & _ & _ & _ & _ & _ & E). apply Old in Y as (f0 & Y & _ & _ & _ & _ & _ & E'). specialize (E K). specialize (E' Kf). subst. exact (i_co _ _ _ _ _ I _ _ _ X K Y Kf).
  - intros i x. rewrite (i_ls _ _ _ _ _ I). split; intros (d & X & K & P).
    + apply New in X as (d' & X & _ & _ & _ & E). specialize (E K). subst. exists d. auto.
    + apply Old in X as (d' & X & _ & _ & _ & _ & _ & E). specialize (E K). subst. exists d. auto.
  - exact (i_nd _ _ _ _ _ I).
  - intros i. pose proof (i_so _ _ _ _ _ I i) as So. assert (forall x, size_at ch' x = size_at ch x) as Sa.
    { intros x. unfold size_at. destruct (ch x) as [d|] eqn:X; [apply New in X as (d' & -> & -> & _); reflexivity|]. rewrite Hx by congruence. now rewrite X. }
    induction So as [|x l S IH F]; constructor; [assumption|]. eapply Forall_impl; [|exact F]. cbv beta. intros y. now rewrite !Sa.
  - exact (i_dl _ _ _ _ _ I).
  - exact (i_se _ _ _ _ _ I).
Qed.

Lemma segment_size_ok size : size + 2097247 < 2 ^ 64 -> segment_size size mod 2097152 = 0 /\ size + 96 <= segment_size size < size + 2097248.
Proof.
  change (2 ^ 64) with 18446744073709551616. intros H. unfold segment_size, SegmentSize. change (2 ^ 64) with 18446744073709551616.
  rewrite (N.mod_small (size + 96 + 2097152 - 1)) by lia. lia.
Qed.
Lemma expand_ok fuel st ch L size sg : Good st ch L -> settled ch -> size + 2097247 < 2 ^ 64 -> 1 <= size -> number st < 1024 ->
  away (mapped st) sg (segment_size size) -> sg mod 16 = 0 -> (forall i, length (L i) < fuel)%nat -> exists st' ch' L',
  ExpandHeap fuel size (Some sg) st = Ok (Some st') /\ mapped st' = mapped st ++ [(sg, segment_size size)] /\ number st' = number st + 1 /\ Good st' ch' L' /\ settled ch' /\
  ch' (sg + 32) = Some (mkChunk (segment_size size - 96) Free true) /\ ch' (sg + segment_size size - 64) = Some (mkChunk 16 End false) /\
  (forall x, x <> sg + 32 -> x <> sg + segment_size size - 64 -> ch' x = ch x) /\ ch (sg + 32) = None /\ ch (sg + segment_size size - 64) = None /\
  (forall j, (length (L' j) <= S (length (L j)))%nat) /\
  (forall b s pv p, ch b = Some (mkChunk s Used pv) -> b <= p -> p + 8 < b + s -> mem st' p = mem st p) /\ (Shape (mapped st) ch -> Shape (mapped st') ch').
Proof.
  intros G Se Z1 Z2 Nu Aw A1 Lf. unfold ExpandHeap. cbv zeta. destruct (segment_size_ok size Z1) as [Q1 Q2]. set (len := segment_size size) in *. clearbody len.
  assert (len mod 32 = 0 /\ 2097152 <= len) as [Q3 Q4] by lia. clear Q1 Q2 Z1 Z2.
  destruct (extend_ok _ _ _ _ _ sg len G Aw A1 Q3 ltac:(lia)) as [G0 Far].
  destruct (N.leb_spec 1024 (number st)); [lia|]. clear Nu H.
  set (a := sg + 32) in *. set (s := len - 96) in *. set (e := sg + len - 64) in *. set (ch0 := fresh_heap ch a s e) in *.
  set (st0 := mkPool (mem st) (blocks st) (mapped st ++ [(sg, len)]) (number st + 1)).
  assert (Good st0 ch0 L) as G0' by exact G0. clear G0.
  assert (a + s = e) as Eas by lia. assert (s mod 32 = 0 /\ 32 <= s) as [S1 S2] by lia. assert (16 <= a /\ a mod 16 = 0) as [B1 B2] by lia. assert (e < sg + len) as Eb by lia. assert (e = sg + len - 64 /\ a = sg + 32 /\ 128 <= len) as (De & Da & Dl) by lia.
  assert (ch0 a = Some (mkChunk s Loose true)) as Ca by (unfold ch0, fresh_heap; rewrite set_other by lia; apply set_same).
  assert (ch0 e = Some (mkChunk 16 Raw false)) as Ce by apply set_same.
  assert (forall x, x <> a -> x <> e -> ch0 x = ch x) as O0 by (intros; unfold ch0, fresh_heap; rewrite !set_other; auto).
  assert (ch a = None /\ ch e = None) as [Na Ne].
  { split; [destruct (ch a) as [c|] eqn:E|destruct (ch e) as [c|] eqn:E]; try reflexivity; destruct (Far _ _ E); lia. }
  assert (a <> e) as Nae by lia. assert (e mod 16 = 0) as Em by lia. assert (a + 32 <= e) as Eg by lia.
  clearbody a s e. clear Q3 Q4 A1 Far.
  assert (extent (mkChunk s Loose true) = s /\ extent (mkChunk 16 Raw false) = 24) as [Exa Exe] by (split; reflexivity).
  match goal with |- context [wr (a - 8) (s + 1) ?t] => change t with st0 end.
  rewrite (wr_ok st0 ch0 L a _ _ _ G0' Ca) by lia. cbn [bind].
  match goal with |- context [wr (a + s - 16) s ?t] => rewrite (wr_region t ch0 a _ _ _ (i_in _ _ _ _ _ G0') Ca) by lia end. cbn [bind]. rewrite (policy_ok s S1 S2). cbn [bind].
  match goal with |- context [InsertFreeBlock fuel a (policy s) ?t] => set (st1 := t) end.
  assert (Good st1 ch0 L) as G1.
  { unfold Good, st1. cbn [with_mem mem blocks mapped]. apply (write_own _ _ _ _ _ a (mkChunk s Loose true)); [apply (write_own _ _ _ _ _ a (mkChunk s Loose true)); [exact G0'|assumption|cbn [c_kind]; lia|lia]|assumption|cbn [c_kind]; lia|lia]. }
  destruct (insert_ok fuel st1 ch0 L a _ G1 Ca eq_refl) as (st2 & L2 & E2 & M2 & Nu2 & G2 & Le2 & F2); cbn [c_size c_prev] in *.
  { unfold st1. cbn [with_mem mem]. rewrite upd_other by lia. apply upd_same. }
  { unfold st1. cbn [with_mem mem]. apply upd_same. }
  { intros d D. rewrite Eas, Ce in D. injection D as <-. discriminate. }
  { intros p d P K Q. assert (p <> a) by (intros ->; rewrite Ca in P; injection P as <-; discriminate). assert (p <> e) by (intros ->; rewrite Ce in P; injection P as <-; discriminate). rewrite O0 in P by assumption.
    destruct (i_nx _ _ _ _ _ G _ _ P ltac:(now rewrite K)) as (f & Y & _). congruence. }
  { apply Lf. }
  rewrite E2. cbn [bind]. set (ch2 := set ch0 a (Some (mkChunk s Free true))) in *.
  assert (ch2 a = Some (mkChunk s Free true)) as Ca2 by apply set_same.
  assert (ch2 e = Some (mkChunk 16 Raw false)) as Ce2 by (unfold ch2; rewrite set_other by auto; exact Ce).
  unfold NextBlock at 1. rewrite (size_ok st2 ch2 L2 a _ G2 Ca2 Logic.I). cbn [bind c_size]. rewrite Eas.
  destruct (N.ltb_spec e (sg + len)); [|lia]. cbn [negb].
  rewrite (wr_ok st2 ch2 L2 e _ _ _ G2 Ce2) by lia. cbn [bind].
  set (st3 := with_mem st2 (upd (mem st2) (e - 8) 16) (blocks st2)).
  assert (SizeOfBlock st3 e = Ok 16) as E3.
  { unfold SizeOfBlock. rewrite (rd_region st3 ch2 e _ _ (i_in _ _ _ _ _ G2) Ce2) by lia. cbn [bind]. unfold st3. cbn [with_mem mem]. now rewrite upd_same. }
  unfold NextBlock. rewrite E3. cbn [bind]. replace (e + 16 - 8) with (e + 8) by lia.
  rewrite (wr_region st3 ch2 e _ _ _ (i_in _ _ _ _ _ G2) Ce2) by lia. cbn [bind].
  set (st4 := with_mem st3 (upd (mem st3) (e + 8) 1) (blocks st3)).
  assert (Good st4 ch2 L2) as G4.
  { unfold Good, st4, st3. cbn [with_mem mem blocks mapped]. apply (write_own _ _ _ _ _ e (mkChunk 16 Raw false)); [apply (write_own _ _ _ _ _ e (mkChunk 16 Raw false)); [exact G2|assumption|cbn [c_kind]; lia|lia]|assumption|cbn [c_kind]; lia|lia]. }
  assert (Good st4 (set ch2 e (Some (mkChunk 16 End false))) L2) as G5.
  { apply (seal_ok _ _ _ _ _ _ _ G4 Ce2); unfold st4, st3; cbn [with_mem mem]; [|apply upd_same]. rewrite upd_other by lia. apply upd_same. }
  exists st4, (set ch2 e (Some (mkChunk 16 End false))), L2.
  split; [reflexivity|]. split; [exact M2|]. split; [exact Nu2|]. split; [exact G5|]. split; [|split; [|split; [|split; [|split; [exact Na|split; [exact Ne|split; [exact Le2|split]]]]]]].
  - intros x c. destruct (N.eq_dec x e) as [->|Nx]; [rewrite set_same; intros Q; injection Q as <-; exact Logic.I|]. rewrite set_other by assumption.
    unfold ch2. destruct (N.eq_dec x a) as [->|Nx2]; [rewrite set_same; intros Q; injection Q as <-; exact Logic.I|]. rewrite set_other by assumption. rewrite O0 by assumption. apply Se.
  - rewrite set_other by auto. exact Ca2.
  - apply set_same.
  - intros x X1 X2. rewrite set_other by assumption. unfold ch2. rewrite set_other by assumption. now apply O0.
  - intros b sb pvb p B P1 P2. assert (b <> a) as Nba by congruence. assert (b <> e) as Nbe by congruence. assert (ch0 b = Some (mkChunk sb Used pvb)) as B0 by (rewrite O0; assumption).
    assert (ch2 b = Some (mkChunk sb Used pvb)) as Bb2 by (unfold ch2; rewrite set_other; assumption).
    assert (forall q, e - 8 <= q -> q + 8 < e + 24 -> p <> q) as Pe by (intros q R1 R2; apply (payload_apart _ _ _ _ _ b sb pvb p e _ q G2 Bb2 P1 P2 Ce2); auto).
    assert (forall q, a - 8 <= q -> q + 8 < a + s -> p <> q) as Pa by (intros q R1 R2; apply (payload_apart _ _ _ _ _ b sb pvb p a _ q G1 B0 P1 P2 Ca); auto).
    unfold st4, st3. cbn [with_mem mem]. rewrite !upd_other by (apply Pe; lia).
    rewrite F2; [|exact (payload_links _ _ _ _ _ _ _ _ _ _ G1 B0 P1 P2)|apply Pa; lia|apply Pa; lia].
    unfold st1. cbn [with_mem mem]. now rewrite !upd_other by (apply Pa; lia).
  - intros Q. change (mapped st4) with (mapped st2). rewrite M2. change (mapped st1) with (mapped st ++ [(sg, len)]). constructor.
    + intros u l u' l' U U'. apply in_app_or in U, U'. destruct U as [U|[U|[]]], U' as [U'|[U'|[]]]; [exact (h_aw _ _ Q _ _ _ _ U U')| | |].
      * injection U' as <- <-. right. destruct (Aw _ _ U); auto.
      * injection U as <- <-. right. destruct (Aw _ _ U'); auto.
      * left. split; congruence.
    + intros u l U. apply in_app_or in U. destruct U as [U|[U|[]]].
      * destruct (h_fi _ _ Q _ _ U) as (Z & c & C & K). split; [assumption|]. exists c. split; [|assumption]. rewrite set_other by congruence. unfold ch2. rewrite set_other by congruence. rewrite O0 by congruence. exact C.
      * injection U as <- <-. split; [exact Dl|]. rewrite <- Da. rewrite set_other by assumption. eexists. split; [exact Ca2|]. reflexivity.
    + intros x c. destruct (N.eq_dec x e) as [->|X1]; [rewrite set_same; intros X; injection X as <-; exists sg, len; split; [apply in_or_app; right; now left|]; cbn [c_kind ending]; split; [lia|exact De]|].
      rewrite set_other by assumption. unfold ch2. destruct (N.eq_dec x a) as [->|X2]; [rewrite set_same; intros X; injection X as <-; exists sg, len; split; [apply in_or_app; right; now left|]; cbn [c_kind ending c_size]; lia|].
      rewrite set_other by assumption. rewrite O0 by assumption. intros X. destruct (h_in _ _ Q _ _ X) as (u & l & U & V). exists u, l. split; [apply in_or_app; now left|exact V].
Qed.
