(** RelinquishWizardMemory and ExpandHeap keep the invariant. *)
From Coq Require Import Arith NArith ZArith Bool List Lia Sorted ZifyBool ZifyNat ZifyN.
From Verif Require Import Outcome PoolModel PoolProof PoolProof2 PoolProof3 PoolProof4.
Import ListNotations.
Local Open Scope N_scope.
Ltac Zify.zify_post_hook ::= Z.div_mod_to_equations.

Definition join_previous (memory : N) (st : pool) : outcome (N * pool) :=
  let* h := rd st (memory - 8) in
  if previous_bit h =? 0 then
    let* d := rd st (memory - 16) in
    let previous := memory - d in
    let* s := SizeOfBlock st previous in
    let* i := AllocationPolicy s in
    let* st := RemoveFreeBlock previous i st in
    let* s1 := SizeOfBlock st previous in
    let* s2 := SizeOfBlock st memory in
    let* h := rd st (previous - 8) in
    let* st := wr (previous - 8) (s1 + s2 + previous_bit h) st in
    Ok (previous, st)
  else Ok (memory, st).
Definition join_next (memory : N) (st : pool) : outcome pool :=
  let* next := NextBlock st memory in
  let* next2 := NextBlock st next in
  let* h := rd st (next2 - 8) in
  if previous_bit h =? 0 then
    let* s := SizeOfBlock st next in
    let* i := AllocationPolicy s in
    let* st := RemoveFreeBlock next i st in
    let* s1 := SizeOfBlock st memory in
    let* s2 := SizeOfBlock st next in
    let* h := rd st (memory - 8) in
    wr (memory - 8) (s1 + s2 + previous_bit h) st
  else Ok st.
Definition give_back (fuel : nat) (memory : N) (st : pool) : outcome pool :=
  let* s := SizeOfBlock st memory in
  let* st := wr (memory + s - 16) s st in
  let* next := NextBlock st memory in
  let* h := rd st (next - 8) in
  let* st := wr (next - 8) (size_mask h) st in
  let* i := AllocationPolicy s in
  InsertFreeBlock fuel memory i st.
Lemma relinquish_steps fuel memory st : RelinquishWizardMemory fuel memory st =
  if memory =? 0 then Ok st
  else let* s := SizeOfBlock st memory in
       if negb (s mod 32 =? 0) then Fatal
       else let* next := NextBlock st memory in
            let* h := rd st (next - 8) in
            if previous_bit h =? 0 then Fatal
            else let* (memory, st) := join_previous memory st in let* st := join_next memory st in give_back fuel memory st.
Proof.
  unfold RelinquishWizardMemory, join_previous. destruct (memory =? 0); [reflexivity|]. destruct (SizeOfBlock st memory) as [s| |]; cbn [bind]; try reflexivity.
  destruct (negb (s mod 32 =? 0)); [reflexivity|]. destruct (NextBlock st memory) as [nx| |]; cbn [bind]; try reflexivity. destruct (rd st (nx - 8)) as [h| |]; cbn [bind]; try reflexivity.
  destruct (previous_bit h =? 0); [reflexivity|]. destruct (rd st (memory - 8)) as [h'| |]; cbn [bind]; try reflexivity.
  match goal with |- bind ?e _ = bind _ _ => destruct e as [[m' s']| |]; cbn [bind]; try reflexivity end.
  unfold join_next. destruct (NextBlock s' m') as [n1| |]; cbn [bind]; try reflexivity. destruct (NextBlock s' n1) as [n2| |]; cbn [bind]; try reflexivity. destruct (rd s' (n2 - 8)) as [h2| |]; cbn [bind]; try reflexivity.
Qed.

(** the words of the other used chunks *)
Definition same_payload (ch : heap) (a : N) (m m' : N -> N) : Prop :=
  forall b s pv p, b <> a -> ch b = Some (mkChunk s Used pv) -> b <= p -> p + 8 < b + s -> m' p = m p.

Lemma join_previous_ok st ch L a s pv : Good st ch L -> settled ch -> ch a = Some (mkChunk s Used pv) -> exists a' s' pv' st' ch' L',
  join_previous a st = Ok (a', st') /\ mapped st' = mapped st /\ number st' = number st /\ Good st' ch' L' /\ settled ch' /\ ch' a' = Some (mkChunk s' Used pv') /\
  (forall p d, ch' p = Some d -> c_kind d = Free -> p + c_size d <> a') /\
  (forall b, b <> a' -> busy ch' b = if b =? a then None else busy ch b) /\ (a' = a \/ busy ch a' = None) /\
  (forall j, (length (L' j) <= length (L j))%nat) /\ same_payload ch a (mem st) (mem st') /\
  (forall b s1 pv1, b <> a -> ch b = Some (mkChunk s1 Used pv1) -> ch' b = Some (mkChunk s1 Used pv1) /\ b <> a') /\ (forall mp, Shape mp ch -> Shape mp ch').
Proof.
  intros G Se C. destruct (header_ok _ _ _ _ _ G C Logic.I) as (H1 & H2 & _). cbn [c_size c_prev] in *.
  destruct (free_facts _ _ _ _ _ _ _ G C eq_refl) as (A1 & A2 & S1 & S2 & Ex). cbn [c_size] in *.
  unfold join_previous. rewrite H1. cbn [bind]. rewrite previous_bit_eq by assumption. destruct pv; cbn [b2n N.eqb].
  - exists a, s, true, st, ch, L. split; [reflexivity|]. repeat (split; [first [reflexivity|assumption]|]). split; [|split; [|split; [now left|split; [lia|split; [|split]]]]].
    + intros p d P K E. destruct (i_nx _ _ _ _ _ G _ _ P ltac:(now rewrite K)) as (e & Y & Q). rewrite E, C in Y. injection Y as <-. rewrite K in Q. discriminate.
    + intros b Nb. destruct (N.eqb_spec b a); [congruence|reflexivity].
    + intros b s1 pv1 p _ _ _ _. reflexivity.
    + intros b s1 pv1 Nb B. auto.
    + auto.
  - destruct (i_pv _ _ _ _ _ G _ _ C eq_refl) as (p & e & P & U & Sp).
    assert (c_kind e = Free) as K by (pose proof (Se _ _ P) as Q; destruct (c_kind e); cbn in *; congruence || tauto).
    destruct e as [sp k pvp]. cbn [c_kind c_size] in *. subst k.
    destruct (free_facts _ _ _ _ _ _ _ G P eq_refl) as (B1 & B2 & T1 & T2 & Exp). cbn [c_size] in *.
    pose proof (i_ft _ _ _ _ _ G _ _ P eq_refl) as Ft. cbn [c_size] in Ft. rewrite Sp in Ft.
    rewrite (rd_ok st ch L p _ (a - 16) G P) by lia. cbn [bind]. rewrite Ft. replace (a - sp) with p by lia. cbv zeta.
    rewrite (size_ok st ch L p _ G P Logic.I). cbn [bind c_size]. rewrite (policy_ok sp T1 T2). cbn [bind].
    destruct (remove_ok st ch L p _ G P eq_refl) as (st1 & L1 & E1 & M1 & Nu1 & G1 & Le1 & F1). cbn [c_size c_prev] in *. rewrite E1. cbn [bind].
    set (ch1 := set ch p (Some (mkChunk sp Loose pvp))) in *.
    assert (ch1 p = Some (mkChunk sp Loose pvp)) as P1 by apply set_same.
    assert (p <> a) as Npa by lia.
    assert (ch1 a = Some (mkChunk s Used false)) as C1 by (unfold ch1; rewrite set_other by lia; exact C).
    assert (mem st1 (p - 8) = sp + b2n pvp) as Hp1.
    { rewrite F1; [|exact (header_links _ _ _ _ _ _ _ G P)]. exact (i_hd _ _ _ _ _ G _ _ P). }
    rewrite (size_header st1 ch1 p _ (i_in _ _ _ _ _ G1) P1) by (auto; lia). cbn [bind c_size].
    rewrite (size_ok st1 ch1 L1 a _ G1 C1 Logic.I). cbn [bind c_size].
    rewrite (rd_ok st1 ch1 L1 p _ (p - 8) G1 P1) by (unfold extent; cbn [c_kind ending c_size]; lia). cbn [bind]. rewrite Hp1, previous_bit_eq by assumption.
    rewrite (wr_ok st1 ch1 L1 p _ (p - 8) _ G1 P1) by (unfold extent; cbn [c_kind ending c_size]; lia). cbn [bind].
    rewrite <- Sp in C1. pose proof (merge_ok _ _ _ _ _ p sp Loose pvp s Used false G1 P1 C1 ltac:(now right) ltac:(now left)) as G2. rewrite Sp in *.
    set (ch2 := set (set ch1 a None) p (Some (mkChunk (sp + s) Used pvp))) in *.
    assert (ch2 p = Some (mkChunk (sp + s) Used pvp)) as P2 by apply set_same.
    assert (forall b, b <> p -> b <> a -> ch2 b = ch b) as O2 by (intros b Q1 Q2; unfold ch2, ch1; rewrite !set_other; auto).
    assert (ch2 a = None) as A22 by (unfold ch2; rewrite set_other by lia; apply set_same).
    exists p, (sp + s), pvp, (with_mem st1 (upd (mem st1) (p - 8) (sp + s + b2n pvp)) (blocks st1)), ch2, L1.
    split; [reflexivity|]. split; [exact M1|]. split; [exact Nu1|]. split; [exact G2|]. split; [|split; [exact P2|split; [|split; [|split; [|split; [exact Le1|split; [|split]]]]]]].
    + intros b c. destruct (N.eq_dec b p) as [->|]; [rewrite P2; intros Q; injection Q as <-; exact Logic.I|]. destruct (N.eq_dec b a) as [->|]; [congruence|]. rewrite O2 by assumption. apply Se.
    + intros q d Q K Eq. assert (q <> p) as Nq by (intros ->; rewrite P2 in Q; injection Q as <-; discriminate). assert (q <> a) by congruence. rewrite O2 in Q by assumption.
      rewrite <- Eq in P. exact (i_co _ _ _ _ _ G _ _ _ Q K P eq_refl).
    + intros b Nb. destruct (N.eqb_spec b a) as [->|Nba]; unfold busy; [now rewrite A22|now rewrite O2].
    + right. unfold busy. now rewrite P.
    + intros b s1 pv1 q Nb B Q1 Q2. cbn [with_mem mem].
      assert (b <> p) as Nbp by (intros ->; rewrite P in B; injection B as <-; discriminate).
      rewrite upd_other by (apply (payload_apart _ _ _ _ _ b s1 pv1 q p _ _ G B Q1 Q2 P); auto; unfold extent; cbn [c_kind ending c_size]; lia).
      apply F1. exact (payload_links _ _ _ _ _ _ _ _ _ _ G B Q1 Q2).
    + intros b s1 pv1 Nb B. assert (b <> p) as Nbp by (intros ->; rewrite P in B; injection B as <-; discriminate). split; [|assumption]. rewrite O2; assumption.
    + intros mp Q. unfold ch2. rewrite <- Sp. apply (shape_merge _ _ _ _ Loose pvp _ Used false); [|exact P1|rewrite Sp; exact C1|now right|now left|now left|lia].
      exact (shape_set _ _ _ _ (mkChunk sp Loose pvp) Q P eq_refl eq_refl).
Qed.

Lemma join_next_ok st ch L a s pv : Good st ch L -> settled ch -> ch a = Some (mkChunk s Used pv) -> exists s' k st' ch' L',
  join_next a st = Ok st' /\ mapped st' = mapped st /\ number st' = number st /\ Good st' ch' L' /\ settled_but ch' a /\ ch' a = Some (mkChunk s' k pv) /\ plain_kind k /\
  mem st' (a - 8) = s' + b2n pv /\ (exists d, ch' (a + s') = Some d /\ c_kind d <> Free) /\
  (forall p d, ch' p = Some d -> c_kind d = Free -> p <> a -> ch p = Some d) /\
  (forall b, b <> a -> busy ch' b = busy ch b) /\
  (forall j, (length (L' j) <= length (L j))%nat) /\ same_payload ch a (mem st) (mem st') /\
  (forall b s1 pv1, b <> a -> ch b = Some (mkChunk s1 Used pv1) -> ch' b = Some (mkChunk s1 Used pv1)) /\ (forall mp, Shape mp ch -> Shape mp ch').
Proof.
  intros G Se C. destruct (header_ok _ _ _ _ _ G C Logic.I) as (H1 & H2 & _). cbn [c_size c_prev] in *.
  destruct (free_facts _ _ _ _ _ _ _ G C eq_refl) as (A1 & A2 & S1 & S2 & Ex). cbn [c_size] in *.
  destruct (i_nx _ _ _ _ _ G _ _ C eq_refl) as (d & D & Pd). cbn [c_size c_kind used] in D, Pd.
  destruct (header_ok _ _ _ _ _ G D (Se _ _ D)) as (D1 & D2 & D3 & D4 & D5 & D6 & D7).
  assert (SizeOfBlock st a = Ok s) as Ea by exact (size_ok st ch L a _ G C Logic.I).
  assert (SizeOfBlock st (a + s) = Ok (c_size d)) as Ed by (apply (size_ok st ch L _ _ G D); exact (Se _ _ D)).
  assert (NextBlock st a = Ok (a + s)) as Na by (unfold NextBlock; now rewrite Ea).
  assert (NextBlock st (a + s) = Ok (a + s + c_size d)) as Nd by (unfold NextBlock; now rewrite Ed).
  unfold join_next. rewrite Na. cbn [bind]. rewrite Nd. cbn [bind].
  assert (c_kind d = Free \/ (used (c_kind d) = true)) as [K|K] by (pose proof (Se _ _ D) as Q; destruct (c_kind d); cbn in Q; auto; tauto).
  - (* joined *)
    destruct (free_facts _ _ _ _ _ _ _ G D ltac:(now rewrite K)) as (B1 & B2 & T1 & T2 & Exd).
    destruct (i_nx _ _ _ _ _ G _ _ D ltac:(now rewrite K)) as (e & Y & Pe). rewrite K in Pe. cbn [used] in Pe.
    destruct (header_ok _ _ _ _ _ G Y (Se _ _ Y)) as (Y1 & Y2 & Y3 & _ & _ & Y6 & Y7). rewrite Y1. cbn [bind]. rewrite Pe. rewrite bit_of by assumption. cbn [b2n N.eqb].
    rewrite Ed. cbn [bind]. rewrite (policy_ok _ T1 T2). cbn [bind].
    destruct (remove_ok st ch L (a + s) _ G D K) as (st1 & L1 & E1 & M1 & Nu1 & G1 & Le1 & F1). rewrite E1. cbn [bind].
    destruct d as [sd kd pvd]. cbn [c_size c_prev c_kind] in *. subst kd pvd.
    set (ch1 := set ch (a + s) (Some (mkChunk sd Loose true))) in *.
    assert (ch1 (a + s) = Some (mkChunk sd Loose true)) as X1 by apply set_same.
    assert (ch1 a = Some (mkChunk s Used pv)) as C1 by (unfold ch1; rewrite set_other by lia; exact C).
    assert (mem st1 (a + s - 8) = sd + b2n true) as Hd1.
    { rewrite F1; [|exact (header_links _ _ _ _ _ _ _ G D)]. exact (i_hd _ _ _ _ _ G _ _ D). }
    rewrite (size_ok st1 ch1 L1 a _ G1 C1 Logic.I). cbn [bind c_size].
    rewrite (size_header st1 ch1 (a + s) _ (i_in _ _ _ _ _ G1) X1) by (auto; unfold extent; cbn [c_kind ending c_size]; lia). cbn [bind c_size].
    destruct (header_ok _ _ _ _ _ G1 C1 Logic.I) as (C11 & _). cbn [c_size c_prev] in C11. rewrite C11. cbn [bind]. rewrite previous_bit_eq by assumption.
    rewrite (wr_ok st1 ch1 L1 a _ (a - 8) _ G1 C1) by (unfold extent; cbn [c_kind ending c_size]; lia).
    pose proof (merge_ok _ _ _ _ _ a s Used pv sd Loose true G1 C1 X1 ltac:(now left) ltac:(now right)) as G2.
    set (ch2 := set (set ch1 (a + s) None) a (Some (mkChunk (s + sd) Loose pv))) in *.
    assert (ch2 a = Some (mkChunk (s + sd) Loose pv)) as P2 by apply set_same.
    assert (forall b, b <> a -> b <> a + s -> ch2 b = ch b) as O2 by (intros b Q1 Q2; unfold ch2, ch1; rewrite !set_other; auto).
    assert (ch2 (a + s) = None) as A22 by (unfold ch2; rewrite set_other by lia; apply set_same).
    exists (s + sd), Loose, (with_mem st1 (upd (mem st1) (a - 8) (s + sd + b2n pv)) (blocks st1)), ch2, L1.
    split; [reflexivity|]. split; [exact M1|]. split; [exact Nu1|]. split; [exact G2|]. split; [|split; [exact P2|split; [now right|split; [apply upd_same|split; [|split; [|split; [|split; [exact Le1|split; [|split]]]]]]]]].
    + intros b c Nb. destruct (N.eq_dec b (a + s)) as [->|]; [congruence|]. rewrite O2 by assumption. apply Se.
    + exists e. rewrite N.add_assoc. rewrite O2 by lia. split; [exact Y|]. exact (i_co _ _ _ _ _ G _ _ _ D eq_refl Y).
    + intros p f P Kf Np. destruct (N.eq_dec p (a + s)) as [->|]; [congruence|]. now rewrite O2 in P by assumption.
    + intros b Nb. destruct (N.eq_dec b (a + s)) as [->|Nba]; unfold busy; [rewrite A22; now rewrite D|now rewrite O2].
    + intros b s1 pv1 q Nb B Q1 Q2. cbn [with_mem mem].
      rewrite upd_other by (apply (payload_apart _ _ _ _ _ b s1 pv1 q a _ _ G B Q1 Q2 C); auto; unfold extent; cbn [c_kind ending c_size]; lia).
      apply F1. exact (payload_links _ _ _ _ _ _ _ _ _ _ G B Q1 Q2).
    + intros b s1 pv1 Nb B. rewrite O2; [assumption|assumption|]. intros ->. rewrite D in B. injection B as <-. discriminate.
    + intros mp Q. apply (shape_merge _ _ _ _ Used pv _ Loose true); [|exact C1|exact X1|now left|now right|now right|lia].
      exact (shape_set _ _ _ _ (mkChunk sd Loose true) Q D eq_refl eq_refl).
  - (* nothing to join *)
    assert (exists h, rd st (a + s + c_size d - 8) = Ok h /\ previous_bit h = 1) as (h & Eh & Bh).
    { destruct (ending (c_kind d)) eqn:Ek.
      - assert (c_kind d = End) as Ke by (pose proof (Se _ _ D) as Q; destruct (c_kind d); cbn in *; congruence || tauto).
        pose proof (i_sz _ _ _ _ _ G _ _ D) as Z. rewrite Ek in Z. exists 1. split; [|reflexivity]. rewrite <- (i_en _ _ _ _ _ G _ _ D Ke).
        replace (a + s + c_size d - 8) with (a + s + 8) by lia. apply (rd_ok st ch L _ _ _ G D); [lia| |lia]. unfold extent. rewrite Ek. lia.
      - destruct (i_nx _ _ _ _ _ G _ _ D Ek) as (e & Y & Pe). destruct (header_ok _ _ _ _ _ G Y (Se _ _ Y)) as (Y1 & Y2 & Y3 & _). eexists. split; [exact Y1|]. rewrite bit_of by assumption. rewrite Pe, K. reflexivity. }
    rewrite Eh. cbn [bind]. rewrite Bh. cbn [N.eqb].
    exists s, Used, st, ch, L. split; [reflexivity|]. split; [reflexivity|]. split; [reflexivity|]. split; [exact G|]. split; [intros b c _; apply Se|].
    split; [exact C|]. split; [now left|]. split; [exact H2|]. split; [exists d; split; [exact D|intros Q; rewrite Q in K; discriminate]|]. split; [auto|]. split; [auto|]. split; [auto|]. split; [intros b s1 pv1 p _ _ _ _; reflexivity|split; auto].
Qed.

Lemma give_back_ok fuel st ch L a s k pv : Good st ch L -> settled_but ch a -> ch a = Some (mkChunk s k pv) -> plain_kind k ->
  mem st (a - 8) = s + b2n pv -> (exists d, ch (a + s) = Some d /\ c_kind d <> Free) -> (forall p d, ch p = Some d -> c_kind d = Free -> p + c_size d <> a) ->
  (forall i, length (L i) < fuel)%nat -> exists st' ch' L',
  give_back fuel a st = Ok st' /\ mapped st' = mapped st /\ number st' = number st /\ Good st' ch' L' /\ settled ch' /\
  (forall b, busy ch' b = if b =? a then None else busy ch b) /\ (forall j, (length (L' j) <= S (length (L j)))%nat) /\
  same_payload ch a (mem st) (mem st') /\ (forall mp, Shape mp ch -> Shape mp ch').
Proof.
  intros G Se C K Hh (d & D & Nf) Np Lf. destruct (free_facts _ _ _ _ _ _ _ G C (plain_ending _ K)) as (A1 & A2 & S1 & S2 & Ex). cbn [c_size] in *.
  assert (a + s <> a) as Nas by lia. pose proof (Se _ _ Nas D) as Kd. destruct (header_ok _ _ _ _ _ G D Kd) as (D1 & D2 & D3 & D4 & D5 & D6 & D7).
  assert (forall t, mapped t = mapped st -> mem t (a - 8) = s + b2n pv -> SizeOfBlock t a = Ok s) as Es.
  { intros t Mt Ht. apply (size_header t ch a (mkChunk s k pv)); auto; [|lia]. rewrite Mt. exact (i_in _ _ _ _ _ G). }
  unfold give_back. rewrite Es by auto. cbn [bind].
  rewrite (wr_ok st ch L a _ _ _ G C) by lia. cbn [bind].
  set (st1 := with_mem st (upd (mem st) (a + s - 16) s) (blocks st)).
  assert (mem st1 (a - 8) = s + b2n pv) as Hh1 by (unfold st1; cbn [with_mem mem]; rewrite upd_other by lia; exact Hh).
  assert (Good st1 ch L) as G1.
  { unfold Good, st1. cbn [with_mem mem blocks mapped]. apply (write_own _ _ _ _ _ a (mkChunk s k pv)); [exact G|exact C| |lia]. cbn [c_kind]. destruct K as [-> | ->]; lia. }
  unfold NextBlock. rewrite (Es st1) by auto. cbn [bind].
  destruct (header_ok _ _ _ _ _ G1 D Kd) as (D1' & _). rewrite D1'. cbn [bind]. rewrite mask_of by assumption.
  rewrite (wr_ok st1 ch L (a + s) d _ _ G1 D) by lia. cbn [bind].
  assert (c_kind d <> Loose /\ c_kind d <> Raw) as [Kd1 Kd2] by (destruct (c_kind d); cbn in Kd; split; congruence || tauto).
  pose proof (mark_ok _ _ _ _ _ a s k pv d Loose G1 C K ltac:(now right) D Kd1 Kd2 ltac:(discriminate)) as G2. cbn [used b2n] in G2. rewrite N.add_0_r in G2.
  set (ch2 := set (set ch a (Some (mkChunk s Loose pv))) (a + s) (Some (mkChunk (c_size d) (c_kind d) false))) in *.
  set (st2 := with_mem st1 (upd (mem st1) (a + s - 8) (c_size d)) (blocks st1)).
  assert (Good st2 ch2 L) as G2' by exact G2.
  assert (ch2 a = Some (mkChunk s Loose pv)) as C2 by (unfold ch2; rewrite set_other by lia; apply set_same).
  assert (ch2 (a + s) = Some (mkChunk (c_size d) (c_kind d) false)) as D2' by apply set_same.
  assert (forall b, b <> a -> b <> a + s -> ch2 b = ch b) as O2 by (intros b Q1 Q2; unfold ch2; rewrite !set_other; auto).
  rewrite (policy_ok s S1 S2). cbn [bind].
  destruct (insert_ok fuel st2 ch2 L a _ G2' C2 eq_refl) as (st3 & L3 & E3 & M3 & Nu3 & G3 & Le3 & F3); cbn [c_size c_prev] in *.
  { unfold st2. cbn [with_mem mem]. rewrite upd_other by lia. exact Hh1. }
  { unfold st2. cbn [with_mem mem]. rewrite upd_other by lia. apply upd_same. }
  { intros e Y. rewrite D2' in Y. injection Y as <-. exact Nf. }
  { intros p e P Ke. assert (p <> a) as Npa by (intros ->; rewrite C2 in P; injection P as <-; discriminate).
    destruct (N.eq_dec p (a + s)) as [->|Nps]; [lia|]. rewrite O2 in P by assumption. now apply Np. }
  { apply Lf. }
  rewrite E3. set (ch3 := set ch2 a (Some (mkChunk s Free pv))) in *. exists st3, ch3, L3.
  split; [reflexivity|]. split; [exact M3|]. split; [exact Nu3|]. split; [exact G3|]. split; [|split; [|split; [exact Le3|split]]].
  - intros b c. unfold ch3. destruct (N.eq_dec b a) as [->|Nb]; [rewrite set_same; intros Q; injection Q as <-; exact Logic.I|]. rewrite set_other by assumption.
    destruct (N.eq_dec b (a + s)) as [->|Nb2]; [rewrite D2'; intros Q; injection Q as <-; exact Kd|]. rewrite O2 by assumption. now apply Se.
  - intros b. unfold ch3. destruct (N.eqb_spec b a) as [->|Nb]; [now rewrite busy_set_same|]. rewrite busy_set_other by assumption. unfold busy.
    destruct (N.eq_dec b (a + s)) as [->|Nb2]; [rewrite D2', D; reflexivity|]. now rewrite O2.
  - intros b s1 pv1 q Nb B Q1 Q2.
    assert (exists pv2, ch2 b = Some (mkChunk s1 Used pv2)) as (pv2 & B2).
    { destruct (N.eq_dec b (a + s)) as [->|Nb2]; [|exists pv1; now rewrite O2]. rewrite D in B. injection B as ->. cbn [c_kind c_size] in D2'. eauto. }
    assert (forall r, a - 8 <= r -> r + 8 < a + s -> q <> r) as Pa by (intros r R1 R2; apply (payload_apart _ _ _ _ _ b s1 pv1 q a _ r G B Q1 Q2 C); auto; lia).
    rewrite F3; [|exact (payload_links _ _ _ _ _ _ _ _ _ _ G2' B2 Q1 Q2)|apply Pa; lia|apply Pa; lia].
    unfold st2. cbn [with_mem mem]. rewrite upd_other.
    + unfold st1. cbn [with_mem mem]. apply upd_other. apply Pa; lia.
    + destruct (N.eq_dec b (a + s)) as [->|Nb2]; [lia|]. apply (payload_apart _ _ _ _ _ b s1 pv1 q (a + s) d _ G B Q1 Q2 D); auto; lia.
  - intros mp Q. apply (shape_set _ _ _ _ (mkChunk s Free pv)) with (2 := C2); [|reflexivity|reflexivity].
    apply (shape_set _ _ _ d); [|rewrite set_other by assumption; exact D|reflexivity|reflexivity].
    apply (shape_set _ _ _ _ (mkChunk s Loose pv) Q C); [reflexivity|]. cbn [c_kind]. now rewrite (plain_ending _ K).
Qed.

Lemma relinquish_ok fuel st ch L a s pv : Good st ch L -> settled ch -> ch a = Some (mkChunk s Used pv) -> (forall i, length (L i) < fuel)%nat -> exists st' ch' L',
  RelinquishWizardMemory fuel a st = Ok st' /\ mapped st' = mapped st /\ number st' = number st /\ Good st' ch' L' /\ settled ch' /\
  (forall b, busy ch' b = if b =? a then None else busy ch b) /\ (forall j, (length (L' j) <= S (length (L j)))%nat) /\
  same_payload ch a (mem st) (mem st') /\ (forall mp, Shape mp ch -> Shape mp ch').
Proof.
  intros G Se C Lf. destruct (free_facts _ _ _ _ _ _ _ G C eq_refl) as (A1 & A2 & S1 & S2 & Ex). cbn [c_size] in *.
  rewrite relinquish_steps. destruct (N.eqb_spec a 0); [lia|].
  assert (SizeOfBlock st a = Ok s) as Ea by exact (size_ok st ch L a _ G C Logic.I). rewrite Ea. cbn [bind]. rewrite S1. cbn [N.eqb negb].
  unfold NextBlock at 1. rewrite Ea. cbn [bind].
  destruct (i_nx _ _ _ _ _ G _ _ C eq_refl) as (d & D & Pd). cbn [c_size c_kind used] in D, Pd.
  destruct (header_ok _ _ _ _ _ G D (Se _ _ D)) as (D1 & D2 & D3 & _). rewrite D1. cbn [bind]. rewrite bit_of by assumption. rewrite Pd. cbn [b2n N.eqb].
  destruct (join_previous_ok st ch L a s pv G Se C) as (a1 & s1 & pv1 & st1 & ch1 & L1 & E1 & M1 & Nu1 & G1 & Se1 & C1 & P1 & B1 & Q1 & Le1 & F1 & K1 & Sh1). rewrite E1. cbn [bind].
  destruct (join_next_ok st1 ch1 L1 a1 s1 pv1 G1 Se1 C1) as (s2 & k2 & st2 & ch2 & L2 & E2 & M2 & Nu2 & G2 & Se2 & C2 & Pk2 & H2 & N2 & P2 & B2 & Le2 & F2 & K2 & Sh2). rewrite E2. cbn [bind].
  destruct (give_back_ok fuel st2 ch2 L2 a1 s2 k2 pv1 G2 Se2 C2 Pk2 H2 N2) as (st3 & ch3 & L3 & E3 & M3 & Nu3 & G3 & Se3 & B3 & Le3 & F3 & Sh3).
  { intros p f P Kf. destruct (N.eq_dec p a1) as [->|Np].
    - rewrite C2 in P. injection P as <-. cbn in Kf. subst k2. destruct Pk2; discriminate.
    - apply P1; [|assumption]. now apply P2. }
  { intros i. specialize (Lf i). specialize (Le1 i). specialize (Le2 i). lia. }
  rewrite E3. exists st3, ch3, L3. split; [reflexivity|]. split; [congruence|]. split; [congruence|]. split; [exact G3|]. split; [exact Se3|]. split; [|split; [|split]].
  - intros b. rewrite B3. destruct (N.eqb_spec b a1) as [->|Nb].
    + destruct (N.eqb_spec a1 a); [reflexivity|]. destruct Q1 as [Q1|Q1]; [congruence|now rewrite Q1].
    + rewrite B2 by assumption. now apply B1.
  - intros j. specialize (Le1 j). specialize (Le2 j). specialize (Le3 j). lia.
  - intros b sb pvb p Nb B X1 X2. destruct (K1 _ _ _ Nb B) as (B1' & Nb1). pose proof (K2 _ _ _ Nb1 B1') as B2'.
    rewrite (F3 b sb pvb p); auto. rewrite (F2 b sb pvb p); auto. apply (F1 b sb pvb p); auto.
  - auto.
Qed.
