(** The calls of a program keep what it relies on. *)
From Coq Require Import Arith NArith ZArith Bool List Lia Sorted ZifyBool ZifyNat ZifyN.
From Verif Require Import Outcome PoolModel PoolProof PoolProof2 PoolProof3 PoolProof4 PoolProof5 PoolProof6 PoolSpec PoolProof7.
Import ListNotations.
Local Open Scope N_scope.
Ltac Zify.zify_post_hook ::= Z.div_mod_to_equations.

(** the sizes of the blocks given out *)
Definition held (ch : heap) (b : N) : option N := match busy ch b with Some (s, Used) => Some s | _ => None end.
Lemma held_used ch b s : held ch b = Some s <-> exists pv, ch b = Some (mkChunk s Used pv).
Proof.
  unfold held, busy. split.
  - destruct (ch b) as [[s' k pv]|]; [|discriminate]. cbn [c_kind c_size]. destruct k; cbn [used]; try discriminate. intros H. injection H as ->. eauto.
  - intros (pv & ->). reflexivity.
Qed.
Lemma held_free ch b s pv : ch b = Some (mkChunk s Free pv) -> held ch b = None.
Proof. intros H. unfold held, busy. now rewrite H. Qed.
Record stage (d : nat) (st st' : pool) (ch ch' : heap) (L L' : N -> list N) (h : N -> option N) : Prop := {
  g_good : Good st' ch' L';
  g_settled : settled ch';
  g_shape : Shape (mapped st') ch';
  g_len : forall j, (length (L' j) <= d + length (L j))%nat;
  g_num : number st' <= number st + 1;
  g_held : forall b, held ch' b = h b;
  g_mem : forall b s p, held ch b = Some s -> h b = Some s -> b <= p -> p + 8 < b + s -> mem st' p = mem st p }.

Lemma block_stage fuel st ch L size : Good st ch L -> settled ch -> Shape (mapped st) ch -> 1 <= size -> size + 55 < 2 ^ 64 -> (forall i, S (length (L i)) < fuel)%nat ->
  (AcquireBlock fuel size st = Ok (0, st) /\ forall a c, ch a = Some c -> c_kind c = Free -> c_size c < round_up size) \/
  exists x st' ch' L', AcquireBlock fuel size st = Ok (x, st') /\ x <> 0 /\ held ch x = None /\ number st' = number st /\ mapped st' = mapped st /\
    stage 1 st st' ch ch' L L' (give x (round_up size) (held ch)).
Proof.
  intros G Se Sh Z1 Z2 Lf. destruct (acquire_ok fuel st ch L size G Se Z1 Z2 Lf) as [H|(x & s & pv & st' & ch' & L' & E & X & Ns & Be & M & Nu & G' & Se' & X' & B & Le & F & Sp)]; [now left|right].
  pose proof (i_al _ _ _ _ _ G _ _ X) as [Al1 Al2]. exists x, st', ch', L'. split; [exact E|]. split; [lia|]. split; [exact (held_free _ _ _ _ X)|]. split; [exact Nu|]. split; [exact M|]. constructor; auto.
  - rewrite M. auto.
  - lia.
  - intros b. unfold give. destruct (N.eqb_spec b x) as [->|Nb]; [unfold held, busy; now rewrite X'|]. unfold held. now rewrite B.
  - intros b sb p H _ P1 P2. apply held_used in H as (pvb & H). exact (F _ _ _ _ H P1 P2).
Qed.
Lemma heap_stage fuel st ch L size sg : Good st ch L -> settled ch -> Shape (mapped st) ch -> size + 2097247 < 2 ^ 64 -> 1 <= size -> number st < 1024 ->
  away (mapped st) sg (segment_size size) -> sg mod 16 = 0 -> (forall i, length (L i) < fuel)%nat -> exists st' ch' L',
  ExpandHeap fuel size (Some sg) st = Ok (Some st') /\ number st' = number st + 1 /\ stage 1 st st' ch ch' L L' (held ch) /\
  exists pv, ch' (sg + 32) = Some (mkChunk (segment_size size - 96) Free pv).
Proof.
  intros G Se Sh Z1 Z2 Nu Aw A1 Lf. destruct (expand_ok fuel st ch L size sg G Se Z1 Z2 Nu Aw A1 Lf) as (st' & ch' & L' & E & M & Nu' & G' & Se' & X & Y & O & N1 & N2 & Le & F & Sp).
  exists st', ch', L'. split; [exact E|]. split; [exact Nu'|]. split; [|eauto]. constructor; auto; [lia| |].
  - intros b. unfold held, busy. destruct (N.eq_dec b (sg + 32)) as [->|Q1]; [rewrite X, N1; reflexivity|]. destruct (N.eq_dec b (sg + segment_size size - 64)) as [->|Q2]; [rewrite Y, N2; reflexivity|]. now rewrite O.
  - intros b sb p H _ P1 P2. apply held_used in H as (pvb & H). exact (F _ _ _ _ H P1 P2).
Qed.
Lemma stage_trans d1 d2 st st1 st2 ch ch1 ch2 L L1 L2 h1 h2 : stage d1 st st1 ch ch1 L L1 h1 -> stage d2 st1 st2 ch1 ch2 L1 L2 h2 ->
  number st2 <= number st + 1 -> (forall b s, held ch b = Some s -> h2 b = Some s -> h1 b = Some s) -> stage (d1 + d2) st st2 ch ch2 L L2 h2.
Proof.
  intros A B Nu H. constructor; try apply B; [|assumption|].
  - intros j. pose proof (g_len _ _ _ _ _ _ _ _ A j). pose proof (g_len _ _ _ _ _ _ _ _ B j). lia.
  - intros b s p Hb H2 P1 P2. pose proof (H _ _ Hb H2) as H1. rewrite (g_mem _ _ _ _ _ _ _ _ B b s p); auto; [|now rewrite (g_held _ _ _ _ _ _ _ _ A)]. exact (g_mem _ _ _ _ _ _ _ _ A b s p Hb H1 P1 P2).
Qed.

Lemma at_least_asked size : at_least_one size = asked size.
Proof. reflexivity. Qed.
Lemma asked_pos size : 1 <= asked size /\ asked size <= size + 1 /\ size <= asked size.
Proof. unfold asked. destruct (N.eqb_spec size 0); lia. Qed.
Lemma length_size size : size + 2097248 < 2 ^ 64 -> segment_size (asked size) = segment_length size.
Proof.
  change (2 ^ 64) with 18446744073709551616. intros H. pose proof (asked_pos size). unfold segment_size, segment_length, SegmentSize. change (2 ^ 64) with 18446744073709551616.
  rewrite N.mod_small by lia. do 2 f_equal. lia.
Qed.
Lemma round_asked size : size + 2097248 < 2 ^ 64 -> round_up (asked size) = 32 * ((asked size + 55) / 32).
Proof.
  change (2 ^ 64) with 18446744073709551616. intros H. pose proof (asked_pos size). unfold round_up. change (2 ^ 64) with 18446744073709551616. rewrite (N.mod_small (asked size + 55)) by lia. lia.
Qed.
(** AcquireWizardMemory and the first half of ResizeWizardMemory: a block is taken, if need
    be after the heap has grown *)
Inductive taken (fuel : nat) (size : N) (segment : option N) (st : pool) : N -> pool -> Prop :=
| at_once x st' : AcquireBlock fuel size st = Ok (x, st') -> x <> 0 -> taken fuel size segment st x st'
| later st1 x st' : AcquireBlock fuel size st = Ok (0, st) -> ExpandHeap fuel size segment st = Ok (Some st1) -> AcquireBlock fuel size st1 = Ok (x, st') -> taken fuel size segment st x st'
| refused : AcquireBlock fuel size st = Ok (0, st) -> segment = None -> taken fuel size segment st 0 st.
Lemma obtain_stage fuel st ch L size segment : Good st ch L -> settled ch -> Shape (mapped st) ch -> moderate st size -> fair st size segment -> (forall i, 2 + length (L i) < fuel)%nat ->
  exists x st' ch' L', taken fuel (asked size) segment st x st' /\
  stage 2 st st' ch ch' L L' (if x =? 0 then held ch else give x (round_up (asked size)) (held ch)) /\ held ch x = None /\ (x = 0 -> segment = None \/ ~ roomy size).
Proof.
  intros G Se Sh (Z1 & Nu) Fa Lf. destruct (asked_pos size) as (P1 & P2 & _). pose proof (length_size size Z1) as Ls. pose proof (round_asked size Z1) as Ra.
  assert (held ch 0 = None) as H0.
  { destruct (held ch 0) as [s|] eqn:H; [|reflexivity]. apply held_used in H as (pv & H). pose proof (i_al _ _ _ _ _ G _ _ H). lia. }
  assert (asked size + 55 < 2 ^ 64) as Z2 by lia. assert (forall i, S (length (L i)) < fuel)%nat as Lf1 by (intros i; specialize (Lf i); lia).
  destruct (block_stage fuel st ch L (asked size) G Se Sh P1 Z2 Lf1) as [(E & H)|(x & st' & ch' & L' & E & X0 & Hx & Nu' & _ & S)].
  - destruct segment as [sg|].
    + destruct Fa as (A0 & A1 & Aw).
      destruct (heap_stage fuel st ch L (asked size) sg G Se Sh ltac:(lia) P1 ltac:(lia)) as (st1 & ch1 & L1 & E1 & Nu1 & S1 & pv & X1); [rewrite Ls; exact Aw|exact A1|intros i; specialize (Lf i); lia|].
      assert (forall i, S (length (L1 i)) < fuel)%nat as Lf2 by (intros i; specialize (Lf i); pose proof (g_len _ _ _ _ _ _ _ _ S1 i); lia).
      destruct (block_stage fuel st1 ch1 L1 (asked size) (g_good _ _ _ _ _ _ _ _ S1) (g_settled _ _ _ _ _ _ _ _ S1) (g_shape _ _ _ _ _ _ _ _ S1) P1 Z2 Lf2) as [(E2 & H2)|(x & st' & ch' & L' & E2 & X0 & Hx & Nu' & _ & S)].
      * exists 0, st1, ch1, L1. split; [exact (later _ _ _ _ st1 _ _ E E1 E2)|]. cbn [N.eqb]. split; [|split; [exact H0|]].
        -- constructor; try apply S1. intros j. pose proof (g_len _ _ _ _ _ _ _ _ S1 j). lia.
        -- intros _. right. unfold roomy. specialize (H2 _ _ X1 eq_refl). cbn [c_size] in H2. rewrite Ra, Ls in H2. lia.
      * exists x, st', ch', L'. split; [exact (later _ _ _ _ st1 _ _ E E1 E2)|]. destruct (N.eqb_spec x 0); [contradiction|]. rewrite (g_held _ _ _ _ _ _ _ _ S1) in Hx. split; [|split; [exact Hx|contradiction]].
        assert (stage 2 st st' ch ch' L L' (give x (round_up (asked size)) (held ch1))) as S2.
        { apply (stage_trans 1 1 _ _ _ _ _ _ _ _ _ _ _ S1 S); [lia|]. intros b s Hb _. exact Hb. }
        destruct S2 as [U1 U2 U3 U4 U5 U6 U7]. constructor; auto.
        -- intros b. rewrite U6. unfold give. destruct (b =? x); [reflexivity|]. apply (g_held _ _ _ _ _ _ _ _ S1).
        -- intros b s p Hb Hg Q1 Q2. apply (U7 b s p Hb); auto. revert Hg. unfold give. destruct (b =? x); [auto|]. now rewrite (g_held _ _ _ _ _ _ _ _ S1).
    + exists 0, st, ch, L. split; [now apply refused|]. cbn [N.eqb]. split; [|split; [exact H0|auto]]. constructor; auto; try lia.
  - exists x, st', ch', L'. split; [now apply at_once|]. destruct (N.eqb_spec x 0); [contradiction|]. split; [|split; [assumption|contradiction]].
    constructor; try apply S. intros j. pose proof (g_len _ _ _ _ _ _ _ _ S j). lia.
Qed.
Lemma acquire_taken fuel size segment st x st' : number st < 1024 -> taken fuel (asked size) segment st x st' -> AcquireWizardMemory fuel size segment st = Ok (x, st').
Proof.
  intros Nu T. unfold AcquireWizardMemory, activate. destruct (N.eqb_spec (number st) 1024); [lia|]. cbv zeta. rewrite at_least_asked.
  destruct T as [x st' E X|st1 x st' E E1 E2|E ->]; rewrite E; cbn [bind].
  - destruct (N.eqb_spec x 0); [contradiction|reflexivity].
  - cbn [N.eqb]. rewrite E1. cbn [bind]. exact E2.
  - cbn [N.eqb]. unfold ExpandHeap. cbv zeta. destruct (N.leb_spec 1024 (number st)); [lia|]. reflexivity.
Qed.

Lemma give_same x n h : give x n h x = Some n.
Proof. unfold give. now rewrite N.eqb_refl. Qed.
Lemma give_other x n h b : b <> x -> give x n h b = h b.
Proof. unfold give. destruct (N.eqb_spec b x); congruence. Qed.
Lemma drop_same x h : drop x h x = None.
Proof. unfold drop. now rewrite N.eqb_refl. Qed.
Lemma drop_other x h b : b <> x -> drop x h b = h b.
Proof. unfold drop. destruct (N.eqb_spec b x); congruence. Qed.
Lemma byte_kept st st' a n s q : a mod 16 = 0 -> n + 8 <= s -> s mod 32 = 0 -> a <= q -> q < a + n -> (forall p, a <= p -> p + 8 < a + s -> mem st' p = mem st p) -> byte st' q = byte st q.
Proof. intros A1 N1 S1 Q1 Q2 F. unfold byte. f_equal. apply F; lia. Qed.
Lemma held_facts st ch L b s : Good st ch L -> held ch b = Some s -> 16 <= b /\ b mod 16 = 0 /\ s mod 32 = 0 /\ 32 <= s.
Proof.
  intros G H. apply held_used in H as (pv & H). pose proof (i_al _ _ _ _ _ G _ _ H) as [A1 A2]. pose proof (i_sz _ _ _ _ _ G _ _ H) as Z. cbn [c_kind c_size ending] in Z. tauto.
Qed.

Lemma relinquish_stage fuel st ch L p s : Good st ch L -> settled ch -> Shape (mapped st) ch -> held ch p = Some s -> (forall i, length (L i) < fuel)%nat ->
  exists st' ch' L', RelinquishWizardMemory fuel p st = Ok st' /\ number st' = number st /\ stage 1 st st' ch ch' L L' (drop p (held ch)).
Proof.
  intros G Se Sh H Lf. apply held_used in H as (pv & H). destruct (relinquish_ok fuel st ch L p s pv G Se H Lf) as (st' & ch' & L' & E & M & Nu & G' & Se' & B & Le & F & Sp).
  exists st', ch', L'. split; [exact E|]. split; [exact Nu|]. constructor; auto.
  - rewrite M. auto.
  - lia.
  - intros b. unfold held, drop. rewrite B. destruct (b =? p); reflexivity.
  - intros b sb q Hb Hd Q1 Q2. destruct (N.eq_dec b p) as [->|Nb]; [now rewrite drop_same in Hd|]. apply held_used in Hb as (pvb & Hb). exact (F _ _ _ _ Nb Hb Q1 Q2).
Qed.

(** copying after the block was taken *)
Lemma copy_stage fuel st0 st ch L size p s x : AcquireBlock fuel size st0 = Ok (x, st) -> x <> 0 -> Good st ch L -> held ch p = Some s -> held ch x = Some (round_up size) -> p <> x -> 1 <= size -> size + 55 < 2 ^ 64 ->
  exists st', ResizeBlock fuel p size st0 = Ok (x, st') /\ number st' = number st /\ mapped st' = mapped st /\ Good st' ch L /\
    (forall b sb q, b <> x -> held ch b = Some sb -> b <= q -> q + 8 < b + sb -> mem st' q = mem st q) /\
    (forall i, i < N.min size (s - 8) -> byte st' (x + i) = byte st (p + i)).
Proof.
  intros E X G Hp Hx Np Z1 Z2. destruct (held_facts _ _ _ _ _ G Hp) as (P1 & P2 & P3 & P4). destruct (round_up_ok size Z1 Z2) as [R1 R2].
  apply held_used in Hp as (pv & Hp). apply held_used in Hx as (pvx & Hx).
  unfold ResizeBlock. rewrite E. cbn [bind]. destruct (N.eqb_spec x 0); [contradiction|]. rewrite (size_ok st ch L p _ G Hp Logic.I). cbn [bind c_size].
  assert ((if size <=? s - 8 then size else s - 8) = N.min size (s - 8)) as -> by (destruct (N.leb_spec size (s - 8)); lia).
  destruct (memcpy_ok st ch L p s pv x (round_up size) pvx (N.min size (s - 8)) Np G Hp Hx ltac:(lia) ltac:(lia)) as (st' & E' & M & Nu & G' & F & C).
  rewrite E'. cbn [bind]. exists st'. split; [reflexivity|]. split; [exact Nu|]. split; [exact M|]. split; [exact G'|]. split; [|exact C].
  intros b sb q Nb Hb Q1 Q2. apply F. apply held_used in Hb as (pvb & Hb).
  destruct (N.lt_ge_cases q x); [now left|]. destruct (N.le_gt_cases (x + round_up size) (q + 8)); [now right|]. exfalso.
  apply (payload_apart _ _ _ _ _ b sb pvb q x (mkChunk (round_up size) Used pvx) q G Hb Q1 Q2 Hx); [congruence|lia|unfold extent; cbn [c_kind ending c_size]; lia|reflexivity].
Qed.

Lemma resize_stage fuel st ch L p s size segment : Good st ch L -> settled ch -> Shape (mapped st) ch -> moderate st size -> fair st size segment -> segment <> None -> roomy size -> held ch p = Some s ->
  (forall i, 4 + length (L i) < fuel)%nat -> exists x st' ch' L', ResizeWizardMemory fuel p size segment st = Ok (x, st') /\ x <> 0 /\ x <> p /\ held ch x = None /\
  stage 3 st st' ch ch' L L' (give x (round_up (asked size)) (drop p (held ch))) /\ (forall i, i < N.min (asked size) (s - 8) -> byte st' (x + i) = byte st (p + i)).
Proof.
  intros G Se Sh Mo Fa Sn Ro Hp Lf. destruct (held_facts _ _ _ _ _ G Hp) as (P1 & P2 & P3 & P4). destruct (asked_pos size) as (Z1 & Z2 & _). destruct Mo as [Mo1 Mo2].
  destruct (round_up_ok (asked size) Z1 ltac:(lia)) as [R1 R2].
  destruct (obtain_stage fuel st ch L size segment G Se Sh (conj Mo1 Mo2) Fa) as (x & st1 & ch1 & L1 & T & S & Hx & X0); [intros i; specialize (Lf i); lia|].
  assert (x <> 0) as Xn by (intros Q; destruct (X0 Q); contradiction). destruct (N.eqb_spec x 0) as [|_]; [contradiction|].
  assert (x <> p) as Xp by congruence.
  assert (held ch1 x = Some (round_up (asked size))) as H1x by (rewrite (g_held _ _ _ _ _ _ _ _ S); apply give_same).
  assert (held ch1 p = Some s) as H1p by (rewrite (g_held _ _ _ _ _ _ _ _ S), give_other by auto; exact Hp).
  pose proof (g_good _ _ _ _ _ _ _ _ S) as G1.
  assert (exists st0, AcquireBlock fuel (asked size) st0 = Ok (x, st1) /\ (forall st2, ResizeBlock fuel p (asked size) st0 = Ok (x, st2) ->
    ResizeWizardMemory fuel p size segment st = let* st := RelinquishWizardMemory fuel p st2 in Ok (x, st))) as (st0 & E0 & Rz).
  { unfold ResizeWizardMemory. destruct (N.eqb_spec p 0); [lia|]. cbv zeta. change (at_least_one size) with (asked size). destruct T as [x st1 E X|st3 x st1 E E1 E2|E ->]; [| |contradiction].
    - exists st. split; [exact E|]. intros st2 ->. cbn [bind]. destruct (N.eqb_spec x 0); [contradiction|]. reflexivity.
    - exists st3. split; [exact E2|]. intros st2 Q. assert (ResizeBlock fuel p (asked size) st = Ok (0, st)) as -> by (unfold ResizeBlock; rewrite E; reflexivity).
      cbn [bind N.eqb]. rewrite E1. cbn [bind]. rewrite Q. cbn [bind]. destruct (N.eqb_spec x 0); [contradiction|]. reflexivity. }
  destruct (copy_stage fuel st0 st1 ch1 L1 (asked size) p s x E0 Xn G1 H1p H1x ltac:(auto) Z1 ltac:(lia)) as (st2 & E2 & Nu2 & M2 & G2 & F2 & C2). rewrite (Rz st2 E2).
  assert (Shape (mapped st2) ch1) as Sh2 by (rewrite M2; apply S).
  destruct (relinquish_stage fuel st2 ch1 L1 p s G2 (g_settled _ _ _ _ _ _ _ _ S) Sh2 H1p) as (st3 & ch3 & L3 & E3 & Nu3 & S3).
  { intros i. specialize (Lf i). pose proof (g_len _ _ _ _ _ _ _ _ S i). lia. }
  rewrite E3. cbn [bind]. exists x, st3, ch3, L3. split; [reflexivity|]. split; [exact Xn|]. split; [exact Xp|]. split; [exact Hx|].
  assert (forall b, drop p (held ch1) b = give x (round_up (asked size)) (drop p (held ch)) b) as Hh.
  { intros b. unfold drop, give. rewrite (g_held _ _ _ _ _ _ _ _ S). unfold give. destruct (N.eqb_spec b p), (N.eqb_spec b x); congruence. }
  split.
  - constructor.
    + apply S3.
    + apply S3.
    + apply S3.
    + intros j. pose proof (g_len _ _ _ _ _ _ _ _ S j). pose proof (g_len _ _ _ _ _ _ _ _ S3 j). lia.
    + pose proof (g_num _ _ _ _ _ _ _ _ S). lia.
    + intros b. rewrite (g_held _ _ _ _ _ _ _ _ S3). apply Hh.
    + intros b sb q Hb Hg Q1 Q2. assert (b <> x) as Nbx by congruence. rewrite give_other in Hg by assumption.
      assert (held ch1 b = Some sb) as Hb1 by (rewrite (g_held _ _ _ _ _ _ _ _ S), give_other by assumption; exact Hb).
      rewrite (g_mem _ _ _ _ _ _ _ _ S3 b sb q Hb1); [|rewrite Hh; now rewrite give_other|assumption|assumption].
      rewrite (F2 b sb q Nbx Hb1 Q1 Q2). apply (g_mem _ _ _ _ _ _ _ _ S b sb q Hb); [now rewrite give_other|assumption|assumption].
  - intros i Hi. transitivity (byte st2 (x + i)).
    + destruct (held_facts _ _ _ _ _ G1 H1x) as (X1 & X2 & _). apply (byte_kept _ _ x (asked size) (round_up (asked size))); [exact X2|lia|exact R1|lia|lia|].
      intros q Q1 Q2. apply (g_mem _ _ _ _ _ _ _ _ S3 x (round_up (asked size)) q H1x); [|assumption|assumption]. now rewrite drop_other by assumption.
    + rewrite C2 by exact Hi. apply (byte_kept _ _ p (s - 8) s); [exact P2|lia|exact P3|lia|lia|].
      intros q Q1 Q2. apply (g_mem _ _ _ _ _ _ _ _ S p s q Hp); [now rewrite give_other by auto|assumption|assumption].
Qed.

(** what holds after [k] calls *)
Record J (k : nat) (st : pool) (v : view) (ch : heap) (L : N -> list N) : Prop := {
  j_good : Good st ch L;
  j_settled : settled ch;
  j_shape : Shape (mapped st) ch;
  j_len : forall i, (length (L i) <= 4 * k)%nat;
  j_num : number st < 1024;
  j_live : forall a n, live v a = Some n -> exists s, held ch a = Some s /\ n + 24 <= s;
  j_held : forall a s, held ch a = Some s -> live v a <> None;
  j_data : forall q x, data v q = Some x -> byte st q = x /\ exists a n, live v a = Some n /\ a <= q < a + n }.

Lemma j_byte k st v ch L st' a n s q : J k st v ch L -> live v a = Some n -> held ch a = Some s -> a <= q < a + n -> (forall p, a <= p -> p + 8 < a + s -> mem st' p = mem st p) -> byte st' q = byte st q.
Proof.
  intros H A Hs Q F. destruct (held_facts _ _ _ _ _ (j_good _ _ _ _ _ H) Hs) as (A1 & A2 & A3 & A4). destruct (j_live _ _ _ _ _ H _ _ A) as (s' & Hs' & Ls). rewrite Hs in Hs'. injection Hs' as <-.
  apply (byte_kept _ _ a n s); auto; lia.
Qed.
Lemma j_apart k st v ch L : J k st v ch L -> separate v.
Proof.
  intros H a n b m A B Nab. destruct (j_live _ _ _ _ _ H _ _ A) as (s & Hs & Ls). destruct (j_live _ _ _ _ _ H _ _ B) as (t & Ht & Lt).
  apply held_used in Hs as (pv & Hs). apply held_used in Ht as (pw & Ht). destruct (N.lt_ge_cases a b).
  - left. pose proof (i_dj _ _ _ _ _ (j_good _ _ _ _ _ H) _ _ _ _ Hs Ht H0) as D. unfold extent in D. cbn [c_kind ending c_size] in D. lia.
  - right. pose proof (i_dj _ _ _ _ _ (j_good _ _ _ _ _ H) _ _ _ _ Ht Hs ltac:(lia)) as D. unfold extent in D. cbn [c_kind ending c_size] in D. lia.
Qed.

Lemma j_initial : exists ch L, J 0 initial (mkView (fun _ => None) (fun _ => None)) ch L.
Proof.
  exists (fun _ => None), (fun _ => []). constructor; cbn [live data mapped initial number]; try discriminate; try lia.
  - constructor; cbn [mem blocks mapped initial]; try discriminate; auto.
    + intros i x. split; [intros []|]. intros (c & C & _). discriminate.
    + intros i. constructor.
    + intros i. constructor.
    + intros i Hi. unfold empty_heads, upd. destruct (N.eqb_spec i MaxBlocks); [unfold MaxBlocks in *; lia|]. reflexivity.
  - constructor; cbn [In]; try tauto; try discriminate.
  - intros i. cbn [length]. lia.

Qed.
Lemma j_obtained k st v ch L size segment fuel : J k st v ch L -> moderate st size -> fair st size segment -> (4 * k + 8 <= fuel)%nat ->
  exists r st' ch' L', AcquireWizardMemory fuel size segment st = Ok (r, st') /\ J (S k) st' (obtained r size v) ch' L' /\ (r = 0 -> segment = None \/ ~ roomy size).
Proof.
  intros H Mo Fa Fu. destruct (asked_pos size) as (Z1 & Z2 & _). destruct Mo as [Mo1 Mo2]. destruct (round_up_ok (asked size) Z1 ltac:(lia)) as [R1 R2].
  destruct (obtain_stage fuel st ch L size segment (j_good _ _ _ _ _ H) (j_settled _ _ _ _ _ H) (j_shape _ _ _ _ _ H) (conj Mo1 Mo2) Fa) as (x & st' & ch' & L' & T & S & Hx & X0).
  { intros i. pose proof (j_len _ _ _ _ _ H i). lia. }
  exists x, st', ch', L'. split; [exact (acquire_taken _ _ _ _ _ _ (j_num _ _ _ _ _ H) T)|]. split; [|exact X0].
  assert (forall a s, live v a <> None -> held ch a = Some s -> held ch' a = Some s /\ forall p, a <= p -> p + 8 < a + s -> mem st' p = mem st p) as Ke.
  { intros a s A Hs. assert (a <> x) as Na by congruence. assert ((if x =? 0 then held ch else give x (round_up (asked size)) (held ch)) a = Some s) as Q by (destruct (x =? 0); [|rewrite give_other by assumption]; exact Hs).
    split; [rewrite (g_held _ _ _ _ _ _ _ _ S); exact Q|]. intros p P1 P2. exact (g_mem _ _ _ _ _ _ _ _ S a s p Hs Q P1 P2). }
  assert (forall q y, data v q = Some y -> byte st' q = y) as Kb.
  { intros q y D. destruct (j_data _ _ _ _ _ H _ _ D) as (B & a & n & A & Q). destruct (j_live _ _ _ _ _ H _ _ A) as (s & Hs & _). rewrite <- B.
    apply (j_byte _ _ _ _ _ _ _ _ _ _ H A Hs Q). apply Ke; [congruence|exact Hs]. }
  constructor; try apply S.
  - intros i. pose proof (j_len _ _ _ _ _ H i). pose proof (g_len _ _ _ _ _ _ _ _ S i). lia.
  - pose proof (g_num _ _ _ _ _ _ _ _ S). lia.
  - intros a n A. unfold obtained in A. destruct (N.eqb_spec x 0) as [E|E].
    + destruct (j_live _ _ _ _ _ H _ _ A) as (s & Hs & Ls). exists s. split; [|exact Ls]. apply Ke; [congruence|exact Hs].
    + cbn [live] in A. destruct (N.eq_dec a x) as [->|Na].
      * rewrite give_same in A. injection A as <-. exists (round_up (asked size)). split; [|lia]. rewrite (g_held _ _ _ _ _ _ _ _ S). apply give_same.
      * rewrite give_other in A by assumption. destruct (j_live _ _ _ _ _ H _ _ A) as (s & Hs & Ls). exists s. split; [|exact Ls]. apply Ke; [congruence|exact Hs].
  - intros a s. rewrite (g_held _ _ _ _ _ _ _ _ S). unfold obtained. destruct (N.eqb_spec x 0) as [E|E]; [apply (j_held _ _ _ _ _ H)|]. cbn [live]. unfold give.
    destruct (a =? x); [discriminate|]. apply (j_held _ _ _ _ _ H).
  - intros q y D. assert (data v q = Some y) as D' by (revert D; unfold obtained; destruct (x =? 0); auto). split; [now apply Kb|].
    destruct (j_data _ _ _ _ _ H _ _ D') as (_ & a & n & A & Q). exists a, n. split; [|exact Q]. unfold obtained. destruct (N.eqb_spec x 0); [exact A|]. cbn [live]. rewrite give_other; [exact A|].
    intros ->. destruct (j_live _ _ _ _ _ H _ _ A) as (s & Hs & _). congruence.
Qed.

Lemma j_step k st v ch L c fuel : J k st v ch L -> legal c st v -> (4 * k + 8 <= fuel)%nat ->
  exists r st' ch' L', run fuel c st = Ok (r, st') /\ J (S k) st' (after c r v) ch' L' /\
    (match c with Acquire size segment => r = 0 -> segment = None \/ ~ roomy size | Resize p size segment => r = 0 -> p = 0 /\ (segment = None \/ ~ roomy size) | _ => True end).
Proof.
  intros H Le Fu. pose proof (j_good _ _ _ _ _ H) as G.
  assert (live v 0 = None) as L0.
  { destruct (live v 0) as [n|] eqn:E; [|reflexivity]. destruct (j_live _ _ _ _ _ H _ _ E) as (s & Hs & _). destruct (held_facts _ _ _ _ _ G Hs). lia. }
  destruct c as [size segment|p|p size segment|p x]; cbn [legal run after] in *.
  - destruct Le as [Mo Fa]. exact (j_obtained _ _ _ _ _ size segment fuel H Mo Fa Fu).
  - destruct (live v p) as [n|] eqn:P.
    + destruct (j_live _ _ _ _ _ H _ _ P) as (s & Hs & Ls).
      destruct (relinquish_stage fuel st ch L p s G (j_settled _ _ _ _ _ H) (j_shape _ _ _ _ _ H) Hs) as (st' & ch' & L' & E & Nu & S); [intros i; pose proof (j_len _ _ _ _ _ H i); lia|].
      exists 0, st', ch', L'. rewrite E. cbn [bind]. split; [reflexivity|]. split; [|exact Logic.I]. constructor; cbn [live data]; try apply S.
      * intros i. pose proof (j_len _ _ _ _ _ H i). pose proof (g_len _ _ _ _ _ _ _ _ S i). lia.
      * rewrite Nu. apply H.
      * intros a m A. destruct (N.eq_dec a p) as [->|Na]; [now rewrite drop_same in A|]. rewrite drop_other in A by assumption. destruct (j_live _ _ _ _ _ H _ _ A) as (t & Ht & Lt). exists t. split; [|exact Lt].
        rewrite (g_held _ _ _ _ _ _ _ _ S). now rewrite drop_other.
      * intros a t. rewrite (g_held _ _ _ _ _ _ _ _ S). destruct (N.eq_dec a p) as [->|Na]; [now rewrite drop_same|]. rewrite !drop_other by assumption. apply (j_held _ _ _ _ _ H).
      * intros q x D. unfold forget in D. destruct ((p <=? q) && (q <? p + n)) eqn:Q; [discriminate|]. destruct (j_data _ _ _ _ _ H _ _ D) as (B & a & m & A & I).
        assert (a <> p) as Na by (intros ->; rewrite P in A; injection A as <-; lia). split; [|exists a, m; now rewrite drop_other].
        destruct (j_live _ _ _ _ _ H _ _ A) as (t & Ht & _). rewrite <- B. apply (j_byte _ _ _ _ _ _ _ _ _ _ H A Ht I). intros w W1 W2. apply (g_mem _ _ _ _ _ _ _ _ S a t w Ht); auto. now rewrite drop_other.
    + destruct Le as [->|Le]; [|contradiction]. exists 0, st, ch, L. split; [reflexivity|]. split; [|exact Logic.I]. destruct H. constructor; auto. intros i. specialize (j_len0 i). lia.
  - destruct Le as (Mo & Fa & Le). destruct (live v p) as [n|] eqn:P.
    + destruct Le as [->|(_ & Sn & Ro)]; [congruence|]. destruct (j_live _ _ _ _ _ H _ _ P) as (s & Hs & Ls).
      destruct (resize_stage fuel st ch L p s size segment G (j_settled _ _ _ _ _ H) (j_shape _ _ _ _ _ H) Mo Fa Sn Ro Hs) as (x & st' & ch' & L' & E & X0 & Xp & Hx & S & C); [intros i; pose proof (j_len _ _ _ _ _ H i); lia|].
      exists x, st', ch', L'. split; [exact E|]. split; [|intros Q; contradiction].
      destruct (asked_pos size) as (Z1 & Z2 & _). destruct Mo as [Mo1 Mo2]. destruct (round_up_ok (asked size) Z1 ltac:(lia)) as [R1 R2].
      assert (forall a m, live v a = Some m -> a <> x) as Nx.
      { intros a m A ->. destruct (j_live _ _ _ _ _ H _ _ A) as (t & Ht & _). congruence. }
      constructor; cbn [live data]; try apply S.
      * intros i. pose proof (j_len _ _ _ _ _ H i). pose proof (g_len _ _ _ _ _ _ _ _ S i). lia.
      * pose proof (g_num _ _ _ _ _ _ _ _ S). lia.
      * intros a m A. destruct (N.eq_dec a x) as [->|Na].
        -- rewrite give_same in A. injection A as <-. exists (round_up (asked size)). split; [|lia]. rewrite (g_held _ _ _ _ _ _ _ _ S). apply give_same.
        -- rewrite give_other in A by assumption. destruct (N.eq_dec a p) as [->|Nap]; [now rewrite drop_same in A|]. rewrite drop_other in A by assumption. destruct (j_live _ _ _ _ _ H _ _ A) as (t & Ht & Lt). exists t. split; [|exact Lt].
           rewrite (g_held _ _ _ _ _ _ _ _ S). rewrite give_other, drop_other by assumption. exact Ht.
      * intros a t. rewrite (g_held _ _ _ _ _ _ _ _ S). unfold give, drop. destruct (a =? x); [discriminate|]. destruct (a =? p); [discriminate|]. apply (j_held _ _ _ _ _ H).
      * intros q y. destruct ((x <=? q) && (q <? x + N.min n (asked size))) eqn:Q; intros D.
        -- destruct (j_data _ _ _ _ _ H _ _ D) as (B & _). split.
           ++ replace q with (x + (q - x)) by lia. rewrite C by lia. exact B.
           ++ exists x, (asked size). rewrite give_same. split; [reflexivity|lia].
        -- unfold forget in D. destruct ((p <=? q) && (q <? p + n)) eqn:Q2; [discriminate|]. destruct (j_data _ _ _ _ _ H _ _ D) as (B & a & m & A & I).
           assert (a <> p) as Na by (intros ->; rewrite P in A; injection A as <-; lia). pose proof (Nx _ _ A) as Nax. split; [|exists a, m; rewrite give_other, drop_other by assumption; auto].
           destruct (j_live _ _ _ _ _ H _ _ A) as (t & Ht & _). rewrite <- B. apply (j_byte _ _ _ _ _ _ _ _ _ _ H A Ht I). intros w W1 W2. apply (g_mem _ _ _ _ _ _ _ _ S a t w Ht); auto. now rewrite give_other, drop_other.
    + destruct Le as [->|(Le & _)]; [|contradiction]. unfold ResizeWizardMemory. cbn [N.eqb].
      destruct (j_obtained _ _ _ _ _ size segment fuel H Mo Fa Fu) as (r & st' & ch' & L' & E & H' & R). exists r, st', ch', L'. auto.
  - destruct Le as (X & a & n & A & Q). destruct (j_live _ _ _ _ _ H _ _ A) as (s & Hs & Ls). destruct (held_facts _ _ _ _ _ G Hs) as (A1 & A2 & A3 & A4).
    pose proof Hs as Hu. apply held_used in Hu as (pv & Hu). assert (extent (mkChunk s Used pv) = s) as Ex by reflexivity.
    unfold store. rewrite (rd_ok st ch L a _ _ G Hu) by lia. cbn [bind]. rewrite (wr_ok st ch L a _ _ _ G Hu) by lia. cbn [bind].
    eexists 0, _, ch, L. split; [reflexivity|]. split; [|exact Logic.I].
    assert (forall q, q <> p -> byte (with_mem st (upd (mem st) (8 * (p / 8)) (put (mem st (8 * (p / 8))) (p mod 8) x)) (blocks st)) q = byte st q) as By.
    { intros q Nq. unfold byte. cbn [with_mem mem]. destruct (N.eq_dec (8 * (q / 8)) (8 * (p / 8))) as [E|E].
      - rewrite E, upd_same. apply put_other; [exact X|]. intros E2. apply Nq. lia.
      - now rewrite upd_other. }
    constructor; cbn [live data with_mem mapped number].
    + unfold Good. cbn [with_mem mem blocks mapped]. apply (write_own _ _ _ _ _ a _ _ _ G Hu); cbn [c_kind]; lia.
    + apply H.
    + apply H.
    + intros i. pose proof (j_len _ _ _ _ _ H i). lia.
    + apply H.
    + apply H.
    + apply H.
    + intros q y D. destruct (N.eqb_spec q p) as [->|Nq].
      * injection D as <-. split; [|eauto]. unfold byte. cbn [with_mem mem]. rewrite upd_same. now apply put_same.
      * rewrite By by assumption. exact (j_data _ _ _ _ _ H _ _ D).
Qed.

Lemma j_history k st v : history k st v -> exists ch L, J k st v ch L.
Proof.
  induction 1 as [|k st v c fuel r st' H IH Le Fu E]; [exact j_initial|]. destruct IH as (ch & L & IH).
  destruct (j_step _ _ _ _ _ c fuel IH Le Fu) as (r' & st'' & ch' & L' & E' & H' & _). rewrite E in E'. injection E' as <- <-. eauto.
Qed.
