(** What happens after the last of the 1024 segments was taken. *)
From Coq Require Import Arith NArith ZArith Bool List Lia Sorted ZifyBool ZifyNat ZifyN.
From Verif Require Import Outcome PoolModel PoolProof PoolProof2 PoolProof3 PoolProof4 PoolProof5 PoolProof6 PoolSpec PoolProof7 PoolProof8 PoolProof9.
Import ListNotations.
Local Open Scope N_scope.
Ltac Zify.zify_post_hook ::= Z.div_mod_to_equations.

(** states a program can reach *)
Inductive executed : pool -> Prop :=
| at_start : executed initial
| one_more st c fuel r st' : executed st -> run fuel c st = Ok (r, st') -> executed st'.

(** [n] segments were taken and everything was given back *)
Definition emptied (n : N) (st : pool) : Prop := executed st /\ number st = n /\ exists ch L B,
  Good st ch L /\ settled ch /\ Shape (mapped st) ch /\ (forall i, (length (L i) <= B)%nat) /\ (forall b, held ch b = None) /\
  (forall s l, In (s, l) (mapped st) -> s + l <= 2097152 * ((n + 1) * (n + 1)) /\ l <= 2097152 * (n + 1)) /\ (n <> 0 -> mapped st <> []).
Lemma emptied_0 : emptied 0 initial.
Proof.
  split; [constructor|]. split; [reflexivity|]. destruct j_initial as (ch & L & H). exists ch, L, O.
  split; [apply H|]. split; [apply H|]. split; [apply H|]. split; [intros i; pose proof (j_len _ _ _ _ _ H i); lia|]. split; [|split; [intros s l []|congruence]].
  intros b. destruct (held ch b) as [s|] eqn:E; [|reflexivity]. now destruct (j_held _ _ _ _ _ H _ _ E).
Qed.
Lemma emptied_more n st : emptied n st -> n < 1024 -> exists st', emptied (n + 1) st'.
Proof.
  intros (Ex & Nu & ch & L & B & G & Se & Sh & Le & He & Mp & _) Ln.
  set (size := 2097152 * (n + 1)). set (sg := 2097152 * ((n + 1) * (n + 1))). assert (size + 2097247 < 2 ^ 64) as Z1 by (unfold size; change (2 ^ 64) with 18446744073709551616; lia).
  assert (1 <= size) as Z2 by lia. assert (asked size = size) as As by (unfold asked; destruct (N.eqb_spec size 0); lia).
  assert (segment_size size = 2097152 * (n + 2)) as Ls.
  { rewrite <- As. rewrite length_size by lia. unfold segment_length. rewrite As. unfold size. lia. }
  destruct (round_up_ok size Z2 ltac:(lia)) as [R1 R2].
  destruct (block_stage (B + 8) st ch L size G Se Sh Z2 ltac:(lia)) as [(E1 & _)|(x & st' & ch' & L' & E & X0 & Hx & Nu' & M' & S)]; [intros i; specialize (Le i); lia| |].
  2:{ exfalso. destruct (acquire_ok (B + 8) st ch L size G Se Z2 ltac:(lia)) as [(E1 & _)|(y & s & pv & st2 & ch2 & L2 & E2 & X & Ns & _)]; [intros i; specialize (Le i); lia|rewrite E in E1; injection E1 as -> ->; contradiction|].
      destruct (h_in _ _ Sh _ _ X) as (s0 & l0 & I & J1 & J2). cbn [c_kind ending c_size] in J2. destruct (Mp _ _ I) as [_ Q]. unfold size in *. lia. }
  destruct (heap_stage (B + 8) st ch L size sg G Se Sh Z1 Z2 ltac:(lia)) as (st1 & ch1 & L1 & E2 & Nu1 & S1 & pv & X1).
  { intros s l I. right. apply (Mp _ _ I). }
  { unfold sg. lia. }
  { intros i; specialize (Le i); lia. }
  destruct (expand_ok (B + 8) st ch L size sg G Se Z1 Z2 ltac:(lia)) as (st1' & _ & _ & E2' & M1 & _); [intros s l I; right; apply (Mp _ _ I)|unfold sg; lia|intros i; specialize (Le i); lia|].
  rewrite E2 in E2'. injection E2' as <-.
  destruct (block_stage (B + 8) st1 ch1 L1 size (g_good _ _ _ _ _ _ _ _ S1) (g_settled _ _ _ _ _ _ _ _ S1) (g_shape _ _ _ _ _ _ _ _ S1) Z2 ltac:(lia)) as [(_ & Q)|(x & st2 & ch2 & L2 & E3 & X0 & Hx & Nu2 & M2 & S2)].
  { intros i. pose proof (g_len _ _ _ _ _ _ _ _ S1 i). specialize (Le i). lia. }
  { specialize (Q _ _ X1 eq_refl). cbn [c_size] in Q. rewrite Ls in Q. unfold size in *. lia. }
  assert (held ch2 x = Some (round_up size)) as Hx2 by (rewrite (g_held _ _ _ _ _ _ _ _ S2); apply give_same).
  destruct (relinquish_stage (B + 8) st2 ch2 L2 x _ (g_good _ _ _ _ _ _ _ _ S2) (g_settled _ _ _ _ _ _ _ _ S2) (g_shape _ _ _ _ _ _ _ _ S2) Hx2) as (st3 & ch3 & L3 & E4 & Nu3 & S3).
  { intros i. pose proof (g_len _ _ _ _ _ _ _ _ S1 i). pose proof (g_len _ _ _ _ _ _ _ _ S2 i). specialize (Le i). lia. }
  assert (mapped st3 = mapped st2) as M3.
  { pose proof Hx2 as Q. apply held_used in Q as (pw & Q). destruct (relinquish_ok (B + 8) st2 ch2 L2 x _ pw (g_good _ _ _ _ _ _ _ _ S2) (g_settled _ _ _ _ _ _ _ _ S2) Q) as (t & _ & _ & Et & Mt & _).
    { intros i. pose proof (g_len _ _ _ _ _ _ _ _ S1 i). pose proof (g_len _ _ _ _ _ _ _ _ S2 i). specialize (Le i). lia. }
    rewrite E4 in Et. injection Et as <-. exact Mt. }
  exists st3. split; [|split; [lia|]].
  - apply (one_more st2 (Relinquish x) (B + 8) 0 st3); [|cbn [run]; now rewrite E4].
    apply (one_more st (Acquire size (Some sg)) (B + 8) x st2); [exact Ex|]. cbn [run]. apply acquire_taken; [lia|]. rewrite As. exact (later _ _ _ _ st1 _ _ E1 E2 E3).
  - exists ch3, L3, (B + 3)%nat. split; [apply S3|]. split; [apply S3|]. split; [apply S3|]. split; [|split; [|split]].
    + intros i. pose proof (g_len _ _ _ _ _ _ _ _ S1 i). pose proof (g_len _ _ _ _ _ _ _ _ S2 i). pose proof (g_len _ _ _ _ _ _ _ _ S3 i). specialize (Le i). lia.
    + intros b. rewrite (g_held _ _ _ _ _ _ _ _ S3). unfold drop. destruct (N.eqb_spec b x); [reflexivity|]. rewrite (g_held _ _ _ _ _ _ _ _ S2), give_other by assumption. rewrite (g_held _ _ _ _ _ _ _ _ S1). apply He.
    + intros s l. rewrite M3, M2, M1. intros I. apply in_app_or in I as [I|[I|[]]].
      * destruct (Mp _ _ I). nia.
      * injection I as <- <-. rewrite Ls. unfold sg. nia.
    + intros _. rewrite M3, M2, M1. intros Q. apply app_eq_nil in Q as [_ Q]. discriminate.
Qed.
Lemma emptied_all n : (n <= 1024)%nat -> exists st, emptied (N.of_nat n) st.
Proof.
  induction n as [|n IH]; intros H; [exists initial; exact emptied_0|]. destruct (IH ltac:(lia)) as (st & E). destruct (emptied_more _ st E ltac:(lia)) as (st' & E'). exists st'. now replace (N.of_nat (S n)) with (N.of_nat n + 1) by lia.
Qed.

(** ** Refuted: a request is served while there is a free block for it.  With the last
    segment taken the pool is set up anew and all free blocks are forgotten *)
Theorem pool_reset_refuted : exists st b, executed st /\ laid st b /\ is_free st b /\ needed 1 <= size_in st b /\
  forall fuel, exists st', AcquireWizardMemory (S fuel) 1 None st = Ok (0, st').
Proof.
  destruct (emptied_all 1024 (Nat.le_refl _)) as (st & Ex & Nu & ch & L & B & G & Se & Sh & Le & He & Mp & Ne).
  assert (exists s l, In (s, l) (mapped st)) as (s & l & I).
  { destruct (mapped st) as [|[s l] rest]; [exfalso; apply Ne; [lia|reflexivity]|]. exists s, l. now left. }
  destruct (h_fi _ _ Sh _ _ I) as (L0 & c & C & E).
  assert (c_kind c = Free) as K.
  { pose proof (Se _ _ C) as Q. destruct c as [z kd pv]. destruct kd; cbn [c_kind ending settled_kind] in E, Q |- *; try discriminate; try tauto. specialize (He (s + 32)). unfold held, busy in He. rewrite C in He. discriminate. }
  exists st, (s + 32). split; [exact Ex|]. split; [exact (chunk_laid _ _ _ G Se Sh _ _ C E)|]. split; [now apply (chunk_free _ _ _ G Se _ _ C E)|].
  split; [change (needed 1) with 32; exact (proj2 (chunk_laid_size _ _ _ G Se _ _ C) E)|].
  intros fuel. unfold AcquireWizardMemory, activate. rewrite Nu. change (N.of_nat 1024 =? 1024) with true. cbv iota zeta. change (at_least_one 1) with 1.
  assert (forall m mp n, AcquireBlock (S fuel) 1 (mkPool m empty_heads mp n) = Ok (0, mkPool m empty_heads mp n)) as -> by reflexivity.
  cbn [bind N.eqb]. eexists. reflexivity.
Qed.
Print Assumptions pool_reset_refuted.
