(** Bytes, copying, ResizeBlock. *)
From Coq Require Import Arith NArith ZArith Bool List Lia Sorted ZifyBool ZifyNat ZifyN.
From Verif Require Import Outcome PoolModel PoolProof PoolProof2 PoolProof3 PoolProof4 PoolProof5 PoolProof6 PoolSpec.
Import ListNotations.
Local Open Scope N_scope.
Ltac Zify.zify_post_hook ::= Z.div_mod_to_equations.

Lemma byte_low w i k : i < k -> byte_of (w mod 256 ^ k) i = byte_of w i.
Proof.
  intros H. unfold byte_of. replace k with (i + (1 + (k - i - 1))) by lia. rewrite !N.pow_add_r. change (256 ^ 1) with 256.
  set (A := 256 ^ i). set (B := 256 ^ (k - i - 1)). assert (A <> 0) by (apply N.pow_nonzero; lia). assert (B <> 0) by (apply N.pow_nonzero; lia).
  rewrite (N.mod_mul_r w A (256 * B)) by lia. rewrite (N.mul_comm A). rewrite N.div_add by lia. rewrite (N.div_small (w mod A)) by (apply N.mod_lt; lia). rewrite N.add_0_l.
  rewrite (N.mod_mul_r (w / A) 256 B) by lia. rewrite (N.mul_comm 256), N.mod_add by lia. apply N.mod_mod. lia.
Qed.
Lemma byte_high w i k : k <= i -> byte_of w i = byte_of (w / 256 ^ k) (i - k).
Proof.
  intros H. unfold byte_of. rewrite N.div_div by (apply N.pow_nonzero; lia). rewrite <- N.pow_add_r. now replace (k + (i - k)) with i by lia.
Qed.
Lemma put_same w j v : v < 256 -> byte_of (put w j v) j = v.
Proof.
  intros V. unfold byte_of, put. assert (256 ^ j <> 0) as K by (apply N.pow_nonzero; lia). rewrite N.pow_add_r. change (256 ^ 1) with 256.
  replace (w / (256 ^ j * 256) * (256 ^ j * 256) + v * 256 ^ j + w mod 256 ^ j) with (w mod 256 ^ j + (v + w / (256 ^ j * 256) * 256) * 256 ^ j) by lia.
  rewrite N.div_add by assumption. rewrite N.div_small by (apply N.mod_lt; assumption). rewrite N.add_0_l, N.mod_add by lia. now apply N.mod_small.
Qed.
Lemma put_other w j v i : v < 256 -> i <> j -> byte_of (put w j v) i = byte_of w i.
Proof.
  intros V Ne. assert (256 ^ j <> 0) as K by (apply N.pow_nonzero; lia). destruct (N.lt_ge_cases i j).
  - rewrite <- (byte_low _ i j) by assumption. rewrite <- (byte_low w i j) by assumption. f_equal. unfold put. rewrite N.pow_add_r. change (256 ^ 1) with 256.
    replace (w / (256 ^ j * 256) * (256 ^ j * 256) + v * 256 ^ j + w mod 256 ^ j) with (w mod 256 ^ j + (v + w / (256 ^ j * 256) * 256) * 256 ^ j) by lia.
    rewrite N.mod_add by assumption. now apply N.mod_mod.
  - rewrite (byte_high _ i (j + 1)), (byte_high w i (j + 1)) by lia. f_equal. unfold put. assert (256 ^ (j + 1) <> 0) as K1 by (apply N.pow_nonzero; lia).
    rewrite <- N.add_assoc, N.add_comm. rewrite N.div_add by assumption. rewrite N.div_small; [reflexivity|]. rewrite N.pow_add_r. change (256 ^ 1) with 256. pose proof (N.mod_lt w _ K). nia.
Qed.
Lemma mix_low w v k i : i < k -> byte_of (w / 256 ^ k * 256 ^ k + v mod 256 ^ k) i = byte_of v i.
Proof.
  intros H. assert (256 ^ k <> 0) as K by (apply N.pow_nonzero; lia). rewrite <- (byte_low _ i k) by assumption. rewrite N.add_comm, N.mod_add by assumption. rewrite N.mod_mod by assumption. now apply byte_low.
Qed.

Lemma copy_words_ok ch L a s pva x n pvx : a <> x -> forall j st o, Good st ch L -> ch a = Some (mkChunk s Used pva) -> ch x = Some (mkChunk n Used pvx) ->
  o mod 8 = 0 -> o + 8 * N.of_nat j + 8 <= s -> o + 8 * N.of_nat j + 8 <= n -> exists st',
  copy_words j (x + o) (a + o) st = Ok st' /\ mapped st' = mapped st /\ number st' = number st /\ Good st' ch L /\
  (forall q, q < x + o \/ x + o + 8 * N.of_nat j <= q -> mem st' q = mem st q) /\
  (forall i, i < N.of_nat j -> mem st' (x + o + 8 * i) = mem st (a + o + 8 * i)).
Proof.
  intros Nx. induction j as [|j IH]; intros st o G A X O1 O2 O3; cbn [copy_words].
  - exists st. split; [reflexivity|]. split; [reflexivity|]. split; [reflexivity|]. split; [exact G|]. split; [reflexivity|]. lia.
  - pose proof (i_al _ _ _ _ _ G _ _ A) as [Al1 Al2]. pose proof (i_al _ _ _ _ _ G _ _ X) as [Al3 Al4].
    assert (extent (mkChunk s Used pva) = s /\ extent (mkChunk n Used pvx) = n) as [Ea Ex] by (split; reflexivity).
    rewrite (rd_ok st ch L a _ _ G A) by lia. cbn [bind]. rewrite (wr_ok st ch L x _ _ _ G X) by lia. cbn [bind].
    set (st1 := with_mem _ _ _). assert (Good st1 ch L) as G1 by (unfold Good, st1; cbn [with_mem mem blocks mapped]; apply (write_own _ _ _ _ _ x _ _ _ G X); cbn [c_kind]; lia).
    replace (x + o + 8) with (x + (o + 8)) by lia. replace (a + o + 8) with (a + (o + 8)) by lia.
    destruct (IH st1 (o + 8) G1 A X ltac:(lia) ltac:(lia) ltac:(lia)) as (st' & E & M & Nu & G' & F & C).
    exists st'. split; [exact E|]. split; [exact M|]. split; [exact Nu|]. split; [exact G'|]. split.
    + intros q Q. rewrite F by lia. unfold st1. cbn [with_mem mem]. apply upd_other. lia.
    + intros i Hi. destruct (N.eq_dec i 0) as [->|].
      * rewrite !N.mul_0_r, !N.add_0_r. rewrite F by lia. unfold st1. cbn [with_mem mem]. apply upd_same.
      * replace (x + o + 8 * i) with (x + (o + 8) + 8 * (i - 1)) by lia. rewrite C by lia. replace (a + (o + 8) + 8 * (i - 1)) with (a + o + 8 * i) by lia.
        unfold st1. cbn [with_mem mem]. apply upd_other.
        apply (payload_apart _ _ _ _ _ a s pva _ x (mkChunk n Used pvx) _ G A); [lia|lia|exact X|congruence|lia|lia].
Qed.
Lemma memcpy_ok st ch L a s pva x n pvx k : a <> x -> Good st ch L -> ch a = Some (mkChunk s Used pva) -> ch x = Some (mkChunk n Used pvx) ->
  k + 8 <= s -> k + 24 <= n -> exists st',
  memcpy x a k st = Ok st' /\ mapped st' = mapped st /\ number st' = number st /\ Good st' ch L /\
  (forall q, q < x \/ x + n <= q + 8 -> mem st' q = mem st q) /\ (forall i, i < k -> byte st' (x + i) = byte st (a + i)).
Proof.
  intros Nx G A X K1 K2. unfold memcpy. set (j := k / 8).
  pose proof (i_al _ _ _ _ _ G _ _ A) as [Al1 Al2]. pose proof (i_al _ _ _ _ _ G _ _ X) as [Al3 Al4].
  pose proof (i_sz _ _ _ _ _ G _ _ A) as [Sa _]. cbn [c_size c_kind ending] in Sa. pose proof (i_sz _ _ _ _ _ G _ _ X) as [Sx _]. cbn [c_size c_kind ending] in Sx.
  assert (extent (mkChunk s Used pva) = s /\ extent (mkChunk n Used pvx) = n) as [Ea Ex] by (split; reflexivity).
  destruct (copy_words_ok ch L a s pva x n pvx Nx (N.to_nat j) st 0 G A X eq_refl) as (st1 & E & M & Nu & G1 & F & C); [lia|lia|].
  rewrite !N.add_0_r in E. rewrite E. cbn [bind]. rewrite N2Nat.id in F, C.
  assert (forall q i, q mod 16 = 0 -> 8 * ((q + i) / 8) = q + 8 * (i / 8)) as D1 by (intros; lia).
  assert (forall q i, q mod 16 = 0 -> (q + i) mod 8 = i mod 8) as D2 by (intros; lia).
  assert (forall i, i < 8 * j -> byte st1 (x + i) = byte st (a + i)) as Wh.
  { intros i Hi. unfold byte. rewrite !D1, !D2 by assumption. f_equal. specialize (C (i / 8) ltac:(lia)). rewrite !N.add_0_r in C. exact C. }
  destruct (N.eqb_spec (k mod 8) 0) as [Z|Z].
  - exists st1. split; [reflexivity|]. split; [exact M|]. split; [exact Nu|]. split; [exact G1|]. split; [intros q Q; apply F; lia|]. intros i Hi. apply Wh. lia.
  - assert (s mod 32 = 0) as S32 by lia.
    rewrite (rd_ok st1 ch L a _ _ G1 A) by lia. cbn [bind]. rewrite (rd_ok st1 ch L x _ _ G1 X) by lia. cbn [bind].
    match goal with |- context [wr ?t ?u st1] => set (v := u) end. assert (forall i, i < k mod 8 -> byte_of v i = byte_of (mem st1 (a + 8 * j)) i) as Hv by (intros; apply mix_low; assumption). clearbody v. rewrite (wr_ok st1 ch L x _ _ _ G1 X) by lia. cbn [bind].
    eexists. split; [reflexivity|]. split; [exact M|]. split; [exact Nu|]. split; [|split].
    + unfold Good. cbn [with_mem mem blocks mapped]. apply (write_own _ _ _ _ _ x _ _ _ G1 X); cbn [c_kind]; lia.
    + intros q Q. cbn [with_mem mem]. rewrite upd_other by lia. apply F. lia.
    + intros i Hi. destruct (N.lt_ge_cases i (8 * j)).
      * rewrite <- Wh by assumption. unfold byte. cbn [with_mem mem]. rewrite upd_other by lia. reflexivity.
      * unfold byte. cbn [with_mem mem]. rewrite !D1, !D2 by assumption. replace (i / 8) with j by lia. rewrite upd_same.
        rewrite Hv by lia. f_equal. apply F.
        assert (forall q, x - 8 <= q -> q + 8 < x + n -> a + 8 * j <> q) as Ap by (intros q Q1 Q2; apply (payload_apart _ _ _ _ _ a s pva _ x (mkChunk n Used pvx) _ G A); [lia|lia|exact X|congruence|lia|lia]).
        destruct (N.lt_ge_cases (a + 8 * j) x); [lia|]. destruct (N.le_gt_cases (x + n) (a + 8 * j + 8)); [lia|]. exfalso. apply (Ap (a + 8 * j)); lia.
Qed.
