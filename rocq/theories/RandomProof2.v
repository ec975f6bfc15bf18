(** Lemmas for RandomProps.v: the stream. *)
From Coq Require Import NArith Arith List Lia Bool ZifyBool ZifyNat ZifyN.
From Verif Require Import Base BaseLemmas HashModel HashProps HmacModel HmacProps RandomModel RandomSpec RandomProof.
Import ListNotations.

Lemma blocks_needed_unique d n q : 0 < d -> n <= q * d -> q * d < n + d -> blocks_needed d n = q.
Proof. intros D A B. symmetry. apply (Nat.div_unique _ _ _ (n + (d - 1) - q * d)); lia. Qed.
Lemma blocks_needed_bounds d n : 0 < d -> n <= blocks_needed d n * d /\ blocks_needed d n * d < n + d.
Proof.
  intros D. unfold blocks_needed. pose proof (Nat.div_mod (n + (d - 1)) d ltac:(lia)) as E.
  pose proof (Nat.mod_upper_bound (n + (d - 1)) d ltac:(lia)). rewrite (Nat.mul_comm _ d). lia.
Qed.
Lemma blocks_needed_mono d n m : 0 < d -> n <= m -> blocks_needed d n <= blocks_needed d m.
Proof. intros D L. apply Nat.div_le_mono; lia. Qed.

Lemma stream_app d B p a b : stream d B p (a + b) = stream d B p a ++ stream d B (p + a) b.
Proof. unfold stream. now rewrite seq_app, map_app. Qed.
Lemma stream_length d B p n : length (stream d B p n) = n.
Proof. unfold stream. now rewrite map_length, seq_length. Qed.

Lemma slice_seq (l : list N) a m : a + m <= length l -> firstn m (skipn a l) = map (fun i => nth i l 0%N) (seq a m).
Proof.
  revert a l. induction m as [|m IH]; intros a l H; [reflexivity|].
  destruct (skipn a l) as [|x t] eqn:E.
  - apply (f_equal (@length N)) in E. rewrite skipn_length in E. cbn in E. lia.
  - cbn [firstn seq map]. f_equal.
    + rewrite <- (firstn_skipn a l), E, app_nth2; rewrite firstn_length; [|lia]. replace (a - Nat.min a (length l)) with 0 by lia. reflexivity.
    + rewrite <- IH by lia. f_equal. change t with (skipn 1 (x :: t)). rewrite <- E. revert l E H. clear.
      induction a as [|a IH]; intros l E H; [reflexivity|]. destruct l as [|y l]; [discriminate E|]. cbn [skipn] in *. apply IH; [exact E | cbn in H; lia].
Qed.
Lemma stream_block d B k a m : 0 < d -> a + m <= d -> length (B k) = d -> stream d B (k * d + a) m = firstn m (skipn a (B k)).
Proof.
  intros D L E. rewrite slice_seq by lia. unfold stream. rewrite <- (Nat.add_0_r a) at 2.
  replace (seq (k * d + a) m) with (map (fun i => k * d + i) (seq a m)).
  2:{ clear. revert a. induction m as [|m IH]; intros a; [reflexivity|]. cbn [seq map]. f_equal. rewrite IH. f_equal. lia. }
  rewrite map_map, Nat.add_0_r. apply map_ext_in. intros i Hi. apply in_seq in Hi. unfold stream_byte.
  assert (i < d) by lia. replace ((k * d + i) / d) with k. 2:{ apply (Nat.div_unique _ _ _ i); lia. }
  replace ((k * d + i) mod d) with i; [reflexivity|]. apply (Nat.mod_unique _ _ k); lia.
Qed.

Lemma drain_spec i : forall ri datum d, 0 < d -> ri < d -> length datum = d ->
  drain i ri datum d =
  if Nat.eqb ri 0 then ([], i, 0)
  else let m := Nat.min i (d - ri) in (firstn m (skipn ri datum), i - m, if Nat.eqb (ri + m) d then 0 else ri + m).
Proof.
  induction i as [|i IH]; intros ri datum d D R L; cbn [drain].
  - destruct (Nat.eqb_spec ri 0) as [->|]; [reflexivity|]. cbv zeta. cbn [Nat.min firstn]. rewrite Nat.add_0_r.
    destruct (Nat.eqb_spec ri d); [lia | reflexivity].
  - destruct (Nat.eqb_spec ri 0) as [->|NZ]; [reflexivity|]. cbv zeta.
    assert (Sk : skipn ri datum = get datum ri :: skipn (S ri) datum).
    { revert datum L R. clear. intros datum L R. rewrite <- L in R. clear L. revert datum R. induction ri as [|ri IH]; intros datum R; destruct datum as [|x datum]; cbn in *; try lia; [reflexivity|].
      apply IH. lia. }
    destruct (Nat.eqb_spec (S ri) d) as [E|E].
    + rewrite (IH 0 datum d D ltac:(lia) L). cbn [Nat.eqb]. replace (Nat.min (S i) (d - ri)) with 1 by lia.
      rewrite Sk. cbn [firstn]. replace (S i - 1) with i by lia. replace (ri + 1) with d by lia. now rewrite Nat.eqb_refl.
    + rewrite (IH (S ri) datum d D ltac:(lia) L). replace (S ri =? 0) with false by reflexivity. cbv zeta.
      replace (Nat.min (S i) (d - ri)) with (S (Nat.min i (d - S ri))) by lia. rewrite Sk. cbn [firstn].
      replace (ri + S (Nat.min i (d - S ri))) with (S ri + Nat.min i (d - S ri)) by lia. reflexivity.
Qed.

Section Run.
Variables (fuel : nat) (lsb : bool) (junk : list N).
Hypothesis Hjunk : length junk = 64.
Hypothesis Hfuel : 3 <= fuel.
Variables (hash : HashType) (hm0 : HMACInfo) (n0 : list N).
Hypothesis Hstart : start_ok lsb hash hm0.
Hypothesis Hnonce : n0 <> [] /\ piece_ok n0.

Notation digest_at := (digest_at fuel lsb junk).
Definition blocks (k : nat) : list N := digest_at hm0 (nonce_at n0 k).
Notation d := (GetHashDigestsize hash).
Definition fits (k : nat) : bool := (counter n0 + N.of_nat k <? counter_limit n0)%N.

Lemma d_pos : 0 < d.
Proof. pose proof (digestsize_pos hash). lia. Qed.
Lemma nonce_piece k : piece_ok (nonce_at n0 k).
Proof.
  destruct Hnonce as (A & B & C). split; [now apply nonce_at_bytes|]. rewrite nonce_at_length by exact A. exact C.
Qed.
Lemma blocks_length k : length (blocks k) = d.
Proof. exact (digest_at_length fuel lsb junk Hjunk Hfuel hash hm0 _ Hstart (nonce_piece k)). Qed.

Lemma gen_digestsize hm : gen lsb hash hm0 hm -> hm_digestsize hm = d.
Proof. intros [G _ _]. unfold hm_digestsize. destruct (ok_hash _ _ _ G) as (-> & _). reflexivity. Qed.

Lemma next_block_spec hm k : gen lsb hash hm0 hm -> fits k = true ->
  exists hm', gen lsb hash hm0 hm' /\ hm_digest hm' = blocks k /\
    next_block fuel lsb junk hm (nonce_at n0 k) = if fits (S k) then Done (hm', nonce_at n0 (S k)) else Wrap.
Proof.
  intros G F. destruct (mac_gen fuel lsb junk Hjunk Hfuel hash hm0 hm (nonce_at n0 k) Hstart G (nonce_piece k)) as (hm' & M & G' & D & _).
  exists hm'. split; [exact G'|]. split; [exact D|]. unfold next_block. rewrite M.
  rewrite IncrementRandomNonce_spec; [|apply Hnonce | apply Hnonce | unfold fits in F; lia].
  unfold fits. destruct (_ <? _)%N; reflexivity.
Qed.

Lemma whole_blocks_spec t : forall hm k, gen lsb hash hm0 hm -> fits k = true ->
  if fits (k + t) then
    exists hm', gen lsb hash hm0 hm' /\ whole_blocks fuel lsb junk t hm (nonce_at n0 k) =
      Done (hm', nonce_at n0 (k + t), stream d blocks (k * d) (t * d), map (nonce_at n0) (seq k t))
  else whole_blocks fuel lsb junk t hm (nonce_at n0 k) = Wrap.
Proof.
  induction t as [|t IH]; intros hm k G F.
  - rewrite Nat.add_0_r, F. exists hm. split; [exact G|]. reflexivity.
  - cbn [whole_blocks]. destruct (next_block_spec hm k G F) as (hm1 & G1 & D1 & E). rewrite E.
    replace (k + S t) with (S k + t) by lia. destruct (fits (S k)) eqn:F1.
    + specialize (IH hm1 (S k) G1 F1). destruct (fits (S k + t)).
      * destruct IH as (hm' & G' & ->). exists hm'. split; [exact G'|]. f_equal. f_equal. f_equal.
        cbn [Nat.mul]. rewrite stream_app. f_equal.
        -- rewrite (gen_digestsize _ G1), D1. rewrite <- (Nat.add_0_r (k * d)), stream_block; [reflexivity | apply d_pos | lia | apply blocks_length].
        -- f_equal. lia.
      * now rewrite IH.
    + replace (fits (S k + t)) with false; [reflexivity|]. symmetry. unfold fits in *. lia.
Qed.

(** [k] blocks made, [p] bytes handed out *)
Record rinv (r : RandomInfo) (k p : nat) : Prop := {
  i_gen : gen lsb hash hm0 (r_hmac r);
  i_nonce : r_nonce r = nonce_at n0 k;
  i_fits : fits k = true;
  i_reservoir : length (r_reservoir r) = d;
  i_index : r_i r < d;
  i_pos : if Nat.eqb (r_i r) 0 then p = k * d else 1 <= k /\ p = (k - 1) * d + r_i r /\ r_reservoir r = blocks (k - 1)
}.
Lemma rinv_blocks r k p : rinv r k p -> k = blocks_needed d p.
Proof.
  intros [_ _ _ _ I P]. pose proof d_pos. symmetry. destruct (Nat.eqb_spec (r_i r) 0).
  - subst p. apply blocks_needed_unique; lia.
  - destruct P as (K & -> & _). destruct k as [|k]; [lia|]. replace (S k - 1) with k by lia. apply blocks_needed_unique; lia.
Qed.

Lemma SetRandomKey_spec r k p len : rinv r k p ->
  let k' := blocks_needed d (p + len) in
  if fits k' then
    exists r', rinv r' k' (p + len) /\ r_seed r' = r_seed r /\ SetRandomKey fuel lsb junk r len =
      Done (r', stream d blocks p len, map (nonce_at n0) (seq k (k' - k)))
  else SetRandomKey fuel lsb junk r len = Wrap.
Proof.
  intros V. pose proof (rinv_blocks _ _ _ V) as Ek. destruct V as [G Nn F R I P]. cbv zeta. pose proof d_pos as D.
  unfold SetRandomKey. rewrite (gen_digestsize _ G).
  destruct (Nat.eqb_spec len 0) as [->|NZ].
  { rewrite Nat.add_0_r, <- Ek, F, Nat.sub_diag. exists r. split; [|now split]. now constructor. }
  rewrite (drain_spec len _ _ d D I R).
  (* position after the reservoir was drained *)
  assert (Dr : exists m ri', m <= len /\
    (if Nat.eqb (r_i r) 0 then ([], len, 0)
     else let m := Nat.min len (d - r_i r) in (firstn m (skipn (r_i r) (r_reservoir r)), len - m, if Nat.eqb (r_i r + m) d then 0 else r_i r + m))
    = (stream d blocks p m, len - m, ri') /\
    (if Nat.eqb ri' 0 then p + m = k * d else m = len /\ ri' < d /\ 1 <= k /\ p + m = (k - 1) * d + ri' /\ r_reservoir r = blocks (k - 1))).
  { destruct (Nat.eqb_spec (r_i r) 0) as [Z|Z].
    - exists 0, 0. rewrite Nat.sub_0_r. split; [lia|]. split; [reflexivity|]. cbn [Nat.eqb]. lia.
    - destruct P as (K & Ep & Er). cbv zeta. set (m := Nat.min len (d - r_i r)).
      exists m, (if Nat.eqb (r_i r + m) d then 0 else r_i r + m). split; [lia|]. split.
      + f_equal. f_equal. rewrite Ep, stream_block, Er; [reflexivity | exact D | lia | apply blocks_length].
      + destruct (Nat.eqb_spec (r_i r + m) d) as [E|E].
        * cbn [Nat.eqb]. destruct k as [|k]; [lia|]. replace (S k - 1) with k in * by lia. lia.
        * replace (r_i r + m =? 0) with false by lia. repeat split; try assumption; lia. }
  destruct Dr as (m & ri' & Lm & -> & Q).
  set (t := (len - m) / d). set (i := (len - m) mod d).
  pose proof (Nat.div_mod (len - m) d ltac:(lia)) as Edm. fold t i in Edm.
  pose proof (Nat.mod_upper_bound (len - m) d ltac:(lia)) as Ui. fold i in Ui.
  assert (Main : Nat.eqb ri' 0 = false -> t = 0 /\ i = 0).
  { intros E. rewrite E in Q. destruct Q as (Eq & _). unfold t, i. rewrite Eq, Nat.sub_diag, Nat.div_0_l, Nat.mod_0_l by lia. auto. }
  rewrite Nn.
  assert (Kt : blocks_needed d (p + len) = k + t + (if Nat.eqb i 0 then 0 else 1)).
  { destruct (Nat.eqb_spec ri' 0) as [Z|Z].
    - destruct (Nat.eqb_spec i 0) as [Zi|Zi]; apply blocks_needed_unique; try lia; nia.
    - destruct (Main eq_refl) as [-> ->]. cbn [Nat.eqb]. destruct Q as (-> & Q1 & Q2 & Q3 & Q4). rewrite Q3.
      destruct k as [|k']; [lia|]. replace (S k' - 1) with k' by lia. apply blocks_needed_unique; lia. }
  rewrite Kt. pose proof (whole_blocks_spec t (r_hmac r) k G F) as W.
  destruct (Nat.eqb_spec i 0) as [Zi|Zi].
  - rewrite Nat.add_0_r. destruct (fits (k + t)) eqn:Ft; [|now rewrite W].
    destruct W as (hm' & G' & ->).
    assert (Es : stream d blocks p m ++ stream d blocks (k * d) (t * d) = stream d blocks p len).
    { replace len with (m + t * d) by lia. rewrite stream_app. f_equal.
      destruct (Nat.eqb_spec ri' 0) as [Z|Z]; [now rewrite Q|]. destruct (Main eq_refl) as [-> _]. reflexivity. }
    rewrite Es. replace (k + t - k) with t by lia. eexists. split; [|split; [|reflexivity]]; [|reflexivity].
    constructor; cbn [r_hmac r_nonce r_reservoir r_i]; try assumption; try reflexivity.
    + destruct (Nat.eqb_spec ri' 0); lia.
    + destruct (Nat.eqb_spec ri' 0) as [Z|Z]; [nia|]. destruct (Main eq_refl) as [-> _]. rewrite Nat.add_0_r.
      destruct Q as (-> & Q1 & Q2 & Q3 & Q4). repeat split; assumption.
  - assert (Z : ri' = 0). { destruct (Nat.eqb_spec ri' 0) as [Z|Z]; [exact Z|]. now destruct (Main eq_refl). }
    subst ri'. cbn [Nat.eqb] in Q.
    destruct (fits (k + t)) eqn:Ft.
    + destruct W as (hm' & G' & ->). destruct (next_block_spec hm' (k + t) G' Ft) as (hm2 & G2 & D2 & ->).
      replace (k + t + 1) with (S (k + t)) by lia. destruct (fits (S (k + t))) eqn:Fs; [|reflexivity].
      assert (Er : set_string (r_reservoir r) (hm_digest hm2) = blocks (k + t)).
      { rewrite set_string_same; [exact D2|]. rewrite D2, blocks_length. exact R. }
      assert (Es : stream d blocks p m ++ stream d blocks (k * d) (t * d) ++ firstn i (blocks (k + t)) = stream d blocks p len).
      { replace len with (m + (t * d + i)) by lia. rewrite !stream_app, Q. do 2 f_equal.
        replace (k * d + t * d) with ((k + t) * d + 0) by lia. rewrite stream_block; [reflexivity | exact D | lia | apply blocks_length]. }
      rewrite Er, Es. replace (S (k + t) - k) with (t + 1) by lia. rewrite seq_app, map_app.
      eexists. split; [|split; [|reflexivity]]; [|reflexivity].
      constructor; cbn [r_hmac r_nonce r_reservoir r_i]; try assumption; try reflexivity.
      * apply blocks_length.
      * replace (i =? 0) with false by lia. replace (S (k + t) - 1) with (k + t) by lia. repeat split; [lia|nia].
    + rewrite W. replace (fits (k + t + 1)) with false; [reflexivity|]. symmetry. unfold fits in *. lia.
Qed.

Definition total (lens : list nat) : nat := fold_right Nat.add 0 lens.
Lemma requests_spec lens : forall r k p, rinv r k p ->
  let k' := blocks_needed d (p + total lens) in
  if fits k' then
    exists r' outs, rinv r' k' (p + total lens) /\ map (@length N) outs = lens /\ concat outs = stream d blocks p (total lens) /\
      requests fuel lsb junk r lens = Done (r', outs, map (nonce_at n0) (seq k (k' - k)))
  else requests fuel lsb junk r lens = Wrap.
Proof.
  induction lens as [|n lens IH]; intros r k p V; cbv zeta.
  - cbn [total fold_right]. rewrite Nat.add_0_r, <- (rinv_blocks _ _ _ V), (i_fits _ _ _ V), Nat.sub_diag.
    exists r, []. split; [exact V|]. repeat split; auto.
  - cbn [requests total fold_right]. fold (total lens). pose proof d_pos as D. pose proof (rinv_blocks _ _ _ V) as Ek.
    pose proof (SetRandomKey_spec r k p n V) as S. cbv zeta in S. set (k1 := blocks_needed d (p + n)) in *.
    assert (M : k <= k1 /\ k1 <= blocks_needed d (p + (n + total lens))) by (split; [rewrite Ek|]; apply blocks_needed_mono; lia).
    destruct (fits k1) eqn:F1.
    + destruct S as (r1 & V1 & _ & ->). specialize (IH r1 k1 (p + n) V1). cbv zeta in IH.
      replace (p + n + total lens) with (p + (n + total lens)) in IH by lia. set (k' := blocks_needed d (p + (n + total lens))) in *.
      destruct (fits k').
      * destruct IH as (r' & outs & V' & L & C & ->). exists r', (stream d blocks p n :: outs). split; [exact V'|].
        cbn [map concat]. rewrite stream_length, L, C, stream_app. split; [reflexivity|]. split; [reflexivity|].
        do 2 f_equal. replace (k' - k) with ((k1 - k) + (k' - k1)) by lia. rewrite seq_app, map_app. do 3 f_equal. lia.
      * now rewrite IH.
    + rewrite S. replace (fits (blocks_needed d (p + (n + total lens)))) with false; [reflexivity|]. symmetry. unfold fits in *. lia.
Qed.
End Run.
