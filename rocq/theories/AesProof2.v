(** State-level refinement: wizard/aes.c against FIPS-197, and inversion. *)
From Coq Require Import Arith NArith List Lia Bool ZArith.
From Coq Require Import ZifyBool ZifyNat ZifyN.
From Verif Require Import Base BaseLemmas PackLemmas AesModel AesSpec AesProof.
Import ListNotations.
Local Open Scope N_scope.
Ltac Zify.zify_post_hook ::= Z.div_mod_to_equations.

Definition st16 (s : list N) : Prop := bytes s /\ length s = 16%nat.
Definition pack (s : list N) : list N := map le_val (chunks 4 s).

Lemma st16_inv s : st16 s -> exists a0 a1 a2 a3 b0 b1 b2 b3 c0 c1 c2 c3 d0 d1 d2 d3,
  s = [a0;a1;a2;a3;b0;b1;b2;b3;c0;c1;c2;c3;d0;d1;d2;d3] /\
  (a0 < 256 /\ a1 < 256 /\ a2 < 256 /\ a3 < 256) /\ (b0 < 256 /\ b1 < 256 /\ b2 < 256 /\ b3 < 256) /\
  (c0 < 256 /\ c1 < 256 /\ c2 < 256 /\ c3 < 256) /\ (d0 < 256 /\ d1 < 256 /\ d2 < 256 /\ d3 < 256).
Proof.
  intros [H L].
  destruct s as [|a0 [|a1 [|a2 [|a3 [|b0 [|b1 [|b2 [|b3 [|c0 [|c1 [|c2 [|c3 [|d0 [|d1 [|d2 [|d3 [|]]]]]]]]]]]]]]]]];
    try discriminate.
  repeat match goal with H : bytes (_ :: _) |- _ => inversion H; clear H; subst
                       | H : Forall _ (_ :: _) |- _ => inversion H; clear H; subst end.
  exists a0,a1,a2,a3,b0,b1,b2,b3,c0,c1,c2,c3,d0,d1,d2,d3. repeat split; assumption.
Qed.

Ltac dest16 H :=
  let a0 := fresh "a" in let a1 := fresh "a" in let a2 := fresh "a" in let a3 := fresh "a" in
  let b0 := fresh "b" in let b1 := fresh "b" in let b2 := fresh "b" in let b3 := fresh "b" in
  let c0 := fresh "c" in let c1 := fresh "c" in let c2 := fresh "c" in let c3 := fresh "c" in
  let d0 := fresh "d" in let d1 := fresh "d" in let d2 := fresh "d" in let d3 := fresh "d" in
  apply st16_inv in H as (a0&a1&a2&a3&b0&b1&b2&b3&c0&c1&c2&c3&d0&d1&d2&d3&->&
    (?&?&?&?)&(?&?&?&?)&(?&?&?&?)&(?&?&?&?)).

Lemma pack16 a0 a1 a2 a3 b0 b1 b2 b3 c0 c1 c2 c3 d0 d1 d2 d3 :
  pack [a0;a1;a2;a3;b0;b1;b2;b3;c0;c1;c2;c3;d0;d1;d2;d3] =
  [le_val [a0;a1;a2;a3]; le_val [b0;b1;b2;b3]; le_val [c0;c1;c2;c3]; le_val [d0;d1;d2;d3]].
Proof. reflexivity. Qed.

Lemma byte_of0 a b c d : a < 256 -> b < 256 -> c < 256 -> d < 256 -> byte_of (le_val [a; b; c; d]) 0 = a.
Proof. intros Ha Hb Hc Hd. destruct (byte_of_pack a b c d Ha Hb Hc Hd) as (?&?&?&?). assumption. Qed.
Lemma byte_of1 a b c d : a < 256 -> b < 256 -> c < 256 -> d < 256 -> byte_of (le_val [a; b; c; d]) 1 = b.
Proof. intros Ha Hb Hc Hd. destruct (byte_of_pack a b c d Ha Hb Hc Hd) as (?&?&?&?). assumption. Qed.
Lemma byte_of2 a b c d : a < 256 -> b < 256 -> c < 256 -> d < 256 -> byte_of (le_val [a; b; c; d]) 2 = c.
Proof. intros Ha Hb Hc Hd. destruct (byte_of_pack a b c d Ha Hb Hc Hd) as (?&?&?&?). assumption. Qed.
Lemma byte_of3 a b c d : a < 256 -> b < 256 -> c < 256 -> d < 256 -> byte_of (le_val [a; b; c; d]) 3 = d.
Proof. intros Ha Hb Hc Hd. destruct (byte_of_pack a b c d Ha Hb Hc Hd) as (?&?&?&?). assumption. Qed.

(** one encipher round and the last round *)
Lemma enc_round s : st16 s ->
  map (table_column D encipher_map (pack s)) [0;1;2;3]%nat =
  pack (MixColumns (ShiftRows (SubBytes s))).
Proof.
  intros H. dest16 H. rewrite pack16. cbn [map]. unfold table_column. cbn [encipher_map nth get].
  rewrite !byte_of0, !byte_of1, !byte_of2, !byte_of3 by assumption.
  rewrite !enc_column by assumption. reflexivity.
Qed.

Lemma enc_last s : st16 s ->
  map (last_column SBox encipher_map (pack s)) [0;1;2;3]%nat = pack (ShiftRows (SubBytes s)).
Proof.
  intros H. dest16 H. rewrite pack16. cbn [map]. unfold last_column. cbn [encipher_map nth get].
  rewrite !mask_pack by bytes_tac.
  rewrite !(ByteSub_pack SBox sbox) by (auto using SBox_spec, sbox_byte). reflexivity.
Qed.

(** inverse steps on states *)
Definition InvSubBytes (s : list N) : list N := map isbox s.
Definition InvShiftRows (s : list N) : list N :=
  map (fun k => get s (4 * ((k / 4 + 4 - k mod 4) mod 4) + k mod 4)%nat) (seq 0 16).
Definition InvMixColumns (s : list N) : list N := concat (map InvMixColumn (chunks 4 s)).

Lemma dec_round s : st16 s ->
  map (table_column I decipher_map (pack s)) [0;1;2;3]%nat =
  pack (InvMixColumns (InvSubBytes (InvShiftRows s))).
Proof.
  intros H. dest16 H. rewrite pack16. cbn [map]. unfold table_column. cbn [decipher_map nth get].
  rewrite !byte_of0, !byte_of1, !byte_of2, !byte_of3 by assumption.
  rewrite !dec_column by assumption. reflexivity.
Qed.

Lemma dec_last s : st16 s ->
  map (last_column InverseSBox decipher_map (pack s)) [0;1;2;3]%nat =
  pack (InvSubBytes (InvShiftRows s)).
Proof.
  intros H. dest16 H. rewrite pack16. cbn [map]. unfold last_column. cbn [decipher_map nth get].
  rewrite !mask_pack by bytes_tac.
  rewrite !(ByteSub_pack InverseSBox isbox) by (auto using isbox_byte). reflexivity.
Qed.

Lemma add_key_pack s k : st16 s -> st16 k ->
  AddRoundKey (pack s) (pack k) = pack (AddKey s k).
Proof.
  intros H K. dest16 H. dest16 K. rewrite !pack16. unfold AddRoundKey, AddKey. rewrite xor_list_comm.
  unfold xor_list at 1.
  cbn [map2]. rewrite !lxor_le_val by (try reflexivity; bytes_tac). reflexivity.
Qed.

Lemma st16_AddKey s k : st16 s -> st16 k -> st16 (AddKey s k).
Proof.
  intros [? ?] [? ?]. split; [now apply bytes_xor_list|].
  unfold AddKey. rewrite xor_list_length; congruence.
Qed.
Lemma st16_Sub s : st16 s -> st16 (SubBytes s).
Proof. intros H; dest16 H. split; [|reflexivity]. unfold SubBytes; cbn [map]. bytes_tac; byt. Qed.
Lemma st16_InvSub s : st16 s -> st16 (InvSubBytes s).
Proof. intros H; dest16 H. split; [|reflexivity]. unfold InvSubBytes; cbn [map]. bytes_tac; byt. Qed.
Lemma st16_Shift s : st16 s -> st16 (ShiftRows s).
Proof. intros H; dest16 H. split; [|reflexivity]. cbn. bytes_tac. Qed.
Lemma st16_InvShift s : st16 s -> st16 (InvShiftRows s).
Proof. intros H; dest16 H. split; [|reflexivity]. cbn. bytes_tac. Qed.
Lemma st16_Mix s : st16 s -> st16 (MixColumns s).
Proof.
  intros H; dest16 H. split; [|reflexivity].
  unfold MixColumns. cbn [chunks chunks_fuel length firstn skipn map concat MixColumn app].
  bytes_tac; byt.
Qed.
Lemma st16_InvMix s : st16 s -> st16 (InvMixColumns s).
Proof.
  intros H; dest16 H. split; [|reflexivity].
  unfold InvMixColumns. cbn [chunks chunks_fuel length firstn skipn map concat InvMixColumn app].
  bytes_tac; byt.
Qed.
Local Hint Resolve st16_AddKey st16_Sub st16_InvSub st16_Shift st16_InvShift st16_Mix st16_InvMix : st16.

Lemma InvShift_Shift s : st16 s -> InvShiftRows (ShiftRows s) = s.
Proof. intros H; dest16 H. reflexivity. Qed.
Lemma Shift_InvShift s : st16 s -> ShiftRows (InvShiftRows s) = s.
Proof. intros H; dest16 H. reflexivity. Qed.
Lemma InvSub_Sub s : st16 s -> InvSubBytes (SubBytes s) = s.
Proof.
  intros H; dest16 H. unfold InvSubBytes, SubBytes; cbn [map].
  now rewrite !isbox_sbox by assumption.
Qed.
Lemma Sub_InvSub s : st16 s -> SubBytes (InvSubBytes s) = s.
Proof.
  intros H; dest16 H. unfold InvSubBytes, SubBytes; cbn [map].
  now rewrite !sbox_isbox by assumption.
Qed.

Lemma st16_cols s : st16 s -> exists c0 c1 c2 c3, s = c0 ++ c1 ++ c2 ++ c3 /\
  col c0 /\ col c1 /\ col c2 /\ col c3.
Proof.
  intros H; dest16 H.
  exists [a;a0;a1;a2], [b;b0;b1;b2], [c;c0;c1;c2], [d;d0;d1;d2].
  split; [reflexivity|]. repeat split; try reflexivity; bytes_tac.
Qed.

Lemma chunks4_cols c0 c1 c2 c3 : col c0 -> col c1 -> col c2 -> col c3 ->
  chunks 4 (c0 ++ c1 ++ c2 ++ c3) = [c0; c1; c2; c3].
Proof.
  intros [? L0] [? L1] [? L2] [? L3]. rewrite !chunks_cons by (auto; lia).
  rewrite chunks_last by lia. reflexivity.
Qed.

Lemma InvMix_Mix s : st16 s -> InvMixColumns (MixColumns s) = s.
Proof.
  intros H. apply st16_cols in H as (c0&c1&c2&c3&->&H0&H1&H2&H3).
  unfold MixColumns. rewrite chunks4_cols by auto. cbn [map concat]. rewrite app_nil_r.
  unfold InvMixColumns. rewrite chunks4_cols by auto using col_MixColumn.
  cbn [map concat]. rewrite !InvMixColumn_MixColumn by auto. now rewrite app_nil_r.
Qed.
Lemma Mix_InvMix s : st16 s -> MixColumns (InvMixColumns s) = s.
Proof.
  intros H. apply st16_cols in H as (c0&c1&c2&c3&->&H0&H1&H2&H3).
  unfold InvMixColumns. rewrite chunks4_cols by auto. cbn [map concat]. rewrite app_nil_r.
  unfold MixColumns. rewrite chunks4_cols by auto using col_InvMixColumn.
  cbn [map concat]. rewrite !MixColumn_InvMixColumn by auto. now rewrite app_nil_r.
Qed.

Lemma xor_list_app l1 l2 m1 m2 : length l1 = length m1 ->
  xor_list (l1 ++ l2) (m1 ++ m2) = xor_list l1 m1 ++ xor_list l2 m2.
Proof. apply map2_app. Qed.

Lemma InvMix_AddKey s k : st16 s -> st16 k ->
  InvMixColumns (AddKey s k) = AddKey (InvMixColumns s) (InvMixColumns k).
Proof.
  intros H K. apply st16_cols in H as (c0&c1&c2&c3&->&H0&H1&H2&H3).
  apply st16_cols in K as (k0&k1&k2&k3&->&K0&K1&K2&K3).
  unfold AddKey. rewrite !xor_list_app by (unfold col in *; intuition congruence).
  unfold InvMixColumns. rewrite !chunks4_cols by auto using col_xor. cbn [map concat].
  rewrite !app_nil_r. rewrite !InvMixColumn_lxor by auto.
  rewrite !xor_list_app
    by (pose proof (col_InvMixColumn c0); pose proof (col_InvMixColumn c1); pose proof (col_InvMixColumn c2);
        pose proof (col_InvMixColumn k0); pose proof (col_InvMixColumn k1); pose proof (col_InvMixColumn k2);
        unfold col in *; intuition congruence).
  reflexivity.
Qed.

Lemma AddKey_cancel s k : st16 s -> st16 k -> AddKey (AddKey s k) k = s.
Proof. intros [? ?] [? ?]. apply xor_list_cancel. congruence. Qed.

(** loading and storing the block *)
Lemma init_pack s k : st16 s -> st16 k -> InitializeRoundKey s (pack k) = pack (AddKey s k).
Proof.
  intros H K. rewrite <- add_key_pack by assumption. dest16 H. dest16 K. rewrite !pack16.
  unfold InitializeRoundKey, AddRoundKey, xor_list.
  cbn [map get nth slice firstn skipn Nat.mul Nat.add map2].
  unfold load_le4; cbn [get nth]. rewrite !load4 by assumption. reflexivity.
Qed.

Lemma final_pack s k : st16 s -> st16 k -> FinalizeRoundKey (pack s) (pack k) = AddKey s k.
Proof.
  intros H K. unfold FinalizeRoundKey. rewrite xor_list_comm.
  change (xor_list (pack k) (pack s)) with (AddRoundKey (pack s) (pack k)).
  rewrite add_key_pack by assumption.
  assert (st16 (AddKey s k)) as A by (auto 12 with st16). revert A. generalize (AddKey s k). clear.
  intros t A. dest16 A. rewrite pack16. cbn [flat_map map app].
  rewrite !byte_of0, !byte_of1, !byte_of2, !byte_of3 by assumption. reflexivity.
Qed.

(** ** The block functions for an arbitrary key schedule given as a function
    from round number to 16 bytes *)
Section Schedule.
  Variable info : AESInfo.
  Variable rk : nat -> list N.
  Hypothesis rk_ok : forall i, (i <= rounds info)%nat -> st16 (rk i).
  Hypothesis ek_ok : forall i, (i <= rounds info)%nat -> round_key (encipher_key info) i = pack (rk i).

  Definition spec_round (s : list N) (i : nat) : list N :=
    AddKey (MixColumns (ShiftRows (SubBytes s))) (rk i).

  Lemma enc_fold l s : (forall i, In i l -> i <= rounds info)%nat -> st16 s ->
    fold_left (fun text i =>
      AddRoundKey (map (table_column D encipher_map text) [0;1;2;3]%nat)
        (round_key (encipher_key info) i)) l (pack s) = pack (fold_left spec_round l s) /\
    st16 (fold_left spec_round l s).
  Proof.
    revert s. induction l as [|i l IH]; intros s Hl Hs; [auto|]. cbn [fold_left].
    rewrite ek_ok by (apply Hl; left; reflexivity).
    assert (st16 (rk i)) by (apply rk_ok, Hl; left; reflexivity).
    rewrite enc_round, add_key_pack by auto 12 with st16.
    apply IH; [intros; apply Hl; now right|]. unfold spec_round; auto 12 with st16.
  Qed.

  Definition spec_encipher (s : list N) : list N :=
    AddKey (ShiftRows (SubBytes
      (fold_left spec_round (seq 1 (rounds info - 1)) (AddKey s (rk 0))))) (rk (rounds info)).

  Lemma encipher_spec s : (1 <= rounds info)%nat -> st16 s ->
    EncipherAESBlock info s = spec_encipher s.
  Proof.
    intros Hr Hs. unfold EncipherAESBlock, encipher_rounds, spec_encipher.
    assert (st16 (rk 0)) by (apply rk_ok; lia).
    assert (st16 (rk (rounds info))) by (apply rk_ok; lia).
    rewrite !ek_ok by lia. rewrite init_pack by auto.
    destruct (enc_fold (seq 1 (rounds info - 1)) (AddKey s (rk 0))) as [-> Hf].
    { intros i Hi. apply in_seq in Hi. lia. }
    { auto 12 with st16. }
    rewrite enc_last, final_pack by auto 12 with st16. reflexivity.
  Qed.

  Hypothesis dk_first : round_key (decipher_key info) 0 = pack (rk 0).
  Hypothesis dk_last : round_key (decipher_key info) (rounds info) = pack (rk (rounds info)).
  Hypothesis dk_mid : forall i, (1 <= i < rounds info)%nat ->
    round_key (decipher_key info) i = pack (InvMixColumns (rk i)).

  Definition spec_dround (s : list N) (i : nat) : list N :=
    AddKey (InvMixColumns (InvSubBytes (InvShiftRows s))) (InvMixColumns (rk i)).

  Lemma dec_fold l s : (forall i, In i l -> 1 <= i < rounds info)%nat -> st16 s ->
    fold_left (fun text i =>
      AddRoundKey (map (table_column I decipher_map text) [0;1;2;3]%nat)
        (round_key (decipher_key info) i)) l (pack s) = pack (fold_left spec_dround l s) /\
    st16 (fold_left spec_dround l s).
  Proof.
    revert s. induction l as [|i l IH]; intros s Hl Hs; [auto|]. cbn [fold_left].
    assert (1 <= i < rounds info)%nat by (apply Hl; left; reflexivity).
    rewrite dk_mid by assumption.
    assert (st16 (rk i)) by (apply rk_ok; lia).
    rewrite dec_round, add_key_pack by auto 12 with st16.
    apply IH; [intros; apply Hl; now right|]. unfold spec_dround; auto 12 with st16.
  Qed.

  Definition spec_decipher (s : list N) : list N :=
    AddKey (InvSubBytes (InvShiftRows
      (fold_left spec_dround (rev (seq 1 (rounds info - 1))) (AddKey s (rk (rounds info)))))) (rk 0).

  Lemma decipher_spec s : (1 <= rounds info)%nat -> st16 s ->
    DecipherAESBlock info s = spec_decipher s.
  Proof.
    intros Hr Hs. unfold DecipherAESBlock, decipher_rounds, spec_decipher.
    assert (st16 (rk 0)) by (apply rk_ok; lia).
    assert (st16 (rk (rounds info))) by (apply rk_ok; lia).
    rewrite dk_first, dk_last. rewrite init_pack by auto.
    destruct (dec_fold (rev (seq 1 (rounds info - 1))) (AddKey s (rk (rounds info)))) as [-> Hf].
    { intros i Hi. apply in_rev, in_seq in Hi. lia. }
    { auto 12 with st16. }
    rewrite dec_last, final_pack by auto 12 with st16. reflexivity.
  Qed.

  (** undoing one round *)
  Lemma dround_round s i : st16 s -> (i <= rounds info)%nat ->
    spec_dround (ShiftRows (SubBytes (spec_round s i))) i = ShiftRows (SubBytes s).
  Proof.
    intros Hs Hi. assert (st16 (rk i)) by auto. unfold spec_dround, spec_round.
    rewrite InvShift_Shift, InvSub_Sub by auto 12 with st16.
    rewrite InvMix_AddKey, AddKey_cancel by auto 12 with st16.
    now rewrite InvMix_Mix by auto 12 with st16.
  Qed.

  Lemma round_dround s i : st16 s -> (i <= rounds info)%nat ->
    spec_round (InvSubBytes (InvShiftRows (spec_dround s i))) i = InvSubBytes (InvShiftRows s).
  Proof.
    intros Hs Hi. assert (st16 (rk i)) by auto. unfold spec_dround, spec_round.
    rewrite Sub_InvSub, Shift_InvShift by auto 12 with st16.
    assert (forall a b, st16 a -> st16 b ->
      MixColumns (AddKey a (InvMixColumns b)) = AddKey (MixColumns a) b) as M.
    { intros a b Ha Hb. rewrite <- (Mix_InvMix (AddKey (MixColumns a) b)) by auto 12 with st16.
      now rewrite InvMix_AddKey, InvMix_Mix by auto 12 with st16. }
    rewrite M, AddKey_cancel by auto 12 with st16.
    now rewrite Mix_InvMix by auto 12 with st16.
  Qed.

  Lemma fold_dround_round l s : (forall i, In i l -> i <= rounds info)%nat -> st16 s ->
    fold_left spec_dround (rev l) (ShiftRows (SubBytes (fold_left spec_round l s))) =
    ShiftRows (SubBytes s).
  Proof.
    revert s. induction l as [|i l IH]; intros s Hl Hs; [reflexivity|].
    cbn [rev fold_left]. rewrite fold_left_app. cbn [fold_left].
    assert (i <= rounds info)%nat by (apply Hl; left; reflexivity).
    rewrite IH.
    - now apply dround_round.
    - intros; apply Hl; now right.
    - unfold spec_round. auto 12 with st16.
  Qed.

  Lemma fold_round_dround l s : (forall i, In i l -> i <= rounds info)%nat -> st16 s ->
    fold_left spec_round (rev l) (InvSubBytes (InvShiftRows (fold_left spec_dround l s))) =
    InvSubBytes (InvShiftRows s).
  Proof.
    revert s. induction l as [|i l IH]; intros s Hl Hs; [reflexivity|].
    cbn [rev fold_left]. rewrite fold_left_app. cbn [fold_left].
    assert (i <= rounds info)%nat by (apply Hl; left; reflexivity).
    rewrite IH.
    - now apply round_dround.
    - intros; apply Hl; now right.
    - unfold spec_dround. auto 12 with st16.
  Qed.

  Lemma st16_fold_round l s : (forall i, In i l -> i <= rounds info)%nat -> st16 s ->
    st16 (fold_left spec_round l s).
  Proof. intros. now apply enc_fold. Qed.

  Lemma st16_fold_dround l s : (forall i, In i l -> i <= rounds info)%nat -> st16 s ->
    st16 (fold_left spec_dround l s).
  Proof.
    revert s. induction l as [|i l IH]; intros s Hl Hs; [assumption|]. cbn [fold_left].
    assert (i <= rounds info)%nat by (apply Hl; left; reflexivity).
    apply IH; [intros; apply Hl; now right|]. unfold spec_dround; auto 12 with st16.
  Qed.

  Lemma seq_ok : forall i, In i (seq 1 (rounds info - 1)) -> (i <= rounds info)%nat.
  Proof. intros i Hi. apply in_seq in Hi. lia. Qed.

  Lemma decipher_encipher s : (1 <= rounds info)%nat -> st16 s ->
    DecipherAESBlock info (EncipherAESBlock info s) = s.
  Proof.
    intros Hr Hs.
    assert (st16 (rk 0)) by (apply rk_ok; lia).
    assert (st16 (rk (rounds info))) by (apply rk_ok; lia).
    assert (st16 (fold_left spec_round (seq 1 (rounds info - 1)) (AddKey s (rk 0)))).
    { apply st16_fold_round; auto 12 using seq_ok with st16. }
    rewrite encipher_spec, decipher_spec by (auto; unfold spec_encipher; auto 12 with st16).
    unfold spec_encipher, spec_decipher. rewrite AddKey_cancel by auto 12 with st16.
    rewrite fold_dround_round by auto 12 using seq_ok with st16.
    rewrite InvShift_Shift, InvSub_Sub, AddKey_cancel by auto 12 with st16. reflexivity.
  Qed.

  Lemma encipher_decipher s : (1 <= rounds info)%nat -> st16 s ->
    EncipherAESBlock info (DecipherAESBlock info s) = s.
  Proof.
    intros Hr Hs.
    assert (st16 (rk 0)) by (apply rk_ok; lia).
    assert (st16 (rk (rounds info))) by (apply rk_ok; lia).
    assert (forall i, In i (rev (seq 1 (rounds info - 1))) -> i <= rounds info)%nat as R.
    { intros i Hi. apply in_rev in Hi. now apply seq_ok. }
    assert (st16 (fold_left spec_dround (rev (seq 1 (rounds info - 1))) (AddKey s (rk (rounds info))))).
    { apply st16_fold_dround; auto 12 with st16. }
    rewrite decipher_spec, encipher_spec by (auto; unfold spec_decipher; auto 12 with st16).
    unfold spec_encipher, spec_decipher. rewrite AddKey_cancel by auto 12 with st16.
    rewrite <- (rev_involutive (seq 1 (rounds info - 1))) at 1.
    rewrite fold_round_dround by auto 12 with st16.
    rewrite Sub_InvSub, Shift_InvShift, AddKey_cancel by auto 12 with st16. reflexivity.
  Qed.

  Lemma st16_encipher s : (1 <= rounds info)%nat -> st16 s -> st16 (EncipherAESBlock info s).
  Proof.
    intros Hr Hs. rewrite encipher_spec by auto. unfold spec_encipher.
    apply st16_AddKey; [|apply rk_ok; lia]. apply st16_Shift, st16_Sub, st16_fold_round; auto using seq_ok.
    apply st16_AddKey; [auto|apply rk_ok; lia].
  Qed.
  Lemma st16_decipher s : (1 <= rounds info)%nat -> st16 s -> st16 (DecipherAESBlock info s).
  Proof.
    intros Hr Hs. rewrite decipher_spec by auto. unfold spec_decipher.
    apply st16_AddKey; [|apply rk_ok; lia]. apply st16_InvSub, st16_InvShift, st16_fold_dround.
    - intros i Hi. apply in_rev in Hi. now apply seq_ok.
    - apply st16_AddKey; [auto|apply rk_ok; lia].
  Qed.
End Schedule.
