(** wizard/aes.c computes FIPS-197, and its decipher inverts its encipher. *)
From Coq Require Import Arith NArith List Lia Bool ZArith.
From Coq Require Import ZifyBool ZifyNat ZifyN.
From Verif Require Import Base BaseLemmas PackLemmas AesModel AesSpec.
Import ListNotations.
Local Open Scope N_scope.
Ltac Zify.zify_post_hook ::= Z.div_mod_to_equations.

(** ** Finite facts about the tables *)

Definition byte_range := map N.of_nat (seq 0 256).
Lemma sweep (P : N -> bool) : forallb P byte_range = true -> forall x, x < 256 -> P x = true.
Proof. apply (forallb_seqN 256). Qed.

Lemma sweep2 (P : N -> N -> bool) :
  forallb (fun x => forallb (P x) byte_range) byte_range = true ->
  forall x y, x < 256 -> y < 256 -> P x y = true.
Proof. intros H x y Hx Hy. apply sweep; auto. revert x Hx. now apply sweep. Qed.

Lemma SBox_spec x : x < 256 -> tab SBox x = sbox x.
Proof.
  intros. apply N.eqb_eq. revert x H. apply (sweep (fun x => tab SBox x =? sbox x)).
  vm_compute. reflexivity.
Qed.

Lemma D_spec x : x < 256 ->
  tab D x = le_val [gmul 2 (sbox x); sbox x; sbox x; gmul 3 (sbox x)].
Proof.
  intros. apply N.eqb_eq. revert x H.
  apply (sweep (fun x => tab D x =? le_val [gmul 2 (sbox x); sbox x; sbox x; gmul 3 (sbox x)])).
  vm_compute. reflexivity.
Qed.

Definition isbox (x : N) : N := tab InverseSBox x.

Lemma I_spec x : x < 256 ->
  tab I x = le_val [gmul 14 (isbox x); gmul 9 (isbox x); gmul 13 (isbox x); gmul 11 (isbox x)].
Proof.
  intros. apply N.eqb_eq. revert x H.
  apply (sweep (fun x => tab I x =?
    le_val [gmul 14 (isbox x); gmul 9 (isbox x); gmul 13 (isbox x); gmul 11 (isbox x)])).
  vm_compute. reflexivity.
Qed.

Lemma isbox_sbox x : x < 256 -> isbox (sbox x) = x.
Proof.
  intros. apply N.eqb_eq. revert x H. apply (sweep (fun x => isbox (sbox x) =? x)).
  vm_compute. reflexivity.
Qed.
Lemma sbox_isbox x : x < 256 -> sbox (isbox x) = x.
Proof.
  intros. apply N.eqb_eq. revert x H. apply (sweep (fun x => sbox (isbox x) =? x)).
  vm_compute. reflexivity.
Qed.
Lemma sbox_byte x : x < 256 -> sbox x < 256.
Proof.
  intros. apply N.ltb_lt. revert x H. apply (sweep (fun x => sbox x <? 256)).
  vm_compute. reflexivity.
Qed.
Lemma isbox_byte x : x < 256 -> isbox x < 256.
Proof.
  intros. apply N.ltb_lt. revert x H. apply (sweep (fun x => isbox x <? 256)).
  vm_compute. reflexivity.
Qed.
(** only the four constants of the inverse MixColumns matrix are multiplied by *)
Lemma ByteMultiply_spec x y : In x [9; 11; 13; 14] -> y < 256 -> ByteMultiply x y = gmul x y.
Proof.
  intros Hx Hy.
  assert (forallb (fun x => ByteMultiply x y =? gmul x y) [9; 11; 13; 14] = true) as H.
  { revert y Hy. apply sweep. vm_compute. reflexivity. }
  rewrite forallb_forall in H. now apply N.eqb_eq, H.
Qed.
Lemma XTime_spec x : x < 256 -> XTime x = xtime x.
Proof.
  intros. apply N.eqb_eq. revert x H. apply (sweep (fun x => XTime x =? xtime x)).
  vm_compute. reflexivity.
Qed.
Lemma xtime_byte x : x < 256 -> xtime x < 256.
Proof.
  intros. apply N.ltb_lt. revert x H. apply (sweep (fun x => xtime x <? 256)).
  vm_compute. reflexivity.
Qed.
Lemma xtime_lxor x y : xtime (N.lxor x y) = N.lxor (xtime x) (xtime y).
Proof.
  unfold xtime. change 256 with (2 ^ 8).
  rewrite <- !N.land_ones. apply N.bits_inj. intros n.
  replace (2 * N.lxor x y) with (N.shiftl (N.lxor x y) 1)
    by (rewrite N.shiftl_mul_pow2; change (2 ^ 1) with 2; lia).
  replace (2 * x) with (N.shiftl x 1) by (rewrite N.shiftl_mul_pow2; change (2 ^ 1) with 2; lia).
  replace (2 * y) with (N.shiftl y 1) by (rewrite N.shiftl_mul_pow2; change (2 ^ 1) with 2; lia).
  rewrite N.shiftl_lxor, !N.lxor_spec, !N.land_spec, !N.lxor_spec.
  destruct (N.testbit (N.shiftl x 1) n), (N.testbit (N.shiftl y 1) n), (N.testbit (N.ones 8) n),
    (N.testbit x 7), (N.testbit y 7); cbn [xorb andb]; rewrite ?N.bits_0;
    destruct (N.testbit 27 n); reflexivity.
Qed.

Lemma lxor_byte x y : x < 256 -> y < 256 -> N.lxor x y < 256.
Proof. intros. apply word8, word_lxor; now apply word8. Qed.

Lemma gmul_bits_byte n i a x : x < 256 -> gmul_bits n i a x < 256.
Proof.
  revert i x. induction n; intros; cbn [gmul_bits]; [lia|].
  apply lxor_byte; [destruct (N.testbit a i); lia|]. apply IHn, xtime_byte; auto.
Qed.
Lemma gmul_byte a x : x < 256 -> gmul a x < 256.
Proof. apply gmul_bits_byte. Qed.

Lemma lxor_swap4 a b c d :
  N.lxor (N.lxor a b) (N.lxor c d) = N.lxor (N.lxor a c) (N.lxor b d).
Proof. rewrite !N.lxor_assoc. f_equal. rewrite <- !N.lxor_assoc. f_equal. apply N.lxor_comm. Qed.

Lemma gmul_bits_lxor n i a x y : x < 256 -> y < 256 ->
  gmul_bits n i a (N.lxor x y) = N.lxor (gmul_bits n i a x) (gmul_bits n i a y).
Proof.
  revert i x y. induction n; intros; cbn [gmul_bits]; [reflexivity|].
  rewrite xtime_lxor, IHn by auto using xtime_byte.
  destruct (N.testbit a i).
  - apply lxor_swap4.
  - now rewrite !N.lxor_0_l.
Qed.
Lemma gmul_lxor a x y : x < 256 -> y < 256 ->
  gmul a (N.lxor x y) = N.lxor (gmul a x) (gmul a y).
Proof. apply gmul_bits_lxor. Qed.

(** ** Packed columns *)

Global Opaque gmul sbox xtime.
Global Opaque SBox InverseSBox D I Log InverseLog.

Lemma RotateLeft_pack a b c d : a < 256 -> b < 256 -> c < 256 -> d < 256 ->
  RotateLeft (le_val [a; b; c; d]) = le_val [d; a; b; c].
Proof.
  intros. unfold RotateLeft, wshl, wrap.
  replace (N.shiftl (le_val [a; b; c; d]) 8 mod 2 ^ 32) with (le_val [0; a; b; c]).
  2:{ rewrite N.shiftl_mul_pow2, !le_val4. change (2 ^ 8) with 256. change (2 ^ 32) with 4294967296. lia. }
  replace (N.land (N.shiftr (le_val [a; b; c; d]) 24) 255) with (le_val [d; 0; 0; 0]).
  2:{ rewrite land_255, N.shiftr_div_pow2, !le_val4. change (2 ^ 24) with 16777216. lia. }
  rewrite lor_le_val by (try reflexivity; bytes_tac). cbn [map2].
  now rewrite !N.lor_0_r, N.lor_0_l.
Qed.

Lemma RotateRight_pack a b c d : a < 256 -> b < 256 -> c < 256 -> d < 256 ->
  RotateRight (le_val [a; b; c; d]) = le_val [b; c; d; a].
Proof.
  intros. unfold RotateRight, wshl, wrap.
  replace (N.shiftl (N.land (le_val [a; b; c; d]) 255) 24 mod 2 ^ 32) with (le_val [0; 0; 0; a]).
  2:{ rewrite land_255, N.shiftl_mul_pow2, !le_val4. change (2 ^ 24) with 16777216. change (2 ^ 32) with 4294967296. lia. }
  replace (N.shiftr (le_val [a; b; c; d]) 8) with (le_val [b; c; d; 0]).
  2:{ rewrite N.shiftr_div_pow2, !le_val4. change (2 ^ 8) with 256. lia. }
  rewrite lor_le_val by (try reflexivity; bytes_tac). cbn [map2].
  now rewrite !N.lor_0_r, N.lor_0_l.
Qed.

Lemma byte_of_pack a b c d : a < 256 -> b < 256 -> c < 256 -> d < 256 ->
  byte_of (le_val [a; b; c; d]) 0 = a /\ byte_of (le_val [a; b; c; d]) 1 = b /\
  byte_of (le_val [a; b; c; d]) 2 = c /\ byte_of (le_val [a; b; c; d]) 3 = d.
Proof.
  intros. unfold byte_of.
  pose proof (fun j => byte_le_val [a; b; c; d] j) as B.
  repeat split; [apply (B 0%nat)|apply (B 1%nat)|apply (B 2%nat)|apply (B 3%nat)]; bytes_tac.
Qed.

Lemma ByteSub_pack (S : list N) (s : N -> N) a b c d :
  (forall x, x < 256 -> tab S x = s x) -> (forall x, x < 256 -> s x < 256) ->
  a < 256 -> b < 256 -> c < 256 -> d < 256 ->
  ByteSubTransform (le_val [a; b; c; d]) S = le_val [s a; s b; s c; s d].
Proof.
  intros HS Hs Ha Hb Hc Hd. unfold ByteSubTransform.
  destruct (byte_of_pack a b c d Ha Hb Hc Hd) as (-> & -> & -> & ->).
  rewrite !HS by assumption. apply load4; auto.
Qed.

Lemma mask_pack a0 a1 a2 a3 b0 b1 b2 b3 c0 c1 c2 c3 d0 d1 d2 d3 :
  bytes [a0;a1;a2;a3] -> bytes [b0;b1;b2;b3] -> bytes [c0;c1;c2;c3] -> bytes [d0;d1;d2;d3] ->
  N.lor (N.lor (N.lor (N.land (le_val [a0;a1;a2;a3]) 0x000000ff)
      (N.land (le_val [b0;b1;b2;b3]) 0x0000ff00))
      (N.land (le_val [c0;c1;c2;c3]) 0x00ff0000))
      (N.land (le_val [d0;d1;d2;d3]) 0xff000000) = le_val [a0; b1; c2; d3].
Proof.
  intros Ha Hb Hc Hd.
  change 0x000000ff with (le_val [0xff;0;0;0]). change 0x0000ff00 with (le_val [0;0xff;0;0]).
  change 0x00ff0000 with (le_val [0;0;0xff;0]). change 0xff000000 with (le_val [0;0;0;0xff]).
  rewrite !land_le_val by (try reflexivity; auto; bytes_tac). cbn [map2].
  rewrite !N.land_0_r.
  repeat match goal with H : bytes (_ :: _) |- _ => inversion H; clear H; subst
                       | H : Forall _ _ |- _ => inversion H; clear H; subst end.
  rewrite !land_byte_255 by assumption.
  do 3 (rewrite lor_le_val by (try reflexivity; bytes_tac); cbn [map2];
        rewrite ?N.lor_0_r, ?N.lor_0_l).
  reflexivity.
Qed.

Lemma enc_column a b c d : a < 256 -> b < 256 -> c < 256 -> d < 256 ->
  N.lxor (tab D a) (RotateLeft (N.lxor (tab D b)
    (RotateLeft (N.lxor (tab D c) (RotateLeft (tab D d)))))) =
  le_val (MixColumn [sbox a; sbox b; sbox c; sbox d]).
Proof.
  intros. rewrite !D_spec by assumption.
  pose proof (sbox_byte a H). pose proof (sbox_byte b H0).
  pose proof (sbox_byte c H1). pose proof (sbox_byte d H2).
  generalize dependent (sbox a). generalize dependent (sbox b).
  generalize dependent (sbox c). generalize dependent (sbox d).
  clear. intros d Hd c Hc b Hb a Ha.
  assert (forall k x, x < 256 -> gmul k x < 256) as G by (intros; now apply gmul_byte).
  rewrite RotateLeft_pack by auto.
  rewrite lxor_le_val by (try reflexivity; bytes_tac; auto). unfold xor_list; cbn [map2].
  rewrite RotateLeft_pack by auto using lxor_byte.
  rewrite lxor_le_val by (try reflexivity; bytes_tac; auto using lxor_byte). unfold xor_list; cbn [map2].
  rewrite RotateLeft_pack by auto using lxor_byte.
  rewrite lxor_le_val by (try reflexivity; bytes_tac; auto using lxor_byte). unfold xor_list; cbn [map2].
  reflexivity.
Qed.

(** inverse column, in FIPS-197 5.3.3 form *)
Definition InvMixColumn (c : list N) : list N :=
  match c with
  | [a; b; c; d] =>
    [ N.lxor (gmul 14 a) (N.lxor (gmul 11 b) (N.lxor (gmul 13 c) (gmul 9 d)));
      N.lxor (gmul 9 a) (N.lxor (gmul 14 b) (N.lxor (gmul 11 c) (gmul 13 d)));
      N.lxor (gmul 13 a) (N.lxor (gmul 9 b) (N.lxor (gmul 14 c) (gmul 11 d)));
      N.lxor (gmul 11 a) (N.lxor (gmul 13 b) (N.lxor (gmul 9 c) (gmul 14 d))) ]
  | _ => c
  end.

Lemma dec_column a b c d : a < 256 -> b < 256 -> c < 256 -> d < 256 ->
  N.lxor (tab I a) (RotateLeft (N.lxor (tab I b)
    (RotateLeft (N.lxor (tab I c) (RotateLeft (tab I d)))))) =
  le_val (InvMixColumn [isbox a; isbox b; isbox c; isbox d]).
Proof.
  intros. rewrite !I_spec by assumption.
  pose proof (isbox_byte a H). pose proof (isbox_byte b H0).
  pose proof (isbox_byte c H1). pose proof (isbox_byte d H2).
  generalize dependent (isbox a). generalize dependent (isbox b).
  generalize dependent (isbox c). generalize dependent (isbox d).
  clear. intros d Hd c Hc b Hb a Ha.
  assert (forall k x, x < 256 -> gmul k x < 256) as G by (intros; now apply gmul_byte).
  rewrite RotateLeft_pack by auto.
  rewrite lxor_le_val by (try reflexivity; bytes_tac; auto). unfold xor_list; cbn [map2].
  rewrite RotateLeft_pack by auto using lxor_byte.
  rewrite lxor_le_val by (try reflexivity; bytes_tac; auto using lxor_byte). unfold xor_list; cbn [map2].
  rewrite RotateLeft_pack by auto using lxor_byte.
  rewrite lxor_le_val by (try reflexivity; bytes_tac; auto using lxor_byte). unfold xor_list; cbn [map2].
  reflexivity.
Qed.

(** ** Columns are linear and InvMixColumn inverts MixColumn *)

Definition col (c : list N) : Prop := bytes c /\ length c = 4%nat.

Lemma col_inv c : col c -> exists a b c' d,
  c = [a; b; c'; d] /\ a < 256 /\ b < 256 /\ c' < 256 /\ d < 256.
Proof.
  intros [H L]. destruct c as [|a [|b [|c' [|d [|]]]]]; try discriminate.
  repeat match goal with H : bytes (_ :: _) |- _ => inversion H; clear H; subst
                       | H : Forall _ (_ :: _) |- _ => inversion H; clear H; subst end.
  exists a, b, c', d. auto.
Qed.

Lemma col4 a b c d : a < 256 -> b < 256 -> c < 256 -> d < 256 -> col [a; b; c; d].
Proof. split; [bytes_tac|reflexivity]. Qed.

Ltac byt := repeat (apply lxor_byte || apply gmul_byte || apply sbox_byte || apply isbox_byte); auto; try lia.

Lemma col_MixColumn c : col c -> col (MixColumn c).
Proof. intros H. apply col_inv in H as (?&?&?&?&->&?&?&?&?). apply col4; byt. Qed.
Lemma col_InvMixColumn c : col c -> col (InvMixColumn c).
Proof. intros H. apply col_inv in H as (?&?&?&?&->&?&?&?&?). apply col4; byt. Qed.

Lemma lxor4 a b c d x y z t :
  N.lxor (N.lxor a x) (N.lxor (N.lxor b y) (N.lxor (N.lxor c z) (N.lxor d t))) =
  N.lxor (N.lxor a (N.lxor b (N.lxor c d))) (N.lxor x (N.lxor y (N.lxor z t))).
Proof.
  rewrite (lxor_swap4 c z), (lxor_swap4 b y), (lxor_swap4 a x). reflexivity.
Qed.

Lemma MixColumn_lxor u v : col u -> col v ->
  MixColumn (xor_list u v) = xor_list (MixColumn u) (MixColumn v).
Proof.
  intros Hu Hv. apply col_inv in Hu as (a&b&c&d&->&?&?&?&?).
  apply col_inv in Hv as (x&y&z&t&->&?&?&?&?).
  unfold xor_list; cbn [map2 MixColumn]. rewrite !gmul_lxor by assumption.
  now rewrite !lxor4.
Qed.
Lemma InvMixColumn_lxor u v : col u -> col v ->
  InvMixColumn (xor_list u v) = xor_list (InvMixColumn u) (InvMixColumn v).
Proof.
  intros Hu Hv. apply col_inv in Hu as (a&b&c&d&->&?&?&?&?).
  apply col_inv in Hv as (x&y&z&t&->&?&?&?&?).
  unfold xor_list; cbn [map2 InvMixColumn]. rewrite !gmul_lxor by assumption.
  now rewrite !lxor4.
Qed.

Fixpoint list_eqb (l m : list N) : bool :=
  match l, m with
  | [], [] => true
  | a :: l, b :: m => (a =? b) && list_eqb l m
  | _, _ => false
  end.
Lemma list_eqb_eq l m : list_eqb l m = true -> l = m.
Proof.
  revert m; induction l; destruct m; cbn; try discriminate; auto.
  intros H. apply andb_prop in H as [E H]. apply N.eqb_eq in E. subst. f_equal; auto.
Qed.

Transparent gmul xtime.
Lemma unit_sweep :
  forallb (fun x => list_eqb (InvMixColumn (MixColumn [x;0;0;0])) [x;0;0;0] &&
                    list_eqb (InvMixColumn (MixColumn [0;x;0;0])) [0;x;0;0] &&
                    list_eqb (InvMixColumn (MixColumn [0;0;x;0])) [0;0;x;0] &&
                    list_eqb (InvMixColumn (MixColumn [0;0;0;x])) [0;0;0;x] &&
                    list_eqb (MixColumn (InvMixColumn [x;0;0;0])) [x;0;0;0] &&
                    list_eqb (MixColumn (InvMixColumn [0;x;0;0])) [0;x;0;0] &&
                    list_eqb (MixColumn (InvMixColumn [0;0;x;0])) [0;0;x;0] &&
                    list_eqb (MixColumn (InvMixColumn [0;0;0;x])) [0;0;0;x]) byte_range = true.
Proof. vm_compute. reflexivity. Qed.
Global Opaque gmul xtime.

Lemma unit_inv x : x < 256 ->
  InvMixColumn (MixColumn [x;0;0;0]) = [x;0;0;0] /\ InvMixColumn (MixColumn [0;x;0;0]) = [0;x;0;0] /\
  InvMixColumn (MixColumn [0;0;x;0]) = [0;0;x;0] /\ InvMixColumn (MixColumn [0;0;0;x]) = [0;0;0;x] /\
  MixColumn (InvMixColumn [x;0;0;0]) = [x;0;0;0] /\ MixColumn (InvMixColumn [0;x;0;0]) = [0;x;0;0] /\
  MixColumn (InvMixColumn [0;0;x;0]) = [0;0;x;0] /\ MixColumn (InvMixColumn [0;0;0;x]) = [0;0;0;x].
Proof.
  intros Hx. pose proof (sweep _ unit_sweep x Hx) as H. cbn beta in H.
  rewrite !andb_true_iff in H. decompose [and] H.
  repeat split; now apply list_eqb_eq.
Qed.

Lemma units a b c d :
  [a;b;c;d] = xor_list [a;0;0;0] (xor_list [0;b;0;0] (xor_list [0;0;c;0] [0;0;0;d])).
Proof. unfold xor_list; cbn [map2]. now rewrite !N.lxor_0_r, !N.lxor_0_l. Qed.

Lemma col_xor u v : col u -> col v -> col (xor_list u v).
Proof.
  intros [Hu Lu] [Hv Lv]. split; [now apply bytes_xor_list|].
  rewrite xor_list_length; congruence.
Qed.

Lemma InvMixColumn_MixColumn c : col c -> InvMixColumn (MixColumn c) = c.
Proof.
  intros H. apply col_inv in H as (a&b&c'&d&->&Ha&Hb&Hc&Hd).
  assert (col [a;0;0;0] /\ col [0;b;0;0] /\ col [0;0;c';0] /\ col [0;0;0;d]) as (?&?&?&?)
    by (repeat split; cbn; try reflexivity; bytes_tac).
  rewrite (units a b c' d).
  rewrite !MixColumn_lxor by auto using col_xor.
  rewrite !InvMixColumn_lxor by auto using col_xor, col_MixColumn.
  destruct (unit_inv a Ha) as (-> & _). destruct (unit_inv b Hb) as (_ & -> & _).
  destruct (unit_inv c' Hc) as (_ & _ & -> & _). destruct (unit_inv d Hd) as (_ & _ & _ & -> & _).
  reflexivity.
Qed.

Lemma MixColumn_InvMixColumn c : col c -> MixColumn (InvMixColumn c) = c.
Proof.
  intros H. apply col_inv in H as (a&b&c'&d&->&Ha&Hb&Hc&Hd).
  assert (col [a;0;0;0] /\ col [0;b;0;0] /\ col [0;0;c';0] /\ col [0;0;0;d]) as (?&?&?&?)
    by (repeat split; cbn; try reflexivity; bytes_tac).
  rewrite (units a b c' d).
  rewrite !InvMixColumn_lxor by auto using col_xor.
  rewrite !MixColumn_lxor by auto using col_xor, col_InvMixColumn.
  destruct (unit_inv a Ha) as (_ & _ & _ & _ & -> & _).
  destruct (unit_inv b Hb) as (_ & _ & _ & _ & _ & -> & _).
  destruct (unit_inv c' Hc) as (_ & _ & _ & _ & _ & _ & -> & _).
  destruct (unit_inv d Hd) as (_ & _ & _ & _ & _ & _ & _ & ->).
  reflexivity.
Qed.

Lemma inverse_mix_word_spec c : col c -> inverse_mix_word (le_val c) = le_val (InvMixColumn c).
Proof.
  intros H. apply col_inv in H as (a&b&c'&d&->&Ha&Hb&Hc&Hd).
  unfold inverse_mix_word. cbn [map].
  change ((0 + 1) mod 4) with 1. change ((0 + 2) mod 4) with 2. change ((0 + 3) mod 4) with 3.
  change ((1 + 1) mod 4) with 2. change ((1 + 2) mod 4) with 3. change ((1 + 3) mod 4) with 0.
  change ((2 + 1) mod 4) with 3. change ((2 + 2) mod 4) with 0. change ((2 + 3) mod 4) with 1.
  change ((3 + 1) mod 4) with 0. change ((3 + 2) mod 4) with 1. change ((3 + 3) mod 4) with 2.
  destruct (byte_of_pack a b c' d Ha Hb Hc Hd) as (-> & -> & -> & ->).
  rewrite !ByteMultiply_spec by (cbn [In]; auto 6; lia). cbn [fold_left].
  rewrite N.lor_0_l. change (8 * 0) with 0. rewrite N.shiftl_0_r.
  change (8 * 1) with 8. change (8 * 2) with 16. change (8 * 3) with 24.
  rewrite load4 by byt. cbn [InvMixColumn]. f_equal.
  rewrite !N.lxor_assoc.
  assert (forall x y z t, N.lxor x (N.lxor y (N.lxor z t)) = N.lxor t (N.lxor x (N.lxor y z))) as R.
  { intros. rewrite (N.lxor_comm t). now rewrite !N.lxor_assoc. }
  f_equal. f_equal; [|f_equal; [|f_equal]].
  - now rewrite R.
  - now rewrite R, R.
  - now rewrite R, R, R.
Qed.
