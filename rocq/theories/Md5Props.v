(** MD5 of a streamed message is RFC 1321 MD5 (C15). *)
From Coq Require Import NArith Arith List Lia ZifyBool ZifyNat ZifyN.
From Verif Require Import Base BaseLemmas PackLemmas Mem32 MdModel MdSpec MdProof.
From Verif Require Import Sha2Model Sha2Spec Sha2Proof Sha2Props Sha1Model Sha1Spec Sha1Props Md5Model Md5Spec.
Import ListNotations.
Local Open Scope N_scope.

(** ** the auxiliary functions *)

Lemma F5_ok x y z : word 32 z -> F5 x y z = md5F x y z.
Proof.
  intros Hz. unfold F5, md5F.
  apply N.bits_inj. intros n. rewrite N.lor_spec, N.lxor_spec, !N.land_spec, N.ldiff_spec.
  destruct (N.lt_ge_cases n 32) as [L|L].
  - rewrite wnot_testbit by assumption.
    destruct (N.testbit x n), (N.testbit y n), (N.testbit z n); reflexivity.
  - rewrite (testbit_high 32 z) by assumption. rewrite !Bool.andb_false_r. cbn [andb].
    now rewrite Bool.orb_false_r, Bool.xorb_false_r.
Qed.

Lemma G5_ok x y z : word 32 y -> G5 x y z = md5G x y z.
Proof.
  intros Hy. unfold G5, md5G.
  apply N.bits_inj. intros n. rewrite N.lor_spec, N.lxor_spec, !N.land_spec, N.ldiff_spec.
  destruct (N.lt_ge_cases n 32) as [L|L].
  - rewrite wnot_testbit by assumption.
    destruct (N.testbit x n), (N.testbit y n), (N.testbit z n); reflexivity.
  - rewrite (testbit_high 32 y) by assumption. cbn [andb].
    now rewrite Bool.orb_false_r, Bool.xorb_false_r.
Qed.

Lemma wnot_sub z : word 32 z -> wnot 32 z = 2 ^ 32 - 1 - z.
Proof.
  intros H. unfold wnot. change (2 ^ 32 - 1) with (N.ones 32).
  rewrite N.sub_nocarry_ldiff.
  - apply N.bits_inj. intros n. rewrite N.lxor_spec, N.ldiff_spec.
    destruct (N.lt_ge_cases n 32) as [L|L].
    + rewrite N.ones_spec_low by assumption. destruct (N.testbit z n); reflexivity.
    + rewrite (testbit_high 32 z), N.ones_spec_high by assumption. reflexivity.
  - apply N.bits_inj. intros n. rewrite N.ldiff_spec, N.bits_0.
    destruct (N.lt_ge_cases n 32) as [L|L].
    + rewrite N.ones_spec_low by assumption. apply Bool.andb_false_r.
    + rewrite (testbit_high 32 z) by assumption. reflexivity.
Qed.

Lemma I5_ok x y z : word 32 z -> I5 x y z = md5I x y z.
Proof. intros H. unfold I5, md5I. now rewrite wnot_sub. Qed.

Lemma H5_ok x y z : H5 x y z = md5H x y z.
Proof. apply N.lxor_assoc. Qed.

(** ** one operation *)

Definition fun_ok (f g : N -> N -> N -> N) : Prop :=
  forall x y z, word 32 x -> word 32 y -> word 32 z -> f x y z = g x y z.

Lemma md5_line_ok f i s message A B C D j p :
  word 32 A -> word 32 B -> word 32 C -> word 32 D ->
  fun_ok f (md5_fun i) -> s = md5_s i -> s <= 32 ->
  N.to_nat (N.land j 0x0f) = md5_k i -> get K5 p = nth i md5T 0 ->
  md5_line f s message A B C D j p =
  ADD32 [B; ROTL (md5_s i) (ADD32 [A; md5_fun i B C D; nth (md5_k i) message 0; nth i md5T 0])].
Proof.
  intros HA HB HC HD Hf <- Hs Hj Hp. unfold md5_line, tab. rewrite Hj, Hp, Hf by assumption.
  set (a := md5_fun i B C D). set (b := nth (md5_k i) message 0). set (c := nth i md5T 0).
  assert (E : wadd 32 A (wadd 32 (wadd 32 a b) c) = ADD32 [A; a; b; c]).
  { unfold wadd, wrap, ADD32. cbn [fold_left]. generalize (pow2_nz 32). generalize (2 ^ 32).
    intros M HM. rewrite N.add_mod_idemp_l, N.add_mod_idemp_r by exact HM. f_equal. lia. }
  rewrite E. rewrite RotateLeft_ROTL by (try apply word_ADD32; assumption).
  unfold wadd, wrap, ADD32 at 2. cbn [fold_left]. f_equal. lia.
Qed.

Lemma md5_line_word f s message A B C D j p : word 32 (md5_line f s message A B C D j p).
Proof. apply word_wadd. Qed.

(** the four lines of a loop body are operations [i .. i+3] *)
Lemma md5_body_ok f i s1 s2 s3 s4 inc message A B C D j p j' p' t :
  word 32 A -> word 32 B -> word 32 C -> word 32 D ->
  fun_ok f (md5_fun i) -> fun_ok f (md5_fun (S i)) ->
  fun_ok f (md5_fun (S (S i))) -> fun_ok f (md5_fun (S (S (S i)))) ->
  [s1; s2; s3; s4] = map md5_s [i; S i; S (S i); S (S (S i))] ->
  s1 <= 32 /\ s2 <= 32 /\ s3 <= 32 /\ s4 <= 32 ->
  map (fun j => N.to_nat (N.land j 0x0f))
    [j; wadd 32 j inc; wadd 32 (wadd 32 j inc) inc; wadd 32 (wadd 32 (wadd 32 j inc) inc) inc]
    = map md5_k [i; S i; S (S i); S (S (S i))] ->
  map (get K5) [p; p + 1; p + 2; p + 3]%nat
    = map (fun i => nth i md5T 0) [i; S i; S (S i); S (S (S i))] ->
  j' = wadd 32 (wadd 32 (wadd 32 (wadd 32 j inc) inc) inc) inc ->
  p' = (p + 4)%nat ->
  exists A' B' C' D',
    md5_body f s1 s2 s3 s4 inc message (A, B, C, D, j, p) t = (A', B', C', D', j', p') /\
    (word 32 A' /\ word 32 B' /\ word 32 C' /\ word 32 D') /\
    fold_left (md5_op message) [i; S i; S (S i); S (S (S i))] [A; B; C; D] = [A'; B'; C'; D'].
Proof.
  intros WA WB WC WD F1 F2 F3 F4 Es (L1 & L2 & L3 & L4) Ej Ep -> ->.
  cbn [map] in Es, Ej, Ep. injection Es as E1 E2 E3 E4. injection Ej as J1 J2 J3 J4.
  injection Ep as P1 P2 P3 P4.
  set (A' := md5_line f s1 message A B C D j p).
  set (D' := md5_line f s2 message D A' B C (wadd 32 j inc) (p + 1)).
  set (C' := md5_line f s3 message C D' A' B (wadd 32 (wadd 32 j inc) inc) (p + 2)).
  set (B' := md5_line f s4 message B C' D' A' (wadd 32 (wadd 32 (wadd 32 j inc) inc) inc) (p + 3)).
  assert (WA' : word 32 A') by apply md5_line_word.
  assert (WB' : word 32 B') by apply md5_line_word.
  assert (WC' : word 32 C') by apply md5_line_word.
  assert (WD' : word 32 D') by apply md5_line_word.
  exists A', B', C', D'. split; [reflexivity|]. split; [repeat split; assumption|].
  cbn [fold_left md5_op].
  rewrite <- (md5_line_ok f i s1 message A B C D j p) by assumption. fold A'.
  rewrite <- (md5_line_ok f (S i) s2 message D A' B C (wadd 32 j inc) (p + 1)) by assumption. fold D'.
  rewrite <- (md5_line_ok f (S (S i)) s3 message C D' A' B (wadd 32 (wadd 32 j inc) inc) (p + 2))
    by assumption. fold C'.
  rewrite <- (md5_line_ok f (S (S (S i))) s4 message B C' D' A'
               (wadd 32 (wadd 32 (wadd 32 j inc) inc) inc) (p + 3)) by assumption.
  reflexivity.
Qed.

Ltac quad fok i :=
  match goal with
  | |- context [md5_body ?f ?s1 ?s2 ?s3 ?s4 ?inc ?m (?A, ?B, ?C, ?D, ?j, ?p) ?t] =>
      let j' := eval vm_compute in (wadd 32 (wadd 32 (wadd 32 (wadd 32 j inc) inc) inc) inc) in
      let p' := eval vm_compute in (p + 4)%nat in
      let A' := fresh "A" in let B' := fresh "B" in let C' := fresh "C" in let D' := fresh "D" in
      let O := fresh "O" in let R := fresh "R" in
      destruct (md5_body_ok f i s1 s2 s3 s4 inc m A B C D j p j' p' t) as
        (A' & B' & C' & D' & R & (? & ? & ? & ?) & O);
      [ assumption | assumption | assumption | assumption
      | exact fok | exact fok | exact fok | exact fok
      | reflexivity | repeat split; vm_compute; discriminate
      | vm_compute; reflexivity | reflexivity | reflexivity | reflexivity
      | rewrite R; clear R ]
  end.

Lemma F_ok : fun_ok F5 md5F. Proof. intros x y z _ _ H. now apply F5_ok. Qed.
Lemma G_ok : fun_ok G5 md5G. Proof. intros x y z _ H _. now apply G5_ok. Qed.
Lemma H_ok : fun_ok H5 md5H. Proof. intros x y z _ _ _. apply H5_ok. Qed.
Lemma I_ok : fun_ok I5 md5I. Proof. intros x y z _ _ H. now apply I5_ok. Qed.

Lemma seq64 : seq 0 64 =
  [0;1;2;3]%nat ++ [4;5;6;7]%nat ++ [8;9;10;11]%nat ++ [12;13;14;15]%nat ++
  [16;17;18;19]%nat ++ [20;21;22;23]%nat ++ [24;25;26;27]%nat ++ [28;29;30;31]%nat ++
  [32;33;34;35]%nat ++ [36;37;38;39]%nat ++ [40;41;42;43]%nat ++ [44;45;46;47]%nat ++
  [48;49;50;51]%nat ++ [52;53;54;55]%nat ++ [56;57;58;59]%nat ++ [60;61;62;63]%nat.
Proof. reflexivity. Qed.

Lemma TransformMD5_words acc X : length acc = 4%nat -> words 32 acc ->
  TransformMD5 acc X = map2 (fun x y => ADD32 [x; y]) acc (fold_left (md5_op X) (seq 0 64) acc).
Proof.
  intros Ha Wa.
  do 5 (destruct acc as [|? acc]; try discriminate Ha).
  inversion_clear Wa as [|? ? HA R0]. inversion_clear R0 as [|? ? HB R1].
  inversion_clear R1 as [|? ? HC R2]. inversion_clear R2 as [|? ? HD _].
  remember (fold_left (md5_op X) (seq 0 64) [n; n0; n1; n2]) as spec eqn:ES.
  rewrite seq64, !fold_left_app in ES.
  unfold TransformMD5. cbn [seq]. unfold get at 1 2 3 4. cbn [nth].
  do 2 (cbn [fold_left]).
  quad F_ok 0%nat. quad F_ok 4%nat. quad F_ok 8%nat. quad F_ok 12%nat.
  quad G_ok 16%nat. quad G_ok 20%nat. quad G_ok 24%nat. quad G_ok 28%nat.
  quad H_ok 32%nat. quad H_ok 36%nat. quad H_ok 40%nat. quad H_ok 44%nat.
  quad I_ok 48%nat. quad I_ok 52%nat. quad I_ok 56%nat. quad I_ok 60%nat.
  rewrite O, O0, O1, O2, O3, O4, O5, O6, O7, O8, O9, O10, O11, O12, O13, O14 in ES.
  rewrite ES. unfold get. cbn [nth map2].
  rewrite !(wrap_small 32) by apply word_wadd. reflexivity.
Qed.

(** ** words of the block *)

Lemma md5_words_le k m : bytes m -> (4 * k <= length m)%nat ->
  md5_words k m = map le_val (chunks 4 (firstn (4 * k) m)).
Proof.
  intros Hm Hl. rewrite (chunks_slices 4 k) by (rewrite ?firstn_length; lia).
  unfold md5_words. rewrite map_map. apply map_ext_in. intros j Hj. apply in_seq in Hj.
  assert (E : slice (firstn (4 * k) m) (4 * j) 4 = slice m (4 * j) 4).
  { unfold slice. rewrite skipn_firstn_comm, firstn_firstn. f_equal. lia. }
  rewrite E. apply load32le_val; [now apply bytes_slice | apply slice_length; lia].
Qed.

Definition acc4_ok (acc : list N) : Prop := length acc = 4%nat /\ words 32 acc.

Lemma md5_op_length X : forall l s, length s = 4%nat -> length (fold_left (md5_op X) l s) = 4%nat.
Proof.
  induction l as [|i l IH]; intros s H; [exact H|]. cbn [fold_left]. apply IH.
  do 5 (destruct s as [|? s]; try discriminate H). reflexivity.
Qed.

Lemma compress5_ok acc b : acc4_ok acc -> acc4_ok (compress5 acc b).
Proof.
  intros [H1 H2]. unfold compress5. split.
  - rewrite map2_length, md5_op_length, H1 by exact H1. reflexivity.
  - generalize (fold_left (md5_op (map le_val (chunks 4 b))) (seq 0 64) acc). clear.
    induction acc as [|h H IH]; intros [|s l]; cbn [map2]; constructor; [apply word_ADD32 | apply IH].
Qed.

(** transforming the sixteen words of a full buffer *)
Lemma TransformMD5_block acc m : acc4_ok acc -> bytes m -> length m = 64%nat ->
  TransformMD5 acc (md5_words 16 m) = compress5 acc m.
Proof.
  intros [H1 H2] H3 H4. rewrite TransformMD5_words by assumption.
  rewrite md5_words_le by (assumption || lia). rewrite firstn_all2 by lia. reflexivity.
Qed.

(** ** streaming *)

Definition md5_inv (st : MD5Info) (m : list N) : Prop :=
  exists k full rest,
    m = full ++ rest /\ length full = (k * 64)%nat /\ (length rest < 64)%nat /\
    md5_accumulator st = fold_left compress5 (chunks 64 full) IV5 /\
    length (md5_message st) = 64%nat /\ bytes (md5_message st) /\
    firstn (length rest) (md5_message st) = rest /\
    md5_low_order st = (8 * N.of_nat (length m)) mod 2 ^ 32 /\
    md5_high_order st = (8 * N.of_nat (length m) / 2 ^ 32) mod 2 ^ 32.

Lemma fold_compress5_ok l : forall acc, acc4_ok acc -> acc4_ok (fold_left compress5 l acc).
Proof. induction l as [|b l IH]; intros acc H; cbn [fold_left]; [exact H | apply IH, compress5_ok, H]. Qed.

Lemma IV5_ok : acc4_ok IV5.
Proof. split; [reflexivity | apply forallb_words; reflexivity]. Qed.

Lemma bytes_upd l i b : bytes l -> b < 256 -> bytes (upd l i b).
Proof.
  intros H Hb. revert i. induction H as [|x l Hx Hl IH]; intros [|i]; cbn; constructor; auto. apply IH.
Qed.

Lemma firstn_upd_S (l : list N) i b : (i < length l)%nat ->
  firstn (i + 1) (upd l i b) = firstn i l ++ [b].
Proof.
  revert i. induction l as [|x l IH]; intros [|i] H; cbn in *; try lia; [reflexivity|].
  f_equal. apply IH. lia.
Qed.

Lemma md5_loop_ok datum : forall acc msg rest k full,
  bytes datum -> length full = (k * 64)%nat -> (length rest < 64)%nat ->
  acc = fold_left compress5 (chunks 64 full) IV5 ->
  length msg = 64%nat -> bytes msg -> firstn (length rest) msg = rest ->
  let '(acc', msg', _) := md5_loop acc msg (length rest) datum in
  exists k' full' rest', full' ++ rest' = full ++ rest ++ datum /\
    length full' = (k' * 64)%nat /\ (length rest' < 64)%nat /\
    acc' = fold_left compress5 (chunks 64 full') IV5 /\
    length msg' = 64%nat /\ bytes msg' /\ firstn (length rest') msg' = rest'.
Proof.
  induction datum as [|b datum IH]; intros acc msg rest k full Hd Hf Hr Ha Hl Hb Hfi.
  - cbn. exists k, full, rest. rewrite app_nil_r. repeat split; assumption.
  - inversion_clear Hd as [|? ? Hb0 Hd']. unfold md5_loop. cbn [fold_left md5_byte].
    pose proof (firstn_upd_S msg (length rest) b ltac:(lia)) as E. rewrite Hfi in E.
    assert (Lr : length (rest ++ [b]) = (length rest + 1)%nat) by (rewrite app_length; reflexivity).
    assert (Bu : bytes (upd msg (length rest) b)) by (apply bytes_upd; assumption).
    assert (Lu : length (upd msg (length rest) b) = 64%nat) by (rewrite upd_length; assumption).
    destruct (Nat.eqb_spec (length rest + 1) 64) as [E64|N64].
    + rewrite TransformMD5_block by (try assumption; subst acc; apply fold_compress5_ok, IV5_ok).
      assert (Eu : upd msg (length rest) b = rest ++ [b])
        by (rewrite <- E, E64; symmetry; apply firstn_all2; lia).
      specialize (IH (compress5 acc (upd msg (length rest) b)) (upd msg (length rest) b) []
                    (S k) (full ++ (rest ++ [b])) Hd').
      change (fold_left md5_byte datum (compress5 acc (upd msg (length rest) b), upd msg (length rest) b, 0%nat))
        with (md5_loop (compress5 acc (upd msg (length rest) b)) (upd msg (length rest) b) (length (@nil N)) datum).
      destruct (md5_loop _ _ _ datum) as [[acc' msg'] nb'].
      destruct IH as (k' & full' & rest' & Eq & R).
      * rewrite !app_length. cbn [length]. lia.
      * cbn. lia.
      * rewrite (chunks_snoc 64 k) by (try assumption; lia).
        rewrite fold_left_app, <- Ha. cbn [fold_left]. rewrite Eu. reflexivity.
      * assumption.
      * assumption.
      * reflexivity.
      * exists k', full', rest'. split; [|exact R]. rewrite Eq. cbn [app].
        rewrite <- !app_assoc. reflexivity.
    + specialize (IH acc (upd msg (length rest) b) (rest ++ [b]) k full Hd' Hf ltac:(lia) Ha Lu Bu).
      unfold md5_loop in IH. rewrite Lr in IH. specialize (IH E).
      destruct (fold_left md5_byte datum _) as [[acc' msg'] nb'].
      destruct IH as (k' & full' & rest' & Eq & R).
      exists k', full', rest'. split; [|exact R]. rewrite Eq, <- app_assoc. reflexivity.
Qed.

Lemma md5_count len : N.to_nat (N.land (N.shiftr ((8 * len) mod 2 ^ 32) 3) 0x3f)
  = N.to_nat (len mod 64).
Proof.
  apply (count_low (sha2256 true) IV256); try (cbn; lia).
  exists 6. split; [reflexivity | discriminate].
Qed.

Lemma md5_counters L n low high :
  low = (8 * L) mod 2 ^ 32 -> high = (8 * L / 2 ^ 32) mod 2 ^ 32 ->
  wadd 32 low (wrap 32 (wshl 64 n 3)) = (8 * (L + n)) mod 2 ^ 32 /\
  wadd 32 (if wrap 32 (wadd 64 low (wshl 64 n 3)) <? low then wadd 32 high 1 else high)
    (wrap 32 (N.shiftr n 29)) = (8 * (L + n) / 2 ^ 32) mod 2 ^ 32.
Proof.
  intros -> ->. unfold wadd, wshl, wrap. rewrite N.shiftl_mul_pow2, N.shiftr_div_pow2.
  change (2 ^ 3) with 8. rewrite (N.mul_comm n 8).
  assert (R : forall x, x mod 2 ^ 64 mod 2 ^ 32 = x mod 2 ^ 32).
  { intros x. change (2 ^ 64) with (2 ^ 32 * 2 ^ 32). rewrite N.mod_mul_r by (vm_compute; discriminate).
    rewrite (N.mul_comm (2 ^ 32) (_ mod _)), N.mod_add, N.mod_mod by (vm_compute; discriminate). reflexivity. }
  assert (D : n / 2 ^ 29 = 8 * n / 2 ^ 32).
  { change (2 ^ 32) with (8 * 2 ^ 29). rewrite N.div_mul_cancel_l by (vm_compute; discriminate). reflexivity. }
  rewrite D, !R. generalize (pow2_nz 32). revert R. generalize (2 ^ 32) (2 ^ 64). clear D.
  intros M Q R HM.
  destruct (add_div_carry (sha2256 true) IV256 ltac:(cbn; lia) (or_introl eq_refl) ltac:(cbn; lia) (8 * L) (8 * n) M HM) as [D1 D2].
  replace (8 * (L + n)) with (8 * L + 8 * n) by lia.
  rewrite D1, D2. clear D1 D2. split; [rewrite N.add_mod_idemp_r by exact HM; reflexivity|].
  replace (((8 * L) mod M + (8 * n) mod Q) mod M) with (((8 * L) mod M + (8 * n) mod M) mod M).
  2:{ rewrite <- (N.add_mod_idemp_r _ (_ mod Q)) by exact HM. rewrite R. reflexivity. }
  destruct (_ <? _).
  - rewrite N.add_mod_idemp_r, !N.add_mod_idemp_l by exact HM.
    rewrite <- (N.add_assoc (_ mod M)), N.add_mod_idemp_l by exact HM. f_equal. lia.
  - rewrite N.add_mod_idemp_r, N.add_mod_idemp_l by exact HM. f_equal. lia.
Qed.

Lemma UpdateMD5_inv st m datum : md5_inv st m -> bytes datum -> md5_inv (UpdateMD5 st datum) (m ++ datum).
Proof.
  intros (k & full & rest & Em & Hf & Hr & Ha & Hl & Hb & Hfi & Hlo & Hhi) Hd.
  unfold UpdateMD5. rewrite Hlo at 1. rewrite md5_count.
  assert (Hc : N.to_nat (N.of_nat (length m) mod 64) = length rest).
  { change 64 with (N.of_nat 64). rewrite <- Nat2N.inj_mod, Nat2N.id. subst m.
    rewrite app_length, Hf, Nat.add_comm, Nat.mod_add by lia. apply Nat.mod_small; lia. }
  rewrite Hc.
  pose proof (md5_loop_ok datum _ _ rest k full Hd Hf Hr Ha Hl Hb Hfi) as I.
  destruct (md5_loop _ _ _ datum) as [[acc' msg'] nb'].
  destruct I as (k' & full' & rest' & Eq & H1 & H2 & H3 & H4 & H5 & H6).
  destruct (md5_counters (N.of_nat (length m)) (N.of_nat (length datum)) _ _ Hlo Hhi) as [C1 C2].
  exists k', full', rest'. cbn [md5_accumulator md5_message md5_low_order md5_high_order].
  rewrite app_length, Nat2N.inj_add. repeat split; try assumption.
  rewrite Eq, Em, <- app_assoc. reflexivity.
Qed.

Definition UpdateMD5All (st : MD5Info) (ms : list (list N)) : MD5Info := fold_left UpdateMD5 ms st.

Lemma UpdateMD5All_inv ms : forall st m, md5_inv st m -> Forall bytes ms ->
  md5_inv (UpdateMD5All st ms) (m ++ concat ms).
Proof.
  induction ms as [|p ms IH]; intros st m H Hb; cbn [UpdateMD5All fold_left concat].
  - rewrite app_nil_r. assumption.
  - inversion_clear Hb. rewrite app_assoc. apply IH; [now apply UpdateMD5_inv | assumption].
Qed.

Lemma md5_zeros len : let nb := (len mod 64)%nat in
  zeros 64 8 len = ((if (nb <? 56)%nat then 56 - nb else 120 - nb) - 1)%nat.
Proof.
  intros nb. unfold zeros.
  pose proof (Nat.mod_upper_bound len 64 ltac:(lia)) as U. fold nb in U.
  assert (E : ((len + 1) mod 64 = (nb + 1) mod 64)%nat)
    by (symmetry; apply Nat.add_mod_idemp_l; lia).
  rewrite E. clearbody nb. clear E len.
  destruct (Nat.ltb_spec nb 56) as [L|L].
  - rewrite (Nat.mod_small (nb + 1)) by lia.
    replace (64 - 8 + 64 - (nb + 1))%nat with (55 - nb + 1 * 64)%nat by lia.
    rewrite Nat.mod_add, Nat.mod_small by lia. lia.
  - destruct (Nat.eq_dec nb 63) as [->|N]; [reflexivity|].
    rewrite (Nat.mod_small (nb + 1)) by lia. rewrite Nat.mod_small by lia. lia.
Qed.

Lemma le_bytes_split k x :
  le_bytes k x ++ le_bytes k (x / 256 ^ N.of_nat k) = le_bytes (k + k) x.
Proof. now rewrite le_bytes_app. Qed.

Lemma FinalizeMD5_ok st m : md5_inv st m -> bytes m ->
  md5_accumulator (FinalizeMD5 st) = md_hash compress5 IV5 (le_bytes 8) 64 8 m.
Proof.
  intros I Hm. pose proof I as (k0 & full0 & rest0 & Em & Hf0 & Hr0 & _ & _ & _ & _ & Hlo & Hhi).
  unfold FinalizeMD5.
  assert (Hnb : N.to_nat (N.land (N.shiftr (md5_low_order st) 3) 0x3f) = (length m mod 64)%nat).
  { rewrite Hlo, md5_count. change 64 with (N.of_nat 64). now rewrite <- Nat2N.inj_mod, Nat2N.id. }
  rewrite Hnb. rewrite <- (md5_zeros (length m)).
  set (pad := 0x80 :: repeat 0 (zeros 64 8 (length m))).
  assert (Hpad : bytes pad).
  { constructor; [reflexivity|]. apply Forall_forall. intros x Hx. apply repeat_spec in Hx. now subst. }
  pose proof (UpdateMD5_inv st m pad I Hpad) as (k & full & rest & Ep & Hf & Hr & Ha & Hl & Hb & Hfi & _).
  set (st' := UpdateMD5 st pad) in *. clearbody st'.
  assert (L56 : length rest = 56%nat).
  { apply (f_equal (@length N)) in Ep. rewrite !app_length, Hf in Ep. unfold pad in Ep.
    cbn [length] in Ep. rewrite repeat_length in Ep.
    destruct (zeros_least 64 8 (length m) ltac:(lia)) as [_ Z].
    replace (length m + 1 + zeros 64 8 (length m))%nat with (length rest + k * 64)%nat in Z by lia.
    rewrite Nat.mod_add, Nat.mod_small in Z by lia. exact Z. }
  cbn [md5_accumulator]. unfold md_hash, md_pad.
  change ([0x80] ++ repeat 0 (zeros 64 8 (length m)) ++ le_bytes 8 (8 * N.of_nat (length m)))
    with (pad ++ le_bytes 8 (8 * N.of_nat (length m))).
  rewrite app_assoc, Ep, <- app_assoc.
  set (cnt := le_bytes 8 (8 * N.of_nat (length m))).
  assert (Lc : length cnt = 8%nat) by apply le_bytes_length.
  rewrite (chunks_snoc 64 k) by (rewrite ?app_length; lia).
  rewrite fold_left_app, <- Ha. cbn [fold_left]. unfold compress5.
  destruct (fold_compress5_ok (chunks 64 full) IV5 IV5_ok) as [A1 A2]. rewrite <- Ha in A1, A2.
  rewrite TransformMD5_words by assumption.
  do 2 f_equal.
  assert (Bm : md5_words 14 (md5_message st') = map le_val (chunks 4 rest)).
  { rewrite md5_words_le by (try assumption; lia). change (4 * 14)%nat with 56%nat.
    rewrite <- L56, Hfi. reflexivity. }
  rewrite Bm, (chunks_app 4 14) by lia. rewrite map_app. do 2 f_equal.
  unfold cnt. rewrite <- (le_bytes_split 4).
  rewrite chunks_cons by (rewrite ?le_bytes_length; lia). rewrite chunks_last by (rewrite ?le_bytes_length; lia).
  cbn [map]. rewrite !le_val_le_bytes. change (256 ^ N.of_nat 4) with (2 ^ 32).
  rewrite Hlo, Hhi. reflexivity.
Qed.

(** C15: any object, any splitting, any length *)
Theorem MD5_stream st ms :
  length (md5_message st) = 64%nat -> bytes (md5_message st) ->
  Forall bytes ms ->
  md5_digest (FinalizeMD5 (UpdateMD5All (InitializeMD5 st) ms)) = MD5 (concat ms).
Proof.
  intros Hl Hb Hms.
  assert (I0 : md5_inv (InitializeMD5 st) []).
  { exists 0%nat, [], []. cbn [InitializeMD5 md5_accumulator md5_message md5_low_order md5_high_order].
    repeat split; try assumption; cbn; lia. }
  pose proof (UpdateMD5All_inv ms _ _ I0 Hms) as I. cbn [app] in I.
  unfold md5_digest, MD5.
  rewrite (FinalizeMD5_ok _ _ I (bytes_concat ms Hms)).
  change IVrfc with IV5.
  assert (A : acc4_ok (md_hash compress5 IV5 (le_bytes 8) 64 8 (concat ms)))
    by (apply fold_compress5_ok, IV5_ok).
  destruct A as [A _]. rewrite firstn_all2 by lia.
  generalize (md_hash compress5 IV5 (le_bytes 8) 64 8 (concat ms)). intros l. clear.
  induction l as [|x l IH]; cbn [flat_map]; [reflexivity | now rewrite IH, store32le_bytes].
Qed.

Example md5_abc :
  let st := mkMD5Info (repeat 5 4) (repeat 7 64) 99 3 in
  md5_digest (FinalizeMD5 (UpdateMD5All (InitializeMD5 st) [[97]; []; [98; 99]])) =
  be_bytes 16 0x900150983cd24fb0d6963f7d28e17f72.
Proof. vm_compute. reflexivity. Qed.

Print Assumptions MD5_stream.
