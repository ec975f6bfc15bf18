(** The invariant of a HashInfo under any sequence of calls, and the relation
    between two objects that were initialised and then given the same calls. *)
From Coq Require Import NArith Arith List Lia Bool ZifyBool ZifyNat ZifyN.
From Verif Require Import Base BaseLemmas PackLemmas Mem32 MdModel MdSpec MdProof Sha1Model Sha2Model Md5Model
  Crc64Model Sha3Model Sha3Proof Sha3Stream Md5Props Sha3Props HashModel.
Import ListNotations.

(** ** lists *)

Lemma splice_firstn {A} (a s : list A) i : i <= length a -> firstn (i + length s) (splice a i s) = firstn i a ++ s.
Proof.
  intros H. unfold splice. rewrite app_assoc, firstn_app.
  assert (L : length (firstn i a ++ s) = i + length s) by (rewrite app_length, firstn_length; lia).
  rewrite L, Nat.sub_diag, firstn_all2 by lia. apply app_nil_r.
Qed.

Lemma splice_all {A} (a s : list A) i : i + length s = length a -> splice a i s = firstn i a ++ s.
Proof. intros H. unfold splice. rewrite skipn_all2 by lia. now rewrite app_nil_r. Qed.

Lemma firstn_upd {A} (a : list A) i x : i < length a -> firstn (i + 1) (upd a i x) = firstn i a ++ [x].
Proof.
  revert i. induction a as [|y a IH]; intros i H; cbn [length] in H; [lia|].
  destruct i as [|i]; cbn [upd Nat.add firstn app]; [reflexivity|]. f_equal. apply IH. lia.
Qed.

Lemma firstn_le {A} (a b : list A) i j : j <= i -> firstn i a = firstn i b -> firstn j a = firstn j b.
Proof.
  intros H E. rewrite <- (Nat.min_l j i H), <- !firstn_firstn, E. reflexivity.
Qed.

Lemma app_inj_length {A} (a b c d : list A) : length a = length c -> a ++ b = c ++ d -> a = c /\ b = d.
Proof.
  revert c. induction a as [|x a IH]; intros [|y c] L E; cbn in *; try discriminate; [auto|].
  injection E as -> E. destruct (IH c ltac:(lia) E) as [-> ->]. auto.
Qed.

(** ** the SHA-1 and SHA-2 structs *)

Section Md.
Variable P : MdParams.
Let bs := p_blocksize P.
Hypothesis HP : p_width P = 32%N /\ bs = 64 /\ p_reserve P = 8 \/ p_width P = 64%N /\ bs = 128 /\ p_reserve P = 16.
Hypothesis Hhw : (p_width P <= p_hwidth P)%N.

Definition md_shape (st : MdInfo) : Prop := length (md_message st) = bs /\ md_offset st < bs.

Lemma bs_pos : 0 < p_blocksize P.
Proof. fold bs. lia. Qed.

Lemma md_rebase st : md_shape st ->
  md_inv P (md_accumulator st) st (firstn (md_offset st) (md_message st)).
Proof.
  intros [L O]. fold bs in L.
  assert (F : length (firstn (md_offset st) (md_message st)) = md_offset st) by (rewrite firstn_length; lia).
  exists 0, [], (firstn (md_offset st) (md_message st)). rewrite F.
  repeat split; auto. 
Qed.

Lemma UpdateMd_shape st p : md_shape st -> md_shape (UpdateMd P st p).
Proof.
  intros H. destruct (UpdateMd_inv P _ bs_pos _ _ p (md_rebase st H))
    as (k & full & rest & _ & _ & Hr & _ & Hl & _ & Ho).
  split; [exact Hl | rewrite Ho; exact Hr].
Qed.

Lemma InitializeMd_shape iv st : md_shape st -> md_shape (InitializeMd iv st).
Proof. intros [L O]. split; [exact L|]. apply bs_pos. Qed.

Definition count (low : N) : nat := N.to_nat (N.land (N.shiftr low 3) (N.of_nat bs - 1)).

Lemma count_lt low : count low < bs.
Proof.
  unfold count. assert (E : (N.land (N.shiftr low 3) (N.of_nat bs - 1) < N.of_nat bs)%N).
  { destruct HP as [(_ & -> & _)|(_ & -> & _)].
    - change (N.of_nat 64 - 1)%N with (N.ones 6). rewrite N.land_ones. apply N.mod_lt. discriminate.
    - change (N.of_nat 128 - 1)%N with (N.ones 7). rewrite N.land_ones. apply N.mod_lt. discriminate. }
  lia.
Qed.

(** the struct after Finalize in terms of the first [count] bytes of the buffer *)
Definition final_block (c : nat) (a rest : list N) (cnt : list N) : list N * list N :=
  if c + 1 <=? bs - p_reserve P then
    (a, rest ++ [0x80%N] ++ repeat 0%N (bs - p_reserve P - (c + 1)) ++ cnt)
  else (p_transform P a (rest ++ [0x80%N] ++ repeat 0%N (bs - (c + 1))),
        repeat 0%N (bs - p_reserve P) ++ cnt).

Lemma FinalizeMd_block st : length (md_message st) = bs ->
  let c := count (md_low_order st) in
  let cnt := store_be (p_reserve P / 2) (md_high_order st) ++ store_be (p_reserve P / 2) (md_low_order st) in
  let '(a, b) := final_block c (md_accumulator st) (firstn c (md_message st)) cnt in
  FinalizeMd P st = mkMdInfo (p_transform P a b) b (md_low_order st) (md_high_order st) (md_offset st).
Proof.
  intros L c cnt. unfold FinalizeMd, final_block. fold bs. cbv zeta.
  fold (count (md_low_order st)). fold c. fold cnt. pose proof (count_lt (md_low_order st)) as C. fold c in C.
  assert (LC : length cnt = p_reserve P).
  { unfold cnt. rewrite app_length, !store_be_length. destruct HP as [(_ & _ & ->)|(_ & _ & ->)]; reflexivity. }
  assert (R : 0 < p_reserve P /\ p_reserve P < bs) by lia.
  set (d := upd (md_message st) c 128%N).
  assert (Ld : length d = bs) by (unfold d; now rewrite upd_length).
  assert (Fd : firstn (c + 1) d = firstn c (md_message st) ++ [128%N]) by (apply firstn_upd; lia).
  destruct (Nat.leb_spec (c + 1) (bs - p_reserve P)) as [G|G].
  - set (z := repeat 0%N (bs - p_reserve P - (c + 1))).
    assert (Lz : c + 1 + length z = bs - p_reserve P) by (unfold z; rewrite repeat_length; lia).
    assert (E : splice (splice d (c + 1) z) (bs - p_reserve P) cnt =
                firstn c (md_message st) ++ [128%N] ++ z ++ cnt).
    { rewrite splice_all by (rewrite splice_length; lia).
      rewrite <- Lz, splice_firstn, Fd by lia. now rewrite <- !app_assoc. }
    rewrite E. reflexivity.
  - set (z := repeat 0%N (bs - (c + 1))).
    assert (Lz : c + 1 + length z = bs) by (unfold z; rewrite repeat_length; lia).
    assert (E1 : splice d (c + 1) z = firstn c (md_message st) ++ [128%N] ++ z).
    { rewrite splice_all, Fd by lia. now rewrite <- app_assoc. }
    rewrite E1. set (d1 := firstn c (md_message st) ++ [128%N] ++ z).
    assert (L1 : length d1 = bs) by (unfold d1; rewrite <- E1, splice_length; lia).
    set (y := repeat 0%N (bs - p_reserve P)).
    assert (Ly : 0 + length y = bs - p_reserve P) by (unfold y; rewrite repeat_length; lia).
    assert (E2 : splice (splice d1 0 y) (bs - p_reserve P) cnt = y ++ cnt).
    { rewrite splice_all by (rewrite splice_length; lia).
      rewrite <- Ly, splice_firstn by lia. reflexivity. }
    rewrite E2. reflexivity.
Qed.

Lemma FinalizeMd_shape st : md_shape st -> md_shape (FinalizeMd P st).
Proof.
  intros [L O]. pose proof (FinalizeMd_block st L) as E. cbv zeta in E.
  set (cnt := store_be _ _ ++ store_be _ _) in E.
  assert (LC : length cnt = p_reserve P).
  { unfold cnt. rewrite app_length, !store_be_length. destruct HP as [(_ & _ & ->)|(_ & _ & ->)]; reflexivity. }
  pose proof (count_lt (md_low_order st)) as C.
  unfold final_block in E. destruct (Nat.leb_spec (count (md_low_order st) + 1) (bs - p_reserve P)) as [G|G];
    rewrite E; (split; [|exact O]); cbn [md_message]; rewrite !app_length, ?firstn_length; cbn [length];
    rewrite ?repeat_length, LC; lia.
Qed.

(** two structs that can no longer be told apart *)
Record md_rel (s t : MdInfo) : Prop := {
  r_s : md_shape s; r_t : md_shape t;
  r_off : md_offset s = md_offset t;
  r_msg : firstn (md_offset s) (md_message s) = firstn (md_offset s) (md_message t);
  r_acc : md_accumulator s = md_accumulator t;
  r_low : md_low_order s = md_low_order t;
  r_high : md_high_order s = md_high_order t;
  r_len : exists len, md_low_order s = ((8 * len) mod 2 ^ p_width P)%N /\
                      md_offset s = N.to_nat (len mod N.of_nat bs)
}.

Lemma HW : p_width P = 32%N \/ p_width P = 64%N.
Proof. destruct HP as [(? & _)|(? & _)]; auto. Qed.

Lemma rel_init iv s t : md_shape s -> md_shape t -> md_rel (InitializeMd iv s) (InitializeMd iv t).
Proof.
  intros Hs Ht. constructor; try (now apply InitializeMd_shape); try reflexivity.
  exists 0%N. cbn [InitializeMd md_low_order md_offset]. split.
  - symmetry. apply N.mod_0_l, pow2_nz.
  - rewrite N.mod_0_l by lia. reflexivity.
Qed.

Lemma rel_update s t p : md_rel s t -> md_rel (UpdateMd P s p) (UpdateMd P t p).
Proof.
  intros [Hs Ht Ho Hm Ha Hl Hh (len & Elow & Eoff)].
  pose proof (UpdateMd_inv P _ bs_pos _ _ p (md_rebase s Hs)) as (k & full & rest & E & Hf & Hr & A & L & F & O).
  pose proof (UpdateMd_inv P _ bs_pos _ _ p (md_rebase t Ht)) as (k' & full' & rest' & E' & Hf' & Hr' & A' & L' & F' & O').
  rewrite <- Ho, <- Hm in E'. rewrite E in E'.
  fold bs in Hf, Hr, L, Hf', Hr', L'.
  assert (Lk : k = k').
  { pose proof (f_equal (@length N) E') as LL. rewrite !app_length, Hf, Hf' in LL.
    assert (0 < bs) by apply bs_pos. clear - LL Hr Hr' H. 
    assert (k = (k * bs + length rest) / bs) by (apply Nat.div_unique with (length rest); lia).
    assert (k' = (k' * bs + length rest') / bs) by (apply Nat.div_unique with (length rest'); lia).
    congruence. }
  subst k'. assert (full = full' /\ rest = rest') as [<- <-] by (apply app_inj_length; [congruence | exact E']).
  pose proof (UpdateMd_counters P s p) as Cs. pose proof (UpdateMd_counters P t p) as Ct.
  rewrite <- Hl, <- Hh, <- Cs in Ct.
  constructor.
  - now apply UpdateMd_shape.
  - now apply UpdateMd_shape.
  - congruence.
  - rewrite O, F, F'. reflexivity.
  - rewrite A, A', Ha. reflexivity.
  - symmetry. exact (f_equal fst Ct).
  - symmetry. exact (f_equal snd Ct).
  - exists (len + N.of_nat (length p))%N. split.
    + pose proof (f_equal fst Cs) as C. cbn [fst] in C. rewrite C, Elow.
      apply (count_bits_low P (md_accumulator s) bs_pos HW Hhw).
    + rewrite O. pose proof (f_equal (@length N) E) as LL. rewrite !app_length, Hf, firstn_length in LL.
      destruct Hs as [Ls Os]. rewrite Ls, Nat.min_l in LL by lia.
      assert (HB : 0 < bs) by apply bs_pos.
      assert (X : length rest = (md_offset s + length p) mod bs).
      { rewrite LL. rewrite Nat.add_comm, Nat.mod_add, Nat.mod_small; lia. }
      rewrite X, Eoff. rewrite <- N.add_mod_idemp_l by lia.
      apply Nat2N.inj. rewrite Nat2N.inj_mod, Nat2N.inj_add, !N2Nat.id. reflexivity.
Qed.

Lemma rel_count s t : md_rel s t -> count (md_low_order s) = md_offset s.
Proof.
  intros R. destruct (r_len _ _ R) as (len & -> & ->). unfold count.
  assert (R1 : 0 < p_reserve P /\ p_reserve P < bs) by lia.
  assert (R2 : exists j : N, N.of_nat bs = (2 ^ j)%N /\ (j + 3 <= p_width P)%N).
  { destruct HP as [(EW & Eb & Er) | (EW & Eb & Er)]; rewrite EW, Eb.
    - exists 6%N. split; [reflexivity | discriminate].
    - exists 7%N. split; [reflexivity | discriminate]. }
  apply (count_low P (md_accumulator s) bs_pos HW Hhw R1 R2).
Qed.

Lemma rel_final s t : md_rel s t -> md_rel (FinalizeMd P s) (FinalizeMd P t).
Proof.
  intros R. pose proof (FinalizeMd_block s (proj1 (r_s _ _ R))) as Es.
  pose proof (FinalizeMd_block t (proj1 (r_t _ _ R))) as Et. cbv zeta in Es, Et.
  pose proof (FinalizeMd_shape s (r_s _ _ R)) as Ss. pose proof (FinalizeMd_shape t (r_t _ _ R)) as St.
  rewrite <- (r_low _ _ R), <- (r_high _ _ R), <- (r_acc _ _ R), (rel_count _ _ R), <- (r_msg _ _ R) in Et.
  rewrite (rel_count _ _ R) in Es.
  destruct (final_block _ _ _ _) as [a b].
  rewrite Es in Ss |- *. rewrite Et in St |- *.
  constructor; try assumption; try reflexivity.
  - exact (r_off _ _ R).
  - exact (r_len _ _ R).
Qed.
End Md.

(** ** MD5 *)

Definition md5_shape (st : MD5Info) : Prop := length (md5_message st) = 64 /\ bytes (md5_message st).

Lemma md5_byte_shape acc msg nb b : length msg = 64 -> bytes msg -> (b < 256)%N ->
  let '(_, msg', _) := md5_byte (acc, msg, nb) b in length msg' = 64 /\ bytes msg'.
Proof.
  intros L B Hb. unfold md5_byte.
  assert (length (upd msg nb b) = 64 /\ bytes (upd msg nb b)) by (split; [now rewrite upd_length | now apply bytes_upd]).
  destruct (_ =? _); assumption.
Qed.

Lemma md5_loop_shape datum : forall acc msg nb, length msg = 64 -> bytes msg -> bytes datum ->
  let '(_, msg', _) := md5_loop acc msg nb datum in length msg' = 64 /\ bytes msg'.
Proof.
  induction datum as [|b datum IH]; intros acc msg nb L B D.
  - now split.
  - inversion_clear D as [|? ? Hb D']. unfold md5_loop. cbn [fold_left].
    pose proof (md5_byte_shape acc msg nb b L B Hb) as S.
    destruct (md5_byte (acc, msg, nb) b) as [[a' m'] n']. destruct S. now apply IH.
Qed.

Lemma UpdateMD5_shape st p : md5_shape st -> bytes p -> md5_shape (UpdateMD5 st p).
Proof.
  intros [L B] Hp. unfold UpdateMD5.
  match goal with |- context [md5_loop ?a ?m ?n p] => pose proof (md5_loop_shape p a m n L B Hp) as S;
    destruct (md5_loop a m n p) as [[? ?] ?] end.
  exact S.
Qed.

Lemma pad_bytes k : bytes (0x80%N :: repeat 0%N k).
Proof. constructor; [reflexivity|]. apply Forall_forall. intros x Hx. apply repeat_spec in Hx. now subst. Qed.

Lemma FinalizeMD5_shape st : md5_shape st -> md5_shape (FinalizeMD5 st).
Proof. intros H. unfold FinalizeMD5. apply (UpdateMD5_shape _ _ H), pad_bytes. Qed.

Record md5_rel (s t : MD5Info) : Prop := {
  q_s : md5_shape s; q_t : md5_shape t;
  q_acc : md5_accumulator s = md5_accumulator t;
  q_low : md5_low_order s = md5_low_order t;
  q_high : md5_high_order s = md5_high_order t;
  q_len : exists len, md5_low_order s = ((8 * len) mod 2 ^ 32)%N /\
          firstn (N.to_nat (len mod 64)) (md5_message s) = firstn (N.to_nat (len mod 64)) (md5_message t)
}.

Lemma md5_rel_init s t : md5_shape s -> md5_shape t -> md5_rel (InitializeMD5 s) (InitializeMD5 t).
Proof.
  intros Hs Ht. constructor; try assumption; try reflexivity. exists 0%N. split; reflexivity.
Qed.

Lemma md5_words_firstn k a b : firstn (4 * k) a = firstn (4 * k) b -> md5_words k a = md5_words k b.
Proof.
  intros E. unfold md5_words. apply map_ext_in. intros j Hj. apply in_seq in Hj. unfold slice.
  rewrite !firstn_skipn_comm. f_equal. f_equal. apply (firstn_le _ _ (4 * k)); [lia | exact E].
Qed.

Lemma md5_loop_rel datum : forall acc m1 m2 nb, nb < 64 -> length m1 = 64 -> length m2 = 64 ->
  firstn nb m1 = firstn nb m2 ->
  let '(a1, m1', n1) := md5_loop acc m1 nb datum in
  let '(a2, m2', n2) := md5_loop acc m2 nb datum in
  a1 = a2 /\ n1 = n2 /\ n1 = (nb + length datum) mod 64 /\ firstn n1 m1' = firstn n1 m2'.
Proof.
  induction datum as [|b datum IH]; intros acc m1 m2 nb Hn L1 L2 E.
  - unfold md5_loop. cbn [fold_left length]. rewrite Nat.add_0_r. repeat split; auto. symmetry. now apply Nat.mod_small.
  - unfold md5_loop. cbn [fold_left md5_byte].
    assert (F : firstn (nb + 1) (upd m1 nb b) = firstn (nb + 1) (upd m2 nb b)).
    { rewrite !firstn_upd by lia. now rewrite E. }
    destruct (Nat.eqb_spec (nb + 1) 64) as [E64|N64].
    + assert (EQ : upd m1 nb b = upd m2 nb b).
      { rewrite E64 in F. rewrite !firstn_all2 in F by (rewrite upd_length; lia). exact F. }
      rewrite EQ.
      pose proof (IH (TransformMD5 acc (md5_words 16 (upd m2 nb b))) (upd m2 nb b) (upd m2 nb b) 0
          ltac:(lia) ltac:(rewrite upd_length; lia) ltac:(rewrite upd_length; lia) eq_refl) as H.
      unfold md5_loop in H. destruct (fold_left md5_byte datum _) as [[a1 x1] n1].
      destruct H as (_ & _ & H & _). repeat split. rewrite H.
      cbn [length]. replace (nb + S (length datum)) with (0 + length datum + 1 * 64) by lia.
      now rewrite Nat.mod_add by lia.
    + pose proof (IH acc (upd m1 nb b) (upd m2 nb b) (nb + 1) ltac:(lia) ltac:(rewrite upd_length; lia)
         ltac:(rewrite upd_length; lia) F) as H.
      unfold md5_loop in H. destruct (fold_left md5_byte datum (acc, upd m1 nb b, _)) as [[a1 x1] n1].
      destruct (fold_left md5_byte datum (acc, upd m2 nb b, _)) as [[a2 x2] n2].
      cbn [length]. replace (nb + S (length datum)) with (nb + 1 + length datum) by lia. exact H.
Qed.

Lemma md5_low_update L n : wadd 32 ((8 * L) mod 2 ^ 32) (wrap 32 (wshl 64 n 3)) = ((8 * (L + n)) mod 2 ^ 32)%N.
Proof.
  destruct (md5_counters L n _ _ eq_refl eq_refl) as [E _]. exact E.
Qed.

Lemma md5_rel_update s t p : md5_rel s t -> bytes p -> md5_rel (UpdateMD5 s p) (UpdateMD5 t p).
Proof.
  intros [Hs Ht Ha Hl Hh (len & Elow & E)] Bp.
  pose proof (UpdateMD5_shape s p Hs Bp) as Ss. pose proof (UpdateMD5_shape t p Ht Bp) as St.
  unfold UpdateMD5 in *. rewrite <- Hl in *. rewrite Elow in *. rewrite md5_count in *. rewrite <- Hh, <- Ha in *.
  assert (U : (len mod 64 < 64)%N) by (apply N.mod_lt; lia).
  pose proof (md5_loop_rel p (md5_accumulator s) (md5_message s) (md5_message t) (N.to_nat (len mod 64))
     ltac:(lia) (proj1 Hs) (proj1 Ht) E) as R.
  destruct (md5_loop (md5_accumulator s) (md5_message s) _ p) as [[a1 m1] n1].
  destruct (md5_loop (md5_accumulator s) (md5_message t) _ p) as [[a2 m2] n2].
  destruct R as (Ra & Rn & Rm & Rf).
  constructor; try assumption; try reflexivity.
  exists (len + N.of_nat (length p))%N. cbn [md5_low_order md5_message]. split; [apply md5_low_update|].
  assert (X : N.to_nat ((len + N.of_nat (length p)) mod 64) = n1).
  { rewrite Rm. apply Nat2N.inj. rewrite N2Nat.id, Nat2N.inj_mod, Nat2N.inj_add, N2Nat.id.
    change (N.of_nat 64) with 64%N. now rewrite N.add_mod_idemp_l by lia. }
  rewrite X. exact Rf.
Qed.

Lemma md5_rel_final s t : md5_rel s t -> md5_rel (FinalizeMD5 s) (FinalizeMD5 t).
Proof.
  intros R. unfold FinalizeMD5. rewrite <- (q_low _ _ R), <- (q_high _ _ R).
  set (nb := N.to_nat (N.land (N.shiftr (md5_low_order s) 3) 0x3f)).
  set (padlen := if nb <? 56 then 56 - nb else 120 - nb).
  set (pad := 128%N :: repeat 0%N (padlen - 1)).
  pose proof (md5_rel_update s t pad R (pad_bytes _)) as R'.
  destruct (q_len _ _ R) as (len & Elow & _).
  assert (LP : length pad = padlen) by (unfold pad, padlen; cbn [length]; rewrite repeat_length; 
    assert (nb < 64) by (unfold nb; rewrite Elow, md5_count; pose proof (N.mod_lt len 64); lia);
    destruct (Nat.ltb_spec nb 56); lia).
  assert (M : firstn 56 (md5_message (UpdateMD5 s pad)) = firstn 56 (md5_message (UpdateMD5 t pad))).
  { assert (U : (len mod 64 < 64)%N) by (apply N.mod_lt; lia).
    assert (Enb : nb = N.to_nat (len mod 64)) by (unfold nb; now rewrite Elow, md5_count).
    destruct (q_len _ _ R') as (len' & Elow' & E').
    assert (X : N.to_nat (len' mod 64) = 56).
    { assert (Y : N.to_nat (len' mod 64) = N.to_nat ((len + N.of_nat (length pad)) mod 64)).
      { rewrite <- !md5_count. rewrite <- Elow', <- md5_low_update, <- Elow. unfold UpdateMD5.
        destruct (md5_loop _ _ _ pad) as [[? ?] ?]. reflexivity. }
      rewrite Y, LP. clear - Enb U. unfold padlen. destruct (Nat.ltb_spec nb 56).
      - rewrite <- N.add_mod_idemp_l by lia. replace (len mod 64 + N.of_nat (56 - nb))%N with 56%N by lia. reflexivity.
      - rewrite <- N.add_mod_idemp_l by lia. replace (len mod 64 + N.of_nat (120 - nb))%N with 120%N by lia. reflexivity. }
    rewrite X in E'. exact E'. }
  rewrite (md5_words_firstn 14 _ _ M), (q_acc _ _ R').
  destruct R' as [A1 A2 A3 A4 A5 A6].
  constructor; cbn [md5_accumulator md5_message md5_low_order md5_high_order].
  - exact A1.
  - exact A2.
  - reflexivity.
  - exact A4.
  - exact A5.
  - exact A6.
Qed.
