(** Any sequence of Updates followed by Finalize hashes the padded
    concatenation of the updates. *)
From Coq Require Import NArith Arith List Lia ZifyBool ZifyNat ZifyN.
From Verif Require Import Base BaseLemmas PackLemmas Mem32 MdModel MdSpec.
Import ListNotations.
Local Open Scope N_scope.

Lemma splice0_app {A} (dst src : list A) :
  splice dst 0 src = src ++ skipn (length src) dst.
Proof. reflexivity. Qed.

Lemma splice_length {A} (dst : list A) i src : (i + length src <= length dst)%nat ->
  length (splice dst i src) = length dst.
Proof. intros H. unfold splice. rewrite !app_length, firstn_length, skipn_length. lia. Qed.

Lemma splice_app_r {A} (a b src : list A) i : i = length a ->
  splice (a ++ b) i src = a ++ src ++ skipn (length src) b.
Proof.
  intros ->. unfold splice. rewrite firstn_app, Nat.sub_diag, firstn_all. cbn [firstn].
  rewrite app_nil_r, skipn_app, skipn_all2 by lia. cbn [app].
  do 3 f_equal. lia.
Qed.

Lemma skipn_skipn {A} i : forall j (l : list A), skipn i (skipn j l) = skipn (j + i) l.
Proof.
  intros j l. revert l. induction j as [|j IH]; intros l; [reflexivity|].
  destruct l; cbn; [apply skipn_nil | apply IH].
Qed.

Lemma splice_full {A} (dst src : list A) : length src = length dst -> splice dst 0 src = src.
Proof. intros H. rewrite splice0_app, skipn_all2 by lia. apply app_nil_r. Qed.

Lemma chunks_snoc {A} n k (full b : list A) : (0 < n)%nat -> length full = (k * n)%nat ->
  length b = n -> chunks n (full ++ b) = chunks n full ++ [b].
Proof.
  intros Hn Hf Hb. rewrite (chunks_app n k) by assumption.
  f_equal. rewrite (chunks_last n b) by lia. reflexivity.
Qed.

Section Stream.
Variable P : MdParams.
Variable iv : list N.
Let bs := p_blocksize P.
Let T := p_transform P.
Hypothesis bs_pos : (0 < bs)%nat.

(** what the struct holds after the bytes [m] *)
Definition md_inv (st : MdInfo) (m : list N) : Prop :=
  exists k full rest,
    m = full ++ rest /\ length full = (k * bs)%nat /\ (length rest < bs)%nat /\
    md_accumulator st = fold_left T (chunks bs full) iv /\
    length (md_message st) = bs /\
    firstn (length rest) (md_message st) = rest /\
    md_offset st = length rest.

Lemma md_inv_init st : length (md_message st) = bs -> md_inv (InitializeMd iv st) [].
Proof.
  intros H. exists 0%nat, [], []. cbn. repeat split; auto.
Qed.

Lemma absorb_blocks_ok fuel : forall acc msg p k full,
  (length p <= fuel)%nat -> length full = (k * bs)%nat -> length msg = bs ->
  acc = fold_left T (chunks bs full) iv ->
  let '(acc', msg', p') := absorb_blocks P fuel acc msg p in
  exists k' full', full' ++ p' = full ++ p /\ length full' = (k' * bs)%nat /\
    acc' = fold_left T (chunks bs full') iv /\ (length p' < bs)%nat /\ length msg' = bs.
Proof.
  induction fuel as [|f IH]; intros acc msg p k full Hp Hf Hm Ha; cbn [absorb_blocks].
  - exists k, full. repeat split; auto. lia.
  - fold bs. destruct (Nat.leb_spec bs (length p)) as [L|L].
    + assert (Hl : length (firstn bs p) = bs) by (rewrite firstn_length; lia).
      rewrite splice_full by lia.
      specialize (IH (T acc (firstn bs p)) (firstn bs p) (skipn bs p) (S k) (full ++ firstn bs p)).
      change (p_transform P) with T.
      destruct (absorb_blocks P f _ _ _) as [[acc' msg'] p'].
      destruct IH as (k' & full' & E & H1 & H2 & H3 & H4).
      * rewrite skipn_length. lia.
      * rewrite app_length. lia.
      * assumption.
      * rewrite (chunks_snoc bs k) by assumption. rewrite fold_left_app, <- Ha. reflexivity.
      * exists k', full'. repeat split; auto.
        rewrite E, <- app_assoc, firstn_skipn. reflexivity.
    + exists k, full. repeat split; auto.
Qed.

Lemma update_tail_ok acc msg low high p k full :
  length full = (k * bs)%nat -> length msg = bs ->
  acc = fold_left T (chunks bs full) iv ->
  md_inv (update_tail P acc msg low high p) (full ++ p).
Proof.
  intros Hf Hm Ha. unfold update_tail.
  pose proof (absorb_blocks_ok (length p) acc msg p k full (le_n _) Hf Hm Ha) as H.
  destruct (absorb_blocks P (length p) acc msg p) as [[acc' msg'] p'].
  destruct H as (k' & full' & E & H1 & H2 & H3 & H4).
  exists k', full', p'. cbn [md_accumulator md_message md_offset].
  repeat split; auto.
  - rewrite splice_length; lia.
  - rewrite splice0_app, firstn_app, Nat.sub_diag, firstn_all. cbn [firstn]. apply app_nil_r.
Qed.

Lemma UpdateMd_inv st m p : md_inv st m -> md_inv (UpdateMd P st p) (m ++ p).
Proof.
  intros (k & full & rest & Em & Hf & Hr & Ha & Hm & Hfi & Ho).
  unfold UpdateMd. fold bs.
  destruct (count_bits P _ _ _) as [low high].
  destruct (Nat.eqb_spec (md_offset st) 0) as [Z|NZ].
  - assert (rest = []) as -> by (destruct rest; [reflexivity | cbn in Ho; lia]).
    rewrite app_nil_r in Em. subst m. apply (update_tail_ok _ _ _ _ _ k); assumption.
  - set (i := Nat.min (bs - md_offset st) (length p)).
    assert (Hi : length (firstn i p) = i) by (rewrite firstn_length; lia).
    assert (Hs : firstn (md_offset st + i) (splice (md_message st) (md_offset st) (firstn i p))
                 = rest ++ firstn i p).
    { rewrite <- (firstn_skipn (length rest) (md_message st)), Hfi.
      rewrite splice_app_r by exact Ho. rewrite Ho.
      rewrite firstn_app, firstn_all2 by lia. f_equal.
      replace (length rest + i - length rest)%nat with (length (firstn i p)) by lia.
      rewrite firstn_app, firstn_all, Nat.sub_diag. cbn [firstn]. apply app_nil_r. }
    assert (Hl : length (splice (md_message st) (md_offset st) (firstn i p)) = bs)
      by (rewrite splice_length; lia).
    destruct (Nat.eqb_spec (md_offset st + i) bs) as [E|NE].
    + assert (Hmsg : splice (md_message st) (md_offset st) (firstn i p) = rest ++ firstn i p).
      { rewrite <- Hs, E. symmetry. apply firstn_all2. lia. }
      replace (m ++ p) with ((full ++ rest ++ firstn i p) ++ skipn i p)
        by (subst m; rewrite <- !app_assoc, firstn_skipn; reflexivity).
      apply (update_tail_ok _ _ _ _ _ (S k)).
      * rewrite !app_length, Hi, Hf. lia.
      * exact Hl.
      * rewrite (chunks_snoc bs k) by (rewrite ?app_length, ?Hi; lia).
        rewrite fold_left_app, <- Ha, Hmsg. reflexivity.
    + exists k, full, (rest ++ firstn i p). cbn [md_accumulator md_message md_offset].
      assert (i = length p) by lia.
      rewrite app_length, Hi, <- Ho. repeat split; try assumption; try lia.
      subst m. rewrite <- app_assoc. rewrite (firstn_all2 p) by lia. reflexivity.
Qed.

(** ** the bit count *)
Hypothesis Hw : p_width P = 32 \/ p_width P = 64.
Hypothesis Hhw : p_width P <= p_hwidth P.

Lemma add_div_carry a b m : m <> 0 ->
  (a + b) / m = a / m + b / m + (if (a mod m + b mod m) mod m <? a mod m then 1 else 0) /\
  (a + b) mod m = (a mod m + b mod m) mod m.
Proof.
  intros Hm. split; [|apply N.add_mod; assumption].
  pose proof (N.div_mod a m Hm) as E1. pose proof (N.div_mod b m Hm) as E2.
  pose proof (N.mod_lt a m Hm). pose proof (N.mod_lt b m Hm).
  set (x := a mod m) in *. set (y := b mod m) in *. set (qa := a / m) in *. set (qb := b / m) in *.
  assert (D : (x + y < m) \/ (m <= x + y)) by lia. destruct D as [D|D].
  - rewrite N.mod_small by lia.
    replace (x + y <? x) with false by lia.
    symmetry. apply (N.div_unique _ _ _ (x + y)); nia.
  - replace ((x + y) mod m) with (x + y - m).
    2:{ apply (N.mod_unique _ _ 1); lia. }
    replace (x + y - m <? x) with true by lia.
    symmetry. apply (N.div_unique _ _ _ (x + y - m)); nia.
Qed.

Lemma count_bits_low high n len :
  fst (count_bits P ((8 * len) mod 2 ^ p_width P) high n) = (8 * (len + n)) mod 2 ^ p_width P.
Proof.
  unfold count_bits, wadd, wshl, wrap. cbn [fst].
  rewrite N.shiftl_mul_pow2. change (2 ^ 3) with 8.
  assert (E : exists c, 2 ^ 64 = c * 2 ^ p_width P /\ c <> 0).
  { destruct Hw as [-> | ->]; [exists (2 ^ 32) | exists 1]; split; vm_compute; congruence. }
  destruct E as (c & -> & Hc).
  set (M := 2 ^ p_width P). assert (M <> 0) by apply pow2_nz.
  assert (R : forall x, x mod (c * M) mod M = x mod M).
  { intros x. rewrite (N.mul_comm c M), N.mod_mul_r by assumption.
    rewrite (N.mul_comm M), N.mod_add, N.mod_mod by assumption. reflexivity. }
  rewrite R. rewrite N.add_mod by assumption. rewrite R, <- N.add_mod by assumption.
  rewrite N.add_mod_idemp_l by assumption. f_equal. lia.
Qed.

Lemma count_bits_ok n len : p_carry P n = 8 * n / 2 ^ p_width P ->
  8 * (len + n) < 2 ^ (2 * p_width P) ->
  count_bits P ((8 * len) mod 2 ^ p_width P) (8 * len / 2 ^ p_width P) n
  = ((8 * (len + n)) mod 2 ^ p_width P, 8 * (len + n) / 2 ^ p_width P).
Proof.
  intros Hc Hb.
  pose proof (count_bits_low (8 * len / 2 ^ p_width P) n len) as L.
  rewrite (surjective_pairing (count_bits P _ _ n)), L. f_equal.
  unfold count_bits in *. cbn [fst snd] in *. rewrite L, Hc. clear L Hc.
  assert (M0 : 2 ^ p_width P <> 0) by apply pow2_nz.
  assert (B : 8 * (len + n) / 2 ^ p_width P < 2 ^ p_hwidth P).
  { apply N.lt_le_trans with (2 ^ p_width P).
    - apply N.div_lt_upper_bound; [assumption|]. rewrite <- N.pow_add_r.
      replace (p_width P + p_width P) with (2 * p_width P) by lia. assumption.
    - apply N.pow_le_mono_r; [discriminate | assumption]. }
  clear Hb. revert B M0. unfold wadd, wrap.
  generalize (2 ^ p_hwidth P). intros Q.
  generalize (2 ^ p_width P). intros M B M0.
  destruct (add_div_carry (8 * len) (8 * n) M M0) as [D1 D2].
  replace (8 * (len + n)) with (8 * len + 8 * n) in * by lia.
  rewrite D2. rewrite D1 in *.
  revert B. generalize (8 * len / M) (8 * n / M). intros x y.
  destruct (_ <? _); intros B.
  - rewrite (N.mod_small (x + 1)) by lia. rewrite N.mod_small by lia. lia.
  - rewrite N.mod_small by lia. lia.
Qed.

(** ** a run of Updates *)

(** all counters correct so far *)
Definition counts (st : MdInfo) (len : N) : Prop :=
  md_low_order st = (8 * len) mod 2 ^ p_width P /\
  md_high_order st = 8 * len / 2 ^ p_width P.

Lemma UpdateMd_counters st p :
  (md_low_order (UpdateMd P st p), md_high_order (UpdateMd P st p)) =
  count_bits P (md_low_order st) (md_high_order st) (N.of_nat (length p)).
Proof.
  unfold UpdateMd, update_tail.
  destruct (count_bits P _ _ _) as [l h].
  repeat match goal with
  | |- context [if ?b then _ else _] => destruct b
  | |- context [absorb_blocks ?a ?b ?c ?d ?e] => destruct (absorb_blocks a b c d e) as [[? ?] ?]
  end; reflexivity.
Qed.

Definition UpdateAll (st : MdInfo) (ms : list (list N)) : MdInfo :=
  fold_left (UpdateMd P) ms st.

Lemma UpdateAll_inv ms : forall st m, md_inv st m -> md_inv (UpdateAll st ms) (m ++ concat ms).
Proof.
  induction ms as [|p ms IH]; intros st m H; cbn [UpdateAll fold_left concat].
  - rewrite app_nil_r. assumption.
  - rewrite app_assoc. apply IH, UpdateMd_inv, H.
Qed.

Lemma UpdateAll_low ms : forall st len,
  md_low_order st = (8 * len) mod 2 ^ p_width P ->
  md_low_order (UpdateAll st ms) = (8 * (len + N.of_nat (length (concat ms)))) mod 2 ^ p_width P.
Proof.
  induction ms as [|p ms IH]; intros st len H; cbn [UpdateAll fold_left concat length].
  - rewrite N.add_0_r. assumption.
  - rewrite app_length, Nat2N.inj_add, N.add_assoc. apply IH.
    pose proof (f_equal fst (UpdateMd_counters st p)) as E. cbn [fst] in E.
    rewrite E, H. apply count_bits_low.
Qed.

Lemma UpdateAll_counts ms : forall st len,
  counts st len ->
  Forall (fun p : list N => p_carry P (N.of_nat (length p)) = 8 * N.of_nat (length p) / 2 ^ p_width P) ms ->
  8 * (len + N.of_nat (length (concat ms))) < 2 ^ (2 * p_width P) ->
  counts (UpdateAll st ms) (len + N.of_nat (length (concat ms))).
Proof.
  induction ms as [|p ms IH]; intros st len H Hf Hb; cbn [UpdateAll fold_left concat length] in *.
  - rewrite N.add_0_r. assumption.
  - rewrite app_length, Nat2N.inj_add, N.add_assoc in *. inversion_clear Hf.
    apply IH; [|assumption|assumption].
    pose proof (UpdateMd_counters st p) as E. destruct H as [E1 E2]. rewrite E1, E2 in E.
    rewrite count_bits_ok in E; [|assumption|].
    + split; [exact (f_equal fst E) | exact (f_equal snd E)].
    + eapply N.le_lt_trans; [|exact Hb]. apply N.mul_le_mono_l, N.le_add_r.
Qed.

(** ** Finalize *)
Hypothesis Hres : (0 < p_reserve P)%nat /\ (p_reserve P < bs)%nat.
Hypothesis Hdiv : exists j, N.of_nat bs = 2 ^ j /\ j + 3 <= p_width P.

Lemma count_low len : N.to_nat (N.land (N.shiftr ((8 * len) mod 2 ^ p_width P) 3) (N.of_nat bs - 1))
  = N.to_nat (len mod N.of_nat bs).
Proof.
  destruct Hdiv as (j & Ej & Hj). rewrite Ej.
  replace (2 ^ j - 1) with (N.ones j) by (rewrite N.ones_equiv; lia).
  rewrite N.land_ones, N.shiftr_div_pow2.
  replace (p_width P) with (3 + (j + (p_width P - j - 3))) by lia.
  rewrite N.pow_add_r. change (2 ^ 3) with 8.
  rewrite N.mul_mod_distr_l by (discriminate || apply pow2_nz).
  rewrite N.mul_comm, N.div_mul by discriminate.
  rewrite N.pow_add_r, N.mod_mul_r by apply pow2_nz.
  rewrite (N.mul_comm (2 ^ j)), N.mod_add, N.mod_mod by apply pow2_nz. reflexivity.
Qed.

Lemma upd_split {A} (a b : list A) x y i : i = length a -> upd (a ++ x :: b) i y = a ++ y :: b.
Proof. intros ->. induction a as [|c a IH]; cbn; [reflexivity | now rewrite IH]. Qed.

Lemma store_be_length k x : length (store_be k x) = k.
Proof. unfold store_be. rewrite map_length, seq_length. reflexivity. Qed.

Hypothesis Hhalf : (p_reserve P / 2 + p_reserve P / 2 = p_reserve P)%nat.

Lemma zeros_fits r : (r < bs)%nat -> (r + 1 <= bs - p_reserve P)%nat ->
  zeros bs (p_reserve P) r = (bs - p_reserve P - (r + 1))%nat.
Proof.
  intros H1 H2. unfold zeros. rewrite (Nat.mod_small (r + 1)) by lia.
  replace (bs - p_reserve P + bs - (r + 1))%nat with (bs - p_reserve P - (r + 1) + 1 * bs)%nat by lia.
  rewrite Nat.mod_add by lia. apply Nat.mod_small. lia.
Qed.

Lemma zeros_spills r : (r < bs)%nat -> (bs - p_reserve P < r + 1)%nat ->
  zeros bs (p_reserve P) r = (bs - (r + 1) + (bs - p_reserve P))%nat.
Proof.
  intros H1 H2. unfold zeros. destruct (Nat.eq_dec (r + 1) bs) as [E|NE].
  - rewrite E, Nat.mod_same, Nat.sub_0_r by lia.
    replace (bs - p_reserve P + bs)%nat with (bs - p_reserve P + 1 * bs)%nat by lia.
    rewrite Nat.mod_add by lia. rewrite Nat.mod_small by lia. lia.
  - rewrite (Nat.mod_small (r + 1)) by lia. rewrite Nat.mod_small by lia. lia.
Qed.

Lemma zeros_add k r : zeros bs (p_reserve P) (k * bs + r) = zeros bs (p_reserve P) r.
Proof.
  unfold zeros. replace (k * bs + r + 1)%nat with (r + 1 + k * bs)%nat by lia.
  rewrite Nat.mod_add by lia. reflexivity.
Qed.

(** the bytes hashed in the end, whatever the counters hold *)
Lemma FinalizeMd_ok st m :
  md_inv st m ->
  md_low_order st = (8 * N.of_nat (length m)) mod 2 ^ p_width P ->
  md_accumulator (FinalizeMd P st) =
  fold_left T
    (chunks bs (m ++ [0x80] ++ repeat 0 (zeros bs (p_reserve P) (length m))
                ++ store_be (p_reserve P / 2) (md_high_order st)
                ++ store_be (p_reserve P / 2) (md_low_order st))) iv.
Proof.
  intros (k & full & rest & Em & Hf & Hr & Ha & Hm & Hfi & Ho) Hlow.
  set (cnt := store_be (p_reserve P / 2) (md_high_order st)
                ++ store_be (p_reserve P / 2) (md_low_order st)).
  assert (Hcnt : length cnt = p_reserve P) by (unfold cnt; rewrite app_length, !store_be_length; lia).
  unfold FinalizeMd. fold bs. cbv zeta.
  assert (Hc : N.to_nat (N.of_nat (length m) mod N.of_nat bs) = length rest).
  { rewrite <- Nat2N.inj_mod, Nat2N.id. subst m. rewrite app_length, Hf.
    rewrite Nat.add_comm, Nat.mod_add by lia. apply Nat.mod_small; lia. }
  pose proof (count_low (N.of_nat (length m))) as Hc'. rewrite <- Hlow, Hc in Hc'.
  rewrite Hc'. clear Hc Hc'.
  assert (Hmsg : exists x tl, md_message st = rest ++ x :: tl /\ length tl = (bs - length rest - 1)%nat).
  { pose proof (firstn_skipn (length rest) (md_message st)) as E. rewrite Hfi in E.
    destruct (skipn (length rest) (md_message st)) as [|x tl] eqn:Es.
    - pose proof (skipn_length (length rest) (md_message st)). rewrite Es in *. cbn in *. lia.
    - exists x, tl. split; [now symmetry|].
      pose proof (skipn_length (length rest) (md_message st)). rewrite Es in *. cbn in *. lia. }
  destruct Hmsg as (x & tl & -> & Htl).
  rewrite upd_split by reflexivity.
  assert (Hz : zeros bs (p_reserve P) (length m) = zeros bs (p_reserve P) (length rest))
    by (subst m; rewrite app_length, Hf; apply zeros_add).
  rewrite Hz. subst m.
  change (rest ++ 0x80 :: tl) with (rest ++ [0x80] ++ tl). rewrite (app_assoc rest).
  destruct (Nat.leb_spec (length rest + 1) (bs - p_reserve P)) as [L|L].
  - cbn [md_accumulator]. fold cnt.
    rewrite splice_app_r by (rewrite app_length; reflexivity).
    rewrite app_assoc.
    rewrite splice_app_r by (rewrite !app_length, repeat_length; cbn [length]; lia).
    rewrite skipn_skipn, skipn_all2 by (rewrite repeat_length; lia).
    rewrite app_nil_r. rewrite zeros_fits by lia.
    change (p_transform P) with T.
    replace ((full ++ rest) ++ [0x80] ++ repeat 0 (bs - p_reserve P - (length rest + 1)) ++ cnt)
      with (full ++ (((rest ++ [0x80]) ++ repeat 0 (bs - p_reserve P - (length rest + 1))) ++ cnt))
      by (rewrite <- !app_assoc; reflexivity).
    rewrite (chunks_snoc bs k) by
      (try assumption; rewrite !app_length, repeat_length; cbn [length]; lia).
    rewrite fold_left_app, <- Ha. reflexivity.
  - cbn [md_accumulator]. fold cnt.
    rewrite (splice_app_r (rest ++ [0x80]) tl) by (rewrite app_length; reflexivity).
    rewrite skipn_all2 by (rewrite repeat_length; lia). rewrite app_nil_r.
    rewrite zeros_spills by lia.
    set (b1 := (rest ++ [0x80]) ++ repeat 0 (bs - (length rest + 1))).
    assert (Hb1 : length b1 = bs)
      by (unfold b1; rewrite !app_length, repeat_length; cbn [length]; lia).
    rewrite (splice0_app b1).
    rewrite splice_app_r by (rewrite repeat_length; reflexivity).
    rewrite skipn_skipn, (skipn_all2 b1) by (rewrite repeat_length; lia).
    rewrite app_nil_r. change (p_transform P) with T.
    replace ((full ++ rest) ++ [0x80] ++
       repeat 0 (bs - (length rest + 1) + (bs - p_reserve P)) ++ cnt)
      with ((full ++ b1) ++ (repeat 0 (bs - p_reserve P) ++ cnt))
      by (unfold b1; rewrite repeat_app, <- !app_assoc; reflexivity).
    rewrite (chunks_snoc bs (S k)) by (rewrite ?app_length, ?repeat_length; lia).
    rewrite (chunks_snoc bs k) by assumption.
    rewrite !fold_left_app, <- Ha. reflexivity.
Qed.

End Stream.

(** the two counters written out are the bit count *)
Lemma store_be_bytes k x : store_be k x = be_bytes k x.
Proof.
  unfold store_be, be_bytes. revert x. induction k as [|k IH]; intros x; [reflexivity|].
  cbn [le_bytes rev]. rewrite <- (IH (x / 256)). clear IH.
  rewrite seq_S, map_app. cbn [map]. f_equal.
  - apply map_ext_in. intros i Hi. apply in_seq in Hi. f_equal.
    replace (N.of_nat (S k - 1 - i)) with (N.of_nat (k - 1 - i) + 1) by lia.
    rewrite !shiftr_8j. rewrite N.pow_add_r, N.mul_comm.
    rewrite <- N.div_div; [reflexivity | discriminate |]. apply N.pow_nonzero. discriminate.
  - cbn [plus]. replace (S k - 1 - k)%nat with 0%nat by lia.
    change (8 * N.of_nat 0) with 0. rewrite N.shiftr_0_r. reflexivity.
Qed.

Lemma le_bytes_app k j x : le_bytes (k + j) x = le_bytes k x ++ le_bytes j (x / 256 ^ N.of_nat k).
Proof.
  revert x. induction k as [|k IH]; intros x.
  - cbn [le_bytes plus app]. change (256 ^ N.of_nat 0) with 1. rewrite N.div_1_r. reflexivity.
  - cbn [le_bytes plus app]. rewrite IH. do 2 f_equal.
    rewrite pow256_succ, N.div_div; [reflexivity | discriminate |]. apply N.pow_nonzero. discriminate.
Qed.

Lemma le_bytes_mod k x : le_bytes k (x mod 256 ^ N.of_nat k) = le_bytes k x.
Proof.
  apply le_val_inj; auto using le_bytes_bytes.
  - now rewrite !le_bytes_length.
  - rewrite !le_val_le_bytes. apply N.mod_mod, N.pow_nonzero. discriminate.
Qed.

Lemma be_bytes_split k x :
  be_bytes k (x / 256 ^ N.of_nat k) ++ be_bytes k (x mod 256 ^ N.of_nat k) = be_bytes (k + k) x.
Proof.
  unfold be_bytes. rewrite le_bytes_app, rev_app_distr, le_bytes_mod. reflexivity.
Qed.

(** Initialize, any Updates, Finalize: the accumulator is that of the
    standard's construction with [p_transform] as compression function *)
Theorem md_stream P iv st ms :
  let bs := p_blocksize P in
  let r := p_reserve P in
  (p_width P = 32 /\ bs = 64%nat /\ r = 8%nat \/ p_width P = 64 /\ bs = 128%nat /\ r = 16%nat) ->
  p_width P <= p_hwidth P ->
  length (md_message st) = bs ->
  Forall (fun p : list N => p_carry P (N.of_nat (length p)) = 8 * N.of_nat (length p) / 2 ^ p_width P) ms ->
  8 * N.of_nat (length (concat ms)) < 2 ^ (2 * p_width P) ->
  md_accumulator (FinalizeMd P (UpdateAll P (InitializeMd iv st) ms)) =
  md_hash (p_transform P) iv (be_bytes r) bs r (concat ms).
Proof.
  intros bs r HP Hhw Hm Hf Hb.
  assert (Hbs : (0 < bs)%nat) by lia.
  assert (HW : p_width P = 32 \/ p_width P = 64) by lia.
  pose proof (UpdateAll_inv P iv Hbs ms _ [] (md_inv_init P iv Hbs st Hm)) as I.
  cbn [app] in I.
  assert (C0 : counts P (InitializeMd iv st) 0).
  { split; cbn [InitializeMd md_low_order md_high_order]; change (8 * 0) with 0.
    - symmetry. apply N.mod_0_l, pow2_nz.
    - symmetry. apply N.div_0_l, pow2_nz. }
  pose proof (UpdateAll_counts P iv Hbs HW Hhw ms _ 0 C0 Hf Hb) as [L H]. rewrite N.add_0_l in *.
  assert (R1 : (0 < r < bs)%nat) by (clear - HP; lia).
  assert (R2 : exists j : N, N.of_nat bs = 2 ^ j /\ j + 3 <= p_width P).
  { destruct HP as [(EW & Eb & Er) | (EW & Eb & Er)]; rewrite EW, Eb.
    - exists 6. split; [reflexivity | discriminate].
    - exists 7. split; [reflexivity | discriminate]. }
  assert (R3 : (r / 2 + r / 2)%nat = r) by (destruct HP as [(_ & _ & ->) | (_ & _ & ->)]; reflexivity).
  rewrite (FinalizeMd_ok P iv Hbs HW Hhw R1 R2 R3 _ _ I L).
  unfold md_hash, md_pad. fold bs r. do 5 f_equal. rewrite L, H, !store_be_bytes.
  destruct HP as [(EW & Eb & Er) | (EW & Eb & Er)]; rewrite EW, Er.
  - exact (be_bytes_split 4 _).
  - exact (be_bytes_split 8 _).
Qed.

(** ** replacing the transform by an equal one *)

Lemma zeros_total bs r len : (0 < r < bs)%nat ->
  exists k, (len + 1 + zeros bs r len + r)%nat = (k * bs)%nat.
Proof.
  intros H. unfold zeros.
  pose proof (Nat.div_mod (len + 1) bs ltac:(lia)) as D.
  pose proof (Nat.mod_upper_bound (len + 1) bs ltac:(lia)) as U.
  set (x := ((len + 1) mod bs)%nat) in *. set (q := ((len + 1) / bs)%nat) in *.
  destruct (le_lt_dec x (bs - r)) as [L|L].
  - replace (bs - r + bs - x)%nat with (bs - r - x + 1 * bs)%nat by lia.
    rewrite Nat.mod_add by lia. rewrite Nat.mod_small by lia. exists (q + 1)%nat. nia.
  - rewrite Nat.mod_small by lia. exists (q + 2)%nat. nia.
Qed.

(** the padding is the one of the standard: the least number of zeros that
    leaves exactly [r] bytes for the length in the last block *)
Lemma zeros_least bs r len : (0 < r < bs)%nat ->
  (zeros bs r len < bs)%nat /\ ((len + 1 + zeros bs r len) mod bs = bs - r)%nat.
Proof.
  intros H. destruct (zeros_total bs r len H) as (k & E). split.
  - unfold zeros. apply Nat.mod_upper_bound. lia.
  - assert (1 <= k)%nat by nia.
    replace (len + 1 + zeros bs r len)%nat with (bs - r + (k - 1) * bs)%nat by nia.
    rewrite Nat.mod_add by lia. apply Nat.mod_small. lia.
Qed.

Lemma md_pad_bytes lenbytes bs r m : bytes m -> (forall n, bytes (lenbytes n)) ->
  bytes (md_pad lenbytes bs r m).
Proof.
  intros H1 H2. unfold md_pad. apply bytes_app. split; [assumption|].
  constructor; [reflexivity|]. apply bytes_app. split; [|apply H2].
  apply Forall_forall. intros x Hx. apply repeat_spec in Hx. subst. reflexivity.
Qed.

Lemma md_pad_length lenbytes bs r m : (0 < r < bs)%nat ->
  (forall n, length (lenbytes n) = r) ->
  exists k, length (md_pad lenbytes bs r m) = (k * bs)%nat.
Proof.
  intros H1 H2. destruct (zeros_total bs r (length m) H1) as (k & E). exists k.
  unfold md_pad. rewrite !app_length, repeat_length, H2. cbn [length]. lia.
Qed.

Lemma fold_chunks_ext (I : list N -> Prop) bs f g : (0 < bs)%nat ->
  (forall acc b, I acc -> bytes b -> length b = bs -> f acc b = g acc b /\ I (g acc b)) ->
  forall k l acc, bytes l -> length l = (k * bs)%nat -> I acc ->
  fold_left f (chunks bs l) acc = fold_left g (chunks bs l) acc /\
  I (fold_left g (chunks bs l) acc).
Proof.
  intros Hbs H. induction k as [|k IH]; intros l acc Hl HL HI.
  - destruct l; [|cbn in HL; lia]. split; [reflexivity | exact HI].
  - rewrite <- (firstn_skipn bs l).
    assert (L1 : length (firstn bs l) = bs) by (rewrite firstn_length; lia).
    rewrite chunks_cons by assumption. cbn [fold_left].
    destruct (H acc (firstn bs l)) as [E I'];
      [exact HI | apply Forall_firstn_; exact Hl | exact L1 |].
    rewrite E. apply IH; [apply Forall_skipn_; exact Hl | rewrite skipn_length; lia | exact I'].
Qed.

Lemma md_hash_ext (I : list N -> Prop) f g iv lenbytes bs r m :
  (0 < r < bs)%nat -> (forall n, length (lenbytes n) = r) -> (forall n, bytes (lenbytes n)) ->
  (forall acc b, I acc -> bytes b -> length b = bs -> f acc b = g acc b /\ I (g acc b)) ->
  I iv -> bytes m ->
  md_hash f iv lenbytes bs r m = md_hash g iv lenbytes bs r m /\
  I (md_hash g iv lenbytes bs r m).
Proof.
  intros H1 H2 H3 H4 H5 H6. unfold md_hash.
  destruct (md_pad_length lenbytes bs r m H1 H2) as (k & E).
  apply (fold_chunks_ext I bs f g) with (k := k); auto using md_pad_bytes. lia.
Qed.

Lemma flat_map_store k l : flat_map (store_be k) l = flat_map (be_bytes k) l.
Proof. induction l as [|x l IH]; cbn [flat_map]; [reflexivity | now rewrite IH, store_be_bytes]. Qed.

Lemma bytes_concat ms : Forall bytes ms -> bytes (concat ms).
Proof.
  induction 1 as [|m ms H H' IH]; cbn [concat]; [constructor | apply bytes_app; now split].
Qed.
