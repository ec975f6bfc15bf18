(** The AES key schedule of wizard/aes.c, and the block theorems. *)
From Coq Require Import Arith NArith List Lia Bool ZArith.
From Coq Require Import ZifyBool ZifyNat ZifyN.
From Verif Require Import Base BaseLemmas PackLemmas AesModel AesSpec AesProof AesProof2.
Import ListNotations.
Local Open Scope N_scope.
Ltac Zify.zify_post_hook ::= Z.div_mod_to_equations.

Lemma firstn_In {A} n (l : list A) x : In x (firstn n l) -> In x l.
Proof. intros H. rewrite <- (firstn_skipn n l). apply in_or_app. now left. Qed.
Lemma skipn_skipn {A} i j (l : list A) : skipn i (skipn j l) = skipn (i + j) l.
Proof.
  revert l. induction j; intros l.
  - now rewrite Nat.add_0_r.
  - replace (i + S j)%nat with (S (i + j)) by lia. destruct l; cbn [skipn].
    + now rewrite !skipn_nil.
    + apply IHj.
Qed.

Lemma iter_S {A} n (f : A -> A) x : iter (S n) f x = f (iter n f x).
Proof. revert x. induction n; intros; [reflexivity|]. cbn [iter] in *. now rewrite <- IHn. Qed.

Lemma iter_xtime_byte n : iter n xtime 1 < 256.
Proof. induction n; [reflexivity|]. rewrite iter_S. now apply xtime_byte. Qed.

Lemma col_nth w i : Forall col w -> (i < length w)%nat -> col (nth i w []).
Proof. intros H Hi. rewrite Forall_forall in H. apply H, nth_In, Hi. Qed.

Lemma get_map_le_val w i : get (map le_val w) i = le_val (nth i w []).
Proof. unfold get. change 0 with (le_val []). apply map_nth. Qed.

Lemma col_SubWord c : col c -> col (SubWord c).
Proof.
  intros H. apply col_inv in H as (a&b&c'&d&->&?&?&?&?). unfold SubWord; cbn [map].
  apply col4; byt.
Qed.

Lemma ByteSub_col c : col c -> ByteSubTransform (le_val c) SBox = le_val (SubWord c).
Proof.
  intros H. apply col_inv in H as (a&b&c'&d&->&?&?&?&?).
  apply ByteSub_pack; auto using SBox_spec, sbox_byte.
Qed.

Lemma RotateRight_col c : col c -> RotateRight (le_val c) = le_val (RotWord c) /\ col (RotWord c).
Proof.
  intros H. apply col_inv in H as (a&b&c'&d&->&?&?&?&?). split.
  - now apply RotateRight_pack.
  - now apply col4.
Qed.

Lemma lxor_col u v : col u -> col v -> N.lxor (le_val u) (le_val v) = le_val (xor_list u v).
Proof. intros [? ?] [? ?]. apply lxor_le_val; auto; congruence. Qed.

Lemma le_val_Rcon i : le_val (Rcon i) = iter (i - 1) xtime 1.
Proof. unfold Rcon. rewrite le_val4. lia. Qed.
Lemma col_Rcon i : col (Rcon i).
Proof. apply col4; try reflexivity. apply iter_xtime_byte. Qed.

Lemma div_mod_pred n i : (0 < n)%nat -> (0 < i)%nat -> (i mod n = 0)%nat ->
  ((i - 1) / n = i / n - 1 /\ 0 < i / n)%nat.
Proof.
  intros Hn Hi E. apply Nat.mod_divides in E as [k ->]; [|lia].
  assert (0 < k)%nat by (destruct k; lia).
  rewrite (Nat.mul_comm n k), Nat.div_mul by lia. split; [|lia].
  symmetry. apply Nat.div_unique with (r := (n - 1)%nat); [lia|]. destruct k; nia.
Qed.
Lemma div_nomod_pred n i : (0 < n)%nat -> (0 < i)%nat -> (i mod n <> 0)%nat ->
  ((i - 1) / n = i / n)%nat.
Proof.
  intros Hn Hi E. symmetry. apply Nat.div_unique with (r := (i mod n - 1)%nat).
  - pose proof (Nat.mod_upper_bound i n). lia.
  - pose proof (Nat.div_mod i n). lia.
Qed.

Lemma expand_step_spec n i w : (0 < n)%nat -> (n <= i)%nat -> Forall col w -> length w = i ->
  expand_step n (map le_val w, iter ((i - 1) / n) xtime 1) i =
  (map le_val (w ++ [next_word n i w]), iter (i / n) xtime 1) /\ col (next_word n i w).
Proof.
  intros Hn Hi Hw Hl. unfold expand_step, next_word. rewrite !get_map_le_val.
  assert (col (nth (i - 1) w [])) as C1 by (apply col_nth; auto; lia).
  assert (col (nth (i - n) w [])) as C2 by (apply col_nth; auto; lia).
  set (p := nth (i - 1) w []) in *. set (q := nth (i - n) w []) in *.
  rewrite map_app. cbn [map].
  destruct (Nat.eqb_spec (i mod n) 0) as [E|E].
  - destruct (div_mod_pred n i) as [D1 D2]; try lia.
    destruct (RotateRight_col p C1) as [-> R]. rewrite ByteSub_col by auto.
    rewrite D1. rewrite <- le_val_Rcon. rewrite !lxor_col by auto using col_SubWord, col_Rcon, col_xor.
    split.
    + f_equal. rewrite le_val_Rcon, land_byte_255, XTime_spec, <- iter_S by apply iter_xtime_byte.
      f_equal. lia.
    + auto using col_xor, col_SubWord, col_Rcon.
  - rewrite (div_nomod_pred n i) by lia.
    destruct (Nat.ltb 6 n && Nat.eqb (i mod n) 4).
    + rewrite ByteSub_col by auto. rewrite !lxor_col by auto using col_SubWord.
      auto using col_xor, col_SubWord.
    + rewrite !lxor_col by auto. auto using col_xor.
Qed.

Definition expand_words (n m : nat) (w : list (list N)) : list (list N) :=
  fold_left (fun w i => w ++ [next_word n i w]) (seq n m) w.

Lemma expand_fold n m w : (0 < n)%nat -> Forall col w -> length w = n ->
  fold_left (expand_step n) (seq n m) (map le_val w, 1) =
    (map le_val (expand_words n m w), iter ((n + m - 1) / n) xtime 1) /\
  Forall col (expand_words n m w) /\ length (expand_words n m w) = (n + m)%nat.
Proof.
  intros Hn Hw Hl. induction m as [|m (E & C & L)].
  - unfold expand_words. cbn [seq fold_left]. rewrite Nat.add_0_r. split; [|auto].
    replace ((n - 1) / n)%nat with 0%nat by (symmetry; apply Nat.div_small; lia). reflexivity.
  - unfold expand_words in *. rewrite seq_S, !fold_left_app, E. cbn [fold_left].
    destruct (expand_step_spec n (n + m) (fold_left (fun w i => w ++ [next_word n i w]) (seq n m) w))
      as [-> C']; auto; try lia.
    replace (n + S m - 1)%nat with (n + m)%nat by lia.
    split; [reflexivity|]. split.
    + apply Forall_app; auto.
    + rewrite app_length, L. cbn [length]. lia.
Qed.

Lemma chunks_col (k : nat) l : bytes l -> length l = (4 * k)%nat ->
  Forall col (chunks 4 l) /\ length (chunks 4 l) = k /\
  map le_val (chunks 4 l) = map (fun i => load_le4 (slice l (4 * i) 4)) (seq 0 k).
Proof.
  revert l. induction k; intros l Hb Hl.
  - destruct l; [|discriminate]. split; [constructor|]. split; reflexivity.
  - destruct l as [|a [|b [|c [|d l]]]]; try (cbn [length] in Hl; lia).
    change (a :: b :: c :: d :: l) with ([a;b;c;d] ++ l) in *.
    apply bytes_app in Hb as [Hc Hb]. rewrite app_length in Hl. cbn [length] in Hl.
    rewrite chunks_cons by (auto; lia).
    destruct (IHk l Hb) as (H1 & H2 & H3); [lia|].
    assert (col [a;b;c;d]) by (split; auto). split; [constructor; auto|].
    split; [cbn [length]; now rewrite H2|]. cbn [map seq]. rewrite H3. f_equal.
    + apply col_inv in H as (a'&b'&c'&d'&E&?&?&?&?). injection E as <- <- <- <-.
      unfold load_le4, slice, get. cbn [skipn Nat.mul firstn app nth]. now rewrite load4.
    + rewrite <- seq_shift, map_map. apply map_ext. intros i. f_equal. unfold slice.
      replace (4 * S i)%nat with (4 + 4 * i)%nat by lia. reflexivity.
Qed.

(** the key the cipher really uses *)
Definition effective_key (key : list N) : list N :=
  firstn (4 * key_words (length key)) (key_datum key).

Lemma key_words_cases (key : list N) : key_words (length key) = 4%nat \/ key_words (length key) = 6%nat \/
  key_words (length key) = 8%nat.
Proof. unfold key_words. destruct (Nat.leb _ _); auto. destruct (Nat.leb _ _); auto. Qed.
Lemma key_rounds_words n : key_rounds n = (key_words n + 6)%nat.
Proof. unfold key_rounds, key_words. destruct (Nat.leb _ _); auto. destruct (Nat.leb _ _); auto. Qed.

Lemma key_datum_length key : length (key_datum key) = 32%nat.
Proof. unfold key_datum. rewrite app_length, firstn_length, repeat_length. lia. Qed.
Lemma key_datum_bytes key : bytes key -> bytes (key_datum key).
Proof.
  intros. unfold key_datum. apply bytes_app. split.
  - apply Forall_forall. intros x Hx.
    unfold bytes in H. rewrite Forall_forall in H. apply H. eapply firstn_In; eauto.
  - apply Forall_forall. intros x Hx. apply repeat_spec in Hx. subst. reflexivity.
Qed.

Lemma effective_key_length key : length (effective_key key) = (4 * key_words (length key))%nat.
Proof.
  unfold effective_key. rewrite firstn_length, key_datum_length.
  destruct (key_words_cases key) as [->|[->| ->]]; reflexivity.
Qed.
Lemma bytes_firstn n l : bytes l -> bytes (firstn n l).
Proof.
  intros H. unfold bytes in *. rewrite Forall_forall in *. intros x Hx. apply H.
  eapply firstn_In; eauto.
Qed.
Lemma bytes_skipn n l : bytes l -> bytes (skipn n l).
Proof.
  intros H. unfold bytes in *. rewrite <- (firstn_skipn n l) in H. now apply Forall_app in H.
Qed.
Lemma effective_key_bytes key : bytes key -> bytes (effective_key key).
Proof. intros. now apply bytes_firstn, key_datum_bytes. Qed.

Lemma slice_firstn {A} (l : list A) i n k : (i + n <= k)%nat -> slice (firstn k l) i n = slice l i n.
Proof.
  intros. unfold slice. rewrite skipn_firstn_comm, firstn_firstn. f_equal. lia.
Qed.

Definition schedule (key : list N) : list (list N) :=
  KeyExpansion (key_words (length key)) (key_rounds (length key)) (effective_key key).

Lemma expand_key_spec key : bytes key ->
  let n := key_words (length key) in
  let r := key_rounds (length key) in
  expand_key n (4 * (r + 1)) (key_datum key) = map le_val (schedule key) /\
  Forall col (schedule key) /\ length (schedule key) = (4 * (r + 1))%nat.
Proof.
  intros Hb n r. unfold expand_key.
  destruct (chunks_col n (effective_key key)) as (H1 & H2 & H3);
    [now apply effective_key_bytes|apply effective_key_length|].
  assert (0 < n)%nat as Hn by (subst n; destruct (key_words_cases key) as [->|[->| ->]]; lia).
  assert (r = n + 6)%nat as Hr by apply key_rounds_words.
  destruct (expand_fold n (4 * (r + 1) - n) (chunks 4 (effective_key key)) Hn H1 H2) as (E & C & L).
  rewrite H3 in E.
  replace (map (fun i => load_le4 (slice (key_datum key) (4 * i) 4)) (seq 0 n))
    with (map (fun i => load_le4 (slice (effective_key key) (4 * i) 4)) (seq 0 n)).
  2:{ apply map_ext_in. intros i Hi. apply in_seq in Hi. f_equal. unfold effective_key.
      apply slice_firstn. fold n. lia. }
  rewrite E. split; [reflexivity|]. split; [exact C|]. fold n r in L. unfold schedule, KeyExpansion.
  fold n r. unfold expand_words in L. rewrite L. lia.
Qed.

Lemma slice_map {A B} (f : A -> B) l i n : slice (map f l) i n = map f (slice l i n).
Proof. unfold slice. now rewrite skipn_map, firstn_map. Qed.

Lemma slice_length {A} (l : list A) i n : (i + n <= length l)%nat -> length (slice l i n) = n.
Proof. intros. unfold slice. rewrite firstn_length, skipn_length. lia. Qed.

Lemma slice_In {A} (l : list A) i n x : In x (slice l i n) -> In x l.
Proof.
  unfold slice. intros H. apply firstn_In in H. rewrite <- (firstn_skipn i l).
  apply in_or_app. now right.
Qed.

(** four columns of a schedule *)
Lemma slice4 w i : Forall col w -> (4 * i + 4 <= length w)%nat ->
  exists c0 c1 c2 c3, slice w (4 * i) 4 = [c0; c1; c2; c3] /\ col c0 /\ col c1 /\ col c2 /\ col c3.
Proof.
  intros H L. pose proof (slice_length w (4 * i) 4 L) as Len.
  assert (Forall col (slice w (4 * i) 4)) as F.
  { rewrite Forall_forall in *. intros x Hx. apply H. eapply slice_In; eauto. }
  destruct (slice w (4 * i) 4) as [|c0 [|c1 [|c2 [|c3 [|]]]]]; try discriminate.
  exists c0, c1, c2, c3. split; [reflexivity|].
  inversion F as [|? ? ? F1]; subst. inversion F1 as [|? ? ? F2]; subst.
  inversion F2 as [|? ? ? F3]; subst. inversion F3; subst. auto.
Qed.

Lemma st16_concat c0 c1 c2 c3 : col c0 -> col c1 -> col c2 -> col c3 -> st16 (concat [c0;c1;c2;c3]).
Proof.
  intros [? L0] [? L1] [? L2] [? L3]. cbn [concat]. rewrite app_nil_r. split.
  - apply bytes_app; split; auto. apply bytes_app; split; auto. apply bytes_app; split; auto.
  - rewrite !app_length. lia.
Qed.

Lemma st16_round_key w i : Forall col w -> (4 * i + 4 <= length w)%nat -> st16 (round_key_bytes w i).
Proof.
  intros H L. destruct (slice4 w i H L) as (c0&c1&c2&c3&E&?&?&?&?).
  unfold round_key_bytes. rewrite E. now apply st16_concat.
Qed.

Lemma round_key_pack w i : Forall col w -> (4 * i + 4 <= length w)%nat ->
  round_key (map le_val w) i = pack (round_key_bytes w i).
Proof.
  intros H L. destruct (slice4 w i H L) as (c0&c1&c2&c3&E&?&?&?&?).
  unfold round_key, round_key_bytes, pack. rewrite slice_map, E.
  cbn [concat]. rewrite app_nil_r, chunks4_cols by auto. reflexivity.
Qed.

Lemma slice_app_l {A} (l m : list A) i n : (i + n <= length l)%nat -> slice (l ++ m) i n = slice l i n.
Proof.
  intros. unfold slice. rewrite skipn_app, firstn_app, skipn_length.
  replace (n - (length l - i))%nat with 0%nat by lia. cbn. apply app_nil_r.
Qed.
Lemma slice_app_r {A} (l m : list A) i n : (length l <= i)%nat ->
  slice (l ++ m) i n = slice m (i - length l) n.
Proof.
  intros. unfold slice. rewrite skipn_app. rewrite (skipn_all2 l) by lia. reflexivity.
Qed.
Lemma slice_slice {A} (l : list A) i n j m : (j + m <= n)%nat ->
  slice (slice l i n) j m = slice l (i + j) m.
Proof.
  intros. unfold slice. rewrite skipn_firstn_comm, firstn_firstn, skipn_skipn.
  f_equal; [lia|]. f_equal. lia.
Qed.

Section Key.
  Variable key : list N.
  Hypothesis key_bytes : bytes key.
  Let r := key_rounds (length key).

  Lemma r_pos : (10 <= r)%nat.
  Proof. unfold r, key_rounds. destruct (Nat.leb _ _); [lia|]. destruct (Nat.leb _ _); lia. Qed.

  Lemma rounds_r : rounds (SetAESKey key) = r.
  Proof. reflexivity. Qed.

  Lemma ek_eq : encipher_key (SetAESKey key) = map le_val (schedule key).
  Proof.
    unfold SetAESKey. cbn [encipher_key]. change (AESBlocksize / 4)%nat with 4%nat.
    now apply expand_key_spec.
  Qed.

  Lemma sched_ok : Forall col (schedule key) /\ length (schedule key) = (4 * (r + 1))%nat.
  Proof. now apply expand_key_spec. Qed.

  Let rk := round_key_bytes (schedule key).

  Lemma rk_ok i : (i <= r)%nat -> st16 (rk i).
  Proof. intros. destruct sched_ok. apply st16_round_key; auto. lia. Qed.
  Lemma ek_ok i : (i <= r)%nat -> round_key (encipher_key (SetAESKey key)) i = pack (rk i).
  Proof. intros. rewrite ek_eq. destruct sched_ok. apply round_key_pack; auto. lia. Qed.

  Lemma dk_eq : decipher_key (SetAESKey key) =
    firstn 4 (map le_val (schedule key)) ++
    (map inverse_mix_word (slice (map le_val (schedule key)) 4 (4 * (r + 1) - 8)) ++
     skipn (4 * (r + 1) - 4) (map le_val (schedule key))).
  Proof.
    rewrite <- ek_eq. reflexivity.
  Qed.

  Lemma dk_first : round_key (decipher_key (SetAESKey key)) 0 = pack (rk 0).
  Proof.
    rewrite <- ek_ok by lia. rewrite dk_eq, <- ek_eq. unfold round_key.
    assert (length (encipher_key (SetAESKey key)) = 4 * (r + 1))%nat as L
      by (rewrite ek_eq, map_length; apply sched_ok).
    rewrite slice_app_l by (rewrite firstn_length; lia). now rewrite slice_firstn.
  Qed.
  Lemma dk_last : round_key (decipher_key (SetAESKey key)) r = pack (rk r).
  Proof.
    rewrite <- ek_ok by lia. rewrite dk_eq, <- ek_eq. unfold round_key.
    assert (length (encipher_key (SetAESKey key)) = 4 * (r + 1))%nat as L
      by (rewrite ek_eq, map_length; apply sched_ok).
    pose proof r_pos.
    assert (length (firstn 4 (encipher_key (SetAESKey key))) = 4)%nat as L4 by (rewrite firstn_length; lia).
    rewrite slice_app_r, L4 by lia.
    rewrite slice_app_r by (rewrite map_length, slice_length by lia; lia).
    rewrite map_length, slice_length by lia.
    replace (4 * r - 4 - (4 * (r + 1) - 8))%nat with 0%nat by lia.
    unfold slice. rewrite skipn_O. do 2 f_equal. lia.
  Qed.
  Lemma dk_mid i : (1 <= i < r)%nat ->
    round_key (decipher_key (SetAESKey key)) i = pack (InvMixColumns (rk i)).
  Proof.
    intros Hi. rewrite dk_eq. unfold round_key. destruct sched_ok as [C L].
    assert (length (firstn 4 (map le_val (schedule key))) = 4)%nat as L4
      by (rewrite firstn_length, map_length; lia).
    rewrite slice_app_r, L4 by lia.
    rewrite slice_app_l by (rewrite map_length, slice_length by (rewrite map_length; lia); lia).
    rewrite slice_map, slice_slice by lia. rewrite slice_map.
    replace (4 + (4 * i - 4))%nat with (4 * i)%nat by lia.
    destruct (slice4 (schedule key) i C) as (c0&c1&c2&c3&E&?&?&?&?); [lia|].
    unfold rk, round_key_bytes. rewrite E. cbn [map concat]. rewrite app_nil_r.
    unfold InvMixColumns. rewrite chunks4_cols by auto.
    rewrite !inverse_mix_word_spec by auto. cbn [map concat]. rewrite app_nil_r.
    unfold pack. rewrite chunks4_cols by auto using col_InvMixColumn. reflexivity.
  Qed.

  Theorem encipher_is_AES s : st16 s ->
    EncipherAESBlock (SetAESKey key) s = AES (effective_key key) s.
  Proof.
    intros Hs. pose proof r_pos.
    rewrite (encipher_spec (SetAESKey key) rk) by
      (rewrite ?rounds_r; auto using rk_ok, ek_ok; lia).
    unfold spec_encipher, AES, Cipher. rewrite effective_key_length, (Nat.mul_comm 4), Nat.div_mul by lia.
    rewrite <- key_rounds_words. reflexivity.
  Qed.

  Theorem decipher_encipher_key s : st16 s ->
    DecipherAESBlock (SetAESKey key) (EncipherAESBlock (SetAESKey key) s) = s.
  Proof.
    intros Hs. pose proof r_pos.
    apply (decipher_encipher (SetAESKey key) rk); rewrite ?rounds_r;
      auto using rk_ok, ek_ok, dk_first, dk_last, dk_mid; lia.
  Qed.
  Theorem encipher_decipher_key s : st16 s ->
    EncipherAESBlock (SetAESKey key) (DecipherAESBlock (SetAESKey key) s) = s.
  Proof.
    intros Hs. pose proof r_pos.
    apply (encipher_decipher (SetAESKey key) rk); rewrite ?rounds_r;
      auto using rk_ok, ek_ok, dk_first, dk_last, dk_mid; lia.
  Qed.
  Theorem st16_encipher_key s : st16 s -> st16 (EncipherAESBlock (SetAESKey key) s).
  Proof.
    intros Hs. pose proof r_pos.
    apply (st16_encipher (SetAESKey key) rk); rewrite ?rounds_r;
      auto using rk_ok, ek_ok, dk_first, dk_last, dk_mid; lia.
  Qed.
  Theorem st16_decipher_key s : st16 s -> st16 (DecipherAESBlock (SetAESKey key) s).
  Proof.
    intros Hs. pose proof r_pos.
    apply (st16_decipher (SetAESKey key) rk); rewrite ?rounds_r;
      auto using rk_ok, ek_ok, dk_first, dk_last, dk_mid; lia.
  Qed.
End Key.
