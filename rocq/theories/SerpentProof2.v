(** Serpent: blocks and the key schedule. *)
From Coq Require Import Arith NArith List Lia Bool.
From Coq Require Import ZifyBool ZifyNat ZifyN.
From Verif Require Import Base BaseLemmas PackLemmas Mem32 SerpentModel SerpentSpec SerpentProof.
Import ListNotations.
Local Open Scope N_scope.

Lemma slice_firstn {A} (p : list A) i n m : (i + n <= m)%nat -> slice (firstn m p) i n = slice p i n.
Proof.
  intros H. unfold slice. rewrite skipn_firstn_comm, firstn_firstn. f_equal. lia.
Qed.
Lemma encipher16_firstn K e p : encipher16 K e p = encipher16 K e (firstn 16 p).
Proof. unfold encipher16. rewrite !slice_firstn by lia. reflexivity. Qed.
Lemma decipher16_firstn K e p : decipher16 K e p = decipher16 K e (firstn 16 p).
Proof. unfold decipher16. rewrite !slice_firstn by lia. reflexivity. Qed.

Lemma of_block_length X : length (of_block X) = 16%nat.
Proof. destruct X as [[[a b] c] d]. cbn [of_block]. rewrite !app_length, !le_bytes_length. reflexivity. Qed.
Lemma of_block_bytes X : bytes (of_block X).
Proof. destruct X as [[[a b] c] d]. cbn [of_block]. rewrite !bytes_app. auto using le_bytes_bytes. Qed.

Lemma to_of_block X : block_words X -> to_block (of_block X) = X.
Proof.
  destruct X as [[[a b] c] d]. cbn [block_words of_block]. intros (Ha & Hb & Hc & Hd). unfold to_block, slice.
  cbn [le_bytes app skipn firstn].
  assert (G : forall x, word 32 x -> le_val (le_bytes 4 x) = x).
  { intros x Hx. rewrite le_val_le_bytes. apply N.mod_small, Hx. }
  change (le_val [a mod 256; a / 256 mod 256; a / 256 / 256 mod 256; a / 256 / 256 / 256 mod 256]) with (le_val (le_bytes 4 a)).
  change (le_val [b mod 256; b / 256 mod 256; b / 256 / 256 mod 256; b / 256 / 256 / 256 mod 256]) with (le_val (le_bytes 4 b)).
  change (le_val [c mod 256; c / 256 mod 256; c / 256 / 256 mod 256; c / 256 / 256 / 256 mod 256]) with (le_val (le_bytes 4 c)).
  change (le_val [d mod 256; d / 256 mod 256; d / 256 / 256 mod 256; d / 256 / 256 / 256 mod 256]) with (le_val (le_bytes 4 d)).
  rewrite !G by assumption. reflexivity.
Qed.
Lemma of_to_block p : bytes p -> length p = 16%nat -> of_block (to_block p) = p.
Proof.
  intros Hp L. unfold to_block. cbn [of_block].
  assert (G : forall i, (i + 4 <= 16)%nat -> le_bytes 4 (le_val (slice p i 4)) = slice p i 4).
  { intros i Hi. rewrite <- (slice_length p i 4) at 1 by lia. apply le_bytes_le_val. now apply bytes_slice. }
  rewrite !G by lia. unfold slice.
  do 16 (destruct p as [|? p]; [discriminate L|]). destruct p; [reflexivity|discriminate L].
Qed.

Lemma decipher16_encipher16 K e e' p : words 32 K -> bytes p -> length p = 16%nat ->
  decipher16 K e' (encipher16 K e p) = p.
Proof.
  intros HK Hp L. rewrite encipher16_spec by assumption.
  rewrite decipher16_spec; auto using of_block_bytes, of_block_length.
  rewrite to_of_block by now apply encrypt_words_words.
  rewrite decrypt_encrypt_words by (auto using to_block_words). now apply of_to_block.
Qed.
Lemma encipher16_decipher16 K e e' p : words 32 K -> bytes p -> length p = 16%nat ->
  encipher16 K e (decipher16 K e' p) = p.
Proof.
  intros HK Hp L. rewrite decipher16_spec by assumption.
  rewrite encipher16_spec; auto using of_block_bytes, of_block_length.
  rewrite to_of_block by now apply decrypt_words_words.
  rewrite encrypt_decrypt_words by (auto using to_block_words). now apply of_to_block.
Qed.

(** ** Key schedule *)
Lemma padded_key_spec key : padded_key key = key256 key.
Proof.
  unfold padded_key, key256. rewrite firstn_length.
  destruct (Nat.ltb_spec (Nat.min 32 (length key)) 32) as [H|H].
  - assert (length key < 32)%nat by lia. rewrite Nat.min_r by lia.
    rewrite firstn_app, !firstn_all2 with (l := key) by lia. f_equal.
    replace (32 - length key)%nat with (S (31 - length key)) by lia. cbn [firstn]. f_equal.
    replace 32%nat with ((31 - length key) + (1 + length key))%nat by lia.
    rewrite repeat_app, firstn_app, repeat_length.
    replace (31 - length key - (31 - length key))%nat with 0%nat by lia. rewrite firstn_O, app_nil_r.
    symmetry. apply firstn_all2. rewrite repeat_length. lia.
  - rewrite firstn_app. replace (32 - length key)%nat with 0%nat by lia.
    rewrite firstn_O, app_nil_r. reflexivity.
Qed.
Lemma key256_length key : length (key256 key) = 32%nat.
Proof. unfold key256. rewrite firstn_length, app_length. cbn [length]. rewrite repeat_length. lia. Qed.
Lemma key256_bytes key : bytes key -> bytes (key256 key).
Proof.
  intros H. unfold key256. apply Forall_firstn_. apply Forall_app. split; [exact H|].
  constructor; [reflexivity|]. apply Forall_forall. intros x Hx. apply repeat_spec in Hx. subst. reflexivity.
Qed.

Lemma get_app_l l m i : (i < length l)%nat -> get (l ++ m) i = get l i.
Proof. intros H. unfold get. now rewrite app_nth1. Qed.
Lemma get_app_r l m i : (length l <= i)%nat -> get (l ++ m) i = get m (i - length l).
Proof. intros H. unfold get. now rewrite app_nth2. Qed.
Lemma get_upd l i j x : (i < length l)%nat -> get (upd l i x) j = if Nat.eqb i j then x else get l j.
Proof.
  intros H. unfold get. rewrite nth_upd by exact H. now rewrite Nat.eqb_sym.
Qed.

Section Churn.
  Variable kw : list N.
  Hypothesis Hkw : length kw = 8%nat.
  Let W n := fold_left extend (seq 0 n) kw.
  Let M n := fold_left (churn_step kw) (seq 0 n) (slice kw 3 5, []).

  Lemma W_length n : length (W n) = (8 + n)%nat.
  Proof.
    unfold W. induction n as [|n IH]; [cbn; lia|].
    rewrite seq_S, fold_left_app. cbn [fold_left]. unfold extend at 1. rewrite app_length, IH. cbn [length]. lia.
  Qed.
  Lemma W_kw n i : (i < 8)%nat -> get (W n) i = get kw i.
  Proof.
    intros H. induction n as [|n IH]; [reflexivity|].
    unfold W in *. rewrite seq_S, fold_left_app. cbn [fold_left]. unfold extend at 1.
    rewrite get_app_l; [exact IH|]. fold (W n). rewrite W_length. lia.
  Qed.

  Lemma churn_invariant n : exists r, M n = (r, skipn 8 (W n)) /\ length r = 5%nat /\
    (forall k, (k < 5)%nat -> get r ((n + k) mod 5) = get (W n) (n + 3 + k)).
  Proof.
    induction n as [|n IH].
    - exists (slice kw 3 5). split; [|split].
      + unfold M, W. cbn [seq fold_left]. rewrite skipn_all2 by lia. reflexivity.
      + apply slice_length. lia.
      + intros k Hk. unfold W. cbn [seq fold_left]. cbn [Nat.add]. rewrite Nat.mod_small by exact Hk.
        unfold slice, get. do 8 (destruct kw as [|? kw']; [discriminate|clear kw; rename kw' into kw] || idtac).
        repeat (destruct kw as [|? kw]; [discriminate Hkw|]).
        do 5 (destruct k as [|k]; [reflexivity|]). lia.
    - destruct IH as (r & E & L & I).
      assert (HW := W_length n).
      set (v := rotl 32 (N.lxor (get (W n) n) (N.lxor (get (W n) (n + 3)) (N.lxor (get (W n) (n + 5))
        (N.lxor (get (W n) (n + 7)) (N.lxor 0x9e3779b9 (N.of_nat n)))))) 11).
      assert (EW : W (S n) = W n ++ [v]).
      { unfold W. rewrite seq_S, fold_left_app. reflexivity. }
      exists (upd r (n mod 5) v).
      assert (n5 : (n mod 5 < 5)%nat) by (apply Nat.mod_upper_bound; discriminate).
      split; [|split].
      + unfold M. rewrite seq_S, fold_left_app. cbn [fold_left Nat.add]. fold (M n). rewrite E.
        unfold churn_step.
        assert (Ev : ChurnKey (if (n <? 8)%nat then get kw n else get (skipn 8 (W n)) (n - 8)) (get r (n mod 5))
                       (get r ((n + 4) mod 5)) (get r ((n + 2) mod 5)) n = v).
        { assert (Ea : (if (n <? 8)%nat then get kw n else get (skipn 8 (W n)) (n - 8)) = get (W n) n).
          { destruct (Nat.ltb_spec n 8).
            - symmetry. now apply W_kw.
            - rewrite <- (firstn_skipn 8 (W n)) at 2. rewrite get_app_r; rewrite firstn_length; [|lia].
              f_equal. lia. }
          rewrite Ea. replace (n mod 5)%nat with ((n + 0) mod 5)%nat by (now rewrite Nat.add_0_r). rewrite !I by lia.
          unfold ChurnKey, RotateLeft, v. f_equal.
          replace (n + 3 + 0)%nat with (n + 3)%nat by lia. replace (n + 3 + 4)%nat with (n + 7)%nat by lia.
          replace (n + 3 + 2)%nat with (n + 5)%nat by lia.
          generalize (get (W n) n), (get (W n) (n + 3)), (get (W n) (n + 5)), (get (W n) (n + 7)), (N.lxor 0x9e3779b9 (N.of_nat n)).
          intros a b c d e. apply N.bits_inj; intros m; rewrite !N.lxor_spec.
          now destruct (N.testbit a m), (N.testbit b m), (N.testbit c m), (N.testbit d m), (N.testbit e m). }
        rewrite Ev. f_equal. rewrite EW, skipn_app. replace (8 - length (W n))%nat with 0%nat by lia. reflexivity.
      + now rewrite upd_length.
      + intros k Hk. rewrite get_upd by lia. rewrite EW.
        destruct (Nat.eq_dec k 4) as [->|Hk4].
        * replace (S n + 4)%nat with (n + 1 * 5)%nat by lia. rewrite Nat.mod_add by discriminate.
          rewrite Nat.eqb_refl. rewrite get_app_r by lia.
          replace (S n + 3 + 4 - length (W n))%nat with 0%nat by lia. reflexivity.
        * replace (S n + k)%nat with (n + (k + 1))%nat by lia.
          assert ((n mod 5 =? (n + (k + 1)) mod 5)%nat = false) as ->.
          { apply Nat.eqb_neq. rewrite Nat.add_mod by discriminate.
            rewrite (Nat.mod_small (k + 1)) by lia.
            intros X. assert (Q : (n mod 5 + (k + 1) < 5 \/ 5 <= n mod 5 + (k + 1))%nat) by lia.
            destruct Q as [Q|Q].
            - rewrite (Nat.mod_small (n mod 5 + (k + 1))) in X by exact Q. lia.
            - replace (n mod 5 + (k + 1))%nat with (n mod 5 + (k + 1) - 5 + 1 * 5)%nat in X by lia.
              rewrite Nat.mod_add in X by discriminate.
              rewrite (Nat.mod_small (n mod 5 + (k + 1) - 5)) in X by lia. lia. }
          rewrite I by lia. rewrite get_app_l by lia. f_equal. lia.
  Qed.
End Churn.

Lemma load_chunks p : bytes p -> length p = 32%nat ->
  map load32le (chunks 4 p) = map le_val (chunks 4 p) /\ length (map le_val (chunks 4 p)) = 8%nat /\
  words 32 (map le_val (chunks 4 p)).
Proof.
  intros Hp L.
  assert (C : chunks 4 p = map (fun i => slice p (4 * i) 4) (seq 0 8)).
  { do 32 (destruct p as [|? p]; [discriminate L|]). destruct p; [reflexivity|discriminate L]. }
  rewrite C, !map_map, map_length, seq_length. split; [|split; [reflexivity|]].
  - apply map_ext_in. intros i Hi. apply in_seq in Hi. apply load32le_val.
    + now apply bytes_slice.
    + apply slice_length. lia.
  - apply Forall_forall. intros x Hx. apply in_map_iff in Hx. destruct Hx as (i & <- & Hi). apply in_seq in Hi.
    assert (B := le_val_bound _ (bytes_slice (4 * i) 4 p Hp)). rewrite slice_length in B by lia. exact B.
Qed.

Lemma churned_spec key : bytes key -> churned key = prekeys key.
Proof.
  intros Hk. unfold churned, prekeys. rewrite padded_key_spec.
  destruct (load_chunks (key256 key) (key256_bytes key Hk) (key256_length key)) as (E & L & _).
  rewrite E. destruct (churn_invariant _ L 132) as (r & EM & _). cbv zeta. rewrite EM. reflexivity.
Qed.
Lemma extend_words w i : (i < 132)%nat -> words 32 w -> words 32 (extend w i).
Proof.
  intros Hi H. unfold extend. apply Forall_app. split; [exact H|]. constructor; [|constructor].
  apply word_rotl. repeat apply word_lxor; try now apply get_word.
  - reflexivity.
  - unfold word. change (2 ^ 32) with 4294967296. lia.
Qed.
Lemma prekeys_words key : bytes key -> words 32 (prekeys key).
Proof.
  intros Hk. unfold prekeys. apply Forall_skipn_.
  assert (G : forall l w, Forall (fun i => (i < 132)%nat) l -> words 32 w -> words 32 (fold_left extend l w)).
  { induction l as [|i l IH]; intros w F Hw; [exact Hw|]. cbn [fold_left]. inversion F; subst. apply IH; auto.
    now apply extend_words. }
  apply G.
  - apply Forall_forall. intros i Hi. apply in_seq in Hi. lia.
  - apply (load_chunks (key256 key) (key256_bytes key Hk) (key256_length key)).
Qed.

Lemma key_sbox_spec j a b c d e : (j < 8)%nat -> word 32 a -> word 32 b -> word 32 c -> word 32 d ->
  key_sbox j a b c d e = S_box j (a, b, c, d).
Proof.
  intros Hj Ha Hb Hc Hd.
  do 8 (destruct j as [|j];
    [destruct (S_box _ (a, b, c, d)) as [[[x0 x1] x2] x3] eqn:E; unfold key_sbox;
     first [ destruct (Encipher_sbox0 a b c d e Ha Hb Hc Hd x0 x1 x2 x3 E) as [z ->]
           | destruct (Encipher_sbox1 a b c d e Ha Hb Hc Hd x0 x1 x2 x3 E) as [z ->]
           | destruct (Encipher_sbox2 a b c d e Ha Hb Hc Hd x0 x1 x2 x3 E) as [z ->]
           | destruct (Encipher_sbox3 a b c d e Ha Hb Hc Hd x0 x1 x2 x3 E) as [z ->]
           | destruct (Encipher_sbox4 a b c d e Ha Hb Hc Hd x0 x1 x2 x3 E) as [z ->]
           | destruct (Encipher_sbox5 a b c d e Ha Hb Hc Hd x0 x1 x2 x3 E) as [z ->]
           | destruct (Encipher_sbox6 a b c d e Ha Hb Hc Hd x0 x1 x2 x3 E) as [z ->]
           | destruct (Encipher_sbox7 a b c d e Ha Hb Hc Hd x0 x1 x2 x3 E) as [z ->]]; reflexivity |]).
  lia.
Qed.
Lemma key_schedule_spec e key : bytes key -> SetSerpentKey e key = round_keys key.
Proof.
  intros Hk. unfold SetSerpentKey, round_keys. rewrite churned_spec by assumption. cbv zeta.
  assert (HW := prekeys_words key Hk). rewrite !flat_map_concat_map. f_equal. apply map_ext_in.
  intros i Hi. unfold round_key. rewrite (S_box_mod (35 - i)).
  rewrite key_sbox_spec; auto using get_word. apply Nat.mod_upper_bound. discriminate.
Qed.
Lemma round_keys_words key : words 32 (round_keys key).
Proof.
  unfold round_keys. rewrite flat_map_concat_map. apply Forall_concat. apply Forall_forall.
  intros l Hl. apply in_map_iff in Hl. destruct Hl as (i & <- & _). unfold round_key.
  assert (W := S_box_words (35 - i) (get (prekeys key) (4 * i), get (prekeys key) (4 * i + 1), get (prekeys key) (4 * i + 2), get (prekeys key) (4 * i + 3))).
  destruct (S_box (35 - i) _) as [[[a b] c] d]. destruct W as (? & ? & ? & ?). now repeat constructor.
Qed.
