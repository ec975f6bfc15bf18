(** Bytes, bits, and the absorbing loop of sha3.c. *)
From Coq Require Import NArith Arith List Lia Bool ZifyBool ZifyNat ZifyN.
From Verif Require Import Base BaseLemmas PackLemmas Mem32 MdProof Sha2Model Sha2Proof Crc64Props
  Sha3Model Sha3Spec Sha3Proof.
Import ListNotations.

(** ** bytes and bits *)

Lemma low_bits_app a b x : low_bits (a + b) x = low_bits a x ++ low_bits b (N.shiftr x (N.of_nat a)).
Proof.
  unfold low_bits. rewrite seq_app, map_app. f_equal. cbn [Nat.add].
  rewrite <- (Nat.add_0_r a) at 1. 
  assert (E : forall s, map (fun i => N.testbit x (N.of_nat i)) (seq (a + s) b)
            = map (fun i => N.testbit (N.shiftr x (N.of_nat a)) (N.of_nat i)) (seq s b)).
  { induction b as [|b IH]; intros s; [reflexivity|]. cbn [seq map]. f_equal.
    - rewrite N.shiftr_spec by lia. f_equal. lia.
    - replace (S (a + s)) with (a + S s) by lia. apply IH. }
  apply E.
Qed.

Lemma low_bits_mod k x : low_bits k (x mod 2 ^ N.of_nat k) = low_bits k x.
Proof.
  unfold low_bits. apply map_ext_in. intros i Hi. apply in_seq in Hi.
  rewrite N.mod_pow2_bits_low by lia. reflexivity.
Qed.

Lemma message_bits_le_val p : bytes p -> low_bits (8 * length p) (le_val p) = message_bits p.
Proof.
  induction 1 as [|b p Hb Hp IH]; [reflexivity|]. cbn [length le_val message_bits flat_map].
  replace (8 * S (length p)) with (8 + 8 * length p) by lia. rewrite low_bits_app. f_equal.
  - rewrite <- low_bits_mod. change (2 ^ N.of_nat 8)%N with 256%N. f_equal.
    rewrite N.mul_comm, N.mod_add by lia. apply N.mod_small. exact Hb.
  - rewrite N.shiftr_div_pow2. change (2 ^ N.of_nat 8)%N with 256%N.
    rewrite N.mul_comm, N.div_add, (N.div_small b) by (lia || exact Hb). exact IH.
Qed.

Lemma message_bits_le_bytes x : word 64 x -> message_bits (le_bytes 8 x) = low_bits 64 x.
Proof.
  intros H. rewrite <- message_bits_le_val by apply le_bytes_bytes.
  rewrite le_bytes_length, le_val_le_bytes. change (256 ^ N.of_nat 8)%N with (2 ^ 64)%N.
  rewrite N.mod_small by exact H. reflexivity.
Qed.

Lemma message_bits_app a b : message_bits (a ++ b) = message_bits a ++ message_bits b.
Proof. apply flat_map_app. Qed.

Lemma message_bits_length m : length (message_bits m) = 8 * length m.
Proof.
  induction m as [|b m IH]; [reflexivity|]. cbn [message_bits flat_map length].
  rewrite app_length, low_bits_len. fold (message_bits m). lia.
Qed.

Lemma message_bits_zeros n : message_bits (repeat 0%N n) = repeat false (8 * n).
Proof.
  induction n as [|n IH]; [reflexivity|]. replace (8 * S n) with (8 + 8 * n) by lia.
  rewrite repeat_app, <- IH. reflexivity.
Qed.

Lemma chunks_message_bits n l : 0 < n ->
  chunks (8 * n) (message_bits l) = map message_bits (chunks n l).
Proof.
  intros Hn. remember (length l) as k eqn:E. revert l E.
  induction k as [k IH] using lt_wf_ind. intros l E.
  destruct (le_lt_dec (length l) n) as [L|G].
  - destruct l as [|a l]; [reflexivity|].
    rewrite (chunks_last n) by (cbn [length] in *; lia).
    rewrite chunks_last; [reflexivity|lia|rewrite message_bits_length; cbn [length] in *; lia].
  - rewrite <- (firstn_skipn n l). rewrite message_bits_app.
    rewrite (chunks_cons n) by (rewrite ?firstn_length; lia).
    rewrite chunks_cons by (rewrite ?message_bits_length, ?firstn_length; lia).
    cbn [map]. f_equal. apply (IH (length (skipn n l))); [rewrite skipn_length; lia | reflexivity].
Qed.

Lemma split_chunks r P : split (length P) r P = chunks r P.
Proof.
  unfold chunks. generalize (length P). intros f. revert P.
  induction f as [|f IH]; intros P; [reflexivity|]. cbn [split chunks_fuel].
  destruct P; [reflexivity|]. now rewrite IH.
Qed.

Lemma xor_bits_map2 a : forall b, xor_bits a b = map2 xorb a b.
Proof. induction a as [|x a IH]; intros [|y b]; cbn; try reflexivity. now rewrite IH. Qed.

Lemma message_bits_xor a : forall b, length a = length b ->
  message_bits (xor_list a b) = xor_bits (message_bits a) (message_bits b).
Proof.
  induction a as [|x a IH]; intros [|y b] H; try discriminate; [reflexivity|].
  injection H as H. cbn [xor_list map2 message_bits flat_map].
  fold (message_bits a) (message_bits b) (message_bits (map2 N.lxor a b)).
  rewrite xor_bits_map2, map2_app by (now rewrite !low_bits_len).
  rewrite low_bits_lxor. f_equal. rewrite <- xor_bits_map2. exact (IH b H).
Qed.

Lemma xor_bits_zeros a : forall n, n = length a -> xor_bits a (repeat false n) = a.
Proof.
  induction a as [|x a IH]; intros n ->; [reflexivity|]. cbn. rewrite IH by reflexivity. now destruct x.
Qed.

(** ** words of the state *)

Lemma cast_words_chunks b : length b = 200 -> cast_words b = map le_val (chunks 8 b).
Proof.
  intros H. rewrite (chunks_slices 8 25) by lia. unfold cast_words. rewrite map_map. reflexivity.
Qed.

Lemma flat_map_concat {X Y} (f : X -> list Y) l : flat_map f (concat l) = flat_map (flat_map f) l.
Proof. induction l; cbn; [reflexivity|]. now rewrite flat_map_app, IHl. Qed.

Lemma chunk_props n k (l : list N) : 0 < n -> length l = k * n -> bytes l ->
  Forall (fun c => length c = n /\ bytes c) (chunks n l).
Proof.
  intros Hn H B. rewrite (chunks_slices n k) by lia. apply Forall_forall. intros c Hc.
  apply in_map_iff in Hc as (i & <- & Hi). apply in_seq in Hi.
  split; [apply slice_length; nia | now apply bytes_slice].
Qed.

Lemma bits_of_cast b : length b = 200 -> bytes b ->
  state_ok (cast_words b) /\ bits_of (cast_words b) = message_bits b.
Proof.
  intros L B. rewrite cast_words_chunks by exact L.
  pose proof (chunk_props 8 25 b ltac:(lia) L B) as F. split.
  - split.
    + rewrite map_length, (chunks_slices 8 25) by lia. now rewrite map_length, seq_length.
    + apply Forall_map. eapply Forall_impl; [|exact F]. intros c [H1 H2].
      pose proof (le_val_bound c H2) as V. rewrite H1 in V. exact V.
  - rewrite <- (concat_chunks 8 b) at 2 by lia. unfold bits_of, message_bits.
    rewrite flat_map_map', flat_map_concat. apply flat_map_ext_in'. intros c Hc.
    rewrite Forall_forall in F. destruct (F c Hc) as [H1 H2].
    pose proof (message_bits_le_val c H2) as E. rewrite H1 in E. exact E.
Qed.

Lemma cast_bytes_ok w : state_ok w ->
  length (cast_bytes w) = 200 /\ bytes (cast_bytes w) /\ message_bits (cast_bytes w) = bits_of w.
Proof.
  intros [L W]. unfold cast_bytes. repeat split.
  - assert (E : forall l, length (flat_map (le_bytes 8) l) = 8 * length l).
    { induction l as [|a l IH]; [reflexivity|]. cbn [flat_map length].
      rewrite app_length, le_bytes_length. lia. }
    rewrite E, L. reflexivity.
  - clear. induction w as [|a w IH]; [constructor|]. cbn [flat_map]. apply bytes_app.
    split; [apply le_bytes_bytes | exact IH].
  - unfold message_bits, bits_of. rewrite flat_map_flat_map. apply flat_map_ext_in'. intros x Hx.
    apply message_bits_le_bytes. unfold words in W. rewrite Forall_forall in W. now apply W.
Qed.

Lemma le_val_snoc l b : (le_val (l ++ [b]) = le_val l + 256 ^ N.of_nat (length l) * b)%N.
Proof.
  induction l as [|a l IH].
  - cbn [app le_val length N.of_nat]. rewrite N.pow_0_r. lia.
  - cbn [app le_val length]. rewrite IH, pow256_succ. lia.
Qed.

Lemma load64_val p k : bytes p -> k <= length p -> k <= 8 ->
  fold_left (fun w j => N.lor w (wshl 64 (get p j) (8 * N.of_nat j))) (seq 0 k) 0%N = le_val (firstn k p).
Proof.
  intros B. induction k as [|k IH]; intros H8 H9; [reflexivity|].
  rewrite seq_S, fold_left_app, IH by lia. cbn [fold_left Nat.add].
  assert (E : firstn (S k) p = firstn k p ++ [get p k]).
  { unfold get. clear -H8. revert k H8. induction p as [|a p IH]; intros k H; cbn [length] in H; [lia|].
    destruct k; [reflexivity|]. cbn. f_equal. apply IH. lia. }
  rewrite E, le_val_snoc, firstn_length, Nat.min_l by lia.
  assert (Bk : (get p k < 256)%N) by now apply get_byte.
  assert (P : (256 ^ N.of_nat k = 2 ^ (8 * N.of_nat k))%N) by (rewrite N.pow_mul_r; reflexivity).
  unfold wshl. rewrite wrap_small.
  - rewrite lor_add_disjoint, P; [reflexivity|].
    pose proof (le_val_bound (firstn k p) ltac:(now apply Forall_firstn_)) as V.
    rewrite firstn_length, Nat.min_l, P in V by lia. exact V.
  - unfold word. rewrite N.shiftl_mul_pow2.
    apply N.lt_le_trans with (2 ^ 8 * 2 ^ (8 * N.of_nat k))%N.
    + apply N.mul_lt_mono_pos_r; [apply pow2_pos | exact Bk].
    + rewrite <- N.pow_add_r. apply N.pow_le_mono_r; lia.
Qed.

Lemma Convert_cast b : length b = 200 -> bytes b -> ConvertBytesToWords b = cast_words b.
Proof.
  intros L B. unfold ConvertBytesToWords, cast_words. apply map_ext_in. intros i Hi. apply in_seq in Hi.
  cbn [host_load]. rewrite <- (firstn_all2 (n := 8) (slice b (8 * i) 8)) by (rewrite slice_length; lia).
  rewrite <- load64_val.
  - assert (E : forall j, j < 8 -> get b (i * 8 + j) = get (slice b (8 * i) 8) j).
    { intros j Hj. unfold get, slice.
      rewrite <- (firstn_skipn (8 * i) b) at 1. rewrite app_nth2 by (rewrite firstn_length; lia).
      rewrite firstn_length, Nat.min_l by lia. replace (i * 8 + j - 8 * i) with j by lia.
      rewrite <- (firstn_skipn 8 (skipn (8 * i) b)) at 1.
      rewrite app_nth1; [reflexivity|]. rewrite firstn_length, skipn_length. lia. }
    cbn [seq fold_left]. rewrite !E by lia. reflexivity.
  - now apply bytes_slice.
  - rewrite slice_length; lia.
  - lia.
Qed.

Lemma Convert_back w : length w = 25 -> ConvertWordsToBytes w = cast_bytes w.
Proof.
  intros L. unfold ConvertWordsToBytes, cast_bytes.
  transitivity (flat_map (le_bytes 8) (map (get w) (seq 0 25)));
    [|now rewrite <- L, map_get_seq]. rewrite flat_map_map'.
  apply flat_map_ext_in'. intros i _. generalize (get w i). intros x.
  assert (E : forall j, wrap 8 (N.land (N.shiftr x (8 * N.of_nat j)) 0xff) = (x / 256 ^ N.of_nat j mod 256)%N).
  { intros j. rewrite land_255, shiftr_8j. unfold wrap. change (2 ^ 8)%N with 256%N.
    apply N.mod_small, N.mod_lt. lia. }
  cbn [seq map]. rewrite !E. cbn [le_bytes].
  rewrite !N.div_div by lia. change (256 ^ N.of_nat 0)%N with 1%N. rewrite N.div_1_r. reflexivity.
Qed.

(** ** one permutation *)

Section Stream.
Variable lsb : bool.

Definition tables_ok (st : SHA3Info) : Prop := s3_rho st = rho_table /\ s3_rounds st = round_table.

Definition buf_ok (n : nat) (b : list N) : Prop := length b = n /\ bytes b.

Lemma SHA3Permutation_ok st b : tables_ok st -> buf_ok 200 b ->
  buf_ok 200 (SHA3Permutation lsb st b) /\
  message_bits (SHA3Permutation lsb st b) = keccak_f (message_bits b).
Proof.
  intros [T1 T2] [L B]. unfold SHA3Permutation. rewrite T1, T2.
  destruct (bits_of_cast b L B) as [S1 E1].
  destruct (permutation_ok _ S1) as [S2 E2].
  destruct (cast_bytes_ok _ S2) as (L3 & B3 & E3).
  destruct lsb.
  - split; [now split|]. rewrite E3, E2, E1. reflexivity.
  - rewrite Convert_cast by assumption. rewrite Convert_back by apply S2.
    split; [now split|]. rewrite E3, E2, E1. reflexivity.
Qed.

Lemma upd_app_at (X R : list N) a b : upd (X ++ a :: R) (length X) b = X ++ b :: R.
Proof. induction X as [|x X IH]; [reflexivity|]. cbn [app length upd]. now rewrite IH. Qed.

Lemma xor_fold n : forall s m : list N, n <= length s -> n <= length m ->
  fold_left (fun s i => upd s i (N.lxor (get s i) (get m i))) (seq 0 n) s =
  xor_list (firstn n s) (firstn n m) ++ skipn n s.
Proof.
  induction n as [|n IH]; intros s m Hs Hm; [reflexivity|].
  rewrite seq_S, fold_left_app, IH by lia. cbn [fold_left Nat.add].
  assert (E : forall l : list N, n < length l -> firstn (S n) l = firstn n l ++ [get l n] /\
                 skipn n l = get l n :: skipn (S n) l).
  { unfold get. clear. induction n as [|n IH]; intros [|a l] H; cbn [length] in H; try lia; [now split|].
    destruct (IH l ltac:(lia)) as [E1 E2]. cbn. split; [now f_equal | exact E2]. }
  destruct (E s ltac:(lia)) as [E1 E2]. destruct (E m ltac:(lia)) as [E3 E4].
  set (X := xor_list (firstn n s) (firstn n m)).
  assert (LX : length X = n).
  { unfold X. rewrite xor_list_length; rewrite !firstn_length; lia. }
  rewrite E1, E3. unfold xor_list at 1. rewrite map2_app by (rewrite !firstn_length; lia).
  fold (xor_list (firstn n s) (firstn n m)). fold X. rewrite E2. cbn [map2]. rewrite <- app_assoc.
  assert (G : get (X ++ get s n :: skipn (S n) s) n = get s n).
  { unfold get at 1. rewrite app_nth2 by lia. rewrite LX, Nat.sub_diag. reflexivity. }
  rewrite G. clearbody X. clear -LX. generalize (skipn (S n) s). subst n. intros R. apply upd_app_at.
Qed.

(** the absorbing step of the specification *)
Definition absS (r : nat) (S Pi : list bool) : list bool :=
  keccak_f (xor_bits S (Pi ++ repeat false (1600 - r))).

Lemma AfterXor_ok st m n s : tables_ok st -> buf_ok 200 s -> bytes m -> n <= length m -> n <= 200 ->
  buf_ok 200 (SHA3PermutationAfterXor lsb st m n s) /\
  message_bits (SHA3PermutationAfterXor lsb st m n s) = absS (8 * n) (message_bits s) (message_bits (firstn n m)).
Proof.
  intros T [L B] Bm Hn H200. unfold SHA3PermutationAfterXor. rewrite xor_fold by lia.
  assert (LX : length (xor_list (firstn n s) (firstn n m)) = n)
    by (rewrite xor_list_length; rewrite !firstn_length; lia).
  destruct (SHA3Permutation_ok st (xor_list (firstn n s) (firstn n m) ++ skipn n s) T) as [H1 H2].
  - split.
    + rewrite app_length, LX, skipn_length. lia.
    + apply bytes_app. split; [apply bytes_xor_list; now apply Forall_firstn_ | now apply Forall_skipn_].
  - split; [exact H1|]. rewrite H2. unfold absS. f_equal.
    rewrite message_bits_app, message_bits_xor by (rewrite !firstn_length; lia).
    rewrite <- (firstn_skipn n s) at 3. rewrite message_bits_app, !xor_bits_map2, map2_app
      by (rewrite !message_bits_length, !firstn_length; lia).
    f_equal. rewrite <- xor_bits_map2. symmetry. apply xor_bits_zeros.
    rewrite message_bits_length, skipn_length. lia.
Qed.

(** ** the running state *)

Variable rb : nat.   (** rate in bytes *)
Hypothesis Hrb : In rb [72; 104; 128; 136; 144].
Variable d : N.      (** output bits *)

Lemma rb_bounds : 72 <= rb <= 144.
Proof. cbn [In] in Hrb. lia. Qed.

Lemma rate_bytes_rb : N.to_nat (rate_bytes (8 * N.of_nat rb)) = rb.
Proof. destruct Hrb as [E|[E|[E|[E|[E|[]]]]]]; rewrite <- E; reflexivity. Qed.

Lemma rate_named : existsb (N.eqb (8 * N.of_nat rb)) [576; 832; 1024; 1088; 1152; 1344]%N = true.
Proof. destruct Hrb as [E|[E|[E|[E|[E|[]]]]]]; rewrite <- E; reflexivity. Qed.

Definition absorbed (full : list N) : list bool :=
  fold_left (absS (8 * rb)) (map message_bits (chunks rb full)) (repeat false 1600).

Record s3inv (st : SHA3Info) (full rest : list N) : Prop := {
  i_full : exists k, length full = k * rb;
  i_rest : length rest < rb;
  i_state : buf_ok 200 (s3_state st);
  i_bits : message_bits (s3_state st) = absorbed full;
  i_message : buf_ok 192 (s3_message st);
  i_queue : firstn (length rest) (s3_message st) = rest;
  i_count : s3_bits_in_queue st = (8 * N.of_nat (length rest))%N;
  i_rate : s3_rate st = (8 * N.of_nat rb)%N;
  i_squeeze : s3_squeeze st = false;
  i_tables : tables_ok st;
  i_out : s3_out_length st = d
}.

Definition holds (st : SHA3Info) (m : list N) : Prop :=
  exists full rest, m = full ++ rest /\ s3inv st full rest.

(** bytes taken by the buffering branch when [k] of [n] bytes are done and
    [q] are queued *)
Definition take (n k q : nat) : nat :=
  let b := N.to_nat (N.of_nat (n - k) mod 2 ^ 29) in
  if rb <? b + q then rb - q else b.

Lemma take_le n k q : k <= n -> take n k q <= n - k /\ (q < rb -> q + take n k q <= rb).
Proof.
  intros H. unfold take.
  pose proof (N.mod_le (N.of_nat (n - k)) (2 ^ 29) ltac:(discriminate)) as M.
  set (b := N.to_nat _). assert (Hb : b <= n - k) by (unfold b; lia). clearbody b.
  destruct (Nat.ltb_spec rb (b + q)); lia.
Qed.

Definition queue_branch (n k q : nat) : bool :=
  negb (q =? 0) || (n <? rb) || (n - rb <? k).

Lemma slice_bytes_take (msg : list N) k t : k + t <= length msg ->
  firstn k msg ++ slice msg k t = firstn (k + t) msg.
Proof.
  intros H. unfold slice. rewrite <- (firstn_skipn k msg) at 3.
  rewrite firstn_app, firstn_length, Nat.min_l by lia.
  rewrite (firstn_all2 (n := k + t)) by (rewrite firstn_length; lia).
  f_equal. f_equal. lia.
Qed.

Lemma absorbed_snoc full k b : length full = k * rb -> length b = rb ->
  absorbed (full ++ b) = absS (8 * rb) (absorbed full) (message_bits b).
Proof.
  intros H Hb. pose proof rb_bounds. unfold absorbed.
  rewrite (chunks_snoc rb k) by (assumption || lia). rewrite map_app, fold_left_app. reflexivity.
Qed.

Lemma blocks_ok st p : tables_ok st -> bytes p ->
  forall B s full k, length full = k * rb -> B * rb <= length p -> buf_ok 200 s -> message_bits s = absorbed full ->
  let s' := fold_left (fun s j => SHA3PermutationAfterXor lsb st (skipn (j * rb) p) rb s) (seq 0 B) s in
  buf_ok 200 s' /\ message_bits s' = absorbed (full ++ firstn (B * rb) p).
Proof.
  intros T Bp. pose proof rb_bounds as RB. induction B as [|B IH]; intros s full k Hf HB Hs Hm.
  - cbn. rewrite app_nil_r. now split.
  - rewrite seq_S, fold_left_app. cbn [fold_left Nat.add].
    destruct (IH s full k Hf ltac:(lia) Hs Hm) as [H1 H2]. cbv zeta in H1, H2.
    set (s1 := fold_left _ (seq 0 B) s) in *. clearbody s1.
    destruct (AfterXor_ok st (skipn (B * rb) p) rb s1 T H1) as [H3 H4];
      [now apply Forall_skipn_ | rewrite skipn_length; lia | lia |].
    split; [exact H3|]. rewrite H4, H2.
    rewrite <- (absorbed_snoc _ (k + B)).
    + f_equal. rewrite <- app_assoc. f_equal.
      change (firstn rb (skipn (B * rb) p)) with (slice p (B * rb) rb).
      rewrite slice_bytes_take by lia. f_equal. lia.
    + rewrite app_length, firstn_length, Nat.min_l by lia. lia.
    + rewrite firstn_length, skipn_length. lia.
Qed.

Lemma mod_2_32 x : ((8 * x) mod 2 ^ 32 = 8 * (x mod 2 ^ 29))%N.
Proof. change (2 ^ 32)%N with (8 * 2 ^ 29)%N. apply N.mul_mod_distr_l; discriminate. Qed.

Lemma absorb_step_ok st full rest msg k :
  s3inv st full rest -> bytes msg -> k < length msg ->
  let n := length msg in
  let q := length rest in
  let '(st', i') := absorb_step lsb msg (8 * N.of_nat n) st (8 * N.of_nat k) in
  exists k' full' rest',
    i' = (8 * N.of_nat k')%N /\ s3inv st' full' rest' /\
    full' ++ rest' = full ++ rest ++ slice msg k (k' - k) /\
    if queue_branch n k q
    then k' = k + take n k q /\ length rest' = (if q + take n k q =? rb then 0 else q + take n k q)
    else k' = k + (n - k) / rb * rb /\ rest' = [].
Proof.
  intros I Bm Hk n q. pose proof rb_bounds as RB.
  destruct I as [[kf Hf] Hrest Hst Hbits Hmsg Hq Hcount Hrate Hsq Htab Hout].
  unfold absorb_step. rewrite Hcount, Hrate. fold q.
  assert (Br : negb (8 * N.of_nat q =? 0)%N || (8 * N.of_nat n <? 8 * N.of_nat rb)%N ||
               (8 * N.of_nat n - 8 * N.of_nat rb <? 8 * N.of_nat k)%N = queue_branch n k q).
  { unfold queue_branch. destruct (Nat.eqb_spec q 0), (Nat.ltb_spec n rb), (Nat.ltb_spec (n - rb) k);
      cbn [negb orb]; lia. }
  rewrite Br. clear Br. destruct (queue_branch n k q) eqn:QB.
  - destruct (take_le n k q ltac:(lia)) as [T1 T2]. specialize (T2 Hrest).
    assert (EB : (if (8 * N.of_nat rb <? wrap 32 (8 * N.of_nat n - 8 * N.of_nat k) + 8 * N.of_nat q)%N
                  then (8 * N.of_nat rb - 8 * N.of_nat q)%N
                  else wrap 32 (8 * N.of_nat n - 8 * N.of_nat k)) = (8 * N.of_nat (take n k q))%N).
    { unfold wrap, take. rewrite <- N.mul_sub_distr_l, mod_2_32, <- Nat2N.inj_sub.
      set (b := (N.of_nat (n - k) mod 2 ^ 29)%N). clearbody b.
      destruct (N.ltb_spec (8 * N.of_nat rb) (8 * b + 8 * N.of_nat q)),
               (Nat.ltb_spec rb (N.to_nat b + q)); lia. }
    rewrite EB. set (t := take n k q) in *. clearbody t. clear EB.
    assert (M0 : ((8 * N.of_nat t) mod 8 = 0)%N) by (rewrite N.mul_comm, N.mod_mul; lia).
    rewrite M0. cbn [N.ltb N.compare]. rewrite N.sub_0_r.
    assert (D8 : forall x, N.to_nat (8 * N.of_nat x / 8) = x)
      by (intros x; rewrite N.mul_comm, N.div_mul by lia; lia).
    rewrite !D8.
    assert (W : wrap 32 (8 * N.of_nat q + 8 * N.of_nat t) = (8 * N.of_nat (q + t))%N).
    { unfold wrap. rewrite N.mod_small; [lia|]. apply N.lt_trans with 2000%N; [lia | reflexivity]. }
    rewrite W.
    set (piece := slice msg k t).
    assert (Lp : length piece = t) by (apply slice_length; lia).
    assert (Bp : bytes piece) by now apply bytes_slice.
    set (message := splice (s3_message st) q piece).
    destruct Hmsg as [Lm Bmsg].
    assert (Lmsg : length message = 192) by (unfold message; rewrite splice_length; lia).
    assert (Bmessage : bytes message).
    { unfold message, splice. apply bytes_app. split; [now apply Forall_firstn_|].
      apply bytes_app. split; [exact Bp | now apply Forall_skipn_]. }
    assert (Fm : firstn (q + t) message = rest ++ piece).
    { unfold message, splice. rewrite firstn_app, firstn_firstn, Nat.min_r by lia.
      unfold q at 1. rewrite Hq. f_equal.
      rewrite firstn_length, Nat.min_l by lia. replace (q + t - q) with t by lia.
      rewrite firstn_app, Lp, Nat.sub_diag, firstn_all2 by lia. cbn [firstn]. apply app_nil_r. }
    assert (EQ : (8 * N.of_nat (q + t) =? 8 * N.of_nat rb)%N = (q + t =? rb)).
    { destruct (N.eqb_spec (8 * N.of_nat (q + t)) (8 * N.of_nat rb)), (Nat.eqb_spec (q + t) rb); lia. }
    rewrite EQ. destruct (Nat.eqb_spec (q + t) rb) as [E|NE].
    + exists (k + t), (full ++ (rest ++ piece)), [].
      replace (k + t - k) with t by lia.
      split; [lia|]. split; [|split; [now rewrite app_nil_r | now split]].
      assert (Lr : length (rest ++ piece) = rb) by (rewrite app_length, Lp; fold q; lia).
      unfold AbsorbQueue. cbn [s3_message s3_rate s3_state with_message with_queue with_state].
      rewrite Hrate, rate_bytes_rb.
      match goal with |- context [SHA3PermutationAfterXor lsb ?X message rb _] => set (stx := X) end.
      assert (Tx : tables_ok stx) by exact Htab.
      destruct (AfterXor_ok stx message rb (s3_state st) Tx Hst Bmessage ltac:(lia) ltac:(lia)) as [A1 A2].
      constructor; cbn [s3_message s3_rate s3_state s3_bits_in_queue s3_squeeze s3_rho s3_rounds s3_out_length
                        with_message with_queue with_state length].
      * exists (S kf). rewrite app_length, Hf, Lr. lia.
      * lia.
      * exact A1.
      * rewrite A2, Hbits, (absorbed_snoc _ kf) by assumption. f_equal. f_equal.
        rewrite <- E. exact Fm.
      * split; assumption.
      * reflexivity.
      * reflexivity.
      * exact Hrate.
      * exact Hsq.
      * exact Htab.
      * exact Hout.
    + exists (k + t), full, (rest ++ piece).
      replace (k + t - k) with t by lia.
      assert (Lr : length (rest ++ piece) = q + t) by (rewrite app_length, Lp; reflexivity).
      split; [lia|]. split; [|split; [reflexivity|split; [reflexivity | exact Lr]]].
      constructor; cbn [s3_message s3_rate s3_state s3_bits_in_queue s3_squeeze s3_rho s3_rounds s3_out_length
                        with_message with_queue with_state].
      * exists kf; exact Hf.
      * lia.
      * exact Hst.
      * exact Hbits.
      * split; assumption.
      * rewrite Lr; exact Fm.
      * rewrite Lr; reflexivity.
      * exact Hrate.
      * exact Hsq.
      * exact Htab.
      * exact Hout.
  - assert (Q0 : q = 0 /\ rb <= n /\ k + rb <= n).
    { unfold queue_branch in QB. apply orb_false_iff in QB as [QB Q3]. apply orb_false_iff in QB as [Q1 Q2].
      apply negb_false_iff, Nat.eqb_eq in Q1. apply Nat.ltb_ge in Q2, Q3. lia. }
    destruct Q0 as (Q0 & Q1 & Q2).
    destruct rest as [|r0 rest]; [|discriminate Q0].
    assert (DB : N.to_nat ((8 * N.of_nat n - 8 * N.of_nat k) / (8 * N.of_nat rb)) = (n - k) / rb).
    { rewrite <- N.mul_sub_distr_l, N.div_mul_cancel_l by lia.
      rewrite <- Nat2N.inj_sub, <- Nat2N.inj_div. apply Nat2N.id. }
    rewrite DB. set (B := (n - k) / rb) in *.
    assert (HB : B * rb <= n - k) by (unfold B; rewrite Nat.mul_comm; apply Nat.mul_div_le; lia).
    clearbody B.
    assert (D8 : N.to_nat (8 * N.of_nat k / 8) = k) by (rewrite N.mul_comm, N.div_mul by lia; lia).
    rewrite D8.
    set (p := skipn k msg). assert (Bp : bytes p) by now apply Forall_skipn_.
    destruct (blocks_ok st p Htab Bp B (s3_state st) full kf Hf ltac:(unfold p; rewrite skipn_length; lia) Hst Hbits) as [S1 S2].
    cbv zeta in S1, S2.
    assert (AB : absorb_blocks lsb st p B =
                 fold_left (fun s j => SHA3PermutationAfterXor lsb st (skipn (j * rb) p) rb s) (seq 0 B) (s3_state st)).
    { unfold absorb_blocks. rewrite Hrate, rate_named, rate_bytes_rb. reflexivity. }
    exists (k + B * rb), (full ++ firstn (B * rb) p), [].
    replace (k + B * rb - k) with (B * rb) by lia.
    split; [|split; [|split; [|now split]]].
    + apply (f_equal N.of_nat) in DB. rewrite N2Nat.id in DB. rewrite DB. lia.
    + constructor; cbn [s3_message s3_rate s3_state s3_bits_in_queue s3_squeeze s3_rho s3_rounds s3_out_length
                        with_message with_queue with_state length].
      * exists (kf + B). rewrite app_length, firstn_length, Nat.min_l; [lia|].
        unfold p. rewrite skipn_length. lia.
      * lia.
      * rewrite AB. exact S1.
      * rewrite AB. exact S2.
      * exact Hmsg.
      * reflexivity.
      * exact Hcount.
      * exact Hrate.
      * exact Hsq.
      * exact Htab.
      * exact Hout.
    + rewrite app_nil_r. reflexivity.
Qed.

(** whenever the loop ends, the message has been absorbed *)
Lemma absorb_loop_ok msg : bytes msg -> forall fuel st full rest k st', k <= length msg ->
  s3inv st full rest ->
  absorb_loop fuel lsb msg (8 * N.of_nat (length msg)) st (8 * N.of_nat k) = Some st' ->
  exists full' rest', s3inv st' full' rest' /\ full' ++ rest' = full ++ rest ++ skipn k msg.
Proof.
  intros Bm. pose proof rb_bounds. induction fuel as [|fuel IH]; intros st full rest k st' Hk I E.
  - cbn [absorb_loop] in E. destruct (N.ltb_spec (8 * N.of_nat k) (8 * N.of_nat (length msg))); [discriminate|].
    injection E as <-. exists full, rest. split; [exact I|].
    rewrite skipn_all2 by lia. now rewrite app_nil_r.
  - cbn [absorb_loop] in E. destruct (N.ltb_spec (8 * N.of_nat k) (8 * N.of_nat (length msg))) as [L|G].
    + pose proof (absorb_step_ok st full rest msg k I Bm ltac:(lia)) as S. cbv zeta in S.
      destruct (absorb_step _ _ _ _ _) as [st1 i1].
      destruct S as (k' & full1 & rest1 & -> & I1 & EQ & P).
      assert (Hk' : k <= k' <= length msg).
      { destruct (queue_branch _ _ _).
        - destruct P as [-> _]. pose proof (take_le (length msg) k (length rest) Hk). lia.
        - destruct P as [-> _].
          pose proof (Nat.mul_div_le (length msg - k) rb ltac:(lia)) as D. rewrite Nat.mul_comm in D.
          revert D. generalize ((length msg - k) / rb * rb). intros. lia. }
      destruct (IH _ _ _ _ _ (proj2 Hk') I1 E) as (full2 & rest2 & I2 & E2).
      exists full2, rest2. split; [exact I2|]. rewrite E2, app_assoc, EQ, <- !app_assoc. do 2 f_equal.
      unfold slice. replace (skipn k' msg) with (skipn (k' - k) (skipn k msg))
        by (rewrite skipn_skipn; f_equal; lia).
      apply firstn_skipn.
    + injection E as <-. exists full, rest. split; [exact I|].
      rewrite skipn_all2 by lia. now rewrite app_nil_r.
Qed.

(** ** termination *)

(** the updates for which the loop ends *)
Definition ends (n q : nat) : Prop :=
  q = 0 \/ (N.of_nat n < 2 ^ 29)%N \/ rb <= q + N.to_nat (N.of_nat n mod 2 ^ 29).

(** from an empty queue two turns are enough *)
Lemma loop_ends_empty msg st full k fuel : bytes msg -> k <= length msg -> s3inv st full [] -> 2 <= fuel ->
  absorb_loop fuel lsb msg (8 * N.of_nat (length msg)) st (8 * N.of_nat k) <> None.
Proof.
  intros Bm Hk I Hf. pose proof rb_bounds as RB.
  (* a tail shorter than a block takes one turn *)
  assert (Tail : forall st full k fuel, k <= length msg -> length msg - k < rb -> s3inv st full [] -> 1 <= fuel ->
    absorb_loop fuel lsb msg (8 * N.of_nat (length msg)) st (8 * N.of_nat k) <> None).
  { clear st full k fuel Hk I Hf. intros st full k fuel Hk Hl I Hf.
    destruct fuel as [|fuel]; [lia|]. cbn [absorb_loop].
    destruct (N.ltb_spec (8 * N.of_nat k) (8 * N.of_nat (length msg))) as [L|G]; [|discriminate].
    pose proof (absorb_step_ok st full [] msg k I Bm ltac:(lia)) as S. cbv zeta in S.
    destruct (absorb_step _ _ _ _ _) as [st1 i1]. destruct S as (k' & f1 & r1 & -> & _ & _ & P).
    assert (QB : queue_branch (length msg) k (length (@nil N)) = true).
    { unfold queue_branch. destruct (Nat.ltb_spec (length msg) rb), (Nat.ltb_spec (length msg - rb) k);
        rewrite ?orb_true_r; try reflexivity. lia. }
    rewrite QB in P. destruct P as [-> _].
    assert (T : take (length msg) k (length (@nil N)) = length msg - k).
    { unfold take. cbn [length]. rewrite N.mod_small.
      - rewrite Nat2N.id. destruct (Nat.ltb_spec rb (length msg - k + 0)); lia.
      - apply N.lt_trans with 200%N; [lia | reflexivity]. }
    rewrite T. replace (k + (length msg - k)) with (length msg) by lia.
    destruct fuel; cbn [absorb_loop]; rewrite N.ltb_irrefl; discriminate. }
  destruct (le_lt_dec (k + rb) (length msg)) as [G|L].
  - destruct fuel as [|fuel]; [lia|]. cbn [absorb_loop].
    destruct (N.ltb_spec (8 * N.of_nat k) (8 * N.of_nat (length msg))) as [L|?]; [|discriminate].
    pose proof (absorb_step_ok st full [] msg k I Bm ltac:(lia)) as S. cbv zeta in S.
    destruct (absorb_step _ _ _ _ _) as [st1 i1]. destruct S as (k' & f1 & r1 & -> & I1 & _ & P).
    assert (QB : queue_branch (length msg) k (length (@nil N)) = false).
    { unfold queue_branch. cbn [length Nat.eqb negb orb].
      destruct (Nat.ltb_spec (length msg) rb), (Nat.ltb_spec (length msg - rb) k); reflexivity || lia. }
    rewrite QB in P. destruct P as [-> ->].
    pose proof (Nat.mod_upper_bound (length msg - k) rb ltac:(lia)) as MU.
    pose proof (Nat.div_mod (length msg - k) rb ltac:(lia)) as DM. rewrite Nat.mul_comm in DM.
    revert DM MU I1. generalize ((length msg - k) / rb * rb) ((length msg - k) mod rb). intros B R DM MU I1.
    apply (Tail st1 f1); [lia | lia | exact I1 | lia].
  - apply (Tail st full); [exact Hk | lia | exact I | lia].
Qed.

Lemma loop_ends msg st full rest fuel : bytes msg -> s3inv st full rest -> ends (length msg) (length rest) ->
  3 <= fuel -> absorb_loop fuel lsb msg (8 * N.of_nat (length msg)) st 0 <> None.
Proof.
  intros Bm I H Hf. pose proof rb_bounds as RB. change 0%N with (8 * N.of_nat 0)%N.
  destruct rest as [|b rest].
  { apply (loop_ends_empty msg st full 0); [assumption | lia | assumption | lia]. }
  destruct fuel as [|fuel]; [lia|]. cbn [absorb_loop].
  destruct (N.ltb_spec (8 * N.of_nat 0) (8 * N.of_nat (length msg))) as [L|?]; [|discriminate].
  pose proof (absorb_step_ok st full (b :: rest) msg 0 I Bm ltac:(lia)) as S. cbv zeta in S.
  destruct (absorb_step _ _ _ _ _) as [st1 i1]. destruct S as (k' & f1 & r1 & -> & I1 & _ & P).
  assert (QB : queue_branch (length msg) 0 (length (b :: rest)) = true) by reflexivity.
  rewrite QB in P. destruct P as [Hk' Hr1]. rewrite Nat.add_0_l in Hk'.
  pose proof (i_rest _ _ _ I) as Hq.
  assert (C : k' = length msg \/ r1 = []).
  { destruct H as [H|[H|H]]; [discriminate H| |].
    - unfold take in *. rewrite Nat.sub_0_r, N.mod_small in Hk', Hr1 by exact H. rewrite Nat2N.id in *.
      destruct (Nat.ltb_spec rb (length msg + length (b :: rest))); [|left; exact Hk'].
      right. destruct r1; [reflexivity|]. exfalso. revert Hr1.
      destruct (Nat.eqb_spec (length (b :: rest) + (rb - length (b :: rest))) rb); [discriminate | lia].
    - right. unfold take in *. rewrite Nat.sub_0_r in Hr1.
      set (b0 := N.to_nat (N.of_nat (length msg) mod 2 ^ 29)) in *. clearbody b0.
      destruct r1; [reflexivity|]. exfalso. revert Hr1.
      destruct (Nat.ltb_spec rb (b0 + length (b :: rest)));
        match goal with |- context [?x =? rb] => destruct (Nat.eqb_spec x rb) end; (discriminate || lia). }
  assert (Hk : k' <= length msg) by (pose proof (take_le (length msg) 0 (length (b :: rest))); lia).
  destruct C as [C|C].
  - subst k'. rewrite C. destruct fuel; cbn [absorb_loop]; rewrite N.ltb_irrefl; discriminate.
  - subst r1. apply (loop_ends_empty msg st1 f1); [assumption | assumption | assumption | lia].
Qed.

(** otherwise it never does *)
Lemma loop_stuck msg st full rest k : bytes msg -> s3inv st full rest -> rest <> [] -> k < length msg ->
  (N.of_nat (length msg - k) mod 2 ^ 29 = 0)%N ->
  forall fuel, absorb_loop fuel lsb msg (8 * N.of_nat (length msg)) st (8 * N.of_nat k) = None.
Proof.
  intros Bm I Hr Hk HM fuel. revert st full rest I Hr.
  induction fuel as [|fuel IH]; intros st full rest I Hr; cbn [absorb_loop].
  - destruct (N.ltb_spec (8 * N.of_nat k) (8 * N.of_nat (length msg))); [reflexivity | lia].
  - destruct (N.ltb_spec (8 * N.of_nat k) (8 * N.of_nat (length msg))); [|lia].
    pose proof (absorb_step_ok st full rest msg k I Bm Hk) as S. cbv zeta in S.
    destruct (absorb_step _ _ _ _ _) as [st1 i1]. destruct S as (k' & f1 & r1 & -> & I1 & _ & P).
    pose proof (i_rest _ _ _ I) as Hq.
    assert (Lr : 0 < length rest) by (destruct rest; [contradiction | cbn; lia]).
    assert (QB : queue_branch (length msg) k (length rest) = true).
    { unfold queue_branch. destruct (Nat.eqb_spec (length rest) 0); [lia | reflexivity]. }
    rewrite QB in P. destruct P as [-> P].
    assert (T : take (length msg) k (length rest) = 0).
    { unfold take. rewrite HM. change (N.to_nat 0) with 0. destruct (Nat.ltb_spec rb (0 + length rest)); lia. }
    rewrite T in *. rewrite Nat.add_0_r in *.
    apply (IH st1 f1 r1 I1). intros ->. revert P. cbn [length].
    destruct (Nat.eqb_spec (length rest) rb); lia.
Qed.

Lemma loop_ends_iff msg st full rest : bytes msg -> s3inv st full rest ->
  (exists fuel, absorb_loop fuel lsb msg (8 * N.of_nat (length msg)) st 0 <> None) <->
  ends (length msg) (length rest).
Proof.
  intros Bm I. pose proof rb_bounds as RB. pose proof (i_rest _ _ _ I) as Hq. split.
  - intros [fuel H]. unfold ends.
    destruct (Nat.eq_dec (length rest) 0) as [Z|NZ]; [now left|]. right.
    destruct (N.lt_ge_cases (N.of_nat (length msg)) (2 ^ 29)) as [L|G]; [now left|]. right.
    destruct (le_lt_dec rb (length rest + N.to_nat (N.of_nat (length msg) mod 2 ^ 29))) as [?|X]; [assumption|].
    exfalso. apply H. clear H.
    assert (Lm : 0 < length msg).
    { destruct (Nat.eq_dec (length msg) 0) as [Z|]; [|lia]. rewrite Z in G. exfalso. now apply G. }
    set (b := (N.of_nat (length msg) mod 2 ^ 29)%N) in *.
    pose proof (N.div_mod (N.of_nat (length msg)) (2 ^ 29) ltac:(discriminate)) as DM. fold b in DM.
    pose proof (N.mod_lt (N.of_nat (length msg)) (2 ^ 29) ltac:(discriminate)) as ML. fold b in ML.
    assert (DQ : (1 <= N.of_nat (length msg) / 2 ^ 29)%N).
    { apply N.div_le_lower_bound; [discriminate|]. now rewrite N.mul_1_r. }
    assert (REST : (N.of_nat (length msg - N.to_nat b) mod 2 ^ 29 = 0)%N).
    { replace (N.of_nat (length msg - N.to_nat b)) with (N.of_nat (length msg) / 2 ^ 29 * 2 ^ 29)%N.
      - apply N.mod_mul. discriminate.
      - rewrite Nat2N.inj_sub, N2Nat.id. rewrite DM at 2. revert DM. generalize (2 ^ 29)%N. intros. lia. }
    assert (BL : N.to_nat b < length msg).
    { revert DM ML DQ G. generalize (2 ^ 29)%N. intros M DM ML DQ G. nia. }
    change 0%N with (8 * N.of_nat 0)%N.
    destruct fuel as [|fuel]; cbn [absorb_loop].
    { destruct (N.ltb_spec (8 * N.of_nat 0) (8 * N.of_nat (length msg))); [reflexivity | lia]. }
    destruct (N.ltb_spec (8 * N.of_nat 0) (8 * N.of_nat (length msg))); [|lia].
    pose proof (absorb_step_ok st full rest msg 0 I Bm Lm) as S. cbv zeta in S.
    destruct (absorb_step _ _ _ _ _) as [st1 i1]. destruct S as (k' & f1 & r1 & -> & I1 & _ & P).
    assert (QB : queue_branch (length msg) 0 (length rest) = true).
    { unfold queue_branch. destruct (Nat.eqb_spec (length rest) 0); [lia | reflexivity]. }
    rewrite QB in P. destruct P as [-> P].
    assert (T : take (length msg) 0 (length rest) = N.to_nat b).
    { unfold take. rewrite Nat.sub_0_r. fold b. destruct (Nat.ltb_spec rb (N.to_nat b + length rest)); [lia | reflexivity]. }
    rewrite T in *. apply (loop_stuck msg st1 f1 r1); [assumption | assumption | | exact BL | exact REST].
    intros ->. revert P. cbn [length]. destruct (Nat.eqb_spec (length rest + N.to_nat b) rb); lia.
  - intros H. exists 3. apply (loop_ends msg st full rest); (assumption || lia).
Qed.

End Stream.
