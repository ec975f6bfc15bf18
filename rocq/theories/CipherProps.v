(** C07-C11: the modes of operation with each of the four block ciphers. *)
From Coq Require Import Arith NArith List Lia Bool.
From Verif Require Import Base BaseLemmas Outcome Mem32 StringInfoModel StringInfoProof CipherModel CipherSpec
  CipherProof CipherInfoModel.
From Verif Require AesProps ChachaProps SerpentProps TwofishProps.
From Verif Require AesModel ChachaModel SerpentModel TwofishModel.
Import ListNotations.

(** a nonce as GenerateCipherNonce and SetCipherNonce leave it *)
Definition nonce_for (t : CipherType) (n : StringInfo) : Prop :=
  wf n /\ slen n = cipher_blocksize t /\ bytes (contents n).

Lemma andb_prop_intro_nat a b : ((0 <? a) && (a <=? b))%nat = true -> (0 < a <= b)%nat.
Proof. rewrite andb_true_iff, Nat.ltb_lt, Nat.leb_le. auto. Qed.
Lemma blocksize_bounds t : (0 < cipher_blocksize t <= MaxCipherBlocksize)%nat.
Proof. apply andb_prop_intro_nat. destruct t; vm_compute; reflexivity. Qed.
Lemma good_cipher_info junk t m key n : bytes key -> nonce_for t n -> good_cipher (cipher_info junk t m key n).
Proof.
  intros Hk (W & L & B).
  assert (B0 := blocksize_bounds t).
  destruct t; (constructor; [apply B0|apply B0
    |exact W|exact L|exact B| |]); intros b [Hb Lb]; cbn [cipher_info blocksize encipher_block decipher_block] in *.
  - now apply AesProps.aes_encipher_block_shape.
  - now apply AesProps.aes_decipher_encipher.
  - now apply ChachaProps.encipher_shape.
  - now apply ChachaProps.chacha_decipher_encipher.
  - now apply SerpentProps.serpent_encipher_shape.
  - now apply SerpentProps.serpent_decipher_encipher.
  - now apply TwofishProps.twofish_encipher_shape.
  - now apply TwofishProps.twofish_decipher_encipher.
Qed.

Lemma mode_of junk t m key n : mode (cipher_info junk t m key n) = m.
Proof. destruct t; reflexivity. Qed.
Lemma blocksize_of junk t m key n : blocksize (cipher_info junk t m key n) = cipher_blocksize t.
Proof. destruct t; reflexivity. Qed.
Lemma nonce_of junk t m key n : nonce (cipher_info junk t m key n) = n.
Proof. destruct t; reflexivity. Qed.

(** the generated nonce has the right shape *)
Lemma generated_nonce t m rnd : m <> UndefinedMode -> (forall i, rnd i < 256)%N ->
  exists n, GenerateCipherNonce (cipher_blocksize t) m rnd = Ok n /\ nonce_for t n.
Proof.
  intros Hm Hr.
  assert (Hbs := proj1 (blocksize_bounds t)).
  assert (HB : forall s k, bytes (map rnd (seq s k))).
  { intros s k. apply Forall_forall. intros x Hx. apply in_map_iff in Hx. destruct Hx as (y & <- & _). apply Hr. }
  assert (HZ : forall k, bytes (repeat 0%N k)).
  { intros k. apply Forall_forall. intros x Hx. apply repeat_spec in Hx. subst. lia. }
  set (bs := cipher_blocksize t) in *.
  assert (G : exists n, SetStringInfoDatum (AcquireStringInfo bs) (map rnd (seq 0 bs)) = Ok n /\ nonce_for t n).
  { unfold SetStringInfoDatum. cbn [slen AcquireStringInfo]. destruct (Nat.eqb_spec bs 0); [lia|].
    rewrite mem_read_ok by (rewrite map_length, seq_length; lia). cbn [bind datum AcquireStringInfo].
    rewrite slice0, firstn_all2 by (rewrite map_length, seq_length; lia).
    rewrite mem_write_ok by (rewrite map_length, seq_length, repeat_length; lia). cbn [bind].
    eexists. split; [reflexivity|].
    assert (HC : length (splice (repeat 0%N (bs + MaxCipherBlocksize)) 0 (map rnd (seq 0 bs))) = (bs + MaxCipherBlocksize)%nat).
    { unfold splice. cbn [firstn app]. rewrite app_length, skipn_length, map_length, seq_length, repeat_length. lia. }
    repeat split.
    - unfold wf. cbn [slen datum]. lia.
    - unfold contents. cbn [slen datum]. apply Forall_firstn_. unfold splice. cbn [firstn app].
      apply bytes_app. split; [apply HB|]. apply Forall_skipn_, HZ. }
  destruct m; try exact G; [congruence|].
  cbn [GenerateCipherNonce]. unfold ResetStringInfo. cbn [slen AcquireStringInfo datum].
  rewrite mem_write_ok by (rewrite !repeat_length; unfold MaxCipherBlocksize; lia). cbn [bind slen datum].
  assert (HH : ((bs + 1) / 2 <= bs)%nat).
  { apply Nat.div_le_upper_bound; lia. }
  assert (L1 : length (splice (repeat 0%N (bs + MaxCipherBlocksize)) 0 (repeat 0%N bs)) = (bs + MaxCipherBlocksize)%nat).
  { unfold splice. cbn [firstn app]. rewrite app_length, skipn_length, !repeat_length. lia. }
  rewrite mem_write_ok by (rewrite L1, map_length, seq_length; lia). cbn [bind].
  eexists. split; [reflexivity|]. repeat split.
  - unfold wf. cbn [slen datum]. unfold splice at 1. cbn [firstn app].
    rewrite app_length, skipn_length, map_length, seq_length, L1. lia.
  - unfold contents. cbn [slen datum]. apply Forall_firstn_. unfold splice. cbn [firstn app].
    apply bytes_app. split; [apply HB|]. apply Forall_skipn_. apply bytes_app. split; [apply HZ|]. apply Forall_skipn_, HZ.
Qed.

(** C07: every cipher, mode, key, nonce and choice of pad bytes *)
Theorem cipher_round_trip_all junk t m key n rnd s s' :
  bytes key -> nonce_for t n -> wf s -> bytes (contents s) -> (forall i, rnd i < 256)%N ->
  EncipherCipher (cipher_info junk t m key n) rnd s = Ok s' ->
  exists s'', DecipherCipher (cipher_info junk t m key n) s' = Ok s'' /\
              slen s'' = slen s /\ contents s'' = contents s.
Proof. intros Hk Hn W Hb Hr E. eapply cipher_round_trip; eauto using good_cipher_info. Qed.

(** ... and enciphering succeeds unless the CTR counter would wrap *)
Definition counter_fits (t : CipherType) (m : CipherMode) (n : StringInfo) (len : nat) : Prop :=
  m = CTRMode ->
  (be_val (contents n) + N.of_nat (len / cipher_blocksize t + 1) < 256 ^ N.of_nat (cipher_blocksize t))%N.

Theorem cipher_encipher_succeeds junk t m key n rnd s :
  bytes key -> nonce_for t n -> wf s -> m <> UndefinedMode -> counter_fits t m n (slen s) ->
  exists s', EncipherCipher (cipher_info junk t m key n) rnd s = Ok s' /\ slen s' = slen s.
Proof.
  intros Hk Hn W Hm Hc. assert (G := good_cipher_info junk t m key n Hk Hn).
  destruct (is_padded m) eqn:P.
  - destruct (encipher_spec _ rnd s G W) as [E _]; [now rewrite mode_of|]. rewrite E; [eexists; split; reflexivity|].
    unfold no_wrap. rewrite mode_of, blocksize_of, nonce_of. exact Hc.
  - assert (m = CFBMode) as -> by (destruct m; try discriminate; congruence).
    rewrite (encipher_cfb_spec _ rnd s G W) by apply mode_of. eexists; split; reflexivity.
Qed.

(** ... so after AcquireCipherInfo a message of any size below the counter range round-trips *)
Theorem cipher_acquired_round_trip junk t m key r rnd s :
  bytes key -> m <> UndefinedMode -> wf s -> bytes (contents s) ->
  (forall i, r i < 256)%N -> (forall i, rnd i < 256)%N ->
  exists c, AcquireKeyedCipher junk t m r key = Ok c /\
    forall s', EncipherCipher c rnd s = Ok s' ->
      exists s'', DecipherCipher c s' = Ok s'' /\ contents s'' = contents s.
Proof.
  intros Hk Hm W Hb Hr Hrnd. destruct (generated_nonce t m r Hm Hr) as (n & E & Hn).
  unfold AcquireKeyedCipher. rewrite E. cbn [bind]. eexists. split; [reflexivity|].
  intros s' E'. destruct (cipher_round_trip_all junk t m key n rnd s s') as (s'' & D & _ & C); eauto.
Qed.

(** C08: SP 800-38A on the padded message *)
Definition sp80038a (m : CipherMode) (E : list N -> list N) (iv : list N) (P : list (list N)) : list (list N) :=
  match m with
  | CBCMode => CBC_encrypt E iv P
  | CTRMode => CTR_encrypt E iv P
  | ECBMode => ECB_encrypt E P
  | OFBMode => OFB_encrypt E iv P
  | _ => []
  end.
Theorem cipher_is_sp80038a junk t m key n rnd s :
  bytes key -> nonce_for t n -> wf s -> is_padded m = true -> counter_fits t m n (slen s) ->
  let bs := cipher_blocksize t in
  EncipherCipher (cipher_info junk t m key n) rnd s =
    Ok (mkSI (concat (sp80038a m (encipher_block (cipher_info junk t m key n)) (contents n)
                        (chunks bs (padded bs rnd (contents s))))
              ++ skipn (bs * (slen s / bs + 1)) (datum s))
             (slen s)).
Proof.
  intros Hk Hn W P Hc bs. assert (G := good_cipher_info junk t m key n Hk Hn).
  set (c := cipher_info junk t m key n) in *.
  assert (Hbs : blocksize c = bs) by apply blocksize_of.
  destruct (encipher_spec c rnd s G W) as [E _]; [subst c; now rewrite mode_of|].
  rewrite E; [|unfold no_wrap; subst c; now rewrite mode_of, blocksize_of, nonce_of].
  rewrite Hbs. do 2 f_equal. f_equal.
  - unfold mode_spec. subst c. rewrite mode_of, nonce_of. destruct m; reflexivity.
  - unfold tail_of. now rewrite <- pad_total by apply blocksize_bounds.
Qed.
Theorem cipher_is_sp80038a_cfb8 junk t key n rnd s :
  bytes key -> nonce_for t n -> wf s ->
  EncipherCipher (cipher_info junk t CFBMode key n) rnd s =
    Ok (mkSI (CFB8_encrypt (encipher_block (cipher_info junk t CFBMode key n)) (contents n) (contents s)
              ++ skipn (slen s) (datum s)) (slen s)).
Proof.
  intros Hk Hn W. rewrite encipher_cfb_spec by (auto using good_cipher_info, mode_of). now rewrite nonce_of.
Qed.

(** the shape of the ciphertext blocks *)
Lemma concat_length bs (C : list (list N)) : Forall (fun b => length b = bs) C -> length (concat C) = (bs * length C)%nat.
Proof. induction 1 as [|q C Hq HQ IH]; cbn [concat length]; [lia|]. rewrite app_length. lia. Qed.
Lemma xor_blocks bs : forall P K, Forall (block_of bs) P -> Forall (block_of bs) K ->
  Forall (block_of bs) (map2 xor_list P K).
Proof.
  induction P as [|p P IH]; intros [|k K] FP FK; cbn [map2]; try constructor; inversion FP; inversion FK; subst; auto.
  now apply xor_block.
Qed.
Section Shape.
  Variables (bs : nat) (E : list N -> list N).
  Hypothesis HE : forall b, block_of bs b -> block_of bs (E b).
  Lemma iter_block n : forall b, block_of bs b -> block_of bs (iter n E b).
  Proof. induction n as [|n IH]; intros b Hb; cbn [iter]; auto. Qed.
  Lemma keystream_blocks iv n : block_of bs iv -> Forall (block_of bs) (OFB_keystream E iv n).
  Proof.
    intros Hiv. unfold OFB_keystream. apply Forall_forall. intros x Hx. apply in_map_iff in Hx.
    destruct Hx as (j & <- & _). now apply iter_block.
  Qed.
  Lemma counter_blocks iv n : block_of bs iv -> Forall (block_of bs) (map (fun j => E (counter_block iv j)) (seq 0 n)).
  Proof.
    intros [Hb Hl]. apply Forall_forall. intros x Hx. apply in_map_iff in Hx. destruct Hx as (j & <- & _).
    apply HE. split; [apply be_bytes_bytes|]. unfold counter_block. now rewrite be_bytes_length.
  Qed.
  Lemma sp80038a_blocks m iv P : block_of bs iv -> Forall (block_of bs) P -> is_padded m = true ->
    Forall (block_of bs) (sp80038a m E iv P) /\ length (sp80038a m E iv P) = length P.
  Proof.
    intros Hiv FP Hm. destruct m; try discriminate; cbn [sp80038a].
    - clear Hm. revert iv Hiv. induction FP as [|p P Hp HP IH]; intros iv Hiv; cbn [CBC_encrypt length]; [auto|].
      assert (block_of bs (E (xor_list p iv))) by now apply HE, xor_block.
      destruct (IH _ H) as [F L]. auto.
    - unfold CTR_encrypt. split; [apply xor_blocks; auto using counter_blocks|].
      rewrite map2_length, map_length, seq_length. lia.
    - unfold ECB_encrypt. rewrite map_length. split; [|reflexivity].
      apply Forall_forall. intros x Hx. apply in_map_iff in Hx. destruct Hx as (y & <- & Hy).
      rewrite Forall_forall in FP. auto.
    - unfold OFB_encrypt. split; [apply xor_blocks; auto using keystream_blocks|].
      unfold OFB_keystream. rewrite map2_length, map_length, seq_length. lia.
  Qed.
End Shape.
Lemma padded_blocks bs rnd s : (0 < bs <= MaxCipherBlocksize)%nat -> wf s -> bytes (contents s) -> (forall i, rnd i < 256)%N ->
  Forall (block_of bs) (chunks bs (padded bs rnd (contents s))) /\
  length (chunks bs (padded bs rnd (contents s))) = (slen s / bs + 1)%nat.
Proof.
  intros Hbs W Hb Hr. unfold MaxCipherBlocksize in Hbs.
  destruct (chunks_padded_length bs rnd s (proj1 Hbs) W) as (L & F & FB).
  split; [|exact L]. assert (FB' := FB (padded_bytes bs rnd (contents s) Hbs Hb Hr)).
  rewrite Forall_forall in *. intros x Hx. split; auto.
Qed.

(** C09: the padded message fills the least multiple of the block size above the
    length, and its last byte tells where the message ends *)
Theorem cipher_padding bs rnd msg : (0 < bs <= MaxCipherBlocksize)%nat ->
  let p := padded bs rnd msg in
  (exists k, length p = (bs * k)%nat) /\ (length msg < length p)%nat /\
  (forall k, (length msg < bs * k)%nat -> (length p <= bs * k)%nat) /\
  firstn (length msg) p = msg /\
  (length p - 1 - N.to_nat (last p 0%N))%nat = length msg.
Proof.
  intros Hbs p. assert (L := padded_length bs rnd msg (proj1 Hbs)). fold p in L.
  assert (T := pad_total bs (proj1 Hbs) (length msg)).
  assert (PB := pad_count_bounds bs (proj1 Hbs) (length msg)).
  split; [|split; [|split; [|split]]].
  - exists (length msg / bs + 1)%nat. lia.
  - lia.
  - intros k Hk. rewrite L, T. apply Nat.mul_le_mono_l.
    assert (length msg / bs < k)%nat; [|lia]. apply Nat.div_lt_upper_bound; lia.
  - unfold p, padded. apply firstn_app_exact. reflexivity.
  - unfold p at 2. unfold padded. rewrite app_assoc, last_last, Nat2N.id. lia.
Qed.

(** C09: no call reads or writes outside the allocation, whatever the message *)
Lemma block_loop_no_ub {S} bs (f : S -> list N -> outcome (S * list N)) :
  (forall s b, f s b <> UB) ->
  forall n s buf, (bs * n <= length buf)%nat -> block_loop bs f n s buf <> UB.
Proof.
  intros Hf. induction n as [|n IH]; intros s buf L; cbn [block_loop]; [discriminate|].
  rewrite mem_read_ok by lia. cbn [bind]. specialize (Hf s (slice buf 0 bs)).
  destruct (f s (slice buf 0 bs)) as [[s' b']| |]; cbn [bind]; try congruence.
  assert (H := IH s' (skipn bs buf)). rewrite skipn_length in H. specialize (H ltac:(lia)).
  destruct (block_loop bs f n s' (skipn bs buf)); cbn [bind]; congruence.
Qed.
Lemma increment_no_ub l : IncrementCipherNonce l <> UB.
Proof.
  unfold IncrementCipherNonce. assert (G : forall r, increment_rev r <> UB).
  { induction r as [|b r IH]; cbn [increment_rev]; [discriminate|].
    destruct (N.eqb _ _); [|discriminate]. destruct (increment_rev r); cbn [bind]; congruence. }
  specialize (G (rev l)). destruct (increment_rev (rev l)); cbn [bind]; congruence.
Qed.
Theorem cipher_encipher_in_bounds junk t m key n rnd s : bytes key -> nonce_for t n -> wf s ->
  EncipherCipher (cipher_info junk t m key n) rnd s <> UB.
Proof.
  intros Hk Hn W. assert (G := good_cipher_info junk t m key n Hk Hn).
  destruct (is_padded m) eqn:P.
  - destruct (encipher_spec _ rnd s G W) as [E1 E2]; [now rewrite mode_of|].
    destruct (N.ltb_spec (be_val (contents n) + N.of_nat (slen s / cipher_blocksize t + 1)) (256 ^ N.of_nat (cipher_blocksize t))).
    + rewrite E1; [discriminate|]. unfold no_wrap. rewrite blocksize_of, nonce_of. auto.
    + destruct m; try discriminate P.
      * rewrite E1; [discriminate|]. unfold no_wrap. rewrite mode_of. discriminate.
      * rewrite E2; [discriminate|]. unfold no_wrap. rewrite mode_of, blocksize_of, nonce_of. intros Q.
        specialize (Q eq_refl). lia.
      * rewrite E1; [discriminate|]. unfold no_wrap. rewrite mode_of. discriminate.
      * rewrite E1; [discriminate|]. unfold no_wrap. rewrite mode_of. discriminate.
  - destruct m; try discriminate P.
    + unfold EncipherCipher. rewrite mode_of. discriminate.
    + rewrite (encipher_cfb_spec _ rnd s G W) by apply mode_of. discriminate.
Qed.
Theorem cipher_decipher_in_bounds junk t m key n s : bytes key -> nonce_for t n -> wf s ->
  DecipherCipher (cipher_info junk t m key n) s <> UB.
Proof.
  intros Hk Hn W. assert (G := good_cipher_info junk t m key n Hk Hn).
  set (c := cipher_info junk t m key n) in *.
  assert (D : forall step iv, (forall s b, step s b <> UB) -> decipher_whole c step iv s <> UB).
  { intros step iv Hs. unfold decipher_whole.
    assert (B : (blocksize c * iterations (blocksize c) (slen s) <= length (datum s))%nat).
    { destruct (iterations_bounds (blocksize c) (gc_pos c G) (slen s)) as [_ B2].
      assert (M := gc_max c G). unfold wf in W.
      assert (slen s / blocksize c * blocksize c <= slen s)%nat.
      { rewrite Nat.mul_comm. apply Nat.mul_div_le. pose proof (gc_pos c G). lia. }
      nia. }
    assert (H := block_loop_no_ub (blocksize c) step Hs _ iv (datum s) B).
    destruct (block_loop _ _ _ iv (datum s)); cbn [bind]; congruence. }
  assert (CT : forall s b, ctr_step c s b <> UB).
  { intros s1 b. unfold ctr_step. assert (I := increment_no_ub s1). destruct (IncrementCipherNonce s1); cbn [bind]; congruence. }
  unfold DecipherCipher. destruct (mode c); rewrite ?nonce_block_ok by exact G; cbn [bind]; try discriminate;
    try (apply D; try exact CT; intros; discriminate).
  assert (H := block_loop_no_ub 1 (cfb_decipher_step c) ltac:(intros; discriminate) (slen s) (contents (nonce c)) (datum s)).
  unfold wf in W. specialize (H ltac:(lia)).
  destruct (block_loop 1 _ _ _ (datum s)); cbn [bind]; congruence.
Qed.

(** C10: the counter blocks are pairwise distinct, or the call ends in a fatal error *)
Theorem ctr_counters_distinct junk t key n rnd s :
  bytes key -> nonce_for t n -> wf s ->
  let bs := cipher_blocksize t in
  let blocks := (slen s / bs + 1)%nat in
  (exists s', EncipherCipher (cipher_info junk t CTRMode key n) rnd s = Ok s' /\
     (forall i j, (i < blocks)%nat -> (j < blocks)%nat -> i <> j ->
        counter_block (contents n) i <> counter_block (contents n) j)) \/
  EncipherCipher (cipher_info junk t CTRMode key n) rnd s = Fatal.
Proof.
  intros Hk Hn W bs blocks. assert (G := good_cipher_info junk t CTRMode key n Hk Hn).
  destruct (encipher_spec _ rnd s G W) as [E1 E2]; [now rewrite mode_of|].
  destruct (N.ltb_spec (be_val (contents n) + N.of_nat blocks) (256 ^ N.of_nat bs)).
  - left. rewrite E1 by (unfold no_wrap; rewrite blocksize_of, nonce_of; intros _; exact H).
    eexists. split; [reflexivity|]. intros i j Hi Hj Hij EQ. unfold counter_block in EQ.
    destruct Hn as (Wn & Ln & _). assert (LC : length (contents n) = bs) by (now rewrite contents_length).
    apply (f_equal be_val) in EQ. rewrite !be_val_be_bytes, LC in EQ.
    clear E1 E2. clearbody blocks. generalize dependent (256 ^ N.of_nat bs)%N. intros M H EQ.
    generalize dependent (be_val (contents n)). intros v H EQ. rewrite !N.mod_small in EQ by lia. lia.
  - right. apply E2. unfold no_wrap. rewrite mode_of, blocksize_of, nonce_of. intros Q. specialize (Q eq_refl).
    fold bs in Q. fold blocks in Q. lia.
Qed.

(** C07, for data that went through a file: the enciphered region, or any whole
    number of its leading blocks, deciphers to that part of the padded message *)
Lemma decipher_blocks c enc dec (Inv : list N -> Prop) iv P C m s2 :
  good_cipher c -> Forall (block_of (blocksize c)) P ->
  (forall s b s' x, Inv s -> block_of (blocksize c) b -> enc s b = Ok (s', x) ->
     dec s x = Ok (s', b) /\ Inv s') ->
  Inv iv -> run enc iv P = Ok C -> Forall (fun b => length b = blocksize c) C -> wf s2 ->
  (m <= length P)%nat -> contents s2 = concat (firstn m C) ->
  exists s3, decipher_whole c dec iv s2 = Ok s3 /\ slen s3 = slen s2 /\ contents s3 = concat (firstn m P).
Proof.
  intros G FP H Hiv R FC W Hm E. pose proof (gc_pos c G) as B0.
  destruct (run_inverse enc dec Inv (block_of (blocksize c)) H _ _ _ m Hiv FP R) as [R' LC].
  assert (FCm : Forall (fun b => length b = blocksize c) (firstn m C)) by now apply Forall_firstn_.
  assert (Lm : length (firstn m C) = m) by (rewrite firstn_length; lia).
  assert (L2 : slen s2 = (blocksize c * m)%nat).
  { rewrite <- (contents_length s2 W), E, (concat_length _ _ FCm). now rewrite Lm. }
  assert (IT : iterations (blocksize c) (slen s2) = m).
  { unfold iterations. rewrite L2. replace (blocksize c * m + blocksize c - 1)%nat with (m * blocksize c + (blocksize c - 1))%nat by lia.
    rewrite Nat.div_add_l by lia. rewrite Nat.div_small by lia. lia. }
  unfold decipher_whole. rewrite IT.
  assert (DS : datum s2 = concat (firstn m C) ++ skipn (slen s2) (datum s2)).
  { rewrite <- E. unfold contents. symmetry. apply firstn_skipn. }
  rewrite DS. assert (BL := block_loop_run (blocksize c) dec (firstn m C) iv (skipn (slen s2) (datum s2)) FCm).
  rewrite Lm in BL. rewrite BL, R'. cbn [bind]. eexists. split; [reflexivity|]. split; [reflexivity|].
  unfold contents. cbn [slen datum]. apply firstn_app_exact.
  rewrite (concat_length (blocksize c)), firstn_length, L2.
  - f_equal. lia.
  - apply Forall_firstn_. eapply Forall_impl; [|exact FP]. intros b Hb. apply Hb.
Qed.
Theorem cipher_region_round_trip junk t m key n P k s2 :
  bytes key -> nonce_for t n -> is_padded m = true ->
  Forall (block_of (cipher_blocksize t)) P ->
  (m = CTRMode -> be_val (contents n) + N.of_nat (length P) < 256 ^ N.of_nat (cipher_blocksize t))%N ->
  (k <= length P)%nat -> wf s2 ->
  contents s2 = concat (firstn k (sp80038a m (encipher_block (cipher_info junk t m key n)) (contents n) P)) ->
  exists s3, DecipherCipher (cipher_info junk t m key n) s2 = Ok s3 /\ slen s3 = slen s2 /\
             contents s3 = concat (firstn k P).
Proof.
  intros Hk Hn Hm FP Hc Hk' W E. assert (G := good_cipher_info junk t m key n Hk Hn).
  set (c := cipher_info junk t m key n) in *.
  assert (Hbs : blocksize c = cipher_blocksize t) by apply blocksize_of.
  assert (HN : nonce c = n) by apply nonce_of. assert (HM : mode c = m) by apply mode_of.
  pose proof (nonce_is_block c G) as Nb. rewrite HN in Nb.
  rewrite <- Hbs in FP, Hc.
  destruct (sp80038a_blocks (blocksize c) (encipher_block c) (gc_enc c G) m (contents n) P Nb FP Hm) as [FC LC].
  assert (FC' : Forall (fun b => length b = blocksize c) (sp80038a m (encipher_block c) (contents n) P)).
  { eapply Forall_impl; [|exact FC]. intros b Hb. apply Hb. }
  unfold DecipherCipher. rewrite HM.
  destruct m; try discriminate Hm; rewrite ?nonce_block_ok by exact G; cbn [bind]; rewrite ?HN; cbn [sp80038a] in *.
  - eapply (decipher_blocks c (cbc_encipher_step c) _ (block_of (blocksize c)) _ P); eauto using cbc_inverse, run_cbc.
  - eapply (decipher_blocks c (ctr_step c) _ (block_of (blocksize c)) _ P); eauto using ctr_inverse.
    rewrite run_ctr by apply Nb. rewrite (proj2 Nb).
    specialize (Hc eq_refl). apply N.ltb_lt in Hc. now rewrite Hc.
  - eapply (decipher_blocks c (ecb_encipher_step c) _ (fun _ => True) _ P); eauto using ecb_inverse, run_ecb.
  - eapply (decipher_blocks c (ofb_step c) _ (block_of (blocksize c)) _ P); eauto using ofb_inverse, run_ofb.
Qed.

(** C11 is false: under one CipherInfo every message of the same number of
    blocks is XORed with the same keystream, so two ciphertexts give the XOR of
    the two padded messages *)
Lemma concat_xor bs : forall P K, Forall (fun b => length b = bs) P -> Forall (fun b => length b = bs) K -> length P = length K ->
  concat (map2 xor_list P K) = xor_list (concat P) (concat K).
Proof.
  induction P as [|p P IH]; intros [|k K] FP FK L; try discriminate L; [reflexivity|].
  inversion FP; inversion FK; subst. cbn [map2 concat]. unfold xor_list at 3. rewrite map2_app by congruence.
  f_equal. apply IH; auto.
Qed.
Theorem keystream_shared_refuted junk t m key n q :
  bytes key -> nonce_for t n -> m = CTRMode \/ m = OFBMode ->
  let bs := cipher_blocksize t in
  counter_fits t m n (bs * q) ->
  exists K, forall rnd s, wf s -> bytes (contents s) -> (forall i, rnd i < 256)%N -> (slen s / bs = q)%nat ->
    exists s', EncipherCipher (cipher_info junk t m key n) rnd s = Ok s' /\
      firstn (bs * (q + 1)) (datum s') = xor_list (padded bs rnd (contents s)) K.
Proof.
  intros Hk Hn Hm bs Hc. assert (Bb := blocksize_bounds t). fold bs in Bb.
  set (c := cipher_info junk t m key n).
  assert (G : good_cipher c) by now apply good_cipher_info.
  assert (Hbs : blocksize c = bs) by apply blocksize_of.
  assert (Nb := nonce_is_block c G). replace (nonce c) with n in Nb by (symmetry; apply nonce_of).
  rewrite Hbs in Nb.
  assert (HE := gc_enc c G). rewrite Hbs in HE.
  set (KS := match m with CTRMode => map (fun j => encipher_block c (counter_block (contents n) j)) (seq 0 (q + 1))
             | _ => OFB_keystream (encipher_block c) (contents n) (q + 1) end).
  assert (FK : Forall (block_of bs) KS).
  { unfold KS. destruct Hm as [-> | ->]; [now apply counter_blocks|now apply keystream_blocks]. }
  assert (LK : length KS = (q + 1)%nat).
  { unfold KS, OFB_keystream. destruct Hm as [-> | ->]; now rewrite map_length, seq_length. }
  exists (concat KS). intros rnd s W Hb Hr Hq.
  destruct (padded_blocks bs rnd s Bb W Hb Hr) as [FP LP].
  assert (Hp : is_padded m = true) by (destruct Hm as [-> | ->]; reflexivity).
  assert (Hc' : counter_fits t m n (slen s)).
  { unfold counter_fits in *. intros M. specialize (Hc M). fold bs in Hc |- *. rewrite Hq.
    rewrite Nat.mul_comm, Nat.div_mul in Hc by lia. exact Hc. }
  assert (E := cipher_is_sp80038a junk t m key n rnd s Hk Hn W Hp Hc'). cbv zeta in E. fold c in E. fold bs in E.
  rewrite Hq in E, LP. eexists. split; [exact E|]. cbn [datum].
  assert (X : concat (sp80038a m (encipher_block c) (contents n) (chunks bs (padded bs rnd (contents s)))) =
              xor_list (padded bs rnd (contents s)) (concat KS)).
  { assert (EQ : sp80038a m (encipher_block c) (contents n) (chunks bs (padded bs rnd (contents s))) =
               map2 xor_list (chunks bs (padded bs rnd (contents s))) KS).
    { unfold KS. destruct Hm as [-> | ->]; cbn [sp80038a]; unfold CTR_encrypt, OFB_encrypt; now rewrite LP. }
    rewrite EQ, (concat_xor bs), concat_chunks; [reflexivity|lia| | |lia].
    - eapply Forall_impl; [|exact FP]. intros b Hb'. apply Hb'.
    - eapply Forall_impl; [|exact FK]. intros b Hb'. apply Hb'. }
  rewrite X. apply firstn_app_exact. rewrite xor_list_length.
  - rewrite padded_length, contents_length, pad_total, Hq by (auto; lia). reflexivity.
  - rewrite padded_length, contents_length, pad_total, Hq by (auto; lia).
    rewrite (concat_length bs), LK; [reflexivity|]. eapply Forall_impl; [|exact FK]. intros b Hb'. apply Hb'.
Qed.

(** concrete cases of the hypotheses *)
Definition example_nonce : StringInfo := mkSI (repeat 7%N 16 ++ repeat 0%N 128) 16.
Definition example_text : StringInfo := mkSI (repeat 65%N 21 ++ repeat 0%N 128) 21.
Example nonce_for_example : nonce_for AESCipher example_nonce.
Proof.
  repeat split.
  - unfold wf. cbn [slen datum example_nonce]. rewrite app_length, !repeat_length. unfold MaxCipherBlocksize. lia.
  - unfold contents. cbn. repeat constructor.
Qed.
Example wf_example : wf example_text /\ bytes (contents example_text).
Proof.
  split.
  - unfold wf. cbn [slen datum example_text]. rewrite app_length, !repeat_length. unfold MaxCipherBlocksize. lia.
  - unfold contents. cbn. repeat constructor.
Qed.
Example counter_fits_example : counter_fits AESCipher CTRMode example_nonce 21.
Proof. intros _. vm_compute. reflexivity. Qed.
Example cipher_round_trip_example :
  exists s', EncipherCipher (cipher_info 0 AESCipher CTRMode [1;2;3]%N example_nonce) (fun _ => 9%N) example_text = Ok s' /\
    firstn 21 (datum s') <> repeat 65%N 21 /\
    exists s'', DecipherCipher (cipher_info 0 AESCipher CTRMode [1;2;3]%N example_nonce) s' = Ok s'' /\
      contents s'' = repeat 65%N 21.
Proof.
  eexists. split; [vm_compute; reflexivity|]. split; [vm_compute; discriminate|].
  eexists. split; vm_compute; reflexivity.
Qed.

Print Assumptions cipher_round_trip_all.
Print Assumptions cipher_encipher_succeeds.
Print Assumptions cipher_acquired_round_trip.
Print Assumptions cipher_is_sp80038a.
Print Assumptions cipher_is_sp80038a_cfb8.
Print Assumptions cipher_padding.
Print Assumptions cipher_encipher_in_bounds.
Print Assumptions cipher_decipher_in_bounds.
Print Assumptions ctr_counters_distinct.
Print Assumptions cipher_region_round_trip.
Print Assumptions keystream_shared_refuted.
