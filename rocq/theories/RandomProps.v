(** Properties of wizard/random.c: C24, C25, C29, C69. *)
From Coq Require Import NArith Arith List Lia Bool ZifyBool ZifyNat ZifyN.
From Verif Require Import Base BaseLemmas Outcome HashModel HashSpec HashProof HashProps HmacModel HmacProps
  StringInfoModel StringInfoProof RandomModel RandomSpec RandomProof RandomProof2.
Import ListNotations.

Lemma set_string_zeros n m : set_string (repeat 0%N n) (repeat 0%N m) = repeat 0%N n.
Proof.
  unfold set_string. rewrite !repeat_length. destruct (Nat.le_ge_cases n m) as [L|L].
  - replace (n - m) with 0 by lia. rewrite app_nil_r. revert m L. induction n as [|n IH]; intros m L; [reflexivity|].
    destruct m; [lia|]. cbn. f_equal. apply IH. lia.
  - rewrite firstn_all2 by (rewrite repeat_length; lia). rewrite <- repeat_app. f_equal. lia.
Qed.

Section Run.
Variables (fuel : nat) (lsb : bool) (junk : list N).
Hypothesis Hjunk : length junk = 64.
Hypothesis Hfuel : 3 <= fuel.
Notation requests := (requests fuel lsb junk).

(** a generator whose HMAC object, whatever was done with it before, was keyed
    with [key], and whose reservoir is used up *)
Record ready (hash : HashType) (key : list N) (r : RandomInfo) : Prop := {
  y_history : exists j hist hm, Forall mop_bytes hist /\ mrun fuel lsb junk (AcquireHMACInfo j hash) hist = Some hm /\
    InitializeHMAC fuel lsb junk hm key = Some (r_hmac r);
  y_key : piece_ok key;
  y_nonce : r_nonce r <> [] /\ piece_ok (r_nonce r);
  y_reservoir : length (r_reservoir r) = GetHashDigestsize hash;
  y_index : r_i r = 0
}.

Lemma Initialize_nonce_bytes hash hm key hm' : hmac_ok lsb hash hm -> piece_ok key ->
  InitializeHMAC fuel lsb junk hm key = Some hm' -> start_ok lsb hash hm'.
Proof.
  intros O [Bk Lk] E. split; [exact (Initialize_ok fuel lsb junk hash hm key hm' O Bk E)|].
  assert (K : forall hi k0, bytes k0 -> ResetHMAC fuel lsb (mkHMACInfo hi (hm_digest hm) (map (fun b => N.lxor b 0x36) k0)
     (map (fun b => N.lxor b 0x5c) (set_string (hm_final_nonce hm) k0))) = Some hm' ->
     bytes (hm_initial_nonce hm') /\ bytes (hm_final_nonce hm')).
  { intros hi k0 B R. unfold ResetHMAC in R. cbn [hm_hash_info hm_initial_nonce hm_final_nonce] in R.
    destruct (InitializeHash hi) as [h1|]; [|discriminate]. destruct (UpdateHash fuel lsb h1 _) as [h2|]; [|discriminate].
    injection R as <-. cbn [hm_initial_nonce hm_final_nonce].
    split; apply lxor_bytes; try reflexivity; [exact B | now apply set_string_bytes]. }
  unfold InitializeHMAC in E. cbv zeta in E. rewrite repeat_length in E.
  destruct (length key <=? length (hm_initial_nonce hm)).
  - exact (K _ _ (set_string_bytes _ _ Bk) E).
  - destruct (InitializeHash (hm_hash_info hm)) as [h1|] eqn:E1; [|discriminate].
    destruct (UpdateHash fuel lsb h1 key) as [h2|] eqn:E2; [|discriminate].
    destruct (FinalizeHash fuel lsb junk h2) as [h3|] eqn:E3; [|discriminate].
    destruct (hash_total fuel lsb junk Hjunk Hfuel hash (hm_hash_info hm) [key]) as (h & R & _ & B).
    + apply (ok_hash _ _ _ O).
    + constructor; [now split | constructor].
    + cbn [concat]. rewrite app_nil_r. eapply N.lt_trans; [exact Lk | reflexivity].
    + cbn [HashModel.hrun map app HashModel.hstep] in R. rewrite E1, E2, E3 in R. injection R as ->.
      exact (K _ _ (set_string_bytes _ _ B) E).
Qed.
Lemma ready_start hash key r : ready hash key r -> start_ok lsb hash (r_hmac r).
Proof.
  intros [(j & hist & hm & B & R & E) K _ _ _].
  exact (Initialize_nonce_bytes hash hm key _ (hmac_ok_run fuel lsb junk hash hist B _ _ (AcquireHMAC_ok lsb j hash) R) K E).
Qed.
Lemma fits_0 n : n <> [] -> bytes n -> fits n 0 = true.
Proof.
  intros N0 B. unfold fits, counter, counter_limit. destruct n as [|b n]; [contradiction|]. cbn [tl length].
  inversion_clear B as [|? ? _ B']. rewrite N.add_0_r, be_val_le_val. replace (S (length n) - 1) with (length (rev n)) by (rewrite rev_length; lia).
  apply N.ltb_lt, le_val_bound. now apply Forall_rev.
Qed.
Lemma ready_inv hash key r : ready hash key r -> rinv fuel lsb junk hash (r_hmac r) (r_nonce r) r 0 0.
Proof.
  intros Y. pose proof (ready_start _ _ _ Y) as S. destruct Y as [_ _ [N0 [Bn Ln]] Lr I]. constructor.
  - split; [apply S | reflexivity | reflexivity].
  - symmetry. now apply nonce_at_0.
  - now apply fits_0.
  - exact Lr.
  - rewrite I. pose proof (digestsize_pos hash). lia.
  - rewrite I. reflexivity.
Qed.

(** C24 and C25, every hash type: one stream of blocks, fixed by the generator,
    of which every sequence of requests takes the next bytes; the nonces hashed
    are successive and distinct; and the sequence-wrap error is raised exactly
    when the counter has run out *)
Theorem random_stream_any_hash : forall hash key r, ready hash key r ->
  exists blocks : nat -> list N, (forall k, length (blocks k) = GetHashDigestsize hash) /\
  forall lens,
    let need := blocks_needed (GetHashDigestsize hash) (total lens) in
    if (counter (r_nonce r) + N.of_nat need <? counter_limit (r_nonce r))%N then
      exists r' outs, requests r lens = Done (r', outs, map (nonce_at (r_nonce r)) (seq 0 need)) /\
        map (@length N) outs = lens /\ concat outs = stream (GetHashDigestsize hash) blocks 0 (total lens) /\
        NoDup (map (nonce_at (r_nonce r)) (seq 0 need))
    else requests r lens = Wrap.
Proof.
  intros hash key r Y. pose proof (ready_start _ _ _ Y) as S. pose proof (y_nonce _ _ _ Y) as Hn.
  exists (blocks fuel lsb junk (r_hmac r) (r_nonce r)). split.
  { intros k. exact (blocks_length fuel lsb junk Hjunk Hfuel hash (r_hmac r) (r_nonce r) S Hn k). }
  intros lens. cbv zeta. pose proof (requests_spec fuel lsb junk Hjunk Hfuel hash (r_hmac r) (r_nonce r) S Hn lens r 0 0 (ready_inv _ _ _ Y)) as Q.
  cbv zeta in Q. cbn [Nat.add] in Q. unfold fits in Q. rewrite Nat.sub_0_r in Q. destruct (_ <? _)%N eqn:F; [|exact Q].
  destruct Q as (r' & outs & _ & L & C & ->). exists r', outs. split; [reflexivity|]. split; [exact L|]. split; [exact C|].
  apply N.ltb_lt in F. apply NoDup_nth with (d := []). intros i j Hi Hj E. rewrite map_length, seq_length in Hi, Hj.
  rewrite !(nth_indep _ [] (nonce_at (r_nonce r) 0)), !map_nth, !seq_nth in E by (rewrite ?map_length, ?seq_length; assumption).
  apply nonce_at_inj in E; lia.
Qed.

(** a keyed object computes the HMAC of its key *)
Lemma ready_hmac hash key r k : hash <> SHA2224Hash -> ready hash key r ->
  is_hmac (is_hash hash) (GetHashBlocksize hash) key (nonce_at (r_nonce r) k) (blocks fuel lsb junk (r_hmac r) (r_nonce r) k).
Proof.
  intros NE Y. pose proof (ready_start _ _ _ Y) as S. pose proof (y_nonce _ _ _ Y) as Hn.
  destruct (y_history _ _ _ Y) as (j & hist & hm & B & R & E).
  pose proof (nonce_piece (r_nonce r) Hn k) as P.
  destruct (ResetHMAC_ok fuel lsb junk Hjunk Hfuel hash j hist hm key [] (r_hmac r) [nonce_at (r_nonce r) k] NE B R (y_key _ _ _ Y)) as (hm' & R' & H).
  - constructor.
  - constructor.
  - cbn [HmacModel.mrun HmacModel.mstep]. now rewrite E.
  - split; [constructor; [exact P | constructor]|]. cbn [concat]. rewrite app_nil_r. destruct P as [_ P]. eapply N.lt_trans; [exact P | reflexivity].
  - cbn [concat] in H. rewrite app_nil_r in H. unfold blocks, digest_at, RandomModel.mac.
    cbn [map app HmacModel.mrun HmacModel.mstep] in R'.
    destruct (ResetHMAC fuel lsb (r_hmac r)) as [h1|]; [|discriminate].
    destruct (UpdateHMAC fuel lsb h1 _) as [h2|]; [|discriminate].
    destruct (FinalizeHMAC fuel lsb junk h2) as [h3|]; [|discriminate]. injection R' as <-. exact H.
Qed.

(** C24: and the blocks are the HMAC, as RFC 2104 defines it, of the successive
    nonces *)
Theorem random_stream : forall hash key r, hash <> SHA2224Hash -> ready hash key r ->
  exists blocks : nat -> list N,
  (forall k, is_hmac (is_hash hash) (GetHashBlocksize hash) key (nonce_at (r_nonce r) k) (blocks k)) /\
  (forall k, length (blocks k) = GetHashDigestsize hash) /\
  forall lens r' outs used, requests r lens = Done (r', outs, used) ->
    map (@length N) outs = lens /\ concat outs = stream (GetHashDigestsize hash) blocks 0 (total lens).
Proof.
  intros hash key r NE Y. pose proof (ready_start _ _ _ Y) as S. pose proof (y_nonce _ _ _ Y) as Hn.
  exists (blocks fuel lsb junk (r_hmac r) (r_nonce r)). split; [intros k; now apply ready_hmac|]. split.
  { intros k. exact (blocks_length fuel lsb junk Hjunk Hfuel hash (r_hmac r) (r_nonce r) S Hn k). }
  intros lens r' outs used E. pose proof (requests_spec fuel lsb junk Hjunk Hfuel hash (r_hmac r) (r_nonce r) S Hn lens r 0 0 (ready_inv _ _ _ Y)) as Q.
  cbv zeta in Q. cbn [Nat.add] in Q. destruct (fits _ _); [|congruence].
  destruct Q as (r1 & outs1 & _ & L & C & Q). rewrite E in Q. injection Q as <- <- _. now split.
Qed.

(** C25 *)
Theorem random_nonces_distinct : forall hash key r lens r' outs used, ready hash key r ->
  requests r lens = Done (r', outs, used) -> NoDup used.
Proof.
  intros hash key r lens r' outs used Y E. destruct (random_stream_any_hash hash key r Y) as (B & _ & Q). specialize (Q lens).
  cbv zeta in Q. destruct (_ <? _)%N; [|congruence]. destruct Q as (r1 & outs1 & Q & _ & _ & D). rewrite E in Q. injection Q as _ _ ->. exact D.
Qed.

(** ** the constructor *)
Lemma hmac_digest_kept hm key hm' : InitializeHMAC fuel lsb junk hm key = Some hm' -> hm_digest hm' = hm_digest hm.
Proof.
  unfold InitializeHMAC. cbv zeta. destruct (if _ <=? _ then _ else _) as [[hi initial]|]; [|discriminate].
  unfold ResetHMAC. cbn [hm_hash_info hm_initial_nonce]. destruct (InitializeHash hi) as [h1|]; [|discriminate].
  destruct (UpdateHash fuel lsb h1 _) as [h2|]; [|discriminate]. intros [= <-]. reflexivity.
Qed.
(** C29 (refuted): AcquireRandomInfo never finalizes the HMAC, so the nonce, the
    reservoir and what is saved on disk are zero bytes, whatever was gathered *)
Theorem saved_state_carries_no_entropy_refuted : forall hash timestamp chaos entropy r,
  seed_RandomInfo fuel lsb junk (fresh_RandomInfo junk hash timestamp) chaos entropy = Some r ->
  saved_entropy r = repeat 0%N (GetHashDigestsize hash) /\
  r_reservoir r = repeat 0%N (GetHashDigestsize hash) /\
  r_nonce r = repeat 0%N (2 * GetHashDigestsize hash).
Proof.
  intros hash ts chaos entropy r E. unfold seed_RandomInfo, fresh_RandomInfo in E. cbn [r_hmac r_nonce r_reservoir] in E.
  destruct (InitializeHMAC fuel lsb junk _ chaos) as [h1|] eqn:E1; [|discriminate].
  destruct (InitializeHMAC fuel lsb junk h1 entropy) as [h2|] eqn:E2; [|discriminate].
  pose proof (hmac_digest_kept _ _ _ E1) as D1. pose proof (hmac_digest_kept _ _ _ E2) as D2.
  cbn [AcquireHMACInfo hm_digest] in D1. rewrite D1 in D2. injection E as <-.
  cbn [saved_entropy r_hmac r_nonce r_reservoir]. unfold saved_entropy. cbn [r_hmac]. rewrite D2, D1, !set_string_zeros. auto.
Qed.

Lemma Initialize_total hash hm key : hmac_ok lsb hash hm -> piece_ok key ->
  exists hm', InitializeHMAC fuel lsb junk hm key = Some hm'.
Proof.
  intros O [Bk Lk].
  assert (Sm : forall h, hash_ok lsb hash h -> forall k0, length k0 = GetHashBlocksize hash -> bytes k0 -> forall D F, exists hm',
    ResetHMAC fuel lsb (mkHMACInfo h D (map (fun b => N.lxor b 0x36) k0) F) = Some hm').
  { intros h Oh k0 Lk0 Bk0 D F. destruct (hash_total fuel lsb junk Hjunk Hfuel hash h [map (fun b => N.lxor b 0x36) k0] Oh) as (h' & R & _).
    - constructor; [|constructor]. split; [now apply lxor_bytes|]. rewrite map_length, Lk0. apply blocksize_small.
    - cbn [concat]. rewrite app_nil_r, map_length, Lk0. eapply N.lt_trans; [apply blocksize_small | reflexivity].
    - cbn [HashModel.hrun map app HashModel.hstep] in R. unfold ResetHMAC. cbn [hm_hash_info hm_initial_nonce].
      destruct (InitializeHash h) as [h1|]; [|discriminate]. destruct (UpdateHash fuel lsb h1 _) as [h2|]; [|discriminate]. cbn. eauto. }
  unfold InitializeHMAC. cbv zeta. rewrite repeat_length. destruct (length key <=? length (hm_initial_nonce hm)).
  - apply Sm; [apply (ok_hash _ _ _ O) | rewrite set_string_length, repeat_length; apply (ok_initial _ _ _ O) | now apply set_string_bytes].
  - destruct (hash_total fuel lsb junk Hjunk Hfuel hash (hm_hash_info hm) [key]) as (h & R & Oh & B).
    + apply (ok_hash _ _ _ O).
    + constructor; [now split | constructor].
    + cbn [concat]. rewrite app_nil_r. eapply N.lt_trans; [exact Lk | reflexivity].
    + cbn [HashModel.hrun map app HashModel.hstep] in R.
      destruct (InitializeHash (hm_hash_info hm)) as [h1|]; [|discriminate].
      destruct (UpdateHash fuel lsb h1 key) as [h2|]; [|discriminate].
      destruct (FinalizeHash fuel lsb junk h2) as [h3|]; [|discriminate]. injection R as ->.
      apply Sm; [exact Oh | rewrite set_string_length, repeat_length; apply (ok_initial _ _ _ O) | now apply set_string_bytes].
Qed.

Lemma seed_ready hash ts chaos entropy : piece_ok chaos -> piece_ok entropy ->
  exists r, seed_RandomInfo fuel lsb junk (fresh_RandomInfo junk hash ts) chaos entropy = Some r /\ ready hash entropy r /\
    r_nonce r = repeat 0%N (2 * GetHashDigestsize hash).
Proof.
  intros Pc Pe. pose proof (AcquireHMAC_ok lsb junk hash) as O0.
  destruct (Initialize_total hash _ chaos O0 Pc) as (h1 & E1).
  pose proof (Initialize_ok fuel lsb junk hash _ chaos h1 O0 (proj1 Pc) E1) as O1.
  destruct (Initialize_total hash h1 entropy O1 Pe) as (h2 & E2).
  assert (Es : exists r, seed_RandomInfo fuel lsb junk (fresh_RandomInfo junk hash ts) chaos entropy = Some r /\ r_hmac r = h2 /\ r_i r = 0).
  { unfold seed_RandomInfo. unfold fresh_RandomInfo at 1. cbn [r_hmac]. rewrite E1, E2. eexists. split; [reflexivity|]. now split. }
  destruct Es as (r & Es & Eh & Ei). exists r. split; [exact Es|].
  destruct (saved_state_carries_no_entropy_refuted hash ts chaos entropy r Es) as (_ & Er & En).
  split; [|exact En]. pose proof (digestsize_pos hash) as Dp. constructor.
  - exists junk, [MInit chaos], h1. split; [constructor; [exact (proj1 Pc) | constructor]|].
    cbn [HmacModel.mrun HmacModel.mstep]. rewrite E1, Eh. now split.
  - exact Pe.
  - rewrite En. split; [destruct (GetHashDigestsize hash); [lia | discriminate]|].
    split; [apply repeat0_bytes|]. rewrite repeat_length. pose proof (digest_le_block hash).
    assert (GetHashBlocksize hash <= 128) by (destruct hash; cbn; lia).
    apply N.le_lt_trans with 256%N; [lia | reflexivity].
  - rewrite Er. apply repeat_length.
  - exact Ei.
Qed.

(** C24, for the generators AcquireRandomInfo makes: the bytes are those of one
    stream keyed by the second batch of entropy, from 32 on when the first 32
    went into the seed.  The first batch has no influence on them. *)
Theorem acquired_stream : forall hash timestamp chaos entropy secret_key r,
  hash <> SHA2224Hash -> piece_ok chaos -> piece_ok entropy ->
  AcquireRandomInfo fuel lsb junk hash timestamp chaos entropy secret_key true = Done (Some r) ->
  let n0 := repeat 0%N (2 * GetHashDigestsize hash) in
  exists blocks : nat -> list N,
  (forall k, is_hmac (is_hash hash) (GetHashBlocksize hash) entropy (nonce_at n0 k) (blocks k)) /\
  forall lens r' outs used, requests r lens = Done (r', outs, used) ->
    concat outs = stream (GetHashDigestsize hash) blocks (match secret_key with None => 32 | Some _ => 0 end) (total lens).
Proof.
  intros hash ts chaos entropy secret r NE Pc Pe E n0.
  destruct (seed_ready hash ts chaos entropy Pc Pe) as (r0 & Es & Y & En).
  unfold AcquireRandomInfo in E. rewrite Es in E. pose proof (ready_start _ _ _ Y) as S. pose proof (y_nonce _ _ _ Y) as Hn.
  exists (blocks fuel lsb junk (r_hmac r0) (r_nonce r0)). split.
  { intros k. unfold n0. rewrite <- En. now apply ready_hmac. }
  intros lens r' outs used Q.
  assert (V : exists k, rinv fuel lsb junk hash (r_hmac r0) (r_nonce r0) r k (match secret with None => 32 | Some _ => 0 end)).
  { pose proof (ready_inv _ _ _ Y) as V0. unfold finish_seed in E. destruct secret as [sk|].
    - destruct (HashModel.hrun _ _ _ _ _) as [hi|]; [|discriminate]. injection E as <-. exists 0. destruct V0. now constructor.
    - pose proof (SetRandomKey_spec fuel lsb junk Hjunk Hfuel hash (r_hmac r0) (r_nonce r0) S Hn r0 0 0 32 V0) as K. cbv zeta in K.
      destruct (fits _ _) in K; [|rewrite K in E; discriminate]. destruct K as (r1 & V1 & _ & K). rewrite K in E. injection E as <-.
      eexists. destruct V1. constructor; eassumption. }
  destruct V as (k & V).
  pose proof (requests_spec fuel lsb junk Hjunk Hfuel hash (r_hmac r0) (r_nonce r0) S Hn lens r k _ V) as K. cbv zeta in K.
  destruct (fits _ _) in K; [|congruence]. destruct K as (r1 & outs1 & _ & _ & C & K). rewrite Q in K. injection K as <- <- _. exact C.
Qed.

(** C29 (refuted), the other half: what was gathered first does not influence a
    single byte of the stream *)
Theorem first_entropy_unused_refuted : forall hash timestamp chaos chaos' entropy secret_key r r' lens r1 r1' outs outs' used used',
  hash <> SHA2224Hash -> piece_ok chaos -> piece_ok chaos' -> piece_ok entropy ->
  AcquireRandomInfo fuel lsb junk hash timestamp chaos entropy secret_key true = Done (Some r) ->
  AcquireRandomInfo fuel lsb junk hash timestamp chaos' entropy secret_key true = Done (Some r') ->
  requests r lens = Done (r1, outs, used) -> requests r' lens = Done (r1', outs', used') ->
  concat outs = concat outs'.
Proof.
  intros hash ts chaos chaos' entropy secret r r' lens r1 r1' outs outs' used used' NE P P' Pe A A' Q Q'.
  destruct (acquired_stream hash ts chaos entropy secret r NE P Pe A) as (B & H & S).
  destruct (acquired_stream hash ts chaos' entropy secret r' NE P' Pe A') as (B' & H' & S').
  rewrite (S _ _ _ _ Q), (S' _ _ _ _ Q'). unfold stream. apply map_ext. intros j. unfold stream_byte.
  f_equal. exact (is_hmac_unique _ _ _ _ _ (H _) (H' _)).
Qed.
End Run.

(** Example: requests of 3, 0, 40 and 1 bytes from an MD5 generator make one
    stream of 44 bytes over three blocks *)
Definition ex_generator : rres (option RandomInfo) :=
  AcquireRandomInfo 3 true (repeat 0%N 64) MD5Hash 1 [1; 2; 3]%N [4; 5]%N (Some [1; 0; 0; 0; 0; 0; 0; 0]%N) true.
Example random_stream_ex :
  match ex_generator with
  | Done (Some r) =>
      match requests 3 true (repeat 0%N 64) r [3; 0; 40; 1], requests 3 true (repeat 0%N 64) r [44] with
      | Done (_, outs, used), Done (_, [out], used') =>
          (if list_eq_dec N.eq_dec (concat outs) out then true else false) && (length used =? 3) && (length used' =? 3)
      | _, _ => false
      end
  | _ => false
  end = true.
Proof. vm_compute. reflexivity. Qed.
(** a counter one step from its end *)
Example random_wrap_ex :
  match ex_generator with
  | Done (Some r) =>
      let r := mkRandomInfo (r_hmac r) [7; 255; 254]%N (r_reservoir r) 0 [] 1 1 0 in
      match requests 3 true (repeat 0%N 64) r [16], requests 3 true (repeat 0%N 64) r [16; 1] with
      | Done (_, _, used), Wrap => length used =? 1
      | _, _ => false
      end
  | _ => false
  end = true.
Proof. vm_compute. reflexivity. Qed.

(** ** C69 (refuted): ConcatenateStringInfo puts its source behind the new length,
    so that the last chunk gathered, the 64 bytes of /dev/urandom, is not part of
    the entropy *)
Theorem random_device_dropped_refuted : forall jnk reservoir chunks u u' e e', slen u = slen u' ->
  GenerateEntropicChaos jnk reservoir None (chunks ++ [u]) = Ok e ->
  GenerateEntropicChaos jnk reservoir None (chunks ++ [u']) = Ok e' -> contents e = contents e'.
Proof.
  intros jnk reservoir chunks u u' e e' L. unfold GenerateEntropicChaos. rewrite !fold_outcome_app.
  destruct (fold_outcome _ chunks _) as [s| |]; try discriminate. cbn [bind fold_outcome].
  intros A B. unfold ConcatenateStringInfo in A, B. rewrite <- L in B.
  set (d := mem_resize jnk (datum s) _) in *. set (n := slen s + slen u) in *.
  destruct (mem_read (datum u) 0 (slen u)) as [x| |]; try discriminate. destruct (mem_read (datum u') 0 (slen u)) as [y| |]; try discriminate.
  cbn [bind] in A, B. unfold mem_write in A, B.
  destruct (Nat.leb_spec (n + length x) (length d)); try discriminate. destruct (Nat.leb_spec (n + length y) (length d)); try discriminate.
  cbn [bind] in A, B. injection A as <-. injection B as <-. unfold contents. cbn [slen datum]. unfold splice.
  rewrite !firstn_app, !firstn_firstn, firstn_length, Nat.min_id, (Nat.min_l n) by lia. rewrite Nat.sub_diag. reflexivity.
Qed.
(** with getentropy() the 64 bytes are the entropy *)
Lemma SetStringInfoDatum_contents s b : slen s = length b -> slen s <> 0 -> slen s <= length (datum s) ->
  exists e, SetStringInfoDatum s b = Ok e /\ contents e = b.
Proof.
  intros L Z D. unfold SetStringInfoDatum. destruct (Nat.eqb_spec (slen s) 0); [contradiction|].
  unfold mem_read. rewrite L. cbn [Nat.add]. rewrite Nat.leb_refl. cbn [bind]. unfold slice. cbn [skipn]. rewrite firstn_all.
  unfold mem_write. cbn [Nat.add]. destruct (Nat.leb_spec (length b) (length (datum s))); [|lia]. cbn [bind]. eexists. split; [reflexivity|].
  unfold contents. cbn [slen datum]. unfold splice. cbn [firstn app]. now rewrite firstn_app, Nat.sub_diag, firstn_O, app_nil_r, firstn_all.
Qed.
Theorem getentropy_used : forall jnk reservoir bytes chunks, length bytes = 64 ->
  exists e, GenerateEntropicChaos jnk reservoir (Some bytes) chunks = Ok e /\ contents e = bytes.
Proof.
  intros jnk reservoir b chunks L. unfold GenerateEntropicChaos. apply SetStringInfoDatum_contents; cbn [SetStringInfoLength slen datum].
  - now symmetry.
  - discriminate.
  - rewrite mem_resize_length. lia.
Qed.
Example random_device_dropped_ex :
  let z := fun _ : nat => 0%N in
  let env := BlobToStringInfo [65; 61; 66]%N in
  match GenerateEntropicChaos z None None [env; BlobToStringInfo (repeat 1%N 64)],
        GenerateEntropicChaos z None None [env; BlobToStringInfo (repeat 2%N 64)] with
  | Ok e, Ok e' => (slen e =? 67) && (if list_eq_dec N.eq_dec (contents e) (contents e') then true else false)
  | _, _ => false
  end = true.
Proof. vm_compute. reflexivity. Qed.

Print Assumptions random_stream_any_hash.
Print Assumptions random_stream.
Print Assumptions random_nonces_distinct.
Print Assumptions saved_state_carries_no_entropy_refuted.
Print Assumptions acquired_stream.
Print Assumptions random_device_dropped_refuted.
Print Assumptions getentropy_used.
Print Assumptions first_entropy_unused_refuted.
