(** Key schedule and block function of wizard/twofish.c against the Twofish paper. *)
From Coq Require Import Arith NArith List Lia.
From Verif Require Import Base BaseLemmas PackLemmas Mem32 TwofishModel TwofishSpec TwofishProof TwofishProof2.
Import ListNotations.
Local Open Scope N_scope.

Lemma dot_byte m row v : modulus m -> bytes row -> dot m row v < 256.
Proof.
  intros Hm Hr. unfold dot. revert v. induction Hr; intros v; cbn [combine fold_right]; [lia|].
  destruct v; cbn [combine fold_right fst snd]; [lia|]. apply byte_lxor; auto using gmul_byte.
Qed.
Lemma mds_bytes v : bytes (mat_vec 0x169 MDS v).
Proof.
  unfold mat_vec. apply Forall_forall. intros x Hx. apply in_map_iff in Hx as (row & <- & Hr).
  apply dot_byte; [apply mod169|].
  repeat (destruct Hr as [<-|Hr]; [repeat constructor|]). destruct Hr.
Qed.
Lemma rs_bytes v : bytes (mat_vec 0x14d RS v).
Proof.
  unfold mat_vec. apply Forall_forall. intros x Hx. apply in_map_iff in Hx as (row & <- & Hr).
  apply dot_byte; [apply mod14d|].
  repeat (destruct Hr as [<-|Hr]; [repeat constructor|]). destruct Hr.
Qed.
Lemma h_word X L : word 32 (h X L).
Proof. unfold h. apply le_val_list_word; [apply mds_bytes|reflexivity]. Qed.

Lemma key_pair_spec A B : word 32 A -> word 32 B ->
  key_pair A B = [(A + rotl 32 B 8) mod 2 ^ 32; rotl 32 ((A + 2 * rotl 32 B 8) mod 2 ^ 32) 9].
Proof.
  intros HA HB. unfold key_pair. rewrite (rol_rotl 8 B) by (auto; lia).
  set (B' := rotl 32 B 8). rewrite rol_rotl by (auto using word_wadd; lia).
  assert (wadd 32 B' (wadd 32 A B') = (A + 2 * B') mod 2 ^ 32) as ->; [|reflexivity].
  unfold wadd, wrap. rewrite N.add_mod_idemp_r by discriminate.
  now replace (B' + (A + B')) with (A + 2 * B') by lia.
Qed.

Definition consts (i : nat) : quad :=
  (perm0 (N.of_nat (2 * i)), perm1 (N.of_nat (2 * i)), perm0 (N.of_nat (2 * i + 1)), perm1 (N.of_nat (2 * i + 1))).
Lemma key_constants_spec : key_constants = map consts (seq 0 20).
Proof. vm_compute. reflexivity. Qed.

Lemma subkeys_spec K key k : (forall i, (i < 20)%nat -> K (consts i) = expanded_pair key k i) ->
  subkeys K = expanded_key key k.
Proof.
  intros H. unfold subkeys, expanded_key. rewrite key_constants_spec.
  rewrite flat_map_concat_map, map_map, flat_map_concat_map. f_equal. apply map_ext_in.
  intros i Hi. apply in_seq in Hi. apply H. lia.
Qed.

Lemma small_index i : (i < 20)%nat -> N.of_nat (2 * i) < 256 /\ N.of_nat (2 * i + 1) < 256.
Proof. lia. Qed.

Ltac split_bytes :=
  repeat match goal with H : bytes (_ :: _) |- _ => inversion H; clear H; subst
                       | H : Forall _ (_ :: _) |- _ => inversion H; clear H; subst end.
Ltac bl := repeat constructor; assumption.

Lemma K128_spec key i : bytes key -> length key = 16%nat -> (i < 20)%nat ->
  K128 (crypt_key key) (consts i) = expanded_pair key 2 i.
Proof.
  intros Hk L Hi. destruct (small_index i Hi).
  do 16 (destruct key as [|? key]; [discriminate|]). destruct key; [|discriminate].
  unfold K128, consts, expanded_pair, key_words. 
  match goal with |- context [chunks 4 ?l] => let c := eval cbv in (chunks 4 l) in change (chunks 4 l) with c end.
  unfold nth_words. cbn [seq map Nat.mul Nat.add nth repeat].
  split_bytes.
  rewrite !h2 by bl.
  unfold crypt_key. cbn [firstn length Nat.ltb Nat.leb app Nat.sub repeat].
  unfold Q128, get. cbn [nth Nat.add].
  apply key_pair_spec.
  - rewrite <- (h2 (N.of_nat (2 * i)) (N.of_nat (2 * i)) (N.of_nat (2 * i)) (N.of_nat (2 * i))) by bl. apply h_word.
  - rewrite <- (h2 (N.of_nat (2 * i + 1)) (N.of_nat (2 * i + 1)) (N.of_nat (2 * i + 1)) (N.of_nat (2 * i + 1))) by bl. apply h_word.
Qed.
Lemma K192_spec key i : bytes key -> length key = 24%nat -> (i < 20)%nat ->
  K192 (crypt_key key) (consts i) = expanded_pair key 3 i.
Proof.
  intros Hk L Hi. destruct (small_index i Hi).
  do 24 (destruct key as [|? key]; [discriminate|]). destruct key; [|discriminate].
  unfold K192, consts, expanded_pair, key_words.
  match goal with |- context [chunks 4 ?l] => let c := eval cbv in (chunks 4 l) in change (chunks 4 l) with c end.
  unfold nth_words. cbn [seq map Nat.mul Nat.add nth repeat].
  split_bytes.
  rewrite !h3 by bl.
  unfold crypt_key. cbn [firstn length Nat.ltb Nat.leb app Nat.sub repeat].
  unfold Q192, Q128, get. cbn [nth Nat.add].
  apply key_pair_spec.
  - rewrite <- (h3 (N.of_nat (2 * i)) (N.of_nat (2 * i)) (N.of_nat (2 * i)) (N.of_nat (2 * i))) by bl. apply h_word.
  - rewrite <- (h3 (N.of_nat (2 * i + 1)) (N.of_nat (2 * i + 1)) (N.of_nat (2 * i + 1)) (N.of_nat (2 * i + 1))) by bl. apply h_word.
Qed.

Lemma K256_spec key i : bytes key -> length key = 32%nat -> (i < 20)%nat ->
  K256 (crypt_key key) (consts i) = expanded_pair key 4 i.
Proof.
  intros Hk L Hi. destruct (small_index i Hi).
  do 32 (destruct key as [|? key]; [discriminate|]). destruct key; [|discriminate].
  unfold K256, consts, expanded_pair, key_words.
  match goal with |- context [chunks 4 ?l] => let c := eval cbv in (chunks 4 l) in change (chunks 4 l) with c end.
  unfold nth_words. cbn [seq map Nat.mul Nat.add nth repeat].
  split_bytes.
  rewrite !h4 by bl.
  unfold crypt_key. cbn [firstn length Nat.ltb Nat.leb app Nat.sub repeat].
  unfold Q256, Q192, Q128, get. cbn [nth Nat.add].
  apply key_pair_spec.
  - rewrite <- (h4 (N.of_nat (2 * i)) (N.of_nat (2 * i)) (N.of_nat (2 * i)) (N.of_nat (2 * i))) by bl. apply h_word.
  - rewrite <- (h4 (N.of_nat (2 * i + 1)) (N.of_nat (2 * i + 1)) (N.of_nat (2 * i + 1)) (N.of_nat (2 * i + 1))) by bl. apply h_word.
Qed.

(** ** S-boxes *)
Lemma sbox_row (f : N -> N -> N) x : x < 256 ->
  tab (map (fun i => f (tab sbox_table (2 * N.of_nat i)) (tab sbox_table (2 * N.of_nat i + 1))) (seq 0 256)) x =
  f (perm0 x) (perm1 x).
Proof.
  intros Hx. unfold tab at 1.
  set (F := fun i : nat => _). rewrite (nth_indep _ 0 (F 0%nat)) by (rewrite map_length, seq_length; lia).
  rewrite map_nth, seq_nth by lia. subst F. cbn beta. rewrite Nat.add_0_l, N2Nat.id.
  destruct (sbox_table_perm x Hx) as [-> ->]. reflexivity.
Qed.

Lemma G1_rows f0 f1 f2 f3 x0 x1 x2 x3 : x0 < 256 -> x1 < 256 -> x2 < 256 -> x3 < 256 ->
  G1 (sbox_rows f0 f1 f2 f3) (le_val [x0; x1; x2; x3]) =
  N.lxor (N.lxor (N.lxor (f0 (perm0 x0) (perm1 x0)) (f1 (perm0 x1) (perm1 x1)))
    (f2 (perm0 x2) (perm1 x2))) (f3 (perm0 x3) (perm1 x3)).
Proof.
  intros H0 H1 H2 H3. unfold G1, sbox_rows.
  assert (bytes [x0; x1; x2; x3]) as B by bl.
  pose proof (byte_le_val [x0; x1; x2; x3] 0 B) as E0.
  pose proof (byte_le_val [x0; x1; x2; x3] 1 B) as E1.
  pose proof (byte_le_val [x0; x1; x2; x3] 2 B) as E2.
  pose proof (byte_le_val [x0; x1; x2; x3] 3 B) as E3.
  cbn [nth] in *.
  change (8 * N.of_nat 0) with 0 in E0. change (8 * N.of_nat 1) with 8 in E1.
  change (8 * N.of_nat 2) with 16 in E2. change (8 * N.of_nat 3) with 24 in E3.
  rewrite N.shiftr_0_r in E0.
  rewrite (land_byte_255 (N.shiftr (le_val [x0; x1; x2; x3]) 24)) in E3.
  2:{ rewrite N.shiftr_div_pow2. apply N.div_lt_upper_bound; [discriminate|].
      pose proof (le_val_list_word _ B eq_refl) as W. unfold word in W. exact W. }
  rewrite E0, E1, E2, E3. cbn [map nth]. rewrite !sbox_row by auto. reflexivity.
Qed.

(** G2 x is G1 of x rotated left by eight bits *)
Lemma rotl8 x0 x1 x2 x3 : x0 < 256 -> x1 < 256 -> x2 < 256 -> x3 < 256 ->
  rotl 32 (le_val [x0; x1; x2; x3]) 8 = le_val [x3; x0; x1; x2].
Proof.
  intros. assert (bytes [x0; x1; x2; x3]) as B by bl. pose proof (le_val_list_word _ B eq_refl) as W.
  unfold rotl. change (32 - 8) with 24.
  assert (N.shiftr (le_val [x0; x1; x2; x3]) 24 = x3) as ->.
  { rewrite N.shiftr_div_pow2. change (2 ^ 24) with 16777216. rewrite le_val4. symmetry.
    apply (N.div_unique _ _ x3 (x0 + 256 * x1 + 65536 * x2)); lia. }
  assert (wshl 32 (le_val [x0; x1; x2; x3]) 8 = N.shiftl (le_val [x0; x1; x2; 0]) 8) as ->.
  { unfold wshl, wrap. rewrite !N.shiftl_mul_pow2. change (2 ^ 8) with 256. change (2 ^ 32) with 4294967296.
    rewrite !le_val4. symmetry. apply (N.mod_unique _ _ x3); lia. }
  rewrite N.lor_comm, lor_add_disjoint by (now apply word8). change (2 ^ 8) with 256. rewrite !le_val4. lia.
Qed.
Lemma G2_G1 sb x0 x1 x2 x3 : x0 < 256 -> x1 < 256 -> x2 < 256 -> x3 < 256 ->
  G2 sb (le_val [x0; x1; x2; x3]) = G1 sb (le_val [x3; x0; x1; x2]).
Proof.
  intros H0 H1 H2 H3. unfold G1, G2.
  assert (bytes [x0; x1; x2; x3] /\ bytes [x3; x0; x1; x2]) as [B B'] by (split; bl).
  assert (forall l, bytes l -> length l = 4%nat -> 
    N.land (le_val l) 0xff = nth 0 l 0 /\ N.land (N.shiftr (le_val l) 8) 0xff = nth 1 l 0 /\
    N.land (N.shiftr (le_val l) 16) 0xff = nth 2 l 0 /\ N.shiftr (le_val l) 24 = nth 3 l 0) as E.
  { intros l Bl Ll. pose proof (le_val_list_word _ Bl Ll) as W.
    pose proof (byte_le_val l 0 Bl) as E0. pose proof (byte_le_val l 1 Bl) as E1.
    pose proof (byte_le_val l 2 Bl) as E2. pose proof (byte_le_val l 3 Bl) as E3.
    change (8 * N.of_nat 0) with 0 in E0. change (8 * N.of_nat 1) with 8 in E1.
    change (8 * N.of_nat 2) with 16 in E2. change (8 * N.of_nat 3) with 24 in E3.
    rewrite N.shiftr_0_r in E0. rewrite land_byte_255 in E3.
    - auto.
    - rewrite N.shiftr_div_pow2. apply N.div_lt_upper_bound; [discriminate|]. exact W. }
  destruct (E _ B eq_refl) as (-> & -> & -> & ->). destruct (E _ B' eq_refl) as (-> & -> & -> & ->).
  cbn [nth].
  set (a := tab _ x0). set (b := tab _ x1). set (c := tab _ x2). set (d := tab _ x3).
  apply N.bits_inj. intros n. rewrite !N.lxor_spec.
  destruct (N.testbit a n), (N.testbit b n), (N.testbit c n), (N.testbit d n); reflexivity.
Qed.

Lemma word_bytes4 x : word 32 x -> exists a b c d, le_bytes 4 x = [a; b; c; d] /\ x = le_val [a; b; c; d] /\
  a < 256 /\ b < 256 /\ c < 256 /\ d < 256.
Proof.
  intros W. pose proof (word_le_bytes4 x W) as E. pose proof (le_bytes_bytes 4 x) as B.
  destruct (le_bytes 4 x) as [|a [|b [|c [|d [|]]]]] eqn:El; try discriminate El.
  split_bytes. exists a, b, c, d. auto 10.
Qed.

(** a key schedule as the paper demands *)
Definition paper_schedule (t : TwofishInfo) (key : list N) (k : nat) : Prop :=
  tf_w t ++ tf_k t = expanded_key key k /\ length (tf_w t) = 8%nat /\
  (forall x, word 32 x -> G1 (tf_sbox t) x = g (S_vector key k) x) /\
  (forall x, word 32 x -> G2 (tf_sbox t) x = g (S_vector key k) (rotl 32 x 8)).

Lemma g2_of_g1 sb key k : (forall x, word 32 x -> G1 sb x = g (S_vector key k) x) ->
  forall x, word 32 x -> G2 sb x = g (S_vector key k) (rotl 32 x 8).
Proof.
  intros H x Hx. destruct (word_bytes4 x Hx) as (a & b & c & d & _ & -> & Ha & Hb & Hc & Hd).
  rewrite G2_G1, rotl8 by auto. apply H. apply le_val_list_word; [bl|reflexivity].
Qed.

Lemma quad_bytes q l : quad_list q = l -> bytes l -> let '(a, b, c, d) := q in
  bytes [a; b; c; d] /\ l = [a; b; c; d].
Proof. destruct q as [[[a b] c] d]. cbn. intros <- H. auto. Qed.

Lemma group_of key base : bytes key -> (base + 8 <= length key <= 32)%nat ->
  let '(a, b, c, d) := sbox_group (crypt_key key) base in
  bytes [a; b; c; d] /\ mat_vec 0x14d RS (slice key base 8) = [a; b; c; d].
Proof.
  intros Hk Hb. 
  assert (bytes (crypt_key key) /\ (base + 8 <= length (crypt_key key))%nat /\ slice (crypt_key key) base 8 = slice key base 8) as (B & L & E).
  { unfold crypt_key. rewrite firstn_all2 by lia. destruct (Nat.ltb_spec (length key) 32).
    - split; [|split].
      + apply bytes_app. split; auto. constructor; [lia|]. apply Forall_forall. intros x Hx. apply repeat_spec in Hx. lia.
      + rewrite app_length. lia.
      + unfold slice. rewrite skipn_app, firstn_app. replace (8 - length (skipn base key))%nat with 0%nat by (rewrite skipn_length; lia).
        cbn [firstn]. apply app_nil_r.
    - split; [auto|split; [lia|reflexivity]]. }
  apply quad_bytes; [|apply rs_bytes]. rewrite sbox_group_spec by auto. now rewrite E.
Qed.

Lemma expanded_key_length key k : length (expanded_key key k) = 40%nat.
Proof. reflexivity. Qed.

Lemma split_w (ks : list N) : length ks = 40%nat -> firstn 8 ks ++ skipn 8 ks = ks /\ length (firstn 8 ks) = 8%nat.
Proof. intros L. rewrite firstn_skipn, firstn_length, L. auto. Qed.

Lemma schedule_128 key : bytes key -> length key = 16%nat -> paper_schedule (SetTwofishKey key) key 2.
Proof.
  intros Hk L. unfold SetTwofishKey. rewrite L.
  pose proof (group_of key 0 Hk ltac:(lia)) as G0. pose proof (group_of key 8 Hk ltac:(lia)) as G8.
  destruct (sbox_group (crypt_key key) 0) as [[[s0 s1] s2] s3]. destruct (sbox_group (crypt_key key) 8) as [[[s4 s5] s6] s7].
  destruct G0 as [B0 E0]. destruct G8 as [B8 E8].
  cbn [Nat.mul Nat.add Nat.leb]. unfold paper_schedule. cbn [tf_w tf_k tf_sbox].
  assert (subkeys (K128 (crypt_key key)) = expanded_key key 2) as -> by (apply subkeys_spec; intros; now apply K128_spec).
  destruct (split_w (expanded_key key 2) eq_refl) as [-> ->].
  split; [reflexivity|split; [reflexivity|]].
  match goal with |- ?P /\ _ => assert P as HP; [|split; [exact HP|now apply g2_of_g1]] end.
  intros x Hx. destruct (word_bytes4 x Hx) as (a & b & c & d & Eb & Ex & Ha & Hb & Hc & Hd).
  unfold g. rewrite Eb, Ex, G1_rows by auto.
  unfold S_vector. cbn [seq map rev app Nat.mul Nat.add]. rewrite E0, E8.
  rewrite h2 by (auto; bl). reflexivity.
Qed.
Lemma schedule_192 key : bytes key -> length key = 24%nat -> paper_schedule (SetTwofishKey key) key 3.
Proof.
  intros Hk L. unfold SetTwofishKey. rewrite L.
  pose proof (group_of key 0 Hk ltac:(lia)) as G0. pose proof (group_of key 8 Hk ltac:(lia)) as G8.
  pose proof (group_of key 16 Hk ltac:(lia)) as G16.
  destruct (sbox_group (crypt_key key) 0) as [[[s0 s1] s2] s3]. destruct (sbox_group (crypt_key key) 8) as [[[s4 s5] s6] s7].
  destruct (sbox_group (crypt_key key) 16) as [[[s8 s9] s10] s11].
  destruct G0 as [B0 E0]. destruct G8 as [B8 E8]. destruct G16 as [B16 E16].
  cbn [Nat.mul Nat.add Nat.leb]. unfold paper_schedule. cbn [tf_w tf_k tf_sbox].
  assert (subkeys (K192 (crypt_key key)) = expanded_key key 3) as -> by (apply subkeys_spec; intros; now apply K192_spec).
  destruct (split_w (expanded_key key 3) eq_refl) as [-> ->].
  split; [reflexivity|split; [reflexivity|]].
  match goal with |- ?P /\ _ => assert P as HP; [|split; [exact HP|now apply g2_of_g1]] end.
  intros x Hx. destruct (word_bytes4 x Hx) as (a & b & c & d & Eb & Ex & Ha & Hb & Hc & Hd).
  unfold g. rewrite Eb, Ex, G1_rows by auto.
  unfold S_vector. cbn [seq map rev app Nat.mul Nat.add]. rewrite E0, E8, E16.
  rewrite h3 by (auto; bl). reflexivity.
Qed.
Lemma schedule_256 key : bytes key -> length key = 32%nat -> paper_schedule (SetTwofishKey key) key 4.
Proof.
  intros Hk L. unfold SetTwofishKey. rewrite L.
  pose proof (group_of key 0 Hk ltac:(lia)) as G0. pose proof (group_of key 8 Hk ltac:(lia)) as G8.
  pose proof (group_of key 16 Hk ltac:(lia)) as G16. pose proof (group_of key 24 Hk ltac:(lia)) as G24.
  destruct (sbox_group (crypt_key key) 0) as [[[s0 s1] s2] s3]. destruct (sbox_group (crypt_key key) 8) as [[[s4 s5] s6] s7].
  destruct (sbox_group (crypt_key key) 16) as [[[s8 s9] s10] s11]. destruct (sbox_group (crypt_key key) 24) as [[[s12 s13] s14] s15].
  destruct G0 as [B0 E0]. destruct G8 as [B8 E8]. destruct G16 as [B16 E16]. destruct G24 as [B24 E24].
  cbn [Nat.mul Nat.add Nat.leb]. unfold paper_schedule. cbn [tf_w tf_k tf_sbox].
  assert (subkeys (K256 (crypt_key key)) = expanded_key key 4) as -> by (apply subkeys_spec; intros; now apply K256_spec).
  destruct (split_w (expanded_key key 4) eq_refl) as [-> ->].
  split; [reflexivity|split; [reflexivity|]].
  match goal with |- ?P /\ _ => assert P as HP; [|split; [exact HP|now apply g2_of_g1]] end.
  intros x Hx. destruct (word_bytes4 x Hx) as (a & b & c & d & Eb & Ex & Ha & Hb & Hc & Hd).
  unfold g. rewrite Eb, Ex, G1_rows by auto.
  unfold S_vector. cbn [seq map rev app Nat.mul Nat.add]. rewrite E0, E8, E16, E24.
  rewrite h4 by (auto; bl). reflexivity.
Qed.

(** ** Rounds *)
Lemma round_spec t key k r s : paper_schedule t key k -> wquad s ->
  TwofishSpec.round (S_vector key k) (expanded_key key k) s r = flip (EncipherRound t r s).
Proof.
  intros (EK & Lw & H1 & H2). destruct s as [[[a b] c] d]. intros (Ha & Hb & Hc & Hd).
  unfold TwofishSpec.round, F, EncipherRound, flip. rewrite <- H1, <- H2 by auto.
  assert (forall j, get (expanded_key key k) (j + 8) = get (tf_k t) j) as EG.
  { intros j. rewrite <- EK. unfold get. rewrite app_nth2 by lia. f_equal. lia. }
  replace (2 * r + 9)%nat with ((2 * r + 1) + 8)%nat by lia. rewrite !EG.
  rewrite rol_rotl by (auto; lia). rewrite ror_rotr by (auto using word_lxor, word_wadd; lia).
  unfold wadd, wrap. set (x := G1 _ _). set (y := G2 _ _).
  rewrite N.add_mod_idemp_l by discriminate.
  rewrite (N.add_mod_idemp_l (x + y)), N.add_mod_idemp_r by discriminate.
  now replace (y + (x + y + get (tf_k t) (2 * r + 1))) with (x + 2 * y + get (tf_k t) (2 * r + 1)) by lia.
Qed.

Lemma swapped_flip f r : swapped f r = flip (f (flip r)).
Proof. destruct r as [[[a b] c] d]. cbn [flip swapped]. now destruct (f (c, d, a, b)) as [[[? ?] ?] ?]. Qed.

Lemma rounds_spec t key k s : paper_schedule t key k -> wquad s ->
  fold_left (TwofishSpec.round (S_vector key k) (expanded_key key k)) (seq 0 16) s = encipher_rounds t s.
Proof.
  intros H. unfold encipher_rounds.
  assert (forall n b s, wquad s ->
    fold_left (TwofishSpec.round (S_vector key k) (expanded_key key k)) (seq (2 * b) (2 * n)) s =
    fold_left (fun r i => swapped (EncipherRound t (2 * i + 1)) (EncipherRound t (2 * i) r)) (seq b n) s) as G.
  { induction n; intros b s0 Hs; [reflexivity|].
    replace (2 * S n)%nat with (S (S (2 * n))) by lia. cbn [seq fold_left].
    rewrite (round_spec t key k (2 * b) s0 H Hs).
    rewrite (round_spec t key k (S (2 * b))) by (auto using wquad_flip, wquad_encipher).
    replace (S (S (2 * b))) with (2 * S b)%nat by lia.
    rewrite IHn by (auto using wquad_flip, wquad_encipher).
    rewrite swapped_flip. do 3 f_equal. lia. }
  apply (G 8%nat 0%nat).
Qed.

Theorem encipher_is_twofish t key k p : paper_schedule t key k -> words 32 (tf_w t) ->
  k = (length key / 8)%nat -> bytes p -> length p = 16%nat ->
  EncipherTwofishBlock t p = twofish_encrypt key p.
Proof.
  intros H Hw -> Hp Lp. pose proof H as (EK & Lw & _).
  unfold twofish_encrypt.
  assert (forall j, (j < 8)%nat -> get (expanded_key key (length key / 8)) j = get (tf_w t) j) as EG.
  { intros j Hj. rewrite <- EK. unfold get. now rewrite app_nth1 by lia. }
  rewrite !EG by lia.
  destruct (pack_unpack p Hp Lp) as [_ W].
  assert (forall i, (i < 4)%nat -> le_val (slice p (4 * i) 4) = load32xor (slice p (4 * i) 4)) as EL.
  { intros i Hi. symmetry. apply load32xor_load.
    - apply Forall_forall. intros x Hx. unfold bytes in Hp. rewrite Forall_forall in Hp. apply Hp.
      unfold slice in Hx. rewrite <- (firstn_skipn (4 * i) p). apply in_or_app. right.
      rewrite <- (firstn_skipn 4 (skipn (4 * i) p)). apply in_or_app. now left.
    - unfold slice. rewrite firstn_length, skipn_length. lia. }
  rewrite !EL by lia. cbn [Nat.mul Nat.add].
  rewrite (rounds_spec t) by (auto; apply (wquad_whiten (tf_w t) 0 (unpack4 p)); auto).
  unfold EncipherTwofishBlock. destruct (encipher_rounds _ _) as [[[a b] c] d].
  now rewrite !store32le_bytes.
Qed.
