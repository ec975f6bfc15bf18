(** Counter mode works byte by byte: what is beyond the length of the string,
    before and after it is enciphered, has no influence on its contents.  So a
    ciphertext that went through a keyring file still deciphers. *)
From Coq Require Import Arith NArith List Lia Bool.
From Verif Require Import Base BaseLemmas Outcome StringInfoModel StringInfoProof CipherModel CipherSpec CipherProof CipherInfoModel CipherProps.
Import ListNotations.

Definition ctr_stream (c : CipherInfo) (q : nat) : list N :=
  concat (map (fun j => encipher_block c (counter_block (contents (nonce c)) j)) (seq 0 q)).

Lemma xor_app_r l m m' : (length l <= length m)%nat -> xor_list l (m ++ m') = xor_list l m.
Proof.
  unfold xor_list. revert m. induction l as [|x l IH]; intros m L; [reflexivity|]. destruct m as [|y m]; [cbn in L; lia|].
  cbn [app map2]. f_equal. apply IH. cbn in L. lia.
Qed.
Lemma xor_firstn_r l m : xor_list l (firstn (length l) m) = xor_list l m.
Proof.
  unfold xor_list. revert m. induction l as [|x l IH]; intros [|y m]; try reflexivity. cbn [length firstn map2]. f_equal. apply IH.
Qed.
Lemma xor_cancel_long l m : (length l <= length m)%nat -> xor_list (xor_list l m) m = l.
Proof.
  unfold xor_list. revert m. induction l as [|x l IH]; intros [|y m] L; try reflexivity; [cbn in L; lia|].
  cbn [map2]. f_equal; [now rewrite N.lxor_assoc, N.lxor_nilpotent, N.lxor_0_r|]. apply IH. cbn in L. lia.
Qed.

Section Ctr.
Variable c : CipherInfo.
Hypothesis G : good_cipher c.
Hypothesis M : mode c = CTRMode.

Lemma counter_is_block j : block_of (blocksize c) (encipher_block c (counter_block (contents (nonce c)) j)).
Proof.
  apply (gc_enc c G). unfold counter_block. split; [apply be_bytes_bytes|]. rewrite be_bytes_length. apply (nonce_is_block c G).
Qed.
Lemma stream_blocks q : Forall (fun b => length b = blocksize c) (map (fun j => encipher_block c (counter_block (contents (nonce c)) j)) (seq 0 q)).
Proof. apply Forall_map, Forall_forall. intros j _. apply counter_is_block. Qed.
Lemma stream_length q : length (ctr_stream c q) = (blocksize c * q)%nat.
Proof. unfold ctr_stream. rewrite (concat_length (blocksize c)) by apply stream_blocks. now rewrite map_length, seq_length. Qed.
Lemma stream_split a b : exists more, ctr_stream c (a + b) = ctr_stream c a ++ more.
Proof. unfold ctr_stream. rewrite seq_app, map_app, concat_app. eauto. Qed.
Lemma stream_bytes q : bytes (ctr_stream c q).
Proof.
  unfold ctr_stream. apply Forall_concat, Forall_map, Forall_forall. intros j _. apply counter_is_block.
Qed.

Lemma ctr_encipher rnd s s' : wf s -> EncipherCipher c rnd s = Ok s' ->
  no_wrap c (slen s) /\ wf s' /\ slen s' = slen s /\ contents s' = xor_list (contents s) (ctr_stream c (slen s / blocksize c + 1)).
Proof.
  intros W E. destruct (encipher_spec c rnd s G W) as [E1 E2]; [now rewrite M|].
  assert (NW : no_wrap c (slen s)).
  { destruct (N.lt_decidable (be_val (contents (nonce c)) + N.of_nat (slen s / blocksize c + 1)) (256 ^ N.of_nat (blocksize c))) as [D|D].
    - intros _. exact D.
    - rewrite E2 in E; [discriminate|]. intros Q. apply D. exact (Q M). }
  split; [exact NW|]. rewrite E1 in E by exact NW. injection E as <-. unfold mode_spec. rewrite M.
  pose proof (gc_pos c G) as B0. pose proof (gc_max c G) as B1.
  destruct (chunks_padded_length (blocksize c) rnd s B0 W) as (LC & FC & _).
  unfold CTR_encrypt. rewrite LC.
  set (P := chunks (blocksize c) (padded (blocksize c) rnd (contents s))) in *. set (q := (slen s / blocksize c + 1)%nat) in *.
  assert (X : concat (map2 xor_list P (map (fun j => encipher_block c (counter_block (contents (nonce c)) j)) (seq 0 q))) = xor_list (concat P) (ctr_stream c q)).
  { apply (concat_xor (blocksize c)); [exact FC | apply stream_blocks | now rewrite map_length, seq_length]. }
  rewrite X.
  assert (CP : concat P = padded (blocksize c) rnd (contents s)) by (apply concat_chunks; exact B0).
  assert (LP : length (concat P) = (blocksize c * q)%nat) by (rewrite (concat_length (blocksize c)), LC; [reflexivity | exact FC]).
  assert (Lb : (slen s <= blocksize c * q)%nat).
  { unfold q. pose proof (Nat.div_mod (slen s) (blocksize c)). pose proof (Nat.mod_upper_bound (slen s) (blocksize c)). lia. }
  assert (LX : length (xor_list (concat P) (ctr_stream c q)) = (blocksize c * q)%nat) by (rewrite xor_list_length; rewrite ?stream_length; congruence).
  split; [|split; [reflexivity|]].
  - unfold wf in *. cbn [slen datum]. rewrite app_length, LX. unfold tail_of. rewrite skipn_length.
    revert W. pose proof (pad_total (blocksize c) B0 (slen s)). unfold q in *. lia.
  - unfold contents at 1. cbn [slen datum]. rewrite firstn_app, LX. replace (slen s - blocksize c * q)%nat with 0%nat by lia.
    rewrite firstn_O, app_nil_r. unfold xor_list at 1. rewrite firstn_map2. fold (xor_list (firstn (slen s) (concat P)) (firstn (slen s) (ctr_stream c q))).
    rewrite CP. unfold padded. rewrite firstn_app, contents_length, Nat.sub_diag, firstn_O, app_nil_r by exact W.
    rewrite firstn_all2 by (rewrite contents_length by exact W; lia).
    rewrite <- (contents_length s W) at 1. apply xor_firstn_r.
Qed.

Lemma ctr_decipher_eq s : wf s ->
  let k := iterations (blocksize c) (slen s) in
  if (be_val (contents (nonce c)) + N.of_nat k <? 256 ^ N.of_nat (blocksize c))%N
  then exists s', DecipherCipher c s = Ok s' /\ wf s' /\ slen s' = slen s /\ contents s' = xor_list (contents s) (ctr_stream c k)
  else DecipherCipher c s = Fatal.
Proof.
  intros W k. pose proof (gc_pos c G) as B0. pose proof (gc_max c G) as B1.
  unfold DecipherCipher. rewrite M, nonce_block_ok by exact G. cbn [bind]. unfold decipher_whole. fold k.
  destruct (iterations_bounds (blocksize c) B0 (slen s)) as [I1 I2]. fold k in I1, I2.
  assert (I3 : (blocksize c * k <= slen s + blocksize c)%nat).
  { unfold k, iterations. pose proof (Nat.div_mod (slen s + blocksize c - 1) (blocksize c)). lia. }
  set (P := chunks (blocksize c) (firstn (blocksize c * k) (datum s))).
  assert (L1 : length (firstn (blocksize c * k) (datum s)) = (blocksize c * k)%nat) by (rewrite firstn_length; unfold wf in W; lia).
  destruct (chunks_blocks (blocksize c) k _ B0 L1) as (LP & FP & _). fold P in LP, FP.
  assert (CP : concat P = firstn (blocksize c * k) (datum s)) by (apply concat_chunks; exact B0).
  pose proof (block_loop_run (blocksize c) (ctr_step c) P (contents (nonce c)) (skipn (blocksize c * k) (datum s)) FP) as BL.
  rewrite LP in BL. rewrite CP, firstn_skipn in BL. rewrite BL. rewrite run_ctr by apply (nonce_is_block c G).
  rewrite (proj2 (nonce_is_block c G)), LP. destruct (_ <? _)%N; [|reflexivity].
  cbn [bind]. unfold CTR_encrypt. rewrite LP.
  rewrite (concat_xor (blocksize c)); [|exact FP | apply stream_blocks | now rewrite map_length, seq_length]. fold (ctr_stream c k).
  assert (LX : length (xor_list (concat P) (ctr_stream c k)) = (blocksize c * k)%nat) by (rewrite xor_list_length; rewrite ?stream_length, CP; congruence).
  eexists. split; [reflexivity|]. split; [|split; [reflexivity|]].
  - unfold wf in *. cbn [slen datum]. rewrite app_length, LX, skipn_length. lia.
  - unfold contents at 1. cbn [slen datum]. rewrite firstn_app, LX. replace (slen s - blocksize c * k)%nat with 0%nat by lia.
    rewrite firstn_O, app_nil_r. unfold xor_list at 1. rewrite firstn_map2. fold (xor_list (firstn (slen s) (concat P)) (firstn (slen s) (ctr_stream c k))).
    rewrite CP, firstn_firstn, Nat.min_l by lia. fold (contents s). rewrite <- (contents_length s W) at 1. apply xor_firstn_r.
Qed.
Lemma ctr_decipher s : wf s -> no_wrap c (slen s) ->
  exists s', DecipherCipher c s = Ok s' /\ wf s' /\ slen s' = slen s /\ contents s' = xor_list (contents s) (ctr_stream c (slen s / blocksize c + 1)).
Proof.
  intros W NW. pose proof (gc_pos c G) as B0. specialize (NW M). pose proof (ctr_decipher_eq s W) as D. cbv zeta in D.
  destruct (iterations_bounds (blocksize c) B0 (slen s)) as [I1 I2]. set (k := iterations (blocksize c) (slen s)) in *.
  replace (_ <? _)%N with true in D by (symmetry; apply N.ltb_lt; revert NW; generalize (256 ^ N.of_nat (blocksize c))%N; intros; lia).
  destruct D as (s' & E & W' & L & C). exists s'. split; [exact E|]. split; [exact W'|]. split; [exact L|]. rewrite C.
  replace (slen s / blocksize c + 1)%nat with (k + (slen s / blocksize c + 1 - k))%nat by lia.
  destruct (stream_split k (slen s / blocksize c + 1 - k)) as (more & ->). symmetry. apply xor_app_r. rewrite stream_length, contents_length by exact W. lia.
Qed.
Lemma ctr_decipher_shape s s' : wf s -> bytes (contents s) -> DecipherCipher c s = Ok s' -> wf s' /\ slen s' = slen s /\ bytes (contents s').
Proof.
  intros W B E. pose proof (ctr_decipher_eq s W) as D. cbv zeta in D. destruct (_ <? _)%N; [|congruence].
  destruct D as (s1 & E1 & W1 & L1 & C1). rewrite E in E1. injection E1 as <-. split; [exact W1|]. split; [exact L1|]. rewrite C1.
  apply bytes_xor_list; [exact B | apply stream_bytes].
Qed.

(** the round trip through any other string with the enciphered contents *)
Lemma ctr_contents_round_trip rnd s s' s2 : wf s -> EncipherCipher c rnd s = Ok s' -> wf s2 -> contents s2 = contents s' ->
  exists s3, DecipherCipher c s2 = Ok s3 /\ wf s3 /\ contents s3 = contents s.
Proof.
  intros W E W2 C. destruct (ctr_encipher rnd s s' W E) as (NW & W' & L & C').
  assert (L2 : slen s2 = slen s) by (rewrite <- L, <- (contents_length s2 W2), C; now apply contents_length).
  destruct (ctr_decipher s2 W2) as (s3 & D & W3 & _ & C3); [now rewrite L2|]. exists s3. split; [exact D|]. split; [exact W3|].
  rewrite C3, C, C', L2. apply xor_cancel_long. rewrite stream_length, contents_length by exact W.
  pose proof (gc_pos c G). pose proof (Nat.div_mod (slen s) (blocksize c)). pose proof (Nat.mod_upper_bound (slen s) (blocksize c)). lia.
Qed.
End Ctr.
