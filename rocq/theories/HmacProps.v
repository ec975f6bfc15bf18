(** Properties of wizard/hmac.c: C22. *)
From Coq Require Import NArith Arith List Lia Bool ZifyBool ZifyNat ZifyN.
From Verif Require Import Base BaseLemmas PackLemmas Mem32 MdModel MdSpec MdProof Md5Model
  Sha1Spec Sha2Spec Md5Spec Crc64Spec Sha3Model Sha3Spec Sha3Props HashModel HashSpec HashProof HashProps
  HmacModel.
Import ListNotations.

(** ** bytes *)

Lemma flat_map_bytes {A} (f : A -> list N) l : (forall x, bytes (f x)) -> bytes (flat_map f l).
Proof. intros H. induction l as [|x l IH]; [constructor|]. cbn. apply bytes_app. now split. Qed.

Lemma repeat0_bytes n : bytes (repeat 0%N n).
Proof. apply Forall_forall. intros x Hx. apply repeat_spec in Hx. now subst. Qed.

Lemma set_string_bytes s src : bytes src -> bytes (set_string s src).
Proof.
  intros B. unfold set_string. apply bytes_app. split; [now apply Forall_firstn_ | apply repeat0_bytes].
Qed.

Lemma lxor_bytes l c : bytes l -> (c < 256)%N -> bytes (map (fun b => N.lxor b c) l).
Proof.
  intros B Hc. apply Forall_map. revert B. apply Forall_impl. intros a Ha. apply word8, word_lxor; now apply word8.
Qed.

Lemma is_hash_bytes hash m d : is_hash hash m d -> bytes d.
Proof.
  destruct hash as [| | | | | | | |h]; cbn [is_hash].
  - intros (c & _ & ->). apply be_bytes_bytes.
  - intros ->. apply flat_map_bytes. intros. apply le_bytes_bytes.
  - intros ->. apply flat_map_bytes. intros. apply be_bytes_bytes.
  - intros ->. apply flat_map_bytes. intros. apply be_bytes_bytes.
  - intros ->. apply flat_map_bytes. intros. apply be_bytes_bytes.
  - intros ->. apply flat_map_bytes. intros. apply be_bytes_bytes.
  - intros ->. apply flat_map_bytes. intros. apply be_bytes_bytes.
  - intros ->. apply flat_map_bytes. intros. apply be_bytes_bytes.
  - intros (_ & H & _). exact H.
Qed.

Lemma store32le_is_bytes v : bytes (store32le v).
Proof. rewrite store32le_bytes. apply le_bytes_bytes. Qed.

(** ** invariant *)

Section Run.
Variables (fuel : nat) (lsb : bool) (junk : list N).
Notation hstep := (hstep fuel lsb junk).
Notation hrun := (hrun fuel lsb junk).
Notation mstep := (mstep fuel lsb junk).
Notation mrun := (mrun fuel lsb junk).

Record hmac_ok (hash : HashType) (hm : HMACInfo) : Prop := {
  ok_hash : hash_ok lsb hash (hm_hash_info hm);
  ok_digest : length (hm_digest hm) = GetHashDigestsize hash;
  ok_initial : length (hm_initial_nonce hm) = GetHashBlocksize hash;
  ok_final : length (hm_final_nonce hm) = GetHashBlocksize hash;
  ok_bytes : hash = MD5Hash -> bytes (hi_digest (hm_hash_info hm)) /\ bytes (hm_digest hm) /\
    bytes (hm_initial_nonce hm) /\ bytes (hm_final_nonce hm)
}.

Definition mop_bytes (o : mop) : Prop :=
  match o with
  | MInit key => bytes key
  | MUpdate m => bytes m
  | MConstruct key m => bytes key /\ bytes m
  | _ => True
  end.

Lemma AcquireHMAC_ok j hash : hmac_ok hash (AcquireHMACInfo j hash).
Proof.
  split; cbn [AcquireHMACInfo hm_hash_info hm_digest hm_initial_nonce hm_final_nonce];
    [apply Acquire_ok | apply repeat_length.. |].
  intros ->. repeat split; apply repeat0_bytes.
Qed.

(** one call on the hash object of a well formed HMAC object *)
Lemma hash_step_ok hash hi o hi' : hash_ok lsb hash hi ->
  (hash = MD5Hash -> bytes (hi_digest hi) /\ match o with HUpdate m => bytes m | _ => True end) ->
  hstep hi o = Some hi' ->
  hash_ok lsb hash hi' /\ (hash = MD5Hash -> bytes (hi_digest hi')).
Proof.
  intros O B E. split.
  - destruct hash; try (refine (hash_ok_step fuel lsb junk _ _ _ _ O _ E); discriminate).
    destruct hi as [t d h]. destruct O as (Et & L & O). cbn [hi_hash hi_digest hi_handle] in *. subst t.
    destruct h as [c|m|m|s ds]; try contradiction; try (destruct O as [O _]; discriminate O).
    destruct o as [|p|]; injection E as <-; (split; [reflexivity|]); split; cbn [hi_digest hi_handle];
      try exact L; try exact O.
    + apply UpdateMD5_shape; [exact O | exact (proj2 (B eq_refl))].
    + now rewrite set_string_length.
    + now apply FinalizeMD5_shape.
  - intros ->. destruct (B eq_refl) as [B1 B2]. destruct hi as [t d h]. destruct O as (Et & L & O).
    cbn [hi_hash hi_digest hi_handle] in *. subst t.
    destruct h as [c|m|m|s ds]; try contradiction; try (destruct O as [O _]; discriminate O).
    destruct o as [|p|]; injection E as <-; cbn [hi_digest]; try exact B1.
    apply set_string_bytes. apply flat_map_bytes. apply store32le_is_bytes.
Qed.

Lemma Reset_ok hash hm hm' : hmac_ok hash hm -> ResetHMAC fuel lsb hm = Some hm' ->
  hmac_ok hash hm' /\ hm_initial_nonce hm' = hm_initial_nonce hm /\ hm_final_nonce hm' = hm_final_nonce hm.
Proof.
  intros [O1 O2 O3 O4 O5]. unfold ResetHMAC.
  destruct (InitializeHash (hm_hash_info hm)) as [h1|] eqn:E1; [|discriminate].
  destruct (hash_step_ok hash _ HInit h1 O1) as [P1 P2]; [intros e; split; [exact (proj1 (O5 e)) | exact I] | exact E1 |].
  destruct (UpdateHash fuel lsb h1 (hm_initial_nonce hm)) as [h2|] eqn:E2; [|discriminate]. intros [= <-].
  destruct (hash_step_ok hash _ (HUpdate (hm_initial_nonce hm)) h2 P1) as [Q1 Q2];
    [intros e; split; [exact (P2 e) | apply (O5 e)] | exact E2 |].
  split; [|now split]. split; cbn; try assumption. intros e. split; [exact (Q2 e) | apply (O5 e)].
Qed.

Lemma Update_ok hash hm m hm' : hmac_ok hash hm -> bytes m -> UpdateHMAC fuel lsb hm m = Some hm' ->
  hmac_ok hash hm' /\ hm_initial_nonce hm' = hm_initial_nonce hm /\ hm_final_nonce hm' = hm_final_nonce hm.
Proof.
  intros [O1 O2 O3 O4 O5] Bm. unfold UpdateHMAC.
  destruct (UpdateHash fuel lsb (hm_hash_info hm) m) as [h1|] eqn:E1; [|discriminate]. intros [= <-].
  destruct (hash_step_ok hash _ (HUpdate m) h1 O1) as [P1 P2];
    [intros e; split; [exact (proj1 (O5 e)) | exact Bm] | exact E1 |].
  split; [|now split]. split; cbn; try assumption. intros e. split; [exact (P2 e) | apply (O5 e)].
Qed.

Lemma run_ok hash ops : forall hi hi', hash_ok lsb hash hi ->
  (hash = MD5Hash -> bytes (hi_digest hi) /\
     Forall (fun o => match o with HUpdate m => bytes m | _ => True end) ops) ->
  hrun hi ops = Some hi' -> hash_ok lsb hash hi' /\ (hash = MD5Hash -> bytes (hi_digest hi')).
Proof.
  induction ops as [|o ops IH]; intros hi hi' O B; cbn [HashModel.hrun].
  - intros [= <-]. split; [exact O|]. intros e. apply (B e).
  - destruct (hstep hi o) as [h1|] eqn:E; [|discriminate].
    destruct (hash_step_ok hash hi o h1 O) as [P1 P2]; [|exact E|].
    + intros e. destruct (B e) as [B1 B2]. inversion_clear B2. now split.
    + apply IH; [exact P1|]. intros e. split; [exact (P2 e)|]. destruct (B e) as [_ B2].
      now inversion_clear B2.
Qed.

Lemma Finalize_ok hash hm hm' : hmac_ok hash hm -> FinalizeHMAC fuel lsb junk hm = Some hm' ->
  hmac_ok hash hm' /\ hm_initial_nonce hm' = hm_initial_nonce hm /\ hm_final_nonce hm' = hm_final_nonce hm.
Proof.
  intros [O1 O2 O3 O4 O5]. unfold FinalizeHMAC.
  destruct (FinalizeHash fuel lsb junk (hm_hash_info hm)) as [h1|] eqn:E1; [|discriminate].
  destruct (hash_step_ok hash _ HFinal h1 O1) as [P1 P2]; [intros e; split; [exact (proj1 (O5 e)) | exact I] | exact E1 |].
  cbv zeta. destruct (hrun h1 _) as [h2|] eqn:E2; [|discriminate]. intros [= <-].
  destruct (run_ok hash [HInit; HUpdate (hm_final_nonce hm);
    HUpdate (set_string (hm_digest hm) (hi_digest h1)); HFinal] h1 h2 P1) as [Q1 Q2]; [|exact E2|].
  { intros e. split; [exact (P2 e)|]. constructor; [exact I|]. constructor; [apply (O5 e)|].
    constructor; [apply set_string_bytes; exact (P2 e)|]. constructor; [exact I | constructor]. }
  split; [|now split]. split; cbn [hm_hash_info hm_digest hm_initial_nonce hm_final_nonce]; try assumption.
  - now rewrite !set_string_length.
  - intros e. split; [exact (Q2 e)|]. split; [apply set_string_bytes; exact (Q2 e) | apply (O5 e)].
Qed.

Lemma Initialize_ok hash hm key hm' : hmac_ok hash hm -> bytes key ->
  InitializeHMAC fuel lsb junk hm key = Some hm' -> hmac_ok hash hm'.
Proof.
  intros [O1 O2 O3 O4 O5] Bk. unfold InitializeHMAC. cbv zeta. rewrite repeat_length.
  assert (K : forall hi k0, hash_ok lsb hash hi -> length k0 = GetHashBlocksize hash ->
     (hash = MD5Hash -> bytes (hi_digest hi) /\ bytes k0) ->
     forall hm', ResetHMAC fuel lsb (mkHMACInfo hi (hm_digest hm) (map (fun b => N.lxor b 0x36) k0)
        (map (fun b => N.lxor b 0x5c) (set_string (hm_final_nonce hm) k0))) = Some hm' -> hmac_ok hash hm').
  { intros hi k0 Q1 Q2 Q3 h'. apply Reset_ok.
    split; cbn [hm_hash_info hm_digest hm_initial_nonce hm_final_nonce]; try assumption.
    - now rewrite map_length.
    - now rewrite map_length, set_string_length.
    - intros e. destruct (Q3 e) as [Q4 Q5]. split; [exact Q4|]. split; [apply (O5 e)|].
      split; apply lxor_bytes; try reflexivity; [exact Q5 | now apply set_string_bytes]. }
  destruct (length key <=? length (hm_initial_nonce hm)) eqn:C.
  - apply K; [exact O1 | now rewrite set_string_length, repeat_length |].
    intros e. split; [exact (proj1 (O5 e)) | now apply set_string_bytes].
  - destruct (InitializeHash (hm_hash_info hm)) as [h1|] eqn:E1; [|discriminate].
    destruct (UpdateHash fuel lsb h1 key) as [h2|] eqn:E2; [|discriminate].
    destruct (FinalizeHash fuel lsb junk h2) as [h3|] eqn:E3; [|discriminate].
    destruct (run_ok hash [HInit; HUpdate key; HFinal] (hm_hash_info hm) h3 O1) as [Q1 Q2].
    + intros e. split; [exact (proj1 (O5 e))|]. constructor; [exact I|]. constructor; [exact Bk|].
      constructor; [exact I | constructor].
    + cbn [HashModel.hrun HashModel.hstep]. rewrite E1, E2, E3. reflexivity.
    + apply K; [exact Q1 | now rewrite set_string_length, repeat_length |].
      intros e. split; [exact (Q2 e)|]. apply set_string_bytes. exact (Q2 e).
Qed.

Lemma hmac_ok_step hash hm o hm' : hmac_ok hash hm -> mop_bytes o -> mstep hm o = Some hm' -> hmac_ok hash hm'.
Proof.
  intros O B. destruct o as [key| |m| |key m]; cbn [HmacModel.mstep].
  - now apply Initialize_ok.
  - apply Reset_ok, O.
  - now apply Update_ok.
  - now apply Finalize_ok.
  - destruct B as [B1 B2]. unfold ConstructHMAC.
    destruct (InitializeHMAC fuel lsb junk hm key) as [h1|] eqn:E1; [|discriminate].
    destruct (UpdateHMAC fuel lsb h1 m) as [h2|] eqn:E2; [|discriminate].
    pose proof (Initialize_ok _ _ _ _ O B1 E1) as P1.
    destruct (Update_ok _ _ _ _ P1 B2 E2) as [P2 _]. now apply Finalize_ok.
Qed.

Lemma hmac_ok_run hash ops : Forall mop_bytes ops -> forall hm hm', hmac_ok hash hm ->
  mrun hm ops = Some hm' -> hmac_ok hash hm'.
Proof.
  induction 1 as [|o ops Bo Bops IH]; intros hm hm' O; cbn [HmacModel.mrun].
  - now intros [= <-].
  - destruct (mstep hm o) as [h1|] eqn:E; [|discriminate]. apply IH. exact (hmac_ok_step _ _ _ _ O Bo E).
Qed.

(** ** conformance *)

Hypothesis Hjunk : length junk = 64.
Hypothesis Hfuel : 3 <= fuel.

(** the nonces of an object keyed with the block [k0] *)
Definition keyed (k0 : list N) (hm : HMACInfo) : Prop :=
  hm_initial_nonce hm = map (N.lxor 0x36) k0 /\ hm_final_nonce hm = map (N.lxor 0x5c) k0.

Lemma blocksize_small hash : (N.of_nat (GetHashBlocksize hash) < 2 ^ 29)%N.
Proof. destruct hash; reflexivity. Qed.
Lemma digestsize_le hash : GetHashDigestsize hash <= GetHashBlocksize hash.
Proof. destruct hash as [| | | | | | | |[]]; cbn; lia. Qed.

Lemma map_lxor_comm c l : map (fun b => N.lxor b c) l = map (N.lxor c) l.
Proof. apply map_ext. intros. apply N.lxor_comm. Qed.

Definition key_ok (key : list N) : Prop := piece_ok key.
Definition text_ok (ms : list (list N)) : Prop := Forall piece_ok ms /\ (N.of_nat (length (concat ms)) < 2 ^ 60)%N.

Lemma updates_hmac ms : forall hm, mrun hm (map MUpdate ms) = with_hash hm (hrun (hm_hash_info hm) (map HUpdate ms)).
Proof.
  induction ms as [|m ms IH]; intros hm; [now destruct hm|].
  cbn [map HmacModel.mrun HmacModel.mstep HashModel.hrun HashModel.hstep]. unfold UpdateHMAC.
  destruct (UpdateHash fuel lsb (hm_hash_info hm) m) as [h1|]; [|reflexivity].
  cbn [with_hash]. rewrite IH. destruct (hrun _ (map HUpdate ms)); reflexivity.
Qed.

Lemma mrun_app a b : forall hm, mrun hm (a ++ b) = match mrun hm a with Some hm => mrun hm b | None => None end.
Proof.
  induction a as [|o a IH]; intros hi; [reflexivity|]. cbn [app HmacModel.mrun].
  destruct (mstep hi o); [apply IH | reflexivity].
Qed.

(** Reset, Update, Finalize on a keyed object *)
Lemma keyed_conforms hash hm k0 ms : hash <> SHA2224Hash -> hmac_ok hash hm -> keyed k0 hm -> bytes k0 ->
  text_ok ms ->
  exists hm' inner, mrun hm (MReset :: map MUpdate ms ++ [MFinal]) = Some hm' /\
    is_hash hash (map (N.lxor 0x36) k0 ++ concat ms) inner /\
    is_hash hash (map (N.lxor 0x5c) k0 ++ inner) (hm_digest hm') /\
    hmac_ok hash hm' /\ keyed k0 hm'.
Proof.
  intros NH O [K1 K2] Bk [T1 T2].
  pose proof (ok_initial _ _ O) as Li. pose proof (ok_final _ _ O) as Lf.
  assert (Bi : bytes (map (N.lxor 0x36) k0)) by (rewrite <- map_lxor_comm; now apply lxor_bytes).
  assert (Bf : bytes (map (N.lxor 0x5c) k0)) by (rewrite <- map_lxor_comm; now apply lxor_bytes).
  rewrite K1 in Li. rewrite K2 in Lf.
  pose proof (blocksize_small hash) as Hbs.
  destruct (hash_conforms_ok fuel lsb junk Hjunk hash (hm_hash_info hm) (map (N.lxor 0x36) k0 :: ms))
    as (h1 & R1 & O1 & D1); try assumption.
  - apply (ok_hash _ _ O).
  - constructor; [split; [exact Bi | now rewrite Li] | exact T1].
  - cbn [concat]. rewrite app_length, Li. clear - T2 Hbs. change (2 ^ 61)%N with (2 * 2 ^ 60)%N.
    assert (2 ^ 29 < 2 ^ 60)%N by reflexivity. lia.
  - cbn [concat] in D1.
    assert (Ld : length (hi_digest h1) = GetHashDigestsize hash) by apply O1.
    pose proof (is_hash_bytes _ _ _ D1) as Bd.
    destruct (hash_conforms_ok fuel lsb junk Hjunk hash h1 [map (N.lxor 0x5c) k0; hi_digest h1])
      as (h2 & R2 & O2 & D2); try assumption.
    + constructor; [split; [exact Bf | now rewrite Lf]|].
      constructor; [|constructor]. split; [exact Bd|]. rewrite Ld.
      pose proof (digestsize_le hash). lia.
    + cbn [concat]. rewrite !app_length, Lf, Ld. cbn [length]. pose proof (digestsize_le hash).
      assert (2 ^ 29 < 2 ^ 60)%N by reflexivity. change (2 ^ 61)%N with (2 * 2 ^ 60)%N. lia.
    + cbn [concat] in D2. rewrite app_nil_r in D2.
      assert (R : mrun hm (MReset :: map MUpdate ms ++ [MFinal]) =
        Some (mkHMACInfo h2 (hi_digest h2) (hm_initial_nonce hm) (hm_final_nonce hm))).
      { cbn [HmacModel.mrun HmacModel.mstep]. unfold ResetHMAC. rewrite K1.
        cbn [HashModel.hrun map app HashModel.hstep] in R1.
        destruct (InitializeHash (hm_hash_info hm)) as [a1|]; [|discriminate].
        destruct (UpdateHash fuel lsb a1 (map (N.lxor 0x36) k0)) as [a2|]; [|discriminate].
        cbn [with_hash]. rewrite mrun_app, updates_hmac. cbn [hm_hash_info].
        rewrite hrun_app in R1. destruct (hrun a2 (map HUpdate ms)) as [a3|]; [|discriminate].
        cbn [HashModel.hrun HashModel.hstep] in R1.
        cbn [with_hash HmacModel.mrun HmacModel.mstep]. unfold FinalizeHMAC. cbn [hm_hash_info].
        destruct (FinalizeHash fuel lsb junk a3) as [a4|]; [|discriminate]. injection R1 as ->.
        cbv zeta. cbn [hm_digest hm_initial_nonce hm_final_nonce].
        rewrite set_string_same by (rewrite Ld; apply (ok_digest _ _ O)).
        rewrite K2. cbn [map app] in R2. rewrite R2.
        rewrite set_string_same; [now rewrite K1|]. rewrite Ld. symmetry. apply O2. }
      eexists _, (hi_digest h1). split; [exact R|]. split; [exact D1|]. split; [exact D2|].
      split; [|now split].
      eapply hmac_ok_run; [|exact O|exact R].
      constructor; [exact I|]. apply Forall_app. split; [|constructor; [exact I | constructor]].
      apply Forall_map. revert T1. apply Forall_impl. intros p []. assumption.
Qed.

(** InitializeHMAC = keying, then Reset *)
Lemma Initialize_keys hash hm key : hash <> SHA2224Hash -> hmac_ok hash hm -> piece_ok key ->
  exists k0 hm0, is_hmac_key (is_hash hash) (GetHashBlocksize hash) key k0 /\ bytes k0 /\
    hmac_ok hash hm0 /\ keyed k0 hm0 /\ InitializeHMAC fuel lsb junk hm key = ResetHMAC fuel lsb hm0.
Proof.
  intros NH O [Bk Lk]. unfold InitializeHMAC, is_hmac_key. cbv zeta.
  rewrite repeat_length, (ok_initial _ _ O).
  assert (K : forall hi k0, hash_ok lsb hash hi -> (hash = MD5Hash -> bytes (hi_digest hi)) ->
     length k0 = GetHashBlocksize hash -> bytes k0 ->
     let hm0 := mkHMACInfo hi (hm_digest hm) (map (fun b => N.lxor b 0x36) k0)
        (map (fun b => N.lxor b 0x5c) (set_string (hm_final_nonce hm) k0)) in
     hmac_ok hash hm0 /\ keyed k0 hm0).
  { intros hi k0 Q1 Q1' Q2 Q3 hm0.
    assert (Es : set_string (hm_final_nonce hm) k0 = k0)
      by (apply set_string_same; rewrite Q2; apply (ok_final _ _ O)).
    unfold hm0. rewrite Es. split; [split|]; cbn [hm_hash_info hm_digest hm_initial_nonce hm_final_nonce].
    - exact Q1.
    - apply (ok_digest _ _ O).
    - now rewrite map_length.
    - now rewrite map_length.
    - intros e. split; [exact (Q1' e)|]. split; [apply (ok_bytes _ _ O e)|].
      split; apply lxor_bytes; try reflexivity; exact Q3.
    - split; apply map_lxor_comm. }
  assert (S : forall d, bytes d -> length d <= GetHashBlocksize hash ->
    set_string (repeat 0%N (GetHashBlocksize hash)) d = d ++ repeat 0%N (GetHashBlocksize hash - length d)).
  { intros d Bd Ld. unfold set_string. rewrite repeat_length, firstn_all2 by exact Ld. reflexivity. }
  assert (P : forall d, bytes d -> length d <= GetHashBlocksize hash ->
    bytes (d ++ repeat 0%N (GetHashBlocksize hash - length d)) /\
    length (d ++ repeat 0%N (GetHashBlocksize hash - length d)) = GetHashBlocksize hash).
  { intros d Bd Ld. split; [apply bytes_app; split; [exact Bd | apply repeat0_bytes]|].
    rewrite app_length, repeat_length. lia. }
  destruct (length key <=? GetHashBlocksize hash) eqn:C.
  - apply Nat.leb_le in C. rewrite (S key Bk C). destruct (P key Bk C) as [P1 P2].
    destruct (K (hm_hash_info hm) _ (ok_hash _ _ O) (fun e => proj1 (ok_bytes _ _ O e)) P2 P1) as [K1 K2].
    do 2 eexists. split; [reflexivity|]. split; [exact P1|]. split; [exact K1|]. split; [exact K2 | reflexivity].
  - destruct (hash_conforms_ok fuel lsb junk Hjunk hash (hm_hash_info hm) [key]) as (h1 & R1 & O1 & D1);
      try assumption.
    + apply (ok_hash _ _ O).
    + constructor; [now split | constructor].
    + cbn [concat]. rewrite app_nil_r. eapply N.lt_trans; [exact Lk | reflexivity].
    + cbn [concat] in D1. rewrite app_nil_r in D1. pose proof (is_hash_bytes _ _ _ D1) as Bd.
      assert (Ld : length (hi_digest h1) <= GetHashBlocksize hash).
      { destruct O1 as (_ & -> & _). apply digestsize_le. }
      cbn [HashModel.hrun map app HashModel.hstep] in R1.
      destruct (InitializeHash (hm_hash_info hm)) as [a1|]; [|discriminate].
      destruct (UpdateHash fuel lsb a1 key) as [a2|]; [|discriminate].
      destruct (FinalizeHash fuel lsb junk a2) as [a3|]; [|discriminate]. injection R1 as ->.
      rewrite (S _ Bd Ld). destruct (P _ Bd Ld) as [P1 P2].
      destruct (K h1 _ O1 (fun _ => Bd) P2 P1) as [K1 K2].
      do 2 eexists. split; [exists (hi_digest h1); split; [exact D1 | reflexivity]|].
      split; [exact P1|]. split; [exact K1|]. split; [exact K2 | reflexivity].
Qed.

Lemma Initialize_conforms hash hm key ms : hash <> SHA2224Hash -> hmac_ok hash hm -> piece_ok key -> text_ok ms ->
  exists hm', mrun hm (MInit key :: map MUpdate ms ++ [MFinal]) = Some hm' /\ hmac_ok hash hm' /\
    is_hmac (is_hash hash) (GetHashBlocksize hash) key (concat ms) (hm_digest hm').
Proof.
  intros NH O Hk T. destruct (Initialize_keys hash hm key NH O Hk) as (k0 & hm0 & Kk & Bk & O0 & K0 & E).
  destruct (keyed_conforms hash hm0 k0 ms NH O0 K0 Bk T) as (hm' & inner & R & D1 & D2 & O' & _).
  exists hm'. split; [|split; [exact O' | exists k0, inner; now repeat split]].
  cbn [HmacModel.mrun HmacModel.mstep] in *. now rewrite E.
Qed.

(** C22, streaming: after any history *)
Theorem HMAC_stream hash j hist hm key ms :
  hash <> SHA2224Hash -> Forall mop_bytes hist -> mrun (AcquireHMACInfo j hash) hist = Some hm ->
  piece_ok key -> text_ok ms ->
  exists hm', mrun hm (MInit key :: map MUpdate ms ++ [MFinal]) = Some hm' /\
    is_hmac (is_hash hash) (GetHashBlocksize hash) key (concat ms) (hm_digest hm').
Proof.
  intros NH B R Hk T. pose proof (hmac_ok_run hash hist B _ _ (AcquireHMAC_ok j hash) R) as O.
  destruct (Initialize_conforms hash hm key ms NH O Hk T) as (hm' & E & _ & D). eauto.
Qed.

(** C22, one call *)
Theorem ConstructHMAC_ok hash j hist hm key m :
  hash <> SHA2224Hash -> Forall mop_bytes hist -> mrun (AcquireHMACInfo j hash) hist = Some hm ->
  piece_ok key -> piece_ok m ->
  exists hm', ConstructHMAC fuel lsb junk hm key m = Some hm' /\
    is_hmac (is_hash hash) (GetHashBlocksize hash) key m (hm_digest hm').
Proof.
  intros NH B R Hk Hm. pose proof (hmac_ok_run hash hist B _ _ (AcquireHMAC_ok j hash) R) as O.
  assert (T : text_ok [m]).
  { split; [constructor; [exact Hm | constructor]|]. cbn [concat]. rewrite app_nil_r.
    eapply N.lt_trans; [apply Hm | reflexivity]. }
  destruct (Initialize_conforms hash hm key [m] NH O Hk T) as (hm' & E & _ & D).
  cbn [concat] in D. rewrite app_nil_r in D. exists hm'. split; [|exact D].
  rewrite <- E. cbn [map app HmacModel.mrun HmacModel.mstep]. unfold ConstructHMAC.
  destruct (InitializeHMAC fuel lsb junk hm key) as [h1|]; [|reflexivity].
  destruct (UpdateHMAC fuel lsb h1 m) as [h2|]; [|reflexivity].
  destruct (FinalizeHMAC fuel lsb junk h2); reflexivity.
Qed.

(** C22, ResetHMAC: the key survives any number of updates and finals *)
Definition keeps_key (o : mop) : Prop := match o with MInit _ | MConstruct _ _ => False | _ => True end.

Lemma keyed_run hash k0 ops : Forall mop_bytes ops -> Forall keeps_key ops -> forall hm hm',
  hmac_ok hash hm -> keyed k0 hm -> mrun hm ops = Some hm' -> hmac_ok hash hm' /\ keyed k0 hm'.
Proof.
  induction 1 as [|o ops Bo Bops IH]; intros Kops hm hm' O K; cbn [HmacModel.mrun].
  - intros [= <-]. now split.
  - inversion_clear Kops as [|? ? Ko Ks]. destruct (mstep hm o) as [h1|] eqn:E; [|discriminate].
    assert (Q : hmac_ok hash h1 /\ keyed k0 h1).
    { destruct K as [K1 K2]. unfold keyed. rewrite <- K1, <- K2.
      destruct o as [key| |m| |key m]; try contradiction; cbn [HmacModel.mstep] in E.
      - now apply Reset_ok.
      - apply (Update_ok _ _ m); assumption.
      - now apply Finalize_ok. }
    destruct Q as [Q1 Q2]. now apply IH.
Qed.

Theorem ResetHMAC_ok hash j hist hm key mid hm1 ms :
  hash <> SHA2224Hash -> Forall mop_bytes hist -> mrun (AcquireHMACInfo j hash) hist = Some hm ->
  piece_ok key -> Forall mop_bytes mid -> Forall keeps_key mid ->
  mrun hm (MInit key :: mid) = Some hm1 -> text_ok ms ->
  exists hm', mrun hm1 (MReset :: map MUpdate ms ++ [MFinal]) = Some hm' /\
    is_hmac (is_hash hash) (GetHashBlocksize hash) key (concat ms) (hm_digest hm').
Proof.
  intros NH B R Hk Bm Km R1 T. pose proof (hmac_ok_run hash hist B _ _ (AcquireHMAC_ok j hash) R) as O.
  destruct (Initialize_keys hash hm key NH O Hk) as (k0 & hm0 & Kk & Bk & O0 & K0 & E).
  cbn [HmacModel.mrun HmacModel.mstep] in R1. rewrite E in R1.
  change (mrun hm0 (MReset :: mid) = Some hm1) in R1.
  destruct (keyed_run hash k0 (MReset :: mid)) with (hm := hm0) (hm' := hm1) as [O1 K1]; try assumption;
    try (constructor; [exact I | assumption]).
  destruct (keyed_conforms hash hm1 k0 ms NH O1 K1 Bk T) as (hm' & inner & R' & D1 & D2 & _ & _).
  exists hm'. split; [exact R' | exists k0, inner; now repeat split].
Qed.
End Run.

Theorem is_hmac_unique hash key m d d' :
  is_hmac (is_hash hash) (GetHashBlocksize hash) key m d ->
  is_hmac (is_hash hash) (GetHashBlocksize hash) key m d' -> d = d'.
Proof.
  intros (k & i & K & I & D) (k' & i' & K' & I' & D').
  assert (k = k') as <-.
  { unfold is_hmac_key in K, K'. destruct (_ <=? _); [congruence|].
    destruct K as (x & X & ->), K' as (y & Y & ->). now rewrite (is_hash_unique _ _ _ _ X Y). }
  rewrite (is_hash_unique _ _ _ _ I I') in D. exact (is_hash_unique _ _ _ _ D D').
Qed.

(** HMAC-SHA-224 always compresses at least two blocks and so meets the
    defect of C16: even the empty key and message give a wrong code *)
Theorem HMAC_SHA224_refuted : exists hm',
  ConstructHMAC 3 true (repeat 0%N 64) (AcquireHMACInfo [] SHA2224Hash) [] [] = Some hm' /\
  forall d, is_hmac (is_hash SHA2224Hash) (GetHashBlocksize SHA2224Hash) [] [] d -> hm_digest hm' <> d.
Proof.
  eexists. split; [vm_compute; reflexivity|]. intros d (k0 & inner & K & I & D) E.
  cbn [is_hmac_key GetHashBlocksize length Nat.leb Nat.sub app is_hash] in *. subst.
  vm_compute in E. discriminate E.
Qed.

(** The HMAC of FIPS 202 section 7 takes the rate as the block length: 136
    bytes for SHA3-256.  hmac.c takes 64 (sha3.c 53), so the code of the empty
    message differs from the one made with the rate, by the same hash. *)
Theorem HMAC_SHA3_block_refuted : exists hm',
  let H := is_hash (SHA3Family SHA3256Hash) in
  ConstructHMAC 3 true (repeat 0%N 64) (AcquireHMACInfo [] (SHA3Family SHA3256Hash)) [] [] = Some hm' /\
  forall d, is_hmac H 136 [] [] d -> hm_digest hm' <> d.
Proof.
  eexists. cbv zeta. split; [vm_compute; reflexivity|]. intros d (k0 & inner & K & I & D) E.
  unfold is_hmac_key in K. cbn [length Nat.leb] in K. subst k0.
  set (j := repeat 0%N 64).
  assert (P : forall ms, Forall piece_ok ms -> (N.of_nat (length (concat ms)) < 2 ^ 61)%N -> forall x,
    is_hash (SHA3Family SHA3256Hash) (concat ms) x ->
    option_map hi_digest (hrun 3 true j (AcquireHashInfo [] (SHA3Family SHA3256Hash)) (HInit :: map HUpdate ms ++ [HFinal]))
      = Some x).
  { intros ms Pm Lm x Hx.
    destruct (hash_conforms 3 true j eq_refl (SHA3Family SHA3256Hash) [] [] _ ms (le_n 3) ltac:(discriminate)
      (Forall_nil _) eq_refl Pm Lm) as (h & -> & Hd).
    cbn [option_map]. f_equal. exact (is_hash_unique _ _ _ _ Hd Hx). }
  assert (Q : forall l, forallb (fun b => b <? 256)%N l = true -> (length l <? 1000) = true ->
     piece_ok l /\ (N.of_nat (length (concat [l])) < 2 ^ 61)%N).
  { intros l F L. apply Nat.ltb_lt in L. assert (N.of_nat (length l) < 1000)%N by lia. split; [split|].
    - apply Forall_forall. intros b Hb. rewrite forallb_forall in F. apply N.ltb_lt. exact (F b Hb).
    - eapply N.lt_trans; [eassumption | reflexivity].
    - cbn [concat]. rewrite app_nil_r. eapply N.lt_trans; [eassumption | reflexivity]. }
  pose proof (P [map (N.lxor 54) (repeat 0%N 136)]) as P1. cbn [app concat] in P1.
  rewrite app_nil_r in P1. cbn [app] in I. rewrite app_nil_r in I.
  destruct (Q (map (N.lxor 54) (repeat 0%N 136)) eq_refl eq_refl) as [Q1 Q2]. cbn [concat] in Q2.
  rewrite app_nil_r in Q2. specialize (P1 (Forall_cons _ Q1 (Forall_nil _)) Q2 inner I).
  vm_compute in P1. injection P1 as <-.
  match type of D with is_hash _ ?l _ => 
    pose proof (P [l]) as P2; destruct (Q l eq_refl eq_refl) as [Q3 Q4] end.
  cbn [concat] in P2, Q4. rewrite app_nil_r in P2, Q4.
  specialize (P2 (Forall_cons _ Q3 (Forall_nil _)) Q4 d D).
  rewrite <- E in P2. vm_compute in P2. discriminate P2.
Qed.

(** Examples: RFC 2202 MD5 case 2 by an object already used with another
    key, then by ResetHMAC; and a key longer than the block *)
Definition jefe : list N := [0x4a; 0x65; 0x66; 0x65]%N.
Definition what : list N := (* "what do ya want for nothing?" *)
  [119;104;97;116;32;100;111;32;121;97;32;119;97;110;116;32;102;111;114;32;110;111;116;104;105;110;103;63]%N.
Definition rfc2202_2 : list N :=
  [0x75;0x0c;0x78;0x3e;0x6a;0xb0;0xb5;0x03;0xea;0xa8;0x6e;0x31;0x0a;0x5d;0xb7;0x38]%N.

Example HMAC_stream_ex :
  option_map hm_digest (mrun 3 true (repeat 0%N 64) (AcquireHMACInfo [] MD5Hash)
    [MInit [1%N]; MUpdate [2%N]; MInit jefe; MUpdate (firstn 5 what); MUpdate (skipn 5 what); MFinal])
  = Some rfc2202_2 /\
  option_map hm_digest (mrun 3 true (repeat 0%N 64) (AcquireHMACInfo [] MD5Hash)
    [MInit jefe; MUpdate [2%N]; MFinal; MReset; MUpdate what; MFinal]) = Some rfc2202_2.
Proof. split; vm_compute; reflexivity. Qed.

(** RFC 2202 MD5 case 6: an 80 byte key *)
Example HMAC_long_key_ex :
  option_map hm_digest (ConstructHMAC 3 true (repeat 0%N 64) (AcquireHMACInfo [] MD5Hash) (repeat 0xaa%N 80)
    (* "Test Using Larger Than Block-Size Key - Hash Key First" *)
    [84;101;115;116;32;85;115;105;110;103;32;76;97;114;103;101;114;32;84;104;97;110;32;66;108;111;99;107;45;
     83;105;122;101;32;75;101;121;32;45;32;72;97;115;104;32;75;101;121;32;70;105;114;115;116]%N)
  = Some [0x6b;0x1a;0xb7;0xfe;0x4b;0xd7;0xbf;0x8f;0x0b;0x62;0xe6;0xce;0x61;0xb9;0xd0;0xcd]%N.
Proof. vm_compute. reflexivity. Qed.

Print Assumptions HMAC_stream.
Print Assumptions ConstructHMAC_ok.
Print Assumptions ResetHMAC_ok.
Print Assumptions is_hmac_unique.
Print Assumptions HMAC_SHA224_refuted.
Print Assumptions HMAC_SHA3_block_refuted.
