(** Secret keys of wizard/secret.c, and what their writers report: C35, C36, C72. *)
From Coq Require Import NArith Arith List Lia Bool ZifyBool ZifyNat ZifyN.
From Verif Require Import Base BaseLemmas Mem32 Outcome StringInfoModel StringInfoProof CipherModel CipherProof CipherInfoModel CipherProps CtrStream
  HashModel HashSpec HashProps HmacModel HmacProps FileModel FileProps ReadLemmas RandomModel KeyringModel KeyringSpec KeyringProof KeyringInv KeyringProps SecretModel.
Import ListNotations.
Local Opaque GetWizardMagick.

(** ** the cipher *)
Lemma text_contents s : text s = contents s.
Proof. reflexivity. Qed.
Lemma string_of_wf x : wf (string_of x).
Proof. unfold wf, string_of. cbn [datum slen]. rewrite app_length, repeat_length. reflexivity. Qed.
Lemma string_of_contents x : contents (string_of x) = x.
Proof. unfold contents, string_of. cbn [datum slen]. rewrite firstn_app, Nat.sub_diag, firstn_O, app_nil_r. apply firstn_all. Qed.
Lemma nonce_string x : bytes x -> nonce_for AESCipher (string_of (set_string (repeat 0%N (cipher_blocksize AESCipher)) x)).
Proof.
  intros B. split; [apply string_of_wf|]. split; [|rewrite string_of_contents; now apply set_string_bytes].
  unfold string_of. cbn [slen]. rewrite set_string_length. apply repeat_length.
Qed.
Lemma secret_cipher_good phrase x : bytes phrase -> bytes x -> good_cipher (secret_cipher phrase x).
Proof. intros. apply good_cipher_info; [assumption | now apply nonce_string]. Qed.

(** a nonce as GenerateCipherNonce makes it for counter mode (C10): the counter
    field of eight bytes is zero *)
Definition fresh_nonce (x : list N) : Prop := exists a, length a = 8 /\ bytes a /\ x = a ++ repeat 0%N 8.
Lemma le_val_zeros n l : le_val (repeat 0%N n ++ l) = (256 ^ N.of_nat n * le_val l)%N.
Proof.
  induction n as [|n IH]; [cbn; destruct (le_val l); reflexivity|]. cbn [repeat app le_val]. rewrite IH, Nat2N.inj_succ, N.pow_succ_r'. lia.
Qed.
Lemma rev_repeat {A} (x : A) n : rev (repeat x n) = repeat x n.
Proof. induction n as [|n IH]; [reflexivity|]. cbn [repeat rev]. rewrite IH. clear IH. induction n as [|n IH]; [reflexivity|]. cbn. now rewrite IH. Qed.
Lemma fresh_value x : fresh_nonce x -> (be_val x + 2 ^ 64 <= 256 ^ 16)%N.
Proof.
  intros (a & L & B & ->). rewrite be_val_le_val, rev_app_distr, rev_repeat, le_val_zeros, <- be_val_le_val.
  pose proof (be_val_bound a B) as V. rewrite L in V. change (256 ^ N.of_nat 8)%N with (2 ^ 64)%N in *. change (256 ^ 16)%N with (2 ^ 64 * 2 ^ 64)%N. nia.
Qed.
Lemma fresh_fits x n : fresh_nonce x -> (N.of_nat n < 2 ^ 29)%N ->
  counter_fits AESCipher CTRMode (string_of (set_string (repeat 0%N (cipher_blocksize AESCipher)) x)) n.
Proof.
  intros F L _. rewrite string_of_contents. change (cipher_blocksize AESCipher) with 16.
  assert (E : set_string (repeat 0%N 16) x = x).
  { destruct F as (a & La & _ & ->). unfold set_string. rewrite repeat_length, app_length, La. cbn [repeat length Nat.add Nat.sub]. rewrite app_nil_r.
    apply firstn_all2. rewrite app_length, La. reflexivity. }
  rewrite E. pose proof (fresh_value x F) as V. change (256 ^ N.of_nat 16)%N with (256 ^ 16)%N. revert V. generalize (256 ^ 16)%N. intros m V.
  pose proof (Nat.div_le_upper_bound n 16 n ltac:(lia) ltac:(lia)). lia.
Qed.
Lemma fresh_bytes x : fresh_nonce x -> bytes x /\ length x = 16.
Proof. intros (a & L & B & ->). split; [apply bytes_app; split; [exact B | apply repeat0_bytes] | now rewrite app_length, L]. Qed.

Lemma with_id_modern k x : modern k -> string_ok x -> modern (with_id k x).
Proof. intros (A & B & C & D & E) O. unfold modern, with_id. cbn [k_id k_key k_nonce k_major k_minor k_timestamp]. tauto. Qed.

(** the last record of the keyring is not of protocol 1.0 *)
Definition last_modern (es : list entry) : Prop := forall es0 e0, es = es0 ++ [e0] -> old_version (e_major e0) (e_minor e0) = false.
Definition strings_ok (k : KeyringInfo) : Prop := string_ok (k_id k) /\ string_ok (k_key k) /\ string_ok (k_nonce k).
Lemma last_passed es k : Forall entry_ok es -> last_modern es -> strings_ok k -> (es = [] -> modern k) -> modern (fold_left passed es k).
Proof.
  intros O L S M. destruct es as [|e es0 _] using rev_ind; [now apply M|]. rewrite fold_left_app. cbn [fold_left].
  specialize (L _ _ eq_refl). apply Forall_app in O. destruct O as [_ O]. inversion_clear O as [|? ? O1 _].
  destruct O1 as ((A & B & C & D & _) & _). destruct (passed_same es0 k) as (E1 & E2 & E3). revert E1 E2 E3. generalize (fold_left passed es0 k). intros k1 E1 E2 E3. unfold modern, passed, stamp.
  cbn [k_major k_minor k_timestamp k_id k_key k_nonce]. rewrite L, E1, E2, E3. destruct S as (S1 & S2 & S3). tauto.
Qed.

Section Run.
Variables (fuel : nat) (lsb : bool) (junk : list N).
Hypothesis Hjunk : length junk = 64.
Hypothesis Hfuel : 3 <= fuel.
Notation H := (keyring_magick fuel lsb junk ++ keyring_filetype fuel lsb junk).
Notation hmac_ok := (hmac_ok lsb).
Notation holds := (holds fuel lsb junk).
Notation generate_loop := (generate_loop fuel lsb junk).
Notation GenerateSecretKey := (GenerateSecretKey fuel lsb junk).
Notation AuthenticateSecretKey := (AuthenticateSecretKey fuel lsb junk).
Notation ConstructHMAC := (ConstructHMAC fuel lsb junk).

(** the keyed digest of the key under the pass phrase *)
Definition mac (hash : HashType) (phrase key d : list N) : Prop := is_hmac (is_hash hash) (GetHashBlocksize hash) phrase key d.

Lemma construct hash hm phrase key : hash <> SHA2224Hash -> hmac_ok hash hm -> piece_ok phrase -> piece_ok key ->
  exists hm', ConstructHMAC hm phrase key = Some hm' /\ hmac_ok hash hm' /\ mac hash phrase key (hm_digest hm').
Proof using Hjunk Hfuel.
  intros NH O Hk Hm. assert (T : text_ok [key]).
  { split; [constructor; [exact Hm | constructor]|]. cbn [concat]. rewrite app_nil_r. eapply N.lt_trans; [apply Hm | reflexivity]. }
  destruct (Initialize_conforms fuel lsb junk Hjunk Hfuel hash hm phrase [key] NH O Hk T) as (hm' & E & O' & D).
  cbn [concat] in D. rewrite app_nil_r in D. exists hm'. split; [|now split].
  rewrite <- E. cbn [map app mrun mstep]. unfold HmacModel.ConstructHMAC.
  destruct (InitializeHMAC fuel lsb junk hm phrase) as [h1|]; [|reflexivity].
  destruct (UpdateHMAC fuel lsb h1 key) as [h2|]; [|reflexivity]. now destruct (FinalizeHMAC fuel lsb junk h2).
Qed.
Lemma digest_ok hash hm phrase key : hmac_ok hash hm -> mac hash phrase key (hm_digest hm) -> string_ok (hm_digest hm).
Proof.
  intros O (k0 & inner & _ & _ & D). split; [|now apply is_hash_bytes in D]. rewrite (ok_digest _ _ _ O).
  destruct hash as [| | | | | | | |[| | | |]]; reflexivity.
Qed.

(** the loop of GenerateSecretKey leaves an unused id, the digest of its key *)
Lemma generate_loop_ok hash phrase file es ts : hash <> SHA2224Hash -> piece_ok phrase -> holds file es -> Forall entry_ok es ->
  forall draws s s', Forall piece_ok draws -> hmac_ok hash (x_hmac s) -> generate_loop phrase draws s file ts = Some s' ->
  hmac_ok hash (x_hmac s') /\ x_nonce s' = x_nonce s /\ In (x_key s') draws /\ mac hash phrase (x_key s') (x_id s') /\
  string_ok (x_id s') /\ lookup (x_id s') es = None /\ k_id (x_keyring s') = x_id s' /\
  (exists k, x_keyring s' = fold_left passed es k) /\
  (last_modern es -> strings_ok (x_keyring s) -> (es = [] -> modern (x_keyring s)) -> modern (x_keyring s')).
Proof using Hjunk Hfuel.
  intros NH P D O. induction draws as [|key draws IH]; intros s s' F OH; cbn [SecretModel.generate_loop]; [discriminate|].
  inversion_clear F as [|? ? F1 F2]. destruct (construct hash (x_hmac s) phrase key NH OH P F1) as (hm & -> & OH' & M).
  assert (SI : string_ok (hm_digest hm)) by (eapply digest_ok; eassumption).
  rewrite (export_holds fuel lsb junk file es _ ts D O). cbn [with_id k_id].
  destruct (lookup (hm_digest hm) es) as [e|] eqn:L.
  - intros E. pose proof (fun O => IH _ _ F2 O E) as A. destruct (A OH') as (A1 & A2 & A3 & A4 & A5 & A6 & A7 & A8 & A9). cbn [x_nonce] in A2.
    split; [exact A1|]. split; [exact A2|]. split; [now right|]. split; [exact A4|]. split; [exact A5|]. split; [exact A6|]. split; [exact A7|]. split; [exact A8|].
    intros ME SK MK. destruct (lookup_In _ _ _ L) as [I _]. apply A9; [exact ME | | intros ->; destruct I].
    apply (proj1 (Forall_forall _ _) O) in I. destruct I as ((_ & _ & _ & _ & I1 & I2 & I3) & J1 & J2 & J3). cbn [x_keyring].
    unfold strings_ok, string_ok, found. cbn [with_id k_id k_key k_nonce]. destruct SI. tauto.
  - intros [= <-]. cbn [x_hmac x_nonce x_key x_id x_keyring]. destruct (passed_same es (with_id (x_keyring s) (hm_digest hm))) as (E1 & _).
    split; [exact OH'|]. split; [reflexivity|]. split; [now left|]. split; [exact M|]. split; [exact SI|]. split; [exact L|]. split; [exact E1|].
    split; [now eexists|]. intros ME SK MK. apply last_passed; [exact O | exact ME | | intros Z; now apply with_id_modern; [apply MK|]].
    destruct SK as (_ & SK). now split.
Qed.

(** what GenerateSecretKey does once it has a key *)
Lemma generate_inv phrase draws s file rnd amounts now ts s1 file1 :
  GenerateSecretKey phrase draws s file rnd amounts now ts = Ok (Some (true, s1, file1)) ->
  exists s', generate_loop phrase draws s file ts = Some s' /\
    x_nonce s1 = x_nonce s' /\ x_id s1 = x_id s' /\ x_key s1 = x_key s' /\ x_hmac s1 = x_hmac s' /\
    (exists key, EncipherCipher (secret_cipher phrase (x_nonce s')) rnd (string_of (x_key s')) = Ok key /\
       x_keyring s1 = with_nonce (with_key (x_keyring s') (text key)) (x_nonce s')) /\
    file1 = snd (ImportKeyringKey fuel lsb junk file (x_keyring s1) amounts now ts).
Proof.
  unfold SecretModel.GenerateSecretKey. destruct (generate_loop phrase draws s file ts) as [s'|] eqn:E; [|discriminate].
  cbv zeta. cbn [with_nonce with_key k_nonce k_key k_id k_major k_minor k_timestamp].
  destruct (EncipherCipher (secret_cipher phrase (x_nonce s')) rnd (string_of (x_key s'))) as [key| |] eqn:K; cbn [bind]; try discriminate.
  match goal with |- context [ImportKeyringKey fuel lsb junk file ?k amounts now ts] => destruct (ImportKeyringKey fuel lsb junk file k amounts now ts) as [st fl] eqn:EI end.
  intros [= <- <-]. exists s'. split; [reflexivity|]. cbn [x_nonce x_id x_key x_hmac x_keyring].
  repeat (split; [reflexivity|]). split; [|now rewrite EI]. exists key. split; [exact K | reflexivity].
Qed.

(** C35, unless the last record is of protocol 1.0 (refuted below) and for
    hashes other than SHA-224: a generated key is authenticated under the same pass phrase, whatever
    is appended to the keyring afterwards and by whatever structure; its id is
    the keyed digest and no earlier record has it *)
Theorem generate_then_authenticate_partial : forall hash phrase draws s file es rnd now ts s1 file1,
  hash <> SHA2224Hash -> hmac_ok hash (x_hmac s) -> strings_ok (x_keyring s) -> (es = [] -> modern (x_keyring s)) -> bytes (x_nonce s) -> length (x_nonce s) = 16 ->
  piece_ok phrase -> Forall piece_ok draws -> Forall entry_ok es -> last_modern es -> holds file es ->
  GenerateSecretKey phrase draws s file rnd [] now ts = Ok (Some (true, s1, file1)) ->
  In (x_key s1) draws /\ mac hash phrase (x_key s1) (x_id s1) /\ lookup (x_id s1) es = None /\
  exists e, e_id e = x_id s1 /\ modern_entry e /\ holds file1 (es ++ [e]) /\
    forall more tail s2 ts2, Forall entry_ok more -> hmac_ok hash (x_hmac s2) -> x_id s2 = x_id s1 ->
    exists s3, AuthenticateSecretKey phrase s2 (Some (keyring_bytes H (es ++ e :: more) ++ tail)) ts2 = Ok (Some (true, s3)) /\
      x_key s3 = x_key s1.
Proof using Hjunk Hfuel.
  intros hash phrase draws s file es rnd now ts s1 file1 NH OH SK MK BN LN P F OE0 ME D G.
  destruct (generate_inv _ _ _ _ _ _ _ _ _ _ G) as (s' & EG & X1 & X2 & X3 & X4 & (key & EK & XK) & XF). clear G.
  destruct (generate_loop_ok hash phrase file es ts NH P D OE0 draws s s' F OH EG) as (A1 & A2 & A3 & A4 & A5 & A6 & A7 & _ & A9).
  specialize (A9 ME SK MK). rewrite X2, X3. split; [exact A3|]. split; [exact A4|]. split; [exact A6|].
  assert (PK : piece_ok (x_key s')) by now apply (proj1 (Forall_forall _ _) F).
  rewrite A2 in *. assert (GC : good_cipher (secret_cipher phrase (x_nonce s))) by (apply secret_cipher_good; [apply P | exact BN]).
  destruct (ctr_encipher _ GC eq_refl rnd _ key (string_of_wf (x_key s')) EK) as (_ & WK & LK & CK).
  assert (BK : bytes (contents key)).
  { rewrite CK, string_of_contents. apply bytes_xor_list; [apply PK|]. apply stream_bytes. exact GC. }
  assert (LK' : length (contents key) = length (x_key s')).
  { rewrite contents_length by exact WK. rewrite LK. unfold string_of. cbn [slen]. reflexivity. }
  assert (K1 : modern (x_keyring s1)).
  { rewrite XK. destruct A9 as (B1 & B2 & B3 & B4 & B5). unfold modern, with_nonce, with_key. cbn [k_id k_key k_nonce k_major k_minor k_timestamp].
    split; [exact B1|]. split; [exact B2|]. split; [exact B3|]. split; (split; [|assumption]).
    - rewrite text_contents, LK'. destruct PK as [_ PK]. eapply N.lt_trans; [exact PK | reflexivity].
    - rewrite LN. reflexivity. }
  assert (I1 : k_id (x_keyring s1) = x_id s') by now rewrite XK.
  pose proof (import_holds fuel lsb junk file es (x_keyring s1) now ts D OE0 K1) as IM. rewrite I1, A6 in IM.
  destruct IM as (file' & EI & D'). rewrite EI in XF. cbn [snd] in XF. subst file'.
  exists (entry_of (x_keyring s1)). split; [exact I1|]. split; [now apply modern_entry_of|]. split; [exact D'|].
  intros more tail s2 ts2 OM O2 I2.
  assert (OE : Forall entry_ok (es ++ entry_of (x_keyring s1) :: more)).
  { apply Forall_app. split; [exact OE0|]. constructor; [apply (modern_entry_of _ K1) | exact OM]. }
  assert (LE : lookup (x_id s2) (es ++ entry_of (x_keyring s1) :: more) = Some (entry_of (x_keyring s1))).
  { rewrite lookup_app, I2, A6. cbn [lookup entry_of e_id]. rewrite I1. now destruct (list_eq_dec N.eq_dec (x_id s') (x_id s')). }
  unfold SecretModel.AuthenticateSecretKey. cbv zeta.
  rewrite (export_found fuel lsb junk _ (with_id (x_keyring s2) (x_id s2)) ts2 _ tail OE LE). cbn [negb].
  cbn [found entry_of k_nonce k_key e_key e_nonce]. rewrite XK. cbn [with_nonce with_key k_nonce k_key].
  destruct (ctr_contents_round_trip _ GC eq_refl rnd _ key (string_of (text key)) (string_of_wf (x_key s')) EK (string_of_wf _) (string_of_contents _)) as (p & EP & WP & CP).
  rewrite EP. cbn [bind]. rewrite text_contents, CP, string_of_contents.
  destruct (construct hash (x_hmac s2) phrase (x_key s') NH O2 P PK) as (hm & -> & OH2 & M2).
  rewrite I2. replace (hm_digest hm) with (x_id s') by (apply (is_hmac_unique hash phrase (x_key s')); assumption).
  rewrite same_string_refl. eexists. split; [reflexivity|]. reflexivity.
Qed.

(** a pass phrase is accepted only if the id is the keyed digest of what it
    deciphers: for any keyring file, any structure, any pass phrase *)
Theorem authenticate_only_if_digest : forall hash phrase s b ts s3,
  hash <> SHA2224Hash -> hmac_ok hash (x_hmac s) -> piece_ok phrase -> bytes b -> (N.of_nat (length b) < 2 ^ 29)%N ->
  AuthenticateSecretKey phrase s (Some b) ts = Ok (Some (true, s3)) ->
  mac hash phrase (x_key s3) (x_id s).
Proof using Hjunk Hfuel.
  intros hash phrase s b ts s3 NH O P B LB. unfold SecretModel.AuthenticateSecretKey. cbv zeta.
  destruct (ExportKeyringKey fuel lsb junk (Some b) (with_id (x_keyring s) (x_id s)) ts) as [st k] eqn:E. destruct st; cbn [negb]; [|discriminate].
  destruct (export_inv fuel lsb junk b _ ts k B E) as (es & e & r & EB & OE & Oe & _ & I & -> & _). cbn [found k_nonce k_key with_id k_id] in *.
  destruct Oe as (_ & _ & BK & BN).
  destruct (DecipherCipher (secret_cipher phrase (e_nonce e)) (string_of (e_key e))) as [p| |] eqn:ED; cbn [bind]; [|discriminate|discriminate].
  assert (GC : good_cipher (secret_cipher phrase (e_nonce e))) by (apply secret_cipher_good; [apply P | exact BN]).
  destruct (ctr_decipher_shape _ GC eq_refl _ p (string_of_wf (e_key e)) ltac:(now rewrite string_of_contents) ED) as (WP & LP & BP).
  assert (PP : piece_ok (contents p)).
  { split; [exact BP|]. rewrite contents_length by exact WP. rewrite LP. unfold string_of. cbn [slen].
    assert (length (e_key e) <= length b).
    { rewrite EB. unfold entry_head. rewrite !app_length. lia. }
    revert LB. generalize (2 ^ 29)%N. intros; lia. }
  rewrite text_contents. destruct (construct hash (x_hmac s) phrase (contents p) NH O P PP) as (hm & -> & OH2 & M2).
  destruct (same_string (x_id s) (hm_digest hm)) eqn:SS; [|discriminate]. intros [= <-]. cbn [x_key]. apply same_string_spec in SS. now rewrite SS.
Qed.

(** generation succeeds as soon as a drawn key has a digest no record has *)
Theorem generate_succeeds : forall hash phrase draws s file es rnd amounts now ts,
  hash <> SHA2224Hash -> hmac_ok hash (x_hmac s) -> fresh_nonce (x_nonce s) ->
  piece_ok phrase -> Forall piece_ok draws -> Forall entry_ok es -> holds file es ->
  (exists key, In key draws /\ forall d, mac hash phrase key d -> lookup d es = None) ->
  exists s1 file1, GenerateSecretKey phrase draws s file rnd amounts now ts = Ok (Some (true, s1, file1)).
Proof using Hjunk Hfuel.
  intros hash phrase draws s file es rnd amounts now ts NH OH FN P F OE D EX.
  assert (EG : exists s', generate_loop phrase draws s file ts = Some s').
  { clear FN. revert s OH. induction draws as [|key draws IH]; intros s OH; [now destruct EX as (k & [] & _)|].
    inversion_clear F as [|? ? F1 F2]. cbn [SecretModel.generate_loop]. destruct (construct hash (x_hmac s) phrase key NH OH P F1) as (hm & -> & OH' & M).
    rewrite (export_holds fuel lsb junk file es _ ts D OE). cbn [with_id k_id].
    destruct (lookup (hm_digest hm) es) as [e|] eqn:L; [|now eexists]. apply IH; [exact F2 | | exact OH'].
    destruct EX as (k & [->|I] & N); [|now exists k]. rewrite (N _ M) in L. discriminate. }
  destruct EG as (s' & EG). destruct (generate_loop_ok hash phrase file es ts NH P D OE draws s s' F OH EG) as (A1 & A2 & A3 & _).
  unfold SecretModel.GenerateSecretKey. rewrite EG. cbv zeta. cbn [with_nonce with_key k_nonce k_key k_id k_major k_minor k_timestamp]. rewrite A2.
  assert (PK : piece_ok (x_key s')) by now apply (proj1 (Forall_forall _ _) F).
  destruct (cipher_encipher_succeeds 0 AESCipher CTRMode phrase (string_of (set_string (repeat 0%N (cipher_blocksize AESCipher)) (x_nonce s))) rnd (string_of (x_key s')))
    as (key & EK & _); [apply P | apply nonce_string; now apply fresh_bytes | apply string_of_wf | discriminate | apply fresh_fits; [exact FN | apply PK] |].
  unfold secret_cipher. rewrite EK. cbn [bind].
  match goal with |- context [ImportKeyringKey fuel lsb junk file ?k amounts now ts] => destruct (ImportKeyringKey fuel lsb junk file k amounts now ts) as [st fl] end.
  now eexists _, _.
Qed.

(** C72 does not hold: the record of a new key carries the timestamp of the
    last record of the keyring, whatever the time is *)
Theorem generate_timestamp_refuted : forall hash phrase draws s es e0 rnd amounts now ts s1 file1,
  hash <> SHA2224Hash -> hmac_ok hash (x_hmac s) -> piece_ok phrase -> Forall piece_ok draws -> Forall entry_ok (es ++ [e0]) ->
  old_version (e_major e0) (e_minor e0) = false ->
  GenerateSecretKey phrase draws s (Some (keyring_bytes H (es ++ [e0]))) rnd amounts now ts = Ok (Some (true, s1, file1)) ->
  k_timestamp (x_keyring s1) = e_timestamp e0.
Proof using Hjunk Hfuel.
  intros hash phrase draws s es e0 rnd amounts now ts s1 file1 NH OH P F OE V G.
  destruct (generate_inv _ _ _ _ _ _ _ _ _ _ G) as (s' & EG & _ & _ & _ & _ & (key & _ & XK) & _).
  destruct (generate_loop_ok hash phrase _ (es ++ [e0]) ts NH P (or_intror eq_refl) OE draws s s' F OH EG) as (_ & _ & _ & _ & _ & _ & _ & (k & Ek) & _).
  rewrite XK. cbn [with_nonce with_key k_timestamp]. rewrite Ek, fold_left_app. cbn [fold_left]. unfold passed, stamp. cbn [k_timestamp]. now rewrite V.
Qed.

(** C35 does not hold in a keyring whose last record is of protocol 1.0: the
    generated key cannot be found again *)
Theorem generate_after_1_0_unreadable_refuted : forall hash phrase draws s es e0 rnd now ts s1 file1 phrase' s2 ts2,
  hash <> SHA2224Hash -> hmac_ok hash (x_hmac s) -> bytes (x_nonce s) -> length (x_nonce s) = 16 -> piece_ok phrase -> Forall piece_ok draws ->
  Forall entry_ok (es ++ [e0]) -> e_major e0 = 1%N -> e_minor e0 = 0%N ->
  (forall key, In key draws -> N.of_nat (GetHashDigestsize hash + length key) + 32 < e_word e0)%N ->
  GenerateSecretKey phrase draws s (Some (keyring_bytes H (es ++ [e0]))) rnd [] now ts = Ok (Some (true, s1, file1)) ->
  x_id s2 = x_id s1 ->
  exists s3, AuthenticateSecretKey phrase' s2 file1 ts2 = Ok (Some (false, s3)).
Proof using Hjunk Hfuel.
  intros hash phrase draws s es e0 rnd now ts s1 file1 phrase' s2 ts2 NH OH BN LN P F OE VJ VM T G I2.
  destruct (generate_inv _ _ _ _ _ _ _ _ _ _ G) as (s' & EG & X1 & X2 & X3 & X4 & (key & EK & XK) & XF). clear G.
  destruct (generate_loop_ok hash phrase _ (es ++ [e0]) ts NH P (or_intror eq_refl) OE draws s s' F OH EG) as (A1 & A2 & A3 & A4 & A5 & A6 & A7 & (k & Ek) & _).
  assert (PK : piece_ok (x_key s')) by now apply (proj1 (Forall_forall _ _) F).
  rewrite A2 in *. assert (GC : good_cipher (secret_cipher phrase (x_nonce s))) by (apply secret_cipher_good; [apply P | exact BN]).
  destruct (ctr_encipher _ GC eq_refl rnd _ key (string_of_wf (x_key s')) EK) as (_ & WK & LK & CK).
  assert (LK' : length (text key) = length (x_key s')).
  { rewrite text_contents, contents_length by exact WK. rewrite LK. unfold string_of. cbn [slen]. reflexivity. }
  assert (ST : k_timestamp (x_keyring s1) = e_word e0 /\ k_major (x_keyring s1) = 1%N /\ k_minor (x_keyring s1) = 0%N).
  { rewrite XK. cbn [with_nonce with_key k_timestamp k_major k_minor]. rewrite Ek, fold_left_app. cbn [fold_left]. unfold passed, stamp. cbn [k_timestamp k_major k_minor].
    rewrite VJ, VM. cbn. tauto. }
  destruct ST as (ST1 & ST2 & ST3).
  assert (I1 : k_id (x_keyring s1) = x_id s') by now rewrite XK.
  pose proof (keyring_1_0_import_unreadable_refuted fuel lsb junk (es ++ [e0]) (x_keyring s1) now ts (with_id (x_keyring s2) (x_id s2)) ts2 OE) as U.
  rewrite I1 in U. specialize (U A6 ST2 ST3). cbn [with_id k_id] in U. specialize (U (eq_trans I2 X2)).
  rewrite ST1 in U. assert (W : (e_word e0 < 2 ^ 32)%N) by (apply Forall_app in OE; destruct OE as [_ OE]; inversion_clear OE as [|? ? O1 _]; apply O1).
  rewrite N.mod_small in U by exact W.
  assert (LI : length (x_id s') = GetHashDigestsize hash).
  { clear - EG OH NH P F Hjunk Hfuel. revert s OH EG. induction draws as [|q draws IH]; intros s OH; cbn [SecretModel.generate_loop]; [discriminate|].
    inversion_clear F as [|? ? F1 F2]. destruct (construct hash (x_hmac s) phrase q NH OH P F1) as (hm & -> & OH' & M).
    destruct (ExportKeyringKey _ _ _ _ _ _) as [[] kk]; [apply IH; [exact F2 | exact OH']|]. intros [= <-]. cbn [x_id]. apply (ok_digest _ _ _ OH'). }
  specialize (T _ A3). 
  assert (LK2 : length (k_key (x_keyring s1)) = length (x_key s')) by (rewrite XK; exact LK').
  assert (LN2 : length (k_nonce (x_keyring s1)) = 16) by (rewrite XK; exact LN).
  rewrite LI, LK2, LN2 in U. assert (T' : (N.of_nat (GetHashDigestsize hash + length (x_key s') + 16) + 16 < e_word e0)%N) by (clear - T; lia). specialize (U T'). destruct (ImportKeyringKey _ _ _ _ _ _ _ _) as [st fl] eqn:EI. destruct U as (_ & U).
  cbn [snd] in XF. subst file1. unfold SecretModel.AuthenticateSecretKey. cbv zeta.
  destruct (ExportKeyringKey fuel lsb junk fl _ ts2) as [st2 k2]. cbn [fst] in U. subst st2. cbn [negb]. now eexists.
Qed.

(** C36 does not hold for GenerateSecretKey: if every write fails it reports
    success, and the key is lost *)
Theorem generate_success_stored_refuted : forall hash phrase draws s es rnd now ts s1 file1 phrase' s2 ts2,
  hash <> SHA2224Hash -> hmac_ok hash (x_hmac s) -> piece_ok phrase -> Forall piece_ok draws -> Forall entry_ok es ->
  GenerateSecretKey phrase draws s (Some (keyring_bytes H es)) rnd (repeat 0 13) now ts = Ok (Some (true, s1, file1)) ->
  x_id s2 = x_id s1 ->
  file1 = Some (keyring_bytes H es) /\
  exists s3, AuthenticateSecretKey phrase' s2 file1 ts2 = Ok (Some (false, s3)).
Proof using Hjunk Hfuel.
  intros hash phrase draws s es rnd now ts s1 file1 phrase' s2 ts2 NH OH P F OE G I2.
  destruct (generate_inv _ _ _ _ _ _ _ _ _ _ G) as (s' & EG & X1 & X2 & X3 & X4 & (key & EK & XK) & XF). clear G.
  destruct (generate_loop_ok hash phrase _ es ts NH P (or_intror eq_refl) OE draws s s' F OH EG) as (A1 & A2 & A3 & A4 & A5 & A6 & A7 & _).
  assert (I1 : k_id (x_keyring s1) = x_id s') by now rewrite XK.
  destruct (import_success_stored_refuted fuel lsb junk es (x_keyring s1) now ts ts2 OE ltac:(now rewrite I1)) as (E1 & E2).
  change (crash_amounts fuel lsb junk 0 (x_keyring s1)) with (repeat 0 13) in E1. rewrite E1 in XF. cbn [snd] in XF. subst file1. split; [reflexivity|].
  unfold SecretModel.AuthenticateSecretKey. cbv zeta.
  rewrite (export_holds fuel lsb junk _ es _ ts2 (or_intror eq_refl) OE). cbn [with_id k_id]. rewrite I2, X2, A6. cbn [negb]. now eexists.
Qed.

(** nor for SaveEntropyToReservoir *)
Theorem save_ignores_writes_refuted : forall r old,
  SaveEntropyToReservoir_writes fuel lsb junk r old (repeat 0 8) = (true, old).
Proof.
  intros. unfold SaveEntropyToReservoir_writes, reservoir_chunks. cbn [write_all repeat]. rewrite !firstn_O, !write_nothing. reflexivity.
Qed.
(** when all writes succeed the file is that of C27 *)
Theorem save_writes : forall r old,
  SaveEntropyToReservoir_writes fuel lsb junk r old [] = (true, SaveEntropyToReservoir fuel lsb junk r old).
Proof.
  intros. unfold SaveEntropyToReservoir_writes, SaveEntropyToReservoir. rewrite write_all_full. do 2 f_equal.
  unfold reservoir_chunks, reservoir_record. cbn [fold_left]. rewrite !write_twice by (repeat apply write_seekable; apply Nat.le_0_l). reflexivity.
Qed.
End Run.

(** ** the hypotheses can be met: a keyring of two records, the pass phrase
    "ab", one drawn key, every outcome of the writes *)
Definition ex_junk : list N := repeat 0%N 64.
Definition ex_header : list N := keyring_magick 3 true ex_junk ++ keyring_filetype 3 true ex_junk.
Definition ex_s : SecretInfo := mkSecret (AcquireKeyringInfo [] 4) ([1; 2; 3; 4; 5; 6; 7; 8]%N ++ repeat 0%N 8) (AcquireHMACInfo ex_junk SHA2256Hash) [] [].
Definition ex_new : list entry := [mkEntry 0 1 1 1600000000 [1; 2] [7; 7; 7] [9; 9]; mkEntry 0 1 1 1700000000 [3] [8] []]%N.
Definition ex_1_0 : list entry := [mkEntry 0 1 1 1600000000 [1; 2] [7; 7; 7] [9; 9]; mkEntry 1700000000 1 0 0 [3] [8] []]%N.
Definition ex_draws : list (list N) := [[10; 20; 30]]%N.
Definition ex_phrase : list N := [97; 98]%N.

Lemma ex_hmac : hmac_ok true SHA2256Hash (x_hmac ex_s).
Proof. apply AcquireHMAC_ok. Qed.
Lemma ex_keyring : modern (x_keyring ex_s).
Proof. repeat split; try reflexivity; constructor. Qed.
Lemma ex_nonce : fresh_nonce (x_nonce ex_s).
Proof. exists [1; 2; 3; 4; 5; 6; 7; 8]%N. repeat split; repeat constructor. Qed.
Lemma ex_pieces : piece_ok ex_phrase /\ Forall piece_ok ex_draws.
Proof. split; repeat constructor. Qed.
Lemma ex_modern : last_modern ex_new.
Proof. intros es0 e0 E. apply (app_inj_tail [mkEntry 0 1 1 1600000000 [1; 2] [7; 7; 7] [9; 9]]%N _ (mkEntry 0 1 1 1700000000 [3] [8] [])%N) in E. destruct E as [_ <-]. reflexivity. Qed.
Lemma ex_entries : Forall entry_ok ex_new /\ Forall entry_ok ex_1_0.
Proof. repeat constructor; reflexivity. Qed.
Lemma ex_generates es amounts : es = ex_new \/ es = ex_1_0 -> exists s1 file1,
  GenerateSecretKey 3 true ex_junk ex_phrase ex_draws ex_s (Some (keyring_bytes ex_header es)) (fun _ => 0%N) amounts 5 6 = Ok (Some (true, s1, file1)).
Proof.
  intros E. destruct ex_pieces as [P1 P2]. destruct ex_entries as [O1 O2].
  apply (generate_succeeds 3 true ex_junk eq_refl (le_n 3) SHA2256Hash ex_phrase ex_draws ex_s _ es);
    [discriminate | exact ex_hmac | exact ex_nonce | exact P1 | exact P2 | destruct E; subst; assumption | now right |].
  exists [10; 20; 30]%N. split; [now left|]. intros d D.
  destruct (construct 3 true ex_junk eq_refl (le_n 3) SHA2256Hash (x_hmac ex_s) ex_phrase [10; 20; 30]%N) as (hm & _ & O & M);
    [discriminate | exact ex_hmac | exact P1 | now inversion_clear P2 |].
  pose proof (ok_digest _ _ _ O) as L. rewrite (is_hmac_unique _ _ _ _ _ M D) in L. change (GetHashDigestsize SHA2256Hash) with 32 in L.
  destruct E; subst es; cbn [ex_new ex_1_0 lookup e_id];
    (destruct (list_eq_dec N.eq_dec _ d); [subst d; discriminate L|]); (destruct (list_eq_dec N.eq_dec _ d); [subst d; discriminate L|]); reflexivity.
Qed.

Example ex_round_trip : exists s1 file1 e s3,
  GenerateSecretKey 3 true ex_junk ex_phrase ex_draws ex_s (Some (keyring_bytes ex_header ex_new)) (fun _ => 0%N) [] 5 6 = Ok (Some (true, s1, file1)) /\
  file1 = Some (keyring_bytes ex_header (ex_new ++ [e])) /\
  AuthenticateSecretKey 3 true ex_junk ex_phrase (mkSecret (AcquireKeyringInfo [] 9) [] (AcquireHMACInfo ex_junk SHA2256Hash) (x_id s1) []) file1 7 = Ok (Some (true, s3)) /\
  x_key s3 = [10; 20; 30]%N.
Proof.
  destruct (ex_generates ex_new [] (or_introl eq_refl)) as (s1 & file1 & G). destruct ex_pieces as [P1 P2].
  destruct (generate_then_authenticate_partial 3 true ex_junk eq_refl (le_n 3) SHA2256Hash ex_phrase ex_draws ex_s (Some (keyring_bytes ex_header ex_new)) ex_new (fun _ => 0%N) 5 6 s1 file1)
    as (I & _ & _ & e & Ie & Me & D & A);
    [discriminate | exact ex_hmac | apply ex_keyring | intros _; exact ex_keyring | apply fresh_bytes, ex_nonce | apply fresh_bytes, ex_nonce | exact P1 | exact P2 | apply ex_entries | exact ex_modern | now right | exact G |].
  destruct D as [(_ & F)|D]; [now destruct ex_new|].
  destruct (A [] [] (mkSecret (AcquireKeyringInfo [] 9) [] (AcquireHMACInfo ex_junk SHA2256Hash) (x_id s1) []) 7%N) as (s3 & E3 & K3); [constructor | apply AcquireHMAC_ok | reflexivity |].
  exists s1, file1, e, s3. split; [exact G|]. split; [exact D|]. rewrite app_nil_r in E3. rewrite D. split; [exact E3|]. rewrite K3.
  destruct I as [<-|[]]. reflexivity.
Qed.
Example ex_only_if_digest : exists s1 file1 s3,
  AuthenticateSecretKey 3 true ex_junk ex_phrase (mkSecret (AcquireKeyringInfo [] 9) [] (AcquireHMACInfo ex_junk SHA2256Hash) (x_id s1) []) file1 7 = Ok (Some (true, s3)) /\
  x_key s3 = [10; 20; 30]%N.
Proof. destruct ex_round_trip as (s1 & file1 & e & s3 & _ & _ & A & K). now exists s1, file1, s3. Qed.
(** generated in year 1970 (time 5) according to the clock, the record says 2023 *)
Example ex_timestamp : exists s1 file1,
  GenerateSecretKey 3 true ex_junk ex_phrase ex_draws ex_s (Some (keyring_bytes ex_header ex_new)) (fun _ => 0%N) [] 5 6 = Ok (Some (true, s1, file1)) /\
  k_timestamp (x_keyring s1) = 1700000000%N.
Proof.
  destruct (ex_generates ex_new [] (or_introl eq_refl)) as (s1 & file1 & G). destruct ex_pieces as [P1 P2]. exists s1, file1. split; [exact G|].
  refine (generate_timestamp_refuted 3 true ex_junk eq_refl (le_n 3) SHA2256Hash ex_phrase ex_draws ex_s [mkEntry 0 1 1 1600000000 [1; 2] [7; 7; 7] [9; 9]]%N
    (mkEntry 0 1 1 1700000000 [3] [8] [])%N _ _ _ _ s1 file1 _ ex_hmac P1 P2 (proj1 ex_entries) eq_refl G). discriminate.
Qed.
Example ex_unreadable : exists s1 file1,
  GenerateSecretKey 3 true ex_junk ex_phrase ex_draws ex_s (Some (keyring_bytes ex_header ex_1_0)) (fun _ => 0%N) [] 5 6 = Ok (Some (true, s1, file1)) /\
  exists s3, AuthenticateSecretKey 3 true ex_junk ex_phrase s1 file1 7 = Ok (Some (false, s3)).
Proof.
  destruct (ex_generates ex_1_0 [] (or_intror eq_refl)) as (s1 & file1 & G). destruct ex_pieces as [P1 P2]. exists s1, file1. split; [exact G|].
  apply (generate_after_1_0_unreadable_refuted 3 true ex_junk eq_refl (le_n 3) SHA2256Hash ex_phrase ex_draws ex_s [mkEntry 0 1 1 1600000000 [1; 2] [7; 7; 7] [9; 9]]%N
    (mkEntry 1700000000 1 0 0 [3] [8] [])%N (fun _ => 0%N) 5 6 s1 file1); try reflexivity;
    [discriminate | exact ex_hmac | apply fresh_bytes, ex_nonce | exact P1 | exact P2 | exact (proj2 ex_entries) | | exact G].
  intros key [<-|[]]. reflexivity.
Qed.
Example ex_lost : exists s1 file1,
  GenerateSecretKey 3 true ex_junk ex_phrase ex_draws ex_s (Some (keyring_bytes ex_header ex_new)) (fun _ => 0%N) (repeat 0 13) 5 6 = Ok (Some (true, s1, file1)) /\
  file1 = Some (keyring_bytes ex_header ex_new).
Proof.
  destruct (ex_generates ex_new (repeat 0 13) (or_introl eq_refl)) as (s1 & file1 & G). destruct ex_pieces as [P1 P2]. exists s1, file1. split; [exact G|].
  refine (proj1 (generate_success_stored_refuted 3 true ex_junk eq_refl (le_n 3) SHA2256Hash ex_phrase ex_draws ex_s ex_new (fun _ => 0%N) 5 6 s1 file1 ex_phrase s1 7%N
    _ ex_hmac P1 P2 (proj1 ex_entries) G eq_refl)). discriminate.
Qed.

Print Assumptions generate_then_authenticate_partial.
Print Assumptions authenticate_only_if_digest.
Print Assumptions generate_succeeds.
Print Assumptions generate_timestamp_refuted.
Print Assumptions generate_after_1_0_unreadable_refuted.
Print Assumptions generate_success_stored_refuted.
Print Assumptions save_ignores_writes_refuted.
Print Assumptions save_writes.
