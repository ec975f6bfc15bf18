(** Authentication over any history of calls (wizard/authenticate.c, secret.c). *)
From Coq Require Import Arith NArith List Lia Bool ZifyBool ZifyNat ZifyN.
From Verif Require Import Base BaseLemmas Mem32 Outcome StringInfoModel StringInfoProof CipherModel CipherProof CipherInfoModel CipherProps CtrStream
  HashModel HashSpec HashProps HmacModel HmacProps FileModel FileProps ReadLemmas RandomModel KeyringModel KeyringSpec KeyringProof KeyringInv KeyringProps SecretModel SecretProps
  KeyProps AuthenticateModel.
Import ListNotations.
Local Opaque GetWizardMagick.

Section Props.
Variables (fuel : nat) (lsb : bool) (junk : list N).
Hypothesis Hjunk : length junk = 64.
Hypothesis Hfuel : 3 <= fuel.
Notation hmac_ok := (hmac_ok lsb).
Notation holds := (holds fuel lsb junk).

(** ** The calls that are looked at: fresh nonces, bytes, complete writes (C36), hashes but SHA-224 (C05) *)
Definition call_ok (o : op) : Prop :=
  match o with
  | Acquire _ _ hash nonce now => hash <> SHA2224Hash /\ fresh_nonce nonce /\ (now < 2 ^ 64)%N
  | SetId _ x => string_ok x
  | SetLength _ n => (N.of_nat n < 2 ^ 29)%N
  | SetPassphrase _ _ | Destroy _ => True
  | Generate _ asked pool _ _ amounts _ _ => (forall p, asked = Some p -> piece_ok p) /\ (forall i, pool i < 256)%N /\ amounts = []
  | Authenticate _ asked _ => forall p, asked = Some p -> piece_ok p
  end.

(** ** What is always so *)
Definition sound (a : AuthenticateInfo) : Prop :=
  a_method a = SecretAuthenticateMethod /\ a_hash a <> SHA2224Hash /\ hmac_ok (a_hash a) (x_hmac (a_secret a)) /\ modern (x_keyring (a_secret a)) /\
  fresh_nonce (x_nonce (a_secret a)) /\ (N.of_nat (a_length a) < 2 ^ 29)%N /\ string_ok (x_id (a_secret a)).
Definition good_entry (e : entry) : Prop := modern_entry e /\ fresh_nonce (e_nonce e) /\ piece_ok (e_key e).
Definition good (w : world) (es : list entry) : Prop :=
  (forall h a, objects w h = Some a -> sound a) /\ Forall good_entry es /\ holds (keyring_file w) es.

Lemma good_ok es : Forall good_entry es -> Forall modern_entry es /\ Forall entry_ok es.
Proof. intros G. assert (M : Forall modern_entry es) by (eapply Forall_impl; [|exact G]; now intros e (? & _)). split; [exact M|now apply modern_ok]. Qed.
Lemma good_last es : Forall good_entry es -> last_modern es.
Proof. intros G es0 e0 ->. apply Forall_app in G. destruct G as (_ & G). inversion_clear G as [|? ? (G1 & _) _]. apply G1. Qed.
Lemma draws_pieces pool len turns : (forall i, pool i < 256)%N -> (N.of_nat len < 2 ^ 29)%N -> Forall piece_ok (draws pool len turns).
Proof.
  intros B L. unfold draws. apply Forall_map, Forall_forall. intros j _. split; [|now rewrite map_length, seq_length].
  apply Forall_map, Forall_forall. intros i _. apply B.
Qed.
Lemma draws_length pool len turns key : In key (draws pool len turns) -> length key = len.
Proof. unfold draws. rewrite in_map_iff. intros (j & <- & _). now rewrite map_length, seq_length. Qed.

(** one record *)
Definition sealed (phrase nonce key : list N) : list N := xor_list key (stream phrase nonce (length key)).
Lemma stream_long phrase nonce n : bytes phrase -> bytes nonce -> n <= length (stream phrase nonce n).
Proof.
  intros B BN. unfold stream. rewrite stream_length by now apply secret_cipher_good. change (blocksize (secret_cipher phrase nonce)) with 16.
  pose proof (Nat.div_mod n 16). pose proof (Nat.mod_upper_bound n 16). lia.
Qed.
Lemma sealed_length phrase nonce key : bytes phrase -> bytes nonce -> length (sealed phrase nonce key) = length key.
Proof.
  intros B BN. unfold sealed. rewrite <- (xor_firstn_r key). apply xor_list_length. rewrite firstn_length. pose proof (stream_long phrase nonce (length key) B BN). lia.
Qed.
Lemma unsealed phrase nonce key : bytes phrase -> bytes nonce -> sealed phrase nonce (sealed phrase nonce key) = key.
Proof.
  intros B BN. unfold sealed at 1. rewrite sealed_length by assumption. unfold sealed. apply xor_cancel_long. now apply stream_long.
Qed.

Lemma generated hash phrase draws s file es rnd now ts s1 file1 :
  hash <> SHA2224Hash -> hmac_ok hash (x_hmac s) -> modern (x_keyring s) -> fresh_nonce (x_nonce s) ->
  piece_ok phrase -> Forall piece_ok draws -> Forall good_entry es -> holds file es ->
  GenerateSecretKey fuel lsb junk phrase draws s file rnd [] now ts = Ok (Some (true, s1, file1)) ->
  In (x_key s1) draws /\ mac hash phrase (x_key s1) (x_id s1) /\ lookup (x_id s1) es = None /\
  hmac_ok hash (x_hmac s1) /\ modern (x_keyring s1) /\ x_nonce s1 = x_nonce s /\ string_ok (x_id s1) /\
  exists e, e_id e = x_id s1 /\ e_nonce e = x_nonce s /\ e_key e = sealed phrase (x_nonce s) (x_key s1) /\ good_entry e /\ holds file1 (es ++ [e]).
Proof using Hjunk Hfuel.
  intros NH OH MK FN P F GE D G. destruct (good_ok es GE) as (ME & OE).
  destruct (generate_inv _ _ _ _ _ _ _ _ _ _ _ _ _ G) as (s' & EG & X1 & X2 & X3 & X4 & (key & EK & XK) & XF). clear G.
  destruct (generate_loop_ok fuel lsb junk Hjunk Hfuel hash phrase file es ts NH P D OE draws s s' F OH EG) as (A1 & A2 & A3 & A4 & A5 & A6 & A7 & _ & A9).
  specialize (A9 (good_last es GE)). assert (SK : strings_ok (x_keyring s)) by apply MK. specialize (A9 SK (fun _ => MK)).
  rewrite X1, X2, X3, X4. split; [exact A3|]. split; [exact A4|]. split; [exact A6|]. split; [exact A1|].
  assert (PK : piece_ok (x_key s')) by now apply (proj1 (Forall_forall _ _) F). rewrite A2 in *.
  destruct (encipher_stream phrase (x_nonce s) rnd (x_key s') (proj1 P) FN PK) as (key' & EK' & T & PT & LT). rewrite EK in EK'. injection EK' as <-.
  assert (K1 : modern (x_keyring s1)).
  { rewrite XK. destruct A9 as (B1 & B2 & B3 & B4 & B5). unfold modern, with_nonce, with_key. cbn [k_id k_key k_nonce k_major k_minor k_timestamp].
    split; [exact B1|]. split; [exact B2|]. split; [exact B3|]. destruct (fresh_bytes _ FN) as (BN & LN). split.
    - split; [|apply PT]. destruct PT as (_ & PT). eapply N.lt_trans; [exact PT | reflexivity].
    - split; [|exact BN]. rewrite LN. reflexivity. }
  split; [exact K1|]. split; [reflexivity|]. split; [exact A5|].
  assert (I1 : k_id (x_keyring s1) = x_id s') by now rewrite XK.
  pose proof (import_holds fuel lsb junk file es (x_keyring s1) now ts D OE K1) as IM. rewrite I1, A6 in IM.
  destruct IM as (file' & EI & D'). rewrite EI in XF. cbn [snd] in XF. subst file'.
  exists (entry_of (x_keyring s1)). split; [exact I1|].
  assert (QN : e_nonce (entry_of (x_keyring s1)) = x_nonce s) by now rewrite XK.
  assert (QK : e_key (entry_of (x_keyring s1)) = text key) by now rewrite XK.
  split; [exact QN|]. split; [rewrite QK; exact T|]. split; [|exact D'].
  split; [now apply modern_entry_of|]. rewrite QN, QK. now split.
Qed.
Lemma authenticated hash phrase s file es e ts :
  hash <> SHA2224Hash -> hmac_ok hash (x_hmac s) -> piece_ok phrase -> Forall good_entry es -> holds file es -> lookup (x_id s) es = Some e ->
  exists hm, AuthenticateSecretKey fuel lsb junk phrase s file ts =
      Ok (Some (same_string (x_id s) (hm_digest hm), mkSecret (found (with_id (x_keyring s) (x_id s)) e (e_nonce e)) (x_nonce s) hm (x_id s) (sealed phrase (e_nonce e) (e_key e)))) /\
    hmac_ok hash hm /\ mac hash phrase (sealed phrase (e_nonce e) (e_key e)) (hm_digest hm).
Proof using Hjunk Hfuel.
  intros NH OH P GE D L. destruct (good_ok es GE) as (ME & OE). unfold SecretModel.AuthenticateSecretKey. cbv zeta.
  rewrite (export_holds fuel lsb junk file es _ ts D OE). cbn [with_id k_id]. rewrite L. cbn [negb found k_nonce k_key].
  destruct (lookup_In _ _ _ L) as (I & _). apply (proj1 (Forall_forall _ _) GE) in I. destruct I as (_ & FN & PK).
  destruct (decipher_stream phrase (e_nonce e) (e_key e) (proj1 P) FN (proj2 PK)) as (p & E & T). rewrite E. cbn [bind]. rewrite T. fold (sealed phrase (e_nonce e) (e_key e)).
  assert (PS : piece_ok (sealed phrase (e_nonce e) (e_key e))).
  { destruct (fresh_bytes _ FN) as (BN & _). split; [|rewrite sealed_length; [apply PK|apply P|exact BN]].
    unfold sealed. apply bytes_xor_list; [apply PK|]. apply stream_bytes. now apply secret_cipher_good; [apply P|]. }
  destruct (construct fuel lsb junk Hjunk Hfuel hash (x_hmac s) phrase _ NH OH P PS) as (hm & -> & O & M). exists hm. split; [reflexivity|]. now split.
Qed.

Variable read : list N -> option (list N).
Hypothesis read_ok : forall n p, read n = Some p -> piece_ok p.
Notation step := (step fuel lsb junk read).
Notation run := (run fuel lsb junk read).
Notation phrase_of := (phrase_of read).
Lemma put_here w h a : objects (put w h a) h = a.
Proof. cbn. now rewrite Nat.eqb_refl. Qed.
Lemma put_there w h a i : i <> h -> objects (put w h a) i = objects w i.
Proof. intros N. cbn. now replace (i =? h) with false by lia. Qed.
Lemma put_good w h a es : good w es -> (forall x, a = Some x -> sound x) -> good (put w h a) es.
Proof.
  intros (A & B & C) O. split; [|now split]. intros i x. cbn [put objects]. destruct (i =? h); [apply O|apply A].
Qed.
Lemma phrase_piece a asked p : (forall p, asked = Some p -> piece_ok p) -> phrase_of a asked = Some p -> piece_ok p.
Proof using read_ok. intros O. unfold AuthenticateModel.phrase_of. destruct (a_passphrase a); [apply read_ok|apply O]. Qed.

(** ** One call *)
Lemma step_good o w es b w' : good w es -> call_ok o -> step o w = Ok (Some (b, w')) -> exists more, good w' (es ++ more).
Proof using Hjunk Hfuel read_ok.
  intros G O. destruct o as [h method hash nonce now|h id|h n|h name|h asked pool turns rnd amounts now ts|h asked ts|h]; cbn [call_ok AuthenticateModel.step] in *.
  - unfold AcquireAuthenticateInfo. destruct (N.eqb_spec method SecretAuthenticateMethod) as [->|]; [|discriminate]. cbn [bind]. intros [= <- <-].
    exists []. rewrite app_nil_r. apply put_good; [exact G|]. intros x [= <-]. destruct O as (O1 & O2 & O3). unfold sound.
    cbn [a_method a_hash a_secret a_length x_hmac x_keyring x_nonce x_id]. split; [reflexivity|]. split; [exact O1|]. split; [apply AcquireHMAC_ok|].
    split; [|split; [exact O2|]; split; [reflexivity|split; [reflexivity|constructor]]].
    unfold modern, AcquireKeyringInfo. cbn [k_major k_minor k_timestamp k_id k_key k_nonce]. repeat split; try reflexivity; try exact O3; constructor.
  - destruct (objects w h) as [a|] eqn:E; [|discriminate]. destruct (proj1 G h a E) as (S1 & S2 & S3 & S4 & S5 & S6 & S7).
    unfold SetAuthenticateId. rewrite S1. cbn [negb N.eqb Pos.eqb SecretAuthenticateMethod bind]. intros [= <- <-]. exists []. rewrite app_nil_r. apply put_good; [exact G|].
    intros x [= <-]. unfold sound. cbn [a_method a_hash a_secret a_length x_hmac x_keyring x_nonce x_id]. now repeat (split; [assumption || reflexivity|]).
  - destruct (objects w h) as [a|] eqn:E; [|discriminate]. destruct (proj1 G h a E) as (S1 & S2 & S3 & S4 & S5 & S6 & S7).
    intros [= <- <-]. exists []. rewrite app_nil_r. apply put_good; [exact G|]. intros x [= <-]. unfold SetAuthenticateKeyLength. rewrite S1. cbn [N.eqb Pos.eqb SecretAuthenticateMethod].
    unfold sound. cbn [a_method a_hash a_secret a_length]. now repeat (split; [assumption || reflexivity|]).
  - destruct (objects w h) as [a|] eqn:E; [|discriminate]. destruct (proj1 G h a E) as (S1 & S2 & S3 & S4 & S5 & S6 & S7).
    intros [= <- <-]. exists []. rewrite app_nil_r. apply put_good; [exact G|]. intros x [= <-]. unfold SetAuthenticatePassphrase. rewrite S1. cbn [N.eqb Pos.eqb SecretAuthenticateMethod].
    unfold sound. cbn [a_method a_hash a_secret a_length]. now repeat (split; [assumption || reflexivity|]).
  - destruct (objects w h) as [a|] eqn:E; [|discriminate]. destruct (proj1 G h a E) as (S1 & S2 & S3 & S4 & S5 & S6 & S7). destruct O as (O1 & O2 & ->).
    unfold GenerateAuthenticateKey. rewrite S1. cbn [negb N.eqb Pos.eqb SecretAuthenticateMethod]. destruct (phrase_of a asked) as [phrase|] eqn:P; cbn [bind].
    + destruct (GenerateSecretKey _ _ _ _ _ _ _ _ _ _ _) as [[[[r s1] file1]|]| |] eqn:Q; cbn [bind]; try discriminate. intros [= <- <-].
      assert (r = true) as -> by (revert Q; unfold SecretModel.GenerateSecretKey; destruct (generate_loop _ _ _ _ _ _ _ _); [|discriminate]; cbv zeta;
        destruct (EncipherCipher _ _ _); cbn [bind]; try discriminate; destruct (ImportKeyringKey _ _ _ _ _ _ _ _); now intros [= <- _ _]).
      assert (LB : (N.of_nat (a_length a / 8) < 2 ^ 29)%N) by (pose proof (Nat.div_le_upper_bound (a_length a) 8 (a_length a) ltac:(lia) ltac:(lia)); lia).
      destruct (generated (a_hash a) phrase _ (a_secret a) (keyring_file w) es rnd now ts s1 file1 S2 S3 S4 S5 (phrase_piece a asked phrase O1 P)
        (draws_pieces pool _ turns O2 LB) (proj1 (proj2 G)) (proj2 (proj2 G)) Q) as (_ & _ & _ & R4 & R5 & R6 & R7 & e & _ & _ & _ & Ge & He).
      exists [e]. split; [|split].
      * intros i x. cbn [objects put]. destruct (i =? h); [|apply (proj1 G)]. intros [= <-]. unfold sound. cbn [a_method a_hash a_secret a_length].
        rewrite R6. now repeat (split; [assumption || reflexivity|]).
      * apply Forall_app. split; [apply (proj1 (proj2 G))|]. now constructor.
      * exact He.
    + intros [= <- <-]. exists []. rewrite app_nil_r. split; [|exact (proj2 G)]. intros i x. cbn [objects put]. destruct (Nat.eqb_spec i h) as [->|]; [|apply (proj1 G)]. intros [= <-]. exact (proj1 G h a E).
  - destruct (objects w h) as [a|] eqn:E; [|discriminate]. destruct (proj1 G h a E) as (S1 & S2 & S3 & S4 & S5 & S6 & S7).
    unfold AuthenticateKey. rewrite S1. cbn [negb N.eqb Pos.eqb SecretAuthenticateMethod]. destruct (a_has_id a); cbn [negb bind]; [|discriminate]. cbv zeta.
    destruct (good_ok es (proj1 (proj2 G))) as (ME & OE).
    rewrite (export_holds fuel lsb junk _ es _ ts (proj2 (proj2 G)) OE). cbn [with_id k_id]. destruct (lookup (x_id (a_secret a)) es) as [e|] eqn:L.
    + assert (Me : modern_entry e) by (apply lookup_In in L; destruct L as (L & _); now apply (proj1 (Forall_forall _ _) ME)).
      cbn [negb]. destruct (phrase_of a asked) as [phrase|] eqn:P.
      * destruct (authenticated (a_hash a) phrase (a_secret a) (keyring_file w) es e ts S2 S3 (phrase_piece a asked phrase O P) (proj1 (proj2 G)) (proj2 (proj2 G)) L) as (hm & -> & Oh & _).
        cbn [bind]. intros [= <- <-]. exists []. rewrite app_nil_r. apply put_good; [exact G|]. intros x [= <-]. unfold sound. cbn [a_method a_hash a_secret a_length x_hmac x_keyring x_nonce x_id].
        split; [reflexivity|]. split; [exact S2|]. split; [exact Oh|]. split; [apply modern_found; [exact Me|now apply with_id_modern]|]. exact (conj S5 (conj S6 S7)).
      * cbn [bind]. intros [= <- <-]. exists []. rewrite app_nil_r. apply put_good; [exact G|]. intros x [= <-]. unfold sound. cbn [a_method a_hash a_secret a_length x_hmac x_keyring x_nonce x_id].
        split; [reflexivity|]. split; [exact S2|]. split; [exact S3|]. split; [apply modern_found; [exact Me|now apply with_id_modern]|]. exact (conj S5 (conj S6 S7)).
    + cbn [negb bind]. intros [= <- <-]. exists []. rewrite app_nil_r. apply put_good; [exact G|]. intros x [= <-]. unfold sound. cbn [a_method a_hash a_secret a_length x_hmac x_keyring x_nonce x_id].
      split; [reflexivity|]. split; [exact S2|]. split; [exact S3|]. split; [apply modern_passed; [exact ME|now apply with_id_modern]|]. exact (conj S5 (conj S6 S7)).
  - destruct (objects w h) as [a|] eqn:E; [|discriminate]. destruct (a_method a =? SecretAuthenticateMethod)%N; [|discriminate]. intros [= <- <-].
    exists []. rewrite app_nil_r. apply put_good; [exact G|]. discriminate.
Qed.
Lemma run_good : forall ops w es w', good w es -> Forall call_ok ops -> run ops w = Ok (Some w') -> exists more, good w' (es ++ more).
Proof using Hjunk Hfuel read_ok.
  induction ops as [|o ops IH]; intros w es w' G O; cbn [AuthenticateModel.run].
  - intros [= <-]. exists []. now rewrite app_nil_r.
  - inversion_clear O as [|? ? O1 O2]. destruct (step o w) as [[[b w1]|]| |] eqn:E; cbn [bind]; try discriminate. intros R.
    destruct (step_good o w es b w1 G O1 E) as (m1 & G1). destruct (IH w1 _ w' G1 O2 R) as (m2 & G2). exists (m1 ++ m2). now rewrite app_assoc.
Qed.
Lemma start_good : good start [].
Proof. split; [discriminate|]. split; [constructor|]. now left. Qed.

Lemma generate_call h a asked pool turns rnd now ts w es w2 : good w es -> objects w h = Some a -> call_ok (Generate h asked pool turns rnd [] now ts) ->
  step (Generate h asked pool turns rnd [] now ts) w = Ok (Some (true, w2)) ->
  exists a2 phrase key id e, phrase_of a asked = Some phrase /\ piece_ok phrase /\ In key (draws pool (a_length a / 8) turns) /\ mac (a_hash a) phrase key id /\
    objects w2 h = Some a2 /\ a_hash a2 = a_hash a /\ x_nonce (a_secret a2) = x_nonce (a_secret a) /\ GetId a2 = Some id /\ GetKey a2 = Some key /\ string_ok id /\
    lookup id es = None /\ e_id e = id /\ e_nonce e = x_nonce (a_secret a) /\ e_key e = sealed phrase (x_nonce (a_secret a)) key /\ good w2 (es ++ [e]).
Proof using Hjunk Hfuel read_ok.
  intros G E C R. pose proof (fun b => step_good _ w es b w2 G C) as SG. specialize (SG true R).
  revert R. cbn [AuthenticateModel.step]. rewrite E. destruct (proj1 G h a E) as (S1 & S2 & S3 & S4 & S5 & S6 & S7). destruct C as (O1 & O2 & _).
  unfold GenerateAuthenticateKey. rewrite S1. cbn [negb N.eqb Pos.eqb SecretAuthenticateMethod]. destruct (phrase_of a asked) as [phrase|] eqn:P; cbn [bind]; [|discriminate].
  destruct (GenerateSecretKey _ _ _ _ _ _ _ _ _ _ _) as [[[[r s1] file1]|]| |] eqn:Q; cbn [bind]; try discriminate. intros [= -> <-].
  assert (LB : (N.of_nat (a_length a / 8) < 2 ^ 29)%N) by (pose proof (Nat.div_le_upper_bound (a_length a) 8 (a_length a) ltac:(lia) ltac:(lia)); lia).
  destruct (generated (a_hash a) phrase _ (a_secret a) (keyring_file w) es rnd now ts s1 file1 S2 S3 S4 S5 (phrase_piece a asked phrase O1 P)
    (draws_pieces pool _ turns O2 LB) (proj1 (proj2 G)) (proj2 (proj2 G)) Q) as (R1 & R2 & R3 & R4 & R5 & R6 & R7 & e & T1 & T2 & T3 & Ge & He).
  eexists _, phrase, (x_key s1), (x_id s1), e. split; [reflexivity|]. split; [now apply (phrase_piece a asked)|]. split; [exact R1|]. split; [exact R2|].
  split; [cbn [objects put]; rewrite Nat.eqb_refl; reflexivity|]. cbn [a_hash a_secret]. split; [reflexivity|]. split; [exact R6|].
  split; [reflexivity|]. split; [reflexivity|]. split; [exact R7|]. split; [exact R3|]. split; [exact T1|]. split; [exact T2|]. split; [exact T3|].
  split; [|split; [|exact He]].
  - intros i x. cbn [objects put]. destruct (i =? h); [|apply (proj1 G)]. intros [= <-]. unfold sound. cbn [a_method a_hash a_secret a_length].
    rewrite R6. now repeat (split; [assumption || reflexivity|]).
  - apply Forall_app. split; [apply (proj1 (proj2 G))|]. now constructor.
Qed.
Lemma lookup_later id es e more : e_id e = id -> lookup id es = None -> lookup id ((es ++ [e]) ++ more) = Some e.
Proof. intros E L. rewrite <- app_assoc, lookup_app, L. cbn [app lookup]. rewrite E. now destruct (list_eq_dec N.eq_dec id id). Qed.
(** authenticating an id that is there *)
Lemma authenticate_call g ag id asked ts phrase e w es : good w es -> objects w g = Some ag -> string_ok id -> phrase_of ag asked = Some phrase -> piece_ok phrase -> lookup id es = Some e ->
  exists w4 w5 ag5 r, step (SetId g id) w = Ok (Some (true, w4)) /\ step (Authenticate g asked ts) w4 = Ok (Some (r, w5)) /\
    objects w5 g = Some ag5 /\ GetKey ag5 = Some (sealed phrase (e_nonce e) (e_key e)) /\ (r = true <-> mac (a_hash ag) phrase (sealed phrase (e_nonce e) (e_key e)) id).
Proof using Hjunk Hfuel read_ok.
  intros G E SI P PP L. destruct (proj1 G g ag E) as (S1 & S2 & S3 & S4 & S5 & S6 & S7). cbn [AuthenticateModel.step]. rewrite E. unfold SetAuthenticateId. rewrite S1.
  cbn [negb N.eqb Pos.eqb SecretAuthenticateMethod bind].
  destruct (authenticated (a_hash ag) phrase (mkSecret (x_keyring (a_secret ag)) (x_nonce (a_secret ag)) (x_hmac (a_secret ag)) id (x_key (a_secret ag))) (keyring_file w) es e ts S2 S3 PP (proj1 (proj2 G)) (proj2 (proj2 G)) L) as (hm & AK & Oh & M).
  eexists _, _, _, _. split; [reflexivity|]. rewrite put_here. unfold AuthenticateKey.
  cbn [a_method negb N.eqb Pos.eqb a_has_id a_secret x_keyring x_id keyring_file put]. cbv zeta. destruct (good_ok es (proj1 (proj2 G))) as (ME & OE).
  rewrite (export_holds fuel lsb junk _ es _ ts (proj2 (proj2 G)) OE). cbn [with_id k_id]. rewrite L. cbn [negb].
  match goal with |- context [AuthenticateModel.phrase_of read ?x asked] => change (phrase_of x asked) with (phrase_of ag asked) end. rewrite P.
  rewrite AK.
  cbn [bind x_id]. split; [reflexivity|]. split; [apply put_here|]. split; [reflexivity|]. rewrite same_string_spec. split; [intros ->; exact M|]. intros M'. exact (is_hmac_unique _ _ _ _ _ M' M).
Qed.

(** ** C174: a generated key is recovered by its id and the pass phrase, by any object with the same hash, whatever happened before and since *)
Theorem authenticate_recovers : forall ops1 w1 h a asked pool turns rnd now ts w2 ops2 w3,
  Forall call_ok ops1 -> run ops1 start = Ok (Some w1) -> objects w1 h = Some a ->
  call_ok (Generate h asked pool turns rnd [] now ts) -> step (Generate h asked pool turns rnd [] now ts) w1 = Ok (Some (true, w2)) ->
  Forall call_ok ops2 -> run ops2 w2 = Ok (Some w3) ->
  exists a2 id key phrase, objects w2 h = Some a2 /\ GetId a2 = Some id /\ GetKey a2 = Some key /\ phrase_of a asked = Some phrase /\
    In key (draws pool (GetKeyLength a / 8) turns) /\ length key = GetKeyLength a / 8 /\
    forall g ag asked' ts', objects w3 g = Some ag -> a_hash ag = a_hash a -> phrase_of ag asked' = Some phrase ->
    exists w4 w5 ag5, step (SetId g id) w3 = Ok (Some (true, w4)) /\ step (Authenticate g asked' ts') w4 = Ok (Some (true, w5)) /\
      objects w5 g = Some ag5 /\ GetKey ag5 = Some key.
Proof using Hjunk Hfuel read_ok.
  intros ops1 w1 h a asked pool turns rnd now ts w2 ops2 w3 O1 R1 E C R O2 R2.
  destruct (run_good ops1 start [] w1 start_good O1 R1) as (es & G1). cbn [app] in G1.
  destruct (generate_call h a asked pool turns rnd now ts w1 es w2 G1 E C R) as (a2 & phrase & key & id & e & P & PP & I & M & E2 & H2 & N2 & Q1 & Q2 & SI & L & T1 & T2 & T3 & G2).
  destruct (run_good ops2 w2 _ w3 G2 O2 R2) as (more & G3). exists a2, id, key, phrase. split; [exact E2|]. split; [exact Q1|]. split; [exact Q2|]. split; [exact P|].
  split; [exact I|]. split; [now apply (draws_length pool _ turns)|]. intros g ag asked' ts' Eg Hg Pg.
  destruct (authenticate_call g ag id asked' ts' phrase e w3 _ G3 Eg SI Pg PP (lookup_later id es e more T1 L)) as (w4 & w5 & ag5 & r & A1 & A2 & A3 & A4 & A5).
  assert (FN : fresh_nonce (x_nonce (a_secret a))) by apply (proj1 G1 h a E).
  rewrite T2, T3, unsealed in A4, A5 by (apply PP || now apply fresh_bytes). rewrite Hg in A5. apply A5 in M. subst r. exists w4, w5, ag5. now repeat split.
Qed.

(** A key is accepted only if the id is its digest under the pass phrase. *)
Theorem authenticate_accepts_only : forall ops w g ag asked ts w',
  Forall call_ok ops -> run ops start = Ok (Some w) -> objects w g = Some ag -> call_ok (Authenticate g asked ts) ->
  step (Authenticate g asked ts) w = Ok (Some (true, w')) ->
  exists ag' id key phrase, objects w' g = Some ag' /\ GetId ag = Some id /\ GetId ag' = Some id /\ GetKey ag' = Some key /\
    phrase_of ag asked = Some phrase /\ mac (a_hash ag) phrase key id.
Proof using Hjunk Hfuel read_ok.
  intros ops w g ag asked ts w' O R E C. destruct (run_good ops start [] w start_good O R) as (es & G). cbn [app] in G.
  destruct (proj1 G g ag E) as (S1 & S2 & S3 & S4 & S5 & S6 & S7). cbn [AuthenticateModel.step]. rewrite E. unfold AuthenticateKey. rewrite S1.
  cbn [negb N.eqb Pos.eqb SecretAuthenticateMethod]. destruct (a_has_id ag) eqn:HI; cbn [negb bind]; [|discriminate]. cbv zeta. destruct (good_ok es (proj1 (proj2 G))) as (ME & OE).
  rewrite (export_holds fuel lsb junk _ es _ ts (proj2 (proj2 G)) OE). cbn [with_id k_id]. destruct (lookup (x_id (a_secret ag)) es) as [e|] eqn:L; cbn [negb bind]; [|discriminate].
  destruct (phrase_of ag asked) as [phrase|] eqn:P; cbn [bind]; [|discriminate].
  destruct (authenticated (a_hash ag) phrase (a_secret ag) (keyring_file w) es e ts S2 S3 (phrase_piece ag asked phrase C P) (proj1 (proj2 G)) (proj2 (proj2 G)) L) as (hm & -> & Oh & M).
  cbn [bind]. destruct (same_string (x_id (a_secret ag)) (hm_digest hm)) eqn:SS; [|discriminate]. intros [= <-]. apply same_string_spec in SS. rewrite <- SS in M.
  eexists _, _, _, phrase. split; [apply put_here|]. unfold GetId, GetKey. rewrite HI. cbn [a_has_id a_has_key a_secret x_id x_key]. repeat split. exact M.
Qed.
(** An id that is not in the keyring, or no pass phrase: the key stays as it was. *)
Theorem authenticate_unknown : forall ops w g ag asked ts w',
  Forall call_ok ops -> run ops start = Ok (Some w) -> objects w g = Some ag -> call_ok (Authenticate g asked ts) ->
  step (Authenticate g asked ts) w = Ok (Some (false, w')) ->
  phrase_of ag asked = None \/ (forall k ts', k_id k = x_id (a_secret ag) -> fst (ExportKeyringKey fuel lsb junk (keyring_file w) k ts') = false) ->
  exists ag', objects w' g = Some ag' /\ GetKey ag' = GetKey ag /\ GetId ag' = GetId ag.
Proof using Hjunk Hfuel read_ok.
  intros ops w g ag asked ts w' O R E C. destruct (run_good ops start [] w start_good O R) as (es & G). cbn [app] in G.
  destruct (proj1 G g ag E) as (S1 & S2 & S3 & S4 & S5 & S6 & S7). cbn [AuthenticateModel.step]. rewrite E. unfold AuthenticateKey. rewrite S1.
  cbn [negb N.eqb Pos.eqb SecretAuthenticateMethod]. destruct (a_has_id ag) eqn:HI; cbn [negb bind]; [|discriminate]. cbv zeta. intros Q [P|X].
  - rewrite P in Q. destruct (ExportKeyringKey _ _ _ _ _ _) as [[] k] in Q; cbn [negb bind] in Q; injection Q as <-; eexists; (split; [apply put_here|]); unfold GetId, GetKey; rewrite HI; now split.
  - specialize (X (with_id (x_keyring (a_secret ag)) (x_id (a_secret ag))) ts eq_refl). destruct (ExportKeyringKey _ _ _ _ _ _) as [st k] in Q, X. cbn [fst] in X. subst st. cbn [negb bind] in Q.
    injection Q as <-. eexists. split; [apply put_here|]. unfold GetId, GetKey. rewrite HI. now split.
Qed.

(** ** What is false *)
(** After a wrong pass phrase the object has a key all the same, of the right length, that is not the one of the id; what it had before is gone. *)
Theorem authenticate_failed_key_refuted : forall ops1 w1 h a asked pool turns rnd now ts w2 ops2 w3,
  Forall call_ok ops1 -> run ops1 start = Ok (Some w1) -> objects w1 h = Some a ->
  call_ok (Generate h asked pool turns rnd [] now ts) -> step (Generate h asked pool turns rnd [] now ts) w1 = Ok (Some (true, w2)) ->
  Forall call_ok ops2 -> run ops2 w2 = Ok (Some w3) ->
  exists id key phrase, phrase_of a asked = Some phrase /\ mac (a_hash a) phrase key id /\
    forall g ag wrong ts', objects w3 g = Some ag -> phrase_of ag (Some wrong) = Some wrong -> piece_ok wrong ->
    exists w4 w5 ag5 r key', step (SetId g id) w3 = Ok (Some (true, w4)) /\ step (Authenticate g (Some wrong) ts') w4 = Ok (Some (r, w5)) /\
      objects w5 g = Some ag5 /\ GetKey ag5 = Some key' /\ length key' = length key /\ (r = false -> ~ mac (a_hash ag) wrong key' id) /\
      key' = xor_list (xor_list key (stream phrase (x_nonce (a_secret a)) (length key))) (stream wrong (x_nonce (a_secret a)) (length key)).
Proof using Hjunk Hfuel read_ok.
  intros ops1 w1 h a asked pool turns rnd now ts w2 ops2 w3 O1 R1 E C R O2 R2.
  destruct (run_good ops1 start [] w1 start_good O1 R1) as (es & G1). cbn [app] in G1.
  destruct (generate_call h a asked pool turns rnd now ts w1 es w2 G1 E C R) as (a2 & phrase & key & id & e & P & PP & I & M & E2 & H2 & N2 & Q1 & Q2 & SI & L & T1 & T2 & T3 & G2).
  destruct (run_good ops2 w2 _ w3 G2 O2 R2) as (more & G3). exists id, key, phrase. split; [exact P|]. split; [exact M|]. intros g ag wrong ts' Eg Pg PW.
  destruct (authenticate_call g ag id (Some wrong) ts' wrong e w3 _ G3 Eg SI Pg PW (lookup_later id es e more T1 L)) as (w4 & w5 & ag5 & r & A1 & A2 & A3 & A4 & A5).
  assert (FN : fresh_nonce (x_nonce (a_secret a))) by apply (proj1 G1 h a E). assert (BN : bytes (x_nonce (a_secret a))) by now apply fresh_bytes.
  exists w4, w5, ag5, r, (sealed wrong (e_nonce e) (e_key e)). repeat (split; [assumption|]). rewrite T2, T3.
  split; [rewrite !sealed_length; try reflexivity; (apply PP || apply PW || exact BN)|]. split; [intros ->; rewrite T2, T3 in A5; intros M'; now apply A5 in M'|].
  unfold sealed at 1. rewrite sealed_length; [reflexivity|apply PP|exact BN].
Qed.
(** the nonce of an object is never changed *)
Definition spares (h : nat) (o : op) : Prop := match o with Acquire i _ _ _ _ | Destroy i => i <> h | _ => True end.
Lemma step_nonce o w h a b w' : objects w h = Some a -> spares h o -> step o w = Ok (Some (b, w')) ->
  exists a', objects w' h = Some a' /\ x_nonce (a_secret a') = x_nonce (a_secret a).
Proof.
  intros E K. assert (Put : forall i x, (i = h -> exists x', x = Some x' /\ x_nonce (a_secret x') = x_nonce (a_secret a)) -> exists a', objects (put w i x) h = Some a' /\ x_nonce (a_secret a') = x_nonce (a_secret a)).
  { intros i x X. destruct (Nat.eq_dec i h) as [->|N]; [rewrite put_here; destruct (X eq_refl) as (x' & -> & Q); eauto|]. rewrite put_there by congruence. eauto. }
  destruct o as [i method hash nonce now|i id|i n|i name|i asked pool turns rnd amounts now ts|i asked ts|i]; cbn [spares AuthenticateModel.step] in *.
  - unfold AcquireAuthenticateInfo. destruct (_ =? _)%N; [|discriminate]. cbn [bind]. intros [= <- <-]. apply Put. contradiction.
  - destruct (objects w i) as [x|] eqn:Ei; [|discriminate]. unfold SetAuthenticateId. destruct (negb _); [discriminate|]. cbn [bind]. intros [= <- <-]. apply Put. intros ->. rewrite E in Ei. injection Ei as <-. now eexists.
  - destruct (objects w i) as [x|] eqn:Ei; [|discriminate]. intros [= <- <-]. apply Put. intros ->. rewrite E in Ei. injection Ei as <-. eexists. split; [reflexivity|]. unfold SetAuthenticateKeyLength. now destruct (_ =? _)%N.
  - destruct (objects w i) as [x|] eqn:Ei; [|discriminate]. intros [= <- <-]. apply Put. intros ->. rewrite E in Ei. injection Ei as <-. eexists. split; [reflexivity|]. unfold SetAuthenticatePassphrase. now destruct (_ =? _)%N.
  - destruct (objects w i) as [x|] eqn:Ei; [|discriminate]. unfold GenerateAuthenticateKey. destruct (negb _); [discriminate|]. destruct (phrase_of x asked) as [phrase|]; cbn [bind].
    + destruct (GenerateSecretKey _ _ _ _ _ _ _ _ _ _ _) as [[[[r s1] file1]|]| |] eqn:Q; cbn [bind]; try discriminate. intros [= <- <-].
      apply Put. intros ->. rewrite E in Ei. injection Ei as <-. eexists. split; [reflexivity|]. cbn [a_secret]. revert Q. unfold SecretModel.GenerateSecretKey.
      destruct (generate_loop _ _ _ _ _ _ _ _) as [s'|] eqn:GL; [|discriminate]. cbv zeta. destruct (EncipherCipher _ _ _); cbn [bind]; try discriminate.
      destruct (ImportKeyringKey _ _ _ _ _ _ _ _). intros [= _ <- _]. cbn [x_nonce]. clear - GL. revert GL. generalize (a_secret a). generalize (draws pool (a_length a / 8) turns).
      induction l as [|k l IH]; intros s; cbn [SecretModel.generate_loop]; [discriminate|]. destruct (ConstructHMAC _ _ _ _ _ _); [|discriminate].
      destruct (ExportKeyringKey _ _ _ _ _ _) as [[] kk]; [intros H; now apply IH in H|]. now intros [= <-].
    + intros [= <- <-]. apply Put. intros ->. rewrite E in Ei. injection Ei as <-. now eexists.
  - destruct (objects w i) as [x|] eqn:Ei; [|discriminate]. unfold AuthenticateKey. destruct (negb _); [discriminate|]. destruct (negb (a_has_id x)); [discriminate|]. cbv zeta.
    destruct (ExportKeyringKey _ _ _ _ _ _) as [st k]. destruct (negb st); cbn [bind].
    + intros [= <- <-]. apply Put. intros ->. rewrite E in Ei. injection Ei as <-. now eexists.
    + destruct (phrase_of x asked) as [phrase|]; cbn [bind].
      * unfold SecretModel.AuthenticateSecretKey. destruct (ExportKeyringKey _ _ _ _ _ _) as [st' k']. destruct (negb st'); cbn [bind].
        -- intros [= <- <-]. apply Put. intros ->. rewrite E in Ei. injection Ei as <-. now eexists.
        -- destruct (DecipherCipher _ _); cbn [bind]; try discriminate. destruct (ConstructHMAC _ _ _ _ _ _); cbn [bind]; [|discriminate].
           intros [= <- <-]. apply Put. intros ->. rewrite E in Ei. injection Ei as <-. now eexists.
      * intros [= <- <-]. apply Put. intros ->. rewrite E in Ei. injection Ei as <-. now eexists.
  - destruct (objects w i) as [x|] eqn:Ei; [|discriminate]. destruct (_ =? _)%N; [|discriminate]. intros [= <- <-]. apply Put. contradiction.
Qed.
Lemma run_nonce h : forall ops w a w', objects w h = Some a -> Forall (spares h) ops -> run ops w = Ok (Some w') ->
  exists a', objects w' h = Some a' /\ x_nonce (a_secret a') = x_nonce (a_secret a).
Proof.
  induction ops as [|o ops IH]; intros w a w' E K; cbn [AuthenticateModel.run]; [intros [= <-]; eauto|].
  inversion_clear K as [|? ? K1 K2]. destruct (step o w) as [[[b w1]|]| |] eqn:Q; cbn [bind]; try discriminate. intros R.
  destruct (step_nonce o w h a b w1 E K1 Q) as (a1 & E1 & N1). destruct (IH w1 a1 w' E1 K2 R) as (a' & E' & N'). exists a'. split; [exact E'|]. now rewrite N'.
Qed.
Lemma xor_both : forall a b s, length a <= length s -> length b <= length s -> xor_list (xor_list a s) (xor_list b s) = xor_list a b.
Proof.
  clear. unfold xor_list. induction a as [|x a IH]; intros [|y b] [|z s] A B; try reflexivity; cbn [length] in A, B; try lia. cbn [map2]. f_equal; [|apply IH; lia].
  rewrite (N.lxor_comm y z), N.lxor_assoc, <- (N.lxor_assoc z z y), N.lxor_nilpotent, N.lxor_0_l. reflexivity.
Qed.
Lemma stream_same phrase nonce (a b : list N) : bytes phrase -> bytes nonce -> length a <= length b ->
  xor_list a (stream phrase nonce (length b)) = xor_list a (stream phrase nonce (length a)).
Proof.
  intros B BN L. assert (GC : good_cipher (secret_cipher phrase nonce)) by now apply secret_cipher_good. pose proof (stream_long phrase nonce (length a) B BN) as SL. unfold stream in *.
  replace (length b / 16 + 1) with ((length a / 16 + 1) + (length b / 16 - length a / 16)) by (pose proof (Nat.div_le_mono (length a) (length b) 16 ltac:(lia) L); lia).
  destruct (stream_split (secret_cipher phrase nonce) (length a / 16 + 1) (length b / 16 - length a / 16)) as (m & ->). now apply xor_app_r.
Qed.
(** Two keys that one object makes for one pass phrase are stored under the same key stream: the keyring alone tells their difference. *)
Theorem authenticate_stream_refuted : forall ops1 w1 h a asked pool turns rnd now ts w2 ops2 w3 a3 asked' pool' turns' rnd' now' ts' w4,
  Forall call_ok ops1 -> run ops1 start = Ok (Some w1) -> objects w1 h = Some a ->
  call_ok (Generate h asked pool turns rnd [] now ts) -> step (Generate h asked pool turns rnd [] now ts) w1 = Ok (Some (true, w2)) ->
  Forall call_ok ops2 -> Forall (spares h) ops2 -> run ops2 w2 = Ok (Some w3) -> objects w3 h = Some a3 ->
  call_ok (Generate h asked' pool' turns' rnd' [] now' ts') -> step (Generate h asked' pool' turns' rnd' [] now' ts') w3 = Ok (Some (true, w4)) ->
  phrase_of a3 asked' = phrase_of a asked ->
  exists a2 a4 key1 key2 id1 id2 es e1 e2, objects w2 h = Some a2 /\ GetKey a2 = Some key1 /\ GetId a2 = Some id1 /\ objects w4 h = Some a4 /\ GetKey a4 = Some key2 /\ GetId a4 = Some id2 /\
    holds (keyring_file w4) es /\ lookup id1 es = Some e1 /\ lookup id2 es = Some e2 /\ xor_list (e_key e1) (e_key e2) = xor_list key1 key2.
Proof using Hjunk Hfuel read_ok.
  intros ops1 w1 h a asked pool turns rnd now ts w2 ops2 w3 a3 asked' pool' turns' rnd' now' ts' w4 O1 R1 E C R O2 K2 R2 E3 C' R' PE.
  destruct (run_good ops1 start [] w1 start_good O1 R1) as (es & G1). cbn [app] in G1.
  destruct (generate_call h a asked pool turns rnd now ts w1 es w2 G1 E C R) as (a2 & phrase & key & id & e & P & PP & I & M & E2 & H2 & N2 & Q1 & Q2 & SI & L & T1 & T2 & T3 & G2).
  destruct (run_good ops2 w2 _ w3 G2 O2 R2) as (more & G3). destruct (run_nonce h ops2 w2 a2 w3 E2 K2 R2) as (a3' & E3' & N3). rewrite E3 in E3'. injection E3' as <-.
  destruct (generate_call h a3 asked' pool' turns' rnd' now' ts' w3 _ w4 G3 E3 C' R') as (a4 & phrase' & key' & id' & e' & P' & PP' & I' & M' & E4 & H4 & N4 & Q1' & Q2' & SI' & L' & T1' & T2' & T3' & G4).
  rewrite PE, P in P'. injection P' as <-. rewrite N3, N2 in T3'.
  exists a2, a4, key, key', id, id', (((es ++ [e]) ++ more) ++ [e']), e, e'. repeat (split; [assumption|]). split; [apply G4|].
  split; [rewrite lookup_app, (lookup_later id es e more T1 L); reflexivity|]. split; [rewrite <- (app_nil_r (_ ++ [e'])); now apply lookup_later|].
  rewrite T3, T3'. assert (BN : bytes (x_nonce (a_secret a))) by (apply fresh_bytes; apply (proj1 G1 h a E)). unfold sealed.
  pose proof (stream_long phrase (x_nonce (a_secret a)) (length key) (proj1 PP) BN). pose proof (stream_long phrase (x_nonce (a_secret a)) (length key') (proj1 PP) BN).
  destruct (Nat.le_ge_cases (length key) (length key')) as [LE|LE].
  - rewrite <- (stream_same phrase (x_nonce (a_secret a)) key key' (proj1 PP) BN LE). apply xor_both; lia.
  - rewrite <- (stream_same phrase (x_nonce (a_secret a)) key' key (proj1 PP) BN LE). apply xor_both; lia.
Qed.
(** A length that is not a multiple of 8 is not reached; one below 8 gives an empty key. *)
Theorem authenticate_length_refuted : forall ops1 w1 h a asked pool turns rnd now ts w2,
  Forall call_ok ops1 -> run ops1 start = Ok (Some w1) -> objects w1 h = Some a -> GetKeyLength a mod 8 <> 0 ->
  call_ok (Generate h asked pool turns rnd [] now ts) -> step (Generate h asked pool turns rnd [] now ts) w1 = Ok (Some (true, w2)) ->
  exists a2 key, objects w2 h = Some a2 /\ GetKey a2 = Some key /\ 8 * length key < GetKeyLength a /\ (GetKeyLength a < 8 -> key = []).
Proof using Hjunk Hfuel read_ok.
  intros ops1 w1 h a asked pool turns rnd now ts w2 O1 R1 E Z C R.
  destruct (authenticate_recovers ops1 w1 h a asked pool turns rnd now ts w2 [] w2 O1 R1 E C R (Forall_nil _) eq_refl) as (a2 & id & key & phrase & E2 & _ & K & _ & _ & Lk & _).
  exists a2, key. split; [exact E2|]. split; [exact K|]. rewrite Lk. pose proof (Nat.div_mod (GetKeyLength a) 8 ltac:(lia)). split; [lia|]. intros S8. rewrite Nat.div_small in Lk by exact S8. now destruct key.
Qed.
(** An object that has no id yet is not refused but ends the program. *)
Theorem authenticate_no_id_refuted : forall w h hash nonce now asked ts, run [Acquire h SecretAuthenticateMethod hash nonce now; Authenticate h asked ts] w = Fatal.
Proof.
  intros. cbn [AuthenticateModel.run AuthenticateModel.step]. unfold AcquireAuthenticateInfo. cbn [N.eqb Pos.eqb SecretAuthenticateMethod bind].
  rewrite put_here. reflexivity.
Qed.
(** ** Settings are the last ones that were made for the object *)
Definition setting : Type := (HashType * nat * option (list N))%type.
Definition told (h : nat) (s : option setting) (o : op) : option setting :=
  match o with
  | Acquire i _ hash _ _ => if Nat.eqb h i then Some (hash, 1024, None) else s
  | SetLength i n => if Nat.eqb h i then option_map (fun '(hash, _, p) => (hash, n, p)) s else s
  | SetPassphrase i name => if Nat.eqb h i then option_map (fun '(hash, n, _) => (hash, n, Some name)) s else s
  | Destroy i => if Nat.eqb h i then None else s
  | SetId _ _ | Generate _ _ _ _ _ _ _ _ | AuthenticateModel.Authenticate _ _ _ => s
  end.
Definition setting_of (a : AuthenticateInfo) : setting := (a_hash a, GetKeyLength a, a_passphrase a).
Definition all_secret (w : world) : Prop := forall h a, objects w h = Some a -> a_method a = SecretAuthenticateMethod.
Lemma put_setting w i x : all_secret w -> (forall a, x = Some a -> a_method a = SecretAuthenticateMethod) ->
  all_secret (put w i x) /\ forall h, option_map setting_of (objects (put w i x) h) = if Nat.eqb h i then option_map setting_of x else option_map setting_of (objects w h).
Proof.
  intros S X. split.
  - intros h a. cbn. destruct (Nat.eqb h i); [apply X|apply S].
  - intros h. cbn. now destruct (Nat.eqb h i).
Qed.
Lemma told_same w i a b h : objects w i = Some a -> setting_of b = setting_of a -> (if Nat.eqb h i then Some (setting_of b) else option_map setting_of (objects w h)) = option_map setting_of (objects w h).
Proof. intros E ->. destruct (Nat.eqb h i) eqn:Q; [|reflexivity]. apply Nat.eqb_eq in Q. subst h. now rewrite E. Qed.
Lemma step_setting o w r w' : all_secret w -> step o w = Ok (Some (r, w')) ->
  all_secret w' /\ forall h, option_map setting_of (objects w' h) = told h (option_map setting_of (objects w h)) o.
Proof.
  intros S. destruct o as [i method hash nonce now|i id|i n|i name|i asked pool turns rnd amounts now ts|i asked ts|i]; cbn [told AuthenticateModel.step].
  - unfold AcquireAuthenticateInfo. destruct (method =? _)%N eqn:M; [|discriminate]. apply N.eqb_eq in M. cbn [bind]. intros [= <- <-].
    destruct (put_setting w i (Some (mkAuth method hash (mkSecret (AcquireKeyringInfo [] now) nonce (AcquireHMACInfo junk hash) [] []) false false SecretKeyLength None)) S) as (A & B); [now intros a [= <-]|].
    split; [exact A|]. intros h. rewrite B. reflexivity.
  - destruct (objects w i) as [x|] eqn:Ei; [|discriminate]. unfold SetAuthenticateId. rewrite (S i x Ei). cbn [negb N.eqb Pos.eqb SecretAuthenticateMethod bind]. intros [= <- <-].
    edestruct (put_setting w i) as (A & B); [exact S| |split; [exact A|intros h; rewrite B; now apply (told_same w i x)]]. now intros a [= <-].
  - destruct (objects w i) as [x|] eqn:Ei; [|discriminate]. unfold SetAuthenticateKeyLength. rewrite (S i x Ei). cbn [N.eqb Pos.eqb SecretAuthenticateMethod]. intros [= <- <-].
    edestruct (put_setting w i) as (A & B); [exact S| |split; [exact A|intros h; rewrite B]]; [now intros a [= <-]|].
    destruct (Nat.eqb h i) eqn:Q; [|reflexivity]. apply Nat.eqb_eq in Q. subst h. now rewrite Ei.
  - destruct (objects w i) as [x|] eqn:Ei; [|discriminate]. unfold SetAuthenticatePassphrase. rewrite (S i x Ei). cbn [N.eqb Pos.eqb SecretAuthenticateMethod]. intros [= <- <-].
    edestruct (put_setting w i) as (A & B); [exact S| |split; [exact A|intros h; rewrite B]]; [now intros a [= <-]|].
    destruct (Nat.eqb h i) eqn:Q; [|reflexivity]. apply Nat.eqb_eq in Q. subst h. now rewrite Ei.
  - destruct (objects w i) as [x|] eqn:Ei; [|discriminate]. unfold GenerateAuthenticateKey. rewrite (S i x Ei). cbn [negb N.eqb Pos.eqb SecretAuthenticateMethod].
    destruct (phrase_of x asked) as [phrase|]; cbn [bind].
    + destruct (GenerateSecretKey _ _ _ _ _ _ _ _ _ _ _) as [[[[r1 s1] file1]|]| |]; cbn [bind]; try discriminate. intros [= <- <-].
      edestruct (put_setting w i) as (A & B); [exact S| |split; [exact A|intros h; refine (eq_trans (B h) _); now apply (told_same w i x)]]. now intros a [= <-].
    + intros [= <- <-]. edestruct (put_setting w i) as (A & B); [exact S| |split; [exact A|intros h; refine (eq_trans (B h) _); now apply (told_same w i x)]]. intros a [= <-]. now apply (S i).
  - destruct (objects w i) as [x|] eqn:Ei; [|discriminate]. unfold AuthenticateKey. rewrite (S i x Ei). cbn [negb N.eqb Pos.eqb SecretAuthenticateMethod]. destruct (negb (a_has_id x)); [discriminate|]. cbv zeta.
    destruct (ExportKeyringKey _ _ _ _ _ _) as [st k]. destruct (negb st); cbn [bind].
    + intros [= <- <-]. edestruct (put_setting w i) as (A & B); [exact S| |split; [exact A|intros h; rewrite B; now apply (told_same w i x)]]. now intros a [= <-].
    + destruct (phrase_of x asked) as [phrase|]; cbn [bind].
      * destruct (AuthenticateSecretKey _ _ _ _ _ _ _) as [[[b1 s1]|]| |]; cbn [bind]; try discriminate. intros [= <- <-].
        edestruct (put_setting w i) as (A & B); [exact S| |split; [exact A|intros h; rewrite B; now apply (told_same w i x)]]. now intros a [= <-].
      * intros [= <- <-]. edestruct (put_setting w i) as (A & B); [exact S| |split; [exact A|intros h; rewrite B; now apply (told_same w i x)]]. now intros a [= <-].
  - destruct (objects w i) as [x|] eqn:Ei; [|discriminate]. destruct (_ =? _)%N; [|discriminate]. intros [= <- <-].
    edestruct (put_setting w i None) as (A & B); [exact S|discriminate|]. split; [exact A|intros h; rewrite B; reflexivity].
Qed.
Theorem authenticate_settings : forall ops w, run ops start = Ok (Some w) ->
  forall h, option_map setting_of (objects w h) = fold_left (told h) ops None.
Proof.
  assert (H : forall ops w w', all_secret w -> run ops w = Ok (Some w') -> forall h, option_map setting_of (objects w' h) = fold_left (told h) ops (option_map setting_of (objects w h))).
  { induction ops as [|o ops IH]; intros w w' S; cbn [AuthenticateModel.run fold_left]; [now intros [= <-]|].
    destruct (step o w) as [[[r w1]|]| |] eqn:E; cbn [bind]; try discriminate. intros R h.
    destruct (step_setting o w r w1 S E) as (S1 & T). rewrite (IH w1 w' S1 R h), T. reflexivity. }
  intros ops w R h. apply (H ops start w); [intros i a; discriminate|exact R].
Qed.
End Props.

(** ** Cases of the hypotheses *)
Definition ex_fresh : list N := ([1; 2; 3; 4; 5; 6; 7; 8] ++ repeat 0 8)%N.
Definition ex_make (seed : N) : op := Generate 0 (Some [97; 98]%N) (fun i => N.of_nat i mod 200 + seed)%N 1 (fun _ => 0%N) [] 5 6.
Definition ex_before : list op := [Acquire 0 1 MD5Hash ex_fresh 4; SetLength 0 27].
Definition ex_calls (ops : list op) : outcome (option world) := run 3 true ex_junk (fun _ => None) ops start.
Example ex_calls_ok : Forall call_ok ex_before /\ call_ok (ex_make 0) /\ call_ok (ex_make 9).
Proof.
  split; [|split].
  - repeat constructor; try discriminate. exists [1; 2; 3; 4; 5; 6; 7; 8]%N. repeat split; repeat constructor.
  - split; [intros p [= <-]; repeat constructor|]. split; [|reflexivity]. intros i. pose proof (N.mod_upper_bound (N.of_nat i) 200). lia.
  - split; [intros p [= <-]; repeat constructor|]. split; [|reflexivity]. intros i. pose proof (N.mod_upper_bound (N.of_nat i) 200). lia.
Qed.
(** two keys; the second object recovers the first, a wrong pass phrase leaves rubbish *)
Definition ex_id : list N := [14; 250; 130; 83; 240; 13; 80; 228; 107; 186; 129; 81; 25; 182; 194; 201]%N.
Definition ex_keys (w : world) : list (option (list N)) := flat_map (fun h => match objects w h with Some a => [GetKey a] | None => [] end) [0; 1].
Definition ex_told (r : outcome (option (bool * world))) : option bool * list (option (list N)) :=
  match r with Ok (Some (b, w)) => (Some b, ex_keys w) | _ => (None, []) end.
Definition ex_both (right wrong : list N) (r : outcome (option world)) : option (list (option (list N)) * (option bool * list (option (list N))) * (option bool * nat)) :=
  match r with
  | Ok (Some w) =>
      let f p := ex_told (step 3 true ex_junk (fun _ => None) (Authenticate 1 (Some p) 8) w) in
      Some (ex_keys w, f right, (fst (f wrong), length (concat (map (fun k => match k with Some k => k | None => [] end) (snd (f wrong))))))
  | _ => None
  end.
Example ex_recovers : ex_both [97; 98]%N [97]%N (ex_calls (ex_before ++ [ex_make 0; ex_make 9; Acquire 1 1 MD5Hash ex_fresh 7; SetId 1 ex_id])) =
  Some ([Some [9; 10; 11]%N; None], (Some true, [Some [9; 10; 11]%N; Some [0; 1; 2]%N]), (Some false, 6)).
Proof. vm_compute. reflexivity. Qed.

Print Assumptions authenticate_recovers.
Print Assumptions authenticate_accepts_only.
Print Assumptions authenticate_unknown.
Print Assumptions authenticate_failed_key_refuted.
Print Assumptions authenticate_stream_refuted.
Print Assumptions authenticate_length_refuted.
Print Assumptions authenticate_no_id_refuted.
Print Assumptions authenticate_settings.
