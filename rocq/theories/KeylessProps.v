(** What the settings of the command line lead to when they are zero: C161.
    CommandProps.v shows that -key-length sets the length of the key to zero, whatever number is given.
    The key of a secret has key_length/8 bytes (secret.c:314-315). *)
From Coq Require Import NArith Arith List Lia Bool.
From Verif Require Import Base Outcome StringInfoModel CipherModel HashModel HashSpec HashProps HmacModel HmacProps KeyringModel KeyringSpec KeyringProps
  SecretModel SecretProps ContentModel.
Import ListNotations.

Section Keyless.
Variables (fuel : nat) (lsb : bool) (junk : list N).
Hypothesis Hjunk : length junk = 64.
Hypothesis Hfuel : 3 <= fuel.
Notation GenerateSecretKey := (GenerateSecretKey fuel lsb junk).
Notation generate_loop := (generate_loop fuel lsb junk).

Lemma loop_draws phrase file ts : forall draws s s', generate_loop phrase draws s file ts = Some s' -> In (x_key s') draws.
Proof.
  induction draws as [|k draws IH]; intros s s'; cbn [SecretModel.generate_loop]; [discriminate|].
  destruct (HmacModel.ConstructHMAC _ _ _ _ _ _) as [hm|]; [|discriminate].
  destruct (ExportKeyringKey _ _ _ _ _ _) as [st k']. destruct st; [intros H; right; eapply IH; exact H|]. intros [= <-]. now left.
Qed.
(** With a key length below eight bits the key a file is enciphered with is empty, whatever the pass phrase and the random numbers. *)
Theorem empty_key_refuted : forall key_length phrase draws s file rnd amounts now ts s1 file1,
  key_length < 8 -> Forall (fun k => length k = key_length / 8) draws ->
  GenerateSecretKey phrase draws s file rnd amounts now ts = Ok (Some (true, s1, file1)) -> x_key s1 = [].
Proof.
  clear Hjunk Hfuel. intros n phrase draws s file rnd amounts now ts s1 file1 L F G. destruct (generate_inv _ _ _ _ _ _ _ _ _ _ _ _ _ G) as (s' & E & _ & _ & -> & _).
  apply loop_draws in E. rewrite Forall_forall in F. apply F in E. rewrite Nat.div_small in E by exact L. now destruct (x_key s').
Qed.
(** And a second file cannot be enciphered with the same pass phrase and keyring: the only id there is is in use, and the search for
    another one does not end, however many keys are drawn. *)
Theorem empty_key_again_refuted : forall hash phrase draws s file es d rnd amounts now ts,
  hash <> SHA2224Hash -> hmac_ok lsb hash (x_hmac s) -> piece_ok phrase -> Forall entry_ok es -> holds fuel lsb junk file es ->
  mac hash phrase [] d -> lookup d es <> None -> Forall (fun k => k = []) draws ->
  GenerateSecretKey phrase draws s file rnd amounts now ts = Ok None.
Proof using Hjunk Hfuel.
  intros hash phrase draws s file es d rnd amounts now ts NH O P OE D M L F. unfold SecretModel.GenerateSecretKey.
  assert (generate_loop phrase draws s file ts = None) as ->; [|reflexivity].
  revert s O. induction F as [|k draws -> F IH]; intros s O; cbn [SecretModel.generate_loop]; [reflexivity|].
  assert (PE : piece_ok []) by (split; [constructor|reflexivity]).
  destruct (construct fuel lsb junk Hjunk Hfuel hash (x_hmac s) phrase [] NH O P PE) as (hm & -> & O' & M').
  rewrite (export_holds fuel lsb junk file es _ ts D OE). cbn [with_id k_id].
  replace (hm_digest hm) with d by (apply (is_hmac_unique hash phrase []); assumption).
  destruct (lookup d es) as [e|]; [|contradiction]. apply IH. exact O'.
Qed.
End Keyless.

(** -chunksize 0 enciphers everything to nothing, and succeeds. *)
Theorem chunk_zero_refuted : forall junk fill rnd cfg plain, c_chunksize cfg = 0 -> EncipherContent junk fill rnd cfg plain = Ok (Some []).
Proof. intros junk fill rnd cfg plain Z. unfold EncipherContent. cbn [encipher_chunks]. rewrite Z. reflexivity. Qed.

Print Assumptions empty_key_refuted.
Print Assumptions empty_key_again_refuted.
Print Assumptions chunk_zero_refuted.

(** The first generation succeeds with the empty key; the second never ends. *)
Example ex_keyless : exists s1 e,
  GenerateSecretKey 3 true ex_junk ex_phrase [[]] ex_s (Some (keyring_bytes ex_header ex_new)) (fun _ => 0%N) [] 5 6
    = Ok (Some (true, s1, Some (keyring_bytes ex_header (ex_new ++ [e])))) /\ x_key s1 = [] /\
  forall n s, hmac_ok true SHA2256Hash (x_hmac s) ->
    GenerateSecretKey 3 true ex_junk ex_phrase (repeat [] n) s (Some (keyring_bytes ex_header (ex_new ++ [e]))) (fun _ => 0%N) [] 5 6 = Ok None.
Proof.
  destruct ex_pieces as [P1 _]. destruct ex_entries as [O1 _]. assert (P2 : Forall piece_ok [[]]) by (constructor; [split; [constructor|reflexivity]|constructor]).
  assert (G : exists s1 file1, GenerateSecretKey 3 true ex_junk ex_phrase [[]] ex_s (Some (keyring_bytes ex_header ex_new)) (fun _ => 0%N) [] 5 6 = Ok (Some (true, s1, file1))).
  { apply (generate_succeeds 3 true ex_junk eq_refl (le_n 3) SHA2256Hash ex_phrase [[]] ex_s _ ex_new);
      [discriminate | exact ex_hmac | exact ex_nonce | exact P1 | exact P2 | exact O1 | now right |].
    exists []. split; [now left|]. intros d D.
    destruct (construct 3 true ex_junk eq_refl (le_n 3) SHA2256Hash (x_hmac ex_s) ex_phrase []) as (hm & _ & O & M);
      [discriminate | exact ex_hmac | exact P1 | now inversion_clear P2 |].
    pose proof (ok_digest _ _ _ O) as L. rewrite (is_hmac_unique _ _ _ _ _ M D) in L. change (GetHashDigestsize SHA2256Hash) with 32 in L.
    cbn [ex_new lookup e_id]. (destruct (list_eq_dec N.eq_dec _ d); [subst d; discriminate L|]). (destruct (list_eq_dec N.eq_dec _ d); [subst d; discriminate L|]). reflexivity. }
  destruct G as (s1 & file1 & G).
  pose proof (empty_key_refuted 3 true ex_junk 0 _ _ _ _ _ _ _ _ s1 file1 ltac:(lia) (Forall_cons [] eq_refl (Forall_nil _)) G) as K.
  destruct (generate_then_authenticate_partial 3 true ex_junk eq_refl (le_n 3) SHA2256Hash ex_phrase [[]] ex_s (Some (keyring_bytes ex_header ex_new)) ex_new (fun _ => 0%N) 5 6 s1 file1)
    as (_ & M & _ & e & Ie & (Me & _) & D & _);
    [discriminate | exact ex_hmac | apply ex_keyring | intros _; exact ex_keyring | apply fresh_bytes, ex_nonce | apply fresh_bytes, ex_nonce | exact P1 | exact P2 | exact O1 | exact ex_modern | now right | exact G |].
  destruct D as [(_ & F)|D]; [now destruct ex_new|]. subst file1. exists s1, e. split; [exact G|]. split; [exact K|].
  intros n s O. rewrite K in M. apply (empty_key_again_refuted 3 true ex_junk eq_refl (le_n 3) SHA2256Hash ex_phrase _ s _ (ex_new ++ [e]) (x_id s1));
    [discriminate | exact O | exact P1 | apply Forall_app; split; [exact O1|constructor; [exact Me|constructor]] | now right | exact M | |].
  - intros L. assert (H : forall es, lookup (x_id s1) (es ++ [e]) <> None).
    { clear - Ie. induction es as [|x es IH]; cbn [app lookup].
      - rewrite Ie. destruct (list_eq_dec N.eq_dec (x_id s1) (x_id s1)); congruence.
      - destruct (list_eq_dec N.eq_dec _ _); [discriminate|exact IH]. }
    exact (H _ L).
  - apply Forall_forall. intros k I. now apply repeat_spec in I.
Qed.
