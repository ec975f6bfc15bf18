(** The keyring of wizard/keyring.c: C30-C34, C36, C71. *)
From Coq Require Import NArith Arith List Lia Bool ZifyBool ZifyNat ZifyN Permutation.
From Verif Require Import Base BaseLemmas Mem32 FileModel FileProps ReadLemmas RandomModel KeyringModel KeyringSpec KeyringProof KeyringInv.
From Verif Require MdProof.
Import ListNotations.
Local Opaque GetWizardMagick.

Definition abs (k : KeyringInfo) : handle := mkHandle (k_id k) (k_key k) (k_nonce k).
Definition abs_entry (e : entry) : list N * (list N * list N) := (e_id e, (e_key e, e_nonce e)).

(** contents that fit the file's fields, not of protocol 1.0 *)
Definition string_ok (x : list N) : Prop := (N.of_nat (length x) < 2 ^ 32)%N /\ bytes x.
Definition modern (k : KeyringInfo) : Prop :=
  (k_major k < 2 ^ 16 /\ k_minor k < 2 ^ 16 /\ k_timestamp k < 2 ^ 64)%N /\ old_version (k_major k) (k_minor k) = false /\
  string_ok (k_id k) /\ string_ok (k_key k) /\ string_ok (k_nonce k).
Definition modern_entry (e : entry) : Prop := entry_ok e /\ old_version (e_major e) (e_minor e) = false.
Definition op_ok (o : op) : Prop :=
  match o with
  | Acquire _ now => (now < 2 ^ 64)%N
  | SetId _ x | SetKey _ x | SetNonce _ x => string_ok x
  | Export _ _ | Import _ _ _ => True
  end.

Lemma modern_entry_of k : modern k -> modern_entry (entry_of k).
Proof.
  intros ((A & B & C) & V & (I1 & I2) & (K1 & K2) & (N1 & N2)). split; [|exact V]. unfold entry_ok, entry_of.
  cbn [e_word e_major e_minor e_timestamp e_id e_key e_nonce]. repeat split; try assumption; reflexivity.
Qed.
Lemma modern_ok es : Forall modern_entry es -> Forall entry_ok es.
Proof. apply Forall_impl. now intros e [? _]. Qed.
Lemma modern_passed es : forall k, Forall modern_entry es -> modern k -> modern (fold_left passed es k).
Proof.
  induction es as [|e es IH]; intros k M K; [exact K|]. inversion_clear M as [|? ? M1 M2]. apply IH; [exact M2|].
  destruct M1 as (((A & B & C & D & _) & _) & V). destruct K as (_ & _ & K). unfold modern, passed, stamp.
  cbn [k_major k_minor k_timestamp k_id k_key k_nonce]. rewrite V. repeat split; try assumption; apply K.
Qed.
Lemma modern_found k e : modern_entry e -> modern k -> modern (found k e (e_nonce e)).
Proof.
  intros (((A & B & C & D & E1 & E2 & E3) & F1 & F2 & F3) & V) (_ & _ & K & _). unfold modern, found, stamp, string_ok.
  cbn [k_major k_minor k_timestamp k_id k_key k_nonce]. rewrite V. repeat split; try assumption; apply K.
Qed.
Lemma lookup_In id es e : lookup id es = Some e -> In e es /\ e_id e = id.
Proof.
  induction es as [|x es IH]; [discriminate|]. cbn [lookup]. destruct (list_eq_dec N.eq_dec (e_id x) id) as [E|].
  - intros [= <-]. split; [now left | exact E].
  - intros L. destruct (IH L). split; [now right | assumption].
Qed.
Lemma lookup_stored id es : stored id (map abs_entry es) = match lookup id es with Some e => Some (e_key e, e_nonce e) | None => None end.
Proof. induction es as [|e es IH]; [reflexivity|]. cbn [map stored lookup abs_entry]. now destruct (list_eq_dec N.eq_dec (e_id e) id). Qed.
Lemma lookup_not_in id es : lookup id es = None -> ~ In id (map e_id es).
Proof.
  induction es as [|x es IH]; [intros _ []|]. cbn [lookup map In]. destruct (list_eq_dec N.eq_dec (e_id x) id) as [|E]; [discriminate|].
  intros L [F|F]; [now apply E | now apply IH].
Qed.
Lemma keyring_app h es es' : keyring_bytes h (es ++ es') = keyring_bytes h es ++ entries es'.
Proof. unfold keyring_bytes, entries. now rewrite map_app, concat_app, app_assoc. Qed.
Lemma update_same {A} (m : nat -> A) h x i : update m h x i = if i =? h then x else m i.
Proof. reflexivity. Qed.

Section Run.
Variables (fuel : nat) (lsb : bool) (junk : list N).
Notation H := (keyring_magick fuel lsb junk ++ keyring_filetype fuel lsb junk).
Notation ExportKeyringKey := (ExportKeyringKey fuel lsb junk).
Notation ImportKeyringKey := (ImportKeyringKey fuel lsb junk).
Notation run := (run fuel lsb junk).
Notation step := (step fuel lsb junk).

(** the file holds exactly these entries; ids are unique *)
Definition holds (file : option (list N)) (es : list entry) : Prop :=
  (file = None /\ es = []) \/ file = Some (keyring_bytes H es).
Definition inv (s : (nat -> KeyringInfo) * option (list N)) (es : list entry) : Prop :=
  (forall h, modern (fst s h)) /\ Forall modern_entry es /\ NoDup (map e_id es) /\ holds (snd s) es.

Lemma export_holds file es k ts : holds file es -> Forall entry_ok es ->
  ExportKeyringKey file k ts = match lookup (k_id k) es with Some e => (true, found k e (e_nonce e)) | None => (false, fold_left passed es k) end.
Proof.
  intros [(-> & ->)| ->] O; [reflexivity|]. destruct (lookup (k_id k) es) as [e|] eqn:L.
  - pose proof (export_found fuel lsb junk es k ts e [] O L) as E. now rewrite app_nil_r in E.
  - pose proof (export_missing fuel lsb junk es k ts [] O L) as E. rewrite app_nil_r in E. apply E. cbn. lia.
Qed.
Lemma import_holds file es k now ts : holds file es -> Forall entry_ok es -> modern k ->
  match lookup (k_id k) es with
  | Some _ => ImportKeyringKey file k [] now ts = (false, file)
  | None => exists file', ImportKeyringKey file k [] now ts = (true, file') /\ holds file' (es ++ [entry_of k])
  end.
Proof.
  intros D O M. unfold KeyringModel.ImportKeyringKey. rewrite (export_holds file es _ ts D O). cbn [k_id AcquireKeyringInfo].
  destruct (lookup (k_id k) es); cbn [fst]; [reflexivity|]. eexists. split; [reflexivity|]. right.
  assert (R : concat (record_chunks k) = entry_bytes (entry_of k)) by (apply record_bytes; apply M).
  destruct D as [(-> & ->)| ->].
  - rewrite import_full_new, R. unfold keyring_bytes. cbn [app map concat]. now rewrite app_nil_r.
  - rewrite keyring_app. unfold keyring_bytes at 1. rewrite import_full, R. unfold entries. cbn [map concat]. now rewrite app_nil_r.
Qed.

(** one call refines the specification *)
Lemma step_refines o s es : inv s es -> op_ok o ->
  let '(r, s') := step o s in
  let '(r2, (hs', m')) := spec_step o (fun h => abs (fst s h), map abs_entry es) in
  r = r2 /\ (forall h, hs' h = abs (fst s' h)) /\ exists more, inv s' (es ++ more) /\ map abs_entry (es ++ more) = m'.
Proof.
  destruct s as [ks file]. intros (M & E & U & D) OK. cbn [fst snd] in *.
  assert (same : forall ks', (forall h, modern (ks' h)) -> exists more, inv (ks', file) (es ++ more) /\ map abs_entry (es ++ more) = map abs_entry es).
  { intros ks' M'. exists []. rewrite app_nil_r. split; [|reflexivity]. split; [exact M'|]. now repeat split. }
  assert (upd : forall h k, modern k -> forall i, modern (update ks h k i)).
  { intros h k K i. rewrite update_same. now destruct (i =? h). }
  assert (upa : forall h k i, update (fun h => abs (ks h)) h (abs k) i = abs (update ks h k i)).
  { intros h k i. unfold update. now destruct (i =? h). }
  destruct o as [h now|h x|h x|h x|h ts|h now ts]; cbn [KeyringModel.step spec_step op_ok] in *.
  - split; [reflexivity|]. split; [intros i; exact (upa h (AcquireKeyringInfo [] now) i)|]. apply same. apply upd.
    repeat split; try assumption; try reflexivity; constructor.
  - split; [reflexivity|]. split; [intros i; exact (upa h (mkKeyring x (k_key (ks h)) (k_nonce (ks h)) (k_major (ks h)) (k_minor (ks h)) (k_timestamp (ks h))) i)|]. apply same. apply upd. destruct (M h) as (A & B & C & F & G). now repeat split; try apply A; try apply OK; try apply F; try apply G.
  - split; [reflexivity|]. split; [intros i; exact (upa h (mkKeyring (k_id (ks h)) x (k_nonce (ks h)) (k_major (ks h)) (k_minor (ks h)) (k_timestamp (ks h))) i)|]. apply same. apply upd. destruct (M h) as (A & B & C & F & G). now repeat split; try apply A; try apply OK; try apply C; try apply G.
  - split; [reflexivity|]. split; [intros i; exact (upa h (mkKeyring (k_id (ks h)) (k_key (ks h)) x (k_major (ks h)) (k_minor (ks h)) (k_timestamp (ks h))) i)|]. apply same. apply upd. destruct (M h) as (A & B & C & F & G). now repeat split; try apply A; try apply OK; try apply C; try apply F.
  - rewrite (export_holds file es (ks h) ts D (modern_ok _ E)). cbn [h_id abs]. rewrite lookup_stored.
    destruct (lookup (k_id (ks h)) es) as [e|] eqn:L.
    + split; [reflexivity|]. split; [intros i; exact (upa h (found (ks h) e (e_nonce e)) i)|]. apply same. apply upd.
      apply modern_found; [|apply M]. destruct (lookup_In _ _ _ L) as [I _]. now apply (proj1 (Forall_forall _ _) E).
    + split; [reflexivity|]. split.
      { intros i. unfold update. cbn [fst]. destruct (Nat.eqb_spec i h) as [->|]; [|reflexivity].
        destruct (passed_same es (ks h)) as (E1 & E2 & E3). unfold abs. now rewrite E1, E2, E3. }
      apply same. apply upd. apply modern_passed; [exact E | apply M].
  - pose proof (import_holds file es (ks h) now ts D (modern_ok _ E) (M h)) as I. cbn [h_id abs]. rewrite lookup_stored.
    destruct (lookup (k_id (ks h)) es) as [e|] eqn:L.
    + rewrite I. split; [reflexivity|]. split; [reflexivity|]. apply same. exact M.
    + destruct I as (file' & -> & D'). split; [reflexivity|]. split; [reflexivity|]. exists [entry_of (ks h)]. split.
      * split; [exact M|]. split; [apply Forall_app; split; [exact E|]; constructor; [|constructor]; now apply modern_entry_of|].
        split; [|exact D']. rewrite map_app. cbn [map]. apply (Permutation_NoDup (l := e_id (entry_of (ks h)) :: map e_id es)); [apply Permutation_cons_append|].
        constructor; [|exact U]. apply lookup_not_in. exact L.
      * rewrite map_app. reflexivity.
Qed.

Lemma spec_step_ext o hs hs' (m : list (list N * (list N * list N))) : (forall h, hs h = hs' h) ->
  fst (spec_step o (hs, m)) = fst (spec_step o (hs', m)) /\ snd (snd (spec_step o (hs, m))) = snd (snd (spec_step o (hs', m))) /\
  (forall h, fst (snd (spec_step o (hs, m))) h = fst (snd (spec_step o (hs', m))) h).
Proof.
  intros E. destruct o as [h now|h x|h x|h x|h ts|h now ts]; cbn [spec_step]; rewrite <- ?(E h);
    try (cbn [fst snd]; split; [reflexivity|]; split; [reflexivity|]; intros i; unfold update; destruct (i =? h); [reflexivity | apply E]).
  - destruct (stored (h_id (hs h)) m) as [[key nonce]|]; cbn [fst snd]; (split; [reflexivity|]; split; [reflexivity|]); intros i; unfold update; try apply E.
    destruct (i =? h); [reflexivity | apply E].
  - destruct (stored (h_id (hs h)) m) as [[key nonce]|]; cbn [fst snd]; (split; [reflexivity|]; split; [reflexivity|]); exact E.
Qed.

(** C30, C31: every history of calls through any number of KeyringInfos gives
    the results and the contents of a map from ids to secrets that never
    replaces an entry *)
Theorem keyring_history : forall ops s es hs, inv s es -> Forall op_ok ops -> (forall h, hs h = abs (fst s h)) ->
  let '(rs, s') := run ops s in
  let '(rs2, (hs', m')) := spec_run ops (hs, map abs_entry es) in
  rs = rs2 /\ (forall h, hs' h = abs (fst s' h)) /\ exists more, inv s' (es ++ more) /\ map abs_entry (es ++ more) = m'.
Proof.
  induction ops as [|o ops IH]; intros s es hs I F E; cbn [KeyringModel.run spec_run].
  - split; [reflexivity|]. split; [exact E|]. exists []. rewrite app_nil_r. now split.
  - inversion_clear F as [|? ? F1 F2]. pose proof (step_refines o s es I F1) as S.
    pose proof (spec_step_ext o hs (fun h => abs (fst s h)) (map abs_entry es) E) as X. revert S X. unfold store in *.
    destruct (step o s) as [r s1]. destruct (spec_step o (fun h => abs (fst s h), map abs_entry es)) as [r2 [hs2 m2]].
    destruct (spec_step o (hs, map abs_entry es)) as [r3 [hs3 m3]]. cbn [fst snd]. intros (-> & S2 & more & I1 & <-) (-> & -> & X3).
    assert (S3 : forall h, hs3 h = abs (fst s1 h)) by (intros h; rewrite X3; apply S2).
    specialize (IH s1 (es ++ more) hs3 I1 F2 S3). revert IH. unfold store in *. destruct (run ops s1) as [rs s']. destruct (spec_run ops (hs3, map abs_entry (es ++ more))) as [rs2 [hs' m']].
    intros (-> & H2 & more2 & I2 & H3). split; [reflexivity|]. split; [exact H2|]. exists (more ++ more2). now rewrite app_assoc.
Qed.

Lemma run_inv ops s es : inv s es -> Forall op_ok ops -> exists more, inv (snd (run ops s)) (es ++ more).
Proof.
  intros I F. pose proof (keyring_history ops s es (fun h => abs (fst s h)) I F (fun h => eq_refl)) as K. revert K.
  destruct (run ops s) as [rs s']. destruct (spec_run _ _) as [rs2 [hs' m']]. intros (_ & _ & more & K & _). now exists more.
Qed.
Definition start (ks : nat -> KeyringInfo) : (nat -> KeyringInfo) * option (list N) := (ks, None).
Lemma start_inv ks : (forall h, modern (ks h)) -> inv (start ks) [].
Proof. intros M. split; [exact M|]. split; [constructor|]. split; [constructor|]. now left. Qed.

(** C30: what a successful import stored is what every later export returns *)
Theorem imported_key_exports : forall ks ops h now ts ops' g ts', (forall h, modern (ks h)) -> Forall op_ok ops -> Forall op_ok ops' ->
  let s1 := snd (run ops (start ks)) in
  let k := fst s1 h in
  fst (step (Import h now ts) s1) = true ->
  let s2 := snd (run ops' (snd (step (Import h now ts) s1))) in
  k_id (fst s2 g) = k_id k ->
  exists k', ExportKeyringKey (snd s2) (fst s2 g) ts' = (true, k') /\ k_key k' = k_key k /\ k_nonce k' = k_nonce k.
Proof.
  intros ks ops h now ts ops' g ts' M F F' s1 k R s2 ID.
  destruct (run_inv ops (start ks) [] (start_inv ks M) F) as (es & I1). fold s1 in I1. cbn [app] in I1.
  assert (I2 : exists more, inv (snd (step (Import h now ts) s1)) ((es ++ [entry_of k]) ++ more) /\ lookup (k_id k) es = None).
  { destruct I1 as (A & B & C & D). pose proof (import_holds (snd s1) es k now ts D (modern_ok _ B) (A h)) as P.
    pose proof (step_refines (Import h now ts) s1 es (conj A (conj B (conj C D))) I) as Q.
    revert R Q. unfold k in *. destruct s1 as [ks1 file]. cbn [KeyringModel.step fst snd] in *. destruct (lookup (k_id (ks1 h)) es) as [e|] eqn:L.
    - rewrite P. discriminate.
    - destruct P as (file' & -> & D'). intros _. cbn [spec_step h_id abs]. rewrite lookup_stored, L. intros (_ & _ & more & J & _).
      exists []. rewrite app_nil_r. split; [|reflexivity]. destruct J as (J1 & J2 & J3 & J4). split; [exact A|]. cbn [snd] in *.
      split; [apply Forall_app; split; [exact B|]; constructor; [|constructor]; now apply modern_entry_of|].
      split; [|exact D']. rewrite map_app. cbn [map].
      apply (Permutation_NoDup (l := e_id (entry_of (ks1 h)) :: map e_id es)); [apply Permutation_cons_append|].
      constructor; [|exact C]. apply lookup_not_in. exact L. }
  destruct I2 as (more & I2 & L). destruct (run_inv ops' _ _ I2 F') as (more' & (A & B & C & D)). fold s2 in A, D.
  exists (found (fst s2 g) (entry_of k) (e_nonce (entry_of k))). rewrite (export_holds _ _ _ ts' D (modern_ok _ B)).
  rewrite <- !app_assoc, lookup_app, ID, L. cbn [app lookup]. change (e_id (entry_of k)) with (k_id k).
  destruct (list_eq_dec N.eq_dec (k_id k) (k_id k)); [|contradiction]. now repeat split.
Qed.

(** C31: an id that is in the keyring cannot be imported again, whatever
    follows its entry in the file and whatever the writes would do; and ids
    stay unique *)
Theorem import_duplicate : forall es tail k amounts now ts e, Forall entry_ok es -> lookup (k_id k) es = Some e ->
  ImportKeyringKey (Some (keyring_bytes H es ++ tail)) k amounts now ts = (false, Some (keyring_bytes H es ++ tail)).
Proof.
  intros es tail k amounts now ts e O L. unfold KeyringModel.ImportKeyringKey.
  now rewrite (export_found fuel lsb junk es (AcquireKeyringInfo (k_id k) now) ts e tail O L).
Qed.
Theorem ids_unique : forall ks ops, (forall h, modern (ks h)) -> Forall op_ok ops ->
  exists es, holds (snd (snd (run ops (start ks)))) es /\ NoDup (map e_id es).
Proof.
  intros ks ops M F. destruct (run_inv ops (start ks) [] (start_inv ks M) F) as (es & (A & B & C & D)). now exists es.
Qed.

(** C32: the process dies after [n] bytes of the import were written: every
    entry is still exported, with the same result *)
Theorem crash_keeps_keys : forall es tail k n now ts k0 ts0 e, Forall entry_ok es -> lookup (k_id k0) es = Some e ->
  let file := Some (keyring_bytes H es ++ tail) in
  let file' := snd (ImportKeyringKey file k (crash_amounts fuel lsb junk n k) now ts) in
  ExportKeyringKey file k0 ts0 = (true, found k0 e (e_nonce e)) /\
  ExportKeyringKey file' k0 ts0 = ExportKeyringKey file k0 ts0.
Proof.
  intros es tail k n now ts k0 ts0 e O L file file'. pose proof (export_found fuel lsb junk es k0 ts0 e tail O L) as E.
  split; [exact E|]. unfold file', KeyringModel.ImportKeyringKey. destruct (fst _); cbn [snd]; [reflexivity|]. unfold file.
  rewrite E. unfold keyring_bytes. rewrite <- app_assoc, crash_good.
  rewrite <- app_assoc. rewrite <- (app_assoc (concat _)). rewrite app_assoc. exact (export_found fuel lsb junk es k0 ts0 e _ O L).
Qed.
(** and a crash of the import that creates the file leaves a prefix of the
    complete file *)
Theorem crash_new_file : forall k n now ts, old_version (k_major k) (k_minor k) = false ->
  snd (ImportKeyringKey None k (crash_amounts fuel lsb junk n k) now ts) = Some (firstn n (keyring_bytes H [entry_of k])).
Proof.
  intros k n now ts V. unfold KeyringModel.ImportKeyringKey. cbn [KeyringModel.ExportKeyringKey fst snd].
  rewrite crash_new, record_bytes by exact V. unfold keyring_bytes. cbn [map concat]. now rewrite app_nil_r.
Qed.

(** C33 does not hold: if the crash left one or two bytes of the new record,
    every later import reports success, and its key cannot be exported *)
Theorem torn_import_loses_later_keys_refuted : forall es k j now ts k' now' ts' k0 ts0, Forall entry_ok es -> (j = 1 \/ j = 2) ->
  lookup (k_id k) es = None -> lookup (k_id k') es = None -> k_id k0 = k_id k' ->
  let torn := snd (ImportKeyringKey (Some (keyring_bytes H es)) k (crash_amounts fuel lsb junk (length H + j) k) now ts) in
  let '(status, later) := ImportKeyringKey torn k' [] now' ts' in
  status = true /\ fst (ExportKeyringKey later k0 ts0) = false.
Proof.
  intros es k j now ts k' now' ts' k0 ts0 O J L L' I.
  assert (T : snd (ImportKeyringKey (Some (keyring_bytes H es)) k (crash_amounts fuel lsb junk (length H + j) k) now ts) =
    Some (keyring_bytes H es ++ firstn j (concat (record_chunks k)))).
  { unfold KeyringModel.ImportKeyringKey. pose proof (export_missing fuel lsb junk es (AcquireKeyringInfo (k_id k) now) ts [] O L) as E.
    rewrite app_nil_r in E. rewrite E by (cbn; lia). cbn [fst snd]. f_equal. unfold keyring_bytes. rewrite crash_good, Nat.add_comm, Nat.add_sub. reflexivity. }
  intros torn. subst torn. rewrite T.
  assert (S : firstn j (concat (record_chunks k)) = firstn j (le_bytes 4 WizardSignature)).
  { unfold record_chunks. rewrite buffer32_spec. cbn [concat]. rewrite firstn_app, le_bytes_length.
    replace (j - 4) with 0 by lia. now rewrite firstn_O, app_nil_r. }
  rewrite S. set (x := firstn j (le_bytes 4 WizardSignature)).
  assert (LX : length x = j) by (unfold x; rewrite firstn_length, le_bytes_length; lia).
  unfold KeyringModel.ImportKeyringKey. rewrite (export_missing fuel lsb junk es (AcquireKeyringInfo (k_id k') now') ts' x O L') by lia.
  cbn [fst]. split; [reflexivity|]. unfold keyring_bytes at 1. rewrite <- app_assoc, import_full.
  rewrite <- app_assoc. rewrite <- (app_assoc (concat _)). rewrite app_assoc.
  assert (L0 : lookup (k_id k0) es = None) by now rewrite I.
  destruct (export_skip fuel lsb junk es k0 ts0 (x ++ concat (record_chunks k')) O L0) as (t & f & len' & ts1 & A & _ & E).
  unfold keyring_bytes in E. rewrite E. clear E.
  assert (X : exists v s, x ++ concat (record_chunks k') = le_bytes 4 v ++ s /\ (v < 2 ^ 32)%N /\ v <> WizardSignature).
  { unfold record_chunks. rewrite buffer32_spec. cbn [concat]. generalize (buffer32 0). intros w. unfold x.
    destruct J as [-> | ->].
    - exists 0xacadabab%N. eexists. split; [|split; [reflexivity | discriminate]]. cbn [firstn]. reflexivity.
    - exists 0xadabadab%N. eexists. split; [|split; [reflexivity | discriminate]]. cbn [firstn]. reflexivity. }
  destruct X as (v & s & X & V1 & V2). rewrite X in A. now rewrite (loop_bad_signature t f _ len' ts1 v s A V1 V2).
Qed.

(** C34: what a success tells, for every file of bytes: the header, complete
    entries with other ids, and an entry of the id that is complete up to its
    nonce, of which a part may be missing *)
Theorem exported_record_present_partial : forall b k ts k', bytes b -> ExportKeyringKey (Some b) k ts = (true, k') ->
  exists es e r, b = keyring_bytes H es ++ entry_head e ++ r /\ Forall entry_ok es /\ entry_ok e /\ lookup (k_id k) es = None /\
    e_id e = k_id k /\ k_key k' = e_key e /\ k_nonce k' = e_nonce e /\
    e_nonce e = firstn (length (e_nonce e)) r ++ repeat 0%N (length (e_nonce e) - length r).
Proof.
  intros b k ts k' B E. destruct (export_inv fuel lsb junk b k ts k' B E) as (es & e & r & E1 & E2 & E3 & E4 & E5 & -> & E7).
  exists es, e, r. now repeat split; try apply E3.
Qed.
(** the nonce need not be there *)
Theorem truncated_nonce_exported_refuted : forall es e j k ts, Forall entry_ok es -> entry_ok e -> lookup (e_id e) es = None ->
  k_id k = e_id e -> 0 < j <= length (e_nonce e) ->
  let kept := firstn (length (e_nonce e) - j) (e_nonce e) in
  let file := keyring_bytes H es ++ entry_head e ++ kept in
  length file < length (keyring_bytes H (es ++ [e])) /\
  ExportKeyringKey (Some file) k ts = (true, found k e (kept ++ repeat 0%N j)).
Proof.
  intros es e j k ts O OE L I J kept file.
  assert (LK : length kept = length (e_nonce e) - j) by (unfold kept; rewrite firstn_length; lia). split.
  - unfold file. rewrite keyring_app. unfold entries, entry_bytes. cbn [map concat]. rewrite app_nil_r, !app_length, LK. lia.
  - rewrite <- I in L. destruct (export_skip fuel lsb junk es k ts (entry_head e ++ kept) O L) as (t & f & len' & ts' & A & T & E).
    unfold file. rewrite E. destruct t as [|t]; [lia|]. destruct (loop_head t f (fold_left passed es k) len' ts' e kept OE A) as (f' & A' & ->).
    destruct (read_chunk_part f' kept (length (e_nonce e)) A') as (st & f2 & ->).
    rewrite firstn_all2 by lia. destruct (passed_same es k) as (-> & _). rewrite I, same_string_refl.
    replace (length (e_nonce e) - length kept) with j by lia. unfold found. destruct (passed_same es k) as (-> & _). reflexivity.
Qed.

(** C36 does not hold for ImportKeyringKey: what it returns does not depend on
    the writes; when nothing was written it returns success, and the key is
    not there *)
Theorem import_result_ignores_writes_refuted : forall file k amounts amounts' now ts,
  fst (ImportKeyringKey file k amounts now ts) = fst (ImportKeyringKey file k amounts' now ts).
Proof. intros. unfold KeyringModel.ImportKeyringKey. now destruct (fst (ExportKeyringKey file _ ts)). Qed.
Theorem import_success_stored_refuted : forall es k now ts ts', Forall entry_ok es -> lookup (k_id k) es = None ->
  let file := Some (keyring_bytes H es) in
  ImportKeyringKey file k (crash_amounts fuel lsb junk 0 k) now ts = (true, file) /\
  fst (ExportKeyringKey file k ts') = false.
Proof.
  intros es k now ts ts' O L file.
  assert (E : forall k ts, lookup (k_id k) es = None -> fst (ExportKeyringKey file k ts) = false).
  { intros k1 ts1 L1. pose proof (export_missing fuel lsb junk es k1 ts1 [] O L1) as E. rewrite app_nil_r in E. unfold file. rewrite E by (cbn; lia). reflexivity. }
  split; [|now apply E]. unfold KeyringModel.ImportKeyringKey. rewrite (E (AcquireKeyringInfo (k_id k) now) ts L). f_equal. unfold file, keyring_bytes.
  rewrite crash_good, Nat.sub_0_l, firstn_O, app_nil_r. reflexivity.
Qed.

(** C71 does not hold: a KeyringInfo that read an entry of protocol 1.0 keeps
    that version and, imported, writes a record that cannot be read: its
    timestamp is taken for the length of the id *)
Theorem keyring_1_0_import_unreadable_refuted : forall es k now ts k0 ts0, Forall entry_ok es -> lookup (k_id k) es = None ->
  k_major k = 1%N -> k_minor k = 0%N -> k_id k0 = k_id k ->
  (N.of_nat (length (k_id k) + length (k_key k) + length (k_nonce k)) + 16 < k_timestamp k mod 2 ^ 32)%N ->
  let '(status, file) := ImportKeyringKey (Some (keyring_bytes H es)) k [] now ts in
  status = true /\ fst (ExportKeyringKey file k0 ts0) = false.
Proof.
  intros es k now ts k0 ts0 O L VJ VM I T. unfold KeyringModel.ImportKeyringKey.
  pose proof (export_missing fuel lsb junk es (AcquireKeyringInfo (k_id k) now) ts [] O L) as E. rewrite app_nil_r in E. rewrite E by (cbn; lia).
  cbn [fst]. split; [reflexivity|]. clear E. unfold keyring_bytes at 1. rewrite import_full.
  assert (L0 : lookup (k_id k0) es = None) by now rewrite I.
  destruct (export_skip fuel lsb junk es k0 ts0 (concat (record_chunks k)) O L0) as (t & f & len' & ts' & A & _ & E).
  unfold keyring_bytes in E. rewrite E. clear E. destruct t as [|t]; [reflexivity|]. cbn [export_loop].
  unfold record_chunks in A. rewrite !buffer32_spec, !buffer16_spec, buffer64_spec in A. cbn [concat] in A. rewrite app_nil_r, VJ, VM in A.
  change 8 with (4 + 4) in A. rewrite MdProof.le_bytes_app, <- app_assoc, <- (MdProof.le_bytes_mod 4 (k_timestamp k)) in A.
  destruct (read32_app f _ _ 0%N A eq_refl) as (f1 & -> & A1). rewrite N.eqb_refl. cbn [negb].
  destruct (read32_app f1 _ _ len' A1 eq_refl) as (f2 & -> & A2).
  destruct (read16_app f2 _ _ (k_major (fold_left passed es k0)) A2 eq_refl) as (f3 & -> & A3).
  destruct (read16_app f3 _ _ (k_minor (fold_left passed es k0)) A3 eq_refl) as (f4 & -> & A4). cbn [N.eqb Pos.eqb andb].
  change (256 ^ N.of_nat 4)%N with (2 ^ 32)%N in A4.
  destruct (read32_app f4 _ _ 0%N A4) as (f5 & -> & A5); [apply N.mod_lt; discriminate|]. cbn [negb].
  match type of A5 with at_ _ ?s => pose proof (read_chunk_at f5 s (N.to_nat (k_timestamp k mod 2 ^ 32)) A5) as R; rewrite take_none in R end.
  - destruct R as (x & f6 & R). rewrite R. destruct (ReadFile32Bits f6 _) as [[s7 v7] f7]. cbn [andb negb]. reflexivity.
  - rewrite !app_length, !le_bytes_length. revert T. generalize (k_timestamp k mod 2 ^ 32)%N. intros; lia.
Qed.
End Run.

(** ** examples *)
Definition ex_ops : list op :=
  [SetId 0 [1; 2]; SetKey 0 [7; 7; 7]; SetNonce 0 [9]; Import 0 5 0; SetId 1 [3]; Export 1 0; SetKey 1 [8]; Import 1 6 0;
   Acquire 2 8; SetId 2 [1; 2]; Import 2 9 0; Export 2 1]%N.
Definition ex_ks : nat -> KeyringInfo := fun _ => AcquireKeyringInfo [] 4.
Example ex_ks_modern : forall h, modern (ex_ks h).
Proof. intros h. repeat split; constructor. Qed.
Example ex_ops_ok : Forall op_ok ex_ops.
Proof. repeat (constructor; try (repeat split; try reflexivity; repeat (constructor; try reflexivity))). Qed.
Example ex_history : forall fuel lsb junk, let '(rs, s) := run fuel lsb junk ex_ops (start ex_ks) in
  rs = [true; true; true; true; true; false; true; true; true; true; false; true] /\
  k_key (fst s 2) = [7; 7; 7]%N /\ k_nonce (fst s 2) = [9]%N.
Proof.
  intros fuel lsb junk. pose proof (keyring_history fuel lsb junk ex_ops (start ex_ks) [] (fun h => abs (ex_ks h)) (start_inv fuel lsb junk _ ex_ks_modern) ex_ops_ok (fun h => eq_refl)) as K.
  destruct (run fuel lsb junk ex_ops (start ex_ks)) as [rs s]. cbn in K. destruct K as (-> & A & _). split; [reflexivity|].
  specialize (A 2). cbn in A. injection A as A1 A2 A3. now split.
Qed.
Lemma run_app fuel lsb junk a : forall b s, snd (run fuel lsb junk (a ++ b) s) = snd (run fuel lsb junk b (snd (run fuel lsb junk a s))).
Proof.
  induction a as [|o a IH]; intros b s; [reflexivity|]. cbn [app run]. destruct (step fuel lsb junk o s) as [r s1].
  specialize (IH b s1). destruct (run fuel lsb junk (a ++ b) s1), (run fuel lsb junk a s1). exact IH.
Qed.
(** the hypotheses of imported_key_exports: import through 0, then the rest *)
Example ex_imported : forall fuel lsb junk,
  let s1 := snd (run fuel lsb junk (firstn 3 ex_ops) (start ex_ks)) in
  fst (step fuel lsb junk (Import 0 5 0) s1) = true /\
  k_id (fst (snd (run fuel lsb junk (skipn 4 ex_ops) (snd (step fuel lsb junk (Import 0 5 0) s1)))) 2) = k_id (fst s1 0).
Proof.
  intros fuel lsb junk. cbv zeta. split; [reflexivity|].
  pose proof (keyring_history fuel lsb junk ex_ops (start ex_ks) [] (fun h => abs (ex_ks h)) (start_inv fuel lsb junk _ ex_ks_modern) ex_ops_ok (fun h => eq_refl)) as K.
  assert (R : snd (run fuel lsb junk ex_ops (start ex_ks)) =
    snd (run fuel lsb junk (skipn 4 ex_ops) (snd (step fuel lsb junk (Import 0 5 0) (snd (run fuel lsb junk (firstn 3 ex_ops) (start ex_ks))))))).
  { change ex_ops with (firstn 4 ex_ops ++ skipn 4 ex_ops) at 1. apply run_app. }
  rewrite <- R. clear R. revert K. destruct (run fuel lsb junk ex_ops (start ex_ks)) as [rs s]. cbn. intros (_ & A & _).
  specialize (A 2). cbn in A. now injection A as A1 A2 A3.
Qed.
(** entries, one of protocol 1.0 *)
Definition ex_es : list entry := [mkEntry 77 1 0 0 [1; 2] [7; 7; 7] [9; 9]; mkEntry 0 1 1 1700000000 [3] [8] []]%N.
Definition ex_k : KeyringInfo := mkKeyring [4]%N [5; 6]%N [1; 2; 3]%N 1 1 1700000001.
Example ex_es_ok : Forall entry_ok ex_es.
Proof. repeat (constructor; try (repeat split; try reflexivity; repeat (constructor; try reflexivity))). Qed.
Example ex_lookup : lookup [3]%N ex_es = Some (mkEntry 0 1 1 1700000000 [3] [8] [])%N /\ lookup (k_id ex_k) ex_es = None.
Proof. now split. Qed.
Example ex_truncated : entry_ok (entry_of ex_k) /\ lookup (e_id (entry_of ex_k)) ex_es = None /\ 0 < 2 <= length (e_nonce (entry_of ex_k)).
Proof. repeat split; try reflexivity; repeat (constructor; try reflexivity). Qed.
(** a handle that has just exported the entry of protocol 1.0 *)
Definition ex_old : KeyringInfo := mkKeyring [4]%N [5; 6]%N [1; 2; 3]%N 1 0 77.
Example ex_old_hypotheses : lookup (k_id ex_old) ex_es = None /\ k_major ex_old = 1%N /\ k_minor ex_old = 0%N /\
  (N.of_nat (length (k_id ex_old) + length (k_key ex_old) + length (k_nonce ex_old)) + 16 < k_timestamp ex_old mod 2 ^ 32)%N /\
  forall fuel lsb junk, snd (ExportKeyringKey fuel lsb junk
    (Some (keyring_bytes (keyring_magick fuel lsb junk ++ keyring_filetype fuel lsb junk) ex_es)) (AcquireKeyringInfo [1; 2]%N 5) 0) =
    mkKeyring [1; 2]%N [7; 7; 7]%N [9; 9]%N 1 0 77.
Proof.
  repeat split; try reflexivity. intros fuel lsb junk.
  pose proof (export_found fuel lsb junk ex_es (AcquireKeyringInfo [1; 2]%N 5) 0 (mkEntry 77 1 0 0 [1; 2] [7; 7; 7] [9; 9])%N [] ex_es_ok eq_refl) as E.
  rewrite app_nil_r in E. now rewrite E.
Qed.

Print Assumptions keyring_history.
Print Assumptions imported_key_exports.
Print Assumptions import_duplicate.
Print Assumptions ids_unique.
Print Assumptions crash_keeps_keys.
Print Assumptions crash_new_file.
Print Assumptions torn_import_loses_later_keys_refuted.
Print Assumptions exported_record_present_partial.
Print Assumptions truncated_nonce_exported_refuted.
Print Assumptions import_result_ignores_writes_refuted.
Print Assumptions import_success_stored_refuted.
Print Assumptions keyring_1_0_import_unreadable_refuted.
