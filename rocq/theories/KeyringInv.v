(** What a successful ExportKeyringKey tells about the file. *)
From Coq Require Import NArith Arith List Lia Bool ZifyBool ZifyNat ZifyN.
From Verif Require Import Base BaseLemmas Mem32 FileModel FileProps ReadLemmas RandomModel KeyringModel KeyringSpec KeyringProof.
Import ListNotations.
Local Opaque GetWizardMagick.

Lemma entries_cons e es : entries (e :: es) = entry_bytes e ++ entries es.
Proof. reflexivity. Qed.

Lemma loop_inv t : forall f k len ts s k', at_ f s -> bytes s -> export_loop t f k len ts = (true, k') ->
  exists es e r, s = entries es ++ entry_head e ++ r /\ Forall entry_ok es /\ entry_ok e /\ lookup (k_id k) es = None /\
    e_id e = k_id k /\ k' = found k e (e_nonce e) /\
    e_nonce e = firstn (length (e_nonce e)) r ++ repeat 0%N (length (e_nonce e) - length r).
Proof.
  induction t as [|t IH]; intros f k len ts s k' A B E; [discriminate|]. cbn [export_loop] in E.
  destruct (ReadFile32Bits f 0%N) as [[s0 v0] f0] eqn:R0. destruct s0; cbn [negb] in E; [|discriminate].
  destruct (N.eqb_spec v0 WizardSignature) as [->|]; cbn [negb] in E; [|discriminate].
  destruct (read32_inv _ _ _ _ _ A B R0) as (t0 & -> & _ & A0 & B0). clear A B R0.
  destruct (ReadFile32Bits f0 len) as [[s1 v1] f1] eqn:R1.
  destruct (ReadFile16Bits f1 (k_major k)) as [[s2 v2] f2] eqn:R2.
  destruct (ReadFile16Bits f2 (k_minor k)) as [[s3 v3] f3] eqn:R3.
  destruct (if (v2 =? 1)%N && (v3 =? 0)%N then (true, v1, f3) else ReadFile64Bits f3 ts) as [[s4 v4] f4] eqn:R4.
  destruct (ReadFile32Bits f4 v1) as [[s5 v5] f5] eqn:R5.
  destruct s1, s2, s3, s4, s5; cbn [andb negb] in E; try discriminate.
  destruct (read32_inv _ _ _ _ _ A0 B0 R1) as (t1 & -> & V1 & A1 & B1). clear A0 R1.
  destruct (read16_inv _ _ _ _ _ A1 B1 R2) as (t2 & -> & V2 & A2 & B2). clear A1 R2.
  destruct (read16_inv _ _ _ _ _ A2 B2 R3) as (t3 & -> & V3 & A3 & B3). clear A2 R3.
  assert (X : exists u t4, (u < 2 ^ 64)%N /\ t3 = (if old_version v2 v3 then [] else le_bytes 8 u) ++ t4 /\ at_ f4 t4 /\ bytes t4 /\
    v4 = (if old_version v2 v3 then v1 else u)).
  { unfold old_version. destruct ((v2 =? 1)%N && (v3 =? 0)%N).
    - injection R4 as <- <-. exists 0%N, t3. repeat split; assumption.
    - destruct (read64_inv _ _ _ _ _ A3 B3 R4) as (t4 & -> & V4 & A4 & B4). exists v4, t4. repeat split; assumption. }
  destruct X as (u & t4 & U & -> & A4 & B4 & ->). clear A3 R4.
  destruct (read32_inv _ _ _ _ _ A4 B4 R5) as (t5 & -> & V5 & A5 & B5). clear A4 R5.
  destruct (read_chunk f5 (N.to_nat v5)) as [[s6 id] f6] eqn:R6.
  destruct (ReadFile32Bits f6 v5) as [[s7 v7] f7] eqn:R7.
  destruct s6, s7; cbn [andb negb] in E; try discriminate.
  destruct (read_chunk_inv _ _ _ _ _ A5 R6) as (t6 & -> & L6 & A6). clear A5 R6. apply Forall_app in B5 as [I6 B6].
  destruct (read32_inv _ _ _ _ _ A6 B6 R7) as (t7 & -> & V7 & A7 & B7). clear A6 R7.
  destruct (read_chunk f7 (N.to_nat v7)) as [[s8 key] f8] eqn:R8.
  destruct (ReadFile32Bits f8 v7) as [[s9 v9] f9] eqn:R9.
  destruct s8, s9; cbn [andb negb] in E; try discriminate.
  destruct (read_chunk_inv _ _ _ _ _ A7 R8) as (t8 & -> & L8 & A8). clear A7 R8. apply Forall_app in B7 as [I8 B8].
  destruct (read32_inv _ _ _ _ _ A8 B8 R9) as (t9 & -> & V9 & A9 & B9). clear A8 R9.
  destruct (read_chunk f9 (N.to_nat v9)) as [[s10 d] f10] eqn:R10.
  pose proof (read_chunk_part f9 t9 (N.to_nat v9) A9) as (st & f' & R'). rewrite R10 in R'. injection R' as _ ED _. subst d.
  set (nonce := firstn (N.to_nat v9) t9 ++ repeat 0%N (N.to_nat v9 - length (firstn (N.to_nat v9) t9))) in E.
  assert (LN : length nonce = N.to_nat v9) by (unfold nonce; rewrite app_length, repeat_length, firstn_length; lia).
  assert (NE : nonce = firstn (length nonce) t9 ++ repeat 0%N (length nonce - length t9)).
  { rewrite LN. unfold nonce. f_equal. f_equal. rewrite firstn_length. lia. }
  assert (NB : bytes nonce).
  { unfold nonce. apply Forall_app. split; [now apply Forall_firstn_|]. apply Forall_forall. intros x Hx. apply repeat_spec in Hx. subst. reflexivity. }
  set (e := mkEntry v1 v2 v3 u id key nonce).
  assert (OE : entry_ok e).
  { unfold entry_ok, e. cbn [e_word e_major e_minor e_timestamp e_id e_key e_nonce]. repeat split; try assumption; lia. }
  assert (HD : entry_head e = le_bytes 4 WizardSignature ++ le_bytes 4 v1 ++ le_bytes 2 v2 ++ le_bytes 2 v3 ++
     (if old_version v2 v3 then [] else le_bytes 8 u) ++ le_bytes 4 v5 ++ id ++ le_bytes 4 v7 ++ key ++ le_bytes 4 v9).
  { unfold entry_head, e. cbn [e_word e_major e_minor e_timestamp e_id e_key e_nonce]. rewrite LN, L6, L8, !N2Nat.id. reflexivity. }
  cbn [k_id k_key k_nonce] in E.
  destruct (same_string (k_id k) id) eqn:S.
  - apply same_string_spec in S. injection E as <-. exists [], e, t9. cbn [entries map concat app lookup].
    change (e_nonce e) with nonce. change (e_id e) with id. rewrite HD, <- !app_assoc.
    split; [reflexivity|]. split; [constructor|]. split; [exact OE|]. split; [reflexivity|]. split; [now rewrite S|]. split; [|exact NE].
    unfold found, stamp, e. cbn [e_key e_major e_minor e_word e_timestamp]. reflexivity.
  - destruct s10; cbn [negb] in E; [|discriminate].
    destruct (read_chunk_inv _ _ _ _ _ A9 R10) as (t10 & E9 & L10 & A10).
    assert (EN : nonce = firstn (N.to_nat v9) t9) by (unfold nonce; now rewrite L10, Nat.sub_diag, app_nil_r).
    assert (B10 : bytes t10) by (rewrite E9 in B9; now apply Forall_app in B9).
    destruct (IH _ _ _ _ _ _ A10 B10 E) as (es & e' & r & ER & OS & OE' & LK & EI & EK & EN').
    exists (e :: es), e', r. cbn [k_id] in *. split.
    { rewrite entries_cons. unfold entry_bytes. rewrite HD, <- !app_assoc. change (e_nonce e) with nonce. rewrite EN.
      rewrite <- ER, <- E9. reflexivity. }
    split; [now constructor|]. split; [exact OE'|]. split.
    { cbn [lookup]. destruct (list_eq_dec N.eq_dec (e_id e) (k_id k)) as [X|]; [|exact LK].
      exfalso. change (e_id e) with id in X. rewrite X, same_string_refl in S. discriminate. }
    split; [exact EI|]. split; [exact EK | exact EN'].
Qed.

Section Run.
Variables (fuel : nat) (lsb : bool) (junk : list N).
Notation H := (keyring_magick fuel lsb junk ++ keyring_filetype fuel lsb junk).
Lemma export_inv b k ts k' : bytes b -> ExportKeyringKey fuel lsb junk (Some b) k ts = (true, k') ->
  exists es e r, b = keyring_bytes H es ++ entry_head e ++ r /\ Forall entry_ok es /\ entry_ok e /\ lookup (k_id k) es = None /\
    e_id e = k_id k /\ k' = found k e (e_nonce e) /\
    e_nonce e = firstn (length (e_nonce e)) r ++ repeat 0%N (length (e_nonce e) - length r).
Proof.
  intros B. unfold ExportKeyringKey. generalize (keyring_magick fuel lsb junk), (keyring_filetype fuel lsb junk). intros m ft.
  destruct (read_chunk (mkFile b 0) (length m)) as [[s1 x1] f1] eqn:R1.
  destruct s1; cbn [negb orb]; [|discriminate]. destruct (same_string x1 m) eqn:S1; cbn [negb]; [|discriminate]. apply same_string_spec in S1. subst x1.
  destruct (read_chunk f1 (length ft)) as [[s2 x2] f2] eqn:R2.
  destruct s2; cbn [negb orb]; [|discriminate]. destruct (same_string x2 ft) eqn:S2; cbn [negb]; [|discriminate]. apply same_string_spec in S2. subst x2.
  destruct (read_chunk_inv (mkFile b 0) b _ _ _ eq_refl R1) as (t1 & -> & _ & A1).
  destruct (read_chunk_inv _ _ _ _ _ A1 R2) as (t2 & -> & _ & A2). intros E.
  assert (B2 : bytes t2) by (apply Forall_app in B as [_ B]; now apply Forall_app in B).
  destruct (loop_inv _ _ _ _ _ _ _ A2 B2 E) as (es & e & r & -> & R). exists es, e, r. split; [|exact R].
  unfold keyring_bytes, entries. now rewrite <- !app_assoc.
Qed.
End Run.
