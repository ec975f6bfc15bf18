(** Lemmas for KeyringProps.v. *)
From Coq Require Import NArith Arith List Lia Bool ZifyBool ZifyNat ZifyN.
From Verif Require Import Base BaseLemmas Mem32 FileModel FileProps ReadLemmas RandomModel KeyringModel KeyringSpec.
Import ListNotations.
Local Opaque GetWizardMagick.

Lemma same_string_spec a b : same_string a b = true <-> a = b.
Proof. unfold same_string. destruct (list_eq_dec N.eq_dec a b); split; congruence. Qed.
Lemma same_string_refl a : same_string a a = true.
Proof. now apply same_string_spec. Qed.
Lemma same_string_neq a b : a <> b -> same_string a b = false.
Proof. unfold same_string. now destruct (list_eq_dec N.eq_dec a b). Qed.

(** the timestamp a reader sees *)
Definition stamp (e : entry) : N := if old_version (e_major e) (e_minor e) then e_word e else e_timestamp e.
Definition passed (k : KeyringInfo) (e : entry) : KeyringInfo :=
  mkKeyring (k_id k) (k_key k) (k_nonce k) (e_major e) (e_minor e) (stamp e).
Definition found (k : KeyringInfo) (e : entry) (nonce : list N) : KeyringInfo :=
  mkKeyring (k_id k) (e_key e) nonce (e_major e) (e_minor e) (stamp e).
Definition nonce_length (e : entry) : N := N.of_nat (length (e_nonce e)).

Lemma loop_head t f k len ts e s : entry_ok e -> at_ f (entry_head e ++ s) ->
  exists f', at_ f' s /\
    export_loop (S t) f k len ts =
    let '(s10, d, f'') := read_chunk f' (length (e_nonce e)) in
    let nonce := d ++ repeat 0%N (length (e_nonce e) - length d) in
    if same_string (k_id k) (e_id e) then (true, found k e nonce)
    else if negb s10 then (false, passed k e)
    else export_loop t f'' (passed k e) (nonce_length e) (stamp e).
Proof.
  intros ((Hw & Hj & Hm & Ht & Hi & Hk & Hn) & Bi & Bk & Bn) A. unfold entry_head in A. rewrite <- !app_assoc in A.
  destruct (read32_app f _ _ 0%N A) as (f1 & R1 & A1); [reflexivity|].
  destruct (read32_app f1 _ _ len A1 Hw) as (f2 & R2 & A2).
  destruct (read16_app f2 _ _ (k_major k) A2 Hj) as (f3 & R3 & A3).
  destruct (read16_app f3 _ _ (k_minor k) A3 Hm) as (f4 & R4 & A4).
  assert (X : exists f5, (if (e_major e =? 1)%N && (e_minor e =? 0)%N then (true, e_word e, f4) else ReadFile64Bits f4 ts) = (true, stamp e, f5) /\
    at_ f5 (le_bytes 4 (N.of_nat (length (e_id e))) ++ e_id e ++ le_bytes 4 (N.of_nat (length (e_key e))) ++ e_key e ++
            le_bytes 4 (N.of_nat (length (e_nonce e))) ++ s)).
  { unfold stamp. unfold old_version in *. destruct ((e_major e =? 1)%N && (e_minor e =? 0)%N).
    - exists f4. split; [reflexivity | exact A4].
    - exact (read64_app f4 _ _ ts A4 Ht). }
  destruct X as (f5 & R5 & A5). clear A A1 A2 A3 A4.
  destruct (read32_app f5 _ _ (e_word e) A5 Hi) as (f6 & R6 & A6).
  destruct (read_chunk_app f6 _ _ (N.to_nat (N.of_nat (length (e_id e)))) A6) as (f7 & R7 & A7); [now rewrite Nat2N.id|].
  destruct (read32_app f7 _ _ (N.of_nat (length (e_id e))) A7 Hk) as (f8 & R8 & A8).
  destruct (read_chunk_app f8 _ _ (N.to_nat (N.of_nat (length (e_key e)))) A8) as (f9 & R9 & A9); [now rewrite Nat2N.id|].
  destruct (read32_app f9 _ _ (N.of_nat (length (e_key e))) A9 Hn) as (f10 & R10 & A10).
  exists f10. split; [exact A10|]. cbn [export_loop]. rewrite R1. cbn [negb]. rewrite N.eqb_refl. cbn [negb].
  rewrite R2, R3, R4, R5, R6. cbn [andb negb]. rewrite R7, R8. cbn [andb negb]. rewrite R9, R10. cbn [andb negb].
  rewrite Nat2N.id. reflexivity.
Qed.

Lemma loop_entry t f k len ts e s : entry_ok e -> at_ f (entry_bytes e ++ s) ->
  exists f', at_ f' s /\
    export_loop (S t) f k len ts =
    if same_string (k_id k) (e_id e) then (true, found k e (e_nonce e))
    else export_loop t f' (passed k e) (nonce_length e) (stamp e).
Proof.
  intros O A. unfold entry_bytes in A. rewrite <- app_assoc in A. destruct (loop_head t f k len ts e _ O A) as (f1 & A1 & ->).
  destruct (read_chunk_app f1 _ _ _ A1 eq_refl) as (f2 & -> & A2). exists f2. split; [exact A2|].
  rewrite Nat.sub_diag, app_nil_r. reflexivity.
Qed.

Definition entries (es : list entry) : list N := concat (map entry_bytes es).

(** an entry is reached whatever follows it *)
Lemma loop_found es : forall t f k len ts e s, Forall entry_ok es -> lookup (k_id k) es = Some e -> length es <= t ->
  at_ f (entries es ++ s) -> export_loop t f k len ts = (true, found k e (e_nonce e)).
Proof.
  induction es as [|e0 es IH]; intros t f k len ts e s O L T A; [discriminate|]. inversion_clear O as [|? ? O1 O2].
  destruct t as [|t]; [cbn in T; lia|]. unfold entries in A. cbn [map concat] in A. rewrite <- app_assoc in A.
  destruct (loop_entry t f k len ts e0 _ O1 A) as (f' & A' & ->). cbn [lookup] in L.
  destruct (list_eq_dec N.eq_dec (e_id e0) (k_id k)) as [E|E].
  - injection L as <-. now rewrite E, same_string_refl.
  - rewrite same_string_neq by congruence.
    rewrite (IH t f' (passed k e0) (nonce_length e0) (stamp e0) e s O2 L) by (exact A' || (cbn in T; lia)). reflexivity.
Qed.
(** with no entry of that id, the loop goes on with what follows *)
Lemma loop_skip es : forall t f k len ts s, Forall entry_ok es -> lookup (k_id k) es = None ->
  at_ f (entries es ++ s) ->
  exists f' len' ts', at_ f' s /\ export_loop (length es + t) f k len ts = export_loop t f' (fold_left passed es k) len' ts'.
Proof.
  induction es as [|e0 es IH]; intros t f k len ts s O L A.
  - exists f, len, ts. now split.
  - inversion_clear O as [|? ? O1 O2]. unfold entries in A. cbn [map concat] in A. rewrite <- app_assoc in A. cbn [length Nat.add].
    destruct (loop_entry (length es + t) f k len ts e0 _ O1 A) as (f' & A' & ->). cbn [lookup] in L.
    destruct (list_eq_dec N.eq_dec (e_id e0) (k_id k)) as [|E]; [discriminate|].
    rewrite same_string_neq by congruence. exact (IH t f' (passed k e0) (nonce_length e0) (stamp e0) s O2 L A').
Qed.
Lemma passed_same es : forall k, k_id (fold_left passed es k) = k_id k /\ k_key (fold_left passed es k) = k_key k /\
  k_nonce (fold_left passed es k) = k_nonce k.
Proof. induction es as [|e es IH]; intros k; [now repeat split | exact (IH (passed k e))]. Qed.
Lemma loop_end t f k len ts s : at_ f s -> length s < 4 -> export_loop t f k len ts = (false, k).
Proof.
  intros A L. destruct t as [|t]; [reflexivity|]. cbn [export_loop].
  pose proof (read_chunk_at f s 4 A) as R. rewrite take_none in R by exact L. destruct R as (x & f' & R).
  unfold ReadFile32Bits at 1, read_value. rewrite R. reflexivity.
Qed.
Lemma loop_bad_signature t f k len ts v s : at_ f (le_bytes 4 v ++ s) -> (v < 2 ^ 32)%N -> v <> WizardSignature ->
  export_loop t f k len ts = (false, k).
Proof.
  intros A H NE. destruct t as [|t]; [reflexivity|]. cbn [export_loop].
  destruct (read32_app f v s 0%N A H) as (f1 & -> & _). cbn [negb]. apply N.eqb_neq in NE. now rewrite NE.
Qed.

Lemma entry_length e : 4 <= length (entry_bytes e).
Proof. unfold entry_bytes, entry_head. rewrite !app_length, !le_bytes_length. lia. Qed.
Lemma entries_length es : length es <= length (entries es).
Proof.
  unfold entries. induction es as [|e es IH]; cbn [map concat length]; [lia|]. rewrite app_length. pose proof (entry_length e). lia.
Qed.

Lemma lookup_app id es es' : lookup id (es ++ es') = match lookup id es with Some e => Some e | None => lookup id es' end.
Proof. induction es as [|e es IH]; [reflexivity|]. cbn [app lookup]. now destruct (list_eq_dec N.eq_dec (e_id e) id). Qed.

Section Run.
Variables (fuel : nat) (lsb : bool) (junk : list N).
Notation H := (keyring_magick fuel lsb junk ++ keyring_filetype fuel lsb junk).

Lemma export_header k ts s :
  exists f, at_ f s /\ ExportKeyringKey fuel lsb junk (Some (H ++ s)) k ts = export_loop (S (length (H ++ s))) f k 0%N ts.
Proof.
  unfold ExportKeyringKey. rewrite <- app_assoc. set (m := keyring_magick fuel lsb junk). set (ft := keyring_filetype fuel lsb junk).
  destruct (read_chunk_app (mkFile (m ++ ft ++ s) 0) m (ft ++ s) (length m) eq_refl eq_refl) as (f1 & -> & A1). cbn [negb orb].
  rewrite same_string_refl. cbn [negb].
  destruct (read_chunk_app f1 ft s (length ft) A1 eq_refl) as (f2 & -> & A2). cbn [negb orb]. rewrite same_string_refl. cbn [negb].
  exists f2. now split.
Qed.

Lemma export_found es k ts e s : Forall entry_ok es -> lookup (k_id k) es = Some e ->
  ExportKeyringKey fuel lsb junk (Some (keyring_bytes H es ++ s)) k ts = (true, found k e (e_nonce e)).
Proof.
  intros O L. unfold keyring_bytes. rewrite <- app_assoc. destruct (export_header k ts (concat (map entry_bytes es) ++ s)) as (f & A & ->).
  apply (loop_found es _ _ _ _ _ _ s O L); [|exact A]. rewrite !app_length. pose proof (entries_length es). unfold entries in *. lia.
Qed.
Lemma export_skip es k ts s : Forall entry_ok es -> lookup (k_id k) es = None ->
  exists t f len' ts', at_ f s /\ length s < t /\
    ExportKeyringKey fuel lsb junk (Some (keyring_bytes H es ++ s)) k ts = export_loop t f (fold_left passed es k) len' ts'.
Proof.
  intros O L. unfold keyring_bytes. rewrite <- app_assoc. destruct (export_header k ts (concat (map entry_bytes es) ++ s)) as (f & A & ->).
  set (n := S (length (H ++ concat (map entry_bytes es) ++ s))).
  assert (K : n = length es + (n - length es)).
  { pose proof (entries_length es). unfold entries in *. unfold n. rewrite !app_length. lia. }
  rewrite K. destruct (loop_skip es (n - length es) f k 0%N ts s O L A) as (f' & len' & ts' & A' & E).
  exists (n - length es), f', len', ts'. split; [exact A'|]. split; [|exact E].
  pose proof (entries_length es). unfold entries in *. unfold n. rewrite !app_length. lia.
Qed.
Lemma export_missing es k ts s : Forall entry_ok es -> lookup (k_id k) es = None -> length s < 4 ->
  ExportKeyringKey fuel lsb junk (Some (keyring_bytes H es ++ s)) k ts = (false, fold_left passed es k).
Proof.
  intros O L S. destruct (export_skip es k ts s O L) as (t & f & len' & ts' & A & _ & E).
  now rewrite E, (loop_end t f _ len' ts' s A).
Qed.

(** ** writing *)
Definition seekable (f : file) : Prop := f_pos f <= length (f_bytes f).
Lemma write_nothing f : write_chunk f [] = f.
Proof. destruct f as [b p]. unfold write_chunk. cbn [f_pos f_bytes app length]. now rewrite Nat.add_0_r, firstn_skipn. Qed.
Lemma write_twice f x y : seekable f -> write_chunk (write_chunk f x) y = write_chunk f (x ++ y).
Proof.
  unfold seekable, write_chunk. cbn [f_pos f_bytes]. intros S. rewrite app_length, Nat.add_assoc. f_equal.
  set (b := f_bytes f) in *. set (p := f_pos f) in *.
  assert (L : length (firstn p b ++ x) = p + length x) by (rewrite app_length, firstn_length; lia).
  rewrite (app_assoc (firstn p b) x). rewrite firstn_app, <- L, firstn_all, Nat.sub_diag, firstn_O, app_nil_r.
  rewrite skipn_app, L. rewrite skipn_all2 by lia. cbn [app].
  replace (p + length x + length y - (p + length x)) with (length y) by lia. rewrite skipn_add.
  now rewrite <- !app_assoc.
Qed.
Lemma write_seekable f x : seekable f -> seekable (write_chunk f x).
Proof. unfold seekable, write_chunk. cbn [f_pos f_bytes]. intros S. rewrite !app_length, firstn_length. lia. Qed.
(** a crash after [n] bytes *)
Lemma write_all_cut chunks : forall f n more, seekable f ->
  exists st, write_all f chunks (cut n (map (@length N) chunks) ++ more) = (write_chunk f (firstn n (concat chunks)), more, st).
Proof.
  induction chunks as [|c chunks IH]; intros f n more S.
  - exists true. cbn [concat]. now rewrite firstn_nil, write_nothing.
  - cbn [map cut app write_all concat]. destruct (IH (write_chunk f (firstn (Nat.min n (length c)) c)) (n - length c) more) as (st & ->).
    { now apply write_seekable. }
    rewrite write_twice by exact S. rewrite firstn_app.
    replace (firstn (Nat.min n (length c)) c) with (firstn n c) by (rewrite <- (firstn_all c) at 1; rewrite firstn_firstn; reflexivity).
    eexists. reflexivity.
Qed.
Lemma cut_app n a b : cut n (a ++ b) = cut n a ++ cut (n - fold_right Nat.add 0 a) b.
Proof.
  revert n. induction a as [|x a IH]; intros n; cbn [app cut fold_right]; [now rewrite Nat.sub_0_r|].
  rewrite IH. do 3 f_equal. lia.
Qed.
Lemma lengths_concat (chunks : list (list N)) : fold_right Nat.add 0 (map (@length N) chunks) = length (concat chunks).
Proof. induction chunks as [|c chunks IH]; [reflexivity|]. cbn [map fold_right concat]. rewrite app_length. lia. Qed.
Lemma write_all_full chunks : forall f, write_all f chunks [] = (fold_left write_chunk chunks f, [], true).
Proof.
  induction chunks as [|c chunks IH]; intros f; [reflexivity|]. cbn [write_all fold_left]. rewrite firstn_all, IH, Nat.leb_refl. reflexivity.
Qed.
Lemma write_end b data : write_chunk (mkFile b (length b)) data = mkFile (b ++ data) (length (b ++ data)).
Proof.
  unfold write_chunk. cbn [f_pos f_bytes]. rewrite firstn_all, skipn_all2, app_nil_r, app_length by lia. reflexivity.
Qed.
Lemma writes_end chunks : forall b, fold_left write_chunk chunks (mkFile b (length b)) = mkFile (b ++ concat chunks) (length (b ++ concat chunks)).
Proof.
  induction chunks as [|c chunks IH]; intros b; cbn [fold_left concat]; [now rewrite app_nil_r|].
  rewrite write_end, IH, <- app_assoc. reflexivity.
Qed.
(** rewriting what is there, or writing to an empty file *)
Lemma write_same pre data post : write_chunk (mkFile (pre ++ data ++ post) (length pre)) data = mkFile (pre ++ data ++ post) (length (pre ++ data)).
Proof.
  unfold write_chunk. cbn [f_pos f_bytes]. rewrite app_length. f_equal.
  rewrite firstn_app, firstn_all, Nat.sub_diag, firstn_O, app_nil_r, <- skipn_add.
  rewrite skipn_app, skipn_all, Nat.sub_diag, skipn_O. cbn [app]. now rewrite skipn_app, skipn_all, Nat.sub_diag, skipn_O.
Qed.

Definition entry_of (k : KeyringInfo) : entry := mkEntry 0 (k_major k) (k_minor k) (k_timestamp k) (k_id k) (k_key k) (k_nonce k).
Lemma record_bytes k : old_version (k_major k) (k_minor k) = false -> concat (record_chunks k) = entry_bytes (entry_of k).
Proof.
  intros V. unfold record_chunks, entry_bytes, entry_head, entry_of. cbn [e_word e_major e_minor e_timestamp e_id e_key e_nonce concat].
  rewrite V, !buffer32_spec, !buffer16_spec, !buffer64_spec, <- !app_assoc, app_nil_r. reflexivity.
Qed.

Lemma header_new : fold_left write_chunk (header_chunks fuel lsb junk) (mkFile [] 0) = mkFile H (length H).
Proof.
  unfold header_chunks. cbn [fold_left]. change (mkFile [] 0) with (mkFile [] (length (@nil N))). rewrite write_end, write_end.
  cbn [app]. reflexivity.
Qed.
Lemma header_again s : fold_left write_chunk (header_chunks fuel lsb junk) (mkFile (H ++ s) 0) = mkFile (H ++ s) (length H).
Proof.
  unfold header_chunks. cbn [fold_left]. generalize (keyring_magick fuel lsb junk), (keyring_filetype fuel lsb junk). intros m ft.
  rewrite <- app_assoc. pose proof (write_same [] m (ft ++ s)) as W. cbn [app length] in W. rewrite W.
  rewrite write_same. reflexivity.
Qed.
Lemma import_full_new k : import_writes fuel lsb junk [] k [] = H ++ concat (record_chunks k).
Proof.
  unfold import_writes. rewrite write_all_full, header_new. cbn [f_bytes]. now rewrite write_all_full, writes_end.
Qed.
Lemma import_full s k : import_writes fuel lsb junk (H ++ s) k [] = (H ++ s) ++ concat (record_chunks k).
Proof.
  unfold import_writes. rewrite write_all_full, header_again. cbn [f_bytes]. now rewrite write_all_full, writes_end.
Qed.

(** ** crash *)
Lemma write_prefix x n s : write_chunk (mkFile (x ++ s) 0) (firstn n x) = mkFile (x ++ s) (length (firstn n x)).
Proof.
  unfold write_chunk. cbn [f_pos f_bytes firstn app Nat.add]. f_equal.
  assert (E : x ++ s = firstn n x ++ skipn n x ++ s) by now rewrite app_assoc, firstn_skipn.
  rewrite E at 2. rewrite E at 1. now rewrite skipn_app, skipn_all, Nat.sub_diag, skipn_O.
Qed.
Lemma crash_writes old n k : import_writes fuel lsb junk old k (crash_amounts fuel lsb junk n k) =
  f_bytes (write_chunk (mkFile old 0) (firstn n H)) ++ firstn (n - length H) (concat (record_chunks k)).
Proof.
  unfold import_writes, crash_amounts. rewrite map_app, cut_app, lengths_concat.
  assert (C : concat (header_chunks fuel lsb junk) = H) by (unfold header_chunks; cbn [concat]; now rewrite app_nil_r).
  rewrite C. destruct (write_all_cut (header_chunks fuel lsb junk) (mkFile old 0) n (cut (n - length H) (map (@length N) (record_chunks k)))) as (st & ->).
  { unfold seekable. cbn [f_pos]. lia. }
  rewrite C. set (b := f_bytes (write_chunk (mkFile old 0) (firstn n H))).
  destruct (write_all_cut (record_chunks k) (mkFile b (length b)) (n - length H) []) as (st' & E).
  { unfold seekable. cbn [f_pos f_bytes]. lia. }
  rewrite app_nil_r in E. rewrite E, write_end. reflexivity.
Qed.
Lemma crash_good s n k : import_writes fuel lsb junk (H ++ s) k (crash_amounts fuel lsb junk n k) =
  (H ++ s) ++ firstn (n - length H) (concat (record_chunks k)).
Proof. rewrite crash_writes. now rewrite write_prefix. Qed.
Lemma crash_new n k : import_writes fuel lsb junk [] k (crash_amounts fuel lsb junk n k) = firstn n (H ++ concat (record_chunks k)).
Proof.
  rewrite crash_writes. unfold write_chunk. cbn [f_pos f_bytes firstn app Nat.add].
  rewrite skipn_nil, app_nil_r. symmetry. apply firstn_app.
Qed.
End Run.
