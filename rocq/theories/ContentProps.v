(** C58, C59: content files written by encipher and read by decipher. *)
From Coq Require Import Arith NArith List Lia Bool.
From Verif Require Import Base BaseLemmas Outcome Mem32 StringInfoModel StringInfoProof CipherModel CipherSpec CipherProof
  CipherInfoModel CipherProps ContentModel ContentProof.
Import ListNotations.

(** the settings of a content file that the header carries *)
Record Setting := {
  g_junk : N; g_cipher : CipherType; g_mode : CipherMode; g_key : list N; g_nonce : StringInfo;
  g_chunksize : nat; g_hmac : option (nat * (list N -> list N)); g_entropy : option Coder
}.
Definition content (g : Setting) : Content :=
  mkContent (cipher_info (g_junk g) (g_cipher g) (g_mode g) (g_key g) (g_nonce g)) (g_chunksize g) (g_hmac g) (g_entropy g).
Definition usable (g : Setting) : Prop :=
  bytes (g_key g) /\ nonce_for (g_cipher g) (g_nonce g) /\ g_mode g <> UndefinedMode /\ (0 < g_chunksize g)%nat /\
  hmac_ok (g_hmac g) /\ coder_ok (g_entropy g).
Definition random_bytes (r : nat -> nat -> N) : Prop := forall i j, (r i j < 256)%N.

(** what precedes the ciphertext of a chunk: the digest and the entropy byte *)
Definition overhead (g : Setting) : nat :=
  ((match g_hmac g with None => 0 | Some (size, _) => size end) + (match g_entropy g with None => 0 | Some _ => 1 end))%nat.

(** the lengths for which the padding is found again *)
Definition recoverable (g : Setting) (feof : bool) (n : nat) : Prop :=
  let bs := cipher_blocksize (g_cipher g) in
  let cs := g_chunksize g in
  g_mode g = CFBMode \/ (cs mod bs <> 0)%nat \/ n = 0%nat \/
  (n mod cs = 0 /\ bs <= overhead g)%nat \/
  (n mod cs <> 0 /\ feof = true /\ bs * ((n mod cs) / bs + 1) < cs)%nat.

Lemma split_last cs (plain : list N) : (0 < cs)%nat -> plain <> [] ->
  exists k d1 d2, plain = d1 ++ d2 /\ length d1 = (k * cs)%nat /\ (0 < length d2 <= cs)%nat /\
    length d2 = (if Nat.eqb (length plain mod cs) 0 then cs else length plain mod cs)%nat.
Proof.
  intros C NE. set (n := length plain). assert (N0 : (0 < n)%nat) by (unfold n; destruct plain; [congruence|cbn; lia]).
  pose proof (Nat.div_mod n cs ltac:(lia)) as D. pose proof (Nat.mod_upper_bound n cs ltac:(lia)) as U.
  set (k := (if Nat.eqb (n mod cs) 0 then n / cs - 1 else n / cs)%nat).
  assert (K : (k * cs + (if Nat.eqb (n mod cs) 0 then cs else n mod cs) = n)%nat).
  { unfold k. destruct (Nat.eqb_spec (n mod cs) 0) as [Z|Z]; [|lia].
    assert (n / cs <> 0)%nat by (intros Q; rewrite Q in D; lia). nia. }
  exists k, (firstn (k * cs) plain), (skipn (k * cs) plain). rewrite firstn_skipn, firstn_length, skipn_length. fold n.
  split; [reflexivity|]. assert ((k * cs <= n)%nat) by lia. split; [lia|].
  destruct (Nat.eqb_spec (n mod cs) 0); lia.
Qed.

Lemma stop_rest g junk' fuel feof ct G eof : (length G <= overhead g)%nat -> (0 < fuel)%nat ->
  decipher_chunks fuel junk' (content g) feof ct G eof = Ok (true, []).
Proof.
  intros L F. destruct fuel; [lia|]. cbn [decipher_chunks]. unfold content. rewrite decipher_stop by exact L. reflexivity.
Qed.

(** C58, for the lengths that work: CFB, a chunk size that is no multiple of the
    block size, or a last chunk whose padded length is less than a chunk; or an
    exact multiple of the chunk size when the digest is at least a block *)
Theorem content_round_trip_partial g junk junk' fill rnd plain file feof :
  usable g -> random_bytes fill -> random_bytes rnd -> bytes plain -> recoverable g feof (length plain) ->
  EncipherContent junk fill rnd (content g) plain = Ok (Some file) ->
  DecipherContent junk' (content g) feof file = Ok (true, plain).
Proof.
  intros U Hfill Hrnd B RC E. destruct U as (Hk & Hn & Hm & Hcs & Hh & Hc).
  set (bs := cipher_blocksize (g_cipher g)) in *. set (cs := g_chunksize g) in *. set (m := g_mode g) in *. destruct (list_eq_dec N.eq_dec plain []) as [->|NE].
  { cbn in E. rewrite firstn_nil in E. injection E as <-. unfold DecipherContent. apply stop_rest; cbn; lia. }
  destruct (split_last cs plain Hcs NE) as (k & d1 & d2 & -> & L1 & L2 & L3).
  unfold EncipherContent in E.
  destruct (prefix_chunks (g_junk g) (g_cipher g) (g_mode g) (g_key g) (g_nonce g) Hk Hn Hm cs (g_hmac g) (g_entropy g) Hh Hc Hcs
    junk fill rnd Hfill Hrnd k _ _ _ _ d1 d2 file L1 ltac:(intros ->; cbn in L2; lia) B E)
    as (W & rest & f' & i' & buf' & prev' & -> & E2 & LW & D).
  apply bytes_app in B as [B1 B2].
  destruct (last_chunk (g_junk g) (g_cipher g) (g_mode g) (g_key g) (g_nonce g) Hk Hn Hm cs (g_hmac g) (g_entropy g) Hc Hcs
    junk fill rnd Hfill Hrnd f' i' buf' prev' d2 rest L2 B2 E2) as (i & tag & pay & R & P1 & P2 & P3 & -> & P5).
  unfold DecipherContent. edestruct D as (fuel & ct & LF & ->); [apply Nat.lt_succ_diag_r|].
  fold (content g). destruct fuel as [|fuel]; [lia|]. cbn [decipher_chunks].
  pose proof (blocksize_bounds (g_cipher g)) as Bb. fold bs in Bb.
  set (dg := digest (g_hmac g) d2) in *.
  assert (LR : length R = if is_cfb m then length d2 else (bs * (length d2 / bs + 1))%nat).
  { rewrite P3, region_length, P1. reflexivity. }
  pose proof (Nat.div_mod (length d2) bs ltac:(lia)) as DM. pose proof (Nat.mod_upper_bound (length d2) bs ltac:(lia)) as MU.
  pose proof (Nat.div_mod cs bs ltac:(lia)) as DC. pose proof (Nat.mod_upper_bound cs bs ltac:(lia)) as CU.
  pose proof (cut_zero (g_cipher g) cs) as CZ. fold bs in CZ.
  assert (R0 : (0 < length (dg ++ tag ++ R))%nat).
  { rewrite !app_length, LR. destruct (is_cfb m); nia. }
  (* the last chunk is read at once, and trimmed *)
  assert (ONE : (length R <= read_size (g_cipher g) m cs)%nat -> is_cfb m || trims (g_cipher g) m cs feof R = true ->
    (let* (st, more) := (let* r := decipher_round junk' (content g) feof ct (dg ++ tag ++ R) false in
       match r with Stop => Ok (true, []) | Failed => Ok (false, [])
       | Wrote text rest eof ct0 => let* (status, more) := decipher_chunks fuel junk' (content g) feof ct0 rest eof in Ok (status, text ++ more) end)
     in Ok (st, d1 ++ more)) = Ok (true, d1 ++ d2)).
  { intros SZ TR. destruct (last_round (g_junk g) (g_cipher g) (g_mode g) (g_key g) (g_nonce g) cs (g_hmac g) (g_entropy g) Hh Hcs rnd
      junk' feof ct i tag pay R d2 L2 P1 P2 P3 P5 SZ TR) as (ct' & eof & ER).
    unfold content. fold cs. unfold dg. rewrite ER. cbn [bind]. rewrite (stop_rest g junk' fuel) by (cbn [length]; lia).
    cbn [bind]. now rewrite app_nil_r. }
  destruct (is_cfb m) eqn:CF.
  { apply ONE; [|reflexivity]. unfold read_size. rewrite CF, LR. lia. }
  assert (MC : m <> CFBMode) by (intros Q; rewrite Q in CF; discriminate).
  destruct (Nat.eq_dec (cut (g_cipher g) cs) 0) as [Z|Z].
  - (* a chunk is a whole number of blocks *)
    assert (CM : (cs mod bs = 0)%nat) by (now apply CZ).
    destruct RC as [Q|[Q|[Q|[[Q1 Q2]|(Q1 & Q2 & Q3)]]]]; try (unfold m in MC; contradiction).
    { rewrite app_length in Q. lia. }
    + fold cs in Q1. rewrite Q1, Nat.eqb_refl in L3.
      assert (WR : written (g_cipher g) m cs = cs) by (unfold written; rewrite CF; fold bs; now rewrite CM).
      assert (LC : (cs <= length R)%nat) by (rewrite LR, L3; nia).
      destruct (middle_chunk (g_junk g) (g_cipher g) (g_mode g) (g_key g) (g_nonce g) cs (g_hmac g) (g_entropy g) Hh Hcs
        junk' feof ct (rnd i) tag pay R d2 (skipn cs R) L3 P1 P2 P3 P5) as (ct' & ER).
      fold m in ER. rewrite WR, <- !app_assoc, firstn_skipn in ER. fold dg in ER.
      match goal with |- context [decipher_round ?a ?b ?c ?d ?e ?f] =>
        replace (decipher_round a b c d e f) with (Ok (Wrote d2 (skipn cs R) false ct')) by (symmetry; exact ER) end. cbn [bind].
      rewrite (stop_rest g junk' fuel); [cbn [bind]; now rewrite app_nil_r| |].
      * rewrite skipn_length. etransitivity; [|exact Q2]. fold bs. rewrite LR, L3.
        replace (bs * (cs / bs + 1))%nat with (cs + bs)%nat by lia. lia.
      * rewrite !app_length in LF. lia.
    + fold cs bs in Q1, Q3. apply Nat.eqb_neq in Q1. rewrite Q1 in L3. rewrite <- L3 in Q3. apply ONE.
      * unfold read_size. rewrite CF, Z, LR. lia.
      * unfold trims. rewrite CF, Z. cbn [negb andb orb Nat.eqb]. rewrite Q2. cbn [andb]. apply Nat.ltb_lt.
        unfold read_size. rewrite CF, Z, LR. lia.
  - (* the padding of every chunk is removed *)
    apply ONE.
    + unfold read_size, cut. rewrite CF, LR. fold bs. assert (cs mod bs <> 0)%nat by (rewrite <- CZ; exact Z).
      destruct (Nat.eqb_spec (bs - cs mod bs) bs); [lia|].
      assert (length d2 / bs <= cs / bs)%nat by (apply Nat.div_le_mono; lia). nia.
    + unfold trims. rewrite CF. apply Nat.eqb_neq in Z. rewrite Z. reflexivity.
Qed.

(** C58 is false when the last chunk with its padding is as long as a chunk, and
    on standard input and zip streams for every last chunk that is not full: the
    end of the file is not seen and the padding stays.  Without HMAC the padding
    becomes part of the plaintext ... *)
Lemma last_kept g junk junk' fill rnd k d1 d2 file feof :
  usable g -> random_bytes fill -> random_bytes rnd -> bytes (d1 ++ d2) -> g_entropy g = None ->
  let bs := cipher_blocksize (g_cipher g) in
  let cs := g_chunksize g in
  g_mode g <> CFBMode -> (cs mod bs = 0)%nat -> length d1 = (k * cs)%nat -> (0 < length d2 < cs)%nat ->
  feof = false \/ (bs * (length d2 / bs + 1) = cs)%nat ->
  EncipherContent junk fill rnd (content g) (d1 ++ d2) = Ok (Some file) ->
  exists i, let Y := padded bs (rnd i) d2 in
  DecipherContent junk' (content g) feof file =
    Ok (match g_hmac g with
        | None => (true, d1 ++ Y)
        | Some (_, mac) => match lex (mac d2) (mac Y) with Eq => (true, d1 ++ Y) | _ => (false, d1) end
        end).
Proof.
  intros U Hfill Hrnd B NE bs cs MC CM L1 L2 FE E. destruct U as (Hk & Hn & Hm & Hcs & Hh & Hc).
  destruct (prefix_chunks (g_junk g) (g_cipher g) (g_mode g) (g_key g) (g_nonce g) Hk Hn Hm cs (g_hmac g) (g_entropy g) Hh Hc Hcs
    junk fill rnd Hfill Hrnd k _ _ _ _ d1 d2 file L1 ltac:(intros ->; cbn in L2; lia) B E)
    as (W & rest & f' & i' & buf' & prev' & -> & E2 & LW & D).
  apply bytes_app in B as [B1 B2].
  destruct (last_chunk (g_junk g) (g_cipher g) (g_mode g) (g_key g) (g_nonce g) Hk Hn Hm cs (g_hmac g) (g_entropy g) Hc Hcs
    junk fill rnd Hfill Hrnd f' i' buf' prev' d2 rest ltac:(lia) B2 E2) as (i & tag & pay & R & P1 & P2 & P3 & -> & P5).
  exists i. cbv zeta. unfold DecipherContent. edestruct D as (fuel & ct & LF & ->); [apply Nat.lt_succ_diag_r|].
  fold (content g). destruct fuel as [|fuel]; [lia|].
  unfold decoded in P2. rewrite NE in P2. destruct P2 as [-> ->].
  pose proof (blocksize_bounds (g_cipher g)) as Bb. fold bs in Bb.
  assert (CF : is_cfb (g_mode g) = false) by (destruct (g_mode g); (reflexivity || congruence)).
  assert (Z : cut (g_cipher g) cs = 0%nat) by now apply cut_zero.
  assert (LR : length R = (bs * (length pay / bs + 1))%nat) by (rewrite P3, region_length, CF; reflexivity).
  assert (RS : read_size (g_cipher g) (g_mode g) cs = cs) by (unfold read_size; rewrite CF, Z; lia).
  pose proof (Nat.div_mod cs bs ltac:(lia)) as DC.
  assert (LE : (length R <= cs)%nat).
  { rewrite LR. assert (length pay / bs < cs / bs)%nat; [|nia]. apply Nat.div_lt_upper_bound; [lia|]. nia. }
  assert (TR : trims (g_cipher g) (g_mode g) cs feof R = false).
  { unfold trims. rewrite CF, Z, RS. cbn [negb andb orb Nat.eqb]. destruct FE as [-> | FE]; [reflexivity|].
    rewrite ltb_longer by (rewrite LR, FE; lia). apply andb_false_r. }
  assert (Rg : region (g_cipher g) (g_mode g) (rnd i) pay = padded bs (rnd i) pay) by (unfold region; now rewrite CF).
  destruct (last_round_padded (g_junk g) (g_cipher g) (g_mode g) (g_key g) (g_nonce g) cs (g_hmac g) (g_entropy g) Hh Hcs rnd
    junk' feof ct i R pay NE ltac:(lia) P3 P5 ltac:(lia) TR) as (ct' & eof & ER).
  assert (R0 : (0 < fuel)%nat) by (rewrite !app_length, LR in LF; nia).
  cbn [decipher_chunks app]. match goal with |- context [decipher_round ?a ?b ?c ?d ?e ?f] => change (decipher_round a b c d e f) with
    (decipher_round junk' (content g) feof ct (digest (g_hmac g) pay ++ R) false) end.
  unfold content at 1. fold cs. rewrite ER, Rg. clear ER D E E2.
  assert (ST : decipher_chunks fuel junk' (content g) feof ct' [] eof = Ok (true, [])) by (apply stop_rest; [cbn [length]; lia|exact R0]).
  unfold content in ST. fold cs in ST.
  destruct (g_hmac g) as [[size mac]|] eqn:EH.
  - destruct (lex (mac pay) (mac (padded bs (rnd i) pay))); cbn [bind]; rewrite ?app_nil_r; try reflexivity.
    rewrite ST. cbn [bind]. now rewrite app_nil_r.
  - cbn [bind]. rewrite ST. cbn [bind]. now rewrite app_nil_r.
Qed.
Theorem content_padding_refuted g junk junk' fill rnd k d1 d2 file feof :
  usable g -> random_bytes fill -> random_bytes rnd -> bytes (d1 ++ d2) -> g_entropy g = None -> g_hmac g = None ->
  let bs := cipher_blocksize (g_cipher g) in
  let cs := g_chunksize g in
  g_mode g <> CFBMode -> (cs mod bs = 0)%nat -> length d1 = (k * cs)%nat -> (0 < length d2 < cs)%nat ->
  feof = false \/ (bs * (length d2 / bs + 1) = cs)%nat ->
  EncipherContent junk fill rnd (content g) (d1 ++ d2) = Ok (Some file) ->
  exists padding, padding <> [] /\ DecipherContent junk' (content g) feof file = Ok (true, d1 ++ d2 ++ padding).
Proof.
  intros U Hf Hr B NE NH bs cs MC CM L1 L2 FE E.
  destruct (last_kept g junk junk' fill rnd k d1 d2 file feof U Hf Hr B NE MC CM L1 L2 FE E) as (i & ED). cbv zeta in ED.
  rewrite NH in ED. unfold padded in ED. eexists. split; [|exact ED]. intros Q. apply app_eq_nil in Q as [_ Q]. discriminate.
Qed.
(** ... and with an HMAC the unmodified file is reported as corrupt *)
Theorem content_padding_hmac_refuted g junk junk' fill rnd k d1 d2 file feof size mac :
  usable g -> random_bytes fill -> random_bytes rnd -> bytes (d1 ++ d2) -> g_entropy g = None -> g_hmac g = Some (size, mac) ->
  let bs := cipher_blocksize (g_cipher g) in
  let cs := g_chunksize g in
  g_mode g <> CFBMode -> (cs mod bs = 0)%nat -> length d1 = (k * cs)%nat -> (0 < length d2 < cs)%nat ->
  feof = false \/ (bs * (length d2 / bs + 1) = cs)%nat ->
  (forall x, x <> [] -> mac (d2 ++ x) <> mac d2) ->
  EncipherContent junk fill rnd (content g) (d1 ++ d2) = Ok (Some file) ->
  DecipherContent junk' (content g) feof file = Ok (false, d1).
Proof.
  intros U Hf Hr B NE NH bs cs MC CM L1 L2 FE CR E.
  destruct (last_kept g junk junk' fill rnd k d1 d2 file feof U Hf Hr B NE MC CM L1 L2 FE E) as (i & ED). cbv zeta in ED.
  rewrite NH in ED. unfold padded in ED. rewrite ED. match goal with |- context [lex ?a ?b] => destruct (lex a b) eqn:EL end; try reflexivity.
  exfalso. apply lex_eq in EL. symmetry in EL. revert EL. apply CR. intros Q. apply app_eq_nil in Q as [_ Q]. discriminate.
Qed.

(** C59 is false for truncation: cut after any number of whole chunks, or inside
    the digest that follows them, the file deciphers without error to the chunks
    that are left *)
Theorem content_truncation_refuted g junk junk' fill rnd k d1 d2 file feof :
  usable g -> random_bytes fill -> random_bytes rnd -> bytes (d1 ++ d2) ->
  length d1 = (k * g_chunksize g)%nat -> d2 <> [] ->
  EncipherContent junk fill rnd (content g) (d1 ++ d2) = Ok (Some file) ->
  exists n, (n < length file)%nat /\ forall tail, (length tail <= overhead g)%nat ->
    DecipherContent junk' (content g) feof (firstn n file ++ tail) = Ok (true, d1).
Proof.
  intros U Hfill Hrnd B L1 NE E. destruct U as (Hk & Hn & Hm & Hcs & Hh & Hc). set (cs := g_chunksize g) in *.
  destruct (prefix_chunks (g_junk g) (g_cipher g) (g_mode g) (g_key g) (g_nonce g) Hk Hn Hm cs (g_hmac g) (g_entropy g) Hh Hc Hcs
    junk fill rnd Hfill Hrnd k _ _ _ _ d1 d2 file L1 NE B E)
    as (W & rest & f' & i' & buf' & prev' & -> & E2 & LW & D).
  assert (R0 : rest <> []).
  { destruct f' as [|f']; [discriminate E2|].
    destruct (encipher_cons (g_junk g) (g_cipher g) (g_mode g) (g_key g) (g_nonce g) cs (g_hmac g) (g_entropy g) Hcs junk fill rnd
      f' i' buf' prev' d2 rest NE E2) as (w & ct & n & pad & buf2 & rest' & E1 & _ & ->).
    assert (L2 : (0 < length (firstn cs d2) <= cs)%nat).
    { rewrite firstn_length. destruct d2; [congruence|]. cbn [length]. lia. }
    apply bytes_app in B as [B1 B2].
    destruct (encipher_chunk_spec (g_junk g) (g_cipher g) (g_mode g) (g_key g) (g_nonce g) Hk Hn Hm cs (g_hmac g) (g_entropy g) Hc
      junk fill rnd i' buf' _ w ct n pad buf2 Hfill Hrnd L2 (Mem32.Forall_firstn_ _ _ _ B2) E1) as (tag & pay & R & P1 & _ & P3 & _ & P5 & -> & _).
    assert (W0 : (0 < length (firstn n R))%nat).
    { rewrite firstn_length, P5, region_length, P1, P3. unfold written. pose proof (blocksize_bounds (g_cipher g)).
      destruct (is_cfb (g_mode g)); [lia|]. destruct (Nat.eqb _ _); nia. }
    intros Q. apply app_eq_nil in Q as [Q _]. apply app_eq_nil in Q as [_ Q]. apply app_eq_nil in Q as [_ Q]. rewrite Q in W0. cbn in W0. lia. }
  exists (length W). split; [rewrite app_length; destruct rest; [congruence|cbn; lia]|].
  intros tail LT. rewrite firstn_app_exact by reflexivity. unfold DecipherContent.
  edestruct D as (fuel & ct & LF & ->); [apply Nat.lt_succ_diag_r|]. fold (content g).
  match goal with |- context [decipher_chunks ?a ?b ?c ?d ?e ?f ?h] => change (decipher_chunks a b c d e f h) with
    (decipher_chunks fuel junk' (content g) feof ct tail false) end.
  rewrite (stop_rest g) by (lia || exact LT). cbn [bind]. now rewrite app_nil_r.
Qed.

(** C59, the part that holds: what decipher writes, whether it succeeds or not, is
    a sequence of chunks each of which stands in the file after its own HMAC *)
Inductive authentic (mac : list N -> list N) : list N -> list N -> Prop :=
| auth_end file : authentic mac file []
| auth_chunk text skipped rest out : skipped <> [] -> authentic mac rest out ->
    authentic mac (mac text ++ skipped ++ rest) (text ++ out).
Theorem content_authentic_partial junk cfg feof size mac file st out :
  c_hmac cfg = Some (size, mac) ->
  DecipherContent junk cfg feof file = Ok (st, out) -> authentic mac file out.
Proof.
  intros H E. unfold DecipherContent in E. revert E. generalize (S (length file)) as fuel, (AcquireStringInfo (c_chunksize cfg)) as ct, false as eof.
  intros fuel. revert file st out. induction fuel as [|fuel IH]; intros file st out ct eof E; [discriminate E|].
  cbn [decipher_chunks] in E. destruct (decipher_round junk cfg feof ct file eof) as [r| |] eqn:ER; cbn [bind] in E; try discriminate.
  destruct r as [| |text rest eof' ct'].
  - injection E as <- <-. constructor.
  - injection E as <- <-. constructor.
  - destruct (decipher_chunks fuel junk cfg feof ct' rest eof') as [[st' more]| |] eqn:EM; cbn [bind] in E; try discriminate.
    injection E as <- <-. apply IH in EM.
    unfold decipher_round in ER. rewrite H in ER. cbv zeta in ER. unfold ReadBlobChunk at 1 in ER.
    destruct (firstn size file) as [|x0 hm'] eqn:EH; [discriminate ER|]. rewrite <- EH in ER.
    set (file1 := skipn size file) in *.
    destruct (match c_entropy cfg with Some _ => ReadBlobChunk file1 (eof || (length file <? size)%nat) 1 | None => ([NoEntropy], file1, eof || (length file <? size)%nat) end)
      as [[ent file2] eof2] eqn:EE.
    assert (F2 : exists t, file1 = t ++ file2).
    { destruct (c_entropy cfg); [|injection EE as <- <- <-; now exists []]. unfold ReadBlobChunk in EE. injection EE as <- <- <-.
      eexists. symmetry. apply (firstn_skipn 1). }
    destruct F2 as (t & F2).
    set (n := if is_cfb (mode (c_cipher cfg)) then _ else _) in ER. unfold ReadBlobChunk in ER.
    destruct (firstn n file2) as [|x1 data'] eqn:ED; [discriminate ER|]. rewrite <- ED in ER.
    match type of ER with bind ?M _ = _ => destruct M as [d| |] end; cbn [bind] in ER; try discriminate.
    match type of ER with bind ?M _ = _ => destruct M as [pl| |] end; cbn [bind] in ER; try discriminate.
    match type of ER with bind ?M _ = _ => destruct M as [n'| |] end; cbn [bind] in ER; try discriminate.
    match type of ER with bind ?M _ = _ => destruct M as [text1| |] end; cbn [bind] in ER; try discriminate.
    match type of ER with bind ?M _ = _ => destruct M as [r| |] end; cbn [bind] in ER; try discriminate.
    destruct r as [pt|]; [|discriminate].
    match type of ER with bind ?M _ = _ => destruct M as [text0| |] end; cbn [bind] in ER; try discriminate.
    rewrite compare_blobs in ER. cbn [bind] in ER. destruct (lex (firstn size file) (mac text0)) eqn:EL; try discriminate.
    injection ER as <- <- <- <-. apply lex_eq in EL.
    assert (FF : file = mac text0 ++ (t ++ firstn n file2) ++ skipn n file2).
    { rewrite <- EL, <- app_assoc, firstn_skipn, <- F2. unfold file1. symmetry. apply firstn_skipn. }
    rewrite FF. apply auth_chunk; [|exact EM]. intros Q. apply app_eq_nil in Q as [_ Q]. congruence.
Qed.

(** C58 is false without an HMAC when the length is an exact multiple of a chunk
    that is a whole number of blocks: the padding follows as a block of its own,
    is taken for the next chunk, and its padding length wraps *)
Definition example_setting m cs h e : Setting :=
  {| g_junk := 0; g_cipher := AESCipher; g_mode := m; g_key := [1; 2; 3]%N; g_nonce := example_nonce;
     g_chunksize := cs; g_hmac := h; g_entropy := e |}.
Definition zero (_ : nat) : N := 0.
Definition constant (x : N) (_ _ : nat) : N := x.
Lemma example_usable m cs h e : m <> UndefinedMode -> (0 < cs)%nat -> hmac_ok h -> coder_ok e -> usable (example_setting m cs h e).
Proof.
  intros Hm Hc Hh He. repeat split; cbn [example_setting g_key g_nonce g_cipher g_mode g_chunksize g_hmac g_entropy]; try assumption.
  - repeat constructor.
  - vm_compute. lia.
  - apply Forall_forall. intros x Hx. apply N.ltb_lt. revert x Hx. apply forallb_forall. vm_compute. reflexivity.
Qed.
Definition example_file g plain :=
  match EncipherContent zero (constant 5) (constant 9) (content g) plain with Ok (Some f) => f | _ => [] end.
Theorem content_exact_refuted : exists g plain file,
  usable g /\ bytes plain /\ g_hmac g = None /\
  EncipherContent zero (constant 5) (constant 9) (content g) plain = Ok (Some file) /\
  DecipherContent zero (content g) true file = Fatal.
Proof.
  exists (example_setting CTRMode 32 None None), (repeat 65%N 32),
    (example_file (example_setting CTRMode 32 None None) (repeat 65%N 32)).
  split; [apply example_usable; [discriminate|lia|exact I|exact I]|].
  split; [apply Forall_forall; intros x Hx; apply repeat_spec in Hx; subst; lia|].
  split; [reflexivity|]. split; vm_compute; reflexivity.
Qed.

(** examples: a coder that shortens blocks of zeros, and an HMAC of the length *)
Definition toy_coder : Coder := {| e_type := 2;
  increase := fun p => match p with [] => None | _ => if forallb (N.eqb 0) p then Some [0]%N else Some (1%N :: p) end;
  restore := fun n z => match z with
    | x :: q => if N.eqb x 0 then Some (repeat 0%N n) else Some (firstn n q) | [] => None end |}.
Definition toy_hmac : option (nat * (list N -> list N)) := Some (20%nat, fun l => repeat (N.of_nat (length l)) 20).
Lemma toy_coder_ok : coder_ok (Some toy_coder).
Proof.
  split; [discriminate|]. intros p chaos B E. cbn [increase toy_coder] in E. destruct p as [|p0 p']; [discriminate|].
  destruct (forallb (N.eqb 0) (p0 :: p')) eqn:Z; injection E as <-; (split; [apply Forall_cons; [reflexivity|first [apply Forall_nil | exact B]]|]); intros x L.
  - cbn [restore toy_coder app N.eqb]. f_equal. symmetry. revert Z. generalize (p0 :: p'). clear.
    induction l as [|a l IH]; [reflexivity|]. cbn [forallb length repeat]. intros H. apply andb_true_iff in H as [H1 H2].
    apply N.eqb_eq in H1. rewrite <- IH by exact H2. now subst.
  - cbn [length] in L. lia.
Qed.
Lemma toy_hmac_ok : hmac_ok toy_hmac.
Proof. split; [lia|]. intros x. apply repeat_length. Qed.

Definition example_plain n := repeat 65%N n ++ repeat 0%N n.
Example content_example :
  let g := example_setting CTRMode 20 toy_hmac (Some toy_coder) in
  usable g /\ recoverable g true (length (example_plain 25)) /\
  EncipherContent zero (constant 5) (constant 9) (content g) (example_plain 25) = Ok (Some (example_file g (example_plain 25))) /\
  DecipherContent zero (content g) true (example_file g (example_plain 25)) = Ok (true, example_plain 25).
Proof.
  split; [apply example_usable; [discriminate|lia|apply toy_hmac_ok|apply toy_coder_ok]|].
  split; [right; left; vm_compute; discriminate|]. split; vm_compute; reflexivity.
Qed.
Example content_recoverable_cases :
  recoverable (example_setting CBCMode 32 toy_hmac None) true 64 /\
  recoverable (example_setting CBCMode 32 None None) true 40 /\
  ~ recoverable (example_setting CBCMode 32 None None) true 50 /\
  ~ recoverable (example_setting CBCMode 32 None None) false 40 /\
  ~ recoverable (example_setting CBCMode 32 None None) true 64.
Proof.
  unfold recoverable. vm_compute cipher_blocksize. cbn [example_setting g_cipher g_chunksize g_mode g_hmac g_entropy overhead toy_hmac].
  repeat split.
  - right. right. right. left. cbn. lia.
  - right. right. right. right. cbn. lia.
  - cbn. intros H. intuition (discriminate || lia).
  - cbn. intros H. intuition (discriminate || lia).
  - cbn. intros H. intuition (discriminate || lia).
Qed.
Example content_padding_example :
  let g := example_setting CBCMode 32 None None in
  usable g /\ (0 < 18 < g_chunksize g)%nat /\ (16 * (18 / 16 + 1) = g_chunksize g)%nat /\
  DecipherContent zero (content g) true (example_file g (example_plain 25)) = Ok (true, example_plain 25 ++ repeat 9%N 13 ++ [13]%N).
Proof.
  split; [apply example_usable; [discriminate|lia|exact I|exact I]|]. split; [cbn; lia|]. split; [reflexivity|]. vm_compute. reflexivity.
Qed.
Example content_padding_hmac_example :
  let g := example_setting CBCMode 32 toy_hmac None in
  usable g /\
  (forall d x : list N, x <> [] -> repeat (N.of_nat (length (d ++ x))) 20 <> repeat (N.of_nat (length d)) 20) /\
  DecipherContent zero (content g) true (example_file g (example_plain 25)) = Ok (false, firstn 32 (example_plain 25)).
Proof.
  split; [apply example_usable; [discriminate|lia|apply toy_hmac_ok|exact I]|]. split; [|vm_compute; reflexivity].
  intros d x NE H. injection H as H. rewrite app_length in H. destruct x; [congruence|cbn [length] in H]; lia.
Qed.
Example content_truncation_example :
  let g := example_setting CTRMode 20 toy_hmac (Some toy_coder) in
  DecipherContent zero (content g) true (firstn 53 (example_file g (example_plain 25)) ++ [1; 2; 3]%N) = Ok (true, firstn 20 (example_plain 25)).
Proof. vm_compute. reflexivity. Qed.
Example content_authentic_example :
  let g := example_setting CTRMode 20 toy_hmac None in
  let file := example_file g (example_plain 25) in
  let file := firstn 52 file ++ [7]%N ++ skipn 53 file in
  DecipherContent zero (content g) true file = Ok (false, firstn 20 (example_plain 25)).
Proof. vm_compute. reflexivity. Qed.

Print Assumptions content_round_trip_partial.
Print Assumptions content_padding_refuted.
Print Assumptions content_padding_hmac_refuted.
Print Assumptions content_exact_refuted.
Print Assumptions content_truncation_refuted.
Print Assumptions content_authentic_partial.
