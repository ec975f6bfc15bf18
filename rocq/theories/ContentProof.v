(** One chunk of a content file, enciphered and deciphered. *)
From Coq Require Import Arith NArith List Lia Bool.
From Verif Require Import Base BaseLemmas Outcome StringInfoModel StringInfoProof CipherModel CipherSpec CipherProof
  CipherInfoModel CipherProps ContentModel.
Import ListNotations.

Lemma lex_refl a : lex a a = Eq.
Proof. induction a as [|x a IH]; [reflexivity|]. cbn [lex]. now rewrite N.compare_refl. Qed.
Lemma lex_eq a b : lex a b = Eq -> a = b.
Proof.
  revert b. induction a as [|x a IH]; intros [|y b] E; try reflexivity; try discriminate E.
  cbn [lex] in E. destruct (N.compare_spec x y) as [->| |]; try discriminate. f_equal. now apply IH.
Qed.
Lemma compare_blobs a b : CompareStringInfo (BlobToStringInfo a) (BlobToStringInfo b) = Ok (lex a b).
Proof.
  destruct (blob_spec a) as [Wa Ca], (blob_spec b) as [Wb Cb]. rewrite compare_spec by assumption. now rewrite Ca, Cb.
Qed.

(** reading a file chunk into a string of any previous content *)
Lemma fill_string junk s n data : (length data <= n)%nat ->
  exists d, mem_write (datum (SetStringInfoLength junk s n)) 0 data = Ok d /\
    let s' := SetStringInfoLength junk (mkSI d (slen (SetStringInfoLength junk s n))) (length data) in
    wf s' /\ contents s' = data /\ slen s' = length data.
Proof.
  intros L. assert (LD : length (datum (SetStringInfoLength junk s n)) = (n + MaxCipherBlocksize)%nat).
  { unfold SetStringInfoLength. cbn [datum]. apply mem_resize_length. }
  set (D := datum (SetStringInfoLength junk s n)) in *. clearbody D.
  rewrite mem_write_ok by lia. eexists. split; [reflexivity|]. cbv zeta. unfold wf, contents, SetStringInfoLength.
  cbn [slen datum]. rewrite mem_resize_length. split; [lia|]. split; [|reflexivity].
  rewrite mem_resize_firstn; [|lia|rewrite splice_length; lia]. rewrite splice0. now apply firstn_app_exact.
Qed.

Section Chunk.
Variables (cj : N) (t : CipherType) (m : CipherMode) (key : list N) (nn : StringInfo).
Hypothesis Hkey : bytes key.
Hypothesis Hnonce : nonce_for t nn.
Let c := cipher_info cj t m key nn.
Let bs := cipher_blocksize t.

Lemma bs_bounds : (0 < bs <= MaxCipherBlocksize)%nat.
Proof. apply blocksize_bounds. Qed.

(** what is enciphered for a message, with the padding *)
Definition region (rnd : nat -> N) (data : list N) : list N := if is_cfb m then data else padded bs rnd data.
(** the number of bytes written before the last block is *)
Definition written (l : nat) : nat := if is_cfb m then l else if Nat.eqb (l mod bs) 0 then l else (bs * (l / bs + 1))%nat.
(** the parts of the region that a chunk may consist of *)
Definition part (l k : nat) : Prop := if is_cfb m then k = l else (exists q, k = (bs * q)%nat /\ (q <= l / bs + 1)%nat).

Lemma region_length rnd data : length (region rnd data) = if is_cfb m then length data else (bs * (length data / bs + 1))%nat.
Proof.
  unfold region. destruct (is_cfb m); [reflexivity|]. pose proof bs_bounds. rewrite padded_length by lia. apply pad_total. lia.
Qed.

Lemma firstn_concat (k n : nat) (C : list (list N)) : Forall (fun b => length b = n) C ->
  concat (firstn k C) = firstn (n * k) (concat C).
Proof.
  intros F. revert k. induction F as [|b C Hb F IH]; intros [|k]; cbn [firstn concat]; rewrite ?firstn_nil, ?Nat.mul_0_r; try reflexivity.
  rewrite IH. replace (n * S k)%nat with (length b + n * k)%nat by lia. now rewrite firstn_app_2.
Qed.

Lemma encipher_region rnd s s' : m <> UndefinedMode -> wf s -> bytes (contents s) -> (forall i, rnd i < 256)%N ->
  EncipherCipher c rnd s = Ok s' ->
  exists R, length R = length (region rnd (contents s)) /\ firstn (length R) (datum s') = R /\ (length R <= length (datum s'))%nat /\
    forall k s2, part (slen s) k -> wf s2 -> contents s2 = firstn k R ->
      exists s3, DecipherCipher c s2 = Ok s3 /\ slen s3 = slen s2 /\ contents s3 = firstn k (region rnd (contents s)).
Proof using Hkey Hnonce.
  intros Hm W B Hr E. pose proof bs_bounds as Bb.
  assert (G : good_cipher c) by now apply good_cipher_info.
  assert (Hbs : blocksize c = bs) by apply blocksize_of. assert (HM : mode c = m) by apply mode_of.
  assert (LC : length (contents s) = slen s) by now apply contents_length.
  destruct (is_padded m) eqn:P.
  - assert (CF : is_cfb m = false) by (destruct m; (reflexivity || discriminate P)).
    assert (NW : m = CTRMode -> (be_val (contents nn) + N.of_nat (slen s / bs + 1) < 256 ^ N.of_nat bs)%N).
    { intros M. destruct (encipher_spec c rnd s G W) as [_ E2]; [now rewrite HM|].
      destruct (N.ltb_spec (be_val (contents nn) + N.of_nat (slen s / bs + 1)) (256 ^ N.of_nat bs)) as [Q|Q]; [exact Q|].
      rewrite E2 in E; [discriminate|]. unfold no_wrap. rewrite HM, Hbs. subst c. rewrite nonce_of. intros Q2. specialize (Q2 M). lia. }
    pose proof (cipher_is_sp80038a cj t m key nn rnd s Hkey Hnonce W P NW) as ES. cbv zeta in ES. fold bs in ES. fold c in ES.
    rewrite E in ES. injection ES as ES. set (Pl := chunks bs (padded bs rnd (contents s))) in *.
    destruct (padded_blocks bs rnd s Bb W B Hr) as [FP LP]. fold Pl in FP, LP.
    assert (Nb : block_of bs (contents nn)).
    { pose proof (nonce_is_block c G) as Q. rewrite Hbs in Q. subst c. rewrite nonce_of in Q. exact Q. }
    assert (HE : forall b, block_of bs b -> block_of bs (encipher_block c b)) by (rewrite <- Hbs; apply (gc_enc c G)).
    destruct (sp80038a_blocks bs (encipher_block c) HE m (contents nn) Pl Nb FP P) as [FC LQ].
    set (C := sp80038a m (encipher_block c) (contents nn) Pl) in *.
    assert (FC' : Forall (fun b => length b = bs) C) by (eapply Forall_impl; [|exact FC]; intros b Hb; apply Hb).
    assert (FP' : Forall (fun b => length b = bs) Pl) by (eapply Forall_impl; [|exact FP]; intros b Hb; apply Hb).
    assert (LR : length (concat C) = (bs * (slen s / bs + 1))%nat) by (rewrite (concat_length bs) by exact FC'; congruence).
    exists (concat C). rewrite region_length, CF, LC. split; [exact LR|]. subst s'. cbn [datum].
    split; [now apply firstn_app_exact|]. split; [rewrite app_length; lia|].
    intros k s2 Hk W2 C2. unfold part in Hk. rewrite CF in Hk. destruct Hk as (q & -> & Hq).
    rewrite <- (firstn_concat q bs C FC') in C2.
    destruct (cipher_region_round_trip cj t m key nn Pl q s2 Hkey Hnonce P FP) as (s3 & D & L3 & C3); try assumption.
    { fold bs. now rewrite LP. } { now rewrite LP. }
    exists s3. split; [exact D|]. split; [exact L3|]. rewrite C3, (firstn_concat q bs Pl FP'). unfold Pl.
    rewrite concat_chunks by lia. unfold region. now rewrite CF.
  - assert (Ec : m = CFBMode) by (destruct m; try discriminate P; congruence).
    rewrite (encipher_cfb_spec c rnd s G W) in E by congruence. injection E as <-. cbn [datum].
    set (C := CFB8_encrypt (encipher_block c) (contents (nonce c)) (contents s)).
    assert (LR : length C = slen s) by (subst C; rewrite CFB8_length; exact LC).
    exists C. rewrite region_length. unfold part, region. rewrite Ec. cbn [is_cfb]. split; [lia|]. split; [now apply firstn_app_exact|].
    split; [rewrite app_length; lia|]. intros k s2 -> W2 C2. rewrite !firstn_all2 in * by lia.
    assert (L2 : slen s2 = slen s) by (rewrite <- (contents_length s2 W2), C2; exact LR).
    unfold DecipherCipher. rewrite HM, Ec. rewrite nonce_block_ok by exact G. cbn [bind].
    rewrite cfb_loop by exact W2. rewrite C2.
    destruct (run_inverse (cfb_encipher_step c) (cfb_decipher_step c) (fun _ => True)
      (fun b => exists y, b = [y]) (cfb_inverse c) (map (fun x => [x]) (contents s))
      (contents (nonce c)) (map (fun x => [x]) C) (slen s)) as [R _]; auto.
    { apply Forall_forall. intros x Hx. apply in_map_iff in Hx as (y & <- & _). eauto. }
    { subst C. apply run_cfb. }
    rewrite firstn_all2 in R by (rewrite map_length; lia). rewrite R. cbn [bind].
    eexists. split; [reflexivity|]. split; [reflexivity|]. unfold contents at 1. cbn [slen datum].
    rewrite (firstn_all2 (n := slen s) (map (fun x => [x]) (contents s))) by (rewrite map_length; lia).
    rewrite singletons_concat, L2. apply firstn_app_exact. exact LC.
Qed.

(** ** The loop bodies *)
Hypothesis Hmode : m <> UndefinedMode.
Variables (cs : nat) (hmac : option (nat * (list N -> list N))) (entropy : option Coder).
Let cfg := mkContent c cs hmac entropy.

(** the assumptions on the HMAC and the entropy coder *)
Definition hmac_ok (h : option (nat * (list N -> list N))) : Prop :=
  match h with None => True | Some (size, mac) => (0 < size)%nat /\ forall x, length (mac x) = size end.
Definition coder_ok (e : option Coder) : Prop :=
  match e with
  | None => True
  | Some e => e_type e <> NoEntropy /\
      forall p chaos, bytes p -> increase e p = Some chaos -> bytes chaos /\
        forall x, (length chaos + length x = length p)%nat -> restore e (length p) (chaos ++ x) = Some p
  end.
Hypothesis Hhmac : hmac_ok hmac.
Hypothesis Hcoder : coder_ok entropy.

Definition digest (text : list N) : list N := match hmac with None => [] | Some (_, mac) => mac text end.
Definition decoded (tag pay data : list N) : Prop :=
  match entropy with
  | None => tag = [] /\ data = pay
  | Some e => exists b, tag = [b] /\ (b = NoEntropy /\ data = pay \/ b <> NoEntropy /\ restore e (length pay) pay = Some data)
  end.
Definition deciphers (rnd : nat -> N) (pay R : list N) : Prop :=
  forall k s2, part (length pay) k -> wf s2 -> contents s2 = firstn k R ->
    exists s3, DecipherCipher c s2 = Ok s3 /\ slen s3 = slen s2 /\ contents s3 = firstn k (region rnd pay).

Lemma written_eq l : (0 < l)%nat ->
  written l = (if is_cfb m then l else if Nat.eqb (bs - l mod bs) bs then l else l + (bs - l mod bs))%nat.
Proof.
  intros L. pose proof bs_bounds as B. unfold written. destruct (is_cfb m); [reflexivity|].
  pose proof (Nat.mod_upper_bound l bs ltac:(lia)) as U. pose proof (Nat.div_mod l bs ltac:(lia)) as D.
  destruct (Nat.eqb_spec (l mod bs) 0), (Nat.eqb_spec (bs - l mod bs) bs); lia.
Qed.
Lemma written_le l : (written l <= if is_cfb m then l else bs * (l / bs + 1))%nat.
Proof.
  pose proof bs_bounds as B. unfold written. destruct (is_cfb m); [lia|].
  pose proof (Nat.mod_upper_bound l bs ltac:(lia)) as U. pose proof (Nat.div_mod l bs ltac:(lia)) as D.
  destruct (Nat.eqb_spec (l mod bs) 0); lia.
Qed.

Lemma encipher_chunk_spec junk fill rnd i buf data w ct n pad buf' :
  (forall i j, fill i j < 256)%N -> (forall i j, rnd i j < 256)%N -> (0 < length data <= cs)%nat -> bytes data ->
  encipher_chunk junk fill rnd cfg i buf data = Ok (Some (w, ct, n, pad, buf')) ->
  exists tag pay R, length pay = length data /\ decoded tag pay data /\
    n = written (length data) /\ pad = (if is_cfb m then 0 else bs - length data mod bs)%nat /\
    length R = length (region (rnd i) pay) /\ w = digest data ++ tag ++ firstn n R /\
    firstn (length R) (datum ct) = R /\ (length R <= length (datum ct))%nat /\ deciphers (rnd i) pay R.
Proof using Hkey Hnonce Hmode Hcoder.
  intros Hf Hr L B E. unfold encipher_chunk in E. cbv zeta in E. cbn [c_cipher c_chunksize c_hmac c_entropy cfg] in E.
  destruct (fill_string junk buf cs data ltac:(lia)) as (d & Ed & W & C & SL). cbv zeta in W, C, SL. rewrite Ed in E. cbn [bind] in E.
  set (p := SetStringInfoLength junk (mkSI d (slen (SetStringInfoLength junk buf cs))) (length data)) in *.
  assert (LD : (length data <= length (datum p))%nat) by (unfold wf in W; lia).
  rewrite mem_read_ok in E by lia. cbn [bind] in E. rewrite slice0 in E.
  replace (firstn (length data) (datum p)) with data in E by (rewrite <- C at 1; unfold contents; now rewrite SL). fold (digest data) in E.
  match type of E with bind ?X _ = _ => destruct X as [[[pl tag]|]| |] eqn:EX end; cbn [bind] in E; try discriminate.
  destruct (EncipherCipher c (rnd i) pl) as [ct'| |] eqn:EC; cbn [bind] in E; try discriminate.
  assert (PL : wf pl /\ bytes (contents pl) /\ slen pl = length data /\ decoded tag (contents pl) data).
  { unfold decoded. destruct entropy as [e|].
    - destruct Hcoder as [T HC]. destruct (increase e data) as [chaos|] eqn:EI; [|discriminate EX].
      destruct (HC data chaos B EI) as [BC RC]. destruct (Nat.ltb_spec (length data) (length chaos)) as [LT|LT].
      + injection EX as <- <-. rewrite C. split; [exact W|]. split; [exact B|]. split; [exact SL|]. exists NoEntropy. split; [reflexivity|]. left. auto.
      + destruct (blob_spec chaos) as [WB CB]. destruct (set_spec p (BlobToStringInfo chaos) W WB) as (q & Eq & Wq & Cq & Lq).
        rewrite Eq in EX. cbn [bind] in EX. unfold wf in Wq.
        set (x := map (fill i) (seq 0 (length data - length chaos))) in EX.
        assert (LX : length x = (length data - length chaos)%nat) by (unfold x; now rewrite map_length, seq_length).
        rewrite mem_write_ok in EX by lia. cbn [bind] in EX. injection EX as <- <-. cbn [slen datum].
        assert (BX : bytes x). { apply Forall_forall. intros y Hy. apply in_map_iff in Hy as (z & <- & _). apply Hf. }
        assert (CH : firstn (length chaos) (datum q) = chaos).
        { transitivity (firstn (length chaos) (contents q)).
          - unfold contents. rewrite firstn_firstn. f_equal. lia.
          - rewrite Cq, CB. unfold fit. rewrite firstn_app, firstn_firstn. rewrite firstn_length.
            replace (Nat.min (length chaos) (slen p)) with (length chaos) by lia.
            replace (length chaos - Nat.min (slen p) (length chaos))%nat with 0%nat by lia.
            now rewrite firstn_O, app_nil_r, firstn_all. }
        assert (CX' : contents (mkSI (splice (datum q) (length chaos) x) (slen q)) = chaos ++ x).
        { unfold contents. cbn [slen datum]. unfold splice. rewrite CH, app_assoc. apply firstn_app_exact. rewrite app_length. lia. }
        rewrite CX'. split; [unfold wf; cbn [slen datum]; rewrite splice_length; lia|]. split; [apply bytes_app; auto|].
        split; [congruence|]. exists (e_type e). split; [reflexivity|]. right. split; [exact T|].
        rewrite app_length, LX. replace (length chaos + (length data - length chaos))%nat with (length data) by lia. apply RC. lia.
    - injection EX as <- <-. rewrite C. auto. }
  destruct PL as (Wp & Bp & Lp & DP).
  assert (Lc : length (contents pl) = length data) by (rewrite contents_length by exact Wp; exact Lp).
  destruct (encipher_region (rnd i) pl ct' Hmode Wp Bp (Hr i) EC) as (R & LR & R1 & R2 & R3).
  assert (Hbs : blocksize c = bs) by apply blocksize_of. assert (HM : mode c = m) by apply mode_of.
  rewrite Hbs, HM in E. exists tag, (contents pl), R. split; [exact Lc|]. split; [exact DP|].
  assert (EW := written_eq (length data) ltac:(lia)).
  set (n0 := if is_cfb m then length data else if Nat.eqb (if is_cfb m then 0 else bs - length data mod bs) bs then length data
             else (length data + (if is_cfb m then 0 else bs - length data mod bs))%nat) in E.
  assert (EN : n0 = written (length data)). { rewrite EW. unfold n0. destruct (is_cfb m); reflexivity. }
  assert (WL : (written (length data) <= length R)%nat).
  { rewrite LR, region_length, Lc. apply written_le. }
  rewrite mem_read_ok in E by lia. cbn [bind] in E. injection E as <- <- <- <- <-. rewrite slice0.
  split; [exact EN|]. split; [reflexivity|]. split; [exact LR|]. split.
  - do 2 f_equal. rewrite <- R1. rewrite firstn_firstn. f_equal. lia.
  - split; [exact R1|]. split; [exact R2|]. intros k s2 Hk W2 C2. rewrite Lc, <- Lp in Hk. apply (R3 k s2 Hk W2 C2).
Qed.

(** the number of bytes read for a chunk, and whether the padding is removed *)
Definition cut : nat := if Nat.eqb (bs - cs mod bs) bs then 0%nat else (bs - cs mod bs)%nat.
Definition read_size : nat := if is_cfb m then cs else (cs + cut)%nat.
Definition trims (feof : bool) (F : list N) : bool :=
  negb (is_cfb m) && (negb (Nat.eqb cut 0) || (feof && Nat.ltb (length F) read_size)).
Definition trim (feof : bool) (F Y : list N) : list N :=
  if trims feof F then firstn (length Y - S (N.to_nat (last Y 0%N))) Y else Y.

Lemma fit_all b : fit (length b) b = b.
Proof. unfold fit. rewrite firstn_all, Nat.sub_diag. apply app_nil_r. Qed.
Lemma last_slice (l : list N) : l <> [] -> firstn 1 (skipn (length l - 1) l) = [last l 0%N].
Proof.
  intros H. destruct (exists_last H) as (l' & x & ->). rewrite last_last, app_length. cbn [length].
  replace (length l' + 1 - 1)%nat with (length l') by lia. now rewrite skipn_app, skipn_all, Nat.sub_diag.
Qed.
Lemma ltb_longer (a b : nat) : (b <= a)%nat -> Nat.ltb a b = false.
Proof. intros. apply Nat.ltb_ge. assumption. Qed.
Lemma skipn_app_exact {A} n (a b : list A) : length a = n -> skipn n (a ++ b) = b.
Proof. intros <-. rewrite skipn_app, skipn_all, Nat.sub_diag. reflexivity. Qed.

Lemma match_nonempty {A B} (l : list A) (a b : B) : l <> [] -> match l with [] => a | _ :: _ => b end = b.
Proof. destruct l; [congruence|reflexivity]. Qed.

Lemma decipher_round_spec junk feof ct dg tag F Y text :
  match hmac with None => dg = [] | Some (size, _) => (0 < size)%nat /\ length dg = size end ->
  match entropy with None => tag = [] | Some _ => length tag = 1%nat end ->
  firstn read_size F <> [] ->
  (forall s2, wf s2 -> contents s2 = firstn read_size F ->
    exists s3, DecipherCipher c s2 = Ok s3 /\ slen s3 = slen s2 /\ contents s3 = Y) ->
  length Y = length (firstn read_size F) ->
  (trims feof F = true -> S (N.to_nat (last Y 0%N)) <= length Y)%nat ->
  decoded tag (trim feof F Y) text -> length text = length (trim feof F Y) ->
  exists ct', decipher_round junk cfg feof ct (dg ++ tag ++ F) false =
    Ok (match hmac with
        | None => Wrote text (skipn read_size F) (Nat.ltb (length F) read_size) ct'
        | Some (_, mac) => match lex dg (mac text) with
            | Eq => Wrote text (skipn read_size F) (Nat.ltb (length F) read_size) ct'
            | _ => Failed end
        end).
Proof using Type.
  clear Hhmac Hcoder. intros HD HT HX HC LY HL DEC LT. set (X := firstn read_size F) in *.
  assert (Hbs : blocksize c = bs) by apply blocksize_of. assert (HM : mode c = m) by apply mode_of.
  assert (LF : F <> []) by (intros ->; apply HX; unfold X; apply firstn_nil).
  assert (LF' : (0 < length F)%nat) by (destruct F; [congruence|cbn; lia]).
  unfold decipher_round. cbv zeta. cbn [c_cipher c_chunksize c_hmac c_entropy cfg]. rewrite Hbs, HM. fold cut. fold read_size.
  assert (RX : forall eof', ReadBlobChunk F eof' read_size = (X, skipn read_size F, eof' || Nat.ltb (length F) read_size)) by reflexivity.
  assert (LX : (length X <= read_size)%nat) by (unfold X; rewrite firstn_length; lia).
  assert (AFTER : exists ct', forall (hm ent : list N),
    ent = (match entropy with None => [NoEntropy] | Some _ => tag end) ->
    (let '(data, file0, eof1) := ReadBlobChunk F false read_size in
     match data with
     | [] => Ok Stop
     | _ :: _ =>
       let* d := mem_write (datum (SetStringInfoLength junk ct read_size)) 0 data in
       let* plaintext := DecipherCipher c (SetStringInfoLength junk (mkSI d (slen (SetStringInfoLength junk ct read_size))) (length data)) in
       let* n := (if negb (is_cfb m) && (negb (Nat.eqb cut 0) || feof && eof1)
                  then let* b := mem_read (datum plaintext) (length data - 1) 1 in
                       (if Nat.ltb (length data) (S (N.to_nat (hd 0%N b))) then Fatal else Ok (length data - S (N.to_nat (hd 0%N b)))%nat)
                  else Ok (length data)) in
       let* text0 := mem_read (datum (SetStringInfoLength junk plaintext n)) 0 n in
       let* r := match entropy with
                 | None => Ok (Some (SetStringInfoLength junk plaintext n))
                 | Some e => if N.eqb (hd 256%N ent) NoEntropy then Ok (Some (SetStringInfoLength junk plaintext n))
                             else match restore e n text0 with
                                  | None => Ok None
                                  | Some chaos => let* p := SetStringInfo (SetStringInfoLength junk plaintext n) (BlobToStringInfo chaos) in Ok (Some p)
                                  end
                 end in
       match r with
       | None => Ok Failed
       | Some plaintext =>
         let* text0 := mem_read (datum plaintext) 0 n in
         let* cmp := match hmac with
                     | None => Ok Eq
                     | Some (_, mac) => CompareStringInfo (BlobToStringInfo hm) (BlobToStringInfo (mac text0))
                     end in
         match cmp with
         | Eq => Ok (Wrote text0 file0 eof1 (SetStringInfoLength junk (mkSI d (slen (SetStringInfoLength junk ct read_size))) (length data)))
         | _ => Ok Failed
         end
       end
     end) =
    Ok (match hmac with
        | None => Wrote text (skipn read_size F) (Nat.ltb (length F) read_size) ct'
        | Some (_, mac) => match lex hm (mac text) with
            | Eq => Wrote text (skipn read_size F) (Nat.ltb (length F) read_size) ct'
            | _ => Failed end
        end)).
  { rewrite RX. cbn [orb]. destruct (fill_string junk ct read_size X LX) as (d & Ed & W & C & SL). cbv zeta in W, C, SL.
    set (p := SetStringInfoLength junk (mkSI d (slen (SetStringInfoLength junk ct read_size))) (length X)) in *.
    exists p. intros hm ent EE. rewrite match_nonempty by exact HX.
    rewrite Ed. cbn [bind]. fold p. destruct (HC p W C) as (s3 & E3 & L3 & C3). rewrite E3. cbn [bind].
    assert (D3 : (length X <= length (datum s3))%nat).
    { rewrite <- LY, <- C3. unfold contents. rewrite firstn_length. lia. }
    assert (F3 : firstn (length X) (datum s3) = Y) by (rewrite <- C3; unfold contents; f_equal; congruence).
    assert (NE : Y <> []) by (intros ->; destruct X; [congruence|discriminate LY]).
    match goal with |- bind ?M _ = _ => assert (EM : M = Ok (length (trim feof F Y))) end.
    { fold (trims feof F). unfold trim. destruct (trims feof F) eqn:ET; [|now rewrite LY].
      rewrite mem_read_ok by (destruct X; [congruence|cbn [length] in *; lia]). cbn [bind].
      assert (SB : slice (datum s3) (length X - 1) 1 = [last Y 0%N]).
      { rewrite <- (last_slice Y NE), LY, <- F3. unfold slice.
        rewrite <- (firstn_skipn (length X) (datum s3)) at 1. rewrite skipn_app, firstn_app.
        rewrite skipn_length, firstn_length. replace (1 - (Nat.min (length X) (length (datum s3)) - (length X - 1)))%nat with 0%nat.
        - now rewrite firstn_O, app_nil_r.
        - destruct X; [congruence|cbn [length] in *; lia]. }
      rewrite SB. cbn [hd]. specialize (HL eq_refl). rewrite ltb_longer by lia. rewrite firstn_length. f_equal. lia. }
    rewrite EM. clear EM. cbn [bind]. set (pay := trim feof F Y) in *.
    assert (PP : exists k, pay = firstn k Y /\ (k <= length Y)%nat).
    { unfold pay, trim. destruct (trims feof F); [eexists; split; [reflexivity|lia]|]. exists (length Y). rewrite firstn_all. auto. }
    destruct PP as (k & PK & KL). assert (LP : length pay = k) by (rewrite PK, firstn_length; lia). rewrite LP.
    set (q := SetStringInfoLength junk s3 k).
    assert (Wq : wf q) by (unfold wf, q, SetStringInfoLength; cbn [slen datum]; rewrite mem_resize_length; lia).
    assert (Cq : contents q = pay).
    { unfold contents, q, SetStringInfoLength. cbn [slen datum]. rewrite mem_resize_firstn by lia. rewrite PK, <- F3, firstn_firstn. f_equal. lia. }
    assert (Sq : slen q = k) by reflexivity.
    assert (Rq : forall z, wf z -> slen z = k -> mem_read (datum z) 0 k = Ok (contents z)).
    { intros z Wz Sz. unfold wf in Wz. rewrite mem_read_ok by lia. rewrite slice0. unfold contents. now rewrite Sz. }
    rewrite (Rq q Wq Sq), Cq. cbn [bind].
    match goal with |- bind ?M _ = _ => assert (EM : exists z, M = Ok (Some z) /\ wf z /\ slen z = k /\ contents z = text) end.
    { rewrite EE. unfold decoded in DEC. destruct entropy as [e|].
      - destruct DEC as (b & -> & [[-> DT]|[NB RS]]); cbn [hd].
        + rewrite N.eqb_refl. exists q. rewrite DT. auto.
        + apply N.eqb_neq in NB. rewrite NB. rewrite LP in RS. rewrite RS. destruct (blob_spec text) as [WB CB].
          destruct (set_spec q (BlobToStringInfo text) Wq WB) as (z & Ez & Wz & Cz & Lz). rewrite Ez. cbn [bind]. exists z.
          split; [reflexivity|]. split; [exact Wz|]. split; [congruence|]. rewrite Cz, CB, Sq. replace k with (length text) by congruence. apply fit_all.
      - destruct DEC as [_ DT]. exists q. rewrite DT. auto. }
    destruct EM as (z & -> & Wz & Sz & Cz). cbn [bind]. rewrite (Rq z Wz Sz), Cz. cbn [bind].
    destruct hmac as [[size mac]|]; [|reflexivity]. rewrite compare_blobs. cbn [bind]. destruct (lex hm (mac text)); reflexivity. }
  destruct AFTER as (ct' & AFTER). exists ct'.
  assert (AE : (match (match entropy with None => ([NoEntropy], F, false) | Some _ => ReadBlobChunk (tag ++ F) false 1 end)
     with (ent, f', e') => ent = (match entropy with None => [NoEntropy] | Some _ => tag end) /\ f' = F /\ e' = false end)).
  { destruct entropy as [e|]; [|auto]. unfold ReadBlobChunk. rewrite firstn_app_exact, skipn_app_exact by exact HT.
    cbn [orb]. rewrite ltb_longer by (rewrite app_length; lia). auto. }
  destruct hmac as [[size mac]|].
  - destruct HD as [S0 SD]. unfold ReadBlobChunk at 1. rewrite firstn_app_exact, skipn_app_exact by exact SD. cbn [orb].
    rewrite ltb_longer by (rewrite app_length; lia). rewrite match_nonempty by (intros ->; cbn in SD; lia).
    destruct (match entropy with None => ([NoEntropy], tag ++ F, false) | Some _ => ReadBlobChunk (tag ++ F) false 1 end) as [[ent f'] e'] eqn:EQ.
    assert (Q : ent = (match entropy with None => [NoEntropy] | Some _ => tag end) /\ f' = F /\ e' = false).
    { destruct entropy; [now rewrite EQ in AE|]. rewrite HT in EQ. cbn [app] in EQ. injection EQ as <- <- <-. auto. }
    destruct Q as (Q1 & -> & ->). exact (AFTER dg ent Q1).
  - subst dg. cbn [app].
    destruct (match entropy with None => ([NoEntropy], tag ++ F, false) | Some _ => ReadBlobChunk (tag ++ F) false 1 end) as [[ent f'] e'] eqn:EQ.
    assert (Q : ent = (match entropy with None => [NoEntropy] | Some _ => tag end) /\ f' = F /\ e' = false).
    { destruct entropy; [now rewrite EQ in AE|]. rewrite HT in EQ. cbn [app] in EQ. injection EQ as <- <- <-. auto. }
    destruct Q as (Q1 & -> & ->). exact (AFTER [] ent Q1).
Qed.

(** ** The loops *)
Hypothesis Hcs : (0 < cs)%nat.
(** a shorter rest of the file ends the loop *)
Definition trailer : nat :=
  ((match hmac with None => 0 | Some (size, _) => size end) + (match entropy with None => 0 | Some _ => 1 end))%nat.

Lemma decipher_stop junk feof ct G eof : (length G <= trailer)%nat -> decipher_round junk cfg feof ct G eof = Ok Stop.
Proof using Type.
  clear Hhmac Hcoder Hcs. intros L. unfold decipher_round. cbv zeta. cbn [c_cipher c_chunksize c_hmac c_entropy cfg].
  unfold trailer in L. destruct hmac as [[size mac]|].
  - unfold ReadBlobChunk at 1. destruct (firstn size G) eqn:E; [reflexivity|].
    destruct entropy as [e|]; unfold ReadBlobChunk.
    + rewrite (skipn_all2 (n := 1) (skipn size G)) by (rewrite skipn_length; lia). rewrite firstn_nil. reflexivity.
    + rewrite skipn_all2 by lia. rewrite firstn_nil. reflexivity.
  - destruct entropy as [e|]; unfold ReadBlobChunk.
    + rewrite (skipn_all2 (n := 1) G) by lia. rewrite firstn_nil. reflexivity.
    + destruct G; [|cbn in L; lia]. rewrite firstn_nil. reflexivity.
Qed.

Lemma read_size_written : read_size = written cs.
Proof using Hcs.
  rewrite written_eq by exact Hcs. unfold read_size, cut. destruct (is_cfb m); [reflexivity|].
  destruct (Nat.eqb _ _); lia.
Qed.
Lemma cut_zero : cut = 0%nat <-> (cs mod bs = 0)%nat.
Proof using Type.
  clear Hcs. pose proof bs_bounds as B. pose proof (Nat.mod_upper_bound cs bs ltac:(lia)) as U.
  unfold cut. destruct (Nat.eqb_spec (bs - cs mod bs) bs); lia.
Qed.
Lemma written_part l : part l (written l).
Proof.
  pose proof bs_bounds as B. unfold part, written. destruct (is_cfb m); [reflexivity|].
  destruct (Nat.eqb_spec (l mod bs) 0) as [E|E].
  - exists (l / bs)%nat. pose proof (Nat.div_mod l bs ltac:(lia)). lia.
  - exists (l / bs + 1)%nat. lia.
Qed.
Lemma region_part l : part l (if is_cfb m then l else bs * (l / bs + 1))%nat.
Proof. unfold part. destruct (is_cfb m); [reflexivity|]. exists (l / bs + 1)%nat. lia. Qed.
Lemma region_last rnd pay : is_cfb m = false ->
  (S (N.to_nat (last (region rnd pay) 0%N)) <= length (region rnd pay))%nat /\
  firstn (length (region rnd pay) - S (N.to_nat (last (region rnd pay) 0%N))) (region rnd pay) = pay.
Proof.
  intros CF. unfold region. rewrite CF. destruct (cipher_padding bs rnd pay bs_bounds) as (_ & L & _ & F & LL). cbv zeta in *.
  split.
  - unfold padded at 1. rewrite app_assoc, last_last, Nat2N.id. rewrite padded_length by apply bs_bounds.
    pose proof (pad_count_bounds bs (proj1 bs_bounds) (length pay)). lia.
  - replace (length (padded bs rnd pay) - S (N.to_nat (last (padded bs rnd pay) 0%N)))%nat with (length pay) by lia. exact F.
Qed.
Lemma region_prefix rnd pay : firstn (length pay) (region rnd pay) = pay.
Proof. unfold region. destruct (is_cfb m); [apply firstn_all|]. unfold padded. now apply firstn_app_exact. Qed.
Lemma decoded_tag tag pay data : decoded tag pay data -> match entropy with None => tag = [] | Some _ => length tag = 1%nat end.
Proof. clear Hcoder cfg. unfold decoded. destruct entropy; [intros (b & -> & _); reflexivity|tauto]. Qed.
Lemma digest_size data : match hmac with None => digest data = [] | Some (size, _) => (0 < size)%nat /\ length (digest data) = size end.
Proof using Hhmac. clear cfg. unfold digest. destruct hmac as [[size mac]|]; [|reflexivity]. destruct Hhmac. auto. Qed.

(** a complete chunk is read back whatever follows *)
Lemma middle_chunk junk feof ct rnd tag pay R data G :
  length data = cs -> length pay = length data -> decoded tag pay data -> length R = length (region rnd pay) -> deciphers rnd pay R ->
  exists ct', decipher_round junk cfg feof ct ((digest data ++ tag ++ firstn (written cs) R) ++ G) false = Ok (Wrote data G false ct').
Proof using Hhmac Hcs.
  intros LD LP DEC LR DC. set (n := written cs) in *.
  assert (NR : (n <= length R)%nat).
  { rewrite LR, region_length. rewrite LP, LD. apply written_le. }
  assert (LN : length (firstn n R) = n) by (rewrite firstn_length; lia).
  assert (N0 : (0 < n)%nat).
  { unfold n, written. destruct (is_cfb m); [exact Hcs|]. destruct (Nat.eqb _ _); [exact Hcs|]. pose proof bs_bounds. nia. }
  rewrite <- !app_assoc. set (F := firstn n R ++ G).
  assert (RS : read_size = n) by apply read_size_written.
  assert (FX : firstn read_size F = firstn n R) by (rewrite RS; now apply firstn_app_exact).
  assert (FS : skipn read_size F = G) by (rewrite RS; now apply skipn_app_exact).
  assert (FL : Nat.ltb (length F) read_size = false) by (apply Nat.ltb_ge; unfold F; rewrite app_length; lia).
  set (Y := firstn n (region rnd pay)).
  assert (LY : length Y = n) by (unfold Y; rewrite firstn_length; lia).
  assert (TR : trims feof F = negb (is_cfb m) && negb (Nat.eqb cut 0)).
  { unfold trims. rewrite FL, andb_false_r, orb_false_r. reflexivity. }
  assert (YR : trims feof F = true -> Y = region rnd pay /\ is_cfb m = false).
  { rewrite TR, andb_true_iff, !negb_true_iff, Nat.eqb_neq. intros [CF CU]. split; [|exact CF].
    unfold Y. apply firstn_all2. rewrite region_length, CF, LP, LD. unfold n, written. rewrite CF.
    rewrite cut_zero in CU. apply Nat.eqb_neq in CU. rewrite CU. lia. }
  assert (TP : trim feof F Y = pay).
  { unfold trim. destruct (trims feof F) eqn:ET.
    - destruct (YR eq_refl) as [-> CF]. now apply region_last.
    - unfold Y. replace n with (length pay); [apply region_prefix|]. rewrite LP, LD. unfold n, written.
      destruct (is_cfb m); [reflexivity|]. symmetry in TR. cbn [negb andb] in TR. apply negb_false_iff, Nat.eqb_eq, cut_zero in TR.
      rewrite TR. reflexivity. }
  destruct (decipher_round_spec junk feof ct (digest data) tag F Y data) as (ct' & E).
  - apply digest_size.
  - eapply decoded_tag; eassumption.
  - rewrite FX. intros Q. rewrite Q in LN. cbn in LN. lia.
  - intros s2 W2 C2. rewrite FX in C2. apply (DC n s2); [|exact W2|exact C2]. rewrite LP, LD. apply written_part.
  - rewrite FX. lia.
  - intros Q. destruct (YR Q) as [-> CF]. now apply region_last.
  - now rewrite TP.
  - now rewrite TP.
  - exists ct'. rewrite E, FS, FL. destruct hmac as [[size mac]|] eqn:EH; [|reflexivity]. unfold digest. rewrite EH, lex_refl. reflexivity.
Qed.

Section Loops.
Variables (junk : nat -> N) (fill rnd : nat -> nat -> N).
Hypothesis Hfill : forall i j, (fill i j < 256)%N.
Hypothesis Hrnd : forall i j, (rnd i j < 256)%N.

Lemma encipher_cons f i buf prev plain file : plain <> [] ->
  encipher_chunks (S f) junk fill rnd cfg i buf prev plain = Ok (Some file) ->
  exists w ct n pad buf' rest,
    encipher_chunk junk fill rnd cfg i buf (firstn cs plain) = Ok (Some (w, ct, n, pad, buf')) /\
    encipher_chunks f junk fill rnd cfg (S i) buf' (Some (ct, n, pad)) (skipn cs plain) = Ok (Some rest) /\ file = w ++ rest.
Proof using Hcs.
  clear Hfill Hrnd. intros NE E. cbn [encipher_chunks] in E. cbv zeta in E. cbn [c_chunksize cfg] in E.
  destruct (firstn cs plain) as [|x0 d0] eqn:EF; [exfalso; destruct plain, cs; [congruence|congruence|lia|discriminate]|].
  rewrite <- EF in E. rewrite <- EF.
  destruct (encipher_chunk _ _ _ _ _ _ _) as [[[[[[w ct] n] pad] buf']|]| |] eqn:EC; cbn [bind] in E; try discriminate.
  destruct (encipher_chunks f _ _ _ _ _ _ _ _) as [[rest|]| |] eqn:ER; cbn [bind] in E; try discriminate.
  injection E as <-. exists w, ct, n, pad, buf', rest. auto.
Qed.

Definition record_size : nat := (trailer + read_size)%nat.

Lemma tag_size tag pay data : decoded tag pay data -> length (digest data ++ tag) = trailer.
Proof using Hhmac t rnd junk fill cs.
  clear Hfill Hrnd Hcs. intros D. apply decoded_tag in D. pose proof (digest_size data) as S. rewrite app_length. unfold trailer, digest in *.
  clear cfg Hhmac Hcoder. destruct hmac as [[size mac]|], entropy; cbn [length] in *; subst; cbn [length]; lia.
Qed.

(** the chunks before the last *)
Lemma prefix_chunks k : forall f i buf prev d1 d2 file, length d1 = (k * cs)%nat -> d2 <> [] -> bytes (d1 ++ d2) ->
  encipher_chunks f junk fill rnd cfg i buf prev (d1 ++ d2) = Ok (Some file) ->
  exists W rest f' i' buf' prev', file = W ++ rest /\ encipher_chunks f' junk fill rnd cfg i' buf' prev' d2 = Ok (Some rest) /\
    length W = (k * record_size)%nat /\
    forall junk' feof ct G fuel, (length (W ++ G) < fuel)%nat ->
      exists fuel' ct', (length G < fuel')%nat /\
        decipher_chunks fuel junk' cfg feof ct (W ++ G) false =
        let* (st, more) := decipher_chunks fuel' junk' cfg feof ct' G false in Ok (st, d1 ++ more).
Proof using Hkey Hnonce Hmode Hhmac Hcoder Hcs Hfill Hrnd.
  induction k as [|k IH]; intros f i buf prev d1 d2 file L1 NE B E.
  - destruct d1; [|discriminate L1]. cbn [app] in *. exists [], file, f, i, buf, prev. split; [reflexivity|]. split; [exact E|]. split; [reflexivity|].
    intros junk' feof ct G fuel LG. exists fuel, ct. split; [exact LG|]. cbn [app]. destruct (decipher_chunks _ _ _ _ _ _ _) as [[]| |]; reflexivity.
  - destruct f as [|f]; [discriminate E|].
    assert (NE' : d1 ++ d2 <> []) by (intros Q; apply app_eq_nil in Q; tauto).
    destruct (encipher_cons f i buf prev (d1 ++ d2) file NE' E) as (w & ct & n & pad & buf' & rest & E1 & E2 & ->).
    assert (LA : length (firstn cs d1) = cs) by (rewrite firstn_length; nia).
    assert (LB : length (skipn cs d1) = (k * cs)%nat) by (rewrite skipn_length; nia).
    pose proof (firstn_skipn cs d1) as DD. set (a := firstn cs d1) in *. set (b := skipn cs d1) in *. clearbody a b. subst d1. clear L1 E NE'.
    rewrite <- app_assoc in *. rewrite firstn_app_exact in E1 by exact LA. rewrite skipn_app_exact in E2 by exact LA.
    apply bytes_app in B as [Ba Bb].
    destruct (encipher_chunk_spec junk fill rnd i buf a w ct n pad buf' Hfill Hrnd ltac:(lia) Ba E1)
      as (tag & pay & R & P1 & P2 & P3 & P4 & P5 & P6 & P7 & P8 & P9).
    destruct (IH f (S i) buf' (Some (ct, n, pad)) b d2 rest LB NE Bb E2) as (W & rest' & f' & i' & buf2 & prev' & -> & E3 & LW & D).
    rewrite LA in P3. subst n.
    assert (Lw : length w = record_size).
    { subst w. rewrite app_assoc, app_length, (tag_size tag pay a P2). rewrite firstn_length.
      unfold record_size. rewrite read_size_written. rewrite P5, region_length, P1, LA. pose proof (written_le cs). lia. }
    exists (w ++ W), rest', f', i', buf2, prev'. split; [apply app_assoc|]. split; [exact E3|].
    split; [rewrite app_length, Lw, LW; lia|].
    intros junk' feof ct2 G fuel LG. destruct fuel as [|fuel]; [lia|].
    rewrite <- app_assoc in *. cbn [decipher_chunks].
    destruct (middle_chunk junk' feof ct2 (rnd i) tag pay R a (W ++ G) LA P1 P2 P5 P9) as (ct3 & ER).
    rewrite <- P6 in ER. rewrite ER. cbn [bind].
    assert (W0 : (0 < length w)%nat).
    { rewrite Lw. unfold record_size. rewrite read_size_written. unfold written. pose proof bs_bounds.
      destruct (is_cfb m); [lia|]. destruct (Nat.eqb _ _); [lia|]. nia. }
    destruct (D junk' feof ct3 G fuel) as (fuel' & ct' & LF & ED).
    { rewrite app_length in LG. lia. }
    exists fuel', ct'. split; [exact LF|]. rewrite ED. destruct (decipher_chunks fuel' _ _ _ _ _ _) as [[st more]| |]; cbn [bind]; try reflexivity.
    now rewrite <- app_assoc.
Qed.

(** the last chunk is followed by the rest of its region *)
Lemma last_chunk f i buf prev data file : (0 < length data <= cs)%nat -> bytes data ->
  encipher_chunks f junk fill rnd cfg i buf prev data = Ok (Some file) ->
  exists i' tag pay R, length pay = length data /\ decoded tag pay data /\ length R = length (region (rnd i') pay) /\
    file = digest data ++ tag ++ R /\ deciphers (rnd i') pay R.
Proof using Hkey Hnonce Hmode Hcoder Hcs Hfill Hrnd.
  intros L B E. destruct f as [|f]; [discriminate E|].
  destruct (encipher_cons f i buf prev data file ltac:(intros ->; cbn in L; lia) E) as (w & ct & n & pad & buf' & rest & E1 & E2 & ->).
  rewrite firstn_all2 in E1 by lia. rewrite skipn_all2 in E2 by lia.
  destruct (encipher_chunk_spec junk fill rnd i buf data w ct n pad buf' Hfill Hrnd L B E1)
      as (tag & pay & R & P1 & P2 & P3 & P4 & P5 & P6 & P7 & P8 & P9).
  exists i, tag, pay, R. split; [exact P1|]. split; [exact P2|]. split; [exact P5|]. split; [|exact P9].
  subst w. rewrite <- !app_assoc. do 2 f_equal. rewrite <- (firstn_skipn n R) at 2. f_equal.
  destruct f as [|f]; [discriminate E2|]. cbn [encipher_chunks] in E2. cbv zeta in E2. rewrite firstn_nil in E2.
  cbn [c_cipher cfg] in E2. replace (mode c) with m in E2 by (symmetry; apply mode_of).
  replace (blocksize c) with bs in E2 by (symmetry; apply blocksize_of).
  pose proof bs_bounds as Bb. rewrite region_length, P1 in P5.
  destruct (is_cfb m) eqn:CF; cbn [negb andb] in E2.
  - injection E2 as <-. subst n. unfold written. rewrite CF. now rewrite skipn_all2 by lia.
  - subst n pad. unfold written in *. rewrite CF in *.
    pose proof (Nat.mod_upper_bound (length data) bs ltac:(lia)) as U.
    pose proof (Nat.div_mod (length data) bs ltac:(lia)) as DM.
    destruct (Nat.eqb_spec (length data mod bs) 0) as [Z|Z].
    + replace (Nat.eqb (bs - length data mod bs) bs) with true in E2 by (symmetry; apply Nat.eqb_eq; lia).
      rewrite mem_read_ok in E2 by lia. cbn [bind] in E2. injection E2 as <-. unfold slice.
      assert (Q : skipn (length data) R = firstn (length R - length data) (skipn (length data) (datum ct))) by (now rewrite <- skipn_firstn_comm, P7).
      rewrite Q. f_equal. lia.
    + replace (Nat.eqb (bs - length data mod bs) bs) with false in E2 by (symmetry; apply Nat.eqb_neq; lia).
      injection E2 as <-. now rewrite skipn_all2 by lia.
Qed.

(** reading the last chunk *)
Lemma last_round junk' feof ct i tag pay R data : (0 < length data <= cs)%nat -> length pay = length data -> decoded tag pay data ->
  length R = length (region (rnd i) pay) -> deciphers (rnd i) pay R -> (length R <= read_size)%nat -> is_cfb m || trims feof R = true ->
  exists ct' eof, decipher_round junk' cfg feof ct (digest data ++ tag ++ R) false = Ok (Wrote data [] eof ct').
Proof using Hhmac Hcs.
  clear Hfill Hrnd junk fill. intros LD LP DEC LR DC SZ TR.
  assert (RN : (0 < length R)%nat).
  { rewrite LR, region_length, LP. pose proof bs_bounds. destruct (is_cfb m); [lia|]. nia. }
  assert (FX : firstn read_size R = R) by (apply firstn_all2; exact SZ).
  set (Y := region (rnd i) pay) in *.
  assert (TP : trim feof R Y = pay).
  { unfold trim. destruct (trims feof R) eqn:ET.
    - apply region_last. unfold trims in ET. destruct (is_cfb m); [discriminate|reflexivity].
    - rewrite orb_false_r in TR. unfold Y, region. now rewrite TR. }
  destruct (decipher_round_spec junk' feof ct (digest data) tag R Y data) as (ct' & E).
  - apply digest_size.
  - eapply decoded_tag; eassumption.
  - rewrite FX. intros ->. cbn in RN. lia.
  - intros s2 W2 C2. rewrite FX in C2. rewrite <- (firstn_all R) in C2. destruct (DC (length R) s2) as (s3 & D3 & L3 & C3); [|exact W2|exact C2|].
    + rewrite LR. unfold Y. rewrite region_length. apply region_part.
    + exists s3. split; [exact D3|]. split; [exact L3|]. rewrite C3, LR. apply firstn_all.
  - rewrite FX. auto.
  - intros Q. apply region_last. unfold trims in Q. destruct (is_cfb m); [discriminate|reflexivity].
  - now rewrite TP.
  - now rewrite TP.
  - exists ct', (Nat.ltb (length R) read_size). rewrite E. rewrite skipn_all2 by exact SZ.
    destruct hmac as [[size mac]|] eqn:EH; [|reflexivity]. unfold digest. rewrite EH, lex_refl. reflexivity.
Qed.

(** the padding is not removed when the end of the file is not seen *)
Lemma last_round_padded junk' feof ct i R data : entropy = None -> (0 < length data <= cs)%nat ->
  length R = length (region (rnd i) data) -> deciphers (rnd i) data R -> (length R <= read_size)%nat -> trims feof R = false ->
  exists ct' eof, decipher_round junk' cfg feof ct (digest data ++ R) false =
    Ok (match hmac with
        | None => Wrote (region (rnd i) data) [] eof ct'
        | Some (_, mac) => match lex (mac data) (mac (region (rnd i) data)) with Eq => Wrote (region (rnd i) data) [] eof ct' | _ => Failed end
        end).
Proof using Hhmac Hcs.
  clear Hfill Hrnd junk fill. intros HE LD LR DC SZ TR.
  assert (RN : (0 < length R)%nat).
  { rewrite LR, region_length. pose proof bs_bounds. destruct (is_cfb m); [lia|]. nia. }
  assert (FX : firstn read_size R = R) by (apply firstn_all2; exact SZ).
  set (Y := region (rnd i) data) in *.
  assert (TP : trim feof R Y = Y) by (unfold trim; now rewrite TR).
  destruct (decipher_round_spec junk' feof ct (digest data) [] R Y Y) as (ct' & E).
  - apply digest_size.
  - now rewrite HE.
  - rewrite FX. intros ->. cbn in RN. lia.
  - intros s2 W2 C2. rewrite FX in C2. rewrite <- (firstn_all R) in C2. destruct (DC (length R) s2) as (s3 & D3 & L3 & C3); [|exact W2|exact C2|].
    + rewrite LR. unfold Y. rewrite region_length. apply region_part.
    + exists s3. split; [exact D3|]. split; [exact L3|]. rewrite C3, LR. apply firstn_all.
  - rewrite FX. auto.
  - rewrite TR. discriminate.
  - unfold decoded. rewrite HE, TP. auto.
  - now rewrite TP.
  - exists ct', (Nat.ltb (length R) read_size). cbn [app] in E. rewrite E. rewrite skipn_all2 by exact SZ.
    destruct hmac as [[size mac]|] eqn:EH; [|reflexivity]. unfold digest. rewrite EH. reflexivity.
Qed.
End Loops.
End Chunk.
