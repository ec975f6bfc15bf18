(** The key map of wizard/key.c: C37, C73. *)
From Coq Require Import NArith ZArith Arith List Lia Bool ZifyBool ZifyNat ZifyN.
From Verif Require Import Base BaseLemmas Outcome StringInfoModel StringInfoProof StringInfoProps CipherModel CipherProof CipherInfoModel CipherProps CtrStream
  HashModel HashSpec HashProps HmacModel HmacProps SplayModel SplaySpec SplayProof SplayProof2 SecretModel SecretProps KeyModel KeySpec.
Import ListNotations.

(** ** the comparison of ids *)
Lemma lex_antisym a : forall b, lex b a = CompOpp (lex a b).
Proof.
  induction a as [|x a IH]; intros [|y b]; try reflexivity. cbn [lex]. rewrite (N.compare_antisym x y).
  destruct (N.compare x y); cbn [CompOpp]; [apply IH | reflexivity | reflexivity].
Qed.
Lemma lex_trans a : forall b c, lex a b = Lt -> lex b c = Lt -> lex a c = Lt.
Proof.
  induction a as [|x a IH]; intros [|y b] [|z c]; cbn [lex]; try discriminate; try reflexivity.
  destruct (N.compare_spec x y) as [->|L|L]; try discriminate.
  - destruct (N.compare y z); [apply IH | reflexivity | discriminate].
  - intros _. destruct (N.compare_spec y z) as [->|M|M]; try discriminate; intros _.
    + now rewrite (proj2 (N.compare_lt_iff _ _) L).
    + now rewrite (proj2 (N.compare_lt_iff x z) (N.lt_trans _ _ _ L M)).
Qed.
Lemma compare_ids a b : CompareSplayTreeStringInfo a b = match lex a b with Lt => -1 | Eq => 0 | Gt => 1 end%Z.
Proof.
  unfold CompareSplayTreeStringInfo. rewrite compare_spec by apply string_of_wf. rewrite !string_of_contents. now destruct (lex a b).
Qed.
Lemma ids_order : order (list N) CompareSplayTreeStringInfo.
Proof.
  split.
  - intros x y. rewrite !compare_ids, (lex_antisym x y). destruct (lex x y); cbn; lia.
  - intros x y z. rewrite !compare_ids. destruct (lex x y) eqn:E; [apply lex_eq in E; subst y; tauto | | lia].
    destruct (lex y z) eqn:F; [apply lex_eq in F; subst z; rewrite E; tauto | | lia]. rewrite (lex_trans _ _ _ E F). lia.
Qed.
Lemma ids_same a b : same (list N) CompareSplayTreeStringInfo a b = if list_eq_dec N.eq_dec a b then true else false.
Proof.
  unfold same. rewrite compare_ids. destruct (list_eq_dec N.eq_dec a b) as [->|NE].
  - now rewrite (proj2 (lex_eq b b) eq_refl).
  - destruct (lex a b) eqn:E; [apply lex_eq in E; contradiction | reflexivity | reflexivity].
Qed.

Notation sinv := (sinv (list N) CompareSplayTreeStringInfo).
Notation fits := (fits (list N)).
Notation amap := (amap (list N) CompareSplayTreeStringInfo).

(** ** the invariant *)
Definition held (c : CipherInfo) (values : list (list N)) (v : N) (key : list N) : Prop :=
  exists st rnd, EncipherCipher c rnd (string_of key) = Ok st /\ value_at values v = Some (text st).
Record kinv (session : list N) (f : keys) (k : KeyInfo) (l : list (list N * N)) : Prop := {
  inv_tree : sinv (ki_map k) l;
  inv_values : forall id e, amap l id = Some e -> (1 <= snd e <= N.of_nat (length (ki_values k)))%N;
  inv_session : exists e, amap l (ki_id k) = Some e /\ value_at (ki_values k) (snd e) = Some session;
  inv_keys : forall id, id <> ki_id k ->
    match f id with
    | None => amap l id = None
    | Some key => exists e, amap l id = Some e /\ held (secret_cipher session (ki_nonce k)) (ki_values k) (snd e) key
    end
}.

Lemma value_in values v : (1 <= v <= N.of_nat (length values))%N -> exists x, value_at values v = Some x.
Proof.
  intros B. unfold value_at. destruct (N.eqb_spec v 0); [lia|]. destruct (nth_error values (N.to_nat v - 1)) eqn:E; [now eexists|].
  apply nth_error_None in E. lia.
Qed.
Lemma value_more values v x y : value_at values v = Some x -> value_at (values ++ [y]) v = Some x.
Proof.
  unfold value_at. destruct (v =? 0)%N; [discriminate|]. intros E. rewrite nth_error_app1; [exact E|]. apply nth_error_Some. congruence.
Qed.
Lemma value_new values y : value_at (values ++ [y]) (N.of_nat (S (length values))) = Some y.
Proof.
  unfold value_at. destruct (N.eqb_spec (N.of_nat (S (length values))) 0); [lia|]. rewrite Nat2N.id.
  replace (S (length values) - 1) with (length values) by lia. rewrite nth_error_app2, Nat.sub_diag by lia. reflexivity.
Qed.

Definition moved (k : KeyInfo) (m : SplayTreeInfo (list N)) : KeyInfo := mkKeyInfo m (ki_values k) (ki_nonce k) (ki_id k).
Lemma lookup_ok session f k l id : kinv session f k l -> fits l ->
  match amap l id with
  | None => lookup_key k id = Fatal
  | Some e => exists x m, value_at (ki_values k) (snd e) = Some x /\ lookup_key k id = Ok (x, moved k m) /\ kinv session f (moved k m) l
  end.
Proof.
  intros [I1 I2 I3 I4] F. destruct (get_ok (list N) CompareSplayTreeStringInfo false ids_order (ki_map k) l id I1 F) as (m & E & I1' & _).
  unfold lookup_key. rewrite E. unfold fm_get. destruct (amap l id) as [[i v]|] eqn:A; [|reflexivity].
  destruct (value_in _ _ (I2 _ _ A)) as (x & X). cbn [snd] in *. exists x, m. split; [exact X|]. rewrite X. split; [reflexivity|].
  now split.
Qed.
Lemma store_ok session f k l mem id key st rnd : kinv session f k l -> fits l -> id <> ki_id k ->
  EncipherCipher (secret_cipher session (ki_nonce k)) rnd (string_of key) = Ok st ->
  exists b k' l', store_key mem k id (text st) = Ok (b, k') /\ length l' <= S (length l) /\ ki_id k' = ki_id k /\ ki_nonce k' = ki_nonce k /\
    ((b = true /\ (mem = true \/ f id <> None) /\ kinv session (put f id key) k' l') \/ (b = false /\ mem = false /\ f id = None /\ kinv session f k' l')).
Proof.
  intros [I1 I2 I3 I4] F NI EK. unfold store_key.
  destruct (add_ok (list N) CompareSplayTreeStringInfo false ids_order mem (ki_map k) l id (N.of_nat (S (length (ki_values k)))) I1 F) as (m & l' & E & I1' & Ln & _ & Up).
  rewrite E. eexists _, _, l'. split; [reflexivity|]. split; [exact Ln|]. split; [reflexivity|]. split; [reflexivity|].
  pose proof (I4 id NI) as Fi.
  assert (MA : match amap l id with Some _ => true | None => mem end = true -> mem = true \/ f id <> None).
  { destruct (f id); [now right|]. rewrite Fi. now left. }
  assert (MB : match amap l id with Some _ => true | None => mem end = false -> mem = false /\ f id = None).
  { destruct (f id); [destruct Fi as (e & -> & _); discriminate|]. rewrite Fi. now split. }
  destruct (match amap l id with Some _ => true | None => mem end); [left|right]; (split; [reflexivity|]).
  - split; [now apply MA|]. split; cbn [ki_map ki_values ki_id ki_nonce].
    + exact I1'.
    + intros x e. rewrite Up. unfold fm_put. rewrite app_length. cbn [length].
      destruct (same _ _ x id); [intros [= <-]; cbn [snd]; lia|]. intros A. specialize (I2 _ _ A). lia.
    + destruct I3 as (e & A & V). exists e. rewrite Up. unfold fm_put. rewrite ids_same. destruct (list_eq_dec N.eq_dec (ki_id k) id) as [e1|]; [congruence|].
      split; [exact A | now apply value_more].
    + intros x NX. unfold put. rewrite Up. unfold fm_put. rewrite ids_same. destruct (list_eq_dec N.eq_dec x id) as [->|N1].
      * eexists. split; [reflexivity|]. exists st, rnd. split; [exact EK | apply value_new].
      * specialize (I4 x NX). destruct (f x) as [q|]; [|exact I4]. destruct I4 as (e & A & st' & rnd' & E' & V). exists e. split; [exact A|].
        exists st', rnd'. split; [exact E' | now apply value_more].
  - destruct (MB eq_refl) as [M1 M2]. split; [exact M1|]. split; [exact M2|]. subst l'. split; cbn [ki_map ki_values ki_id ki_nonce].
    + exact I1'.
    + intros x e A. specialize (I2 _ _ A). rewrite app_length. cbn [length]. lia.
    + destruct I3 as (e & A & V). exists e. split; [exact A | now apply value_more].
    + intros x NX. specialize (I4 x NX). destruct (f x) as [q|]; [|exact I4]. destruct I4 as (e & A & st' & rnd' & E' & V). exists e. split; [exact A|].
      exists st', rnd'. split; [exact E' | now apply value_more].
Qed.

Lemma xor_streams a : forall b z, length a = length b -> length a <= length z -> xor_list (xor_list a z) (xor_list b z) = xor_list a b.
Proof.
  induction a as [|x a IH]; intros [|y b] [|w z]; try discriminate; try reflexivity; cbn [length]; [lia|]. intros E L. unfold xor_list in *. cbn [map2].
  f_equal; [|apply IH; lia]. rewrite N.lxor_assoc, (N.lxor_comm y w), <- (N.lxor_assoc w), N.lxor_nilpotent, N.lxor_0_l. reflexivity.
Qed.

(** the session key of the examples, and nonce *)
Definition ex_session : list N := map N.of_nat (seq 1 64).
Definition ex_key_nonce : list N := [1; 2; 3; 4; 5; 6; 7; 8]%N ++ repeat 0%N 8.
Lemma ex_fresh : fresh_nonce ex_key_nonce.
Proof. exists [1; 2; 3; 4; 5; 6; 7; 8]%N. repeat split; repeat constructor. Qed.
Lemma ex_piece : piece_ok ex_session.
Proof. split; [|reflexivity]. apply Forall_forall. intros x I. apply in_map_iff in I. destruct I as (y & <- & I). apply in_seq in I. lia. Qed.
Lemma ex_small x : (x < 256)%N -> piece_ok [x].
Proof. intros B. split; [constructor; [exact B | constructor] | reflexivity]. Qed.

Section Run.
Variables (fuel : nat) (lsb : bool) (junk : list N).
Hypothesis Hjunk : length junk = 64.
Hypothesis Hfuel : 3 <= fuel.
Notation AcquireKeyInfo := (AcquireKeyInfo fuel lsb junk).
Notation kstep := (kstep fuel lsb junk).
Notation krun := (krun fuel lsb junk).
Notation session_id := (session_id fuel lsb junk).
Notation mac := (is_hmac (is_hash SHA2256Hash) 64).

Lemma session_id_ok mac_key key : piece_ok mac_key -> piece_ok key -> exists id, session_id mac_key key = Some id /\ mac mac_key key id.
Proof using Hjunk Hfuel.
  intros P Q. destruct (construct fuel lsb junk Hjunk Hfuel SHA2256Hash (AcquireHMACInfo junk SHA2256Hash) mac_key key) as (hm & E & _ & M);
    [discriminate | apply AcquireHMAC_ok | exact P | exact Q |].
  exists (hm_digest hm). split; [|exact M]. unfold KeyModel.session_id. now rewrite E.
Qed.

(** keys and ids within bounds, other than the id of the session key *)
Definition kop_ok (id0 : list N) (o : kop) : Prop :=
  match o with
  | KSet _ _ id key => id <> id0 /\ piece_ok key
  | KGenerate _ mac_key key => piece_ok mac_key /\ piece_ok key /\ ~ mac mac_key key id0
  | KGet id => id <> id0
  end.

Lemma set_ok session f k l rnd mem id key : bytes session -> fresh_nonce (ki_nonce k) -> kinv session f k l -> fits l -> id <> ki_id k -> piece_ok key ->
  exists b k' l', SetKeyInfo rnd mem k id key = Ok (b, k') /\ length l' <= S (length l) /\ ki_id k' = ki_id k /\ ki_nonce k' = ki_nonce k /\
    ((b = true /\ (mem = true \/ f id <> None) /\ kinv session (put f id key) k' l') \/ (b = false /\ mem = false /\ f id = None /\ kinv session f k' l')).
Proof.
  intros BS FN I F NI PK. unfold SetKeyInfo. pose proof (lookup_ok session f k l (ki_id k) I F) as LK.
  destruct (inv_session _ _ _ _ I) as (e & A & V). rewrite A in LK. destruct LK as (x & m & X & -> & I'). rewrite X in V. injection V as ->. cbn [bind].
  destruct (cipher_encipher_succeeds 0 AESCipher CTRMode session (string_of (set_string (repeat 0%N (cipher_blocksize AESCipher)) (ki_nonce k))) rnd (string_of key))
    as (st & EK & _); [exact BS | apply nonce_string; now apply fresh_bytes | apply string_of_wf | discriminate | apply fresh_fits; [exact FN | apply PK] |].
  change (ki_nonce (moved k m)) with (ki_nonce k). unfold secret_cipher at 1. rewrite EK. cbn [bind].
  exact (store_ok session f (moved k m) l mem id key st rnd I' F NI EK).
Qed.
Lemma get_key_ok session f k l id : bytes session -> fresh_nonce (ki_nonce k) -> kinv session f k l -> fits l -> id <> ki_id k ->
  match f id with
  | None => GetKeyInfo k id = Fatal
  | Some key => exists m, GetKeyInfo k id = Ok (key, moved k m) /\ kinv session f (moved k m) l
  end.
Proof.
  intros BS FN I F NI. unfold GetKeyInfo. pose proof (lookup_ok session f k l (ki_id k) I F) as LK.
  destruct (inv_session _ _ _ _ I) as (e & A & V). rewrite A in LK. destruct LK as (x & m & X & -> & I'). rewrite X in V. injection V as ->. cbn [bind].
  pose proof (lookup_ok session f (moved k m) l id I' F) as LK. pose proof (inv_keys _ _ _ _ I' id NI) as K.
  destruct (f id) as [key|]; [|rewrite K in LK; now rewrite LK]. destruct K as (e' & A' & st & rnd & EK & V'). rewrite A' in LK.
  destruct LK as (x & m' & X' & -> & I2). rewrite X' in V'. injection V' as ->. cbn [bind].
  change (ki_nonce (moved (moved k m) m')) with (ki_nonce k). change (ki_nonce (moved k m)) with (ki_nonce k) in EK.
  assert (GC : good_cipher (secret_cipher session (ki_nonce k))) by (apply secret_cipher_good; [exact BS | now apply fresh_bytes]).
  destruct (ctr_contents_round_trip _ GC eq_refl rnd _ st (string_of (text st)) (string_of_wf key) EK (string_of_wf _) (string_of_contents _)) as (p & EP & WP & CP).
  rewrite EP. cbn [bind]. rewrite text_contents, CP, string_of_contents. exists m'. split; [reflexivity | exact I2].
Qed.

(** ** C37, for every id other than that of the session key *)
Lemma run_refines session : bytes session -> forall ops f k l, fresh_nonce (ki_nonce k) -> kinv session f k l ->
  Forall (kop_ok (ki_id k)) ops -> (N.of_nat (length l + length ops) < 2 ^ 1024)%N ->
  exists r, key_run f ops r /\ match krun k ops with Ok (rs, _) => Ok rs | Fatal => Fatal | UB => UB end = r.
Proof using Hjunk Hfuel.
  intros BS. induction ops as [|o ops IH]; intros f k l FN I OK B; [exists (Ok []); split; [constructor | reflexivity]|].
  cbn [length] in B. assert (F : fits l) by (unfold SplayProof2.fits; revert B; generalize (2 ^ 1024)%N; intros; lia).
  inversion_clear OK as [|? ? O1 O2]. cbn [KeyModel.krun].
  assert (next : forall l' k' f' x, length l' <= S (length l) -> ki_id k' = ki_id k -> ki_nonce k' = ki_nonce k -> kinv session f' k' l' ->
    exists r, key_run f' ops r /\ match bind (krun k' ops) (fun y => let '(rs, k) := y in Ok (x :: rs, k)) with Ok (rs, _) => Ok rs | Fatal => Fatal | UB => UB end = then_ x r).
  { intros l' k' f' x L1 E1 E2 I'. destruct (IH f' k' l') as (r & R & <-); [now rewrite E2 | exact I' | now rewrite E1 | revert B; generalize (2 ^ 1024)%N; intros; lia |].
    eexists. split; [exact R|]. destruct (krun k' ops) as [[rs k2]| |]; reflexivity. }
  destruct o as [rnd mem id key|rnd mac_key key|id]; cbn [KeyModel.kstep kop_ok] in *.
  - destruct O1 as [NI PK]. destruct (set_ok session f k l rnd mem id key BS FN I F NI PK) as (b & k' & l' & -> & L1 & E1 & E2 & [(-> & M & I')|(-> & -> & N0 & I')]); cbn [bind].
    + destruct (next l' k' _ (KBool true) L1 E1 E2 I') as (r & R & E). exists (then_ (KBool true) r). split; [now constructor | exact E].
    + destruct (next l' k' _ (KBool false) L1 E1 E2 I') as (r & R & E). exists (then_ (KBool false) r). split; [now constructor | exact E].
  - destruct O1 as (PM & PK & NM). destruct (session_id_ok mac_key key PM PK) as (id & ES & M). unfold GenerateSessionKey. rewrite ES.
    assert (NI : id <> ki_id k) by (intros ->; contradiction).
    destruct (set_ok session f k l rnd true id key BS FN I F NI PK) as (b & k' & l' & -> & L1 & E1 & E2 & [(-> & _ & I')|(_ & D & _)]); [|discriminate]. cbn [bind].
    destruct (next l' k' _ (KString id) L1 E1 E2 I') as (r & R & E). exists (then_ (KString id) r). split; [now apply run_generate | exact E].
  - pose proof (get_key_ok session f k l id BS FN I F O1) as G. destruct (f id) as [key|] eqn:Fi.
    + destruct G as (m & -> & I'). cbn [bind]. destruct (next l (moved k m) _ (KString key) ltac:(lia) eq_refl eq_refl I') as (r & R & E). exists (then_ (KString key) r). split; [now apply run_get | exact E].
    + rewrite G. cbn [bind]. exists Fatal. split; [now apply run_get_absent | reflexivity].
Qed.
Lemma acquire_ok nonce mac_key key : piece_ok mac_key -> piece_ok key ->
  exists k l, AcquireKeyInfo nonce mac_key key = Ok k /\ mac mac_key key (ki_id k) /\ ki_nonce k = nonce /\ length l <= 1 /\ kinv key no_keys k l.
Proof using Hjunk Hfuel.
  intros PM PK. unfold KeyModel.AcquireKeyInfo. destruct (session_id_ok mac_key key PM PK) as (id & -> & M). unfold store_key. cbn [ki_map ki_values length ki_nonce ki_id].
  destruct (add_ok (list N) CompareSplayTreeStringInfo false ids_order true (NewSplayTree (list N)) [] id (N.of_nat 1) (new_inv _ _) eq_refl) as (m & l & E & I & Ln & _ & Up).
  change (amap [] id) with (@None (list N * N)) in *. rewrite E. cbn [bind]. cbn [ki_map ki_values ki_nonce].
  eexists _, l. split; [reflexivity|]. cbn [ki_id ki_nonce]. split; [exact M|]. split; [reflexivity|]. split; [exact Ln|].
  split; cbn [ki_map ki_values ki_id ki_nonce].
  - exact I.
  - intros x e. rewrite Up. unfold fm_put. destruct (same _ _ x id); [intros [= <-]; cbn; lia | discriminate].
  - eexists. rewrite Up. unfold fm_put. rewrite ids_same. destruct (list_eq_dec N.eq_dec id id); [|contradiction]. split; [reflexivity|]. reflexivity.
  - intros x NX. cbn. rewrite Up. unfold fm_put. rewrite ids_same. now destruct (list_eq_dec N.eq_dec x id).
Qed.
(** any history of calls on a new KeyInfo returns what a map from ids to keys
    returns, as long as it does not use the id of the session key *)
Theorem key_history_partial : forall nonce mac_key session, fresh_nonce nonce -> piece_ok mac_key -> piece_ok session ->
  exists k, AcquireKeyInfo nonce mac_key session = Ok k /\ mac mac_key session (ki_id k) /\
  forall ops, Forall (kop_ok (ki_id k)) ops -> (N.of_nat (length ops) + 1 < 2 ^ 1024)%N ->
  exists r, key_run no_keys ops r /\ match krun k ops with Ok (rs, _) => Ok rs | Fatal => Fatal | UB => UB end = r.
Proof using Hjunk Hfuel.
  intros nonce mac_key session FN PM PK. destruct (acquire_ok nonce mac_key session PM PK) as (k & l & E & M & En & Ln & I).
  exists k. split; [exact E|]. split; [exact M|]. intros ops OK B. apply (run_refines session (proj1 PK) ops no_keys k l); [now rewrite En | exact I | exact OK |].
  revert B. generalize (2 ^ 1024)%N. intros; lia.
Qed.

(** ** C37 does not hold for the id of the session key *)
Lemma fresh_no_wrap key nonce n : fresh_nonce nonce -> (N.of_nat n < 2 ^ 29)%N -> no_wrap (secret_cipher key nonce) n.
Proof. intros FN B _. exact (fresh_fits nonce n FN B eq_refl). Qed.
Lemma slen_string x : slen (string_of x) = length x.
Proof. reflexivity. Qed.
Definition stream (key nonce : list N) (n : nat) : list N := ctr_stream (secret_cipher key nonce) (n / 16 + 1).
Lemma decipher_stream key nonce x : bytes key -> fresh_nonce nonce -> (N.of_nat (length x) < 2 ^ 29)%N ->
  exists p, DecipherCipher (secret_cipher key nonce) (string_of x) = Ok p /\ text p = xor_list x (stream key nonce (length x)).
Proof.
  intros B FN L. assert (GC : good_cipher (secret_cipher key nonce)) by (apply secret_cipher_good; [exact B | now apply fresh_bytes]).
  destruct (ctr_decipher _ GC eq_refl (string_of x) (string_of_wf x) (fresh_no_wrap key nonce (length x) FN L)) as (p & E & _ & _ & C).
  exists p. split; [exact E|]. rewrite text_contents, C, string_of_contents. reflexivity.
Qed.
Lemma encipher_stream key nonce rnd x : bytes key -> fresh_nonce nonce -> piece_ok x ->
  exists p, EncipherCipher (secret_cipher key nonce) rnd (string_of x) = Ok p /\ text p = xor_list x (stream key nonce (length x)) /\ piece_ok (text p) /\ length (text p) = length x.
Proof.
  intros B FN PX. assert (GC : good_cipher (secret_cipher key nonce)) by (apply secret_cipher_good; [exact B | now apply fresh_bytes]).
  destruct (cipher_encipher_succeeds 0 AESCipher CTRMode key (string_of (set_string (repeat 0%N (cipher_blocksize AESCipher)) nonce)) rnd (string_of x))
    as (st & EK & _); [exact B | apply nonce_string; now apply fresh_bytes | apply string_of_wf | discriminate | apply fresh_fits; [exact FN | apply PX] |].
  change (cipher_info 0 AESCipher CTRMode key (string_of (set_string (repeat 0%N (cipher_blocksize AESCipher)) nonce))) with (secret_cipher key nonce) in EK.
  destruct (ctr_encipher _ GC eq_refl rnd _ st (string_of_wf x) EK) as (_ & W & L & C). exists st. split; [exact EK|].
  assert (T : text st = xor_list x (stream key nonce (length x))) by (rewrite text_contents, C, string_of_contents; reflexivity).
  assert (LT : length (text st) = length x) by (rewrite text_contents, contents_length by exact W; rewrite L; reflexivity).
  split; [exact T|]. split; [|exact LT]. split; [|rewrite LT; apply PX]. rewrite T. apply bytes_xor_list; [apply PX | now apply stream_bytes].
Qed.

(** the session key itself is stored as it is, but GetKeyInfo deciphers it *)
Theorem session_key_deciphered : forall nonce mac_key session k, fresh_nonce nonce -> piece_ok mac_key -> piece_ok session ->
  AcquireKeyInfo nonce mac_key session = Ok k ->
  exists k', GetKeyInfo k (ki_id k) = Ok (xor_list session (stream session nonce (length session)), k').
Proof using Hjunk Hfuel.
  intros nonce mac_key session k FN PM PK E. destruct (acquire_ok nonce mac_key session PM PK) as (k1 & l & E1 & _ & En & Ln & I).
  rewrite E in E1. injection E1 as <-. assert (F : fits l) by (unfold SplayProof2.fits; change 1 with (1) in Ln; clear - Ln; destruct l as [|? [|]]; cbn in *; try reflexivity; lia).
  unfold GetKeyInfo. pose proof (lookup_ok session _ k l (ki_id k) I F) as LK. destruct (inv_session _ _ _ _ I) as (e & A & V). rewrite A in LK.
  destruct LK as (x & m & X & -> & I'). rewrite X in V. injection V as ->. cbn [bind].
  pose proof (lookup_ok session _ (moved k m) l (ki_id k) I' F) as LK. rewrite A in LK.
  destruct LK as (x & m' & X' & -> & I2). change (ki_values (moved k m)) with (ki_values k) in X'. rewrite X in X'. injection X' as <-. cbn [bind].
  change (ki_nonce (moved (moved k m) m')) with (ki_nonce k). rewrite En.
  destruct (decipher_stream session nonce session (proj1 PK) FN (proj2 PK)) as (p & -> & T). cbn [bind]. rewrite T. now eexists.
Qed.

(** a key set under the id of the session key replaces the session key, so that
    neither it nor any key stored before can be deciphered: what they give *)
Theorem session_key_replaced : forall nonce mac_key session k id old key rnd rnd', fresh_nonce nonce -> piece_ok mac_key -> piece_ok session -> piece_ok old -> piece_ok key ->
  AcquireKeyInfo nonce mac_key session = Ok k -> id <> ki_id k ->
  let c := xor_list key (stream session nonce (length key)) in
  exists k1 k2, SetKeyInfo rnd true k id old = Ok (true, k1) /\ SetKeyInfo rnd' true k1 (ki_id k) key = Ok (true, k2) /\
    (exists k3, GetKeyInfo k2 (ki_id k) = Ok (xor_list c (stream c nonce (length key)), k3)) /\
    (exists k3, GetKeyInfo k2 id = Ok (xor_list (xor_list old (stream session nonce (length old))) (stream c nonce (length old)), k3)).
Proof using Hjunk Hfuel.
  intros nonce mac_key session k id old key rnd rnd' FN PM PK PO PN E NI c. destruct (acquire_ok nonce mac_key session PM PK) as (k0 & l & E1 & _ & En & Ln & I).
  rewrite E in E1. injection E1 as <-.
  assert (F : fits l) by (unfold SplayProof2.fits; clear - Ln; destruct l as [|? [|]]; cbn in *; try reflexivity; lia).
  destruct (set_ok session no_keys k l rnd true id old (proj1 PK) ltac:(now rewrite En) I F NI PO) as (b & k1 & l1 & S1 & L1 & E2 & E3 & [(-> & _ & I1)|(_ & D & _)]); [|discriminate].
  exists k1. assert (F1 : fits l1).
  { unfold SplayProof2.fits. assert (length l1 <= 2) by lia. clear - H. destruct l1 as [|? [|? [|]]]; cbn in *; try reflexivity; lia. }
  unfold SetKeyInfo at 2. pose proof (lookup_ok session _ k1 l1 (ki_id k1) I1 F1) as LK. destruct (inv_session _ _ _ _ I1) as (e & A & V). rewrite A in LK.
  destruct LK as (x & m & X & -> & I1'). rewrite X in V. injection V as ->. cbn [bind].
  change (ki_nonce (moved k1 m)) with (ki_nonce k1). rewrite E3, En.
  destruct (encipher_stream session nonce rnd' key (proj1 PK) FN PN) as (st & -> & T & PT & LT). cbn [bind]. fold c in T. unfold store_key.
  destruct (add_ok (list N) CompareSplayTreeStringInfo false ids_order true (ki_map (moved k1 m)) l1 (ki_id k) (N.of_nat (S (length (ki_values (moved k1 m))))) (inv_tree _ _ _ _ I1') F1) as (m2 & l2 & EA & I2 & Ln2 & _ & Up).
  rewrite EA. rewrite E2 in A. rewrite A in *. eexists. split; [exact S1|]. split; [reflexivity|].
  assert (F2 : fits l2).
  { unfold SplayProof2.fits. assert (length l2 <= 3) by lia. clear - H. destruct l2 as [|? [|? [|? [|]]]]; cbn in *; try reflexivity; lia. }
  set (k2 := mkKeyInfo m2 _ _ _).
  assert (NC : forall x, value_at (ki_values k1) x <> None -> value_at (ki_values k2) x = value_at (ki_values k1) x).
  { intros x NX. destruct (value_at (ki_values k1) x) as [y|] eqn:Y; [|contradiction]. unfold k2. cbn [ki_values moved]. now apply value_more. }
  assert (LQ : forall q i e y, sinv q l2 -> amap l2 i = Some e -> value_at (ki_values k2) (snd e) = Some y ->
    exists q', lookup_key (mkKeyInfo q (ki_values k2) nonce (ki_id k)) i = Ok (y, mkKeyInfo q' (ki_values k2) nonce (ki_id k)) /\ sinv q' l2).
  { intros q i e0 y Iq Aq Vq. destruct (get_ok (list N) CompareSplayTreeStringInfo false ids_order q l2 i Iq F2) as (q' & EQ & Iq' & _).
    exists q'. unfold lookup_key. cbn [ki_map ki_values ki_nonce ki_id]. rewrite EQ. unfold fm_get. rewrite Aq. destruct e0 as [i0 v0]. cbn [snd] in Vq. rewrite Vq. split; [reflexivity | exact Iq']. }
  assert (A0 : exists e0, amap l2 (ki_id k) = Some e0 /\ value_at (ki_values k2) (snd e0) = Some c).
  { eexists. rewrite Up. unfold fm_put. rewrite ids_same. destruct (list_eq_dec N.eq_dec (ki_id k) (ki_id k)); [|contradiction]. split; [reflexivity|].
    cbn [snd]. rewrite <- T. unfold k2. cbn [ki_values moved]. apply value_new. }
  assert (A1 : exists e1, amap l2 id = Some e1 /\ value_at (ki_values k2) (snd e1) = Some (xor_list old (stream session nonce (length old)))).
  { pose proof (inv_keys _ _ _ _ I1 id ltac:(now rewrite E2)) as K. unfold put in K. destruct (list_eq_dec N.eq_dec id id); [|contradiction].
    destruct K as (e1 & A1 & st1 & rnd1 & EK & V1). exists e1. rewrite Up. unfold fm_put. rewrite ids_same. destruct (list_eq_dec N.eq_dec id (ki_id k)); [contradiction|].
    split; [exact A1|]. rewrite NC by congruence. rewrite V1. rewrite E3, En in EK. destruct (encipher_stream session nonce rnd1 old (proj1 PK) FN PO) as (st2 & EK2 & T2 & _).
    rewrite EK in EK2. injection EK2 as <-. now rewrite T2. }
  assert (BC : bytes c) by (rewrite <- T; apply PT).
  assert (HK2 : k2 = mkKeyInfo m2 (ki_values k2) nonce (ki_id k)) by (unfold k2; cbn [ki_values moved ki_nonce ki_id]; now rewrite E3, En, E2).
  destruct A0 as (e0 & A0 & V0). destruct A1 as (e1 & A1 & V1).
  assert (GK : forall i e y, amap l2 i = Some e -> value_at (ki_values k2) (snd e) = Some y -> (N.of_nat (length y) < 2 ^ 29)%N ->
    exists k3, GetKeyInfo k2 i = Ok (xor_list y (stream c nonce (length y)), k3)).
  { intros i e2 y Ai Vi Ly. rewrite HK2. unfold GetKeyInfo. destruct (LQ m2 (ki_id k) e0 c I2 A0 V0) as (q1 & EQ1 & Iq1).
    cbn [ki_id]. rewrite EQ1. cbn [bind]. destruct (LQ q1 i e2 y Iq1 Ai Vi) as (q2 & EQ2 & Iq2). rewrite EQ2. cbn [bind ki_nonce].
    destruct (decipher_stream c nonce y BC FN Ly) as (p & -> & TP). cbn [bind]. rewrite TP. now eexists. }
  assert (LC : length c = length key) by (rewrite <- T; exact LT).
  assert (LO : length (xor_list old (stream session nonce (length old))) = length old).
  { destruct (encipher_stream session nonce rnd' old (proj1 PK) FN PO) as (st2 & _ & T2 & _ & L2). now rewrite <- T2. }
  split.
  - destruct (GK _ _ _ A0 V0 ltac:(rewrite LC; apply PN)) as (k3 & G). exists k3. now rewrite LC in G.
  - destruct (GK _ _ _ A1 V1 ltac:(rewrite LO; apply PO)) as (k3 & G). exists k3. now rewrite LO in G.
Qed.

(** C73 does not hold: two keys are enciphered with the same keystream; the
    stored strings reveal how the keys differ *)
Theorem key_streams_reused_refuted : forall nonce mac_key session k id id' key key' rnd rnd', fresh_nonce nonce -> piece_ok mac_key -> piece_ok session -> piece_ok key -> piece_ok key' ->
  AcquireKeyInfo nonce mac_key session = Ok k -> id <> ki_id k -> id' <> ki_id k -> length key = length key' ->
  exists k1 k2 c c', SetKeyInfo rnd true k id key = Ok (true, k1) /\ SetKeyInfo rnd' true k1 id' key' = Ok (true, k2) /\
    ki_values k2 = ki_values k ++ [c; c'] /\ xor_list c c' = xor_list key key'.
Proof using Hjunk Hfuel.
  intros nonce mac_key session k id id' key key' rnd rnd' FN PM PK PO PN E NI NI' LE. destruct (acquire_ok nonce mac_key session PM PK) as (k0 & l & E1 & _ & En & Ln & I).
  rewrite E in E1. injection E1 as <-.
  assert (F : fits l) by (unfold SplayProof2.fits; clear - Ln; destruct l as [|? [|]]; cbn in *; try reflexivity; lia).
  assert (ST : forall f q l id key rnd, ki_id q = ki_id k -> ki_nonce q = nonce -> kinv session f q l -> fits l -> id <> ki_id k -> piece_ok key ->
    exists q' l', SetKeyInfo rnd true q id key = Ok (true, q') /\ ki_values q' = ki_values q ++ [xor_list key (stream session nonce (length key))] /\ length l' <= S (length l) /\
    ki_id q' = ki_id k /\ ki_nonce q' = nonce /\ kinv session (put f id key) q' l').
  { clear - PK FN. intros f q l id key rnd Iq Nq I F NI P. destruct (set_ok session f q l rnd true id key (proj1 PK) ltac:(now rewrite Nq) I F ltac:(now rewrite Iq) P) as (b & k1 & l1 & S1 & L1 & E2 & E3 & [(-> & _ & I1)|(_ & D & _)]); [|discriminate].
    exists k1, l1. split; [exact S1|]. split; [|split; [exact L1|]; split; [congruence|]; split; [congruence | exact I1]].
    revert S1. unfold SetKeyInfo. pose proof (lookup_ok session f q l (ki_id q) I F) as LK. destruct (inv_session _ _ _ _ I) as (e & A & V). rewrite A in LK.
    destruct LK as (x & m & X & -> & _). rewrite X in V. injection V as ->. cbn [bind]. change (ki_nonce (moved q m)) with (ki_nonce q). rewrite Nq.
    destruct (encipher_stream session nonce rnd key (proj1 PK) FN P) as (st & -> & T & _). cbn [bind]. unfold store_key.
    destruct (AddValueToSplayTree _ _ _ _ _ _ _) as [[q' b]|]; [|discriminate]. intros [= _ <-]. cbn [ki_values moved]. now rewrite T. }
  destruct (ST no_keys k l id key rnd eq_refl En I F NI PO) as (k1 & l1 & S1 & V1 & L1 & E2 & E3 & I1).
  assert (F1 : fits l1).
  { unfold SplayProof2.fits. assert (length l1 <= 2) by lia. clear - H. destruct l1 as [|? [|? [|]]]; cbn in *; try reflexivity; lia. }
  destruct (ST _ k1 l1 id' key' rnd' E2 E3 I1 F1 NI' PN) as (k2 & l2 & S2 & V2 & _).
  exists k1, k2. eexists _, _. split; [exact S1|]. split; [exact S2|]. rewrite V2, V1, <- app_assoc. split; [reflexivity|]. rewrite LE.
  apply xor_streams; [lia|]. unfold stream. rewrite stream_length. 2: { apply secret_cipher_good; [apply PK | now apply fresh_bytes]. }
  change (blocksize (secret_cipher session nonce)) with 16. pose proof (Nat.div_mod (length key') 16). pose proof (Nat.mod_upper_bound (length key') 16). lia.
Qed.

(** GetKeyInfo of the session key's id does not return the session key *)
Theorem session_key_not_returned_refuted : exists nonce mac_key session k k' x, fresh_nonce nonce /\ piece_ok mac_key /\ piece_ok session /\ length session = 64 /\
  AcquireKeyInfo nonce mac_key session = Ok k /\ GetKeyInfo k (ki_id k) = Ok (x, k') /\ x <> session.
Proof using Hjunk Hfuel.
  destruct (acquire_ok ex_key_nonce ex_session ex_session ex_piece ex_piece) as (k & _ & E & _).
  destruct (session_key_deciphered _ _ _ _ ex_fresh ex_piece ex_piece E) as (k' & G).
  exists ex_key_nonce, ex_session, ex_session, k, k'. eexists. split; [exact ex_fresh|]. split; [exact ex_piece|]. split; [exact ex_piece|]. split; [reflexivity|].
  split; [exact E|]. split; [exact G|]. intros D. apply (f_equal (hd 0%N)) in D. vm_compute in D. discriminate.
Qed.
(** a key set under that id is not returned, and keys set before are lost *)
Theorem session_id_overwritten_refuted : exists nonce mac_key session k id old key rnd k1 k2 k3 x k4 y, fresh_nonce nonce /\ piece_ok mac_key /\ piece_ok session /\ piece_ok old /\ piece_ok key /\
  AcquireKeyInfo nonce mac_key session = Ok k /\ id <> ki_id k /\
  SetKeyInfo rnd true k id old = Ok (true, k1) /\ SetKeyInfo rnd true k1 (ki_id k) key = Ok (true, k2) /\
  GetKeyInfo k2 (ki_id k) = Ok (x, k3) /\ x <> key /\ GetKeyInfo k2 id = Ok (y, k4) /\ y <> old.
Proof using Hjunk Hfuel.
  destruct (acquire_ok ex_key_nonce ex_session ex_session ex_piece ex_piece) as (k & _ & E & _).
  assert (NI : 0%N :: ki_id k <> ki_id k) by (intros D; apply (f_equal (@length N)) in D; cbn in D; lia).
  destruct (session_key_replaced _ _ _ _ (0%N :: ki_id k) [2]%N [1]%N (fun _ => 0%N) (fun _ => 0%N) ex_fresh ex_piece ex_piece (ex_small 2 eq_refl) (ex_small 1 eq_refl) E NI)
    as (k1 & k2 & S1 & S2 & (k3 & G3) & (k4 & G4)).
  exists ex_key_nonce, ex_session, ex_session, k, (0%N :: ki_id k), [2]%N, [1]%N, (fun _ => 0%N), k1, k2, k3. eexists. exists k4. eexists.
  split; [exact ex_fresh|]. split; [exact ex_piece|]. split; [exact ex_piece|]. split; [exact (ex_small 2 eq_refl)|]. split; [exact (ex_small 1 eq_refl)|].
  split; [exact E|]. split; [exact NI|]. split; [exact S1|]. split; [exact S2|]. split; [exact G3|]. split; [intros D; vm_compute in D; discriminate|].
  split; [exact G4|]. intros D; vm_compute in D; discriminate.
Qed.
End Run.

(** ** the hypotheses can be met: a key is set, read, set again and read; a key
    for which there is no memory *)
Definition ex_ops : list kop :=
  [KSet (fun _ => 0%N) true [1] [5; 6; 7]; KGet [1]; KSet (fun _ => 0%N) false [2] [8]; KSet (fun _ => 0%N) true [1] [9]; KGet [1]]%N.
Lemma ex_ops_ok k : length (ki_id k) = 32 -> Forall (kop_ok (ki_id k)) ex_ops.
Proof.
  intros L. assert (N1 : forall x, [x] <> ki_id k) by (intros x E; rewrite <- E in L; discriminate).
  repeat (constructor; [cbn [kop_ok]; try (split; [|repeat constructor]); apply N1|]). constructor.
Qed.
Lemma ex_ops_run r : key_run no_keys ex_ops r -> r = Ok [KBool true; KString [5; 6; 7]; KBool false; KBool true; KString [9]]%N.
Proof.
  unfold ex_ops. intros R.
  inversion R as [|? ? ? ? ? ? r1 _ R1| | | |]; subst. clear R. inversion R1 as [| | | |? ? key ? r2 K R2|? ? ? K]; subst; [|discriminate K]. clear R1. injection K as <-.
  inversion R2 as [|? ? ? ? ? ? r3 [D|D] R3|? ? ? ? ? r3 _ R3| | |]; subst; [discriminate D | now destruct D|]. clear R2.
  inversion R3 as [|? ? ? ? ? ? r4 _ R4| | | |]; subst. clear R3. inversion R4 as [| | | |? ? key ? r5 K R5|? ? ? K]; subst; [|discriminate K]. clear R4. injection K as <-.
  inversion R5. reflexivity.
Qed.
Example ex_history : exists k, AcquireKeyInfo 3 true (repeat 0%N 64) ex_key_nonce ex_session ex_session = Ok k /\
  match krun 3 true (repeat 0%N 64) k ex_ops with Ok (rs, _) => Ok rs | Fatal => Fatal | UB => UB end =
    Ok [KBool true; KString [5; 6; 7]; KBool false; KBool true; KString [9]]%N.
Proof.
  destruct (key_history_partial 3 true (repeat 0%N 64) eq_refl (le_n 3) _ _ _ ex_fresh ex_piece ex_piece) as (k & E & M & H). exists k. split; [exact E|].
  assert (L : length (ki_id k) = 32).
  { destruct (construct 3 true (repeat 0%N 64) eq_refl (le_n 3) SHA2256Hash (AcquireHMACInfo (repeat 0%N 64) SHA2256Hash) ex_session ex_session) as (hm & _ & O & M');
      [discriminate | apply AcquireHMAC_ok | apply ex_piece | apply ex_piece |].
    pose proof (ok_digest _ _ _ O) as L. now rewrite (is_hmac_unique SHA2256Hash _ _ _ _ M' M) in L. }
  destruct (H ex_ops (ex_ops_ok k L) eq_refl) as (r & R & ->). now apply ex_ops_run.
Qed.
Example ex_reused : exists k k1 k2 c c', AcquireKeyInfo 3 true (repeat 0%N 64) ex_key_nonce ex_session ex_session = Ok k /\
  SetKeyInfo (fun _ => 0%N) true k (0%N :: ki_id k) [1]%N = Ok (true, k1) /\ SetKeyInfo (fun _ => 0%N) true k1 (1%N :: ki_id k) [2]%N = Ok (true, k2) /\
  ki_values k2 = ki_values k ++ [c; c'] /\ xor_list c c' = [3]%N.
Proof.
  destruct (acquire_ok 3 true (repeat 0%N 64) eq_refl (le_n 3) ex_key_nonce ex_session ex_session ex_piece ex_piece) as (k & _ & E & _).
  assert (NI : forall x, x :: ki_id k <> ki_id k) by (intros x D; apply (f_equal (@length N)) in D; cbn in D; lia).
  destruct (key_streams_reused_refuted 3 true (repeat 0%N 64) eq_refl (le_n 3) _ _ _ k _ _ _ _ (fun _ => 0%N) (fun _ => 0%N) ex_fresh ex_piece ex_piece (ex_small 1 eq_refl) (ex_small 2 eq_refl) E (NI 0%N) (NI 1%N) eq_refl)
    as (k1 & k2 & c & c' & S1 & S2 & V & X). exists k, k1, k2, c, c'. split; [exact E|]. split; [exact S1|]. split; [exact S2|]. split; [exact V | exact X].
Qed.

Print Assumptions key_history_partial.
Print Assumptions session_key_not_returned_refuted.
Print Assumptions session_id_overwritten_refuted.
Print Assumptions key_streams_reused_refuted.
