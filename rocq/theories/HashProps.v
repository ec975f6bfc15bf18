(** Properties of wizard/hash.c: C23, and the conformance of UpdateHash and
    FinalizeHash for every hash type. *)
From Coq Require Import NArith Arith List Lia Bool ZifyBool ZifyNat ZifyN.
From Verif Require Import Base BaseLemmas PackLemmas Mem32 MdModel MdSpec MdProof Sha1Model Sha2Model Md5Model
  Sha1Spec Sha2Spec Md5Spec Sha2Proof Crc64Model Crc64Spec Crc64Props Sha3Model Sha3Spec Sha3Proof Sha3Stream Sha1Props
  Sha2Props Md5Props Sha3Props HashModel HashSpec HashProof.
Import ListNotations.

Lemma set_string_length s src : length (set_string s src) = length s.
Proof. unfold set_string. rewrite app_length, firstn_length, repeat_length. lia. Qed.

Lemma set_string_same s src : length s = length src -> set_string s src = src.
Proof.
  intros E. unfold set_string. rewrite E, Nat.sub_diag, firstn_all. apply app_nil_r.
Qed.

Lemma set_string_ext s s' src : length s = length s' -> set_string s src = set_string s' src.
Proof. intros E. unfold set_string. now rewrite E. Qed.

Lemma message_bits_inj a b : bytes a -> bytes b -> message_bits a = message_bits b -> a = b.
Proof.
  intros Ba Bb E. assert (L : length a = length b).
  { apply (f_equal (@length bool)) in E. rewrite !message_bits_length in E. lia. }
  apply (f_equal lval) in E.
  rewrite <- (message_bits_le_val a Ba), <- (message_bits_le_val b Bb), L, !lval_low_bits in E.
  apply le_val_inj; [exact Ba | exact Bb | exact L |].
  assert (P : forall l, bytes l -> (le_val l < 2 ^ N.of_nat (8 * length l))%N).
  { intros l Hl. replace (N.of_nat (8 * length l)) with (8 * N.of_nat (length l))%N by lia.
    rewrite N.pow_mul_r. exact (le_val_bound l Hl). }
  rewrite !N.mod_small in E; [exact E | now apply P | rewrite <- L; now apply P].
Qed.

(** ** digest lengths of the standards *)

Lemma fold_length {A} (f : list N -> A -> list N) n l : (forall s b, length s = n -> length (f s b) = n) ->
  forall s, length s = n -> length (fold_left f l s) = n.
Proof. intros H. induction l as [|x l IH]; intros s E; cbn [fold_left]; auto. Qed.

Lemma flat_map_length_const {A B} (f : A -> list B) n l : (forall x, length (f x) = n) ->
  length (flat_map f l) = length l * n.
Proof. intros H. induction l as [|x l IH]; [reflexivity|]. cbn. rewrite app_length, H, IH. reflexivity. Qed.

Lemma compress5_length H b : length H = 4 -> length (compress5 H b) = 4.
Proof.
  intros E. unfold compress5. generalize (md5_op_length (map le_val (chunks 4 b)) (seq 0 64) H E).
  generalize (fold_left (md5_op (map le_val (chunks 4 b))) (seq 0 64) H). intros s L.
  rewrite map2_length, E, L. reflexivity.
Qed.

Lemma SHA1_len m : length (SHA1 m) = 20.
Proof.
  unfold SHA1, md_hash. rewrite (flat_map_length_const _ 4) by (intros; apply be_bytes_length).
  rewrite (fold_length compress1 5); [reflexivity | intros; now apply compress1_length | reflexivity].
Qed.
Lemma MD5_len m : length (MD5 m) = 16.
Proof.
  unfold MD5, md_hash. rewrite (flat_map_length_const _ 4) by (intros; apply le_bytes_length).
  rewrite (fold_length compress5 4); [reflexivity | intros; now apply compress5_length | reflexivity].
Qed.
Lemma fold256_len H m : length H = 8 -> length (md_hash compress256 H (be_bytes 8) 64 8 m) = 8.
Proof. apply fold_length. intros. now apply compress_length. Qed.
Lemma fold512_len H m : length H = 8 -> length (md_hash compress512 H (be_bytes 16) 128 16 m) = 8.
Proof. apply fold_length. intros. now apply compress_length. Qed.
Lemma SHA256_len m : length (SHA256 m) = 32.
Proof.
  unfold SHA256. rewrite (flat_map_length_const _ 4) by (intros; apply be_bytes_length).
  rewrite fold256_len; [reflexivity|]. apply map_length.
Qed.
Lemma SHA224_len m : length (SHA224 m) = 28.
Proof.
  unfold SHA224. rewrite (flat_map_length_const _ 4) by (intros; apply be_bytes_length).
  rewrite firstn_length, fold256_len; [reflexivity|]. apply map_length.
Qed.
Lemma SHA512_len m : length (SHA512 m) = 64.
Proof.
  unfold SHA512. rewrite (flat_map_length_const _ 8) by (intros; apply be_bytes_length).
  rewrite fold512_len; [reflexivity|]. apply map_length.
Qed.
Lemma SHA384_len m : length (SHA384 m) = 48.
Proof.
  unfold SHA384. rewrite (flat_map_length_const _ 8) by (intros; apply be_bytes_length).
  rewrite firstn_length, fold512_len; [reflexivity|]. apply map_length.
Qed.

(** ** SHA-3 structs *)

Lemma absorb_step_rho lsb m len st i : s3_rho (fst (absorb_step lsb m len st i)) = s3_rho st.
Proof.
  unfold absorb_step. destruct (_ || _ || _); [|reflexivity].
  cbn [s3_rho with_message with_queue with_state].
  destruct (0 <? _)%N; cbn [fst]; cbn [with_queue with_message s3_rho];
    destruct (_ =? _)%N; reflexivity.
Qed.

Lemma absorb_loop_rho fuel lsb m len : forall st i st', absorb_loop fuel lsb m len st i = Some st' ->
  s3_rho st' = s3_rho st.
Proof.
  induction fuel as [|fuel IH]; intros st i st'; cbn [absorb_loop].
  - destruct (i <? len)%N; [discriminate|]. now intros [= ->].
  - destruct (i <? len)%N; [|now intros [= ->]].
    pose proof (absorb_step_rho lsb m len st i) as R. destruct (absorb_step lsb m len st i) as [s1 i1].
    intros H. rewrite (IH _ _ _ H). exact R.
Qed.

Lemma UpdateSHA3_rho fuel lsb st m b st' : UpdateSHA3 fuel lsb st m = Some (b, st') -> s3_rho st' = s3_rho st.
Proof.
  unfold UpdateSHA3, Absorb. destruct (negb _); [now intros [= _ <-]|].
  destruct (s3_squeeze st); [now intros [= _ <-]|].
  destruct (absorb_loop _ _ _ _ _ _) eqn:E; [|discriminate]. intros [= _ <-].
  exact (absorb_loop_rho _ _ _ _ _ _ _ E).
Qed.

Lemma InitializeSHA3_rho h st : length (s3_rho st) = 25 -> length (s3_rho (snd (InitializeSHA3 h st))) = 25.
Proof.
  intros H. destruct (Initialize_inv h st H) as [_ I]. destruct (i_tables _ _ _ _ _ I) as [-> _]. reflexivity.
Qed.

Lemma InitializeSHA3_same h s t : length (s3_rho s) = 25 -> length (s3_rho t) = 25 ->
  snd (InitializeSHA3 h s) = snd (InitializeSHA3 h t).
Proof.
  intros Hs Ht. unfold InitializeSHA3, InitializeSponge.
  rewrite (SHA3InitializeRho_table _ Hs), (SHA3InitializeRho_table _ Ht). destruct h; reflexivity.
Qed.

Lemma Update_inv fuel lsb h st full rest m b st' :
  inv h st full rest -> bytes m -> (N.of_nat (length m) < 2 ^ 60)%N ->
  UpdateSHA3 fuel lsb st m = Some (b, st') ->
  exists full' rest', inv h st' full' rest' /\ full' ++ rest' = (full ++ rest) ++ m.
Proof.
  intros I Bm L. rewrite (UpdateSHA3_unfold lsb _ _ _ _ _ _ _ I L).
  destruct (absorb_loop fuel lsb m _ st 0) as [s1|] eqn:E; [|discriminate]. intros [= _ <-].
  change 0%N with (8 * N.of_nat 0)%N in E.
  destruct (absorb_loop_ok lsb (h_rb h) (proj1 (h_facts h)) _ m Bm fuel st full rest 0 s1 ltac:(lia) I E)
    as (f' & r' & I' & EQ).
  exists f', r'. split; [exact I'|]. rewrite EQ, <- app_assoc. reflexivity.
Qed.

(** ** the invariant of an object, whatever is done to it *)

Definition is_md (hash : HashType) : bool :=
  match hash with
  | SHA1Hash | SHA2Hash | SHA2224Hash | SHA2256Hash | SHA2384Hash | SHA2512Hash => true
  | _ => false
  end.

Lemma md_facts lsb hash : is_md hash = true ->
  let P := md_params lsb hash in
  (p_width P = 32%N /\ p_blocksize P = 64 /\ p_reserve P = 8 \/
   p_width P = 64%N /\ p_blocksize P = 128 /\ p_reserve P = 16) /\ (p_width P <= p_hwidth P)%N /\
  p_blocksize P = GetHashBlocksize hash.
Proof. destruct hash; intros H; try discriminate; cbn; repeat split; try lia; auto. Qed.

Definition handle_ok (lsb : bool) (hash : HashType) (h : Handle) : Prop :=
  match hash, h with
  | CRC64Hash, HCRC64 _ => True
  | MD5Hash, HMD5 m => md5_shape m
  | SHA3Family k, HSHA3 s d => length (s3_rho s) = 25 /\ length d = sha3_digestsize k
  | _, HMd m => is_md hash = true /\ md_shape (md_params lsb hash) m
  | _, _ => False
  end.

Definition hash_ok (lsb : bool) (hash : HashType) (hi : HashInfo) : Prop :=
  hi_hash hi = hash /\ length (hi_digest hi) = GetHashDigestsize hash /\ handle_ok lsb hash (hi_handle hi).

Definition hop_bytes (o : hop) : Prop :=
  match o with HUpdate m => bytes m /\ (N.of_nat (length m) < 2 ^ 60)%N | _ => True end.

Lemma Acquire_ok lsb junk hash : hash_ok lsb hash (AcquireHashInfo junk hash).
Proof.
  split; [reflexivity|]. split; [apply repeat_length|]. cbn [AcquireHashInfo hi_handle].
  destruct hash as [| | | | | | | |h]; cbn [handle_ok is_md].
  - exact I.
  - split; [reflexivity|]. apply Forall_forall. intros x Hx. apply repeat_spec in Hx. now subst.
  - split; [reflexivity|]. split; cbn; lia.
  - split; [reflexivity|]. split; cbn; lia.
  - split; [reflexivity|]. split; cbn; lia.
  - split; [reflexivity|]. split; cbn; lia.
  - split; [reflexivity|]. split; cbn; lia.
  - split; [reflexivity|]. split; cbn; lia.
  - split; [apply InitializeSHA3_rho; reflexivity | apply repeat_length].
Qed.

Section Run.
Variables (fuel : nat) (lsb : bool) (junk : list N).
Notation hstep := (hstep fuel lsb junk).
Notation hrun := (hrun fuel lsb junk).
Hypothesis Hjunk : length junk = 64.

Lemma FinalizeSHA3_shape ds s d b s' d' : length d = ds ->
  FinalizeSHA3 fuel lsb junk ds s d = Some (b, s', d') -> s' = s /\ length d' = ds.
Proof.
  clear Hjunk. intros L. unfold FinalizeSHA3. destruct (Squeeze _ _ _ _ _) as [[[[] ?] o]|]; try discriminate.
  - intros [= _ <- <-]. split; [reflexivity|]. rewrite splice_length; rewrite ?firstn_length; lia.
  - intros [= _ <- <-]. now split.
Qed.

(** every call leaves the object well formed; only the loops of sha3.c may not end *)
Lemma hash_ok_step hash hi o hi' : hash_ok lsb hash hi -> (hash = MD5Hash -> hop_bytes o) -> hstep hi o = Some hi' ->
  hash_ok lsb hash hi'.
Proof.
  destruct hi as [t d h]. intros (E & L & O) Bo. cbn [hi_hash hi_digest hi_handle] in *. subst t.
  assert (F : forall h' dg, handle_ok lsb hash h' -> hash_ok lsb hash (mkHashInfo hash (set_string d dg) h')).
  { intros h' dg O'. split; [reflexivity|]. split; [|exact O']. cbn [hi_digest]. now rewrite set_string_length. }
  assert (W : forall h', handle_ok lsb hash h' -> hash_ok lsb hash (mkHashInfo hash d h')).
  { intros h' O'. split; [reflexivity|]. now split. }
  destruct (is_md hash) eqn:Md.
  - assert (exists m, h = HMd m) as [m ->] by (destruct hash, h; try discriminate; try contradiction; eauto).
    assert (Sh : md_shape (md_params lsb hash) m) by (destruct hash; try discriminate; exact (proj2 O)).
    destruct (md_facts lsb hash Md) as (HP & HW & _).
    assert (K : forall m', md_shape (md_params lsb hash) m' -> handle_ok lsb hash (HMd m'))
      by (intros m' S'; destruct hash; try discriminate; now split).
    destruct o as [|p|].
    + pose proof (K _ (InitializeMd_shape _ HP HW (md_iv hash) m Sh)) as K'.
      destruct hash; try discriminate; intros [= <-]; apply W; exact K'.
    + pose proof (K _ (UpdateMd_shape _ HP HW m p Sh)) as K'.
      destruct hash; try discriminate; intros [= <-]; apply W; exact K'.
    + pose proof (K _ (FinalizeMd_shape _ HP HW m Sh)) as K'.
      destruct hash; try discriminate; intros [= <-]; apply F; exact K'.
  - destruct hash as [| | | | | | | |k]; try discriminate; destruct h as [c|m|m|s ds]; try contradiction;
      try (destruct O as [O _]; discriminate O).
    + destruct o; intros [= <-]; (apply W || apply F); exact I.
    + destruct o as [|p|]; intros [= <-].
      * apply W. exact O.
      * apply W. apply UpdateMD5_shape; [exact O | exact (proj1 (Bo eq_refl))].
      * apply F. now apply FinalizeMD5_shape.
    + destruct O as [O1 O2]. destruct o as [|p|]; cbn [HashModel.hstep].
      * intros [= <-]. apply W. split; [now apply InitializeSHA3_rho | exact O2].
      * unfold UpdateHash. cbn [hi_hash hi_handle hi_digest].
        destruct (UpdateSHA3 fuel lsb s p) as [[b s']|] eqn:U; [|discriminate]. intros [= <-].
        apply W. split; [rewrite (UpdateSHA3_rho _ _ _ _ _ _ U); exact O1 | exact O2].
      * unfold FinalizeHash. cbn [hi_hash hi_handle hi_digest].
        destruct (FinalizeSHA3 _ _ _ _ _ _) as [[[b s'] d']|] eqn:U; [|discriminate]. intros [= <-].
        destruct (FinalizeSHA3_shape _ _ _ _ _ _ O2 U) as [-> L']. apply F. now split.
Qed.

Lemma hash_ok_run hash ops : Forall hop_bytes ops -> forall hi hi', hash_ok lsb hash hi ->
  hrun hi ops = Some hi' -> hash_ok lsb hash hi'.
Proof.
  induction 1 as [|o ops Bo Bops IH]; intros hi hi' O; cbn [HashModel.hrun].
  - now intros [= <-].
  - destruct (hstep hi o) as [h1|] eqn:E; [|discriminate]. apply IH. exact (hash_ok_step _ _ _ _ O (fun _ => Bo) E).
Qed.

(** ** C23 *)

(** handles that can no longer be told apart *)
Definition handle_rel (hash : HashType) (h1 h2 : Handle) : Prop :=
  match hash, h1, h2 with
  | CRC64Hash, HCRC64 c1, HCRC64 c2 => c1 = c2
  | MD5Hash, HMD5 m1, HMD5 m2 => md5_rel m1 m2
  | SHA3Family k, HSHA3 s1 d1, HSHA3 s2 d2 =>
      s1 = s2 /\ length d1 = sha3_digestsize k /\ length d2 = sha3_digestsize k /\
      exists full rest, inv k s1 full rest
  | _, HMd m1, HMd m2 => is_md hash = true /\ md_rel (md_params lsb hash) m1 m2
  | _, _, _ => False
  end.

Definition hash_rel (hash : HashType) (a b : HashInfo) : Prop :=
  hi_hash a = hash /\ hi_hash b = hash /\ length (hi_digest a) = length (hi_digest b) /\
  handle_rel hash (hi_handle a) (hi_handle b).

Definition both (R : HashInfo -> HashInfo -> Prop) (a b : option HashInfo) : Prop :=
  match a, b with Some a, Some b => R a b | None, None => True | _, _ => False end.

Lemma rel_start hash a b : hash_ok lsb hash a -> hash_ok lsb hash b ->
  both (hash_rel hash) (InitializeHash a) (InitializeHash b).
Proof.
  destruct a as [t d h], b as [t' d' h']. intros (E & L & O) (E' & L' & O').
  cbn [hi_hash hi_digest hi_handle] in *. subst t t'.
  assert (W : forall x y, handle_rel hash x y -> hash_rel hash (mkHashInfo hash d x) (mkHashInfo hash d' y)).
  { intros x y R. repeat split; cbn [hi_digest]; [congruence | exact R]. }
  destruct (is_md hash) eqn:Md.
  - assert (exists m, h = HMd m) as [m ->] by (destruct hash, h; try discriminate; try contradiction; eauto).
    assert (exists m, h' = HMd m) as [m' ->] by (destruct hash, h'; try discriminate; try contradiction; eauto).
    assert (Sh : md_shape (md_params lsb hash) m) by (destruct hash; try discriminate; exact (proj2 O)).
    assert (Sh' : md_shape (md_params lsb hash) m') by (destruct hash; try discriminate; exact (proj2 O')).
    destruct (md_facts lsb hash Md) as (HP & HW & _).
    pose proof (rel_init _ HP HW (md_iv hash) m m' Sh Sh') as R.
    destruct hash; try discriminate; apply W; (split; [reflexivity | exact R]).
  - destruct hash as [| | | | | | | |k]; try discriminate; destruct h as [c|m|m|s ds]; try contradiction;
      destruct h' as [c'|m'|m'|s' ds']; try contradiction; try (destruct O as [O _]; discriminate O); try (destruct O' as [O' _]; discriminate O').
    + apply W. reflexivity.
    + apply W. now apply md5_rel_init.
    + apply W. destruct O as [O1 O2], O' as [O1' O2']. cbn [handle_rel].
      split; [now apply InitializeSHA3_same|]. split; [exact O2|]. split; [exact O2'|].
      exists [], []. exact (proj2 (Initialize_inv k s O1)).
Qed.

Lemma rel_step hash a b o : 3 <= fuel -> o <> HInit -> hash_rel hash a b -> hop_bytes o ->
  both (hash_rel hash) (hstep a o) (hstep b o) /\
  (o = HFinal -> option_map hi_digest (hstep a o) = option_map hi_digest (hstep b o)).
Proof.
  intros Hf No. destruct a as [t d h], b as [t' d' h']. intros (E & E' & L & R) Bo.
  cbn [hi_hash hi_digest hi_handle] in *. subst t t'.
  assert (W : forall x y, handle_rel hash x y -> hash_rel hash (mkHashInfo hash d x) (mkHashInfo hash d' y)).
  { intros x y R'. repeat split; [exact L | exact R']. }
  assert (F : forall x y g, handle_rel hash x y ->
     hash_rel hash (mkHashInfo hash (set_string d g) x) (mkHashInfo hash (set_string d' g) y)).
  { intros x y g R'. repeat split; cbn [hi_digest]; [now rewrite !set_string_length | exact R']. }
  destruct (is_md hash) eqn:Md.
  - assert (exists m, h = HMd m) as [m ->] by (destruct hash, h; try discriminate; try contradiction; eauto).
    assert (exists m, h' = HMd m) as [m' ->] by (destruct hash, h'; try discriminate; try contradiction; eauto).
    assert (Rm : md_rel (md_params lsb hash) m m') by (destruct hash; try discriminate; exact (proj2 R)).
    destruct (md_facts lsb hash Md) as (HP & HW & _).
    assert (K : forall x y, md_rel (md_params lsb hash) x y -> handle_rel hash (HMd x) (HMd y))
      by (intros x y S'; destruct hash; try discriminate; now split).
    destruct o as [|p|]; [contradiction| |].
    + pose proof (K _ _ (rel_update _ HP HW m m' p Rm)) as K'.
      split; [|discriminate]. destruct hash; try discriminate; apply W; exact K'.
    + pose proof (rel_final _ HP HW m m' Rm) as R'. pose proof (K _ _ R') as K'.
      pose proof (r_acc _ _ _ R') as A.
      destruct hash; try discriminate; cbn [HashModel.hstep FinalizeHash hi_hash hi_handle hi_digest];
        unfold FinalizeSHA1, FinalizeSHA2224, FinalizeSHA2256, FinalizeSHA2384, FinalizeSHA2512, digest_of;
        cbn [md_params] in A; rewrite <- A; (split; [apply F; exact K' | intros _]);
        cbn [option_map hi_digest]; f_equal; apply set_string_ext; exact L.
  - destruct hash as [| | | | | | | |k]; try discriminate; destruct h as [c|m|m|s ds]; try contradiction;
      destruct h' as [c'|m'|m'|s' ds']; try contradiction; try (destruct R as [R _]; discriminate R).
    + cbn [handle_rel] in R. subst c'. destruct o as [|p|]; [contradiction| |].
      * split; [|discriminate]. apply W. reflexivity.
      * split; [apply F; reflexivity|]. intros _. cbn [HashModel.hstep FinalizeHash hi_hash hi_handle hi_digest option_map].
        f_equal. now apply set_string_ext.
    + cbn [handle_rel] in R. destruct o as [|p|]; [contradiction| |].
      * split; [|discriminate]. apply W. apply md5_rel_update; [exact R | exact (proj1 Bo)].
      * pose proof (md5_rel_final _ _ R) as R'. pose proof (q_acc _ _ R') as A.
        cbn [HashModel.hstep FinalizeHash hi_hash hi_handle hi_digest]. unfold md5_digest. rewrite <- A.
        split; [apply F; exact R'|]. intros _. cbn [option_map hi_digest]. f_equal. now apply set_string_ext.
    + cbn [handle_rel] in R. destruct R as (<- & L1 & L2 & full & rest & I).
      destruct o as [|p|]; [contradiction| |].
      * split; [|discriminate]. cbn [HashModel.hstep]. unfold UpdateHash. cbn [hi_hash hi_handle hi_digest].
        destruct (UpdateSHA3 fuel lsb s p) as [[b s1]|] eqn:U; [|exact Logic.I].
        apply W. cbn [handle_rel]. repeat split; try assumption.
        destruct (Update_inv _ _ _ _ _ _ _ _ _ I (proj1 Bo) (proj2 Bo) U) as (f' & r' & I' & _). eauto.
      * cbn [HashModel.hstep]. unfold FinalizeHash. cbn [hi_hash hi_handle hi_digest].
        destruct (FinalizeSHA3_ok lsb k s full rest junk ds fuel I Hjunk L1 ltac:(lia)) as (g & -> & G1 & G2 & G3).
        destruct (FinalizeSHA3_ok lsb k s full rest junk ds' fuel I Hjunk L2 ltac:(lia)) as (g' & -> & G1' & G2' & G3').
        assert (g = g') as <- by (apply message_bits_inj; congruence).
        split; [apply F; cbn [handle_rel]; repeat split; eauto|]. intros _. cbn [option_map hi_digest].
        f_equal. now apply set_string_ext.
Qed.

Definition no_init (o : hop) : Prop := o <> HInit.

Lemma rel_run hash ops : 3 <= fuel -> Forall hop_bytes ops -> Forall no_init ops -> forall a b, hash_rel hash a b ->
  option_map hi_digest (hrun a (ops ++ [HFinal])) = option_map hi_digest (hrun b (ops ++ [HFinal])).
Proof.
  intros Hf. induction 1 as [|o ops Bo Bops IH]; intros Ni a b R; cbn [app HashModel.hrun].
  - destruct (rel_step hash a b HFinal Hf ltac:(discriminate) R Logic.I) as [_ E].
    specialize (E eq_refl). destruct (hstep a HFinal), (hstep b HFinal); exact E.
  - inversion_clear Ni as [|? ? No Nops].
    destruct (rel_step hash a b o Hf No R Bo) as [B _]. unfold both in B.
    destruct (hstep a o) as [a'|], (hstep b o) as [b'|]; try contradiction; [|reflexivity].
    now apply IH.
Qed.

(** C23: two objects of one hash type, whatever was done to each of them,
    give the same digest (or both fail to end) once they are initialised and
    then see the same calls *)
Theorem hash_reusable hash j1 j2 hist1 hist2 hi1 hi2 ops :
  3 <= fuel -> Forall hop_bytes hist1 -> Forall hop_bytes hist2 -> Forall hop_bytes ops -> Forall no_init ops ->
  hrun (AcquireHashInfo j1 hash) hist1 = Some hi1 -> hrun (AcquireHashInfo j2 hash) hist2 = Some hi2 ->
  option_map hi_digest (hrun hi1 (HInit :: ops ++ [HFinal])) =
  option_map hi_digest (hrun hi2 (HInit :: ops ++ [HFinal])).
Proof.
  intros Hf B1 B2 Bo Ni R1 R2.
  pose proof (hash_ok_run hash hist1 B1 _ _ (Acquire_ok lsb j1 hash) R1) as O1.
  pose proof (hash_ok_run hash hist2 B2 _ _ (Acquire_ok lsb j2 hash) R2) as O2.
  cbn [HashModel.hrun HashModel.hstep]. pose proof (rel_start hash hi1 hi2 O1 O2) as S. unfold both in S.
  destruct (InitializeHash hi1), (InitializeHash hi2); try contradiction; [|reflexivity].
  now apply (rel_run hash).
Qed.

(** ** conformance of the dispatch *)

(** the digest each type must give *)
Definition is_hash (hash : HashType) (m d : list N) : Prop :=
  match hash with
  | CRC64Hash => is_crc_digest m d
  | MD5Hash => d = MD5 m
  | SHA1Hash => d = SHA1 m
  | SHA2224Hash => d = SHA224 m
  | SHA2Hash | SHA2256Hash => d = SHA256 m
  | SHA2384Hash => d = SHA384 m
  | SHA2512Hash => d = SHA512 m
  | SHA3Family h => is_keccak (h_c h) (sha3_digestsize h) m d
  end.

Lemma hrun_app a b : forall hi, hrun hi (a ++ b) = match hrun hi a with Some hi => hrun hi b | None => None end.
Proof.
  induction a as [|o a IH]; intros hi; [reflexivity|]. cbn [app HashModel.hrun].
  destruct (hstep hi o); [apply IH | reflexivity].
Qed.

(** updates on the handle of each struct *)
Lemma updates_md hash d ms : is_md hash = true -> forall m,
  hrun (mkHashInfo hash d (HMd m)) (map HUpdate ms) =
  Some (mkHashInfo hash d (HMd (UpdateAll (md_params lsb hash) m ms))).
Proof.
  intros Md. induction ms as [|p ms IH]; intros m; [reflexivity|].
  cbn [map HashModel.hrun HashModel.hstep]. unfold UpdateHash. cbn [hi_hash hi_handle hi_digest].
  destruct hash; try discriminate; cbn [UpdateAll fold_left]; apply IH.
Qed.

Lemma updates_md5 d ms : forall m,
  hrun (mkHashInfo MD5Hash d (HMD5 m)) (map HUpdate ms) = Some (mkHashInfo MD5Hash d (HMD5 (UpdateMD5All m ms))).
Proof. induction ms as [|p ms IH]; intros m; [reflexivity|]. cbn [map HashModel.hrun HashModel.hstep]. apply IH. Qed.

Lemma updates_crc d ms : forall c,
  hrun (mkHashInfo CRC64Hash d (HCRC64 c)) (map HUpdate ms) =
  Some (mkHashInfo CRC64Hash d (HCRC64 (UpdateCRC64All c ms))).
Proof. induction ms as [|p ms IH]; intros m; [reflexivity|]. cbn [map HashModel.hrun HashModel.hstep]. apply IH. Qed.

Definition piece_ok (m : list N) : Prop := bytes m /\ (N.of_nat (length m) < 2 ^ 29)%N.

Lemma updates_sha3 k d g ms : 3 <= fuel -> Forall piece_ok ms -> forall s full rest, inv k s full rest ->
  exists s' full' rest', hrun (mkHashInfo (SHA3Family k) d (HSHA3 s g)) (map HUpdate ms) =
    Some (mkHashInfo (SHA3Family k) d (HSHA3 s' g)) /\
    inv k s' full' rest' /\ full' ++ rest' = (full ++ rest) ++ concat ms.
Proof.
  intros Hf. induction 1 as [|p ms [Bp Lp] Hms IH]; intros s full rest I.
  - exists s, full, rest. cbn [concat]. rewrite app_nil_r. split; [reflexivity | split; [exact I | reflexivity]].
  - cbn [map HashModel.hrun HashModel.hstep]. unfold UpdateHash. cbn [hi_hash hi_handle hi_digest].
    destruct (UpdateSHA3_ok lsb k s full rest p fuel I Bp Lp Hf) as (s1 & f1 & r1 & -> & I1 & E1).
    destruct (IH s1 f1 r1 I1) as (s' & f' & r' & R & I' & E'). exists s', f', r'.
    split; [exact R|]. split; [exact I'|]. rewrite E', E1. cbn [concat]. now rewrite <- !app_assoc.
Qed.

Lemma piece_bytes ms : Forall piece_ok ms -> Forall bytes ms.
Proof. apply Forall_impl. intros p []. assumption. Qed.
Lemma piece_32 ms : Forall piece_ok ms -> Forall (fun p : list N => (N.of_nat (length p) < 2 ^ 32)%N) ms.
Proof. apply Forall_impl. intros p [_ H]. eapply N.lt_trans; [exact H | reflexivity]. Qed.

(** a well formed object that is initialised and fed [ms] *)
Lemma hash_conforms_ok hash hi ms : hash_ok lsb hash hi -> 3 <= fuel ->
  Forall piece_ok ms -> (N.of_nat (length (concat ms)) < 2 ^ 61)%N ->
  hash <> SHA2224Hash ->
  exists hi', hrun hi (HInit :: map HUpdate ms ++ [HFinal]) = Some hi' /\
    hash_ok lsb hash hi' /\ is_hash hash (concat ms) (hi_digest hi').
Proof.
  destruct hi as [t d h]. intros (E & L & O) Hf Hms HT NH. cbn [hi_hash hi_digest hi_handle] in *. subst t.
  pose proof (piece_bytes ms Hms) as HB. pose proof (piece_32 ms Hms) as H32.
  assert (HT' : (N.of_nat (length (concat ms)) < 2 ^ 125)%N) by (eapply N.lt_trans; [exact HT | reflexivity]).
  assert (Fin : forall hi1 g, hash_ok lsb hash hi1 -> hi_digest hi1 = set_string d g ->
     length g = GetHashDigestsize hash -> is_hash hash (concat ms) g ->
     exists hi', Some hi1 = Some hi' /\ hash_ok lsb hash hi' /\ is_hash hash (concat ms) (hi_digest hi')).
  { intros hi1 g O1 Ed Lg Hg. exists hi1. split; [reflexivity|]. split; [exact O1|].
    rewrite Ed, set_string_same by congruence. exact Hg. }
  assert (Ok : forall hi', hrun (mkHashInfo hash d h) (HInit :: map HUpdate ms ++ [HFinal]) = Some hi' ->
     hash_ok lsb hash hi').
  { intros hi'. apply hash_ok_run; [|split; [reflexivity | split; [exact L | exact O]]].
    constructor; [exact I|]. apply Forall_app. split; [|constructor; [exact I | constructor]].
    apply Forall_map. revert Hms. apply Forall_impl. intros p [Bp Lp]. split; [exact Bp|].
    eapply N.lt_trans; [exact Lp | reflexivity]. }
  destruct (is_md hash) eqn:Md.
  - assert (exists m, h = HMd m) as [m ->] by (destruct hash, h; try discriminate; try contradiction; eauto).
    assert (Sh : md_shape (md_params lsb hash) m) by (destruct hash; try discriminate; exact (proj2 O)).
    assert (LM : length (md_message m) = GetHashBlocksize hash)
      by (destruct (md_facts lsb hash Md) as (_ & _ & <-); exact (proj1 Sh)).
    pose proof (updates_md hash d ms Md (InitializeMd (md_iv hash) m)) as U.
    assert (I0 : InitializeHash (mkHashInfo hash d (HMd m)) =
                 Some (mkHashInfo hash d (HMd (InitializeMd (md_iv hash) m))))
      by (destruct hash; try discriminate; reflexivity).
    cbn [HashModel.hrun HashModel.hstep] in *. rewrite I0 in *. rewrite hrun_app, U in *. clear I0 U.
    destruct hash; try discriminate; try contradiction;
      cbn [HashModel.hrun HashModel.hstep] in *; unfold FinalizeHash in *; cbn [hi_hash hi_handle hi_digest] in *;
      (eapply Fin; [apply Ok; reflexivity | reflexivity | |]).
    + cbn [md_params md_iv]. rewrite (SHA1_stream lsb m ms LM HB H32 HT). apply SHA1_len.
    + cbn [md_params md_iv is_hash]. now apply SHA1_stream.
    + cbn [md_params md_iv]. rewrite (SHA256_stream lsb m ms LM HB H32 HT). apply SHA256_len.
    + cbn [md_params md_iv is_hash]. now apply SHA256_stream.
    + cbn [md_params md_iv]. rewrite (SHA256_stream lsb m ms LM HB H32 HT). apply SHA256_len.
    + cbn [md_params md_iv is_hash]. now apply SHA256_stream.
    + cbn [md_params md_iv]. rewrite (SHA384_stream lsb m ms LM HB HT'). apply SHA384_len.
    + cbn [md_params md_iv is_hash]. now apply SHA384_stream.
    + cbn [md_params md_iv]. rewrite (SHA512_stream lsb m ms LM HB HT'). apply SHA512_len.
    + cbn [md_params md_iv is_hash]. now apply SHA512_stream.
  - destruct hash as [| | | | | | | |k]; try discriminate; destruct h as [c|m|m|s ds]; try contradiction;
      try (destruct O as [O _]; discriminate O).
    + cbn [HashModel.hrun HashModel.hstep InitializeHash hi_hash hi_handle hi_digest] in *.
      rewrite hrun_app, updates_crc in *.
      eapply Fin; [apply Ok; reflexivity | reflexivity | reflexivity |].
      cbn [is_hash]. exists (crc (UpdateCRC64All (InitializeCRC64 c) ms)).
      assert (X : FinalizeCRC64 (UpdateCRC64All (InitializeCRC64 c) ms) =
                  be_bytes 8 (crc (UpdateCRC64All (InitializeCRC64 c) ms))) by apply FinalizeCRC64_be.
      split; [|exact X]. apply (CRC64_stream c ms _ HB). split; [|exact X].
      rewrite crc_run by exact HB. apply word_crc_bits, word_0.
    + cbn [HashModel.hrun HashModel.hstep InitializeHash hi_hash hi_handle hi_digest] in *.
      rewrite hrun_app, updates_md5 in *. destruct O as [O1 O2].
      pose proof (MD5_stream m ms O1 O2 HB) as X.
      eapply Fin; [apply Ok; reflexivity | reflexivity | rewrite X; apply MD5_len | exact X].
    + destruct O as [O1 O2]. destruct (Initialize_inv k s O1) as [_ I0].
      cbn [HashModel.hrun HashModel.hstep InitializeHash hi_hash hi_handle hi_digest] in *.
      rewrite hrun_app in *.
      destruct (updates_sha3 k d ds ms Hf Hms _ [] [] I0) as (s' & f' & r' & U & I' & E'). rewrite U in *.
      cbn [HashModel.hrun HashModel.hstep] in *. unfold FinalizeHash in *. cbn [hi_hash hi_handle hi_digest] in *.
      destruct (FinalizeSHA3_ok lsb k s' f' r' junk ds fuel I' Hjunk O2 ltac:(lia)) as (g & G & G1 & G2 & G3).
      rewrite G in *. eapply Fin; [apply Ok; reflexivity | reflexivity | exact G1 |].
      split; [exact G1|]. split; [exact G2|]. rewrite G3, E'. cbn [app].
      destruct (h_facts k) as (_ & _ & <- & _). reflexivity.
Qed.

(** any history, then Initialize, Updates and Finalize: the digest of the
    standard (SHA-224 apart, see C16) *)
Theorem hash_conforms hash j hist hi ms :
  3 <= fuel -> hash <> SHA2224Hash -> Forall hop_bytes hist ->
  hrun (AcquireHashInfo j hash) hist = Some hi ->
  Forall piece_ok ms -> (N.of_nat (length (concat ms)) < 2 ^ 61)%N ->
  exists hi', hrun hi (HInit :: map HUpdate ms ++ [HFinal]) = Some hi' /\ is_hash hash (concat ms) (hi_digest hi').
Proof.
  intros Hf NH B R Hms HT.
  pose proof (hash_ok_run hash hist B _ _ (Acquire_ok lsb j hash) R) as O.
  destruct (hash_conforms_ok hash hi ms O Hf Hms HT NH) as (hi' & E & _ & H). eauto.
Qed.
End Run.

(** the relations determine the digest *)
Theorem is_hash_unique hash m d d' : is_hash hash m d -> is_hash hash m d' -> d = d'.
Proof.
  destruct hash as [| | | | | | | |h]; cbn [is_hash]; intros A B; try congruence.
  - destruct A as (c & A & ->), B as (c' & B & ->). now rewrite (crc64_unique _ _ _ A B).
  - destruct A as (_ & A1 & A2), B as (_ & B1 & B2). apply message_bits_inj; congruence.
Qed.

(** Examples: histories that leave different contents behind *)
Definition ex_hist1 : list hop := [HUpdate [1; 2; 3]; HFinal; HUpdate [4]]%N.
Definition ex_hist2 : list hop := [HInit; HUpdate (repeat 7%N 70)].

Example hash_reusable_ex : exists hi1 hi2,
  hrun 3 true (repeat 0%N 64) (AcquireHashInfo [] MD5Hash) ex_hist1 = Some hi1 /\
  hrun 3 true (repeat 0%N 64) (AcquireHashInfo [9%N] MD5Hash) ex_hist2 = Some hi2 /\
  hi_digest hi1 <> hi_digest hi2 /\
  Forall hop_bytes ex_hist1 /\ Forall hop_bytes ex_hist2.
Proof.
  do 2 eexists. split; [vm_compute; reflexivity|]. split; [vm_compute; reflexivity|].
  split; [discriminate|]. split; repeat constructor.
Qed.

(** "abc" hashed by an object that has already been used *)
Example hash_conforms_ex :
  option_map hi_digest (match hrun 3 true (repeat 0%N 64) (AcquireHashInfo [] SHA2256Hash) ex_hist1 with
    | Some hi => hrun 3 true (repeat 0%N 64) hi [HInit; HUpdate [97; 98; 99]%N; HFinal]
    | None => None end)
  = Some [0xba;0x78;0x16;0xbf;0x8f;0x01;0xcf;0xea;0x41;0x41;0x40;0xde;0x5d;0xae;0x22;0x23;
          0xb0;0x03;0x61;0xa3;0x96;0x17;0x7a;0x9c;0xb4;0x10;0xff;0x61;0xf2;0x00;0x15;0xad]%N.
Proof. vm_compute. reflexivity. Qed.

Print Assumptions hash_reusable.
Print Assumptions hash_conforms.
Print Assumptions is_hash_unique.
