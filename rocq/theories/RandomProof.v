(** Lemmas for RandomProps.v. *)
From Coq Require Import NArith Arith List Lia Bool ZifyBool ZifyNat ZifyN.
From Verif Require Import Base BaseLemmas PackLemmas MdModel MdProof Sha2Model Crc64Spec HashModel HashSpec HashProof HashProps
  HmacModel HmacProps RandomModel RandomSpec.
Import ListNotations.

(** ** the nonce counter *)
Lemma pow256_pos n : (0 < 256 ^ N.of_nat n)%N.
Proof. apply N.neq_0_lt_0, N.pow_nonzero. discriminate. Qed.

Lemma increment_loop_spec l : bytes l ->
  increment_loop l = if (le_val l + 1 <? 256 ^ N.of_nat (length l))%N then Some (le_bytes (length l) (le_val l + 1)) else None.
Proof.
  induction 1 as [|b l Hb Hl IH]; [reflexivity|]. cbn [increment_loop le_val length le_bytes].
  rewrite (Nat2N.inj_succ (length l)), N.pow_succ_r'. pose proof (pow256_pos (length l)) as P.
  pose proof (le_val_bound l Hl) as B. set (p := (256 ^ N.of_nat (length l))%N) in *. clearbody p.
  destruct (N.eqb_spec ((b + 1) mod 256) 0) as [E|E].
  - assert (b = 255)%N as -> by (destruct (N.eq_dec b 255); [assumption|]; rewrite N.mod_small in E by lia; lia).
    rewrite IH. change ((255 + 1) mod 256)%N with 0%N.
    replace (255 + 256 * le_val l + 1)%N with (256 * (le_val l + 1))%N by lia.
    destruct (N.ltb_spec (le_val l + 1) p).
    + replace (256 * (le_val l + 1) <? 256 * p)%N with true by lia. cbn [option_map].
      rewrite (N.mul_comm 256), N.mod_mul, N.div_mul by discriminate. reflexivity.
    + replace (256 * (le_val l + 1) <? 256 * p)%N with false by lia. reflexivity.
  - assert (b + 1 < 256)%N by (destruct (N.eq_dec b 255) as [->|]; [now contradiction E | lia]).
    replace (b + 256 * le_val l + 1 <? 256 * p)%N with true by lia.
    replace (b + 256 * le_val l + 1)%N with (b + 1 + le_val l * 256)%N by lia.
    rewrite N.mod_add, N.div_add, (N.mod_small (b + 1)), (N.div_small (b + 1)), N.add_0_l, le_bytes_le_val by (lia || assumption).
    reflexivity.
Qed.

Lemma nonce_at_0 n : n <> [] -> bytes n -> nonce_at n 0 = n.
Proof.
  intros N0 B. destruct n as [|b rest]; [contradiction|]. unfold nonce_at, counter. cbn [hd tl length]. f_equal.
  replace (S (length rest) - 1) with (length rest) by lia. rewrite N.add_0_r. inversion_clear B as [|? ? B1 B2]. unfold be_bytes. rewrite be_val_le_val, <- (rev_length rest), le_bytes_le_val.
  - apply rev_involutive.
  - now apply Forall_rev.
Qed.
Lemma nonce_at_bytes n k : bytes n -> bytes (nonce_at n k).
Proof.
  intros B. unfold nonce_at. constructor; [|apply be_bytes_bytes]. destruct B; [reflexivity | assumption].
Qed.
Lemma nonce_at_length n k : n <> [] -> length (nonce_at n k) = length n.
Proof. intros N0. unfold nonce_at. cbn [length]. rewrite be_bytes_length. destruct n; [contradiction | cbn; lia]. Qed.

Lemma IncrementRandomNonce_spec n k : n <> [] -> bytes n -> (counter n + N.of_nat k < counter_limit n)%N ->
  IncrementRandomNonce (nonce_at n k) =
  if (counter n + N.of_nat (S k) <? counter_limit n)%N then Some (nonce_at n (S k)) else None.
Proof.
  intros N0 B L. unfold IncrementRandomNonce, nonce_at.
  set (m := length n - 1). set (v := (counter n + N.of_nat k)%N).
  assert (Bb : bytes (rev (be_bytes m v))) by (apply Forall_rev, be_bytes_bytes).
  rewrite (increment_loop_spec _ Bb). rewrite rev_length, be_bytes_length.
  unfold be_bytes at 1 2. rewrite rev_involutive, le_val_le_bytes, N.mod_small by exact L.
  replace (counter n + N.of_nat (S k))%N with (v + 1)%N by (unfold v; lia).
  unfold counter_limit. fold m. destruct (v + 1 <? _)%N; [|reflexivity]. cbn [option_map]. reflexivity.
Qed.
Lemma nonce_at_inj n k k' : (counter n + N.of_nat k < counter_limit n)%N -> (counter n + N.of_nat k' < counter_limit n)%N ->
  nonce_at n k = nonce_at n k' -> k = k'.
Proof.
  intros L L' E. injection E as E. unfold be_bytes in E. apply (f_equal (@rev N)) in E. rewrite !rev_involutive in E.
  apply (f_equal le_val) in E. rewrite !le_val_le_bytes, !N.mod_small in E by assumption. lia.
Qed.

(** ** one digest *)
Lemma digest_le_block hash : GetHashDigestsize hash <= GetHashBlocksize hash.
Proof. destruct hash as [| | | | | | | |[]]; cbn; lia. Qed.
Lemma digestsize_pos hash : 8 <= GetHashDigestsize hash.
Proof. destruct hash as [| | | | | | | |[]]; cbn; lia. Qed.
Lemma is_224 (hash : HashType) : {hash = SHA2224Hash} + {hash <> SHA2224Hash}.
Proof. destruct hash; (now left) || (right; discriminate). Defined.

Section Run.
Variables (fuel : nat) (lsb : bool) (junk : list N).
Hypothesis Hjunk : length junk = 64.
Hypothesis Hfuel : 3 <= fuel.
Notation mac := (mac fuel lsb junk).
Notation hrun := (hrun fuel lsb junk).

Lemma store_be_bytes k x : bytes (store_be k x).
Proof.
  unfold store_be. apply Forall_forall. intros b Hb. apply in_map_iff in Hb. destruct Hb as (i & <- & _).
  unfold wrap. now apply N.mod_lt.
Qed.
Lemma hash_total hash hi ms : hash_ok lsb hash hi -> Forall piece_ok ms -> (N.of_nat (length (concat ms)) < 2 ^ 61)%N ->
  exists hi', hrun hi (HInit :: map HUpdate ms ++ [HFinal]) = Some hi' /\ hash_ok lsb hash hi' /\ bytes (hi_digest hi').
Proof.
  intros O P T. destruct (is_224 hash) as [->|NE].
  - destruct hi as [t d h]. destruct O as (E & L & O). cbn [hi_hash hi_digest hi_handle] in *. subst t.
    destruct h as [c|m|m|s ds]; try contradiction. destruct O as [_ O].
    cbn [HashModel.hrun HashModel.hstep InitializeHash hi_hash hi_handle hi_digest].
    rewrite hrun_app, (updates_md fuel lsb junk SHA2224Hash d ms eq_refl).
    cbn [HashModel.hrun HashModel.hstep FinalizeHash hi_hash hi_handle hi_digest].
    eexists. split; [reflexivity|]. split.
    + split; [reflexivity|]. split; [cbn [hi_digest]; now rewrite set_string_length|].
      split; [reflexivity|]. destruct (md_facts lsb SHA2224Hash eq_refl) as (HP & HW & _).
      apply FinalizeMd_shape; [exact HP | exact HW|]. clear P T. 
      generalize (InitializeMd_shape _ HP HW (md_iv SHA2224Hash) m O). generalize (InitializeMd (md_iv SHA2224Hash) m).
      induction ms as [|p ms IH]; intros m' S; [exact S|]. cbn [MdProof.UpdateAll fold_left]. apply IH. now apply UpdateMd_shape.
    + apply set_string_bytes, flat_map_bytes. intros. apply store_be_bytes.
  - destruct (hash_conforms_ok fuel lsb junk Hjunk hash hi ms O Hfuel P T NE) as (hi' & R & O' & H).
    exists hi'. split; [exact R|]. split; [exact O' | exact (is_hash_bytes _ _ _ H)].
Qed.

Lemma mac_unfold hm n : mac hm n =
  match hrun (hm_hash_info hm) (HInit :: map HUpdate [hm_initial_nonce hm; n] ++ [HFinal]) with
  | None => None
  | Some h1 =>
      let digest := set_string (hm_digest hm) (hi_digest h1) in
      match hrun h1 (HInit :: map HUpdate [hm_final_nonce hm; digest] ++ [HFinal]) with
      | None => None
      | Some h2 => Some (mkHMACInfo h2 (set_string digest (hi_digest h2)) (hm_initial_nonce hm) (hm_final_nonce hm))
      end
  end.
Proof.
  unfold RandomModel.mac, ResetHMAC. cbn [map app HashModel.hrun HashModel.hstep].
  destruct (InitializeHash (hm_hash_info hm)) as [a1|]; [|reflexivity].
  destruct (UpdateHash fuel lsb a1 _) as [a2|]; [|reflexivity]. cbn [with_hash]. unfold UpdateHMAC. cbn [hm_hash_info].
  destruct (UpdateHash fuel lsb a2 n) as [a3|]; [|reflexivity]. cbn [with_hash]. unfold FinalizeHMAC. cbn [hm_hash_info hm_digest hm_final_nonce hm_initial_nonce].
  destruct (FinalizeHash fuel lsb junk a3) as [a4|]; reflexivity.
Qed.

Lemma hash_same hash a b ms : hash_ok lsb hash a -> hash_ok lsb hash b -> Forall piece_ok ms ->
  option_map hi_digest (hrun a (HInit :: map HUpdate ms ++ [HFinal])) =
  option_map hi_digest (hrun b (HInit :: map HUpdate ms ++ [HFinal])).
Proof.
  intros Oa Ob P. pose proof (rel_start lsb hash a b Oa Ob) as R. cbn [HashModel.hrun HashModel.hstep].
  destruct (InitializeHash a) as [a1|], (InitializeHash b) as [b1|]; try contradiction; [|reflexivity].
  apply (rel_run fuel lsb junk Hjunk hash (map HUpdate ms) Hfuel); [| |exact R]; apply Forall_map.
  - revert P. apply Forall_impl. intros m [B L]. split; [exact B | eapply N.lt_trans; [exact L | reflexivity]].
  - apply Forall_forall. intros m _. discriminate.
Qed.

(** an object whose key block is that of [hm0] *)
Record gen (hash : HashType) (hm0 hm : HMACInfo) : Prop := {
  g_ok : hmac_ok lsb hash hm;
  g_initial : hm_initial_nonce hm = hm_initial_nonce hm0;
  g_final : hm_final_nonce hm = hm_final_nonce hm0
}.
Definition start_ok (hash : HashType) (hm0 : HMACInfo) : Prop :=
  hmac_ok lsb hash hm0 /\ bytes (hm_initial_nonce hm0) /\ bytes (hm_final_nonce hm0).

Definition digest_at (hm0 : HMACInfo) (n : list N) : list N :=
  match mac hm0 n with Some hm => hm_digest hm | None => [] end.

Lemma mac_total hash hm n : start_ok hash hm -> piece_ok n ->
  exists hm' h1, mac hm n = Some hm' /\ hmac_ok lsb hash hm' /\ hm_initial_nonce hm' = hm_initial_nonce hm /\
    hm_final_nonce hm' = hm_final_nonce hm /\
    hrun (hm_hash_info hm) (HInit :: map HUpdate [hm_initial_nonce hm; n] ++ [HFinal]) = Some h1 /\
    bytes (hi_digest h1) /\ hash_ok lsb hash h1 /\
    hrun h1 (HInit :: map HUpdate [hm_final_nonce hm; hi_digest h1] ++ [HFinal]) = Some (hm_hash_info hm') /\
    hm_digest hm' = hi_digest (hm_hash_info hm') /\ bytes (hm_digest hm').
Proof.
  intros (O & Bi & Bf) [Bn Ln]. rewrite mac_unfold. pose proof (blocksize_small hash) as Hbs.
  assert (Hn : (2 ^ 29 < 2 ^ 60)%N) by reflexivity.
  assert (Hm : (2 ^ 61 = 2 * 2 ^ 60)%N) by reflexivity.
  destruct (hash_total hash (hm_hash_info hm) [hm_initial_nonce hm; n]) as (h1 & R1 & O1 & B1).
  - apply (ok_hash _ _ _ O).
  - constructor; [split; [exact Bi | now rewrite (ok_initial _ _ _ O)] | constructor; [now split | constructor]].
  - cbn [concat]. rewrite app_nil_r, app_length, (ok_initial _ _ _ O). revert Hn Hm. generalize (2 ^ 61)%N (2 ^ 60)%N. intros. lia.
  - rewrite R1. cbv zeta. assert (Ld : length (hi_digest h1) = GetHashDigestsize hash) by apply O1.
    rewrite set_string_same by (rewrite Ld; apply (ok_digest _ _ _ O)).
    destruct (hash_total hash h1 [hm_final_nonce hm; hi_digest h1]) as (h2 & R2 & O2 & B2).
    + exact O1.
    + constructor; [split; [exact Bf | now rewrite (ok_final _ _ _ O)]|]. constructor; [|constructor].
      split; [exact B1|]. rewrite Ld. pose proof (digest_le_block hash). lia.
    + cbn [concat]. rewrite app_nil_r, app_length, (ok_final _ _ _ O), Ld. pose proof (digest_le_block hash).
      revert Hn Hm. generalize (2 ^ 61)%N (2 ^ 60)%N. intros. lia.
    + rewrite R2. assert (Ld2 : length (hi_digest h2) = GetHashDigestsize hash) by apply O2.
      eexists _, h1. split; [reflexivity|]. cbn [hm_hash_info hm_digest hm_initial_nonce hm_final_nonce].
      rewrite set_string_same by congruence.
      split; [|repeat (split; [reflexivity || assumption|]); assumption].
      split; cbn [hm_hash_info hm_digest hm_initial_nonce hm_final_nonce].
      * exact O2.
      * exact Ld2.
      * apply (ok_initial _ _ _ O).
      * apply (ok_final _ _ _ O).
      * intros _. now repeat split.
Qed.

Lemma gen_start hash hm0 hm : start_ok hash hm0 -> gen hash hm0 hm -> start_ok hash hm.
Proof. intros (O & Bi & Bf) [G1 G2 G3]. split; [exact G1|]. rewrite G2, G3. now split. Qed.

Lemma mac_gen hash hm0 hm n : start_ok hash hm0 -> gen hash hm0 hm -> piece_ok n ->
  exists hm', mac hm n = Some hm' /\ gen hash hm0 hm' /\ hm_digest hm' = digest_at hm0 n /\ bytes (hm_digest hm').
Proof.
  intros S0 G Pn. pose proof (gen_start _ _ _ S0 G) as S.
  destruct (mac_total hash hm n S Pn) as (hm' & h1 & M & O' & I' & F' & R1 & B1 & O1 & R2 & D & B).
  destruct (mac_total hash hm0 n S0 Pn) as (hm0' & k1 & M0 & O0' & I0' & F0' & Q1 & C1 & P1 & Q2 & E & _).
  exists hm'. split; [exact M|]. destruct G as [G1 G2 G3]. split; [split; [exact O' | congruence | congruence]|]. split; [|exact B].
  unfold digest_at. rewrite M0, D, E. rewrite G2 in R1. rewrite G3 in R2. destruct S0 as (S1 & S2 & S3).
  assert (Pi : piece_ok (hm_initial_nonce hm0)) by (split; [exact S2 | rewrite (ok_initial _ _ _ S1); apply blocksize_small]).
  assert (Pf : piece_ok (hm_final_nonce hm0)) by (split; [exact S3 | rewrite (ok_final _ _ _ S1); apply blocksize_small]).
  pose proof (hash_same hash _ _ [hm_initial_nonce hm0; n] (ok_hash _ _ _ G1) (ok_hash _ _ _ S1)) as H1.
  rewrite R1, Q1 in H1. cbn [option_map] in H1.
  assert (Ed : hi_digest h1 = hi_digest k1).
  { assert (X : Some (hi_digest h1) = Some (hi_digest k1)) by (apply H1; repeat (constructor; try assumption)). now injection X. }
  rewrite Ed in R2. pose proof (hash_same hash h1 k1 [hm_final_nonce hm0; hi_digest k1] O1 P1) as H2.
  rewrite R2, Q2 in H2. cbn [option_map] in H2.
  assert (X : Some (hi_digest (hm_hash_info hm')) = Some (hi_digest (hm_hash_info hm0'))).
  { apply H2. constructor; [exact Pf|]. constructor; [|constructor]. split; [exact C1|].
    replace (length (hi_digest k1)) with (GetHashDigestsize hash) by (symmetry; apply P1).
    pose proof (digest_le_block hash). pose proof (blocksize_small hash). lia. }
  now injection X.
Qed.

Lemma digest_at_length hash hm0 n : start_ok hash hm0 -> piece_ok n -> length (digest_at hm0 n) = GetHashDigestsize hash.
Proof.
  intros S P. unfold digest_at. destruct (mac_total hash hm0 n S P) as (hm' & h1 & -> & O & _). apply (ok_digest _ _ _ O).
Qed.
End Run.
