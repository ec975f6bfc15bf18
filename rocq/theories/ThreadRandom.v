(** SetRandomKey keeps the laws of ThreadProof.v. *)
From Coq Require Import ZArith NArith Bool Arith Lia List.
From Verif Require Import Base Outcome Sha3Model HashModel HmacModel RandomModel RandomProof ThreadModel ThreadSpec ThreadProof.
Import ListNotations.

Section Random.
Variables (fuel : nat) (lsb : bool) (junk : list N).
Notation C := (random_code fuel lsb junk).
Notation kseq := (kseq fuel lsb junk).
Definition krank (l : klocal) : nat :=
  match l with KDrain i _ => 4 * i + 3 | KMac i _ => 3 * i + 2 | KNonce i _ => 3 * i + 1 | KCopy i _ => 3 * i end.

Lemma size_pos s : 8 <= hm_digestsize (r_hmac s).
Proof. apply digestsize_pos. Qed.
Lemma krank_next l s s' l' : go C l s = Next s' l' -> krank l' < krank l.
Proof.
  pose proof (size_pos s) as D. destruct l as [i key|i key|i key|i key]; cbn [go random_code kgo]; cbv zeta.
  - destruct (Nat.eqb_spec i 0) as [->|Z]; cbn [orb].
    + intros H. injection H as <- <-. cbn [krank]. lia.
    + destruct (Nat.eqb (r_i s) 0); intros H; injection H as <- <-; cbn [krank]; lia.
  - destruct (Nat.eqb_spec i 0); [discriminate|]. destruct (mac fuel lsb junk (r_hmac s) (r_nonce s)); [|discriminate]. intros H; injection H as <- <-. cbn [krank]. lia.
  - destruct (IncrementRandomNonce (r_nonce s)); [|discriminate]. intros H; injection H as <- <-. cbn [krank]. lia.
  - destruct (Nat.leb_spec (hm_digestsize (r_hmac s)) i); [|discriminate]. intros H0; injection H0 as <- <-. cbn [krank]. lia.
Qed.

Lemma init_hash a b : InitializeHash a = Some b -> hi_hash b = hi_hash a.
Proof. unfold InitializeHash. destruct (hi_hash a), (hi_handle a); try discriminate; intros H; injection H as <-; reflexivity. Qed.
Lemma update_hash a m b : UpdateHash fuel lsb a m = Some b -> hi_hash b = hi_hash a.
Proof.
  unfold UpdateHash. destruct (hi_hash a), (hi_handle a); try discriminate; try (intros H; injection H as <-; reflexivity);
    match goal with |- context [UpdateSHA3 ?f ?x ?y ?z] => destruct (UpdateSHA3 f x y z) as [[? ?]|]; [|discriminate] end; intros H; injection H as <-; reflexivity.
Qed.
Lemma final_hash a b : FinalizeHash fuel lsb junk a = Some b -> hi_hash b = hi_hash a.
Proof.
  unfold FinalizeHash. destruct (hi_hash a), (hi_handle a); try discriminate; try (intros H; injection H as <-; reflexivity);
    match goal with |- context [FinalizeSHA3 ?f ?x ?y ?z ?u ?v] => destruct (FinalizeSHA3 f x y z u v) as [[[? ?] ?]|]; [|discriminate] end; intros H; injection H as <-; reflexivity.
Qed.
Lemma mac_hash h n h' : mac fuel lsb junk h n = Some h' -> hm_digestsize h' = hm_digestsize h.
Proof.
  unfold mac, hm_digestsize. intros H. unfold ResetHMAC in H. destruct (InitializeHash (hm_hash_info h)) as [a|] eqn:A; [|discriminate]. apply init_hash in A.
  destruct (UpdateHash fuel lsb a (hm_initial_nonce h)) as [b|] eqn:B; [|discriminate]. apply update_hash in B. cbn [with_hash] in H. unfold UpdateHMAC in H. cbn [hm_hash_info] in H.
  destruct (UpdateHash fuel lsb b n) as [c|] eqn:D; [|discriminate]. apply update_hash in D. cbn [with_hash] in H. unfold FinalizeHMAC in H. cbn [hm_hash_info hm_final_nonce hm_digest] in H.
  destruct (FinalizeHash fuel lsb junk c) as [e|] eqn:F; [|discriminate]. apply final_hash in F. cbn [hrun hstep] in H.
  destruct (InitializeHash e) as [e1|] eqn:G; [|discriminate]. apply init_hash in G.
  destruct (UpdateHash fuel lsb e1 _) as [e2|] eqn:G2; [|discriminate]. apply update_hash in G2.
  destruct (UpdateHash fuel lsb e2 _) as [e3|] eqn:G3; [|discriminate]. apply update_hash in G3.
  destruct (FinalizeHash fuel lsb junk e3) as [e4|] eqn:G4; [|discriminate]. apply final_hash in G4.
  injection H as <-. cbn [hm_hash_info]. congruence.
Qed.

(** what the loop of digests and the rest do *)
Definition blocks_then (i : nat) (key : list N) (s : RandomInfo) : option (RandomInfo * list N) :=
  let d := hm_digestsize (r_hmac s) in
  match whole_blocks fuel lsb junk (i / d) (r_hmac s) (r_nonce s) with
  | Done (hm, nonce, out, _) =>
      if Nat.eqb (i mod d) 0 then Some (with_nonce (with_hmac s hm) nonce, key ++ out)
      else match next_block fuel lsb junk hm nonce with
           | Done (hm, nonce) => let r := set_string (r_reservoir s) (hm_digest hm) in
                                 Some (with_reservoir (with_nonce (with_hmac s hm) nonce) r (i mod d), key ++ out ++ firstn (i mod d) r)
           | _ => None
           end
  | _ => None
  end.
Lemma same_state s : with_nonce (with_hmac s (r_hmac s)) (r_nonce s) = s.
Proof. destruct s. reflexivity. Qed.
Lemma alone_mac : forall n i key s, krank (KMac i key) < n -> alone C n (KMac i key) s = blocks_then i key s.
Proof.
  induction n as [n IH] using (well_founded_induction lt_wf). intros i key s R. cbn [krank] in R.
  destruct n as [|n]; [lia|]. cbn [alone go random_code kgo]. unfold blocks_then. cbv zeta. pose proof (size_pos s) as P. set (d := hm_digestsize (r_hmac s)) in *.
  destruct (Nat.eqb_spec i 0) as [->|Z].
  - rewrite Nat.div_0_l, Nat.mod_0_l by lia. cbn [whole_blocks Nat.eqb]. rewrite same_state, app_nil_r. reflexivity.
  - destruct n as [|n]; [lia|]. destruct n as [|n]; [lia|].
    destruct (Nat.leb_spec d i) as [Le|Lt].
    + replace (i / d) with (S ((i - d) / d)).
      2: { replace i with (i - d + 1 * d) at 2 by lia. rewrite Nat.div_add by lia. lia. }
      cbn [whole_blocks]. unfold next_block at 1.
      destruct (mac fuel lsb junk (r_hmac s) (r_nonce s)) as [h|] eqn:M; [|reflexivity].
      cbn [alone go random_code kgo with_hmac r_nonce]. destruct (IncrementRandomNonce (r_nonce s)) as [nc|]; [|reflexivity].
      cbn [alone go random_code kgo with_nonce with_hmac r_hmac r_reservoir]. cbv zeta. rewrite (mac_hash _ _ _ M). fold d. destruct (Nat.leb_spec d i) as [_|]; [|lia].
      rewrite IH by (cbn [krank]; lia). unfold blocks_then. cbv zeta. cbn [with_hmac with_nonce r_hmac r_nonce r_reservoir]. rewrite (mac_hash _ _ _ M). fold d.
      replace (i mod d) with ((i - d) mod d). 2: { replace i with (i - d + 1 * d) at 2 by lia. rewrite Nat.mod_add by lia. reflexivity. }
      destruct (whole_blocks fuel lsb junk ((i - d) / d) h nc) as [[[[hm no] out] us]| |]; [|reflexivity|reflexivity].
      destruct (Nat.eqb ((i - d) mod d) 0); [rewrite <- app_assoc; reflexivity|]. destruct (next_block fuel lsb junk hm no) as [[hm' no']| |]; [|reflexivity|reflexivity]. rewrite <- !app_assoc. reflexivity.
    + rewrite Nat.div_small, Nat.mod_small by lia. cbn [whole_blocks]. destruct (Nat.eqb_spec i 0); [lia|]. unfold next_block.
      destruct (mac fuel lsb junk (r_hmac s) (r_nonce s)) as [h|] eqn:M; [|reflexivity].
      cbn [alone go random_code kgo with_hmac r_nonce]. destruct (IncrementRandomNonce (r_nonce s)) as [nc|]; [|reflexivity].
      cbn [alone go random_code kgo with_nonce with_hmac r_hmac r_reservoir]. cbv zeta. rewrite (mac_hash _ _ _ M). fold d. destruct (Nat.leb_spec d i) as [|_]; [lia|]. reflexivity.
Qed.
Lemma alone_drain : forall i n key s, krank (KDrain i key) < n ->
  alone C n (KDrain i key) s =
    let '(out, rest, ri) := drain i (r_i s) (r_reservoir s) (hm_digestsize (r_hmac s)) in blocks_then rest (key ++ out) (with_reservoir s (r_reservoir s) ri).
Proof.
  induction i as [|i IH]; intros n key s R; cbn [krank] in R; (destruct n as [|n]; [lia|]); cbn [alone go random_code kgo drain]; cbv zeta.
  - cbn [Nat.eqb orb]. rewrite alone_mac by (cbn [krank]; lia). rewrite app_nil_r. destruct s; reflexivity.
  - destruct (Nat.eqb_spec (r_i s) 0) as [E|E].
    + rewrite orb_true_r. rewrite alone_mac by (cbn [krank]; lia). rewrite app_nil_r. destruct s; reflexivity.
    + cbn [Nat.eqb orb]. replace (S i - 1) with i by lia. rewrite IH by (cbn [krank]; lia). cbn [with_reservoir r_i r_reservoir r_hmac]. 
      destruct (drain i _ (r_reservoir s) (hm_digestsize (r_hmac s))) as [[out rest] ri]. rewrite <- app_assoc. reflexivity.
Qed.
Lemma kalone len a : len <> 0 -> alone C (S (krank (begin C len))) (begin C len) a = kseq a len.
Proof.
  intros N. cbn [begin random_code]. rewrite alone_drain by lia. unfold ThreadSpec.kseq, SetRandomKey. destruct (Nat.eqb_spec len 0); [contradiction|]. cbv zeta.
  destruct (drain len (r_i a) (r_reservoir a) (hm_digestsize (r_hmac a))) as [[out i] ri]. unfold blocks_then. cbv zeta. cbn [with_reservoir r_hmac r_nonce r_reservoir app].
  destruct (whole_blocks fuel lsb junk (i / hm_digestsize (r_hmac a)) (r_hmac a) (r_nonce a)) as [[[[hm no] out2] us]| |]; [|reflexivity|reflexivity].
  destruct (Nat.eqb (i mod hm_digestsize (r_hmac a)) 0); [reflexivity|]. destruct (next_block fuel lsb junk hm no) as [[hm' no']| |]; reflexivity.
Qed.

Theorem random_lawful : lawful C kseq (fun _ => True) (fun _ _ => True) (fun len _ => len <> 0).
Proof.
  assert (CK : forall len s r, check C len s = Some r -> forall a, kseq a len = Some (a, r)).
  { intros len s r H a. cbn [check random_code] in H. destruct (Nat.eqb_spec len 0) as [->|]; [|discriminate]. injection H as <-. reflexivity. }
  assert (CN : forall len s, check C len s = None -> len <> 0).
  { intros len s H. cbn [check random_code] in H. destruct (Nat.eqb_spec len 0); [discriminate|assumption]. }
  constructor; eauto.
  intros t c a l s _ _ N RE.
  apply (body_alone C krank (fun _ => True)) with (c := c) (a := a) (n := S (krank (begin C c))); auto.
  - intros l1 s1 s' l' _ G. split; [exact I|]. eapply krank_next; eauto.
  - apply kalone; exact N.
Qed.
End Random.
