(** SHA-3: properties C17, C18 and C19. *)
From Coq Require Import NArith Arith List Lia Bool ZifyBool ZifyNat ZifyN.
From Verif Require Import Base BaseLemmas PackLemmas Mem32 MdProof Sha2Model Sha2Proof Crc64Props
  Sha3Model Sha3Spec Sha3Proof Sha3Stream.
Import ListNotations.

(** ** padding *)

Definition padbytes (j : nat) : list N :=
  match j with
  | O => []
  | 1 => [0x81%N]
  | S (S j) => 1%N :: repeat 0%N j ++ [0x80%N]
  end.

Lemma padbytes_length j : length (padbytes j) = j.
Proof.
  destruct j as [|[|j]]; try reflexivity. cbn [padbytes length]. rewrite app_length, repeat_length. cbn. lia.
Qed.

Lemma padbytes_bytes j : bytes (padbytes j).
Proof.
  destruct j as [|[|j]]; cbn [padbytes]; [constructor | repeat constructor |].
  constructor; [reflexivity|]. apply bytes_app. split; [|repeat constructor].
  apply Forall_forall. intros x Hx. apply repeat_spec in Hx. now subst.
Qed.

Lemma padbytes_bits j : 0 < j ->
  message_bits (padbytes j) = true :: repeat false (8 * j - 2) ++ [true].
Proof.
  intros H. destruct j as [|[|j]]; [lia | reflexivity |].
  cbn [padbytes]. change (1%N :: repeat 0%N j ++ [128%N]) with ([1%N] ++ repeat 0%N j ++ [128%N]).
  rewrite !message_bits_app, message_bits_zeros.
  change (message_bits [1%N]) with (true :: repeat false 7).
  change (message_bits [128%N]) with (repeat false 7 ++ [true]).
  cbn [app]. f_equal. rewrite !app_assoc. f_equal.
  rewrite <- !repeat_app. f_equal. lia.
Qed.

Lemma pad_bits rb k rest : 0 < rb -> rest < rb ->
  pad101 (8 * rb) (8 * (k * rb + rest)) = message_bits (padbytes (rb - rest)).
Proof.
  intros H1 H2. rewrite padbytes_bits by lia. unfold pad101.
  replace (8 * (k * rb + rest) + 2) with (8 * rest + 2 + k * (8 * rb)) by lia.
  rewrite Nat.mod_add, (Nat.mod_small (8 * rest + 2)) by lia.
  replace (2 * (8 * rb) - (8 * rest + 2)) with (8 * (rb - rest) - 2 + 1 * (8 * rb)) by lia.
  rewrite Nat.mod_add, Nat.mod_small by lia. reflexivity.
Qed.

Lemma firstn_message_bits n l : firstn (8 * n) (message_bits l) = message_bits (firstn n l).
Proof.
  destruct (le_lt_dec n (length l)) as [L|G].
  - rewrite <- (firstn_skipn n l) at 1. rewrite message_bits_app, firstn_app.
    rewrite message_bits_length, firstn_length, Nat.min_l, Nat.sub_diag by lia. cbn [firstn].
    rewrite app_nil_r. apply firstn_all2. rewrite message_bits_length, firstn_length. lia.
  - rewrite (firstn_all2 l) by lia. apply firstn_all2. rewrite message_bits_length. lia.
Qed.

(** ** the hashes *)

(** rate in bytes, capacity and output length in bits *)
Definition h_rb (h : sha3_hash) : nat :=
  match h with SHA3Hash => 128 | SHA3224Hash => 144 | SHA3256Hash => 136 | SHA3384Hash => 104 | SHA3512Hash => 72 end.
Definition h_c (h : sha3_hash) : nat :=
  match h with SHA3Hash => 576 | SHA3224Hash => 448 | SHA3256Hash => 512 | SHA3384Hash => 768 | SHA3512Hash => 1024 end.
Definition h_d (h : sha3_hash) : nat :=
  match h with SHA3Hash => 288 | SHA3224Hash => 224 | SHA3256Hash => 256 | SHA3384Hash => 384 | SHA3512Hash => 512 end.

Lemma h_facts h : In (h_rb h) [72; 104; 128; 136; 144] /\ 8 * h_rb h + h_c h = 1600 /\
  h_d h = 8 * sha3_digestsize h /\ 28 <= sha3_digestsize h <= 64 /\ sha3_digestsize h <= h_rb h.
Proof. destruct h; cbn; repeat split; try lia; tauto. Qed.

Notation inv h := (s3inv (h_rb h) (N.of_nat (h_d h))).

Lemma Initialize_inv h st0 : length (s3_rho st0) = 25 ->
  fst (InitializeSHA3 h st0) = true /\ inv h (snd (InitializeSHA3 h st0)) [] [].
Proof.
  intros HR.
  assert (E : InitializeSHA3 h st0 = (true, mkSHA3Info (repeat 0%N 200) (repeat 0%N 192) (8 * N.of_nat (h_rb h))
      (N.of_nat (h_c h)) 0 (N.of_nat (h_d h)) false 0 rho_table round_table)).
  { rewrite <- (SHA3InitializeRho_table _ HR). unfold InitializeSHA3, InitializeSponge, round_table.
    generalize (SHA3InitializeRho (s3_rho st0)) as R. generalize SHA3InitializeRoundConstants as C. intros C R.
    destruct h; reflexivity. }
  rewrite E. cbn [fst snd]. split; [reflexivity|].
  assert (Z : forall n, bytes (repeat 0%N n)).
  { intros n. apply Forall_forall. intros x Hx. apply repeat_spec in Hx. now subst. }
  constructor; cbn [s3_message s3_rate s3_state s3_bits_in_queue s3_squeeze s3_rho s3_rounds s3_out_length].
  - exists 0; reflexivity.
  - destruct (h_facts h) as (_ & _ & _ & H & H'). cbn [length]. lia.
  - split; [apply repeat_length | apply Z].
  - rewrite message_bits_zeros. unfold absorbed, chunks. reflexivity.
  - split; [apply repeat_length | apply Z].
  - reflexivity.
  - reflexivity.
  - reflexivity.
  - reflexivity.
  - split; reflexivity.
  - reflexivity.
Qed.

(** ** updates *)

Section Run.
Variable lsb : bool.

Lemma UpdateSHA3_unfold fuel rb d st full rest m : s3inv rb d st full rest ->
  (N.of_nat (length m) < 2 ^ 60)%N ->
  UpdateSHA3 fuel lsb st m =
  match absorb_loop fuel lsb m (8 * N.of_nat (length m)) st 0 with Some st' => Some (true, st') | None => None end.
Proof.
  intros I L. unfold UpdateSHA3, Absorb, wmul, wrap.
  rewrite (i_count _ _ _ _ _ I), (i_squeeze _ _ _ _ _ I).
  rewrite (N.mul_comm 8 (N.of_nat (length rest))), N.mod_mul by lia. cbn [N.eqb negb].
  first [rewrite (N.mul_comm (N.of_nat (length m)) 8) | idtac].
  rewrite N.mod_small; [reflexivity|]. change (2 ^ 64)%N with (16 * 2 ^ 60)%N.
  revert L. generalize (2 ^ 60)%N. intros. lia.
Qed.

(** C19, the exact condition for an update to end: [q] bytes are queued *)
Theorem UpdateSHA3_terminates_iff h st full rest m :
  inv h st full rest -> bytes m -> (N.of_nat (length m) < 2 ^ 60)%N ->
  (exists fuel, UpdateSHA3 fuel lsb st m <> None) <->
  (rest = [] \/ (N.of_nat (length m) < 2 ^ 29)%N \/
   h_rb h <= length rest + N.to_nat (N.of_nat (length m) mod 2 ^ 29)).
Proof.
  intros I Bm L. destruct (h_facts h) as (Hrb & _).
  pose proof (loop_ends_iff lsb (h_rb h) Hrb _ m st full rest Bm I) as E.
  assert (R : rest = [] <-> length rest = 0) by (destruct rest; split; intros; (reflexivity || discriminate)).
  unfold ends in E. rewrite R. rewrite <- E.
  split; intros [fuel H]; exists fuel; revert H; rewrite (UpdateSHA3_unfold _ _ _ _ _ _ _ I L);
    destruct (absorb_loop _ _ _ _ _ _); congruence.
Qed.

Lemma UpdateSHA3_ok h st full rest m fuel :
  inv h st full rest -> bytes m -> (N.of_nat (length m) < 2 ^ 29)%N -> 3 <= fuel ->
  exists st' full' rest', UpdateSHA3 fuel lsb st m = Some (true, st') /\
    inv h st' full' rest' /\ full' ++ rest' = (full ++ rest) ++ m.
Proof.
  intros I Bm L Hf. destruct (h_facts h) as (Hrb & _).
  assert (L60 : (N.of_nat (length m) < 2 ^ 60)%N).
  { eapply N.lt_trans; [exact L | reflexivity]. }
  rewrite (UpdateSHA3_unfold _ _ _ _ _ _ _ I L60).
  pose proof (loop_ends lsb (h_rb h) Hrb _ m st full rest fuel Bm I (or_intror (or_introl L)) Hf) as T.
  destruct (absorb_loop fuel lsb m _ st 0) as [st'|] eqn:E; [|contradiction].
  change 0%N with (8 * N.of_nat 0)%N in E.
  destruct (absorb_loop_ok lsb (h_rb h) Hrb _ m Bm fuel st full rest 0 st' ltac:(lia) I E) as (f' & r' & I' & EQ).
  exists st', f', r'. split; [reflexivity|]. split; [exact I'|]. rewrite EQ, <- app_assoc. reflexivity.
Qed.

(** ** finalize *)

Lemma set_bit_at (X R : list N) (a p : N) : (a < 256)%N -> (p < 8)%N ->
  set_bit (X ++ a :: R) (8 * N.of_nat (length X) + p) = X ++ N.lor a (N.shiftl 1 p) :: R.
Proof.
  intros Ha Hp. unfold set_bit.
  replace (8 * N.of_nat (length X) + p)%N with (p + N.of_nat (length X) * 8)%N by lia.
  rewrite N.div_add, N.mod_add, N.div_small, N.mod_small by lia.
  rewrite N.add_0_l, Nat2N.id. unfold get. rewrite app_nth2, Nat.sub_diag by lia. cbn [nth].
  rewrite upd_app_at. do 2 f_equal. apply wrap_small. apply word_lor; [exact Ha|].
  unfold word. rewrite N.shiftl_1_l. apply N.pow_lt_mono_r; lia.
Qed.

(** the message buffer after the padding writes *)
Lemma padded rb q rest tail : q = length rest -> q < rb -> rb <= q + length tail ->
  set_bit (set_bit (splice (rest ++ tail) q (repeat 0%N (rb - q))) (8 * N.of_nat q)) (8 * N.of_nat rb - 1)
  = rest ++ padbytes (rb - q) ++ skipn (rb - q) tail.
Proof.
  intros -> Hq Hl. rewrite splice_app_r by reflexivity. rewrite repeat_length.
  set (T := skipn (rb - length rest) tail). clearbody T. clear Hl tail.
  remember (rb - length rest) as j eqn:Ej. destruct j as [|j]; [lia|].
  cbn [repeat app]. 
  replace (8 * N.of_nat (length rest))%N with (8 * N.of_nat (length rest) + 0)%N by lia.
  rewrite set_bit_at by lia. change (N.lor 0 (N.shiftl 1 0)) with 1%N.
  destruct j as [|j].
  - cbn [repeat app padbytes].
    replace (8 * N.of_nat rb - 1)%N with (8 * N.of_nat (length rest) + 7)%N by lia.
    rewrite set_bit_at by lia. reflexivity.
  - replace (repeat 0%N (S j)) with (repeat 0%N j ++ [0%N]) by (symmetry; apply repeat_cons).
    replace (rest ++ 1%N :: (repeat 0%N j ++ [0%N]) ++ T) with ((rest ++ 1%N :: repeat 0%N j) ++ 0%N :: T)
      by (rewrite <- !app_assoc; cbn [app]; reflexivity).
    replace (8 * N.of_nat rb - 1)%N with (8 * N.of_nat (length (rest ++ 1%N :: repeat 0%N j)) + 7)%N
      by (rewrite app_length; cbn [length]; rewrite repeat_length; lia).
    rewrite set_bit_at by lia. change (N.lor 0 (N.shiftl 1 7)) with 128%N.
    cbn [padbytes]. rewrite <- !app_assoc. cbn [app]. rewrite <- app_assoc. reflexivity.
Qed.

Lemma Pad_ok h st full rest : inv h st full rest ->
  let st' := PadAndSwitchToSqueezingPhase lsb st in
  buf_ok 200 (s3_state st') /\
  message_bits (s3_state st') = absorb (8 * h_rb h) (message_bits (full ++ rest) ++
     pad101 (8 * h_rb h) (length (message_bits (full ++ rest)))) /\
  firstn (h_rb h) (s3_message st') = firstn (h_rb h) (s3_state st') /\
  s3_squeeze_bits st' = (8 * N.of_nat (h_rb h))%N /\ s3_rate st' = (8 * N.of_nat (h_rb h))%N /\
  length (s3_message st') = 192.
Proof.
  intros I. destruct (h_facts h) as (Hrb & _). set (rb := h_rb h) in *. 
  pose proof (rb_bounds rb Hrb) as RB.
  destruct I as [[kf Hf] Hrest Hst Hbits Hmsg Hq Hcount Hrate Hsq Htab Hout].
  set (q := length rest) in *.
  unfold PadAndSwitchToSqueezingPhase. rewrite Hcount, Hrate.
  assert (NE : (wadd 32 (8 * N.of_nat q) 1 =? 8 * N.of_nat rb)%N = false).
  { unfold wadd, wrap. rewrite N.mod_small by (apply N.lt_trans with 2000%N; [lia | reflexivity]). lia. }
  rewrite NE. clear NE.
  assert (D1 : ((8 * N.of_nat q + 7) / 8 = N.of_nat q)%N).
  { rewrite N.add_comm, N.mul_comm, N.div_add by lia. reflexivity. }
  assert (D2 : (8 * N.of_nat rb / 8 = N.of_nat rb)%N) by (rewrite N.mul_comm, N.div_mul; lia).
  assert (D3 : (8 * (8 * N.of_nat rb) / 64 = N.of_nat rb)%N).
  { replace (8 * (8 * N.of_nat rb))%N with (N.of_nat rb * 64)%N by lia. rewrite N.div_mul; lia. }
  rewrite D1, D2, D3. rewrite <- Nat2N.inj_sub, !Nat2N.id.
  destruct Hmsg as [Lm Bm].
  pose proof (padded rb q rest (skipn q (s3_message st)) eq_refl Hrest) as PD.
  rewrite <- Hq in PD at 1. fold q in PD. rewrite firstn_skipn in PD.
  specialize (PD ltac:(rewrite skipn_length; lia)).
  unfold AbsorbQueue. cbn [s3_message s3_rate s3_state with_message with_queue with_state with_squeeze
     s3_squeeze_bits].
  rewrite Hrate, (rate_bytes_rb rb Hrb).
  rewrite PD. set (M := rest ++ padbytes (rb - q) ++ skipn (rb - q) (skipn q (s3_message st))).
  assert (LM : length M = 192).
  { unfold M. rewrite !app_length, padbytes_length, !skipn_length. fold q. lia. }
  assert (BM : bytes M).
  { unfold M. apply bytes_app. split; [rewrite <- Hq; now apply Forall_firstn_|].
    apply bytes_app. split; [apply padbytes_bytes|]. now do 2 apply Forall_skipn_. }
  assert (FM : firstn rb M = rest ++ padbytes (rb - q)).
  { unfold M. rewrite app_assoc, firstn_app. 
    assert (LL : length (rest ++ padbytes (rb - q)) = rb) by (rewrite app_length, padbytes_length; fold q; lia).
    rewrite LL, Nat.sub_diag, firstn_all2 by lia. cbn [firstn]. apply app_nil_r. }
  clearbody M.
  match goal with |- context [SHA3PermutationAfterXor lsb ?X M rb _] => set (stx := X) end.
  assert (Tx : tables_ok stx) by exact Htab.
  destruct (AfterXor_ok lsb stx M rb (s3_state st) Tx Hst BM ltac:(lia) ltac:(lia)) as [A1 A2].
  set (S1 := SHA3PermutationAfterXor lsb stx M rb (s3_state st)) in *. clearbody S1.
  assert (LF : length (firstn rb S1) = rb) by (destruct A1 as [A1 _]; rewrite firstn_length; lia).
  split; [exact A1|]. split; [|split; [|split; [reflexivity|split; [first [reflexivity | exact Hrate]|]]]].
  - rewrite A2, FM, Hbits.
    rewrite <- (absorbed_snoc rb Hrb full kf) by (try exact Hf; rewrite app_length, padbytes_length; fold q; lia).
    rewrite message_bits_length, app_length, Hf. fold q. rewrite pad_bits by lia.
    rewrite <- message_bits_app, <- app_assoc. unfold absorb. rewrite split_chunks, chunks_message_bits by lia.
    reflexivity.
  - rewrite splice0_app, firstn_app, LF, Nat.sub_diag, firstn_firstn, Nat.min_id. cbn [firstn].
    apply app_nil_r.
  - rewrite splice_length; lia.
Qed.

Lemma FinalizeSHA3_ok h st full rest junk old fuel :
  inv h st full rest -> length junk = 64 -> length old = sha3_digestsize h -> 1 <= fuel ->
  exists digest, FinalizeSHA3 fuel lsb junk (sha3_digestsize h) st old = Some (true, st, digest) /\
    length digest = sha3_digestsize h /\ bytes digest /\
    message_bits digest = KECCAK (h_c h) (message_bits (full ++ rest)) (h_d h).
Proof.
  intros I LJ LO Hf. destruct (h_facts h) as (Hrb & HC & HD & HS & HSR).
  destruct (Pad_ok h st full rest I) as ([L200 B200] & HB & HM & HSB & HR & HL).
  pose proof (rb_bounds (h_rb h) Hrb) as RB.
  unfold FinalizeSHA3, Squeeze. rewrite (i_squeeze _ _ _ _ _ I), (i_out _ _ _ _ _ I).
  set (st' := PadAndSwitchToSqueezingPhase lsb st) in *.
  set (ds := sha3_digestsize h) in *. set (rb := h_rb h) in *.
  assert (M8 : (N.of_nat (h_d h) mod 8 = 0)%N).
  { rewrite HD. replace (N.of_nat (8 * ds)) with (N.of_nat ds * 8)%N by lia. apply N.mod_mul. lia. }
  rewrite M8. cbn [N.eqb negb].
  destruct fuel as [|fuel]; [lia|]. cbn [squeeze_loop].
  replace (0 <? N.of_nat (h_d h))%N with true by lia.
  unfold squeeze_step. rewrite HSB.
  replace (8 * N.of_nat rb =? 0)%N with false by lia. rewrite N.sub_0_r. try rewrite HSB.
  set (bits := if (N.of_nat (h_d h) <? 8 * N.of_nat rb)%N then N.of_nat (h_d h) else (8 * N.of_nat rb)%N).
  assert (EB : bits = N.of_nat (h_d h)) by (unfold bits; destruct (N.ltb_spec (N.of_nat (h_d h)) (8 * N.of_nat rb)); lia).
  rewrite EB. rewrite HR. try rewrite HSB. rewrite N.sub_diag, N.add_0_l.
  change (N.to_nat (0 / 8)) with 0.
  assert (D8 : N.to_nat (N.of_nat (h_d h) / 8) = ds).
  { rewrite HD. replace (N.of_nat (8 * ds)) with (N.of_nat ds * 8)%N by lia. rewrite N.div_mul; lia. }
  rewrite D8.
  assert (End : forall st o, squeeze_loop fuel lsb (N.of_nat (h_d h)) (N.of_nat (h_d h)) st o = Some (st, o)).
  { intros s o. destruct fuel; cbn [squeeze_loop]; rewrite N.ltb_irrefl; reflexivity. }
  rewrite End.
  set (out := slice (s3_message st') 0 ds).
  assert (EO : out = firstn ds (s3_state st')).
  { unfold out, slice. cbn [skipn].
    transitivity (firstn ds (firstn rb (s3_message st'))).
    - rewrite firstn_firstn. f_equal. lia.
    - rewrite HM, firstn_firstn. f_equal. lia. }
  assert (LOut : length out = ds) by (rewrite EO, firstn_length; lia).
  exists out. split.
  - do 3 f_equal. rewrite (splice0_app _ out), firstn_app, LOut, Nat.sub_diag, (firstn_all2 out) by lia.
    cbn [firstn]. rewrite app_nil_r. rewrite splice0_app, skipn_all2 by lia. apply app_nil_r.
  - split; [exact LOut|]. rewrite EO. split; [now apply Forall_firstn_|].
    rewrite <- firstn_message_bits, HB. unfold KECCAK, sponge.
    replace (1600 - h_c h) with (8 * rb) by lia.
    set (S := absorb _ _) in *.
    assert (LS : length S = 1600) by (rewrite <- HB, message_bits_length, L200; reflexivity).
    rewrite <- HD. destruct (h_d h) as [|d'] eqn:Ed; [lia|]. cbn [squeeze app].
    rewrite firstn_length, LS.
    destruct (Nat.leb_spec (Datatypes.S d') (Nat.min (8 * rb) 1600)) as [G|G]; [|lia].
    rewrite firstn_firstn. f_equal. lia.
Qed.

(** ** runs: any interleaving of updates and finalizes *)

Inductive s3op := S3Update (m : list N) | S3Finalize.

Fixpoint s3_run (fuel : nat) (junk old : list N) (h : sha3_hash) (st : SHA3Info) (ops : list s3op)
  : option (SHA3Info * list (list N)) :=
  match ops with
  | [] => Some (st, [])
  | S3Update m :: t =>
      match UpdateSHA3 fuel lsb st m with
      | Some (true, st') => s3_run fuel junk old h st' t
      | _ => None
      end
  | S3Finalize :: t =>
      match FinalizeSHA3 fuel lsb junk (sha3_digestsize h) st old with
      | Some (true, st', digest) =>
          match s3_run fuel junk old h st' t with
          | Some (st'', l) => Some (st'', digest :: l)
          | None => None
          end
      | _ => None
      end
  end.

(** what the digests must be: the sponge of everything fed so far *)
Fixpoint s3_expected (h : sha3_hash) (m : list N) (ops : list s3op) : list (list bool) :=
  match ops with
  | [] => []
  | S3Update x :: t => s3_expected h (m ++ x) t
  | S3Finalize :: t => KECCAK (h_c h) (message_bits m) (h_d h) :: s3_expected h m t
  end.

Definition op_ok (o : s3op) : Prop :=
  match o with S3Update m => bytes m /\ (N.of_nat (length m) < 2 ^ 29)%N | S3Finalize => True end.

Lemma s3_run_ok h junk old fuel ops : length junk = 64 -> length old = sha3_digestsize h -> 3 <= fuel ->
  Forall op_ok ops -> forall st full rest, inv h st full rest ->
  exists st' digests, s3_run fuel junk old h st ops = Some (st', digests) /\
    Forall (fun d => length d = sha3_digestsize h /\ bytes d) digests /\
    map message_bits digests = s3_expected h (full ++ rest) ops.
Proof.
  intros LJ LO Hf. induction 1 as [|o ops Ho Hops IH]; intros st full rest I.
  - exists st, []. now repeat split.
  - destruct o as [m|]; cbn [s3_run s3_expected].
    + destruct Ho as [Bm Lm].
      destruct (UpdateSHA3_ok h st full rest m fuel I Bm Lm Hf) as (st' & f' & r' & -> & I' & <-).
      apply (IH st' f' r' I').
    + destruct (FinalizeSHA3_ok h st full rest junk old fuel I LJ LO ltac:(lia)) as (dg & -> & L & B & E).
      destruct (IH st full rest I) as (st' & ds & -> & F & EQ).
      exists st', (dg :: ds). split; [reflexivity|]. split; [constructor; [now split | exact F]|].
      cbn [map]. now rewrite E, EQ.
Qed.

(** C17 *)
Theorem SHA3_stream h st0 junk old fuel ops :
  length (s3_rho st0) = 25 -> length junk = 64 -> length old = sha3_digestsize h -> 3 <= fuel ->
  Forall op_ok ops ->
  exists st' digests,
    s3_run fuel junk old h (snd (InitializeSHA3 h st0)) ops = Some (st', digests) /\
    Forall (fun d => length d = sha3_digestsize h /\ bytes d) digests /\
    map message_bits digests = s3_expected h [] ops.
Proof.
  intros HR LJ LO Hf H. destruct (Initialize_inv h st0 HR) as [_ I].
  exact (s3_run_ok h junk old fuel ops LJ LO Hf H _ [] [] I).
Qed.

(** C19 refuted: one queued byte, then any multiple of 2^29 bytes: no number of turns is enough *)
Theorem UpdateSHA3_terminates_refuted h st0 b m :
  length (s3_rho st0) = 25 -> (b < 256)%N -> bytes m -> m <> [] ->
  (N.of_nat (length m) < 2 ^ 60)%N -> (N.of_nat (length m) mod 2 ^ 29 = 0)%N ->
  exists st1, UpdateSHA3 3 lsb (snd (InitializeSHA3 h st0)) [b] = Some (true, st1) /\
    forall fuel, UpdateSHA3 fuel lsb st1 m = None.
Proof.
  intros HR Hb Bm Hm L60 HM. destruct (Initialize_inv h st0 HR) as [_ I].
  destruct (UpdateSHA3_ok h _ [] [] [b] 3 I ltac:(repeat constructor; exact Hb) ltac:(reflexivity) ltac:(lia))
    as (st1 & full & rest & E & I1 & EQ).
  exists st1. split; [exact E|]. intros fuel.
  destruct (UpdateSHA3 fuel lsb st1 m) eqn:U; [|reflexivity]. exfalso.
  destruct (proj1 (UpdateSHA3_terminates_iff h st1 full rest m I1 Bm L60)) as [C|[C|C]].
  - exists fuel. congruence.
  - subst rest. rewrite app_nil_r in EQ. cbn [app] in EQ. subst full.
    destruct (i_full _ _ _ _ _ I1) as [k K]. cbn [length] in K.
    destruct (h_facts h) as (_ & _ & _ & HS & HSR). destruct k; cbn in K; lia.
  - rewrite N.mod_small in HM by exact C. destruct m; [now apply Hm | cbn [length] in HM; lia].
  - rewrite HM in C. change (N.to_nat 0) with 0 in C. pose proof (i_rest _ _ _ _ _ I1). lia.
Qed.

End Run.

(** ** FIPS 202 *)

Definition s3zero : SHA3Info := mkSHA3Info [] [] 0 0 0 0 false 0 rho_table round_table.

Lemma tables_zero : tables_ok s3zero.
Proof. split; unfold s3zero; cbn [s3_rho s3_rounds]; reflexivity. Qed.

(** the block 01 1 0...0 1 of the standard for the empty message *)
Definition fips_block (rb : nat) : list N := 6%N :: repeat 0%N (rb - 2) ++ 128%N :: repeat 0%N (200 - rb).

Definition fips_digest (h : sha3_hash) : list N :=
  firstn (sha3_digestsize h) (SHA3Permutation true s3zero (fips_block (h_rb h))).

Lemma fips_empty h : h <> SHA3Hash -> message_bits (fips_digest h) = SHA3 (h_d h) (message_bits []).
Proof.
  intros NH. destruct (h_facts h) as (Hrb & HC & HD & HS & HSR).
  pose proof (rb_bounds (h_rb h) Hrb) as RB.
  assert (H2 : 2 * h_d h = h_c h) by (destruct h; reflexivity || contradiction).
  unfold fips_digest. rewrite <- firstn_message_bits, <- HD.
  assert (BK : buf_ok 200 (fips_block (h_rb h))).
  { unfold fips_block. split.
    - cbn [length]. rewrite app_length. cbn [length]. rewrite !repeat_length. lia.
    - assert (Z : forall n, bytes (repeat 0%N n))
        by (intros n; apply Forall_forall; intros x Hx; apply repeat_spec in Hx; now subst).
      constructor; [reflexivity|]. apply bytes_app. split; [apply Z|]. constructor; [reflexivity | apply Z]. }
  destruct (SHA3Permutation_ok true s3zero (fips_block (h_rb h)) tables_zero BK) as [[L B] ->].
  unfold SHA3, KECCAK, sponge. rewrite H2. replace (1600 - h_c h) with (8 * h_rb h) by lia.
  set (N := message_bits [] ++ [false; true]).
  assert (EP : N ++ pad101 (8 * h_rb h) (length N) = message_bits (firstn (h_rb h) (fips_block (h_rb h))))
    by (destruct h; reflexivity || contradiction).
  rewrite EP. clear EP N.
  set (P := firstn (h_rb h) (fips_block (h_rb h))).
  assert (LP : length P = h_rb h) by (unfold P; rewrite firstn_length; destruct BK; lia).
  assert (EA : absorb (8 * h_rb h) (message_bits P) = keccak_f (message_bits (fips_block (h_rb h)))).
  { unfold absorb. rewrite split_chunks, chunks_message_bits by lia. rewrite chunks_last by lia.
    cbn [map fold_left]. f_equal.
    assert (XZ : forall a, xor_bits (repeat false (length a)) a = a).
    { induction a as [|x a IH]; [reflexivity|]. cbn. rewrite IH. now destruct x. }
    replace (8 * h_rb h) with (length (message_bits P)) by (rewrite message_bits_length; lia).
    set (tailz := repeat false (1600 - length (message_bits P))).
    replace 1600 with (length (message_bits P ++ tailz))
      by (unfold tailz; rewrite app_length, repeat_length, message_bits_length; lia).
    rewrite XZ. unfold tailz. rewrite message_bits_length, LP.
    replace (1600 - 8 * h_rb h) with (8 * (200 - h_rb h)) by lia.
    rewrite <- message_bits_zeros, <- message_bits_app. f_equal.
    unfold P, fips_block. 
    replace (6%N :: repeat 0%N (h_rb h - 2) ++ 128%N :: repeat 0%N (200 - h_rb h))
      with ((6%N :: repeat 0%N (h_rb h - 2) ++ [128%N]) ++ repeat 0%N (200 - h_rb h))
      by (cbn [app]; rewrite <- app_assoc; reflexivity).
    rewrite firstn_app.
    assert (LL : length (6%N :: repeat 0%N (h_rb h - 2) ++ [128%N]) = h_rb h)
      by (cbn [length]; rewrite app_length, repeat_length; cbn [length]; lia).
    rewrite LL, Nat.sub_diag, firstn_all2 by lia. cbn [firstn]. rewrite app_nil_r. reflexivity. }
  rewrite EA. set (S := keccak_f _) in *.
  assert (LS : length S = 1600).
  { destruct (SHA3Permutation_ok true s3zero (fips_block (h_rb h)) tables_zero BK) as [[L' _] E].
    unfold S. rewrite <- E, message_bits_length, L'. reflexivity. }
  destruct (h_d h) as [|d'] eqn:Ed; [lia|]. cbn [squeeze app]. rewrite firstn_length, LS.
  destruct (Nat.leb_spec (Datatypes.S d') (Nat.min (8 * h_rb h) 1600)) as [G|G]; [|lia].
  rewrite firstn_firstn. f_equal. lia.
Qed.

(** C18 refuted: for each of the four standard functions the digest of the
    empty message is not the FIPS 202 one *)
Theorem SHA3_fips202_refuted h lsb st0 junk old fuel : h <> SHA3Hash ->
  length (s3_rho st0) = 25 -> length junk = 64 -> length old = sha3_digestsize h -> 1 <= fuel ->
  exists st digest,
    FinalizeSHA3 fuel lsb junk (sha3_digestsize h) (snd (InitializeSHA3 h st0)) old = Some (true, st, digest) /\
    message_bits digest <> SHA3 (h_d h) (message_bits []).
Proof.
  intros NH HR LJ LO Hf. destruct (Initialize_inv h st0 HR) as [_ I].
  destruct (FinalizeSHA3_ok lsb h _ [] [] junk old fuel I LJ LO Hf) as (dg & E & L & B & K).
  eexists _, dg. split; [exact E|]. rewrite K. clear - NH.
  (* the digest of the empty message, computed by the model *)
  destruct (Initialize_inv h s3zero eq_refl) as [_ I0].
  destruct (FinalizeSHA3_ok true h _ [] [] (repeat 0%N 64) (repeat 0%N (sha3_digestsize h)) 1 I0
              (repeat_length _ _) (repeat_length _ _) ltac:(lia)) as (dg & E & L & B & K).
  rewrite <- K, <- fips_empty by exact NH. intros X.
  assert (D : dg <> fips_digest h).
  { assert (C : match FinalizeSHA3 1 true (repeat 0%N 64) (sha3_digestsize h) (snd (InitializeSHA3 h s3zero))
                  (repeat 0%N (sha3_digestsize h)) with
                | Some (_, _, x) => get x 0 =? get (fips_digest h) 0 | None => true end%N = false).
    { destruct h; [contradiction|vm_compute; reflexivity..]. }
    rewrite E in C. intros ->. rewrite N.eqb_refl in C. discriminate. }
  apply D. assert (Lf : length (fips_digest h) = length dg).
  { apply (f_equal (@length bool)) in X. rewrite !message_bits_length in X. lia. }
  assert (Bf : bytes (fips_digest h)).
  { unfold fips_digest. apply Forall_firstn_.
    destruct (h_facts h) as (Hrb & HC & HD & HS & HSR). pose proof (rb_bounds (h_rb h) Hrb).
    apply SHA3Permutation_ok; [exact tables_zero|]. unfold fips_block. split.
    - cbn [length]. rewrite app_length. cbn [length]. rewrite !repeat_length. lia.
    - assert (Z : forall n, bytes (repeat 0%N n))
        by (intros n; apply Forall_forall; intros x Hx; apply repeat_spec in Hx; now subst).
      constructor; [reflexivity|]. apply bytes_app. split; [apply Z|]. constructor; [reflexivity | apply Z]. }
  apply (f_equal lval) in X.
  rewrite <- (message_bits_le_val dg B), <- (message_bits_le_val _ Bf), Lf, !lval_low_bits in X.
  apply le_val_inj; [exact B | exact Bf | symmetry; exact Lf |].
  assert (P : forall l, bytes l -> (le_val l < 2 ^ N.of_nat (8 * length l))%N).
  { intros l Hl. replace (N.of_nat (8 * length l)) with (8 * N.of_nat (length l))%N by lia.
    rewrite N.pow_mul_r. exact (le_val_bound l Hl). }
  rewrite !N.mod_small in X; [exact X | rewrite <- Lf; now apply P | now apply P].
Qed.

(** Keccak-256 of "abc", fed in two parts with a digest taken in between *)
Example keccak_abc :
  match s3_run true 3 (repeat 9%N 64) (repeat 8%N 32) SHA3256Hash
    (snd (InitializeSHA3 SHA3256Hash s3zero)) [S3Finalize; S3Update [97%N]; S3Update [98%N; 99%N]; S3Finalize] with
  | Some (_, ds) => map be_val ds
  | None => []
  end =
  [0xc5d2460186f7233c927e7db2dcc703c0e500b653ca82273b7bfad8045d85a470;
   0x4e03657aea45a94fc7d47ba826c8d667c0d1e6e33a64a036ec44f58fa12d6c45]%N.
Proof. vm_compute. reflexivity. Qed.

(** the hypotheses of [UpdateSHA3_terminates_refuted] are met by 512 MB of zeros after the byte 7 *)
Example never_ends_case :
  exists st1, UpdateSHA3 3 true (snd (InitializeSHA3 SHA3512Hash s3zero)) [7%N] = Some (true, st1) /\
    forall fuel, UpdateSHA3 fuel true st1 (repeat 0%N (N.to_nat (2 ^ 29))) = None.
Proof.
  assert (L : N.of_nat (length (repeat 0%N (N.to_nat (2 ^ 29)))) = (2 ^ 29)%N) by now rewrite repeat_length, N2Nat.id.
  assert (B : bytes (repeat 0%N (N.to_nat (2 ^ 29)))).
  { apply Forall_forall. intros x Hx. apply repeat_spec in Hx. now subst. }
  revert L B. generalize (repeat 0%N (N.to_nat (2 ^ 29))) as m. intros m L B.
  apply UpdateSHA3_terminates_refuted.
  - unfold s3zero. cbn [s3_rho]. reflexivity.
  - reflexivity.
  - exact B.
  - intros ->. cbn [length] in L. lia.
  - rewrite L. reflexivity.
  - rewrite L. reflexivity.
Qed.

(** and an update that does end: three bytes queued after a whole block *)
Example ends_case : exists st, 
  UpdateSHA3 3 true (snd (InitializeSHA3 SHA3512Hash s3zero)) (repeat 5%N 75) = Some (true, st) /\
  s3_bits_in_queue st = 24%N.
Proof. eexists. split; [vm_compute; reflexivity | reflexivity]. Qed.

Print Assumptions SHA3_stream.
Print Assumptions UpdateSHA3_terminates_iff.
Print Assumptions UpdateSHA3_terminates_refuted.
Print Assumptions SHA3_fips202_refuted.
