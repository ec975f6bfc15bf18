(** Proofs about the modes of operation. *)
From Coq Require Import Arith NArith List Lia Bool.
From Verif Require Import Base BaseLemmas Outcome StringInfoModel StringInfoProof CipherModel CipherSpec.
Import ListNotations.

(** ** The block loop as a run over a list of blocks *)
Fixpoint run {S} (f : S -> list N -> outcome (S * list N)) (s : S) (bl : list (list N))
  : outcome (list (list N)) :=
  match bl with
  | [] => Ok []
  | b :: t => let* (s', b') := f s b in let* r := run f s' t in Ok (b' :: r)
  end.

Lemma block_loop_run {S} bs (f : S -> list N -> outcome (S * list N)) bl : forall s rest,
  Forall (fun b => length b = bs) bl ->
  block_loop bs f (length bl) s (concat bl ++ rest) =
  let* r := run f s bl in Ok (concat r ++ rest).
Proof.
  induction bl as [|b bl IH]; intros s rest H; [reflexivity|].
  inversion H as [|? ? L H']; subst. cbn [length block_loop concat run].
  rewrite <- app_assoc. rewrite mem_read_ok by (rewrite app_length; lia). cbn [bind].
  rewrite slice0, firstn_app_exact by reflexivity.
  destruct (f s b) as [[s' b']| |]; cbn [bind]; try reflexivity.
  rewrite skipn_app, skipn_all, Nat.sub_diag. cbn [skipn app]. rewrite IH by assumption.
  destruct (run f s' bl); cbn [bind]; try reflexivity. cbn [concat]. now rewrite app_assoc.
Qed.

(** a run that a second step function undoes *)
Lemma run_inverse {S} (enc dec : S -> list N -> outcome (S * list N))
    (Inv : S -> Prop) (blk : list N -> Prop) :
  (forall s b s' c, Inv s -> blk b -> enc s b = Ok (s', c) -> dec s c = Ok (s', b) /\ Inv s') ->
  forall P s C m, Inv s -> Forall blk P -> run enc s P = Ok C ->
    run dec s (firstn m C) = Ok (firstn m P) /\ length C = length P.
Proof.
  intros H. induction P as [|p P IH]; intros s C m Is HP E.
  - injection E as <-. rewrite !firstn_nil. split; reflexivity.
  - inversion HP; subst. cbn [run] in E. destruct (enc s p) as [[s' c]| |] eqn:E1; try discriminate.
    cbn [bind] in E. destruct (run enc s' P) as [C'| |] eqn:E2; try discriminate.
    injection E as <-. destruct (H s p s' c) as [D I']; auto.
    destruct (IH s' C' (pred m) I') as [R L]; auto.
    split; [|cbn [length]; lia]. destruct m; [reflexivity|]. cbn [firstn run pred] in *.
    rewrite D. cbn [bind]. rewrite R. reflexivity.
Qed.

(** ** Arithmetic of padding *)
Section Pad.
  Variable bs : nat.
  Hypothesis bs_pos : (0 < bs)%nat.

  Lemma pad_count_bounds n : (1 <= pad_count bs n <= bs)%nat.
  Proof. unfold pad_count. pose proof (Nat.mod_upper_bound n bs). lia. Qed.

  Lemma pad_total n : (n + pad_count bs n = bs * (n / bs + 1))%nat.
  Proof.
    unfold pad_count. pose proof (Nat.div_mod n bs). pose proof (Nat.mod_upper_bound n bs). lia.
  Qed.

  Lemma iterations_padded n :
    iterations bs (if Nat.eqb (bs - n mod bs) bs then (n + bs)%nat else n) = (n / bs + 1)%nat.
  Proof.
    unfold iterations. pose proof (Nat.div_mod n bs). pose proof (Nat.mod_upper_bound n bs).
    destruct (Nat.eqb_spec (bs - n mod bs) bs); symmetry.
    - apply Nat.div_unique with (r := (bs - 1)%nat); lia.
    - apply Nat.div_unique with (r := (n mod bs - 1)%nat); lia.
  Qed.

  Lemma iterations_bounds n : (n <= bs * iterations bs n)%nat /\ (iterations bs n <= n / bs + 1)%nat.
  Proof.
    unfold iterations. pose proof (Nat.div_mod n bs). pose proof (Nat.mod_upper_bound n bs).
    pose proof (Nat.div_mod (n + bs - 1) bs). pose proof (Nat.mod_upper_bound (n + bs - 1) bs). split.
    - lia.
    - apply Nat.lt_succ_r. apply Nat.div_lt_upper_bound; lia.
  Qed.
End Pad.

Lemma chunks_blocks (bs k : nat) (l : list N) : (0 < bs)%nat -> length l = (bs * k)%nat ->
  length (chunks bs l) = k /\ Forall (fun b => length b = bs) (chunks bs l) /\
  (bytes l -> Forall bytes (chunks bs l)).
Proof.
  intros Hb. revert l. induction k; intros l L.
  - destruct l; [|cbn in L; lia]. repeat split; constructor.
  - rewrite <- (firstn_skipn bs l).
    assert (length (firstn bs l) = bs) as L1 by (rewrite firstn_length; lia).
    assert (length (skipn bs l) = bs * k)%nat as L2 by (rewrite skipn_length; lia).
    rewrite chunks_cons by auto. destruct (IHk _ L2) as (A & B & C). cbn [length]. split; [lia|].
    split; [constructor; auto|]. intros H. apply bytes_app in H as [H1 H2]. constructor; auto.
Qed.

(** ** Well-formed cipher contexts *)
Definition block_of (bs : nat) (b : list N) : Prop := bytes b /\ length b = bs.

Record good_cipher (c : CipherInfo) : Prop := {
  gc_pos : (0 < blocksize c)%nat;
  gc_max : (blocksize c <= MaxCipherBlocksize)%nat;
  gc_nonce : wf (nonce c);
  gc_nonce_len : slen (nonce c) = blocksize c;
  gc_nonce_bytes : bytes (contents (nonce c));
  gc_enc : forall b, block_of (blocksize c) b -> block_of (blocksize c) (encipher_block c b);
  gc_inv : forall b, block_of (blocksize c) b -> decipher_block c (encipher_block c b) = b
}.

Lemma nonce_block_ok c : good_cipher c -> nonce_block c = Ok (contents (nonce c)).
Proof.
  intros G. unfold nonce_block. pose proof (gc_nonce c G) as W. unfold wf in W.
  rewrite <- (gc_nonce_len c G). now rewrite mem_read_ok by lia.
Qed.
Lemma nonce_is_block c : good_cipher c -> block_of (blocksize c) (contents (nonce c)).
Proof.
  intros G. split; [apply (gc_nonce_bytes c G)|]. rewrite contents_length by apply (gc_nonce c G).
  apply (gc_nonce_len c G).
Qed.

Lemma padded_length bs rnd msg : (0 < bs)%nat ->
  length (padded bs rnd msg) = (length msg + pad_count bs (length msg))%nat.
Proof.
  intros H. unfold padded. rewrite !app_length, map_length, seq_length. cbn [length].
  pose proof (pad_count_bounds bs H (length msg)). lia.
Qed.
Lemma padded_bytes bs rnd msg : (0 < bs <= 128)%nat -> bytes msg -> (forall i, rnd i < 256)%N ->
  bytes (padded bs rnd msg).
Proof.
  intros H Hm Hr. unfold padded. apply bytes_app; split; [auto|]. apply bytes_app; split.
  - apply Forall_forall. intros x Hx. apply in_map_iff in Hx as (i & <- & _). apply Hr.
  - constructor; [|constructor]. pose proof (pad_count_bounds bs (proj1 H) (length msg)). lia.
Qed.

(** the enciphered region and what stays behind it *)
Definition tail_of (bs : nat) (s : StringInfo) : list N :=
  skipn (slen s + pad_count bs (slen s)) (datum s).

Lemma pad_buffer_spec bs rnd s : (0 < bs <= 128)%nat -> wf s ->
  pad_buffer bs rnd s =
  Ok (padded bs rnd (contents s) ++ tail_of bs s,
      if Nat.eqb (bs - slen s mod bs) bs then (slen s + bs)%nat else slen s).
Proof.
  intros Hb W. unfold pad_buffer. fold (pad_count bs (slen s)).
  pose proof (pad_count_bounds bs (proj1 Hb) (slen s)) as B.
  assert (wrap 8 (N.of_nat (pad_count bs (slen s) - 1)) = N.of_nat (pad_count bs (slen s) - 1)) as Wr.
  { unfold wrap. change (2 ^ 8)%N with 256%N. apply N.mod_small. lia. }
  rewrite Wr. unfold wf, MaxCipherBlocksize in W.
  rewrite mem_write_ok by (rewrite app_length, map_length, seq_length; cbn [length]; lia).
  cbn [bind]. do 2 f_equal. unfold splice, padded, tail_of.
  rewrite contents_length by exact W. rewrite app_length, map_length, seq_length. cbn [length].
  unfold contents. rewrite <- !app_assoc. do 3 f_equal. cbn [app]. do 2 f_equal. lia.
Qed.

Lemma encipher_padded_spec c rnd step iv s :
  (0 < blocksize c <= 128)%nat -> wf s ->
  encipher_padded c rnd step iv s =
  let* C := run step iv (chunks (blocksize c) (padded (blocksize c) rnd (contents s))) in
  Ok (mkSI (concat C ++ tail_of (blocksize c) s) (slen s)).
Proof.
  intros Hb W. unfold encipher_padded. rewrite pad_buffer_spec by auto. cbn [bind].
  rewrite iterations_padded by lia.
  set (P := padded (blocksize c) rnd (contents s)).
  destruct (chunks_blocks (blocksize c) (slen s / blocksize c + 1) P) as (L & F & _); [lia| |].
  { subst P. rewrite padded_length, contents_length by (auto; lia). apply pad_total; lia. }
  rewrite <- L. rewrite <- (concat_chunks (blocksize c) P) at 2 by lia.
  rewrite block_loop_run by exact F. destruct (run step iv _); reflexivity.
Qed.

(** bytes read as blocks of one *)
Lemma singletons_concat (l : list N) : concat (map (fun x => [x]) l) = l.
Proof. induction l; cbn; congruence. Qed.

Lemma cfb_loop (f : list N -> list N -> outcome (list N * list N)) iv s : wf s ->
  block_loop 1 f (slen s) iv (datum s) =
  let* C := run f iv (map (fun x => [x]) (contents s)) in Ok (concat C ++ skipn (slen s) (datum s)).
Proof.
  intros W. rewrite <- (firstn_skipn (slen s) (datum s)) at 1. fold (contents s).
  rewrite <- (contents_length s W) at 1. rewrite <- (map_length (fun x => [x]) (contents s)).
  rewrite <- (singletons_concat (contents s)) at 2. rewrite block_loop_run; [reflexivity|].
  apply Forall_forall. intros x Hx. apply in_map_iff in Hx as (y & <- & _). reflexivity.
Qed.

(** ** Each step function computes its SP 800-38A mode *)
Lemma run_ecb c st P : run (ecb_encipher_step c) st P = Ok (ECB_encrypt (encipher_block c) P).
Proof. induction P; cbn; [reflexivity|]. rewrite IHP. reflexivity. Qed.

Lemma run_cbc c iv P : run (cbc_encipher_step c) iv P = Ok (CBC_encrypt (encipher_block c) iv P).
Proof. revert iv. induction P; intros; cbn; [reflexivity|]. rewrite IHP. reflexivity. Qed.

Lemma seq_map_S {A} (f : nat -> A) n : map f (seq 1 n) = map (fun j => f (S j)) (seq 0 n).
Proof. now rewrite <- seq_shift, map_map. Qed.

Lemma run_ofb c iv P : run (ofb_step c) iv P = Ok (OFB_encrypt (encipher_block c) iv P).
Proof.
  revert iv. induction P as [|p P IH]; intros; [reflexivity|]. cbn [run ofb_step bind].
  rewrite IH. cbn [bind]. unfold OFB_encrypt, OFB_keystream. cbn [length seq map map2 iter].
  rewrite seq_map_S. reflexivity.
Qed.

Lemma run_cfb c iv l : run (cfb_encipher_step c) iv (map (fun x => [x]) l) =
  Ok (map (fun x => [x]) (CFB8_encrypt (encipher_block c) iv l)).
Proof.
  revert iv. induction l as [|x l IH]; intros; [reflexivity|]. cbn [map run cfb_encipher_step bind].
  rewrite IH. cbn [bind CFB8_encrypt map]. unfold get; cbn [nth].
  replace (nth 0 (encipher_block c iv) 0%N) with (hd 0%N (encipher_block c iv))
    by (destruct (encipher_block c iv); reflexivity).
  reflexivity.
Qed.

(** the counter *)
Lemma increment_rev_spec l : bytes l ->
  increment_rev l = if N.ltb (le_val l + 1) (256 ^ N.of_nat (length l))
                    then Ok (le_bytes (length l) (le_val l + 1)) else Fatal.
Proof.
  induction l as [|b l IH]; intros H; [reflexivity|].
  inversion H as [|? ? Hb Hl]; subst. cbn [increment_rev]. unfold wadd, wrap. change (2 ^ 8)%N with 256%N.
  pose proof (le_val_bound l Hl) as Bd.
  assert (256 ^ N.of_nat (length (b :: l)) = 256 * 256 ^ N.of_nat (length l))%N as Pw.
  { cbn [length]. rewrite Nat2N.inj_succ, N.pow_succ_r'. reflexivity. }
  rewrite Pw. cbn [le_val length le_bytes].
  destruct (N.eqb_spec ((b + 1) mod 256) 0) as [Z|Z].
  - assert (b = 255)%N as ->.
    { destruct (N.lt_ge_cases (b + 1) 256); [rewrite N.mod_small in Z; lia|lia]. }
    rewrite IH by exact Hl.
    replace (255 + 256 * le_val l + 1)%N with ((le_val l + 1) * 256)%N by lia.
    rewrite N.mod_mul, N.div_mul by lia.
    destruct (N.ltb_spec (le_val l + 1) (256 ^ N.of_nat (length l)));
      destruct (N.ltb_spec ((le_val l + 1) * 256) (256 * 256 ^ N.of_nat (length l))); try lia; reflexivity.
  - assert (b + 1 < 256)%N as Hs.
    { destruct (N.lt_ge_cases (b + 1) 256); [auto|]. exfalso. apply Z. replace b with 255%N by lia. reflexivity. }
    rewrite N.mod_small by lia.
    destruct (N.ltb_spec (b + 256 * le_val l + 1) (256 * 256 ^ N.of_nat (length l))); [|lia].
    replace (b + 256 * le_val l + 1)%N with (b + 1 + le_val l * 256)%N by lia.
    rewrite N.mod_add, N.div_add by lia. rewrite N.mod_small, N.div_small by lia.
    rewrite N.add_0_l, le_bytes_le_val by exact Hl. reflexivity.
Qed.

Lemma bytes_rev l : bytes l -> bytes (rev l).
Proof. intros. now apply Forall_rev. Qed.

Lemma increment_spec l : bytes l ->
  IncrementCipherNonce l = if N.ltb (be_val l + 1) (256 ^ N.of_nat (length l))
                           then Ok (be_bytes (length l) (be_val l + 1)) else Fatal.
Proof.
  intros H. unfold IncrementCipherNonce. rewrite increment_rev_spec by now apply bytes_rev.
  rewrite rev_length, be_val_le_val. destruct (N.ltb _ _); reflexivity.
Qed.

Lemma counter_block_0 T : bytes T -> counter_block T 0 = T.
Proof. intros. unfold counter_block. rewrite N.add_0_r. now apply be_bytes_be_val. Qed.

Lemma counter_block_S T j : (be_val T + 1 < 256 ^ N.of_nat (length T))%N ->
  counter_block (be_bytes (length T) (be_val T + 1)) j = counter_block T (S j).
Proof.
  intros H. unfold counter_block. rewrite be_bytes_length, be_val_be_bytes, N.mod_small by exact H.
  f_equal. lia.
Qed.

Lemma be_val_bound l : bytes l -> (be_val l < 256 ^ N.of_nat (length l))%N.
Proof.
  intros. rewrite be_val_le_val, <- (rev_length l). now apply le_val_bound, bytes_rev.
Qed.

Lemma run_ctr c T P : bytes T ->
  run (ctr_step c) T P =
  if N.ltb (be_val T + N.of_nat (length P)) (256 ^ N.of_nat (length T))
  then Ok (CTR_encrypt (encipher_block c) T P) else Fatal.
Proof.
  revert T. induction P as [|p P IH]; intros T HT.
  - cbn [run length]. rewrite N.add_0_r. pose proof (be_val_bound T HT).
    now rewrite (proj2 (N.ltb_lt _ _)).
  - cbn [run]. unfold ctr_step at 1. cbn [length]. rewrite increment_spec by exact HT.
    rewrite Nat2N.inj_succ.
    destruct (N.ltb_spec (be_val T + 1) (256 ^ N.of_nat (length T))) as [L|L]; cbn [bind].
    2:{ destruct (N.ltb_spec (be_val T + N.succ (N.of_nat (length P))) (256 ^ N.of_nat (length T)));
        [lia|reflexivity]. }
    rewrite IH by apply be_bytes_bytes. rewrite be_bytes_length, be_val_be_bytes, N.mod_small by exact L.
    replace (be_val T + N.succ (N.of_nat (length P)))%N with (be_val T + 1 + N.of_nat (length P))%N by lia.
    destruct (N.ltb_spec (be_val T + 1 + N.of_nat (length P)) (256 ^ N.of_nat (length T))); cbn [bind];
      [|reflexivity].
    unfold CTR_encrypt. cbn [length seq map map2]. rewrite counter_block_0 by exact HT.
    do 2 f_equal. f_equal. rewrite seq_map_S. apply map_ext. intros j. now rewrite counter_block_S.
Qed.

(** ** The whole encipher call *)
Definition mode_spec (c : CipherInfo) (P : list (list N)) : list (list N) :=
  let E := encipher_block c in
  let iv := contents (nonce c) in
  match mode c with
  | CBCMode => CBC_encrypt E iv P
  | CTRMode => CTR_encrypt E iv P
  | ECBMode => ECB_encrypt E P
  | OFBMode => OFB_encrypt E iv P
  | CFBMode | UndefinedMode => []
  end.

Definition is_padded (m : CipherMode) : bool :=
  match m with CBCMode | CTRMode | ECBMode | OFBMode => true | _ => false end.

(** the counter does not wrap while [n] bytes are enciphered *)
Definition no_wrap (c : CipherInfo) (n : nat) : Prop :=
  mode c = CTRMode ->
  (be_val (contents (nonce c)) + N.of_nat (n / blocksize c + 1) < 256 ^ N.of_nat (blocksize c))%N.

Lemma chunks_padded_length bs rnd s : (0 < bs)%nat -> wf s ->
  length (chunks bs (padded bs rnd (contents s))) = (slen s / bs + 1)%nat /\
  Forall (fun b => length b = bs) (chunks bs (padded bs rnd (contents s))) /\
  (bytes (padded bs rnd (contents s)) -> Forall bytes (chunks bs (padded bs rnd (contents s)))).
Proof.
  intros Hb W. apply chunks_blocks; [auto|]. rewrite padded_length, contents_length by auto.
  now apply pad_total.
Qed.

Lemma encipher_spec c rnd s : good_cipher c -> wf s -> is_padded (mode c) = true ->
  (no_wrap c (slen s) ->
   EncipherCipher c rnd s =
   Ok (mkSI (concat (mode_spec c (chunks (blocksize c) (padded (blocksize c) rnd (contents s))))
             ++ tail_of (blocksize c) s) (slen s))) /\
  (~ no_wrap c (slen s) -> EncipherCipher c rnd s = Fatal).
Proof.
  intros G W M. pose proof (gc_pos c G) as B0. pose proof (gc_max c G) as B1.
  unfold MaxCipherBlocksize in B1.
  assert (mode c <> CTRMode -> no_wrap c (slen s)) as NC by (unfold no_wrap; tauto).
  unfold EncipherCipher, mode_spec. destruct (mode c) eqn:Em; try discriminate M;
    rewrite ?nonce_block_ok by exact G; cbn [bind]; rewrite encipher_padded_spec by (auto; lia).
  - rewrite run_cbc. split; [reflexivity|]. intros H; exfalso; apply H, NC; discriminate.
  - rewrite run_ctr by apply (nonce_is_block c G). rewrite (proj2 (nonce_is_block c G)).
    destruct (chunks_padded_length (blocksize c) rnd s B0 W) as (-> & _).
    unfold no_wrap. rewrite Em. split; intros H.
    + specialize (H eq_refl). apply N.ltb_lt in H. rewrite H. reflexivity.
    + destruct (N.ltb_spec (be_val (contents (nonce c)) + N.of_nat (slen s / blocksize c + 1))
        (256 ^ N.of_nat (blocksize c))); [tauto|reflexivity].
  - rewrite run_ecb. split; [reflexivity|]. intros H; exfalso; apply H, NC; discriminate.
  - rewrite run_ofb. split; [reflexivity|]. intros H; exfalso; apply H, NC; discriminate.
Qed.

Lemma encipher_cfb_spec c rnd s : good_cipher c -> wf s -> mode c = CFBMode ->
  EncipherCipher c rnd s =
  Ok (mkSI (CFB8_encrypt (encipher_block c) (contents (nonce c)) (contents s)
            ++ skipn (slen s) (datum s)) (slen s)).
Proof.
  intros G W M. unfold EncipherCipher. rewrite M. rewrite nonce_block_ok by exact G. cbn [bind].
  rewrite cfb_loop by exact W. rewrite run_cfb. cbn [bind]. now rewrite singletons_concat.
Qed.

(** ** Deciphering *)
Lemma xor_block bs a b : block_of bs a -> block_of bs b -> block_of bs (xor_list a b).
Proof. intros [? ?] [? ?]. split; [now apply bytes_xor_list|]. rewrite xor_list_length; congruence. Qed.

Lemma cbc_inverse c : good_cipher c -> forall s b s' x,
  block_of (blocksize c) s -> block_of (blocksize c) b ->
  cbc_encipher_step c s b = Ok (s', x) ->
  cbc_decipher_step c s x = Ok (s', b) /\ block_of (blocksize c) s'.
Proof.
  intros G s b s' x Hs Hb E. injection E as <- <-. unfold cbc_decipher_step.
  rewrite (gc_inv c G) by now apply xor_block.
  rewrite xor_list_cancel by (destruct Hs, Hb; congruence). split; [reflexivity|].
  apply (gc_enc c G). now apply xor_block.
Qed.
Lemma ecb_inverse c : good_cipher c -> forall s b s' x,
  True -> block_of (blocksize c) b ->
  ecb_encipher_step c s b = Ok (s', x) ->
  ecb_decipher_step c s x = Ok (s', b) /\ True.
Proof.
  intros G s b s' x Hs Hb E. injection E as <- <-. unfold ecb_decipher_step.
  now rewrite (gc_inv c G).
Qed.
Lemma ofb_inverse c : good_cipher c -> forall s b s' x,
  block_of (blocksize c) s -> block_of (blocksize c) b ->
  ofb_step c s b = Ok (s', x) -> ofb_step c s x = Ok (s', b) /\ block_of (blocksize c) s'.
Proof.
  intros G s b s' x Hs Hb E. injection E as <- <-. unfold ofb_step.
  pose proof (gc_enc c G s Hs) as He.
  rewrite xor_list_cancel by (destruct He, Hb; congruence). auto.
Qed.
Lemma ctr_inverse c : good_cipher c -> forall s b s' x,
  block_of (blocksize c) s -> block_of (blocksize c) b ->
  ctr_step c s b = Ok (s', x) -> ctr_step c s x = Ok (s', b) /\ block_of (blocksize c) s'.
Proof.
  intros G s b s' x Hs Hb E. unfold ctr_step in *. rewrite increment_spec in * by apply Hs.
  destruct (N.ltb _ _) eqn:L; [|discriminate]. cbn [bind] in *. injection E as <- <-.
  pose proof (gc_enc c G s Hs) as He.
  rewrite xor_list_cancel by (destruct He, Hb; congruence). split; [reflexivity|].
  split; [apply be_bytes_bytes|]. rewrite be_bytes_length. apply Hs.
Qed.
Lemma cfb_inverse c : forall s b s' x,
  True -> (exists y, b = [y]) ->
  cfb_encipher_step c s b = Ok (s', x) -> cfb_decipher_step c s x = Ok (s', b) /\ True.
Proof.
  intros s b s' x _ [y ->] E. injection E as <- <-. unfold cfb_decipher_step. cbn [get nth].
  split; [|exact I]. do 3 f_equal. apply lxor_cancel_r.
Qed.

Lemma decipher_whole_inverse c enc dec (Inv : list N -> Prop) iv rnd s s' :
  good_cipher c -> wf s -> bytes (contents s) -> (forall i, rnd i < 256)%N ->
  (forall s b s' x, Inv s -> block_of (blocksize c) b -> enc s b = Ok (s', x) ->
     dec s x = Ok (s', b) /\ Inv s') ->
  (forall s b s' x, Inv s -> block_of (blocksize c) b -> enc s b = Ok (s', x) -> length x = blocksize c) ->
  Inv iv ->
  encipher_padded c rnd enc iv s = Ok s' ->
  exists s'', decipher_whole c dec iv s' = Ok s'' /\ slen s'' = slen s /\ contents s'' = contents s.
Proof.
  intros G W Hb Hr H HL Hiv E. pose proof (gc_pos c G) as B0. pose proof (gc_max c G) as B1.
  unfold MaxCipherBlocksize in B1.
  rewrite encipher_padded_spec in E by (auto; lia).
  set (P := padded (blocksize c) rnd (contents s)) in *.
  destruct (chunks_padded_length (blocksize c) rnd s B0 W) as (L & F & FB). fold P in L, F, FB.
  assert (Forall (block_of (blocksize c)) (chunks (blocksize c) P)) as FBk.
  { assert (Forall bytes (chunks (blocksize c) P)) as FB' by (apply FB, padded_bytes; auto; lia).
    rewrite Forall_forall in *. intros x Hx. split; auto. }
  destruct (run enc iv (chunks (blocksize c) P)) as [C| |] eqn:R; try discriminate.
  injection E as <-.
  set (m := iterations (blocksize c) (slen s)).
  destruct (iterations_bounds (blocksize c) B0 (slen s)) as [Bm1 Bm2]. fold m in Bm1, Bm2.
  destruct (run_inverse enc dec Inv (block_of (blocksize c)) H _ _ _ m Hiv FBk R) as [R' LC].
  assert (Forall (fun b => length b = blocksize c) C) as FC.
  { clear -H HL Hiv FBk R. revert iv C Hiv R. induction FBk as [|p P' Hp HP IH]; intros iv C Hiv R.
    - injection R as <-. constructor.
    - cbn [run] in R. destruct (enc iv p) as [[s1 x]| |] eqn:E; try discriminate. cbn [bind] in R.
      destruct (run enc s1 P') as [C'| |] eqn:E2; try discriminate. injection R as <-.
      constructor; [eapply HL; eauto|]. eapply IH; [|eauto]. eapply H; eauto. }
  unfold decipher_whole. cbn [slen datum]. fold m.
  replace (concat C) with (concat (firstn m C) ++ concat (skipn m C))
    by (rewrite <- concat_app, firstn_skipn; reflexivity).
  rewrite <- app_assoc.
  assert (length (firstn m C) = m) as Lm by (rewrite firstn_length; lia).
  assert (Forall (fun b => length b = blocksize c) (firstn m C)) as FCm.
  { rewrite <- (firstn_skipn m C) in FC. now apply Forall_app in FC. }
  pose proof (block_loop_run (blocksize c) dec (firstn m C) iv
    (concat (skipn m C) ++ tail_of (blocksize c) s) FCm) as BL.
  rewrite Lm in BL. rewrite BL.
  rewrite R'. cbn [bind]. eexists. split; [reflexivity|]. split; [reflexivity|].
  unfold contents at 1. cbn [slen datum].
  assert (slen s <= length (concat (firstn m (chunks (blocksize c) P))))%nat as Lc.
  { assert (forall Q : list (list N), Forall (fun b => length b = blocksize c) Q ->
      length (concat Q) = (blocksize c * length Q)%nat) as G1.
    { induction 1 as [|q Q Hq HQ IH]; cbn [concat length]; [lia|]. rewrite app_length. lia. }
    rewrite G1.
    - rewrite firstn_length, L. nia.
    - rewrite <- (firstn_skipn m (chunks (blocksize c) P)) in F. now apply Forall_app in F. }
  rewrite firstn_app. replace (slen s - _)%nat with 0%nat by lia. cbn [firstn]. rewrite app_nil_r.
  assert (firstn (slen s) (concat (firstn m (chunks (blocksize c) P))) = firstn (slen s) P) as ->.
  { rewrite <- (concat_chunks (blocksize c) P) at 2 by lia.
    rewrite <- (firstn_skipn m (chunks (blocksize c) P)) at 2. rewrite concat_app, firstn_app.
    replace (slen s - _)%nat with 0%nat by lia. cbn [firstn]. now rewrite app_nil_r. }
  subst P. unfold padded. apply firstn_app_exact. now apply contents_length.
Qed.

Lemma CFB8_length E l : forall iv, length (CFB8_encrypt E iv l) = length l.
Proof. induction l; intros; cbn [CFB8_encrypt length]; [reflexivity|]. f_equal. apply IHl. Qed.

Theorem cipher_round_trip c rnd s s' :
  good_cipher c -> wf s -> bytes (contents s) -> (forall i, rnd i < 256)%N ->
  EncipherCipher c rnd s = Ok s' ->
  exists s'', DecipherCipher c s' = Ok s'' /\ slen s'' = slen s /\ contents s'' = contents s.
Proof.
  intros G W Hb Hr E. unfold EncipherCipher, DecipherCipher in *.
  pose proof (nonce_is_block c G) as Nb.
  assert (forall b, block_of (blocksize c) b -> length (encipher_block c b) = blocksize c) as EL
    by (intros; now apply (gc_enc c G)).
  destruct (mode c); try discriminate; rewrite ?nonce_block_ok in * by exact G; cbn [bind] in *.
  - eapply (decipher_whole_inverse c _ _ (block_of (blocksize c))); eauto using cbc_inverse.
    intros s1 b1 s2 x1 H1 H2 E1. injection E1 as <- <-. apply EL, xor_block; auto.
  - rewrite cfb_loop in E by exact W. rewrite run_cfb in E. cbn [bind] in E. injection E as <-.
    rewrite singletons_concat.
    set (C := CFB8_encrypt (encipher_block c) (contents (nonce c)) (contents s)).
    assert (length C = slen s) as LC.
    { subst C. rewrite CFB8_length. now apply contents_length. }
    set (s' := mkSI (C ++ skipn (slen s) (datum s)) (slen s)).
    assert (wf s') as W'.
    { subst s'. unfold wf in *; cbn [slen datum]. rewrite app_length, skipn_length. lia. }
    assert (contents s' = C) as C' by (subst s'; unfold contents; cbn [slen datum]; now apply firstn_app_exact).
    change (slen s) with (slen s') at 1. change (C ++ skipn (slen s) (datum s)) with (datum s').
    rewrite cfb_loop by exact W'. rewrite C'.
    destruct (run_inverse (cfb_encipher_step c) (cfb_decipher_step c) (fun _ => True)
      (fun b => exists y, b = [y]) (cfb_inverse c) (map (fun x => [x]) (contents s))
      (contents (nonce c)) (map (fun x => [x]) C) (slen s)) as [R _]; auto.
    { apply Forall_forall. intros x Hx. apply in_map_iff in Hx as (y & <- & _). eauto. }
    { subst C. apply run_cfb. }
    rewrite firstn_all2 in R by (rewrite map_length; lia). rewrite R. cbn [bind].
    eexists. split; [reflexivity|]. split; [reflexivity|]. unfold contents at 1. cbn [slen datum].
    rewrite (firstn_all2 (n := slen s) (map (fun x => [x]) (contents s)))
      by (rewrite map_length, contents_length by exact W; lia).
    rewrite singletons_concat. change (slen s') with (slen s). apply firstn_app_exact.
    now apply contents_length.
  - eapply (decipher_whole_inverse c _ _ (block_of (blocksize c))); eauto using ctr_inverse.
    intros s1 b1 s2 x1 H1 H2 E1. destruct (ctr_inverse c G s1 b1 s2 x1 H1 H2 E1) as [E2 _].
    unfold ctr_step in E2. destruct (IncrementCipherNonce s1); try discriminate. cbn [bind] in E2.
    unfold ctr_step in E1. destruct (IncrementCipherNonce s1); try discriminate. cbn [bind] in E1.
    injection E1 as <- <-. rewrite xor_list_length; [apply H2|]. rewrite EL by exact H1. apply H2.
  - eapply (decipher_whole_inverse c _ _ (fun _ => True)); eauto using ecb_inverse.
    intros s1 b1 s2 x1 H1 H2 E1. injection E1 as <- <-. now apply EL.
  - eapply (decipher_whole_inverse c _ _ (block_of (blocksize c))); eauto using ofb_inverse.
    intros s1 b1 s2 x1 H1 H2 E1. injection E1 as <- <-. rewrite xor_list_length; [apply H2|].
    rewrite EL by exact H1. apply H2.
Qed.
