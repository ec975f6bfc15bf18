(** C47, C54: hexadecimal strings, stripping and substitution. *)
From Coq Require Import NArith ZArith Arith List Bool Lia.
From Coq Require Import ZifyBool ZifyNat ZifyN.
From Verif Require Import Base BaseLemmas Outcome StringInfoModel StringInfoProof CStringModel CStringSpec CStringProps.
Import ListNotations.
Ltac Zify.zify_post_hook ::= Z.div_mod_to_equations.

(** ** C47 *)
Lemma to_hex_digit v : (v < 16)%N -> to_hex v = hex_digit v.
Proof.
  intros V. assert (H : forallb (fun v => (to_hex v =? hex_digit v)%N) (map N.of_nat (seq 0 16)) = true) by (vm_compute; reflexivity).
  apply (sweep _ _ v) in H; [cbv beta in H; lia|]. cbn. lia.
Qed.
Lemma hex_string_eq s : bytes s -> hex_string s = hex_of s ++ [0%N].
Proof.
  induction s as [|c s IH]; intros B; [reflexivity|]. inversion B as [|x y C B']; subst. cbn [hex_string hex_of flat_map app].
  rewrite IH by assumption.
  assert (H : N.land (N.shiftr c 4) 15 = (c / 16)%N /\ N.land c 15 = (c mod 16)%N).
  { change 15%N with (N.ones 4). rewrite !N.land_ones, N.shiftr_div_pow2. change (2 ^ 4)%N with 16%N. split; [|reflexivity]. apply N.mod_small. lia. }
  destruct H as (-> & ->). rewrite !to_hex_digit by lia. reflexivity.
Qed.
Lemma from_to_hex v : (v < 16)%N -> from_hex (hex_digit v) = v.
Proof.
  intros V. assert (H : forallb (fun v => (from_hex (hex_digit v) =? v)%N) (map N.of_nat (seq 0 16)) = true) by (vm_compute; reflexivity).
  apply (sweep _ _ v) in H; [cbv beta in H; lia|]. cbn. lia.
Qed.
Lemma nibbles a b : (a < 16)%N -> (b < 16)%N -> N.lor (wshl 8 a 4) b = (16 * a + b)%N.
Proof.
  intros A B. assert (H : forallb (fun a => forallb (fun b => (N.lor (wshl 8 a 4) b =? 16 * a + b)%N) (map N.of_nat (seq 0 16))) (map N.of_nat (seq 0 16)) = true)
    by (vm_compute; reflexivity).
  apply (sweep _ _ a) in H; [|cbn; lia]. cbv beta in H. apply (sweep _ _ b) in H; [cbv beta in H; lia|cbn; lia].
Qed.
Lemma hex_bytes_eq r s : bytes s -> hex_bytes (length s) (hex_of s ++ r) = Ok s.
Proof.
  induction s as [|c s IH]; intros B; [reflexivity|]. inversion B as [|x y C B']; subst. cbn [hex_of flat_map app length hex_bytes].
  change (flat_map (fun c => [hex_digit (c / 16); hex_digit (c mod 16)]) s) with (hex_of s). rewrite IH by assumption. cbn [bind].
  rewrite !from_to_hex, nibbles by lia. do 2 f_equal. lia.
Qed.
Lemma hex_of_text s : bytes s -> text (hex_of s).
Proof.
  induction s as [|c s IH]; intros B; [constructor|]. inversion B as [|x y C B']; subst. cbn [hex_of flat_map app].
  assert (H : forall v, (v < 16)%N -> (0 < hex_digit v < 256)%N) by (intros v V; unfold hex_digit; destruct (v <? 10)%N; lia).
  constructor; [apply H; lia|]. constructor; [apply H; lia|]. now apply IH.
Qed.
Lemma hex_of_length s : length (hex_of s) = 2 * length s.
Proof. induction s as [|c s IH]; [reflexivity|]. cbn [hex_of flat_map app length]. fold (hex_of s). lia. Qed.
Lemma hex_info_of_text s r : text s ->
  HexStringToStringInfo (s ++ 0%N :: r) = let* x := hex_bytes (length s / 2) (s ++ 0%N :: r) in
     let* d := mem_write (datum (AcquireStringInfo (length s / 2))) 0 x in Ok (mkSI d (length s / 2)).
Proof. intros T. unfold HexStringToStringInfo. rewrite strlen_text by assumption. reflexivity. Qed.

(** C47: the string is the RFC 4648 encoding, and decoding gives the bytes back *)
Theorem hex_round_trip : forall s, wf s -> bytes (contents s) ->
  StringInfoToHexString s = Ok (hex_of (contents s) ++ [0%N]) /\
  forall rest, exists t, HexStringToStringInfo (hex_of (contents s) ++ 0%N :: rest) = Ok t /\ wf t /\ contents t = contents s.
Proof.
  intros s W B. assert (L := contents_length s W). unfold wf in W. split.
  - unfold StringInfoToHexString, mem_read. replace (0 + slen s <=? length (datum s)) with true by (symmetry; apply Nat.leb_le; lia).
    cbn [bind]. unfold slice. cbn [skipn]. change (firstn (slen s) (datum s)) with (contents s). now rewrite hex_string_eq.
  - intros r. set (x := contents s) in *. clearbody x. rewrite hex_info_of_text by now apply hex_of_text. rewrite hex_of_length, Nat.mul_comm, Nat.div_mul by lia.
    rewrite hex_bytes_eq by assumption. cbn [bind AcquireStringInfo datum].
    rewrite repeat_app. pose proof (write_app [] (repeat 0%N (length x)) x (repeat 0%N MaxCipherBlocksize)) as E.
    cbn [app length] in E. rewrite E by now rewrite repeat_length. cbn [bind]. eexists. split; [reflexivity|]. unfold wf, contents. cbn [slen datum].
    split; [rewrite app_length, repeat_length; lia|]. now rewrite firstn_app, Nat.sub_diag, firstn_all, app_nil_r.
Qed.
Print Assumptions hex_round_trip.
Example hex_round_trip_ex :
  StringInfoToHexString (BlobToStringInfo [222; 173; 9]%N) = Ok [100; 101; 97; 100; 48; 57; 0]%N /\
  wf (BlobToStringInfo [222; 173; 9]%N) /\ bytes (contents (BlobToStringInfo [222; 173; 9]%N)).
Proof.
  split; [reflexivity|]. split; [unfold wf, BlobToStringInfo; cbn [slen datum]; rewrite app_length, repeat_length; unfold MaxCipherBlocksize, WizardPathExtent; lia|].
  repeat constructor.
Qed.

Lemma from_hex_case c d : lower c = lower d -> from_hex c = from_hex d.
Proof.
  unfold lower, from_hex. intros E.
  destruct ((65 <=? c) && (c <=? 90))%N eqn:A, ((65 <=? d) && (d <=? 90))%N eqn:B,
    ((48 <=? c) && (c <=? 57))%N eqn:C1, ((48 <=? d) && (d <=? 57))%N eqn:D1, ((97 <=? c) && (c <=? 102))%N eqn:C2, ((97 <=? d) && (d <=? 102))%N eqn:D2,
    ((65 <=? c) && (c <=? 70))%N eqn:C3, ((65 <=? d) && (d <=? 70))%N eqn:D3; lia.
Qed.
(** C47: letter case makes no difference, to any text *)
Theorem hex_case : forall s t r, text s -> text t -> map lower s = map lower t ->
  HexStringToStringInfo (s ++ 0%N :: r) = HexStringToStringInfo (t ++ 0%N :: r).
Proof.
  intros s t r S T E. assert (L : length s = length t) by (rewrite <- (map_length lower s), E; apply map_length).
  assert (H : forall k s t, k <= length s / 2 -> map lower s = map lower t -> hex_bytes k (s ++ 0%N :: r) = hex_bytes k (t ++ 0%N :: r)).
  { clear. intros k s. revert s. assert (F : forall c d, lower c = lower d -> from_hex c = from_hex d) by exact from_hex_case.
    induction k as [|k IH]; intros s t K E; [reflexivity|].
    destruct s as [|c [|d s]]; [cbn in K; lia|cbn in K; lia|]. destruct t as [|c' [|d' t]]; [discriminate|discriminate|].
    cbn [map] in E. injection E as E1 E2 E3. cbn [app hex_bytes]. rewrite (F _ _ E1), (F _ _ E2). rewrite (IH s t); [reflexivity| |exact E3].
    cbn [length] in K. change (S (S (length s))) with (2 + length s) in K. lia. }
  rewrite !hex_info_of_text, L by assumption. rewrite (H (length t / 2) s t) by (try exact E; lia). reflexivity.
Qed.
Print Assumptions hex_case.

(** ** C54: StripString *)
Lemma space_eq c : isspace c = space c.
Proof. unfold isspace, space. cbn [existsb]. lia. Qed.
Lemma quote_eq c : isquote c = quote c.
Proof. unfold isquote, quote. cbn [existsb]. lia. Qed.
Lemma ltrim_split s : exists lead, s = lead ++ ltrim s /\ Forall (fun c => space c = true) lead /\
  match ltrim s with [] => True | c :: _ => space c = false end.
Proof.
  induction s as [|c s (lead & E & F & H)]; [exists []; repeat split; constructor|]. cbn [ltrim]. destruct (space c) eqn:S.
  - exists (c :: lead). split; [cbn; now rewrite <- E|]. split; [now constructor|exact H].
  - exists []. repeat split; [constructor|exact S].
Qed.
Lemma rtrim_split s : exists trail, s = rtrim s ++ trail /\ Forall (fun c => space c = true) trail /\
  (rtrim s = [] \/ exists t c, rtrim s = t ++ [c] /\ space c = false).
Proof.
  destruct (ltrim_split (rev s)) as (lead & E & F & H). exists (rev lead). unfold rtrim. split; [|split].
  - rewrite <- rev_app_distr, <- E. now rewrite rev_involutive.
  - now apply Forall_rev.
  - destruct (ltrim (rev s)) as [|c t]; [now left|]. right. exists (rev t), c. split; [reflexivity|exact H].
Qed.
Lemma skip_spaces_ok r c lead : space c = false -> forall s0 fuel, Forall (fun c => space c = true) lead -> length lead < fuel ->
  skip_spaces fuel (length s0) (s0 ++ lead ++ c :: r) = Ok (length s0 + length lead).
Proof.
  intros S. induction lead as [|x lead IH]; intros s0 fuel F L; (destruct fuel as [|fuel]; [cbn in L; lia|]); cbn [skip_spaces app].
  - rewrite rd_app. cbn [bind]. rewrite space_eq, S, Nat.add_0_r. reflexivity.
  - inversion F as [|? ? X F']; subst. rewrite rd_app. cbn [bind]. rewrite space_eq, X. specialize (IH (s0 ++ [x]) fuel F').
    rewrite <- app_assoc, app_length in IH. cbn [app length] in IH, L. rewrite Nat.add_1_r in IH. rewrite IH by lia. f_equal. cbn [length]. lia.
Qed.
Lemma back_spaces_ok p s c r : space c = false -> p <= length s -> forall trail fuel, Forall (fun c => space c = true) trail -> length trail <= fuel ->
  back_spaces fuel p (length s + length trail) (s ++ c :: trail ++ r) = Ok (length s).
Proof.
  intros S P trail. revert r. induction trail as [|x trail IH] using rev_ind; intros r fuel F L.
  - cbn [length app]. rewrite Nat.add_0_r. destruct fuel; [reflexivity|]. cbn [back_spaces]. rewrite rd_app. cbn [bind]. now rewrite space_eq, S.
  - apply Forall_app in F as (F & X). inversion X as [|? ? X' _]; subst. rewrite app_length in *. cbn [length] in *.
    destruct fuel as [|fuel]; [lia|]. cbn [back_spaces].
    assert (R : rd (s ++ c :: (trail ++ [x]) ++ r) (length s + (length trail + 1)) = Ok x).
    { replace (s ++ c :: (trail ++ [x]) ++ r) with ((s ++ c :: trail) ++ x :: r) by (rewrite <- !app_assoc; reflexivity).
      replace (length s + (length trail + 1)) with (length (s ++ c :: trail)) by (rewrite app_length; cbn [length]; lia). apply rd_app. }
    rewrite R. cbn [bind]. rewrite space_eq, X'. destruct (Nat.ltb_spec p (length s + (length trail + 1))); [|lia]. cbn [andb].
    replace (length s + (length trail + 1) - 1) with (length s + length trail) by lia. rewrite <- app_assoc. apply IH; [assumption|lia].
Qed.
Lemma newlines_ok s r : text s -> newlines (s ++ 0%N :: r) = map (fun c => if (c =? 10)%N then 32%N else c) s ++ 0%N :: r.
Proof.
  induction s as [|c s IH]; intros T; [reflexivity|]. apply text_cons in T as (C & T). cbn [app newlines map].
  destruct (N.eqb_spec c 0); [lia|]. now rewrite IH.
Qed.
(** the end of StripString: [x] moves to the front *)
Lemma strip_end lead x trail r : text x -> 0 < length lead + length x + length trail ->
  exists r', (let* y := mem_read (lead ++ x ++ trail ++ 0%N :: r) (length lead) (length x) in
    let* m := mem_write (lead ++ x ++ trail ++ 0%N :: r) 0 y in
    let* m := mem_write m (length x) [0%N] in Ok (newlines m)) = Ok (map (fun c => if (c =? 10)%N then 32%N else c) x ++ 0%N :: r').
Proof.
  intros T L. unfold mem_read. rewrite !app_length. cbn [length]. destruct (Nat.leb_spec (length lead + length x) (length lead + (length x + (length trail + S (length r))))); [|lia].
  cbn [bind]. unfold slice. rewrite skipn_app, skipn_all, Nat.sub_diag. cbn [app skipn]. rewrite firstn_app, firstn_all, Nat.sub_diag, app_nil_r.
  set (m := lead ++ x ++ trail ++ 0%N :: r).
  assert (LM : length x < length m) by (unfold m; rewrite !app_length; cbn [length]; lia).
  assert (E : m = firstn (length x) m ++ skipn (length x) m) by now rewrite firstn_skipn.
  destruct (skipn (length x) m) as [|z d] eqn:D.
  { assert (Z : length (skipn (length x) m) = 0) by now rewrite D. rewrite skipn_length in Z. lia. }
  rewrite E. pose proof (write_app [] (firstn (length x) m) x (z :: d)) as W. cbn [app length] in W. rewrite W by (rewrite firstn_length; lia).
  cbn [bind]. rewrite write_cons. cbn [bind]. rewrite newlines_ok by assumption. eexists. reflexivity.
Qed.
Lemma rquote_snoc t c : rquote (t ++ [c]) = if quote c then t else t ++ [c].
Proof. unfold rquote. rewrite rev_app_distr. cbn [rev app lquote]. destruct (quote c); [apply rev_involutive|]. cbn [rev]. now rewrite rev_involutive. Qed.
Lemma zero_not_quote : isquote 0 = false. Proof. reflexivity. Qed.

(** the texts StripString strips: after the leading white space and quote there is
    nothing, or something other than white space and a final quote *)
Definition strippable (s : list N) : Prop :=
  lquote (ltrim s) = [] \/ rtrim (lquote (ltrim s)) <> [] /\ forall c, rtrim (lquote (ltrim s)) = [c] -> quote c = false.

Theorem strip_string_partial : forall s r, text s -> strippable s ->
  exists r', StripString (s ++ 0%N :: r) = Ok (strip s ++ 0%N :: r').
Proof.
  intros s r T OK. destruct s as [|c0 s0]; [exists r; reflexivity|]. remember (c0 :: s0) as s eqn:HS.
  assert (NE : 0 < length s) by (subst s; cbn; lia). unfold StripString.
  replace (rd (s ++ 0%N :: r) 0) with (Ok c0) by (subst s; reflexivity). cbn [bind].
  assert (C0 : c0 <> 0%N) by (subst s; apply text_cons in T; lia). destruct (N.eqb_spec c0 0); [contradiction|].
  rewrite strlen_text by assumption. cbn [bind]. clear c0 s0 HS C0 n.
  destruct (ltrim_split s) as (lead & E & F & H). unfold strippable, strip in *. set (a := ltrim s) in *. clearbody a. subst s.
  rewrite app_length in *. apply text_app in T as (TL & TA). rewrite <- app_assoc.
  destruct a as [|c a].
  - cbn [app length Nat.add] in *. rewrite Nat.add_0_r in *.
    pose proof (skip_spaces_ok r 0%N lead eq_refl [] (S (length lead)) F ltac:(lia)) as SK. cbn [length app Nat.add] in SK.
    rewrite SK. cbn [bind]. rewrite rd_app. cbn [bind]. rewrite zero_not_quote. 
    destruct (exists_last (l := lead)) as (l' & z & ->); [intros ->; cbn in NE; lia|]. rewrite app_length in *. cbn [length] in *.
    replace (length l' + 1) with (S (length l')) in * by lia. replace (S (length l') - 1) with (length l') by lia. cbn [back_spaces].
    rewrite <- app_assoc. cbn [app]. rewrite rd_app. cbn [bind].
    destruct (Nat.ltb_spec (S (length l')) (length l')); [lia|]. rewrite andb_false_r. cbn [bind]. rewrite rd_app. cbn [bind].
    destruct (Nat.ltb_spec (S (length l')) (length l')); [lia|]. rewrite Nat.sub_diag.
    destruct (strip_end (l' ++ [z]) [] [] r ltac:(constructor)) as (r' & R); [rewrite app_length; cbn; lia|].
    exists r'. rewrite app_length, <- !app_assoc in R. cbn [length app] in R. rewrite Nat.add_1_r in R. exact R.
  - pose proof (skip_spaces_ok (a ++ 0%N :: r) c lead H [] (S (length lead + length (c :: a))) F ltac:(lia)) as SK. cbn [length app Nat.add] in SK.
    cbn [app length]. rewrite SK. clear SK. cbn [bind]. rewrite rd_app. cbn [bind]. rewrite quote_eq.
    assert (B : exists lead2, lead ++ c :: a = lead2 ++ lquote (c :: a) /\ length lead2 = (if quote c then S (length lead) else length lead) /\ (lquote (c :: a) = [] -> quote c = true)).
    { cbn [lquote]. destruct (quote c); [exists (lead ++ [c])|exists lead].
      - split; [now rewrite <- app_assoc|]. split; [rewrite app_length; cbn; lia|reflexivity].
      - split; [reflexivity|]. split; [reflexivity|discriminate]. }
    destruct B as (lead2 & E2 & L2 & B2). rewrite <- L2.
    replace (lead ++ c :: a ++ 0%N :: r) with ((lead ++ c :: a) ++ 0%N :: r) by now rewrite <- app_assoc.
    assert (LL : length lead + S (length a) = length lead2 + length (lquote (c :: a))) by (rewrite <- app_length, <- E2, app_length; reflexivity).
    rewrite LL. assert (TB : text (lquote (c :: a))) by (cbn [lquote]; destruct (quote c); [now apply text_cons in TA|exact TA]).
    destruct (lquote (c :: a)) as [|b0 b'] eqn:BE.
    + (* a quote alone *)
      assert (Q := B2 eq_refl). assert (A : a = []) by (cbn [lquote] in BE; rewrite Q in BE; exact BE). subst a. rewrite Q in L2.
      cbn [length app] in *. rewrite Nat.add_0_r. rewrite L2. replace (S (length lead) - 1) with (length lead) by lia.
      rewrite <- app_assoc. cbn [app back_spaces]. rewrite rd_app. cbn [bind]. rewrite space_eq, H. cbn [andb bind]. rewrite rd_app. cbn [bind].
      destruct (Nat.ltb_spec (S (length lead)) (length lead)); [lia|]. rewrite Nat.sub_diag.
      destruct (strip_end (lead ++ [c]) [] [] r ltac:(constructor)) as (r' & R); [rewrite app_length; cbn; lia|].
      exists r'. rewrite app_length, <- !app_assoc in R. cbn [length app] in R. rewrite Nat.add_1_r in R. exact R.
    + destruct OK as [OK|(OK1 & OK2)]; [discriminate|]. rewrite E2. clear E2 B2 BE NE H TL TA F L2 LL c a lead.
      set (b := b0 :: b') in *. clearbody b. clear b0 b'.
      destruct (rtrim_split b) as (trail & E & F & [H|(t & z & RT & Z)]); [contradiction|]. rewrite RT in *. clear OK1.
      assert (LB : length b = length t + 1 + length trail) by (rewrite E, !app_length; reflexivity).
      pose proof (back_spaces_ok (length lead2) (lead2 ++ t) z (0%N :: r) Z ltac:(rewrite app_length; lia) trail (length lead2 + length b) F ltac:(lia)) as BS.
      assert (BB : (lead2 ++ b) ++ 0%N :: r = (lead2 ++ t) ++ z :: trail ++ 0%N :: r).
      { rewrite E, <- !app_assoc. cbn [app]. reflexivity. }
      rewrite BB. rewrite app_length in BS.
      replace (length lead2 + length b - 1) with (length lead2 + length t + length trail) by lia. rewrite BS. cbn [bind].
      assert (RD : rd ((lead2 ++ t) ++ z :: trail ++ 0%N :: r) (length lead2 + length t) = Ok z) by (rewrite <- app_length; apply rd_app).
      rewrite RD. cbn [bind]. rewrite quote_eq.
      rewrite rquote_snoc. assert (TT : text (t ++ [z])) by (rewrite E in TB; now apply text_app in TB).
      destruct t as [|t0 t'].
      * rewrite (OK2 z eq_refl). cbn [length app]. rewrite Nat.add_0_r, app_nil_r. destruct (Nat.ltb_spec (length lead2) (length lead2)); [lia|].
        replace (S (length lead2) - length lead2) with 1 by lia.
        exact (strip_end lead2 [z] trail r TT ltac:(cbn; lia)).
      * remember (t0 :: t') as t eqn:HT. assert (LT : 0 < length t) by (subst t; cbn; lia). clear t0 t' HT.
        destruct (Nat.ltb_spec (length lead2) (length lead2 + length t)); [|lia]. destruct (quote z).
        -- replace (S (length lead2 + length t - 1) - length lead2) with (length t) by lia.
           destruct (strip_end lead2 t (z :: trail) r ltac:(now apply text_app in TT) ltac:(lia)) as (r' & R). exists r'.
           cbn [app] in R. rewrite <- app_assoc. exact R.
        -- replace (S (length lead2 + length t) - length lead2) with (length (t ++ [z])) by (rewrite app_length; cbn [length]; lia).
           destruct (strip_end lead2 (t ++ [z]) trail r TT ltac:(rewrite app_length; lia)) as (r' & R). exists r'.
           rewrite <- ?app_assoc in R. cbn [app] in R. rewrite <- app_assoc. exact R.
Qed.
Print Assumptions strip_string_partial.
(** a quoted text between white space *)
Example strip_string_ex :
  StripString [32; 34; 97; 10; 98; 34; 9; 0]%N = Ok [97; 32; 98; 0; 98; 34; 9; 0]%N /\ strippable [32; 34; 97; 10; 98; 34; 9]%N.
Proof. split; [reflexivity|]. right. split; [discriminate|]. discriminate. Qed.

(** C54 fails: two quotes with nothing between them leave one, a quote and white
    space leave white space *)
Theorem strip_string_refuted :
  (exists s, strip s = [] /\ StripString (s ++ [0]) = Ok [39; 0; 0])%N /\
  (exists s, strip s = [] /\ StripString (s ++ [0]) = Ok [32; 0; 32; 0])%N.
Proof. split; [exists [39; 39]%N|exists [39; 32; 32]%N]; split; reflexivity. Qed.

(** ** C54: SubstituteString *)
Lemma strchr_some c : forall s p i, (0 < c)%N -> strchr s p c = Some i ->
  exists pre post, s = pre ++ c :: post /\ i = p + length pre /\ Forall (fun x => x <> c) pre.
Proof.
  induction s as [|x s IH]; intros p i C H; cbn [strchr] in H.
  - destruct (N.eqb_spec c 0); [lia|discriminate].
  - destruct (N.eqb_spec x c) as [->|N].
    + injection H as <-. exists [], s. repeat split; [cbn; lia|constructor].
    + apply IH in H as (pre & post & -> & -> & F); [|assumption]. exists (x :: pre), post. repeat split; [cbn; lia|now constructor].
Qed.
Lemma strchr_none c : forall s p, (0 < c)%N -> strchr s p c = None -> Forall (fun x => x <> c) s.
Proof.
  induction s as [|x s IH]; intros p C H; cbn [strchr] in H; [constructor|].
  destruct (N.eqb_spec x c) as [->|N]; [discriminate|]. constructor; [assumption|]. eapply IH; eauto.
Qed.
Lemma replaced_skips search replace c search' pre b s out : search = c :: search' -> Forall (fun x => x <> c) pre ->
  replaced search replace b s out -> replaced search replace b (pre ++ s) (pre ++ out).
Proof.
  intros -> F R. induction pre as [|x pre IH]; [exact R|]. inversion F as [|? ? X F']; subst. cbn [app]. constructor; [|now apply IH].
  intros t E. cbn [app] in E. injection E as E _. contradiction.
Qed.
Lemma substitute_loop_ok search replace c search' : search = c :: search' -> (0 < c)%N ->
  forall n fuel done todo status, length todo <= n -> n < fuel ->
  exists b out, replaced search replace b todo out /\
    substitute_loop fuel (strchr todo (length done) c) (done ++ todo) search replace status = Some (status || b, done ++ out).
Proof.
  intros HS C. induction n as [|n IH]; intros fuel done todo status L F.
  - destruct todo; [|cbn in L; lia]. cbn [strchr]. destruct (N.eqb_spec c 0); [lia|]. exists false, []. split; [constructor|].
    destruct fuel; cbn [substitute_loop]; now rewrite orb_false_r.
  - destruct (strchr todo (length done) c) as [i|] eqn:E.
    2:{ exists false, todo. apply strchr_none in E; [|assumption]. split.
        - pose proof (replaced_skips search replace c search' todo false [] [] HS E (replaced_nil _ _)) as R. now rewrite !app_nil_r in R.
        - destruct fuel; cbn [substitute_loop]; now rewrite orb_false_r. }
    apply strchr_some in E as (pre & post & -> & -> & P); [|assumption]. destruct fuel as [|fuel]; [lia|]. cbn [substitute_loop].
    rewrite app_length in L. cbn [length] in L.
    assert (SK : skipn (length done + length pre) (done ++ pre ++ c :: post) = c :: post).
    { rewrite app_assoc, <- app_length, skipn_app, skipn_all, Nat.sub_diag. reflexivity. }
    assert (FN : firstn (length done + length pre) (done ++ pre ++ c :: post) = done ++ pre).
    { rewrite app_assoc, <- app_length, firstn_app, firstn_all, Nat.sub_diag. cbn [firstn]. apply app_nil_r. }
    rewrite SK. destruct (list_eq_dec N.eq_dec (firstn (length search) (c :: post)) search) as [M|M].
    + assert (E : c :: post = search ++ skipn (length search) (c :: post)) by (rewrite <- M at 1; now rewrite firstn_skipn).
      set (rest := skipn (length search) (c :: post)) in *.
      rewrite FN. replace (skipn (length done + length pre + length search) (done ++ pre ++ c :: post)) with rest.
      2:{ rewrite Nat.add_comm, <- skipn_skipn, SK. reflexivity. }
      assert (LR : length rest <= length post).
      { unfold rest. rewrite skipn_length, HS. cbn [length]. lia. }
      replace (length done + length pre + length replace) with (length ((done ++ pre) ++ replace)) by (rewrite !app_length; lia).
      replace ((done ++ pre) ++ replace ++ rest) with (((done ++ pre) ++ replace) ++ rest) by now rewrite <- !app_assoc.
      rewrite skipn_app, skipn_all, Nat.sub_diag. cbn [skipn app].
      replace (first_char search) with c by now rewrite HS.
      destruct (IH fuel ((done ++ pre) ++ replace) rest true ltac:(lia) ltac:(lia)) as (b & out & R & EQ).
      exists true, (pre ++ replace ++ out). split.
      * apply (replaced_skips _ _ c search'); [assumption|assumption|]. rewrite E. eapply replaced_hit, R.
      * rewrite EQ. cbn [orb]. rewrite orb_true_r, <- !app_assoc. reflexivity.
    + replace (skipn (S (length done + length pre)) (done ++ pre ++ c :: post)) with post.
      2:{ change (S (length done + length pre)) with (1 + (length done + length pre)). rewrite <- skipn_skipn, SK. reflexivity. }
      replace (first_char search) with c by now rewrite HS.
      replace (S (length done + length pre)) with (length (done ++ pre ++ [c])) by (rewrite !app_length; cbn [length]; lia).
      replace (done ++ pre ++ c :: post) with ((done ++ pre ++ [c]) ++ post) by (rewrite <- !app_assoc; reflexivity).
      destruct (IH fuel (done ++ pre ++ [c]) post status ltac:(lia) ltac:(lia)) as (b & out & R & EQ).
      exists b, (pre ++ c :: out). split.
      * apply (replaced_skips _ _ c search'); [assumption|assumption|]. constructor; [|exact R]. intros t ET. apply M. rewrite ET.
        rewrite firstn_app, firstn_all, Nat.sub_diag. apply app_nil_r.
      * rewrite EQ. rewrite <- !app_assoc. reflexivity.
Qed.

(** C54: for a search string that is not empty the loop ends, after at most one turn
    for each character, with every occurrence replaced; the result says if there was
    one *)
Theorem substitute_string_partial : forall string search replace, text search -> search <> [] ->
  exists b out, replaced search replace b string out /\
    forall fuel, length string < fuel -> SubstituteString fuel string search replace = Some (b, out).
Proof.
  intros string search replace T NE. destruct search as [|c search']; [contradiction|]. apply text_cons in T as (C & T).
  destruct (substitute_loop_ok (c :: search') replace c search' eq_refl ltac:(lia) (length string) (S (length string)) [] string false (le_n _) ltac:(lia))
    as (b & out & R & _). exists b, out. split; [exact R|]. intros fuel F.
  destruct (substitute_loop_ok (c :: search') replace c search' eq_refl ltac:(lia) (length string) fuel [] string false (le_n _) F) as (b' & out' & R' & EQ).
  destruct (replaced_unique _ _ NE _ _ _ R _ _ R') as (-> & ->). exact EQ.
Qed.
Print Assumptions substitute_string_partial.
(** aaa with aa replaced: one occurrence, not two *)
Example substitute_string_ex :
  SubstituteString 9 [97; 97; 97; 98; 97; 97]%N [97; 97]%N [97; 98; 97]%N = Some (true, [97; 98; 97; 97; 98; 97; 98; 97]%N).
Proof. reflexivity. Qed.

(** C54 fails for an empty search string: the loop never ends *)
Theorem substitute_empty_refuted : forall fuel string replace, text string -> text replace -> SubstituteString fuel string [] replace = None.
Proof.
  intros fuel string replace T TR. unfold SubstituteString. cbn [first_char].
  assert (Z : forall s p, text s -> strchr s p 0 = Some (p + length s)).
  { induction s as [|c s IH]; intros p TS; cbn [strchr length]; [now rewrite Nat.add_0_r|]. apply text_cons in TS as (C & TS).
    destruct (N.eqb_spec c 0); [lia|]. rewrite IH by assumption. f_equal. lia. }
  rewrite Z by assumption. cbn [Nat.add]. generalize false as status. revert string T.
  induction fuel as [|fuel IH]; intros string T status; [reflexivity|]. cbn [substitute_loop length firstn].
  destruct (list_eq_dec N.eq_dec [] []) as [_|N]; [|contradiction]. cbn [first_char].
  rewrite Nat.add_0_r, firstn_all, skipn_all, app_nil_r. rewrite <- app_length, skipn_all. cbn [strchr N.eqb].
  apply IH. apply text_app. now split.
Qed.
Print Assumptions substitute_empty_refuted.
