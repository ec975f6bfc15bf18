(** C47, C51, C52, C54: hexadecimal, bounded copy and concatenation, comparison,
    stripping and substitution. *)
From Coq Require Import NArith ZArith Arith List Bool Lia.
From Coq Require Import ZifyBool ZifyNat ZifyN.
From Verif Require Import Base BaseLemmas Outcome StringInfoModel StringInfoProof CStringModel CStringSpec.
Import ListNotations.
Ltac Zify.zify_post_hook ::= Z.div_mod_to_equations.

Lemma text_cons c s : text (c :: s) <-> (0 < c < 256)%N /\ text s.
Proof. unfold text. rewrite Forall_cons_iff. tauto. Qed.
Lemma text_app s t : text (s ++ t) <-> text s /\ text t.
Proof. apply Forall_app. Qed.
Lemma rd_app s c t : rd (s ++ c :: t) (length s) = Ok c.
Proof. unfold rd. rewrite nth_error_app2, Nat.sub_diag by lia. reflexivity. Qed.
Lemma strlen_text s r : text s -> strlen (s ++ 0%N :: r) = Ok (length s).
Proof.
  induction s as [|c s IH]; intros T; [reflexivity|]. apply text_cons in T as (C & T). cbn [app strlen length].
  destruct (N.eqb_spec c 0); [lia|]. now rewrite IH.
Qed.
Lemma write_app s x y d : length x = length y -> mem_write (s ++ x ++ d) (length s) y = Ok (s ++ y ++ d).
Proof.
  intros E. unfold mem_write. rewrite !app_length. replace (_ <=? _) with true by (symmetry; apply Nat.leb_le; lia).
  f_equal. unfold splice. rewrite firstn_app, Nat.sub_diag, firstn_all. cbn [firstn]. rewrite app_nil_r. f_equal. f_equal.
  rewrite app_assoc. replace (length s + length y) with (length (s ++ x)) by (rewrite app_length; lia).
  now rewrite skipn_app, skipn_all, Nat.sub_diag.
Qed.
Lemma write_cons s x y d : mem_write (s ++ x :: d) (length s) [y] = Ok (s ++ y :: d).
Proof. exact (write_app s [x] [y] d eq_refl). Qed.

Lemma skipn_skipn (A : Type) n m (l : list A) : skipn n (skipn m l) = skipn (n + m) l.
Proof. revert l. induction m as [|m IH]; intros l; [now rewrite Nat.add_0_r|]. rewrite Nat.add_succ_r. destruct l; [now rewrite !skipn_nil|apply IH]. Qed.

(** ** C51: CopyWizardString *)
Lemma copy_chars_ok rest : forall k s0 s d, text s -> min k (S (length s)) <= length d ->
  copy_chars k (length s0) (s0 ++ d) (s0 ++ s ++ 0%N :: rest) =
    if k <=? length s then Ok (s0 ++ firstn k s ++ skipn k d, None)
    else Ok (s0 ++ s ++ 0%N :: skipn (S (length s)) d, Some (length s0 + length s)).
Proof.
  induction k as [|k IH]; intros s0 s d T L; [reflexivity|]. destruct d as [|x d]; [cbn in L; lia|]. cbn [copy_chars].
  destruct s as [|c s].
  - cbn [app length]. rewrite rd_app. cbn [bind]. rewrite write_cons. cbn [bind N.eqb Nat.leb skipn]. now rewrite Nat.add_0_r.
  - apply text_cons in T as (C & T). cbn [app length]. rewrite rd_app. cbn [bind]. rewrite write_cons. cbn [bind].
    destruct (N.eqb_spec c 0); [lia|]. specialize (IH (s0 ++ [c]) s d T). rewrite app_length, <- !app_assoc in IH.
    cbn [app length] in IH. rewrite Nat.add_1_r in IH. rewrite IH by (cbn in L; lia). cbn [Nat.leb firstn skipn app].
    destruct (k <=? length s); [reflexivity|]. do 3 f_equal. lia.
Qed.
Lemma copy_fours_ok rest : forall fuel n s0 s d, text s -> min n (S (length s)) <= length d -> n <= fuel ->
  (n = 0 \/ exists m, m < n /\ m <= length s /\ n - m <= 4 /\ m < n /\
     copy_fours fuel n (length s0) (s0 ++ d) (s0 ++ s ++ 0%N :: rest) = Ok (s0 ++ firstn m s ++ skipn m d, None, (n - m, length s0 + m)))
  \/ exists x, S (length s) < n /\
     copy_fours fuel n (length s0) (s0 ++ d) (s0 ++ s ++ 0%N :: rest) = Ok (s0 ++ s ++ 0%N :: skipn (S (length s)) d, Some (length s0 + length s), x).
Proof.
  induction fuel as [|fuel IH]; intros n s0 s d T L F; [left; left; lia|].
  cbn [copy_fours]. destruct (Nat.ltb_spec 4 n) as [G|G].
  - rewrite copy_chars_ok by (assumption || lia). destruct (Nat.leb_spec 4 (length s)) as [A|A]; cbn [bind].
    + assert (E : s = firstn 4 s ++ skipn 4 s) by now rewrite firstn_skipn.
      assert (L4 : length (firstn 4 s) = 4) by (rewrite firstn_length; lia).
      assert (T2 : text (skipn 4 s)) by (rewrite E in T; now apply text_app in T).
      specialize (IH (n - 4) (s0 ++ firstn 4 s) (skipn 4 s) (skipn 4 d) T2).
      rewrite app_length, <- !app_assoc, L4, !skipn_length in IH.
      replace (firstn 4 s ++ skipn 4 s ++ 0%N :: rest) with (s ++ 0%N :: rest) in IH by (rewrite E at 1; now rewrite <- app_assoc).
      destruct (IH ltac:(lia) ltac:(lia)) as [[Z|(m & M1 & M2 & M3 & M4 & EQ)]|(x & M & EQ)].
      * lia.
      * rewrite <- ?app_assoc in EQ. left. right. exists (4 + m). split; [lia|]. split; [lia|]. split; [lia|]. split; [lia|]. rewrite EQ.
        replace (s0 ++ firstn (4 + m) s ++ skipn (4 + m) d) with (s0 ++ firstn 4 s ++ firstn m (skipn 4 s) ++ skipn m (skipn 4 d)).
        -- replace (n - 4 - m) with (n - (4 + m)) by lia. replace (length s0 + 4 + m) with (length s0 + (4 + m)) by lia. reflexivity.
        -- f_equal. rewrite skipn_skipn, (Nat.add_comm m 4). rewrite app_assoc. f_equal.
           replace (firstn (4 + m) s) with (firstn (4 + m) (firstn 4 s ++ skipn 4 s)) by now rewrite firstn_skipn.
           rewrite firstn_app, L4, (firstn_all2 (n := 4 + m) (firstn 4 s)) by lia.
           now replace (4 + m - 4) with m by lia.
      * rewrite <- ?app_assoc in EQ. right. exists x. split; [lia|]. rewrite EQ.
        replace (firstn 4 s ++ skipn 4 s ++ 0%N :: skipn (S (length s - 4)) (skipn 4 d)) with (s ++ 0%N :: skipn (S (length s)) d).
        -- now replace (length s0 + 4 + (length s - 4)) with (length s0 + length s) by lia.
        -- rewrite app_assoc, firstn_skipn, skipn_skipn. now replace (S (length s - 4) + 4) with (S (length s)) by lia.
    + right. eexists. split; [lia|]. reflexivity.
  - destruct n as [|n]; [left; left; reflexivity|]. left. right. exists 0. split; [lia|]. split; [lia|]. split; [lia|]. split; [lia|].
    cbn [firstn skipn app]. now rewrite Nat.add_0_r, Nat.sub_0_r.
Qed.

(** C51: memory outside the first [length] bytes is not touched, and the longest
    fitting prefix is stored with a zero.  The return value is the length of the
    source only if the source is two characters shorter than the buffer *)
Theorem copy_wizard_string_partial : forall src rest dst length,
  text src -> min length (S (List.length src)) <= List.length dst -> length <> 0 ->
  exists n, CopyWizardString dst (src ++ 0%N :: rest) length =
      Ok (firstn (length - 1) src ++ 0%N :: skipn (min length (S (List.length src))) dst, n) /\
    n = (if S (List.length src) <? length then N.of_nat (List.length src) else wsub 64 (N.of_nat (length - 1)) 1).
Proof.
  intros s rest d n T L NZ. unfold CopyWizardString.
  destruct (copy_fours_ok rest n n [] s d T L (le_n _)) as [[Z|(m & M1 & M2 & M3 & _ & EQ)]|((x1 & x2) & M & EQ)].
  - contradiction.
  - cbn [app List.length] in EQ. rewrite EQ. cbn [bind]. clear EQ. cbn [Nat.add].
    assert (E : s = firstn m s ++ skipn m s) by now rewrite firstn_skipn.
    assert (LM : List.length (firstn m s) = m) by (rewrite firstn_length; lia).
    assert (T2 : text (skipn m s)) by (rewrite E in T; now apply text_app in T).
    pose proof (copy_chars_ok rest (n - m - 1) (firstn m s) (skipn m s) (skipn m d) T2) as H. rewrite LM, !skipn_length in H.
    replace (firstn m s ++ skipn m s ++ 0%N :: rest) with (s ++ 0%N :: rest) in H by (rewrite E at 1; now rewrite <- app_assoc).
    rewrite H by lia. clear H. destruct (Nat.leb_spec (n - m - 1) (List.length s - m)) as [A|A]; cbn [bind].
    + destruct (Nat.eqb_spec n 0); [contradiction|].
      replace (firstn m s ++ firstn (n - m - 1) (skipn m s) ++ skipn (n - m - 1) (skipn m d)) with (firstn (n - 1) s ++ skipn (n - 1) d).
      2:{ rewrite app_assoc, skipn_skipn. f_equal; [|f_equal; lia]. rewrite E at 1. rewrite firstn_app, LM, (firstn_all2 (n := n - 1) (firstn m s)) by lia.
          f_equal. f_equal. lia. }
      replace (m + (n - m - 1)) with (List.length (firstn (n - 1) s)) by (rewrite firstn_length; lia).
      destruct (skipn (n - 1) d) as [|x d'] eqn:D.
      { assert (List.length (skipn (n - 1) d) = 0) by now rewrite D. rewrite skipn_length in *. lia. }
      rewrite write_cons. cbn [bind]. eexists. split.
      * do 3 f_equal. f_equal. replace (min n (S (List.length s))) with (1 + (n - 1)) by lia. rewrite <- skipn_skipn, D. reflexivity.
      * destruct (Nat.ltb_spec (S (List.length s)) n); [lia|]. rewrite firstn_length. f_equal. lia.
    + rewrite app_assoc, firstn_skipn. replace (S (List.length s - m)) with (S (List.length s) - m) by lia.
      rewrite skipn_skipn. replace (S (List.length s) - m + m) with (S (List.length s)) by lia.
      rewrite (firstn_all2 (n := n - 1)) by lia. eexists. split.
      { replace (min n (S (List.length s))) with (S (List.length s)) by lia. reflexivity. }
    destruct (Nat.ltb_spec (S (List.length s)) n); [f_equal; lia|lia].
  - cbn [app List.length] in EQ. rewrite EQ. cbn [bind]. rewrite (firstn_all2 (n := n - 1)) by lia. eexists. split.
    { replace (min n (S (List.length s))) with (S (List.length s)) by lia. reflexivity. }
    destruct (Nat.ltb_spec (S (List.length s)) n); [f_equal; lia|lia].
Qed.
Print Assumptions copy_wizard_string_partial.
(** the wizard copied into a buffer of six, and into one of nine *)
Example copy_wizard_string_ex :
  CopyWizardString (repeat 7%N 9) ([119; 105; 122; 97; 114; 100] ++ 0 :: [55])%N 5 = Ok ([119; 105; 122; 97; 0; 7; 7; 7; 7]%N, 3%N) /\
  CopyWizardString (repeat 7%N 9) ([119; 105; 122; 97; 114; 100] ++ 0 :: [55])%N 9 = Ok ([119; 105; 122; 97; 114; 100; 0; 7; 7]%N, 6%N).
Proof. split; reflexivity. Qed.

(** a length of zero: nothing is written *)
Theorem copy_wizard_string_zero : forall src dst, CopyWizardString dst src 0 = Ok (dst, 2 ^ 64 - 1)%N.
Proof. reflexivity. Qed.

(** C51 fails: the return value is not the length of the source when the source is
    cut, nor when it fits exactly *)
Theorem copy_return_refuted : forall src rest dst length,
  text src -> min length (S (List.length src)) <= List.length dst -> 2 <= length -> length <= S (List.length src) ->
  (N.of_nat length < 2 ^ 64)%N ->
  exists dst', CopyWizardString dst (src ++ 0%N :: rest) length = Ok (dst', N.of_nat (length - 2)) /\ length - 2 <> List.length src.
Proof.
  intros s r d n T L N2 G W. destruct (copy_wizard_string_partial s r d n T L ltac:(lia)) as (x & E & X).
  eexists. split; [|lia]. rewrite E. f_equal. f_equal. rewrite X. destruct (Nat.ltb_spec (S (List.length s)) n); [lia|].
  unfold wsub, wrap. set (P := (2 ^ 64)%N) in *. replace (P + N.of_nat (n - 1) - 1)%N with (N.of_nat (n - 2) + 1 * P)%N by lia.
  rewrite N.mod_add by (unfold P; lia). apply N.mod_small. lia.
Qed.
Print Assumptions copy_return_refuted.

(** ** C51: ConcatenateWizardString *)
Lemma find_end_ok s d : forall i s0, text s ->
  (length s < i \/ i <= length s) ->
  find_end i (length s0) (s0 ++ s ++ 0%N :: d) = Ok (length s0 + min i (length s)).
Proof.
  induction s as [|c s IH]; intros i s0 T _; (destruct i as [|i]; [cbn [find_end]; now rewrite Nat.add_0_r|]); cbn [find_end app].
  - rewrite rd_app. cbn [bind N.eqb length]. f_equal. lia.
  - apply text_cons in T as (C & T). rewrite rd_app. cbn [bind]. destruct (N.eqb_spec c 0); [lia|].
    specialize (IH i (s0 ++ [c]) T ltac:(lia)). rewrite <- app_assoc, app_length in IH. cbn [app length] in IH.
    rewrite Nat.add_1_r in IH. rewrite IH. cbn [length Nat.min]. f_equal. lia.
Qed.
Lemma append_chars_ok rest : forall s s0 a room d fuel, text s -> 1 <= room -> min room (S (length s)) <= length d -> length s < fuel ->
  append_chars fuel (length s0) (length a) room (a ++ d) (s0 ++ s ++ 0%N :: rest) =
    Ok (a ++ firstn (room - 1) s ++ skipn (min (room - 1) (length s)) d, length s0 + length s, length a + min (room - 1) (length s)).
Proof.
  induction s as [|c s IH]; intros s0 a room d fuel T R L F; (destruct fuel as [|fuel]; [cbn in F; lia|]); cbn [append_chars app].
  - rewrite rd_app. cbn [bind N.eqb length]. now rewrite Nat.min_0_r, firstn_nil, !Nat.add_0_r.
  - apply text_cons in T as (C & T). rewrite rd_app. cbn [bind]. destruct (N.eqb_spec c 0); [lia|].
    specialize (IH (s0 ++ [c])). rewrite <- app_assoc, app_length in IH. cbn [app length] in IH. rewrite Nat.add_1_r in IH. cbn [length] in F, L.
    destruct (Nat.eqb_spec room 1) as [->|NR].
    + rewrite IH by (assumption || lia). cbn [Nat.sub Nat.min firstn skipn app length]. do 3 f_equal. lia.
    + destruct d as [|x d]; [cbn [length] in L; lia|]. rewrite write_cons. cbn [bind].
      specialize (IH (a ++ [c]) (room - 1) d fuel T). rewrite <- !app_assoc, app_length in IH. cbn [app length] in IH, L.
      rewrite Nat.add_1_r in IH. rewrite IH by lia.
      destruct room as [|[|room]]; [lia|lia|]. replace (S (S room) - 1 - 1) with room by lia. replace (S (S room) - 1) with (S room) by lia.
      cbn [Nat.min firstn skipn app length]. f_equal. f_equal; [f_equal|]; lia.
Qed.

(** C51: both strings are C strings, [dst] has [length] bytes; the result is the
    longest fitting prefix of the concatenation, and the return value the length of
    the string that would have fitted *)
Theorem concatenate_wizard_string : forall old src rest d length,
  text old -> text src -> 1 <= length -> List.length old < length ->
  length <= List.length old + 1 + List.length d ->
  ConcatenateWizardString (old ++ 0%N :: d) (src ++ 0%N :: rest) length =
    Ok (firstn (length - 1) (old ++ src) ++ 0%N :: skipn (min (length - 1 - List.length old) (List.length src)) d, N.of_nat (List.length old + List.length src)).
Proof.
  intros a s r d n TA TS N1 A L. unfold ConcatenateWizardString.
  rewrite (find_end_ok a d n [] TA ltac:(lia) : find_end n 0 (a ++ 0%N :: d) = _). cbn [bind List.length Nat.add].
  rewrite Nat.min_r by lia. destruct (Nat.eqb_spec (n - List.length a) 0); [lia|].
  pose proof (append_chars_ok r s [] a (n - List.length a) (0%N :: d) (S (List.length (s ++ 0%N :: r))) TS) as AP.
  rewrite app_length in AP |- *. cbn [app List.length Nat.add] in AP |- *. rewrite AP by lia. clear AP.
  cbn [bind List.length Nat.add]. replace (n - List.length a - 1) with (n - 1 - List.length a) by lia.
  rewrite firstn_app, (firstn_all2 (n := n - 1) a) by lia. set (k := min (n - 1 - List.length a) (List.length s)).
  destruct (skipn k (0%N :: d)) as [|x d'] eqn:D.
  { assert (Z : List.length (skipn k (0%N :: d)) = 0) by now rewrite D. rewrite skipn_length in Z. cbn [List.length] in Z. lia. }
  rewrite app_assoc. replace (List.length a + k) with (List.length (a ++ firstn (n - 1 - List.length a) s)) by (rewrite app_length, firstn_length; lia).
  assert (D' : d' = skipn k d).
  { transitivity (skipn 1 (skipn k (0%N :: d))); [now rewrite D|]. now rewrite skipn_skipn. }
  rewrite write_cons, D'. reflexivity.
Qed.
Print Assumptions concatenate_wizard_string.
Example concatenate_wizard_string_ex :
  ConcatenateWizardString ([119; 105] ++ 0 :: repeat 7 5)%N ([122; 97; 114; 100] ++ 0 :: [55])%N 6 = Ok ([119; 105; 122; 97; 114; 0; 7; 7]%N, 6%N).
Proof. reflexivity. Qed.
(** the buffer is full: nothing is written *)
Theorem concatenate_wizard_string_full : forall old src rest d length,
  text src -> text old -> List.length old = length ->
  ConcatenateWizardString (old ++ d) (src ++ 0%N :: rest) length = Ok (old ++ d, N.of_nat (length + List.length src)).
Proof.
  intros a s r d n TS TA L. unfold ConcatenateWizardString.
  assert (E : find_end n 0 (a ++ d) = Ok n).
  { subst n. generalize TA. clear. intros TA. change (a ++ d) with ([] ++ a ++ d). change 0 with (@List.length N []) at 1.
    replace (Ok (List.length a)) with (@Ok nat (List.length (@nil N) + List.length a)) by reflexivity.
    generalize (@nil N) as s0. induction a as [|c a IH]; intros s0; [cbn; now rewrite Nat.add_0_r|].
    apply text_cons in TA as (C & TA). cbn [List.length find_end app]. rewrite rd_app. cbn [bind]. destruct (N.eqb_spec c 0); [lia|].
    specialize (IH TA (s0 ++ [c])). rewrite <- app_assoc, app_length in IH. cbn [app List.length] in IH. rewrite Nat.add_1_r in IH.
    rewrite IH. f_equal. lia. }
  rewrite E. cbn [bind]. rewrite Nat.sub_diag. cbn [Nat.eqb]. rewrite strlen_text by assumption. reflexivity.
Qed.

(** ** C52: LocaleCompare and LocaleNCompare *)
Fixpoint first_difference (s t : list N) : Z :=
  match s, t with
  | [], [] => 0
  | c :: _, [] => ascii_map c
  | [], d :: _ => - ascii_map d
  | c :: s, d :: t => if (ascii_map c =? ascii_map d)%Z then first_difference s t else ascii_map c - ascii_map d
  end%Z.
Lemma sweep (f : N -> bool) n c : forallb f (map N.of_nat (seq 0 n)) = true -> (c < N.of_nat n)%N -> f c = true.
Proof.
  intros H C. rewrite forallb_forall in H. apply H, in_map_iff. exists (N.to_nat c). split; [apply N2Nat.id|]. apply in_seq. lia.
Qed.
Lemma ascii_map_pos c : (0 < c < 256)%N -> (0 < ascii_map c)%Z.
Proof.
  intros C. assert (H : forallb (fun c => (c =? 0)%N || (0 <? ascii_map c)%Z) (map N.of_nat (seq 0 256)) = true) by (vm_compute; reflexivity).
  apply (sweep _ _ c) in H; [cbv beta in H; lia|]. cbn. lia.
Qed.
Lemma ascii_map_ascii c : (c < 128)%N -> ascii_map c = Z.of_N (lower c).
Proof.
  intros C. assert (H : forallb (fun c => (ascii_map c =? Z.of_N (lower c))%Z) (map N.of_nat (seq 0 128)) = true) by (vm_compute; reflexivity).
  apply (sweep _ _ c) in H; [cbv beta in H; lia|]. cbn. lia.
Qed.
Lemma locale_compare_eq r r' : forall s t, text s -> text t -> LocaleCompare (s ++ 0%N :: r) (t ++ 0%N :: r') = Ok (first_difference s t).
Proof.
  induction s as [|c s IH]; intros [|d t] S T; cbn [app LocaleCompare first_difference].
  - reflexivity.
  - reflexivity.
  - apply text_cons in S as (C & _). pose proof (ascii_map_pos c C). destruct (N.eqb_spec c 0); [lia|].
    destruct (Z.eqb_spec (ascii_map c) (ascii_map 0)) as [E|E]; [cbn in E; lia|]. cbn. f_equal. lia.
  - apply text_cons in S as (C & S). apply text_cons in T as (D & T). destruct (N.eqb_spec c 0); [lia|]. cbn [orb].
    destruct (Z.eqb_spec (ascii_map c) (ascii_map d)) as [E|E]; cbn [negb]; [now apply IH|reflexivity].
Qed.
Lemma locale_ncompare_eq r r' : forall n s t, text s -> text t ->
  LocaleNCompare (s ++ 0%N :: r) (t ++ 0%N :: r') n = Ok (first_difference (firstn n s) (firstn n t)).
Proof.
  induction n as [|n IH]; intros [|c s] [|d t] S T; cbn [app LocaleNCompare first_difference firstn]; try reflexivity.
  - apply text_cons in T as (D & _). pose proof (ascii_map_pos d D).
    destruct (Z.eqb_spec (ascii_map 0) (ascii_map d)) as [E|E]; [cbn in E; lia|]. cbn [negb]. f_equal.
  - apply text_cons in S as (C & _). pose proof (ascii_map_pos c C).
    destruct (Z.eqb_spec (ascii_map c) (ascii_map 0)) as [E|E]; [cbn in E; lia|]. cbn. f_equal. lia.
  - apply text_cons in S as (C & S). apply text_cons in T as (D & T). destruct (N.eqb_spec c 0); [lia|].
    destruct (Z.eqb_spec (ascii_map c) (ascii_map d)) as [E|E]; cbn [negb]; [now apply IH|reflexivity].
Qed.
Lemma first_difference_opp s : forall t, first_difference t s = (- first_difference s t)%Z.
Proof.
  induction s as [|c s IH]; intros [|d t]; cbn [first_difference]; [lia|lia|lia|].
  rewrite IH. destruct (Z.eqb_spec (ascii_map d) (ascii_map c)), (Z.eqb_spec (ascii_map c) (ascii_map d)); lia.
Qed.
Lemma first_difference_trans s : forall t u, text s -> text t -> text u ->
  (first_difference s t <= 0 -> first_difference t u <= 0 -> first_difference s u <= 0)%Z.
Proof.
  induction s as [|c s IH]; intros [|d t] [|e u] S T U; cbn [first_difference]; try apply text_cons in S as (C & S);
    try apply text_cons in T as (D & T); try apply text_cons in U as (E & U);
    try (pose proof (ascii_map_pos c C)); try (pose proof (ascii_map_pos d D)); try (pose proof (ascii_map_pos e E)); try lia.
  destruct (Z.eqb_spec (ascii_map c) (ascii_map d)), (Z.eqb_spec (ascii_map d) (ascii_map e)), (Z.eqb_spec (ascii_map c) (ascii_map e));
    try lia. now apply IH.
Qed.
Lemma first_difference_zero s : forall t, text s -> text t -> (first_difference s t = 0%Z <-> map ascii_map s = map ascii_map t).
Proof.
  induction s as [|c s IH]; intros [|d t] S T; cbn [first_difference map]; try apply text_cons in S as (C & S); try apply text_cons in T as (D & T).
  - tauto.
  - pose proof (ascii_map_pos d D). split; intros H'; [lia|discriminate].
  - pose proof (ascii_map_pos c C). split; intros H'; [lia|discriminate].
  - destruct (Z.eqb_spec (ascii_map c) (ascii_map d)) as [E|E].
    + rewrite IH by assumption. rewrite E. split; intros H; [now rewrite H|now injection H].
    + split; intros H; [lia|]. injection H as H _. lia.
Qed.

(** C52: the comparison is one function of the two strings, its sign an order, and on
    ASCII strings zero says: equal up to case.  LocaleNCompare is the same function on
    the first characters *)
Theorem locale_compare_order_partial : exists compare : list N -> list N -> Z,
  (forall s t r r', text s -> text t ->
     LocaleCompare (s ++ 0%N :: r) (t ++ 0%N :: r') = Ok (compare s t) /\
     forall n, LocaleNCompare (s ++ 0%N :: r) (t ++ 0%N :: r') n = Ok (compare (firstn n s) (firstn n t))) /\
  (forall s t, compare t s = - compare s t)%Z /\
  (forall s t u, text s -> text t -> text u -> compare s t <= 0 -> compare t u <= 0 -> compare s u <= 0)%Z /\
  (forall s t, Forall (fun c => 0 < c < 128)%N s -> Forall (fun c => 0 < c < 128)%N t ->
     (compare s t = 0%Z <-> map lower s = map lower t)).
Proof.
  exists first_difference. split; [|split; [|split]].
  - intros s t r r' S T. split; [now apply locale_compare_eq|]. intros n. now apply locale_ncompare_eq.
  - intros s t. apply first_difference_opp.
  - intros s t u. apply first_difference_trans.
  - intros s t S T. assert (TX : forall x, Forall (fun c => 0 < c < 128)%N x -> text x).
    { intros x. apply Forall_impl. intros c. lia. }
    rewrite first_difference_zero by auto.
    assert (M : forall x, Forall (fun c => 0 < c < 128)%N x -> map ascii_map x = map Z.of_N (map lower x)).
    { intros x X. rewrite map_map. apply map_ext_Forall. eapply Forall_impl; [|exact X]. intros c (C1 & C2). now apply ascii_map_ascii. }
    rewrite (M s S), (M t T). split; intros H; [|now rewrite H]. revert H. generalize (map lower s) as x, (map lower t) as y. clear.
    induction x as [|c x IH]; intros [|d y] H; [reflexivity|discriminate|discriminate|]. injection H as H1 H2.
    rewrite (N2Z.inj _ _ H1). f_equal. now apply IH.
Qed.
Print Assumptions locale_compare_order_partial.
(** Wizard, wIZARD and wizards *)
Example locale_compare_ex :
  LocaleCompare [87; 105; 122; 97; 114; 100; 0]%N [119; 73; 90; 65; 82; 68; 0]%N = Ok 0%Z /\
  LocaleCompare [87; 105; 122; 97; 114; 100; 0]%N [119; 73; 90; 65; 82; 68; 115; 0]%N = Ok (-115)%Z.
Proof. split; reflexivity. Qed.

(** C52 fails for bytes above 127: the table folds most of 0xC1-0xDA too *)
Theorem locale_compare_high_bytes_refuted :
  exists s t, text s /\ text t /\ map lower s <> map lower t /\ LocaleCompare (s ++ [0%N]) (t ++ [0%N]) = Ok 0%Z.
Proof.
  exists [195%N], [227%N]. split; [now constructor|]. split; [now constructor|]. split; [discriminate|reflexivity].
Qed.
