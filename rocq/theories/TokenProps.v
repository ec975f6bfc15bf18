(** Tokens (C112, C113). *)
From Coq Require Import NArith ZArith Bool String Lia ZifyBool ZifyNat ZifyN Arith List.
From Verif Require Import Base Outcome CStringModel CStringProps OptionModel ArgvModel ArgvProps TokenModel.
Import ListNotations.

Lemma put_room extent t c : length t + 1 < extent -> TokenModel.put extent t c = t ++ [c].
Proof. intros H. unfold TokenModel.put. now replace (length t <? extent - 1) with true by lia. Qed.
Lemma put_fits extent t c : length t < extent -> length (TokenModel.put extent t c) < extent.
Proof. intros H. unfold TokenModel.put. destruct (Nat.ltb_spec (length t) (extent - 1)); [rewrite app_length; cbn; lia|exact H]. Qed.
Lemma puts_room extent s : forall t, length t + length s < extent -> TokenModel.puts extent t s = t ++ s.
Proof.
  induction s as [|c s IH]; intros t H; cbn [TokenModel.puts fold_left length] in *; [now rewrite app_nil_r|].
  rewrite put_room by (lia). change (fold_left (TokenModel.put extent) s (t ++ [c])) with (TokenModel.puts extent (t ++ [c]) s).
  rewrite IH by (rewrite app_length; cbn; lia). now rewrite <- app_assoc.
Qed.
Lemma put_in extent t c x : In x (TokenModel.put extent t c) -> In x t \/ c = x.
Proof.
  unfold TokenModel.put. destruct (length t <? extent - 1); [|auto]. rewrite in_app_iff. intros [I|[I|[]]]; auto.
Qed.


Definition word_char (c : N) : Prop := ~ In c [9; 10; 11; 12; 13; 32; 61; 44; 58; 59; 60; 62; 40]%N.
Lemma word_char_facts c : word_char c -> ends_word c = false /\ (c =? 60)%N = false /\ (c =? 62)%N = false /\ (c =? 40)%N = false.
Proof. unfold word_char, ends_word, isspace. cbn. lia. Qed.

Section TokenProps.
Variable E : nat.
Variable strtod : list N -> nat.
Variable extent : nat.
Notation put := (TokenModel.put extent).
Notation puts := (TokenModel.puts extent).
Notation next := (GetNextToken E strtod extent).

(** ** Quoted tokens *)
(** a text between quotes: the closing quote and the backslash are escaped *)
Definition escaped (e : N) (s : list N) : list N :=
  flat_map (fun c => if (c =? e)%N || (c =? 92)%N then [92%N; c] else [c]) s.
Lemma quoted_token_ok e s r : e <> 92%N -> forall t, quoted_token extent e (escaped e s ++ e :: r) t = (puts t s, r).
Proof.
  intros Ne. assert (B : (e =? 92)%N = false) by now apply N.eqb_neq. induction s as [|c s IH]; intros t.
  - cbn [escaped flat_map app quoted_token TokenModel.puts fold_left]. destruct r as [|d r].
    + now rewrite N.eqb_refl.
    + rewrite B. cbn [andb]. now rewrite N.eqb_refl.
  - cbn [escaped flat_map]. fold (escaped e s). rewrite <- app_assoc. destruct ((c =? e)%N || (c =? 92)%N) eqn:C.
    + cbn [app]. cbn [quoted_token]. rewrite N.eqb_refl, C. cbn [andb]. rewrite IH. reflexivity.
    + apply orb_false_iff in C. destruct C as (C1 & C2). cbn [app].
      destruct (escaped e s ++ e :: r) as [|d p] eqn:Eq; [now destruct (escaped e s)|].
      change (quoted_token extent e (c :: d :: p) t) with
        (if (c =? 92)%N && ((d =? e)%N || (d =? 92)%N) then quoted_token extent e p (put t d)
         else if (c =? e)%N then (t, d :: p) else quoted_token extent e (d :: p) (put t c)).
      rewrite C1, C2. cbn [andb]. rewrite IH. reflexivity.
Qed.
Lemma strip_url_not t : like (firstn 4 t) (b "url(") = false -> strip_url E t = Ok t.
Proof. intros H. unfold strip_url. now rewrite H. Qed.
Lemma spaces_off_app s p : blanks s -> match p with [] => True | c :: _ => ~ blank c end -> spaces_off (s ++ p) = p.
Proof. intros S P. rewrite spaces_off_blanks by exact S. destruct p as [|c p]; [reflexivity|now apply spaces_off_stop]. Qed.
Lemma closing_facts o e : closing o = Some e -> ~ blank o /\ e <> 92%N.
Proof.
  unfold closing. destruct (N.eqb_spec o 34); [intros [= <-]; subst; split; [unfold blank; cbn; lia|discriminate]|].
  destruct (N.eqb_spec o 39); [intros [= <-]; subst; split; [unfold blank; cbn; lia|discriminate]|].
  destruct (N.eqb_spec o 96); [intros [= <-]; subst; split; [unfold blank; cbn; lia|discriminate]|].
  destruct (N.eqb_spec o 123); [intros [= <-]; subst; split; [unfold blank; cbn; lia|discriminate]|discriminate].
Qed.

(** C112: what is put in quotes comes back, *)
Theorem token_quoted : forall s1 o e s s2 rest,
  blanks s1 -> blanks s2 -> In (o, e) [(34, 34); (39, 39); (96, 39); (123, 125)]%N -> length s < extent -> like (firstn 4 s) (b "url(") = false ->
  match rest with [] => True | c :: _ => ~ blank c end ->
  next (s1 ++ o :: escaped e s ++ e :: s2 ++ rest) = Ok (s, rest).
Proof.
  intros s1 o e s s2 rest S1 S2 In4 L U R. assert (closing o = Some e) as C by (destruct In4 as [[= <- <-]|[[= <- <-]|[[= <- <-]|[[= <- <-]|[]]]]]; reflexivity). destruct (closing_facts o e C) as (O & Ne). unfold GetNextToken.
  rewrite spaces_off_app by (try exact S1; exact O). rewrite C. rewrite quoted_token_ok by exact Ne. cbn [bind].
  rewrite puts_room by (cbn; lia). cbn [app]. rewrite strip_url_not by exact U. cbn [bind]. now rewrite spaces_off_app.
Qed.

(** ** Words *)
Lemma word_token_ok w : Forall word_char w -> forall prev c r t, prev <> 92%N -> ~ In 92%N w ->
  (ends_word c = true \/ (c = 60%N /\ (0 < length t + length w /\ 2 <= extent))) -> length t + length w < extent ->
  word_token extent false prev (w ++ c :: r) t = Ok (t ++ w, c :: r).
Proof.
  induction 1 as [|x w X _ IH]; intros prev c r t P B Ec L; cbn [app word_token length] in *.
  - rewrite app_nil_r. destruct Ec as [Ec|(-> & Lt & _)].
    + rewrite Ec. now replace (prev =? 92)%N with false by lia.
    + change (ends_word 60) with false. cbn [andb]. now replace (0 <? length t) with true by lia.
  - apply word_char_facts in X. destruct X as (X1 & X2 & X3 & X4). rewrite X1, X2, X3, X4. cbn [andb]. rewrite andb_false_r.
    rewrite put_room by (lia). rewrite IH; [now rewrite <- app_assoc| | | |].
    + intros ->. apply B. now left.
    + intros I. apply B. now right.
    + destruct Ec as [Ec|(-> & Lt & E2)]; [now left|right]. rewrite app_length. cbn. lia.
    + rewrite app_length. cbn. lia.
Qed.
Lemma word_token_gt w : Forall word_char w -> forall prev r t, ~ In 92%N w -> length t + length w + 1 < extent ->
  word_token extent false prev (w ++ 62%N :: r) t = Ok (t ++ w ++ [62%N], 62%N :: r).
Proof.
  induction 1 as [|x w X _ IH]; intros prev r t B L; cbn [app word_token length] in *.
  - change (ends_word 62) with false. cbn [andb N.eqb Pos.eqb]. rewrite andb_false_r. rewrite put_room by (lia). reflexivity.
  - apply word_char_facts in X. destruct X as (X1 & X2 & X3 & X4). rewrite X1, X2, X3, X4. cbn [andb]. rewrite andb_false_r.
    rewrite put_room by (lia). rewrite IH; [now rewrite <- app_assoc| |].
    + intros I. apply B. now right.
    + rewrite app_length. cbn. lia.
Qed.

(** a word starts with a letter and ends in front of a separator *)
Theorem token_word : forall s1 c w s2 x rest,
  blanks s1 -> isalpha c = true -> Forall word_char w -> ~ In 92%N w -> length w + 1 < extent ->
  strtod (c :: w ++ s2 ++ x :: rest) = 0 -> like (firstn 4 (c :: w)) (b "url(") = false ->
  blanks s2 -> ~ blank x -> (s2 = [] -> In x [61; 44; 58; 59; 60]%N) ->
  next (s1 ++ c :: w ++ s2 ++ x :: rest) = Ok (c :: w, x :: rest).
Proof.
  intros s1 c w s2 x rest S1 C W B L Nn U S2 X F. unfold GetNextToken.
  assert (Cf : ~ blank c /\ closing c = None /\ (c =? 47)%N = false /\ word_char c /\ c <> 92%N).
  { unfold isalpha in C. unfold blank, closing, word_char. cbn. split; [lia|]. split; [|lia].
    replace (c =? 34)%N with false by lia. replace (c =? 39)%N with false by lia. replace (c =? 96)%N with false by lia.
    now replace (c =? 123)%N with false by lia. }
  destruct Cf as (Cb & Cc & Cs & Cw & C92). rewrite spaces_off_app by (try exact S1; exact Cb). rewrite Cc, Cs, Nn. cbn [Nat.ltb Nat.leb andb].
  rewrite C. cbn [negb andb]. change (c :: w ++ s2 ++ x :: rest) with ((c :: w) ++ s2 ++ x :: rest).
  assert (Ex : exists d r, s2 ++ x :: rest = d :: r /\ (ends_word d = true \/ (d = 60%N /\ 0 < length (@nil N) + length (c :: w) /\ 2 <= extent))).
  { destruct s2 as [|d s2].
    - exists x, rest. split; [reflexivity|]. specialize (F eq_refl). cbn in F. destruct F as [<-|[<-|[<-|[<-|[<-|[]]]]]]; auto.
      right. cbn. lia.
    - exists d, (s2 ++ x :: rest). split; [reflexivity|]. left. assert (D : blank d) by now inversion S2.
      unfold ends_word. now rewrite (proj2 (isspace_blank d) D). }
  destruct Ex as (d & r & Eq & Hd). rewrite Eq. rewrite word_token_ok; [| |discriminate| |exact Hd|cbn; lia].
  - cbn [app bind]. rewrite strip_url_not by exact U. cbn [bind]. rewrite <- Eq. now rewrite spaces_off_app by (try exact S2; exact X).
  - now constructor.
  - intros [->|I]; [now apply C92|now apply B].
Qed.
End TokenProps.
Print Assumptions token_quoted.
Print Assumptions token_word.

(** ** C113: the token fits its buffer, and the scan goes on *)
Section TokenSafe.
Variable E : nat.
Variable strtod : list N -> nat.
Variable extent : nat.
Notation put := (TokenModel.put extent).
Notation next := (GetNextToken E strtod extent).

Lemma quoted_token_facts e : forall p t, exists t' q, quoted_token extent e p t = (t', q) /\
  length q <= length p /\ (1 <= extent -> length t < extent -> length t' < extent) /\
  (forall x, In x t' -> In x t \/ In x p).
Proof.
  assert (H : forall n p, length p <= n -> forall t, exists t' q, quoted_token extent e p t = (t', q) /\
    length q <= length p /\ (1 <= extent -> length t < extent -> length t' < extent) /\ (forall x, In x t' -> In x t \/ In x p)).
  { induction n as [|n IH]; intros p L t.
    - destruct p; [|cbn in L; lia]. exists t, []. cbn. intuition.
    - destruct p as [|c p]; [exists t, []; cbn; intuition|]. destruct p as [|d p].
      + cbn [quoted_token]. destruct (c =? e)%N; eexists _, _; (split; [reflexivity|]); cbn; (split; [lia|]).
        * intuition.
        * split; [intros; now apply put_fits|]. intros x I. apply put_in in I. intuition.
      + cbn [length] in L. change (quoted_token extent e (c :: d :: p) t) with
          (if (c =? 92)%N && ((d =? e)%N || (d =? 92)%N) then quoted_token extent e p (put t d)
           else if (c =? e)%N then (t, d :: p) else quoted_token extent e (d :: p) (put t c)).
        destruct ((c =? 92)%N && ((d =? e)%N || (d =? 92)%N)); [|destruct (c =? e)%N].
        * destruct (IH p ltac:(lia) (put t d)) as (t' & q & -> & Lq & F & I). exists t', q. split; [reflexivity|]. split; [cbn; lia|].
          split; [intros; apply F; [assumption|now apply put_fits]|]. intros x X. apply I in X. destruct X as [X|X]; [|cbn; auto].
          apply put_in in X. cbn. intuition.
        * exists t, (d :: p). split; [reflexivity|]. cbn. intuition.
        * destruct (IH (d :: p) ltac:(cbn; lia) (put t c)) as (t' & q & -> & Lq & F & I). exists t', q. split; [reflexivity|]. split; [cbn in *; lia|].
          split; [intros; apply F; [assumption|now apply put_fits]|]. intros x X. apply I in X. destruct X as [X|X]; [|cbn in *; intuition].
          apply put_in in X. cbn. intuition. }
  intros p t. now apply (H (length p)).
Qed.
Lemma number_token_facts n : forall p t t' q, number_token extent n p t = (t', q) ->
  length q <= length p /\ (1 <= extent -> length t < extent -> length t' < extent) /\ (forall x, In x t' -> In x t \/ In x p).
Proof.
  induction n as [|n IH]; intros p t t' q H; cbn [number_token] in H; [injection H as <- <-; intuition|].
  destruct p as [|c p]; [injection H as <- <-; intuition|]. destruct (c =? 44)%N; [injection H as <- <-; intuition|].
  apply IH in H. destruct H as (L & F & I). split; [cbn; lia|]. split; [intros; apply F; [assumption|now apply put_fits]|].
  intros x X. apply I in X. destruct X as [X|X]; [|cbn; auto]. apply put_in in X. cbn. intuition.
Qed.
Lemma word_token_facts p : forall paren prev t t' q, word_token extent paren prev p t = Ok (t', q) ->
  length q <= length p /\ (1 <= extent -> length t < extent -> length t' < extent) /\ (forall x, In x t' -> In x t \/ In x p).
Proof.
  induction p as [|c p IH]; intros paren prev t t' q H; cbn [word_token] in H.
  - destruct paren; [discriminate|]. injection H as <- <-. intuition.
  - assert (K : forall paren prev, word_token extent paren prev p (put t c) = Ok (t', q) ->
      length q <= length (c :: p) /\ (1 <= extent -> length t < extent -> length t' < extent) /\ (forall x, In x t' -> In x t \/ In x (c :: p))).
    { intros pa pr K. apply IH in K. destruct K as (L & F & I). split; [cbn; lia|].
      split; [intros; apply F; [assumption|now apply put_fits]|].
      intros x X. apply I in X. destruct X as [X|X]; [|cbn; auto]. apply put_in in X. cbn. intuition. }
    destruct paren; [now apply K in H|]. destruct (ends_word c && negb (prev =? 92)%N); [injection H as <- <-; intuition|].
    destruct ((0 <? length t) && (c =? 60)%N); [injection H as <- <-; intuition|].
    destruct (c =? 62)%N; [|now apply K in H]. injection H as <- <-. split; [lia|]. split; [intros; now apply put_fits|].
    intros x X. apply put_in in X. cbn. intuition.
Qed.
Lemma word_token_safe p : ~ In 40%N p -> forall prev t, exists t' q, word_token extent false prev p t = Ok (t', q).
Proof.
  induction p as [|c p IH]; intros N prev t; cbn [word_token]; [eauto|].
  destruct (ends_word c && negb (prev =? 92)%N); [eauto|]. destruct ((0 <? length t) && (c =? 60)%N); [eauto|].
  destruct (c =? 62)%N; [eauto|]. replace (c =? 40)%N with false.
  - apply IH. intros I. apply N. now right.
  - symmetry. apply N.eqb_neq. intros ->. apply N. now left.
Qed.
Lemma spaces_off_le p : length (spaces_off p) <= length p.
Proof. induction p as [|c p IH]; [reflexivity|]. cbn. destruct (isspace c); cbn; lia. Qed.
Lemma spaces_off_in p x : In x (spaces_off p) -> In x p.
Proof. induction p as [|c p IH]; [auto|]. cbn [spaces_off]. destruct (isspace c); [right; auto|auto]. Qed.

(** the scan before "url(" is looked at *)
Lemma strip_url_fits t t' : strip_url E t = Ok t' -> length t' <= length t.
Proof.
  unfold strip_url. destruct (like _ _); [|intros [= <-]; lia].
  destruct (length t =? _); [discriminate|]. intros [= <-].
  rewrite firstn_length. rewrite firstn_length, skipn_length. lia.
Qed.

(** The token with its NUL fits the buffer. *)
Theorem token_fits : forall start t r, 1 <= extent -> next start = Ok (t, r) -> length t < extent.
Proof.
  intros start t r Ex H. unfold GetNextToken in H. destruct (spaces_off start) as [|c p]; cbn [bind] in H.
  - cbn in H. injection H as <- <-. cbn. lia.
  - revert H. destruct (closing c) as [e|].
    { destruct (quoted_token_facts e p []) as (t' & q & -> & _ & F & _). cbn [bind]. destruct (strip_url E t') eqn:U; cbn [bind]; [|discriminate|discriminate].
      intros [= <- <-]. apply strip_url_fits in U. specialize (F Ex ltac:(cbn; lia)). lia. }
    destruct (c =? 47)%N.
    { destruct (slash_token extent (c :: p)) as (t', q) eqn:S. cbn [bind]. destruct (strip_url E t') eqn:U; cbn [bind]; [|discriminate|discriminate].
      intros [= <- <-]. apply strip_url_fits in U. assert (length t' < extent); [|lia]. revert S. unfold slash_token.
      destruct (Nat.ltb_spec 0 (extent - 1)); [|intros [= <- <-]; cbn; lia].
      destruct p as [|d p]; [intros [= <- <-]; cbn; lia|]. destruct ((d =? 62)%N || (d =? 47)%N); [|intros [= <- <-]; cbn; lia].
      destruct (Nat.ltb_spec 1 (extent - 1)); intros [= <- <-]; cbn; lia. }
    destruct ((0 <? strtod (c :: p)) && negb (c =? 44)%N).
    { destruct (number_token extent (strtod (c :: p)) (c :: p) []) as (t', q) eqn:S. apply number_token_facts in S. destruct S as (_ & F & _).
      specialize (F Ex ltac:(cbn; lia)).
      assert (K : forall t0 q0, length t0 < extent -> (let* token := strip_url E t0 in Ok (token, spaces_off q0)) = Ok (t, r) -> length t < extent).
      { intros t0 q0 L0. destruct (strip_url E t0) eqn:U; cbn [bind]; [|discriminate|discriminate]. intros [= <- <-]. apply strip_url_fits in U. lia. }
      destruct q as [|x q]; [now apply K|]. destruct ((x =? 37)%N && (length t' <? extent - 1)); [apply K; now apply put_fits|now apply K]. }
    destruct (negb (isalpha c) && negb (c =? 35)%N && negb (c =? 60)%N).
    { destruct (0 <? extent - 1) eqn:L; cbn [bind]; (destruct (strip_url E _) eqn:U; cbn [bind]; [|discriminate|discriminate]);
        intros [= <- <-]; apply strip_url_fits in U; cbn in U; lia. }
    destruct (word_token extent false 0 (c :: p) []) as [(t', q)| |] eqn:W; cbn [bind]; [|discriminate|discriminate].
    apply word_token_facts in W. destruct W as (_ & F & _). specialize (F Ex ltac:(cbn; lia)).
    destruct (strip_url E t') eqn:U; cbn [bind]; [|discriminate|discriminate]. intros [= <- <-]. apply strip_url_fits in U. lia.
Qed.

(** Whatever is not blank is used up, so a loop over the tokens of a text ends. *)
Theorem token_progress : forall start t r, 2 <= extent -> (exists c, In c start /\ ~ blank c) ->
  next start = Ok (t, r) -> length r < length start.
Proof.
  intros start t r Ex (z & Iz & Bz) H. unfold GetNextToken in H. pose proof (spaces_off_le start) as Le.
  destruct (spaces_off start) as [|c p] eqn:Sp.
  - exfalso. clear -Sp Iz Bz. induction start as [|d s IH]; [contradiction|]. cbn in Sp. destruct (isspace d) eqn:D; [|discriminate].
    destruct Iz as [->|I]; [|now apply IH]. apply Bz. now apply isspace_blank.
  - assert (K : forall o, (forall t' q, o = Ok (t', q) -> length q <= length p) ->
      (let* (token, p0) := o in let* token0 := strip_url E token in Ok (token0, spaces_off p0)) = Ok (t, r) -> length r < length start).
    { intros [(t', q)| |] F; cbn [bind]; [|discriminate|discriminate]. destruct (strip_url E t'); cbn [bind]; [|discriminate|discriminate].
      intros [= <- <-]. specialize (F t' q eq_refl). pose proof (spaces_off_le q). cbn in Le. lia. }
    revert H. apply K. clear K. intros t' q. destruct (closing c) as [e|].
    { destruct (quoted_token_facts e p []) as (t0 & q0 & -> & L & _). intros [= <- <-]. exact L. }
    destruct (c =? 47)%N.
    { unfold slash_token. replace (0 <? extent - 1) with true by lia. destruct p as [|d p]; [intros [= <- <-]; cbn; lia|].
      destruct ((d =? 62)%N || (d =? 47)%N); [|intros [= <- <-]; cbn; lia]. destruct (1 <? extent - 1); intros [= <- <-]; cbn; lia. }
    destruct ((0 <? strtod (c :: p)) && negb (c =? 44)%N) eqn:Num.
    { apply andb_true_iff in Num. destruct Num as (N1 & N2). destruct (strtod (c :: p)) as [|n]; [discriminate|]. cbn [number_token].
      apply negb_true_iff in N2. rewrite N2. destruct (number_token extent n p (put [] c)) as (t0, q0) eqn:S0. apply number_token_facts in S0.
      destruct S0 as (L & _). destruct q0 as [|x q0]; [intros [= <- <-]; exact L|].
      destruct ((x =? 37)%N && (length t0 <? extent - 1)); intros [= <- <-]; cbn in *; lia. }
    destruct (negb (isalpha c) && negb (c =? 35)%N && negb (c =? 60)%N) eqn:Sy.
    { replace (0 <? extent - 1) with true by lia. intros [= <- <-]. lia. }
    cbn [word_token]. assert (X : ends_word c = false /\ (c =? 62)%N = false).
    { unfold ends_word, isspace. unfold isalpha in Sy. lia. }
    destruct X as (X1 & X2). rewrite X1, X2. cbn [andb length Nat.ltb Nat.leb]. intros W. apply word_token_facts in W. tauto.
Qed.

(** A text without an opening parenthesis is read without harm. *)
Lemma like_paren t : like (firstn 4 t) (b "url(") = true -> In 40%N t.
Proof.
  destruct t as [|c1 [|c2 [|c3 [|c4 t]]]]; try (cbn -[ascii_map]; rewrite ?andb_false_r; discriminate).
  cbn [firstn]. change (b "url(") with [117; 114; 108; 40]%N. cbn [like]. intros H. apply andb_true_iff in H. destruct H as (_ & H).
  apply andb_true_iff in H. destruct H as (_ & H). apply andb_true_iff in H. destruct H as (_ & H). apply andb_true_iff in H. destruct H as (H & _).
  right. right. right. left. apply Z.eqb_eq in H. change (ascii_map 40) with 40%Z in H.
  assert (C : (c4 < 256)%N).
  { destruct (N.ltb_spec c4 256) as [|G]; [assumption|]. unfold ascii_map in H. rewrite nth_overflow in H by (change (length AsciiMap) with 256; lia). discriminate. }
  assert (T : forallb (fun c => negb (ascii_map c =? 40)%Z || (c =? 40)%N) (map N.of_nat (seq 0 256)) = true) by (vm_compute; reflexivity).
  rewrite forallb_forall in T. specialize (T c4). cbv beta in T. rewrite H in T. cbn [Z.eqb Pos.eqb negb orb] in T. apply N.eqb_eq, T, in_map_iff.
  exists (N.to_nat c4). split; [lia|]. apply in_seq. lia.
Qed.
Theorem token_safe : forall start, ~ In 40%N start -> exists t r, next start = Ok (t, r).
Proof.
  intros start Np. unfold GetNextToken.
  assert (K : forall o, (exists t q, o = Ok (t, q) /\ ~ In 40%N t) ->
    exists t r, (let* (token, p) := o in let* token0 := strip_url E token in Ok (token0, spaces_off p)) = Ok (t, r)).
  { intros o (t & q & -> & I). cbn [bind]. rewrite strip_url_not; [cbn [bind]; eauto|]. destruct (like _ _) eqn:L; [|reflexivity].
    now apply like_paren in L. }
  apply K. clear K. assert (Np' : ~ In 40%N (spaces_off start)) by (intros I; now apply Np, spaces_off_in).
  destruct (spaces_off start) as [|c p]; [exists [], []; auto|]. assert (Nc : c <> 40%N) by (intros ->; apply Np'; now left).
  destruct (closing c) as [e|].
  { destruct (quoted_token_facts e p []) as (t & q & -> & _ & _ & I). exists t, q. split; [reflexivity|]. intros X. apply I in X. cbn in *. intuition. }
  destruct (c =? 47)%N eqn:C47.
  { unfold slash_token. destruct (0 <? extent - 1); [|exists [], (c :: p); auto]. destruct p as [|d p]; [exists [c], []; auto|].
    destruct ((d =? 62)%N || (d =? 47)%N) eqn:D; [destruct (1 <? extent - 1)|]; eexists _, _; (split; [reflexivity|]); cbn in *; intuition. }
  destruct ((0 <? strtod (c :: p)) && negb (c =? 44)%N).
  { destruct (number_token extent (strtod (c :: p)) (c :: p) []) as (t, q) eqn:S0. apply number_token_facts in S0. destruct S0 as (_ & _ & I).
    assert (T : ~ In 40%N t) by (intros X; apply I in X; cbn in *; intuition).
    destruct q as [|x q]; [eauto|]. destruct ((x =? 37)%N && (length t <? extent - 1)) eqn:X; [|eauto]. eexists _, _. split; [reflexivity|].
    intros Y. apply put_in in Y. destruct Y as [Y|Y]; [now apply T|]. subst x. discriminate. }
  destruct (negb (isalpha c) && negb (c =? 35)%N && negb (c =? 60)%N).
  { destruct (0 <? extent - 1); eexists _, _; (split; [reflexivity|]); cbn; intuition. }
  destruct (word_token_safe (c :: p) Np' 0%N []) as (t & q & W). exists t, q. split; [exact W|].
  apply word_token_facts in W. destruct W as (_ & _ & I). intros X. apply I in X. cbn in *. intuition.
Qed.

(** The body of a "url(...)" comes without its wrapping, *)
Theorem token_url : forall body x rest,
  Forall (fun c => ~ In c [92; 41; 35]%N) body -> length body + 5 < extent -> length body < E - 1 -> body <> [] ->
  strtod (b "url(" ++ body ++ [41%N] ++ x :: rest) = 0 -> In x [61; 44; 58; 59; 60]%N ->
  next (b "url(" ++ body ++ [41%N] ++ x :: rest) = Ok (body, x :: rest).
Proof.
  intros body x rest B L LE Ne Nn X. unfold GetNextToken. change (b "url(") with [117; 114; 108; 40]%N in *. cbn [app] in *.
  change (spaces_off (117%N :: ?p)) with (117%N :: p).
  cbn [spaces_off isspace N.eqb Pos.eqb N.leb andb orb closing]. 
  replace (spaces_off (117%N :: 114%N :: 108%N :: 40%N :: body ++ 41%N :: x :: rest)) with (117%N :: 114%N :: 108%N :: 40%N :: body ++ 41%N :: x :: rest) by reflexivity.
  change (closing 117) with (@None N). cbv iota. rewrite Nn. cbn [Nat.ltb Nat.leb andb N.eqb Pos.eqb].
  change (negb (isalpha 117) && negb false && negb false) with false. cbv iota.
  assert (P : forall u prev t, Forall (fun c => ~ In c [92; 41; 35]%N) u -> prev <> 92%N -> length t + length u + 1 < extent ->
    word_token extent true prev (u ++ 41%N :: x :: rest) t = Ok (t ++ u ++ [41%N], x :: rest)).
  { induction u as [|c u IH]; intros prev t F Pr Lt; cbn [app word_token length] in *.
    - rewrite N.eqb_refl. replace (prev =? 92)%N with false by lia. cbn [negb andb word_token]. rewrite put_room with (t := t) (c := 41%N) by (lia).
      cbn in X. destruct X as [<-|[<-|[<-|[<-|[<-|[]]]]]]; cbn; try reflexivity.
      rewrite app_length. cbn. replace (length t + 1) with (S (length t)) by lia. reflexivity.
    - inversion F as [|? ? F1 F2]; subst. cbn in F1. replace (c =? 41)%N with false by lia. cbn [andb negb].
      rewrite put_room by (lia). rewrite IH; [now rewrite <- app_assoc|exact F2|lia|rewrite app_length; cbn; lia]. }
  cbn [word_token]. change (ends_word 117) with false. change (ends_word 114) with false. change (ends_word 108) with false. change (ends_word 40) with false.
  cbn [andb N.eqb Pos.eqb]. rewrite !andb_false_r. 
  assert (P4 : put (put (put (put [] 117%N) 114%N) 108%N) 40%N = [117; 114; 108; 40]%N).
  { apply (puts_room extent [117; 114; 108; 40]%N []). cbn. lia. }
  rewrite P4. clear P4.
  rewrite P by (try exact B; try discriminate; cbn; lia). cbn [bind app]. unfold strip_url. cbn [firstn].
  change (like [117; 114; 108; 40]%N (b "url(")) with true. cbv iota. destruct body as [|c0 body]; [contradiction|]. cbn [app nth].
  inversion B as [|? ? B0 B1]; subst. cbn in B0. replace (c0 =? 35)%N with false by lia. cbn [length Nat.eqb app skipn].
  cbn [bind]. cbn [length] in LE. 
  replace (firstn _ (firstn (E - 1) _)) with (c0 :: body).
  - replace (spaces_off (x :: rest)) with (x :: rest); [reflexivity|]. cbn in X. destruct X as [<-|[<-|[<-|[<-|[<-|[]]]]]]; reflexivity.
  - change (c0 :: body ++ [41%N]) with ((c0 :: body) ++ [41%N]). rewrite firstn_firstn. rewrite app_length. cbn [length].
    replace (Nat.min _ _) with (length (c0 :: body) + 0) by (cbn [length]; lia). rewrite firstn_app_2. cbn [firstn]. now rewrite app_nil_r.
Qed.
End TokenSafe.
Print Assumptions token_fits.
Print Assumptions token_progress.
Print Assumptions token_safe.
Print Assumptions token_url.

(** ** Where it goes wrong *)
Section TokenRefuted.
Variable E : nat.
Variable strtod : list N -> nat.
Variable extent : nat.
Notation next := (GetNextToken E strtod extent).
Lemma paren_open body : ~ In 41%N body -> forall prev t, word_token extent true prev body t = UB.
Proof.
  induction body as [|c body IH]; intros N prev t; cbn [word_token]; [reflexivity|].
  replace (c =? 41)%N with false; [apply IH; intros I; apply N; now right|].
  symmetry. apply N.eqb_neq. intros ->. apply N. now left.
Qed.
Lemma word_open w body : Forall word_char w -> ~ In 41%N body -> forall prev t,
  word_token extent false prev (w ++ 40%N :: body) t = UB.
Proof.
  intros W B. induction W as [|x w X _ IH]; intros prev t; cbn [app word_token].
  - change (ends_word 40) with false. cbn [andb N.eqb Pos.eqb]. rewrite andb_false_r. now apply paren_open.
  - apply word_char_facts in X. destruct X as (X1 & X2 & X3 & X4). rewrite X1, X2, X3, X4. cbn [andb]. rewrite andb_false_r. apply IH.
Qed.
(** A word with an opening parenthesis and no closing one makes the scan run past
    the end of the text: the inner loop stops at the NUL and the outer one steps
    over it. *)
Theorem token_open_paren_refuted : forall c w body, isalpha c = true -> Forall word_char w -> ~ In 41%N body ->
  strtod (c :: w ++ 40%N :: body) = 0 -> next (c :: w ++ 40%N :: body) = UB.
Proof.
  intros c w body C W B Nn. unfold GetNextToken.
  assert (Cf : ~ blank c /\ closing c = None /\ (c =? 47)%N = false /\ word_char c).
  { unfold isalpha in C. unfold blank, closing, word_char. cbn. split; [lia|]. split; [|lia].
    replace (c =? 34)%N with false by lia. replace (c =? 39)%N with false by lia. replace (c =? 96)%N with false by lia.
    now replace (c =? 123)%N with false by lia. }
  destruct Cf as (Cb & Cc & Cs & Cw). rewrite spaces_off_stop by exact Cb. rewrite Cc, Cs, Nn. cbn [Nat.ltb Nat.leb andb].
  rewrite C. cbn [negb andb]. change (c :: w ++ 40%N :: body) with ((c :: w) ++ 40%N :: body). rewrite word_open; [reflexivity|now constructor|exact B].
Qed.
(** A token that is "url(" and nothing else is written in front of its first byte. *)
Theorem token_bare_url_refuted : 5 <= extent -> next (b """url(""") = UB.
Proof.
  intros Ex. unfold GetNextToken. change (b """url(""") with ([34] ++ escaped 34 [117; 114; 108; 40] ++ 34 :: [])%N.
  cbn [app]. rewrite spaces_off_stop by (unfold blank; cbn; lia). change (closing 34) with (Some 34%N). cbv iota.
  rewrite (quoted_token_ok extent) by discriminate. rewrite puts_room by (cbn; lia). reflexivity.
Qed.
End TokenRefuted.
Print Assumptions token_open_paren_refuted.
Print Assumptions token_bare_url_refuted.

(** ** Examples *)
(** a conversion of digits only, enough for these texts *)
Definition digits_only (s : list N) : nat :=
  length (fst ((fix go (s : list N) := match s with c :: r => if (48 <=? c)%N && (c <=? 57)%N then let '(a, z) := go r in (c :: a, z) else ([], s) | [] => ([], []) end) s)).
Example token_1 : GetNextToken 4096 digits_only 256 (b "  name = ""a\""b\\"" >") = Ok (b "name", b "= ""a\""b\\"" >").
Proof. reflexivity. Qed.
Example token_2 : GetNextToken 4096 digits_only 256 (b " ""a\""b\\"" >") = Ok (b "a""b\", b ">").
Proof. reflexivity. Qed.
Example token_2_is_quoted : b " ""a\""b\\"" >" = [32%N] ++ 34%N :: escaped 34 (b "a""b\") ++ 34%N :: [32%N] ++ b ">".
Proof. reflexivity. Qed.
Example token_3 : GetNextToken 4096 digits_only 256 (b "12%, 3") = Ok (b "12%", b ", 3").
Proof. reflexivity. Qed.
Example token_4 : GetNextToken 4096 digits_only 256 (b "url(#grad 1) x") = Ok (b "grad 1", b "x").
Proof. reflexivity. Qed.
Example token_5 : GetNextToken 4096 digits_only 256 (b "</locale> x") = Ok (b "</locale>", b "> x").
Proof. reflexivity. Qed.
Example token_6 : GetNextToken 4096 digits_only 256 (b "url(a b);c") = Ok (b "a b", b ";c").
Proof. reflexivity. Qed.
Example token_7 : GetNextToken 4096 digits_only 256 (b "fn(a b;") = UB.
Proof. reflexivity. Qed.
