(** C302: what braces around several words mean (wizard/token.c:379-431). *)
From Coq Require Import NArith ZArith Arith List Bool Lia.
From Verif Require Import Base Outcome CStringModel CStringSpec GlobModel GlobProps.
Import ListNotations.
Local Open Scope N_scope.

(** ** What is meant: the first word that begins with the expression, or that the expression begins with, decides *)
Fixpoint decide (s : list N) (ws : list (list N)) : bool :=
  match ws with
  | [] => false
  | w :: ws => if beginning s w || beginning w s then beginning s w else decide s ws
  end.
Fixpoint joined (w : list N) (ws : list (list N)) : list N :=
  match ws with [] => w | v :: ws => w ++ 44 :: joined v ws end.

Lemma skip_plain (stop : N -> bool) z q : stop z = true -> (z =? backslash) = false -> forall u fuel,
  Forall (fun c => stop c = false /\ (c =? 0) = false /\ (c =? backslash) = false) u -> (length u < fuel)%nat -> skip_alternatives fuel stop (u ++ z :: q) = Ok (z :: q).
Proof.
  intros Z B. induction u as [|c u IH]; intros fuel F L; (destruct fuel as [|fuel]; [cbn in L; lia|]); cbn [app skip_alternatives hd bind]; [rewrite Z; reflexivity|].
  inversion F as [|? ? (C1 & C2 & _) F']; subst. rewrite C1, C2. cbn [orb tl bind].
  assert (H : exists a t, u ++ z :: q = a :: t /\ (a =? backslash) = false).
  { destruct u as [|a u]; [exists z, q; split; [reflexivity|exact B]|]. inversion F' as [|? ? (_ & _ & A) _]; subst. exists a, (u ++ z :: q). split; [reflexivity|exact A]. }
  destruct H as (a & t & E & A). rewrite E. cbn [hd bind]. rewrite A. cbn [bind]. rewrite <- E. apply IH; [exact F'|cbn in L; lia].
Qed.
Lemma alternative_stop s : forall w z q r, word w -> text s -> z = comma \/ z = rbrace ->
  exists c t w2, alternative (s ++ 0 :: r) (w ++ z :: q) true = Ok (c :: t, w2 ++ z :: q, beginning s w || beginning w s) /\
    word w2 /\ (beginning s w || beginning w s = true -> (c =? 0) = beginning s w).
Proof.
  induction s as [|c s IH]; intros w z q r W T Z.
  - exists 0, r, w. split; [|split; [exact W|reflexivity]]. cbn [app alternative beginning orb]. destruct w; reflexivity.
  - inversion T as [|? ? C T']; subst. assert (C0 : (c =? 0) = false) by (apply N.eqb_neq; lia). destruct w as [|d w].
    + exists c, (s ++ 0 :: r), []. split; [|split; [constructor|intros _; exact C0]]. cbn [app alternative hd bind beginning orb].
      rewrite C0. destruct Z as [->| ->]; reflexivity.
    + inversion W as [|? ? D W']; subst. destruct (word_char d D) as (D0 & D1 & D2 & D3). cbn [app alternative hd bind]. rewrite C0, D0, D1, D2, D3. cbn [orb negb bind hd tl beginning].
      rewrite (N.eqb_sym c d). destruct (d =? c); cbn [andb].
      * apply IH; assumption.
      * exists (match s with [] => 0 | a :: _ => a end), (match s with [] => r | _ :: s => s ++ 0 :: r end), w. split; [|split; [exact W'|discriminate]].
        destruct s as [|a s]; cbn [app alternative]; (destruct w as [|b w]; cbn [app hd bind negb]; rewrite orb_true_r; reflexivity).
Qed.
Lemma joined_chars ws : forall w, Forall word (w :: ws) -> Forall (fun c => (c =? rbrace) = false /\ (c =? 0) = false /\ (c =? backslash) = false) (joined w ws).
Proof.
  assert (G : forall w, word w -> Forall (fun c => (c =? rbrace) = false /\ (c =? 0) = false /\ (c =? backslash) = false) w).
  { intros w W. eapply Forall_impl; [|exact W]. intros c C. destruct (word_char c C) as (? & _ & ? & ?). auto. }
  induction ws as [|v ws IH]; intros w F; inversion F as [|? ? W F']; subst; cbn [joined]; [apply G, W|]. apply Forall_app. split; [apply G, W|].
  constructor; [repeat split|]. apply IH. exact F'.
Qed.
(** one turn: what is left of the expression is [c :: t] if the word compares *)
Lemma brace_one k e w z q c t w2 m : word w -> w <> [] -> z = comma \/ z = rbrace -> word w2 -> alternative e (w ++ z :: q) true = Ok (c :: t, w2 ++ z :: q, m) ->
  brace (S k) e (w ++ z :: q) =
    (let* p := skip_alternatives (S (length (w2 ++ z :: q))) (fun c => if m then c =? rbrace else (c =? rbrace) || (c =? comma)) (w2 ++ z :: q) in
     let* c' := hd p in let* p := (if c' =? 0 then Ok p else tl p) in brace k (if m then c :: t else e) p).
Proof.
  intros W N Z W2 Al. cbn [brace]. rewrite Al. destruct w as [|a w]; [congruence|]. inversion W as [|? ? A _]; subst. destruct (word_char a A) as (A0 & _ & A2 & _).
  cbn [app hd bind]. rewrite A0, A2. cbn [orb]. cbv iota zeta.
  assert (H0 : exists x y, w2 ++ z :: q = x :: y /\ (x =? 0) = false).
  { destruct w2 as [|x y]; [exists z, q; split; [reflexivity|destruct Z as [->| ->]; reflexivity]|]. inversion W2 as [|? ? X _]; subst. exists x, (y ++ z :: q). split; [reflexivity|apply (word_char x X)]. }
  destruct H0 as (x & y & Ex & X). rewrite Ex. cbn [hd bind]. rewrite X. reflexivity.
Qed.
Lemma word_plain (m : bool) w : word w -> Forall (fun c => (if m then c =? rbrace else (c =? rbrace) || (c =? comma)) = false /\ (c =? 0) = false /\ (c =? backslash) = false) w.
Proof. intros W. eapply Forall_impl; [|exact W]. intros c C. destruct (word_char c C) as (C0 & C1 & C2 & C3). rewrite C1, C2. destruct m; auto. Qed.
Lemma brace_words s r r' : text s -> forall ws w fuel, Forall word (w :: ws) -> Forall (fun w => w <> []) (w :: ws) -> (length ws + 2 <= fuel)%nat ->
  exists c t, brace fuel (s ++ 0 :: r) (joined w ws ++ rbrace :: 0 :: r') = Ok (false, c :: t, 0 :: r') /\ (c =? 0) = decide s (w :: ws).
Proof.
  intros T. assert (E0 : forall fuel e, brace (S fuel) e (0 :: r') = Ok (false, e, 0 :: r')) by reflexivity.
  induction ws as [|v ws IH]; intros w fuel F N L; inversion F as [|? ? W F']; inversion N as [|? ? Nw N']; subst; (destruct fuel as [|[|fuel]]; [cbn in L; lia..|]).
  - cbn [joined]. destruct (alternative_stop s w rbrace (0 :: r') r W T (or_intror eq_refl)) as (c & t & w2 & Al & W2 & H).
    rewrite (brace_one _ _ _ _ _ _ _ _ _ W Nw (or_intror eq_refl) W2 Al). set (m := beginning s w || beginning w s) in *.
    rewrite skip_plain; [|destruct m; reflexivity|reflexivity|apply word_plain, W2|rewrite app_length; lia].
    cbn [bind hd tl]. change (rbrace =? 0) with false. cbv iota. cbn [bind]. rewrite E0. cbn [decide]. fold m. destruct m eqn:M; [exists c, t; split; [reflexivity|apply H; reflexivity]|].
    destruct s as [|b s]; [discriminate|]. inversion T as [|? ? B _]; subst. exists b, (s ++ 0 :: r). split; [reflexivity|apply N.eqb_neq; lia].
  - cbn [joined]. rewrite <- app_assoc. cbn [app]. set (q := joined v ws ++ rbrace :: 0 :: r'). change 44 with comma.
    destruct (alternative_stop s w comma q r W T (or_introl eq_refl)) as (c & t & w2 & Al & W2 & H).
    rewrite (brace_one _ _ _ _ _ _ _ _ _ W Nw (or_introl eq_refl) W2 Al). set (m := beginning s w || beginning w s) in *. cbn [decide]. fold m. destruct m eqn:M.
    + unfold q. replace (w2 ++ comma :: joined v ws ++ rbrace :: 0 :: r') with ((w2 ++ comma :: joined v ws) ++ rbrace :: 0 :: r') by (rewrite <- app_assoc; reflexivity).
      rewrite skip_plain; [|reflexivity|reflexivity| |rewrite (app_length _ (rbrace :: _)); lia].
      * cbn [bind hd tl]. change (rbrace =? 0) with false. cbv iota. cbn [bind]. rewrite E0. exists c, t. split; [reflexivity|apply H; reflexivity].
      * apply Forall_app. split; [exact (word_plain true w2 W2)|]. constructor; [repeat split|]. apply joined_chars, F'.
    + rewrite skip_plain; [|reflexivity|reflexivity|exact (word_plain false w2 W2)|rewrite app_length; lia].
      cbn [bind hd tl]. change (comma =? 0) with false. cbv iota. cbn [bind]. apply IH; [exact F'|exact N'|cbn in L; lia].
Qed.
(** ** C302: braces at the end of nothing else: the first word that compares decides *)
Theorem glob_words : forall ci w ws s r r', Forall word (w :: ws) -> Forall (fun w => w <> []) (w :: ws) -> text s ->
  GlobExpression (s ++ 0 :: r) (123 :: joined w ws ++ 125 :: 0 :: r') ci = Ok (decide s (w :: ws)).
Proof.
  intros ci w ws s r r' F N T. unfold GlobExpression, glob_start. cbn [hd bind]. change (123 =? 0) with false. cbv iota.
  replace (LocaleCompare (123 :: joined w ws ++ 125 :: 0 :: r') [star; 0]) with (@Ok Z 81%Z) by reflexivity. cbn [bind]. change (81 =? 0)%Z with false. cbv iota.
  change 123 with lbrace. change 125 with rbrace. cbn [length]. set (p := joined w ws ++ rbrace :: 0 :: r').
  assert (Ln : (length ws + 2 <= S (length p))%nat).
  { assert (G : forall ws w, (length ws <= length (joined w ws))%nat). { induction ws0 as [|v ws0 IH]; intros w0; cbn [joined length]; [lia|]. rewrite app_length. cbn [length]. specialize (IH v). lia. }
    unfold p. rewrite app_length. cbn [length]. specialize (G ws w). lia. }
  destruct (brace_words s r r' T ws w (S (length p)) F N Ln) as (c & t & B & D). fold p in B. rewrite <- D.
  assert (G : forall fuel, glob_loop (S fuel) ci (c :: t) (0 :: r') = Ok (c =? 0)).
  { intros fuel. cbn [glob_loop hd bind]. change (0 =? 0) with true. cbv iota. unfold glob_end. cbn [skip_stars bind hd]. change (0 =? star) with false. cbv iota. cbn [bind hd].
    change (0 =? 0) with true. rewrite andb_true_r. reflexivity. }
  specialize (G (length p)). remember (S (length p)) as k eqn:K. cbn [glob_loop hd bind]. change (lbrace =? 0) with false. change (lbrace =? lbrace) with true. change (lbrace =? star) with false.
  change (lbrace =? lbracket) with false. change (lbrace =? qmark) with false. cbn [negb]. cbv iota.
  assert (Hs : exists x y, s ++ 0 :: r = x :: y) by (destruct s; eexists _, _; reflexivity). destruct Hs as (x & y & Es). rewrite Es in *. cbn [hd bind]. rewrite andb_false_r. cbn [andb tl bind]. cbv iota.
  rewrite <- K, B. cbn [bind]. exact G.
Qed.
(** ** C302: among words of which none begins another, an expression that is no shorter than any matches exactly if it is one of them *)
Definition apart (ws : list (list N)) : Prop := forall v w, In v ws -> In w ws -> beginning v w = true -> v = w.
Lemma beginning_app s : forall w, beginning s w = true -> exists t, w = s ++ t.
Proof. induction s as [|c s IH]; intros [|d w] H; cbn [beginning] in H; try discriminate; [exists []; reflexivity|eexists; reflexivity|]. apply andb_true_iff in H as (C & H). apply N.eqb_eq in C as ->. destruct (IH w H) as (t & ->). exists t. reflexivity. Qed.
Lemma beginning_refl s : beginning s s = true.
Proof. induction s as [|c s IH]; [reflexivity|]. cbn [beginning]. now rewrite N.eqb_refl, IH. Qed.
Lemma beginning_long s w : (length w <= length s)%nat -> beginning s w = true -> s = w.
Proof. intros L H. destruct (beginning_app s w H) as (t & ->). rewrite app_length in L. destruct t; [now rewrite app_nil_r|cbn in L; lia]. Qed.
Theorem glob_words_apart : forall ci w ws s r r', Forall word (w :: ws) -> Forall (fun w => w <> []) (w :: ws) -> text s -> apart (w :: ws) ->
  (forall v, In v (w :: ws) -> (length v <= length s)%nat) ->
  exists m, GlobExpression (s ++ 0 :: r) (123 :: joined w ws ++ 125 :: 0 :: r') ci = Ok m /\ (m = true <-> In s (w :: ws)).
Proof.
  intros ci w ws s r r' F N T A L. exists (decide s (w :: ws)). split; [apply glob_words; assumption|]. revert A L. generalize (w :: ws). clear. intros l A L.
  induction l as [|v l IH]; [split; [discriminate|intros []]|]. cbn [decide]. assert (Lv : (length v <= length s)%nat) by (apply L; left; reflexivity).
  assert (IH' : decide s l = true <-> In s l) by (apply IH; [intros x y X Y; apply A; right; assumption|intros x X; apply L; right; exact X]).
  destruct (beginning s v) eqn:B; cbn [orb].
  - split; [|reflexivity]. intros _. left. symmetry. apply beginning_long; assumption.
  - destruct (beginning v s) eqn:B'.
    + split; [discriminate|]. intros [->|I]; [rewrite beginning_refl in B; discriminate|]. assert (v = s) as -> by (apply A; [left; reflexivity|right; exact I|exact B']). rewrite beginning_refl in B. discriminate.
    + rewrite IH'. split; [intros I; right; exact I|]. intros [->|I]; [rewrite beginning_refl in B; discriminate|exact I].
Qed.
(** {jpg,png} *)
Example glob_words_ex : let jpg := [106; 112; 103] in let png := [112; 110; 103] in
  Forall word [jpg; png] /\ text png /\ apart [jpg; png] /\ GlobExpression (png ++ [0]) (123 :: joined jpg [png] ++ [125; 0]) false = Ok true /\
  GlobExpression ([103; 105; 102; 0]) (123 :: joined jpg [png] ++ [125; 0]) false = Ok false.
Proof.
  cbv zeta. split; [repeat constructor; cbn; intuition discriminate|]. split; [repeat constructor|]. split; [|split; reflexivity].
  intros v w [<-|[<-|[]]] [<-|[<-|[]]]; try reflexivity; discriminate.
Qed.
(** C303 fails: of {jp,jpg} only the first compares, so jpg does not match; nor does the order leave the meaning alone; and j matches *)
Theorem glob_words_refuted : let jp := [106; 112] in let jpg := [106; 112; 103] in
  GlobExpression (jpg ++ [0]) (123 :: joined jp [jpg] ++ [125; 0]) false = Ok false /\
  GlobExpression (jpg ++ [0]) (123 :: joined jpg [jp] ++ [125; 0]) false = Ok true /\
  GlobExpression [106; 0] (123 :: joined jp [jpg] ++ [125; 0]) false = Ok true.
Proof. repeat split; reflexivity. Qed.
(** and so for all words: after a word its longer forms are never matched *)
Theorem glob_longer_refuted : forall ci w u ws, Forall word (w :: (w ++ u) :: ws) -> Forall (fun w => w <> []) (w :: (w ++ u) :: ws) -> text (w ++ u) -> u <> [] ->
  GlobExpression ((w ++ u) ++ [0]) (123 :: joined w ((w ++ u) :: ws) ++ [125; 0]) ci = Ok false.
Proof.
  intros ci w u ws F N T U. rewrite glob_words by assumption. cbn [decide].
  assert (B : beginning w (w ++ u) = true) by (clear; induction w as [|c w IH]; [reflexivity|cbn [app beginning]; now rewrite N.eqb_refl, IH]).
  assert (B' : beginning (w ++ u) w = false).
  { destruct (beginning (w ++ u) w) eqn:X; [|reflexivity]. apply beginning_app in X as (t & X). apply (f_equal (@length _)) in X. rewrite !app_length in X. destruct u; [congruence|cbn in X; lia]. }
  rewrite B, B'. reflexivity.
Qed.

Print Assumptions glob_words.
Print Assumptions glob_words_apart.
Print Assumptions glob_words_refuted.
Print Assumptions glob_longer_refuted.
