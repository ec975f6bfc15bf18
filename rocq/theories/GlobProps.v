(** C53, C74, C75: glob matching. *)
From Coq Require Import NArith ZArith Arith List Bool Lia.
From Coq Require Import ZifyBool ZifyNat ZifyN.
From Verif Require Import Base Outcome CStringModel CStringSpec CStringProps GlobModel GlobSpec.
Import ListNotations.
Local Open Scope N_scope.

(** ** Classes *)
Lemma items_hd l r : Forall item_ok l -> exists y t, flat_map item_text l ++ rbracket :: r = y :: t /\ y <> minus.
Proof.
  intros F. destruct l as [|i l]; [exists rbracket, r; split; [reflexivity|discriminate]|]. inversion F as [|? ? I _]; subst.
  destruct i as [c|c|lo hi]; cbn [flat_map item_text app]; (eexists _, _; split; [reflexivity|]).
  - intros ->. apply I. cbn. auto.
  - discriminate.
  - intros ->. apply (proj1 I). cbn. auto.
Qed.
Lemma skip_class_ok l r : Forall item_ok l -> skip_class (flat_map item_text l ++ rbracket :: r) = Ok (rbracket :: r).
Proof.
  induction l as [|i l IH]; intros F; [reflexivity|]. inversion F as [|? ? I F']; subst. specialize (IH F').
  assert (S : forall c t, ~ In c [0; 93; 92] -> skip_class (c :: t) = skip_class t).
  { intros c t H. cbn [skip_class]. unfold rbracket, backslash. cbn [In] in H.
    destruct (N.eqb_spec c 93); [lia|]. destruct (N.eqb_spec c 0); [lia|]. destruct (N.eqb_spec c 92); [lia|]. reflexivity. }
  destruct i as [c|c|lo hi]; cbn [flat_map item_text app].
  - rewrite S; [exact IH|]. cbn [item_ok In] in *. tauto.
  - cbn [item_ok] in I. cbn [skip_class]. cbn [N.eqb orb]. unfold rbracket, backslash. cbn. destruct (N.eqb_spec c 0); [contradiction|]. exact IH.
  - cbn [item_ok] in I. rewrite S by (cbn [In] in *; tauto). rewrite S by (cbn; lia). rewrite S by tauto. exact IH.
Qed.
Lemma found_ok c l r : Forall item_ok l -> bracket_found (c :: flat_map item_text l ++ rbracket :: r) = Ok (false, true, r).
Proof. intros F. unfold bracket_found. cbn [tl bind]. rewrite skip_class_ok by assumption. reflexivity. Qed.
Lemma schar_eq c : schar c = char_value c. Proof. reflexivity. Qed.
Lemma bracket_ok e r : forall l fuel, Forall item_ok l -> (length l < fuel)%nat ->
  (Exists (member e) l /\ bracket fuel e (flat_map item_text l ++ rbracket :: r) = Ok (false, true, r)) \/
  (~ Exists (member e) l /\ bracket fuel e (flat_map item_text l ++ rbracket :: r) = Ok (true, false, rbracket :: r)).
Proof.
  induction l as [|i l IH]; intros fuel F L; (destruct fuel as [|fuel]; [cbn in L; lia|]).
  - right. split; [intros H; inversion H|reflexivity].
  - inversion F as [|? ? I F']; subst. specialize (IH fuel F' ltac:(cbn in L; lia)).
    destruct (items_hd l r F') as (y & t & HD & NM).
    assert (single : forall c, c <> 0 -> c <> backslash -> c <> rbracket ->
      (Exists (member e) (One c :: l) /\ bracket (S fuel) e (c :: flat_map item_text l ++ rbracket :: r) = Ok (false, true, r)) \/
      (~ Exists (member e) (One c :: l) /\ bracket (S fuel) e (c :: flat_map item_text l ++ rbracket :: r) = Ok (true, false, rbracket :: r))).
    { intros c C0 CB CR. cbn [bracket hd bind].
      destruct (N.eqb_spec c 0); [contradiction|]. destruct (N.eqb_spec c rbracket); [contradiction|]. destruct (N.eqb_spec c backslash); [contradiction|].
      cbn [orb bind hd tl]. destruct (N.eqb_spec c 0); [contradiction|]. rewrite HD. cbn [hd bind]. destruct (N.eqb_spec y minus); [contradiction|].
      rewrite <- HD. destruct (N.eqb_spec c e) as [->|NE]; cbn [negb].
      - left. split; [left; reflexivity|]. now apply found_ok.
      - destruct IH as [(H & ->)|(H & ->)]; [left|right]; (split; [|reflexivity]).
        + now right.
        + intros X. inversion X as [? ? M|? ? M]; subst; [cbn in M; congruence|now apply H]. }
    destruct i as [c|c|lo hi]; cbn [flat_map item_text app].
    + cbn [item_ok In] in I. apply single; unfold rbracket, backslash; intuition congruence.
    + cbn [item_ok] in I. cbn [bracket hd bind]. change (92 =? 0) with false. change (92 =? rbracket) with false. change (92 =? backslash) with true. cbn [orb tl bind hd].
      destruct (N.eqb_spec c 0); [contradiction|]. rewrite HD. cbn [hd bind]. destruct (N.eqb_spec y minus); [contradiction|].
      rewrite <- HD. destruct (N.eqb_spec c e) as [->|NE]; cbn [negb].
      * left. split; [left; reflexivity|]. now apply found_ok.
      * destruct IH as [(H & ->)|(H & ->)]; [left|right]; (split; [|reflexivity]).
        -- now right.
        -- intros X. inversion X as [? ? M|? ? M]; subst; [cbn in M; congruence|now apply H].
    + cbn [item_ok In] in I. destruct I as (I1 & I2). cbn [bracket hd bind].
      destruct (N.eqb_spec lo 0); [exfalso; lia|]. destruct (N.eqb_spec lo rbracket) as [->|]; [exfalso; unfold rbracket in *; lia|].
      destruct (N.eqb_spec lo backslash) as [->|]; [exfalso; unfold backslash in *; lia|]. cbn [orb bind hd tl].
      destruct (N.eqb_spec lo 0); [contradiction|]. change (45 =? minus) with true. cbn [bind tl hd].
      destruct (N.eqb_spec hi rbracket) as [->|]; [exfalso; unfold rbracket in *; lia|].
      destruct (N.eqb_spec hi backslash) as [->|]; [exfalso; unfold backslash in *; lia|]. cbn [andb bind hd tl].
      change schar with char_value. destruct ((char_value e <? char_value lo)%Z || (char_value hi <? char_value e)%Z) eqn:R.
      * destruct IH as [(H & ->)|(H & ->)]; [left|right]; (split; [|reflexivity]).
        -- now right.
        -- intros X. inversion X as [? ? M|? ? M]; subst; [cbn [member] in M; lia|now apply H].
      * left. split; [left; cbn [member]; lia|]. now apply found_ok.
Qed.

(** ** Stars *)
Definition no_star (l : list piece) : Prop := match l with Star :: _ => False | _ => True end.
Lemma piece_hd x : piece_ok x -> x <> Star -> exists d t, piece_text x = d :: t /\ d <> star /\ d <> 0 /\ d <> lbrace.
Proof.
  destruct x; intros K NS; cbn [piece_text piece_ok app In] in *; try contradiction; (eexists _, _; split; [reflexivity|]); unfold star, lbrace; try lia; try (now intuition congruence).
Qed.
Lemma skip_stars_ok l r : Forall piece_ok l -> exists k l', l = repeat Star k ++ l' /\ no_star l' /\
  skip_stars (glob_text l ++ 0 :: r) = Ok (glob_text l' ++ 0 :: r).
Proof.
  induction l as [|x l IH]; intros F; [exists 0%nat, []; repeat split|]. inversion F as [|? ? P F']; subst.
  assert (D : x = Star \/ x <> Star) by (destruct x; (now left) || (right; discriminate)). destruct D as [->|NS].
  - destruct (IH F') as (k & l' & -> & N & E). exists (S k), l'. split; [reflexivity|]. split; [exact N|]. exact E.
  - exists 0%nat, (x :: l). split; [reflexivity|]. split; [destruct x; (exact I) || contradiction|].
    destruct (piece_hd x P NS) as (d & t & E & D & _). cbn [glob_text flat_map]. rewrite E. cbn [app skip_stars].
    destruct (N.eqb_spec d star); [contradiction|reflexivity].
Qed.
Lemma matches_star_iff ci l s : matches ci (Star :: l) s <-> exists u t, s = u ++ t /\ matches ci l t.
Proof.
  split.
  - intros M. inversion M as [|? ? ? ? X|? u t M' E]; subst; [destruct X|]. now exists u, t.
  - intros (u & t & -> & M). now constructor.
Qed.
Lemma matches_stars_iff ci k l : forall s, matches ci (repeat Star (S k) ++ l) s <-> exists u t, s = u ++ t /\ matches ci l t.
Proof.
  induction k as [|k IH]; intros s; cbn [repeat app]; [apply matches_star_iff|]. rewrite matches_star_iff. cbn [repeat app] in IH. split.
  - intros (u & t & -> & M). apply IH in M as (u' & t' & -> & M). exists (u ++ u'), t'. split; [apply app_assoc|exact M].
  - intros (u & t & -> & M). exists [], (u ++ t). split; [reflexivity|]. apply IH. now exists u, t.
Qed.
Lemma matches_nil_iff ci l : no_star l -> (matches ci l [] <-> l = []).
Proof.
  intros N. split; [|intros ->; constructor]. intros M. inversion M as [| |l' u t M' X E]; subst; [reflexivity|destruct N].
Qed.
Lemma tries_ok (P : list N -> Prop) g r : (forall s, text s -> s <> [] -> exists b, g (s ++ 0 :: r) = Ok b /\ (b = true <-> P s)) ->
  forall s, text s ->
  (exists u v w, s = u ++ v /\ v <> [] /\ P v /\ text w /\ tries g (s ++ 0 :: r) = Ok (true, w ++ 0 :: r)) \/
  ((forall u v, s = u ++ v -> v <> [] -> ~ P v) /\ tries g (s ++ 0 :: r) = Ok (false, 0 :: r)).
Proof.
  intros G. induction s as [|c s IH]; intros T.
  - right. split; [|reflexivity]. intros u v E V. symmetry in E. apply app_eq_nil in E as (_ & ->). contradiction.
  - destruct (G (c :: s) T ltac:(discriminate)) as (b & E & B). apply text_cons in T as (C & T). cbn [app tries] in *.
    destruct (N.eqb_spec c 0); [lia|]. rewrite E. cbn [bind]. destruct b.
    + left. exists [], (c :: s), s. repeat split; [discriminate|now apply B|exact T].
    + destruct (IH T) as [(u & v & w & -> & V & PV & TW & EQ)|(N & EQ)].
      * left. exists (c :: u), v, w. repeat split; assumption.
      * right. split; [|exact EQ]. intros [|x u] v EV V PV; cbn [app] in EV.
        -- subst v. apply B in PV. discriminate.
        -- injection EV as -> EV. exact (N u v EV V PV).
Qed.
Lemma to_end_ok s r : text s -> to_end (s ++ 0 :: r) = Ok (0 :: r).
Proof.
  induction s as [|c s IH]; intros T; [reflexivity|]. apply text_cons in T as (C & T). cbn [app to_end]. destruct (N.eqb_spec c 0); [lia|]. now apply IH.
Qed.
Lemma glob_text_text l x : text (glob_text (x :: l)) -> text (piece_text x) /\ text (glob_text l).
Proof. cbn [glob_text flat_map]. apply text_app. Qed.
Lemma ascii_map_star c : ascii_map c = ascii_map star -> c = star.
Proof.
  intros E. destruct (N.ltb_spec c 256) as [L|L].
  - assert (H : forallb (fun c => negb (ascii_map c =? ascii_map star)%Z || (c =? star)) (map N.of_nat (seq 0 256)) = true) by (vm_compute; reflexivity).
    apply (sweep _ _ c) in H; [cbv beta in H; lia|]. cbn. lia.
  - unfold ascii_map in E. rewrite (nth_overflow AsciiMap) in E; [discriminate|].
    replace (length AsciiMap) with 256%nat by (vm_compute; reflexivity). lia.
Qed.
(** the checks before the loop do not matter *)
Lemma glob_start_ok loop ci l s r r' : Forall piece_ok l -> text (glob_text l) ->
  (exists b, loop (s ++ 0 :: r) (glob_text l ++ 0 :: r') = Ok b /\ (b = true <-> matches ci l s)) ->
  exists b, glob_start loop (s ++ 0 :: r) (glob_text l ++ 0 :: r') = Ok b /\ (b = true <-> l = [] \/ matches ci l s).
Proof.
  intros F T (b & E & B). destruct l as [|x l]; [exists true; split; [reflexivity|]; tauto|].
  assert (ok : exists b, loop (s ++ 0 :: r) (glob_text (x :: l) ++ 0 :: r') = Ok b /\ (b = true <-> x :: l = [] \/ matches ci (x :: l) s)).
  { exists b. split; [exact E|]. rewrite B. split; [tauto|]. intros [H|H]; [discriminate|exact H]. }
  inversion F as [|? ? P F']; subst.
  assert (D : x = Star \/ x <> Star) by (destruct x; (now left) || (right; discriminate)). destruct D as [->|NS].
  - unfold glob_start. cbn [glob_text flat_map piece_text app hd bind]. change (42 =? 0) with false. cbn [LocaleCompare].
    change (42 =? 0) with false. change (ascii_map 42 =? ascii_map star)%Z with true. cbn [orb negb].
    change (flat_map piece_text l) with (glob_text l). destruct l as [|y l].
    + cbn [glob_text flat_map app]. cbn. exists true. split; [reflexivity|]. split; [|tauto]. intros _. right. rewrite <- (app_nil_r s). constructor. constructor.
    + destruct (glob_text (y :: l) ++ 0 :: r') as [|c t] eqn:H; [destruct (glob_text (y :: l)); discriminate|].
      assert (C : 0 < c < 256).
      { apply glob_text_text in T as (_ & T). inversion F' as [|? ? PY FY]; subst.
        assert (D : y = Star \/ y <> Star) by (destruct y; (now left) || (right; discriminate)). destruct D as [->|NS].
        - injection H as <- _. lia.
        - destruct (piece_hd y PY NS) as (d & t' & EY & _). cbn [glob_text flat_map] in H, T. rewrite EY in H, T. injection H as <- _.
          apply text_app in T as (T & _). now apply text_cons in T. }
      cbn [LocaleCompare]. destruct (N.eqb_spec c 0); [lia|]. pose proof (ascii_map_pos c C) as AP. change (ascii_map 0) with 0%Z.
      destruct (Z.eqb_spec (ascii_map c) 0); [lia|]. cbn [orb negb bind]. destruct (Z.eqb_spec (ascii_map c - 0) 0); [lia|].
      rewrite <- H. change (42 :: glob_text (y :: l) ++ 0 :: r') with (glob_text (Star :: y :: l) ++ 0 :: r'). exact ok.
  - destruct (piece_hd x P NS) as (d & t & EX & DS & D0 & _). unfold glob_start. cbn [glob_text flat_map] in ok |- *. rewrite EX in *. cbn [app hd bind] in *.
    destruct (N.eqb_spec d 0); [contradiction|]. cbn [LocaleCompare]. destruct (N.eqb_spec d 0); [contradiction|]. cbn [orb].
    destruct (Z.eqb_spec (ascii_map d) (ascii_map star)) as [H|H]; [apply ascii_map_star in H; contradiction|]. cbn [negb bind].
    destruct (Z.eqb_spec (ascii_map d - ascii_map star) 0); [lia|]. exact ok.
Qed.
Lemma tolower_fold c d (ci : bool) : negb (if ci then tolower c =? tolower d else c =? d) = negb (fold_case ci c =? fold_case ci d).
Proof. unfold fold_case, tolower. destruct ci; reflexivity. Qed.

(** ** The loop *)
Lemma glob_loop_ok ci r r' : forall fuel l s, (length l < fuel)%nat -> Forall piece_ok l -> text (glob_text l) -> text s ->
  exists b, glob_loop fuel ci (s ++ 0 :: r) (glob_text l ++ 0 :: r') = Ok b /\ (b = true <-> matches ci l s).
Proof.
  induction fuel as [|fuel IH]; intros l s L F T TS; [lia|]. destruct l as [|x l].
  - cbn [glob_text flat_map app glob_loop hd bind]. change (0 =? 0) with true. cbv iota. unfold glob_end. cbn [skip_stars].
    change (0 =? star) with false. cbv iota. cbn [bind]. destruct s as [|c s].
    + exists true. split; [reflexivity|]. split; [constructor|reflexivity].
    + apply text_cons in TS as (C & TS). cbn [app hd bind]. destruct (N.eqb_spec c 0); [lia|]. exists false. split; [reflexivity|].
      split; [discriminate|]. intros M. inversion M.
  - inversion F as [|? ? P F']; subst. destruct (glob_text_text l x T) as (TX & TL). cbn [length] in L.
    assert (D : x = Star \/ x <> Star) by (destruct x; (now left) || (right; discriminate)). destruct D as [->|NS].
    + (* star *)
      cbn [glob_text flat_map piece_text app glob_loop hd bind]. change (42 =? 0) with false. change (42 =? star) with true. change (42 =? lbrace) with false.
      cbv iota. assert (HE : exists c, hd (s ++ 0 :: r) = Ok c) by (destruct s; eexists; reflexivity). destruct HE as (c & HE). rewrite HE. cbn [bind negb].
      rewrite andb_false_r. cbv iota. destruct (skip_stars_ok (Star :: l) r' F) as (k & l' & EL & N & SK).
      destruct k as [|k]; [cbn [repeat app] in EL; subst l'; destruct N|]. cbn [repeat app] in EL. injection EL as EL.
      cbn [glob_text flat_map piece_text app] in SK. rewrite SK. cbn [bind].
      assert (F2 : Forall piece_ok l') by (rewrite EL in F'; now apply Forall_app in F').
      assert (T2 : text (glob_text l')) by (rewrite EL in TL; unfold glob_text in TL; rewrite flat_map_app in TL; now apply text_app in TL).
      assert (L2 : (length l' <= length l)%nat) by (rewrite EL, app_length; lia).
      assert (MS : forall s, matches ci (Star :: l) s <-> exists u t, s = u ++ t /\ matches ci l' t).
      { intros s1. rewrite EL. exact (matches_stars_iff ci k l' s1). }
      destruct (tries_ok (fun v => l' = [] \/ matches ci l' v) (fun e => glob_start (glob_loop fuel ci) e (glob_text l' ++ 0 :: r')) r) with (s := s)
        as [(u & v & w & -> & V & PV & TW & EQ)|(NP & EQ)]; [|exact TS| |].
      * intros s1 T1 _. apply glob_start_ok; [assumption|assumption|]. apply IH; (assumption || lia).
      * rewrite EQ. cbn [bind]. rewrite !to_end_ok by assumption. cbn [bind].
        destruct (IH [] [] ltac:(cbn; lia) ltac:(constructor) ltac:(constructor) ltac:(constructor)) as (b & E & B). cbn [glob_text flat_map app] in E.
        exists b. split; [exact E|]. assert (b = true) by (apply B; constructor). split; [|intros _; assumption]. intros _.
        apply MS. destruct PV as [->|PV]; [exists (u ++ v), []; rewrite app_nil_r; split; [reflexivity|constructor]|now exists u, v].
      * rewrite EQ. cbn [bind]. destruct (IH l' [] ltac:(lia) F2 T2 ltac:(constructor)) as (b & E & B). cbn [app] in E. exists b. split; [exact E|].
        rewrite B, MS. rewrite (matches_nil_iff ci l' N). split.
        -- intros ->. exists s, []. rewrite app_nil_r. split; [reflexivity|constructor].
        -- intros (u & t & -> & M). destruct t as [|t0 t]; [now apply (matches_nil_iff ci l' N)|].
           exfalso. apply (NP u (t0 :: t) eq_refl); [discriminate|now right].
    + (* another piece *)
      destruct (piece_hd x P NS) as (d & t & EX & DS & D0 & DB).
      assert (M1 : forall c s1, matches ci (x :: l) (c :: s1) <-> matches_one ci x c /\ matches ci l s1).
      { intros c s1. split; [|intros (A & B); now constructor]. intros M. inversion M as [|? ? ? ? A B|? ? ? ? EQ]; subst; [now split|contradiction]. }
      assert (GE : forall y q, y <> 0 -> y <> star -> glob_end (s ++ 0 :: r) (y :: q) = Ok false).
      { intros y q Y0 YS. unfold glob_end. cbn [skip_stars]. destruct (N.eqb_spec y star); [contradiction|]. cbn [bind].
        destruct s; cbn [app hd bind]; destruct (N.eqb_spec y 0); try contradiction; now rewrite andb_false_r. }
      destruct s as [|c s].
      { cbn [glob_text flat_map]. rewrite EX. cbn [app glob_loop hd bind]. destruct (N.eqb_spec d 0); [contradiction|].
        destruct (N.eqb_spec d lbrace); [contradiction|]. destruct (N.eqb_spec d star); [contradiction|]. change (0 =? 0) with true. cbn [negb andb].
        exists false. split; [now apply (GE d)|]. split; [discriminate|]. intros M. inversion M; subst; contradiction. }
      apply text_cons in TS as (C & TS).
      assert (next : exists b, glob_loop fuel ci (s ++ 0 :: r) (glob_text l ++ 0 :: r') = Ok b /\ (b = true <-> matches ci l s)) by (apply IH; (assumption || lia)).
      destruct next as (b & E & B).
      assert (lit : forall y, y <> 0 -> y <> star -> (forall c, matches_one ci x c <-> fold_case ci c = fold_case ci y) -> forall dd,
        dd = y \/ dd = backslash ->
        exists b, (if negb (if ci then tolower c =? tolower y else c =? y) then glob_end ((c :: s) ++ 0 :: r) (y :: glob_text l ++ 0 :: r')
                   else glob_loop fuel ci (s ++ 0 :: r) (glob_text l ++ 0 :: r')) = Ok b /\ (b = true <-> matches ci (x :: l) (c :: s))).
      { intros y Y0 YS MO dd _. rewrite tolower_fold. destruct (N.eqb_spec (fold_case ci c) (fold_case ci y)) as [FE|FE]; cbn [negb].
        - exists b. split; [exact E|]. rewrite B, M1, MO. tauto.
        - exists false. split; [now apply GE|]. split; [discriminate|]. rewrite M1, MO. tauto. }
      destruct x as [y|y| | |items]; try contradiction; cbn [piece_ok piece_text] in *; injection EX as <- <-.
      * (* literal *)
        cbn [glob_text flat_map piece_text app glob_loop hd bind] in *. change (flat_map piece_text l) with (glob_text l).
        destruct (N.eqb_spec c 0); [lia|]. cbn [In] in P.
        destruct (N.eqb_spec y 0); [contradiction|]. destruct (N.eqb_spec y star); [contradiction|]. cbn [andb]. cbv iota.
        destruct (N.eqb_spec y lbracket) as [->|]; [exfalso; unfold lbracket in *; lia|]. destruct (N.eqb_spec y qmark) as [->|]; [exfalso; unfold qmark in *; lia|].
        destruct (N.eqb_spec y lbrace); [contradiction|]. destruct (N.eqb_spec y backslash) as [->|]; [exfalso; unfold backslash in *; lia|].
        cbn [bind hd tl]. destruct (N.eqb_spec y 0); [contradiction|]. apply (lit y D0 DS) with (dd := y); [intros; reflexivity|now left].
      * (* escape *)
        cbn [glob_text flat_map piece_text app glob_loop hd bind] in *. change (flat_map piece_text l) with (glob_text l).
        destruct (N.eqb_spec c 0); [lia|]. cbn [andb]. change (92 =? 0) with false. change (92 =? star) with false. change (92 =? lbracket) with false.
        change (92 =? qmark) with false. change (92 =? lbrace) with false. change (92 =? backslash) with true. cbv iota. cbn [tl bind hd].
        destruct (N.eqb_spec y 0); [contradiction|]. destruct (N.eq_dec y star) as [->|YS]; [|apply (lit y P YS) with (dd := y); [intros; reflexivity|now left]].
        rewrite tolower_fold. destruct (N.eqb_spec (fold_case ci c) (fold_case ci star)) as [FE|FE]; cbn [negb].
        -- exists b. split; [exact E|]. rewrite B, M1. cbn [matches_one]. tauto.
        -- exists false. split; [|split; [discriminate|]; rewrite M1; cbn [matches_one]; tauto].
           unfold glob_end. destruct (skip_stars_ok (Star :: l) r' ltac:(constructor; [exact I|exact F'])) as (k & l' & _ & _ & SK).
           cbn [glob_text flat_map piece_text app] in SK. change (flat_map piece_text l) with (glob_text l) in SK. change star with 42. rewrite SK. cbn [bind hd].
           assert (HP : exists z, hd (glob_text l' ++ 0 :: r') = Ok z) by (destruct (glob_text l'); eexists; reflexivity).
           destruct HP as (z & ->). cbn [bind]. destruct (N.eqb_spec c 0); [lia|]. reflexivity.
      * (* any *)
        cbn [glob_text flat_map piece_text app glob_loop hd bind] in *. change (flat_map piece_text l) with (glob_text l).
        destruct (N.eqb_spec c 0); [lia|]. cbn [andb]. change (63 =? 0) with false. change (63 =? star) with false. change (63 =? lbracket) with false.
        change (63 =? qmark) with true. cbv iota. cbn [tl bind]. exists b. split; [exact E|]. rewrite B, M1. cbn [matches_one]. tauto.
      * (* class *)
        cbn [glob_text flat_map piece_text app glob_loop hd bind] in *. change (flat_map piece_text l) with (glob_text l).
        destruct (N.eqb_spec c 0); [lia|]. cbn [andb]. change (91 =? 0) with false. change (91 =? star) with false. change (91 =? lbracket) with true.
        cbv iota. cbn [tl bind]. rewrite <- app_assoc, <- app_assoc. cbn [app]. change 93 with rbracket.
        destruct (bracket_ok c (glob_text l ++ 0 :: r') items (S (length (flat_map item_text items ++ rbracket :: glob_text l ++ 0 :: r'))) P) as [(EXI & EQ)|(NEX & EQ)].
        -- rewrite app_length. cbn [length]. assert (H : (length items <= length (flat_map item_text items))%nat).
           { clear. induction items as [|i items IH]; [cbn; lia|]. cbn [flat_map length]. rewrite app_length. destruct i; cbn [item_text length]; lia. }
           lia.
        -- rewrite EQ. cbn [bind tl]. exists b. split; [exact E|]. rewrite B, M1. cbn [matches_one]. tauto.
        -- rewrite EQ. cbn [bind]. exists false. split; [apply (GE rbracket); discriminate|]. split; [discriminate|]. rewrite M1. cbn [matches_one]. tauto.
Qed.

(** C53, C74: for patterns of literals, escapes, ?, * and classes GlobExpression reads
    only the two strings and decides the match; the empty pattern is always true *)
Theorem glob_matches : forall ci l s r r', Forall piece_ok l -> text (glob_text l) -> text s ->
  exists b, GlobExpression (s ++ 0 :: r) (glob_text l ++ 0 :: r') ci = Ok b /\ (b = true <-> l = [] \/ matches ci l s).
Proof.
  intros ci l s r r' F T TS. unfold GlobExpression. apply glob_start_ok; [assumption|assumption|]. apply glob_loop_ok; try assumption.
  rewrite app_length. cbn [length]. assert (H : (length l <= length (glob_text l))%nat); [|lia].
  clear. unfold glob_text. induction l as [|x l IH]; [cbn; lia|]. cbn [flat_map length]. rewrite app_length.
  destruct x; cbn [piece_text length app]; lia.
Qed.
Print Assumptions glob_matches.
(** w*[a-c]?\* against wizard-bx* and against wizard-bx *)
Example glob_matches_ex :
  let l := [Lit 119; Star; Class [Range 97 99]; Any; Escaped 42] in
  glob_text l = [119; 42; 91; 97; 45; 99; 93; 63; 92; 42] /\ Forall piece_ok l /\
  GlobExpression [119; 105; 122; 97; 114; 100; 45; 98; 120; 42; 0] (glob_text l ++ [0]) false = Ok true /\
  GlobExpression [119; 105; 122; 97; 114; 100; 45; 98; 120; 0] (glob_text l ++ [0]) false = Ok false.
Proof.
  split; [reflexivity|]. split; [|split; reflexivity]. repeat constructor; cbn; intuition discriminate.
Qed.

(** C53: the fragment of literals, ? and *: the same, stated alone *)
Theorem glob_wildcards : forall ci l s r r',
  Forall (fun x => match x with Lit c => ~ In c [0; 42; 63; 91; 123; 92] | Any | Star => True | _ => False end) l ->
  text (glob_text l) -> text s ->
  exists b, GlobExpression (s ++ 0 :: r) (glob_text l ++ 0 :: r') ci = Ok b /\ (b = true <-> l = [] \/ matches ci l s).
Proof.
  intros ci l s r r' F. apply glob_matches. eapply Forall_impl; [|exact F]. intros [c|c| | |i] H; cbn [piece_ok]; (exact H) || (exact I) || contradiction.
Qed.
Print Assumptions glob_wildcards.

(** C74: what braces around one word mean: the expression is a beginning of the word, case told apart whatever [ci] *)
Fixpoint beginning (s w : list N) : bool :=
  match s, w with
  | [], _ => true
  | _, [] => false
  | c :: s, d :: w => (c =? d) && beginning s w
  end.
Definition word (w : list N) : Prop := Forall (fun c => ~ In c [0; 44; 125; 92]) w.
Lemma word_char c : ~ In c [0; 44; 125; 92] -> (c =? 0) = false /\ (c =? comma) = false /\ (c =? rbrace) = false /\ (c =? backslash) = false.
Proof. intros H. cbn in H. unfold comma, rbrace, backslash. repeat split; apply N.eqb_neq; intros ->; apply H; tauto. Qed.
Lemma alternative_word s : forall w q r, word w -> text s -> exists x w2 m, alternative (s ++ 0 :: r) (w ++ rbrace :: q) true = Ok (x, w2 ++ rbrace :: q, m) /\
  word w2 /\ (m = true -> if beginning s w then x = 0 :: r else exists c t, c <> 0 /\ x = c :: t) /\ (m = false -> beginning s w = false).
Proof.
  induction s as [|c s IH]; intros w q r W T.
  - exists (0 :: r), w, true. split; [|split; [exact W|split; [reflexivity|discriminate]]]. cbn [app alternative]. destruct w; reflexivity.
  - inversion T as [|? ? C T']; subst. destruct w as [|d w].
    + exists (c :: s ++ 0 :: r), [], true. split; [|split; [constructor|split; [|discriminate]]].
      * cbn [app alternative hd bind]. change (rbrace =? 0) with false. change (rbrace =? comma) with false. rewrite N.eqb_refl, orb_true_r. reflexivity.
      * intros _. cbn [beginning]. exists c, (s ++ 0 :: r). split; [|reflexivity]. intros ->. lia.
    + inversion W as [|? ? D W']; subst. destruct (word_char d D) as (D0 & D1 & D2 & D3). cbn [app alternative hd bind]. rewrite D0, D1, D2, D3.
      replace (c =? 0) with false by (symmetry; apply N.eqb_neq; lia). cbn [orb negb]. cbn [bind hd tl]. cbn [beginning]. rewrite (N.eqb_sym c d). destruct (d =? c).
      * destruct (IH w q r W' T') as (x & w2 & m & E & H). exists x, w2, m. rewrite E. split; [reflexivity|exact H].
      * exists (s ++ 0 :: r), w, false. split; [|split; [exact W'|split; [discriminate|reflexivity]]].
        assert (A : forall e, e <> [] -> alternative e (w ++ rbrace :: q) false = Ok (e, w ++ rbrace :: q, false)).
        { intros [|a e] N; [congruence|]. cbn [alternative]. destruct w; cbn [app hd bind negb]; rewrite orb_true_r; reflexivity. }
        apply A. destruct s; discriminate.
Qed.
Lemma skip_word (stop : N -> bool) w q : forall fuel, stop rbrace = true -> (forall c, ~ In c [0; 44; 125; 92] -> stop c = false) -> word w -> (length w < fuel)%nat ->
  skip_alternatives fuel stop (w ++ rbrace :: q) = Ok (rbrace :: q).
Proof.
  induction w as [|c w IH]; intros fuel S P W L; (destruct fuel as [|fuel]; [cbn in L; lia|]); cbn [app skip_alternatives hd bind]; [rewrite S; reflexivity|].
  inversion W as [|? ? C W']; subst. rewrite (P c C). destruct (word_char c C) as (-> & _). cbn [orb tl bind]. 
  assert (H : exists a t, w ++ rbrace :: q = a :: t /\ (a =? backslash) = false).
  { destruct w as [|a w]; [exists rbrace, q; split; reflexivity|]. inversion W' as [|? ? A _]; subst. exists a, (w ++ rbrace :: q). split; [reflexivity|apply (word_char a A)]. }
  destruct H as (a & t & E & A). rewrite E. cbn [hd bind]. rewrite A. cbn [bind]. rewrite <- E. apply IH; try assumption. cbn in L. lia.
Qed.
Theorem glob_one_word : forall ci w s r r', word w -> w <> [] -> text s ->
  GlobExpression (s ++ 0 :: r) (lbrace :: w ++ rbrace :: 0 :: r') ci = Ok (beginning s w).
Proof.
  intros ci w s r r' W Nw T. unfold GlobExpression, glob_start. cbn [hd bind]. change (lbrace =? 0) with false. cbv iota.
  replace (LocaleCompare (lbrace :: w ++ rbrace :: 0 :: r') [star; 0]) with (@Ok Z 81%Z) by reflexivity. cbn [bind]. change (81 =? 0)%Z with false. cbv iota.
  cbn [length]. remember (length (w ++ rbrace :: 0 :: r')) as n eqn:En. assert (Ln : (length w + 2 <= n)%nat) by (subst n; rewrite app_length; cbn; lia).
  cbn [glob_loop hd bind]. change (lbrace =? 0) with false. change (lbrace =? lbrace) with true. change (lbrace =? star) with false.
  change (lbrace =? lbracket) with false. change (lbrace =? qmark) with false. cbn [negb]. cbv iota.
  assert (Hs : exists c t, s ++ 0 :: r = c :: t) by (destruct s; eexists _, _; reflexivity). destruct Hs as (c & t & Es). rewrite Es at 1. cbn [hd bind]. rewrite andb_false_r. cbn [andb tl bind]. cbv iota.
  rewrite <- En. destruct n as [|[|n]]; [lia..|]. cbn [brace].
  destruct (alternative_word s w (0 :: r') r W T) as (x & w2 & m & Ea & W2 & Hm & Hf).
  assert (Lw : Nat.le (length w2) (length (w2 ++ rbrace :: 0 :: r'))) by (rewrite app_length; lia).
  assert (Sk : skip_alternatives (S (length (w2 ++ rbrace :: 0 :: r'))) (fun c => if m then c =? rbrace else (c =? rbrace) || (c =? comma)) (w2 ++ rbrace :: 0 :: r') = Ok (rbrace :: 0 :: r')).
  { apply skip_word; [destruct m; reflexivity| |exact W2|clear - Lw; lia]. intros a A. destruct (word_char a A) as (_ & A1 & A2 & _). rewrite A1, A2. destruct m; reflexivity. }
  assert (H2 : exists a u, w2 ++ rbrace :: 0 :: r' = a :: u /\ (a =? 0) = false).
  { destruct w2 as [|a u]; [exists rbrace, (0 :: r'); split; reflexivity|]. inversion W2 as [|? ? A _]; subst. exists a, (u ++ rbrace :: 0 :: r'). split; [reflexivity|apply (word_char a A)]. }
  destruct H2 as (a2 & u2 & E2 & A2).
  assert (G : forall e, e <> [] -> glob_end e (0 :: r') = (let* c := hd e in Ok (c =? 0))).
  { intros [|a e] N; [congruence|]. unfold glob_end. cbn [skip_stars bind hd]. change (0 =? star) with false. cbv iota. cbn [bind hd].
    change (0 =? 0) with true. rewrite andb_true_r. reflexivity. }
  destruct w as [|d w].
  - congruence.
  - cbn [app hd bind]. inversion W as [|? ? D W']; subst. destruct (word_char d D) as (D0 & _ & D2 & _). rewrite D0, D2. cbn [orb]. cbv iota. cbn [app] in Ea. rewrite Ea. cbn [bind]. rewrite E2 at 1. cbn [hd bind]. rewrite A2. cbv zeta. rewrite Sk. cbn [bind hd]. change (rbrace =? 0) with false. cbv iota. cbn [tl bind brace hd]. change (0 =? 0) with true. rewrite orb_true_r. cbv iota. cbn [bind hd]. change (0 =? 0) with true. cbv iota. rewrite G.
    + destruct m; [specialize (Hm eq_refl); destruct (beginning s (d :: w)); [rewrite Hm; reflexivity|destruct Hm as (a & u & Na & ->); cbn [hd bind]; f_equal; apply N.eqb_neq; exact Na]|].
      rewrite (Hf eq_refl). destruct s as [|a s]; [discriminate (Hf eq_refl)|]. cbn [app hd bind]. f_equal. apply N.eqb_neq. inversion T as [|? ? Ha]; subst. lia.
    + destruct m; [|destruct s; discriminate]. specialize (Hm eq_refl). destruct (beginning s (d :: w)); [rewrite Hm; discriminate|destruct Hm as (a & u & _ & ->); discriminate].
Qed.
Print Assumptions glob_one_word.
(** {wizard} matches wiz but neither wizards nor WIZ, even when case is to be ignored *)
Example glob_one_word_ex : let w := [119; 105; 122; 97; 114; 100] in
  word w /\ text [119; 105; 122] /\ text [87; 73; 90] /\
  GlobExpression [119; 105; 122; 0] (lbrace :: w ++ [rbrace; 0]) false = Ok true /\
  GlobExpression [119; 105; 122; 97; 114; 100; 115; 0] (lbrace :: w ++ [rbrace; 0]) false = Ok false /\
  GlobExpression [87; 73; 90; 0] (lbrace :: w ++ [rbrace; 0]) true = Ok false.
Proof. repeat split; repeat constructor; cbn; intuition discriminate. Qed.
(** C74 fails for alternatives: {wizard} matches wiz, and {a,b}c does not match ac *)
Theorem glob_alternatives_refuted :
  GlobExpression [119; 105; 122; 0] [123; 119; 105; 122; 97; 114; 100; 125; 0] false = Ok true /\
  GlobExpression [97; 99; 0] [123; 97; 44; 98; 125; 99; 0] false = Ok false.
Proof. split; reflexivity. Qed.
(** C75 fails: the patterns [a- and {\ are read past their end *)
Theorem glob_overread_refuted : forall c s ci, 97 < c < 128 ->
  GlobExpression (c :: s ++ [0]) [91; 97; 45; 0] ci = UB.
Proof.
  intros c s ci C. unfold GlobExpression, glob_start. cbn [hd bind]. change (91 =? 0) with false. cbv iota.
  change (LocaleCompare [91; 97; 45; 0] [star; 0]) with (@Ok Z 49%Z). cbn [bind]. change (49 =? 0)%Z with false. cbv iota.
  cbn [length]. generalize 4%nat as fuel. intros fuel. cbn [glob_loop hd bind].
  destruct (N.eqb_spec c 0); [lia|]. cbn [andb]. change (91 =? 0) with false. change (91 =? star) with false. change (91 =? lbracket) with true. cbv iota.
  cbn [tl bind length bracket hd]. change (97 =? 0) with false. change (97 =? rbracket) with false. change (97 =? backslash) with false. cbn [orb bind hd tl].
  change (97 =? 0) with false. change (45 =? minus) with true. cbn [bind tl hd]. change (0 =? rbracket) with false. change (0 =? backslash) with false. cbn [bind andb hd].
  replace ((schar c <? schar 97)%Z || (schar 0 <? schar c)%Z) with true; [reflexivity|]. symmetry. apply orb_true_iff. right.
  unfold schar. destruct (N.ltb_spec c 128); [|lia]. change (0 <? 128) with true. cbv iota. lia.
Qed.
Theorem glob_brace_overread_refuted : forall c s ci, 0 < c < 256 -> GlobExpression (c :: s ++ [0]) [123; 92; 0] ci = UB.
Proof.
  intros c s ci C. unfold GlobExpression, glob_start. cbn [hd bind]. change (123 =? 0) with false. cbv iota.
  change (LocaleCompare [123; 92; 0] [star; 0]) with (@Ok Z 81%Z). cbn [bind]. change (81 =? 0)%Z with false. cbv iota.
  cbn [length]. generalize 3%nat as fuel. intros fuel. cbn [glob_loop hd bind].
  destruct (N.eqb_spec c 0); [lia|]. cbn [andb]. change (123 =? 0) with false. change (123 =? star) with false. change (123 =? lbracket) with false.
  change (123 =? qmark) with false. change (123 =? lbrace) with true. cbv iota. cbn [tl bind length brace hd]. change (92 =? rbrace) with false. change (92 =? 0) with false.
  cbn [orb]. cbv iota. cbn [alternative hd bind]. destruct (N.eqb_spec c 0); [lia|]. change (92 =? 0) with false. change (92 =? comma) with false. change (92 =? rbrace) with false.
  change (92 =? backslash) with true. cbn [orb negb tl bind hd]. destruct (s ++ [0]) as [|x t] eqn:E; [destruct s; discriminate|]. reflexivity.
Qed.
Print Assumptions glob_overread_refuted.
