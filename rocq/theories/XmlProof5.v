(** Lemmas on XmlModel: the parser returns on every document. *)
From Coq Require Import Arith NArith ZArith Bool String Lia ZifyBool ZifyNat ZifyN List.
From Verif Require Import Base Outcome CStringModel CStringSpec CStringProps OptionModel Base64Model ScanModel XmlModel XmlSpec XmlProof XmlProof2 XmlProof4.
Import ListNotations.
Ltac Zify.zify_post_hook ::= Z.div_mod_to_equations.

Definition suffix (q p : list N) : Prop := exists pre, p = pre ++ q.
Lemma suffix_refl p : suffix p p.
Proof. now exists []. Qed.
Lemma suffix_trans r q p : suffix r q -> suffix q p -> suffix r p.
Proof. intros [a ->] [c ->]. exists (c ++ a). now rewrite app_assoc. Qed.
Lemma suffix_cons c q p : suffix (c :: q) p -> suffix q p.
Proof. intros [a ->]. exists (a ++ [c]). now rewrite <- app_assoc. Qed.
Lemma suffix_tl p : suffix (tl p) p.
Proof. destruct p as [|c p]; [apply suffix_refl|now exists [c]]. Qed.
Lemma suffix_skipn n p : suffix (skipn n p) p.
Proof. exists (firstn n p). now rewrite firstn_skipn. Qed.
Lemma suffix_length q p : suffix q p -> length q <= length p.
Proof. intros [a ->]. rewrite app_length. lia. Qed.
Lemma suffix_Forall (P : N -> Prop) q p : suffix q p -> Forall P p -> Forall P q.
Proof. intros [a ->] H. now apply Forall_app in H. Qed.
Lemma span_spec stop p : p = fst (span stop p) ++ snd (span stop p).
Proof.
  induction p as [|c p IH]; [reflexivity|]. cbn [span]. destruct (stop c); [reflexivity|].
  destruct (span stop p) as [a r]. cbn [fst snd] in *. cbn [app]. now rewrite <- IH.
Qed.
Lemma span_suffix stop p a r : span stop p = (a, r) -> suffix r p /\ p = a ++ r.
Proof. intros E. pose proof (span_spec stop p) as H. rewrite E in H. cbn [fst snd] in H. split; [now exists a|assumption]. Qed.
Lemma drop_spaces_suffix p : suffix (drop_spaces p) p.
Proof. destruct (drop_spaces_pre p) as (q & E & _). now exists q. Qed.
Lemma strstr_suffix x p q : strstr x p = Some q -> suffix q p.
Proof.
  revert q. induction p as [|c p IH]; intros q H; cbn in H.
  - destruct (starts_with x []); [injection H as <-; apply suffix_refl|discriminate].
  - destruct (starts_with x (c :: p)); [injection H as <-; apply suffix_refl|].
    eapply suffix_trans; [now apply IH|now exists [c]].
Qed.
Lemma end_instruction_suffix p q : end_instruction p = Some q -> suffix q p.
Proof.
  revert q. induction p as [|c p IH]; intros q H; [discriminate|]. cbn in H.
  assert (forall q, suffix q p -> suffix q (c :: p)) as G by (intros r K; eapply suffix_trans; [exact K|now exists [c]]).
  destruct (c =? 63)%N; [|now apply G, IH].
  destruct p as [|d p]; [injection H as <-; apply G, suffix_refl|].
  destruct (d =? 62)%N; [injection H as <-; apply G, suffix_refl|now apply G, IH].
Qed.

Lemma parse_text st s : exists r, ParseEntities (S (6 * length s)) predefined st s = Ok (Some r).
Proof. apply (parse_entities_ends 5); [apply predefined_sound|lia|lia]. Qed.
Lemma add_content_ends st s t : exists t', add_content (S (6 * length s)) st s t = Ok (Some t').
Proof.
  unfold add_content. destruct t as [|f o|r]; [now eexists| |now eexists]. destruct s as [|c s]; [now eexists|].
  destruct (parse_text st (c :: s)) as [r ->]. cbn [bind option_map]. now eexists.
Qed.

Lemma get_attributes_ends fuel : forall p acc, length p < fuel ->
  get_attributes fuel p acc = Ok (Some (inr tt)) \/
  exists l q, get_attributes fuel p acc = Ok (Some (inl (l, q))) /\ suffix q p.
Proof.
  induction fuel as [|fuel IH]; intros p acc L; [lia|].
  assert (forall p' acc', suffix p' p -> length p' < length p ->
    get_attributes fuel p' acc' = Ok (Some (inr tt)) \/
    exists l q, get_attributes fuel p' acc' = Ok (Some (inl (l, q))) /\ suffix q p) as G.
  { intros p' acc' S1 L1. destruct (IH p' acc') as [E|(l & q & E & S2)]; [lia|now left|].
    right. exists l, q. split; [exact E|]. now apply (suffix_trans q p'). }
  destruct p as [|c p]; [right; exists acc, []; split; [reflexivity|apply suffix_refl]|].
  cbn [get_attributes]. destruct ((c =? 47)%N || (c =? 62)%N) eqn:C; [right; exists acc, (c :: p); split; [reflexivity|apply suffix_refl]|].
  destruct (span (fun c => xml_space c || one_of [61; 47; 62]%N c) (c :: p)) as [name p1] eqn:Sp.
  pose proof (span_suffix _ _ _ _ Sp) as [S1 E1].
  destruct p1 as [|e p2].
  { apply G; [exists (c :: p); now rewrite app_nil_r|cbn; lia]. }
  assert (length p2 < length (c :: p)) as L2 by (rewrite E1, app_length; cbn [length]; lia).
  assert (suffix p2 (c :: p)) as S2 by (eapply suffix_cons; exact S1).
  destruct ((e =? 61)%N || isspace e) eqn:Ee.
  - destruct (span (fun c => negb (xml_space c || (c =? 61)%N)) p2) as [sp p3] eqn:Sp3. cbn [snd].
    pose proof (span_suffix _ _ _ _ Sp3) as [S3 _]. pose proof (suffix_length _ _ S3) as L3.
    pose proof (suffix_trans _ _ _ S3 S2) as S3'.
    destruct p3 as [|q p4]; [apply G; [assumption|cbn [length] in *; lia]|].
    destruct ((q =? 34)%N || (q =? 39)%N).
    + destruct (span (N.eqb q) p4) as [value p5] eqn:Sp5. pose proof (span_suffix _ _ _ _ Sp5) as [S5 _].
      destruct p5 as [|x p6]; [now left|]. destruct (parse_text Attribute value) as [v ->]. cbn [bind].
      pose proof (suffix_length _ _ S5). pose proof (suffix_length _ _ (drop_spaces_suffix p6)). cbn [length] in *.
      apply G; [|cbn [length]; lia]. eapply suffix_trans; [apply drop_spaces_suffix|]. eapply suffix_trans; [eapply suffix_cons, S5|].
      now apply suffix_cons in S3'.
    + pose proof (suffix_length _ _ (drop_spaces_suffix (q :: p4))).
      apply G; [eapply suffix_trans; [apply drop_spaces_suffix|exact S3']|lia].
  - (* the name goes up to '/' or '>' *)
    destruct name as [|n name].
    { cbn [app] in E1. injection E1 as <- <-. cbn [span] in Sp.
      destruct (xml_space c || one_of [61; 47; 62]%N c) eqn:Q; [|destruct (span _ p) in Sp; discriminate].
      exfalso. unfold xml_space, one_of in Q. cbn [existsb] in Q. unfold isspace in Ee. lia. }
    pose proof (suffix_length _ _ (drop_spaces_suffix (e :: p2))) as Ld.
    apply G; [eapply suffix_trans; [apply drop_spaces_suffix|exact S1]|]. rewrite E1. cbn [app length]. rewrite app_length. cbn [length] in *. lia.
Qed.

Lemma skip_tag_ends tag : text tag -> exists r, skip_tag tag = Ok r.
Proof.
  intros T. unfold skip_tag, same. rewrite !locale_compare_eq; try assumption; try (now eexists).
  all: apply Forall_forall; intros c C; repeat (destruct C as [<-|C]; [split; reflexivity|]); destruct C.
Qed.

Lemma markup_ends terminal p ignore t : text p ->
  (exists r, markup terminal p ignore t = Ok (Some (inr r))) \/
  exists t' i q, markup terminal p ignore t = Ok (Some (inl (t', i, q))) /\ suffix q p.
Proof.
  intros T. unfold markup.
  destruct (alpha (hd 0%N p) || (hd 0%N p =? 95)%N || (hd 0%N p =? 58)%N || (128 <=? hd 0%N p)%N).
  - assert (forall (X : Type) (A B : X), match t with After _ => A | _ => B end = if match t with After _ => true | _ => false end then A else B) as M by (intros; now destruct t).
    rewrite M. clear M. destruct (match t with After _ => true | _ => false end); [left; now eexists|].
    destruct (span (fun c => xml_space c || one_of [47; 62]%N c) p) as [tag p1] eqn:Sp. pose proof (span_suffix _ _ _ _ Sp) as [S1 E1].
    set (p2 := drop_spaces p1).
    assert (suffix p2 p) as S2 by (eapply suffix_trans; [apply drop_spaces_suffix|exact S1]).
    assert (forall r : outcome (option (list attr * list N + unit)), (r = Ok (Some (inr tt)) \/ exists l q, r = Ok (Some (inl (l, q))) /\ suffix q p2) -> r = Ok (Some (inr tt)) \/ exists l q, r = Ok (Some (inl (l, q))) /\ suffix q p) as W.
    { intros r [E|(l & q & E & Sq)]; [now left|]. right. exists l, q. split; [exact E|now apply (suffix_trans q p2)]. }
    match goal with |- (exists r, (let* u := ?m in _) = _) \/ _ => assert (m = Ok (Some (inr tt)) \/ exists l q, m = Ok (Some (inl (l, q))) /\ suffix q p) as [-> | (attrs & p3 & -> & S3)] end.
    { apply W. destruct ((alpha (hd 0%N p2) || (hd 0 p2 =? 95))%N && (ignore =? 0)).
      - apply get_attributes_ends. lia.
      - right. do 2 eexists. split; [reflexivity|]. destruct (span (one_of [47; 62]%N) p2) as [a r] eqn:Sp2. now apply span_suffix in Sp2. }
    { left. now eexists. }
    cbn [bind]. assert (text tag) as Tt by (unfold text in *; rewrite E1 in T; now apply Forall_app in T).
    destruct (skip_tag_ends tag Tt) as [sk ->]. cbn [bind].
    assert (forall A B, (forall p4, p3 = 47%N :: p4 -> (exists r, A p4 = Ok (Some (inr r))) \/ exists t' i q, A p4 = Ok (Some (inl (t', i, q))) /\ suffix q p) ->
      ((exists r, B = Ok (Some (inr r))) \/ exists t' i q, B = Ok (Some (inl (t', i, q))) /\ suffix q p) ->
      (exists r : parsed, match p3 with 47%N :: p4 => A p4 | _ => B end = Ok (Some (inr r))) \/
      exists (t' : tree) (i : nat) (q : list N), match p3 with 47%N :: p4 => A p4 | _ => B end = Ok (Some (inl (t', i, q))) /\ suffix q p) as M.
    { intros A B HA HB. destruct p3 as [|d p4]; [exact HB|]. destruct (N.eq_dec d 47) as [->|Nd]; [now apply HA|].
      replace (match d with 47%N => A p4 | _ => B end) with B; [exact HB|].
      destruct d as [|[[[]|[]|]|[]|]]; try reflexivity; try (destruct p0; reflexivity).
      all: repeat (match goal with |- context [match ?q with xI _ => _ | xO _ => _ | xH => _ end] => destruct q end; try reflexivity; try congruence). }
    apply M; clear M.
    + intros p4 ->. pose proof (suffix_cons _ _ _ S3) as S4.
      destruct (negb _); [left; now eexists|]. destruct (negb (ignore =? 0) || sk); [right; do 3 eexists; split; [reflexivity|assumption]|].
      right. destruct (close_tag tag (open_tag tag attrs t)); do 3 eexists; (split; [reflexivity|assumption]).
    + destruct (match p3 with [] => _ | _ :: _ => _ end); [|left; now eexists].
      right. destruct ((ignore =? 0) && negb sk); do 3 eexists; (split; [reflexivity|assumption]).
  - destruct (hd 0%N p =? 47)%N.
    + destruct (span (fun c => xml_space c || (c =? 62)%N) (tl p)) as [tag p1] eqn:Sp. pose proof (span_suffix _ _ _ _ Sp) as [S1 E1].
      assert (suffix p1 p) as S1' by (eapply suffix_trans; [exact S1|apply suffix_tl]).
      destruct p1 as [|d p2].
      * destruct (terminal =? 62)%N; [|left; now eexists]. destruct (ignore =? 0); [destruct (close_tag tag t); [|left; now eexists]|];
          right; do 3 eexists; (split; [reflexivity|assumption]).
      * set (q := if isspace d then _ else _).
        assert (suffix q p) as Sq.
        { subst q. destruct (isspace d); [|assumption]. destruct (span (fun c => negb (xml_space c)) (d :: p2)) as [a r] eqn:Sp2.
          apply span_suffix in Sp2 as [Sp2 _]. cbn [snd]. now apply (suffix_trans r (d :: p2)). }
        destruct (ignore =? 0); [destruct (close_tag tag t); [|left; now eexists]|]; right; do 3 eexists; (split; [reflexivity|assumption]).
    + destruct (starts_with (b "!--") p).
      { destruct (strstr (b "--") (skipn 3 p)) as [q|] eqn:Q; [|left; now eexists]. apply strstr_suffix in Q.
        match goal with |- context [if ?c then Ok (Some (inl _)) else _] => destruct c end; [|left; now eexists].
        right. do 3 eexists. split; [reflexivity|]. eapply suffix_trans; [apply (suffix_skipn 2)|]. eapply suffix_trans; [exact Q|apply (suffix_skipn 3)]. }
      destruct (starts_with (b "![CDATA[") p).
      { destruct (strstr (b "]]>") p) as [q|] eqn:Q; [|left; now eexists]. apply strstr_suffix in Q. right.
        destruct (ignore =? 0).
        - destruct (add_content_ends Cdata (firstn (length p - 8 - length q) (skipn 8 p)) t) as [t' ->]. cbn [bind option_map].
          do 3 eexists. split; [reflexivity|]. eapply suffix_trans; [apply (suffix_skipn 2)|exact Q].
        - cbn [bind option_map]. do 3 eexists. split; [reflexivity|]. eapply suffix_trans; [apply (suffix_skipn 2)|exact Q]. }
      destruct (starts_with (b "!DOCTYPE") p); [left; now eexists|].
      destruct (hd 0%N p =? 63)%N; [|left; now eexists].
      destruct (end_instruction p) as [q|] eqn:Q; [|left; now eexists]. apply end_instruction_suffix in Q.
      match goal with |- context [if ?c then Ok (Some (inl _)) else _] => destruct c end; [|left; now eexists].
      right. do 3 eexists. split; [reflexivity|exact Q].
Qed.

Lemma parse_ends terminal fuel : forall p ignore t, text p -> length p < fuel -> exists r, parse fuel terminal p ignore t = Ok (Some r).
Proof.
  induction fuel as [|fuel IH]; intros p ignore t T L; [lia|]. rewrite parse_step.
  destruct (markup_ends terminal p ignore t T) as [[r ->]|(t' & i & q & -> & Sq)]; [now eexists|]. cbn [bind].
  unfold after_markup. destruct (tl q) as [|c q'] eqn:Eq; [now eexists|].
  assert (suffix (c :: q') p /\ length (c :: q') < length p) as [S1 L1].
  { destruct q as [|d q]; [discriminate|]. cbn [tl] in Eq. subst q. split; [now apply suffix_cons in Sq|]. apply suffix_length in Sq. cbn [length] in *. lia. }
  destruct (span (N.eqb 60) (c :: q')) as [s q2] eqn:Sp. pose proof (span_suffix _ _ _ _ Sp) as [S2 _].
  destruct q2 as [|d q3]; [now eexists|].
  assert (suffix q3 p) as S3 by (eapply suffix_trans; [eapply suffix_cons, S2|exact S1]).
  assert (length q3 < fuel) as L3 by (apply suffix_length in S2; cbn [length] in *; lia).
  assert (text q3) as T3 by (eapply suffix_Forall; [exact S3|exact T]).
  destruct (i =? 0).
  - destruct (add_content_ends General s t') as [t2 ->]. cbn [bind]. now apply IH.
  - cbn [bind]. now apply IH.
Qed.
Lemma new_tree_ends s fuel : text s -> length s <= fuel -> exists r, NewXMLTree fuel s = Ok (Some r).
Proof.
  intros T L. unfold NewXMLTree. destruct s as [|c s]; [now eexists|].
  destruct (span (N.eqb 60) (removelast (c :: s))) as [a r] eqn:Sp. cbn [snd]. pose proof (span_suffix _ _ _ _ Sp) as [S1 _].
  destruct r as [|d p]; [now eexists|].
  destruct (exists_last (l := c :: s)) as (l & z & E); [discriminate|]. rewrite E in *. rewrite removelast_last in S1.
  apply parse_ends.
  - eapply suffix_Forall; [eapply suffix_cons, S1|]. now apply Forall_app in T.
  - apply suffix_length in S1. rewrite app_length in L. cbn [length] in *. lia.
Qed.
