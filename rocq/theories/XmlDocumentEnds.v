(** Documents with document types: reading them ends, and stays inside the text. *)
From Coq Require Import Arith NArith ZArith Bool String Lia ZifyBool ZifyNat ZifyN List.
From Verif Require Import Base Outcome CStringModel CStringSpec CStringProps OptionModel Base64Model ScanModel XmlModel DoctypeModel XmlDocumentModel XmlProof XmlProof2 XmlProof4 XmlProof5 DoctypeProof DoctypeEnds.
Import ListNotations.

(** ** what is left of a text *)
Definition within (q p : list N) : Prop := length q <= length p /\ forall P : N -> Prop, Forall P p -> Forall P q.
Lemma within_refl p : within p p. Proof. split; [lia|auto]. Qed.
Lemma within_trans r q p : within r q -> within q p -> within r p.
Proof. intros [A B] [C D]. split; [lia|intros P H; auto]. Qed.
Lemma within_suffix q p : suffix q p -> within q p.
Proof. intros H. split; [now apply suffix_length|intros P; now apply suffix_Forall]. Qed.
Lemma within_span stop p : within (fst (span stop p)) p.
Proof.
  pose proof (span_spec stop p) as E. destruct (span stop p) as [a r]. cbn [fst snd] in *. subst p. split; [rewrite app_length; lia|].
  intros P H. now apply Forall_app in H.
Qed.
Lemma within_firstn n p : within (firstn n p) p.
Proof. split; [rewrite firstn_length; lia|]. intros P H. rewrite <- (firstn_skipn n p) in H. now apply Forall_app in H. Qed.
Lemma suffix_in c q p : suffix q p -> ~ In c p -> ~ In c q.
Proof. intros [a ->] H K. apply H. apply in_or_app. now right. Qed.
Lemma within_in c q p : within q p -> ~ In c p -> ~ In c q.
Proof.
  intros [_ W] H K. specialize (W (fun x => x <> c)). assert (Forall (fun x => x <> c) p) as F by (apply Forall_forall; intros x X ->; contradiction).
  apply W in F. rewrite Forall_forall in F. now apply (F c).
Qed.

(** ** values and contents *)
Lemma value_ends bound dec d st s : fits bound d -> 5 <= bound -> S bound * length s < dec -> exists r, ParseEntities dec (general d) st s = Ok (Some r).
Proof. intros [t [_ F]] B L. now apply (parse_entities_ends bound). Qed.
Lemma attribute_ends bound dec d tag name s : fits bound d -> 5 <= bound -> S bound * length s < dec -> exists r, attribute_value dec d tag name s = Ok (Some r).
Proof.
  intros F B L. unfold attribute_value, ParseTokens. destruct (value_ends bound dec d Attribute s F B L) as [r ->].
  destruct (attribute_type d tag name); eexists; reflexivity.
Qed.
Lemma content_ends bound dec d st s t : fits bound d -> 5 <= bound -> S bound * length s < dec -> exists t', content_of dec d st s t = Ok (Some t').
Proof.
  intros F B L. unfold content_of. destruct t as [|f o|r]; [now eexists| |now eexists]. destruct s as [|c s]; [now eexists|].
  destruct (value_ends bound dec d st (c :: s) F B L) as [r ->]. cbn [bind option_map]. now eexists.
Qed.

Lemma attributes_end bound dec d tag fuel : fits bound d -> 5 <= bound -> forall p acc, S bound * length p < dec -> length p < fuel ->
  attributes_of fuel dec d tag p acc = Ok (Some (inr tt)) \/
  exists l q, attributes_of fuel dec d tag p acc = Ok (Some (inl (l, q))) /\ suffix q p.
Proof.
  intros Fd B. induction fuel as [|fuel IH]; intros p acc D L; [lia|].
  assert (forall p' acc', suffix p' p -> length p' < length p ->
    attributes_of fuel dec d tag p' acc' = Ok (Some (inr tt)) \/
    exists l q, attributes_of fuel dec d tag p' acc' = Ok (Some (inl (l, q))) /\ suffix q p) as G.
  { intros p' acc' S1 L1. destruct (IH p' acc') as [E|(l & q & E & S2)]; [nia|lia|now left|].
    right. exists l, q. split; [exact E|]. now apply (suffix_trans q p'). }
  destruct p as [|c p]; [right; exists acc, []; split; [reflexivity|apply suffix_refl]|].
  cbn [attributes_of]. destruct ((c =? 47)%N || (c =? 62)%N) eqn:C; [right; exists acc, (c :: p); split; [reflexivity|apply suffix_refl]|].
  destruct (span (fun c => xml_space c || one_of [61; 47; 62]%N c) (c :: p)) as [name p1] eqn:Sp.
  pose proof (span_suffix _ _ _ _ Sp) as [S1 E1].
  destruct p1 as [|e p2].
  { apply G; [exists (c :: p); now rewrite app_nil_r|cbn; lia]. }
  assert (length p2 < length (c :: p)) as L2 by (rewrite E1, app_length; cbn [length]; lia).
  assert (suffix p2 (c :: p)) as S2 by (eapply suffix_cons; exact S1).
  destruct ((e =? 61)%N || isspace e) eqn:Ee.
  - destruct (span (fun c => negb (xml_space c || (c =? 61)%N)) p2) as [sp p3] eqn:Sp3. cbn [snd].
    pose proof (span_suffix _ _ _ _ Sp3) as [S3 _]. pose proof (suffix_length _ _ S3) as L3.
    pose proof (suffix_trans _ _ _ S3 S2) as S3'.
    destruct p3 as [|q p4]; [apply G; [assumption|cbn [length] in *; lia]|].
    destruct ((q =? 34)%N || (q =? 39)%N).
    + destruct (span (N.eqb q) p4) as [value p5] eqn:Sp5. pose proof (span_suffix _ _ _ _ Sp5) as [S5 E5].
      destruct p5 as [|x p6]; [now left|].
      assert (length value < length (c :: p)) as Lv by (pose proof (f_equal (@length N) E5) as K; rewrite app_length in K; cbn [length] in *; lia).
      destruct (attribute_ends bound dec d tag name value Fd B) as [v ->]; [nia|]. cbn [bind].
      pose proof (suffix_length _ _ S5). pose proof (suffix_length _ _ (drop_spaces_suffix p6)). cbn [length] in *.
      apply G; [|cbn [length]; lia]. eapply suffix_trans; [apply drop_spaces_suffix|]. eapply suffix_trans; [eapply suffix_cons, S5|].
      now apply suffix_cons in S3'.
    + pose proof (suffix_length _ _ (drop_spaces_suffix (q :: p4))).
      apply G; [eapply suffix_trans; [apply drop_spaces_suffix|exact S3']|lia].
  - destruct name as [|n name].
    { cbn [app] in E1. injection E1 as <- <-. cbn [span] in Sp.
      destruct (xml_space c || one_of [61; 47; 62]%N c) eqn:Q; [|destruct (span _ p) in Sp; discriminate].
      exfalso. unfold xml_space, one_of in Q. cbn [existsb] in Q. unfold isspace in Ee. lia. }
    pose proof (suffix_length _ _ (drop_spaces_suffix (e :: p2))) as Ld.
    apply G; [eapply suffix_trans; [apply drop_spaces_suffix|exact S1]|]. rewrite E1. cbn [app length]. rewrite app_length. cbn [length] in *. lia.
Qed.

Lemma doctype_end_suffix p : forall inside, suffix (snd (doctype_end inside p)) p.
Proof.
  induction p as [|c p IH]; intros inside; cbn [doctype_end]; [apply suffix_refl|].
  match goal with |- context [if ?x then _ else _] => destruct x end; [apply suffix_refl|].
  eapply suffix_trans; [apply IH|now exists [c]].
Qed.

(** ** markup *)
Definition no_doctype (r : parsed) : Prop := r <> Doctype.
Lemma stop_no_doctype w t : no_doctype (stop w t).
Proof. destruct t; discriminate. Qed.
Lemma element_ends bound dec terminal d p ignore t : fits bound d -> 5 <= bound -> S bound * length p < dec -> text p ->
  (exists r, element_markup dec terminal d p ignore t = Ok (Some (inr r)) /\ no_doctype r) \/
  exists t' i q, element_markup dec terminal d p ignore t = Ok (Some (inl (t', i, q))) /\ suffix q p.
Proof.
  intros Fd B D T. unfold element_markup.
  assert (forall (X : Type) (A B : X), match t with After _ => A | _ => B end = if match t with After _ => true | _ => false end then A else B) as M by (intros; now destruct t).
  rewrite M. clear M.
  assert (exists r, Ok (Some (inr (stop true t))) = Ok (Some (@inr (tree * nat * list N) _ r)) /\ no_doctype r) as Fail by (eexists; split; [reflexivity|apply stop_no_doctype]).
  destruct (match t with After _ => true | _ => false end); [now left|].
  destruct (span (fun c => xml_space c || one_of [47; 62]%N c) p) as [tag p1] eqn:Sp. pose proof (span_suffix _ _ _ _ Sp) as [S1 E1].
  set (p2 := drop_spaces p1).
  assert (suffix p2 p) as S2 by (eapply suffix_trans; [apply drop_spaces_suffix|exact S1]).
  pose proof (suffix_length _ _ S2) as L2.
  assert (forall r : outcome (option (list attr * list N + unit)), (r = Ok (Some (inr tt)) \/ exists l q, r = Ok (Some (inl (l, q))) /\ suffix q p2) -> r = Ok (Some (inr tt)) \/ exists l q, r = Ok (Some (inl (l, q))) /\ suffix q p) as W.
  { intros r [E|(l & q & E & Sq)]; [now left|]. right. exists l, q. split; [exact E|now apply (suffix_trans q p2)]. }
  match goal with |- (exists r, (let* u := ?m in _) = _ /\ _) \/ _ => assert (m = Ok (Some (inr tt)) \/ exists l q, m = Ok (Some (inl (l, q))) /\ suffix q p) as [-> | (attrs & p3 & -> & S3)] end.
  { apply W. destruct ((alpha (hd 0%N p2) || (hd 0 p2 =? 95))%N && (ignore =? 0)).
    - apply (attributes_end bound); [assumption|assumption|nia|lia].
    - right. do 2 eexists. split; [reflexivity|]. destruct (span (one_of [47; 62]%N) p2) as [a r] eqn:Sp2. now apply span_suffix in Sp2. }
  { now left. }
  cbn [bind]. assert (text tag) as Tt by (unfold text in *; rewrite E1 in T; now apply Forall_app in T).
  destruct (skip_tag_ends tag Tt) as [sk ->]. cbn [bind].
  assert (forall A C, (forall p4, p3 = 47%N :: p4 -> (exists r, A p4 = Ok (Some (inr r)) /\ no_doctype r) \/ exists t' i q, A p4 = Ok (Some (inl (t', i, q))) /\ suffix q p) ->
    ((exists r, C = Ok (Some (inr r)) /\ no_doctype r) \/ exists t' i q, C = Ok (Some (inl (t', i, q))) /\ suffix q p) ->
    (exists r : parsed, match p3 with 47%N :: p4 => A p4 | _ => C end = Ok (Some (inr r)) /\ no_doctype r) \/
    exists (t' : tree) (i : nat) (q : list N), match p3 with 47%N :: p4 => A p4 | _ => C end = Ok (Some (inl (t', i, q))) /\ suffix q p) as M.
  { intros A C HA HB. destruct p3 as [|e p4]; [exact HB|]. destruct (N.eq_dec e 47) as [->|Nd]; [now apply HA|].
    replace (match e with 47%N => A p4 | _ => C end) with C; [exact HB|].
    destruct e as [|x]; [reflexivity|]. do 6 (destruct x as [x|x|]; try reflexivity). contradiction. }
  apply M; clear M.
  - intros p4 ->. pose proof (suffix_cons _ _ _ S3) as S4.
    destruct (negb _); [now left|]. destruct (negb (ignore =? 0) || sk); [right; do 3 eexists; split; [reflexivity|assumption]|].
    right. destruct (close_tag tag (open_tag tag attrs t)); do 3 eexists; (split; [reflexivity|assumption]).
  - destruct (match p3 with [] => _ | _ :: _ => _ end); [|now left].
    right. destruct ((ignore =? 0) && negb sk); do 3 eexists; (split; [reflexivity|assumption]).
Qed.

Lemma markup_document_ends bound dec lim terminal d p ignore t : fits bound d -> 5 <= bound -> length p <= bound -> S bound * length p < dec -> text p -> ~ In 37%N p ->
  (exists r d', document_markup dec lim terminal d p ignore t = Ok (Some (inr r, d')) /\ no_doctype r) \/
  exists t' i q d', document_markup dec lim terminal d p ignore t = Ok (Some (inl (t', i, q), d')) /\ within q p /\ fits bound d'.
Proof.
  intros Fd B Lb D T P. unfold document_markup.
  assert (exists r d', Ok (Some (inr (stop true t), d)) = Ok (Some (@inr (tree * nat * list N) _ r, d')) /\ no_doctype r) as Fail by (do 2 eexists; split; [reflexivity|apply stop_no_doctype]).
  assert (forall t' i q, suffix q p -> exists t1 i1 q1 d1, Ok (Some (@inl (tree * nat * list N) parsed (t', i, q), d)) = Ok (Some (inl (t1, i1, q1), d1)) /\ within q1 p /\ fits bound d1) as Go.
  { intros t' i q Sq. do 4 eexists. split; [reflexivity|]. split; [now apply within_suffix|exact Fd]. }
  destruct (alpha (hd 0%N p) || (hd 0%N p =? 95)%N || (hd 0%N p =? 58)%N || (128 <=? hd 0%N p)%N).
  { destruct (element_ends bound dec terminal d p ignore t Fd B D T) as [(r & -> & Hr)|(t' & i & q & -> & Sq)]; cbn [bind option_map]; [left; now do 2 eexists|right; now apply Go]. }
  destruct (hd 0%N p =? 47)%N.
  { destruct (span (fun c => xml_space c || (c =? 62)%N) (tl p)) as [tag p1] eqn:Sp. pose proof (span_suffix _ _ _ _ Sp) as [S1 E1].
    assert (suffix p1 p) as S1' by (eapply suffix_trans; [exact S1|apply suffix_tl]).
    destruct p1 as [|e p2].
    - destruct (terminal =? 62)%N; [|now left]. destruct (ignore =? 0); [destruct (close_tag tag t); [|now left]|]; right; now apply Go.
    - set (q := if isspace e then _ else _).
      assert (suffix q p) as Sq.
      { subst q. destruct (isspace e); [|assumption]. destruct (span (fun c => negb (xml_space c)) (e :: p2)) as [a r] eqn:Sp2.
        apply span_suffix in Sp2 as [Sp2 _]. cbn [snd]. now apply (suffix_trans r (e :: p2)). }
      destruct (ignore =? 0); [destruct (close_tag tag t); [|now left]|]; right; now apply Go. }
  destruct (starts_with (b "!--") p).
  { destruct (strstr (b "--") (skipn 3 p)) as [q|] eqn:Q; [|now left]. apply strstr_suffix in Q.
    match goal with |- context [if ?c then Ok (Some (inl _, _)) else _] => destruct c end; [|now left].
    right. apply Go. eapply suffix_trans; [apply (suffix_skipn 2)|]. eapply suffix_trans; [exact Q|apply (suffix_skipn 3)]. }
  destruct (starts_with (b "![CDATA[") p).
  { destruct (strstr (b "]]>") p) as [q|] eqn:Q; [|now left]. apply strstr_suffix in Q. right.
    assert (suffix (skipn 2 q) p) as Sq by (eapply suffix_trans; [apply (suffix_skipn 2)|exact Q]).
    destruct (ignore =? 0).
    - destruct (content_ends bound dec d Cdata (firstn (length p - 8 - length q) (skipn 8 p)) t Fd B) as [t' ->]; [|cbn [bind option_map]; now apply Go].
      assert (length (firstn (length p - 8 - length q) (skipn 8 p)) <= length p) by (rewrite firstn_length, skipn_length; lia). nia.
    - cbn [bind option_map]. now apply Go. }
  destruct (starts_with (b "!DOCTYPE") p).
  { destruct (doctype_end false p) as [inside q] eqn:Q. pose proof (doctype_end_suffix p false) as Sq. rewrite Q in Sq. cbn [snd] in Sq.
    match goal with |- context [if ?c then _ else if inside then _ else _] => destruct c end; [now left|].
    destruct inside; [|right; now apply Go].
    assert (within (internal_subset p q) p) as [Ls Fs].
    { unfold internal_subset. eapply within_trans; [apply within_firstn|]. apply within_suffix. eapply suffix_trans; [apply suffix_tl|].
      destruct (span (N.eqb 91) p) as [a r] eqn:Sp. now apply span_suffix in Sp. }
    assert (~ In 37%N (internal_subset p q)) as Ps by (apply (within_in 37%N _ p); [now split|exact P]).
    destruct (declarations_fit bound dec lim (S (length (internal_subset p q))) None (internal_subset p q)
      {| general := general d; parameters := []; defaults := defaults d; standalone := standalone d |} Ps) as [v [E Fv]]; [exact Fd|exact B|lia|nia|lia|].
    unfold add_doctype. rewrite E. cbn [bind]. destruct v as [d'|d'].
    - right. exists t, ignore, (tl q), d'. split; [reflexivity|]. split; [|exact Fv]. apply within_suffix. eapply suffix_trans; [apply suffix_tl|exact Sq].
    - left. do 2 eexists. split; [reflexivity|apply stop_no_doctype]. }
  destruct (hd 0%N p =? 63)%N; [|now left].
  destruct (end_instruction p) as [q|] eqn:Q; [|now left]. apply end_instruction_suffix in Q.
  match goal with |- context [if ?c then (if _ then _ else _) else _] => destruct c end; [|now left].
  right. destruct (length p =? length q + 1).
  - do 4 eexists. split; [reflexivity|]. split; [|exact Fd]. eapply within_trans; [apply within_span|now apply within_suffix].
  - do 4 eexists. split; [reflexivity|]. split; [now apply within_suffix|exact Fd].
Qed.

Lemma document_ends bound dec lim terminal fuel : 5 <= bound -> forall d p ignore t, fits bound d -> length p <= bound -> S bound * length p < dec -> text p -> ~ In 37%N p -> length p < fuel ->
  exists r d', document fuel dec lim terminal d p ignore t = Ok (Some (r, d')) /\ no_doctype r.
Proof.
  intros B. induction fuel as [|fuel IH]; intros d p ignore t Fd Lb D T P L; [lia|]. cbn [document].
  destruct (markup_document_ends bound dec lim terminal d p ignore t Fd B Lb D T P) as [(r & d' & -> & Hr)|(t' & i & q & d' & -> & Wq & Fq)]; cbn [bind]; [now do 2 eexists|].
  assert (exists r d1, Ok (Some (match t' with After _ => stop false t' | _ => stop true t' end, d')) = Ok (Some (r, d1)) /\ no_doctype r) as Fin.
  { do 2 eexists. split; [reflexivity|]. destruct t'; discriminate. }
  destruct (tl q) as [|c q'] eqn:Eq; [exact Fin|].
  assert (within (c :: q') p /\ length (c :: q') < length p) as [W1 L1].
  { destruct q as [|e q]; [discriminate|]. cbn [tl] in Eq. subst q. split; [eapply within_trans; [apply within_suffix; now exists [e]|exact Wq]|]. destruct Wq as [Wq _]. cbn [length] in *. lia. }
  destruct (span (N.eqb 60) (c :: q')) as [s q2] eqn:Sp. pose proof (span_suffix _ _ _ _ Sp) as [S2 E2].
  destruct q2 as [|e q3]; [exact Fin|].
  assert (within q3 p) as W3 by (eapply within_trans; [apply within_suffix; eapply suffix_cons, S2|exact W1]).
  assert (length q3 < fuel /\ length q3 < length p) as [L3 L3'] by (apply suffix_length in S2; cbn [length] in *; lia).
  assert (length s <= length p) as Ls by (rewrite E2, app_length in L1; cbn [length] in L1; lia).
  assert (text q3) as T3 by (now apply (proj2 W3)).
  assert (~ In 37%N q3) as P3 by now apply (within_in 37%N q3 p).
  destruct (i =? 0).
  - destruct (content_ends bound dec d' General s t' Fq B) as [t2 ->]; [nia|]. cbn [bind]. apply IH; try assumption; [lia|nia].
  - cbn [bind]. apply IH; try assumption; [lia|nia].
Qed.
Lemma empty_fits bound alone : fits bound (empty_dtd alone).
Proof. exists []. split; [reflexivity|]. cbn. apply predefined_sound. Qed.
Lemma new_document_ends s fuel dec lim : text s -> ~ In 37%N s -> length s <= fuel -> (6 + length s) * length s < dec ->
  exists r d, NewXMLDocument fuel dec lim s = Ok (Some (r, d)) /\ no_doctype r.
Proof.
  intros T P L D. unfold NewXMLDocument. destruct s as [|c s]; [do 2 eexists; split; [reflexivity|discriminate]|].
  destruct (span (N.eqb 60) (removelast (c :: s))) as [a r] eqn:Sp. cbn [snd]. pose proof (span_suffix _ _ _ _ Sp) as [S1 _].
  destruct r as [|e p]; [do 2 eexists; split; [reflexivity|discriminate]|].
  destruct (exists_last (l := c :: s)) as (l & z & E); [discriminate|]. rewrite E in *. rewrite removelast_last in S1. rewrite app_length in *. cbn [length] in *.
  pose proof (suffix_length _ _ S1) as L1. cbn [length] in L1.
  apply (document_ends (5 + (length l + 1))).
  - lia.
  - apply empty_fits.
  - lia.
  - nia.
  - eapply suffix_Forall; [eapply suffix_cons, S1|]. now apply Forall_app in T.
  - apply (suffix_in 37%N p l); [eapply suffix_cons, S1|]. intros K. apply P. apply in_or_app. now left.
  - lia.
Qed.
