(** Lemmas on RdfModel: the reader on the text the writer makes. *)
From Coq Require Import Arith NArith ZArith Bool String Lia ZifyBool ZifyNat ZifyN List.
From Verif Require Import Base Outcome CStringModel CStringSpec CStringProps OptionModel OptionProps ScanModel ScanProof2
  XmlModel XmlSpec XmlTreeSpec XmlProof XmlProof2 XmlProof3 XmlProof4 XmlProof5 RdfModel.
Import ListNotations.

(** * Steps of the reader, the last byte of the document being anything *)
Lemma markup_opening terminal tag p2 sep attrs rest t : tag_name tag -> ~ container tag -> opened t ->
  (sep = 62 \/ sep = 32)%N ->
  (let p := drop_spaces (sep :: p2) in
   if (alpha (hd 0%N p) || (hd 0 p =? 95))%N && (0 =? 0) then get_attributes (S (length p)) p []
   else Ok (Some (inl ([], snd (span (one_of [47; 62]%N) p))))) = Ok (Some (inl (attrs, 62%N :: rest))) ->
  markup terminal (tag ++ sep :: p2) 0 t = Ok (Some (inl (open_tag tag attrs t, 0, 62%N :: rest))).
Proof.
  intros T K O S G. pose proof (not_container tag T K) as Sk. destruct T as (T & x & tag' & E & X).
  assert (span (fun c => xml_space c || one_of [47; 62]%N c) (tag ++ sep :: p2) = (tag, sep :: p2)) as Sp.
  { apply span_app; [|destruct S; subst; reflexivity].
    eapply Forall_impl; [|exact T]. intros y Y. destruct (name_stop y Y) as (Y1 & _ & Y2 & Y3 & _). rewrite Y1. cbn. lia. }
  unfold markup. rewrite Sp.
  assert (hd 0%N (tag ++ sep :: p2) = x) as -> by (subst tag; reflexivity).
  replace (alpha x || (x =? 95)%N || (x =? 58)%N || (128 <=? x)%N) with true by (unfold alpha; unfold letter in X; lia).
  cbv zeta in G. rewrite G. cbn [bind]. rewrite Sk. cbn [bind].
  destruct t as [|f o|r]; [| |destruct O]; reflexivity.
Qed.
Lemma markup_plain terminal tag rest t : tag_name tag -> ~ container tag -> opened t ->
  markup terminal (tag ++ 62%N :: rest) 0 t = Ok (Some (inl (open_tag tag [] t, 0, 62%N :: rest))).
Proof. intros T K O. apply markup_opening; try assumption; [now left|]. reflexivity. Qed.
Lemma markup_closing terminal tag f o r : tag_name tag -> f_tag f = tag ->
  markup terminal (47%N :: tag ++ 62%N :: r) 0 (Inside f o) =
  Ok (Some (inl (match o with [] => After (closed f) | g :: o => Inside (with_kid g (closed f)) o end, 0, 62%N :: r))).
Proof.
  intros (T & x & tag' & E & X) F. unfold markup. cbn [hd tl].
  replace (alpha 47 || (47 =? 95)%N || (47 =? 58)%N || (128 <=? 47)%N) with false by reflexivity.
  change (47 =? 47)%N with true. cbv iota.
  assert (Forall (fun c => xml_space c || (c =? 62)%N = false) tag) as A.
  { eapply Forall_impl; [|exact T]. intros y Y. destruct (name_stop y Y) as (Y1 & _ & Y2 & Y3 & _). rewrite Y1. cbn. lia. }
  rewrite span_app by (assumption || reflexivity).
  assert (close_tag tag (Inside f o) = Some (match o with [] => After (closed f) | g :: o => Inside (with_kid g (closed f)) o end)) as C.
  { cbn [close_tag]. rewrite F. destruct (list_eq_dec N.eq_dec tag tag); [reflexivity|congruence]. }
  cbn [Nat.eqb]. rewrite C. reflexivity.
Qed.
(** text that stands for itself *)
Definition value_text (s : list N) : Prop := Forall (fun c => c <> 0 /\ c <> 13 /\ c <> 38 /\ c <> 60)%N s.
Lemma value_plain s : value_text s -> plain_text s.
Proof. apply Forall_impl. intros; tauto. Qed.
Lemma parse_plain s fuel : plain_text s -> length s < fuel -> ParseEntities fuel predefined General s = Ok (Some s).
Proof.
  intros P F. unfold ParseEntities. rewrite normalize_none by now apply plain_no_cr.
  replace fuel with (length s + S (fuel - length s - 1)) by lia.
  pose proof (decode_plain predefined false s P (S (fuel - length s - 1)) [] []) as D. rewrite app_nil_r in D. rewrite D, decode_end.
  cbn [bind option_map app]. rewrite cstr_none; [reflexivity|now apply plain_no_nul].
Qed.
Lemma after_value fuel terminal s p f o : value_text s ->
  after_markup fuel terminal (62%N :: s ++ 60%N :: p) 0 (Inside f o) = parse fuel terminal p 0 (Inside (more f s) o).
Proof.
  intros H. unfold after_markup. cbn [tl].
  assert (span (N.eqb 60) (s ++ 60%N :: p) = (s, 60%N :: p)) as Sp.
  { apply span_app; [|reflexivity]. eapply Forall_impl; [|exact H]. cbv beta. intros c C. lia. }
  destruct (s ++ 60%N :: p) eqn:E; [destruct s; discriminate|]. rewrite Sp. clear E Sp.
  cbn [Nat.eqb]. unfold add_content. destruct s as [|c s]; [cbn [bind]; now rewrite more_nil|].
  rewrite parse_plain; [reflexivity|now apply value_plain|cbn [length]; lia].
Qed.
(** an attribute whose value has no double quote *)
Lemma attribute_read name value rest acc fuel : attribute_name name -> Forall (fun c => c <> 34%N) value ->
  exists v, get_attributes (S fuel) (name ++ [61; 34]%N ++ value ++ 34%N :: rest) acc =
            get_attributes fuel (drop_spaces rest) (acc ++ [(name, Some v)]).
Proof.
  intros (A & x & n' & -> & L) V. destruct (parse_text Attribute value) as [v Pv]. exists v.
  assert (Forall name_char (x :: n')) as A' by assumption.
  inversion A as [|? ? X A2]; subst. destruct (name_stop x X) as (_ & _ & X1 & X2 & X3).
  cbn [app]. cbn [get_attributes]. replace ((x =? 47) || (x =? 62))%N with false by lia.
  change (x :: n' ++ 61%N :: ?y) with ((x :: n') ++ 61%N :: y).
  rewrite span_app; [| |reflexivity].
  2:{ eapply Forall_impl; [|exact A']. intros y Y. destruct (name_stop y Y) as (Y1 & Y2 & Y3 & Y4 & _). rewrite Y1. cbn. lia. }
  change (61 =? 61)%N with true. cbn [orb].
  rewrite (span_stop _ 34) by reflexivity. cbn [snd]. change (34 =? 34)%N with true. cbn [orb].
  rewrite span_app; [| |reflexivity].
  2:{ eapply Forall_impl; [|exact V]. cbv beta. intros y Y. lia. }
  rewrite Pv. reflexivity.
Qed.

(** * One field *)
Lemma cipher_tag n : Forall name_char n -> tag_name (b "cipher:" ++ n) /\ ~ container (b "cipher:" ++ n).
Proof.
  intros H. split.
  - split; [apply Forall_app; split; [|assumption]|].
    + apply Forall_forall. intros c C. repeat (destruct C as [<-|C]; [unfold name_char, letter; cbn; lia|]). destruct C.
    + eexists 99%N, _. split; [reflexivity|]. left. unfold letter. lia.
  - intros [K|K]; discriminate K.
Qed.
Lemma newline_value : value_text newline.
Proof. constructor; [repeat split; discriminate|constructor]. Qed.
Lemma blanks_value k : value_text (repeat 32%N k).
Proof. induction k; constructor; [repeat split; discriminate|assumption]. Qed.
Definition kid (f : list N * list N) : xml := Xml (b "cipher:" ++ fst f) [] (snd f) [].
(** '<' was read before the first and after the last *)
Lemma field_read n v p f o fuel terminal : Forall name_char n -> value_text v ->
  parse (S (S fuel)) terminal ((b "cipher:" ++ n) ++ 62%N :: v ++ 60%N :: 47%N :: (b "cipher:" ++ n) ++ 62%N :: p) 0 (Inside f o) =
  after_markup fuel terminal (62%N :: p) 0 (Inside (with_kid f (kid (n, v))) o).
Proof.
  intros Hn Hv. destruct (cipher_tag n Hn) as [T K].
  rewrite parse_step, markup_plain by (assumption || exact I). cbn [bind open_tag]. rewrite after_value by assumption.
  rewrite parse_step, markup_closing by (assumption || reflexivity). reflexivity.
Qed.
Definition nice (f : list N * list N) : Prop := Forall name_char (fst f) /\ value_text (snd f).
(** the lines of all fields, and the blanks and '<' of what follows *)
Definition line' (f : list N * list N) : list N :=
  b "    <cipher:" ++ fst f ++ b ">" ++ snd f ++ b "</cipher:" ++ fst f ++ b ">" ++ newline.
Fixpoint collected (g : frame) (l : list (list N * list N)) : frame :=
  match l with [] => more g (b "  ") | f :: l => collected (more (with_kid (more g (b "    ")) (kid f)) newline) l end.
Lemma more_more g s t : more (more g s) t = more g (s ++ t).
Proof. unfold more. cbn. now rewrite app_assoc. Qed.
Lemma lines_read o terminal p : forall l pre g fuel, Forall nice l -> value_text pre ->
  after_markup (2 * length l + fuel) terminal (62%N :: pre ++ flat_map line' l ++ b "  <" ++ p) 0 (Inside g o) =
  parse fuel terminal p 0 (Inside (collected (more g pre) l) o).
Proof.
  induction l as [|[n v] l IH]; intros pre g fuel H P.
  - cbn [flat_map length Nat.mul plus collected]. change (b "  <" ++ p) with (b "  " ++ 60%N :: p). rewrite app_nil_l, app_assoc.
    rewrite after_value; [now rewrite more_more|]. apply Forall_app. split; [assumption|apply (blanks_value 2)].
  - inversion H as [|? ? [H1 H2] H3]; subst. cbn [fst snd] in *. cbn [flat_map collected].
    replace (2 * length ((n, v) :: l) + fuel) with (S (S (2 * length l + fuel))) by (cbn [length]; lia).
    unfold line' at 1. cbn [fst snd].
    replace (62%N :: pre ++ ((b "    <cipher:" ++ n ++ b ">" ++ v ++ b "</cipher:" ++ n ++ b ">" ++ newline) ++ flat_map line' l) ++ b "  <" ++ p)
      with (62%N :: (pre ++ b "    ") ++ 60%N :: (b "cipher:" ++ n) ++ 62%N :: v ++ 60%N :: 47%N :: (b "cipher:" ++ n) ++ 62%N :: (newline ++ flat_map line' l ++ b "  <" ++ p)).
    2:{ f_equal. rewrite <- !app_assoc. f_equal. }
    rewrite after_value; [|apply Forall_app; split; [assumption|apply (blanks_value 4)]].
    rewrite field_read by assumption. rewrite IH; [|assumption|apply newline_value]. now rewrite more_more.
Qed.
Lemma collected_kids l : forall g, f_tag (collected g l) = f_tag g /\ map snd (f_kids (collected g l)) = map snd (f_kids g) ++ map kid l.
Proof.
  induction l as [|f l IH]; intros g; cbn [collected map]; [split; [reflexivity|cbn; now rewrite app_nil_r]|].
  destruct (IH (more (with_kid (more g (b "    ")) (kid f)) newline)) as [-> ->]. split; [reflexivity|].
  cbn [more with_kid f_kids]. rewrite map_app, <- app_assoc. reflexivity.
Qed.

(** * The whole text *)
Lemma decide_tag s : match s with c :: _ => (alpha c || (c =? 95)%N) | [] => false end &&
  forallb (fun c => alpha c || (c =? 95) || ((48 <=? c) && (c <=? 58)) || (c =? 45) || (c =? 46))%N s = true -> attribute_name s /\ tag_name s.
Proof.
  intros H. apply andb_true_iff in H as [H1 H2].
  assert (Forall name_char s) as A.
  { rewrite forallb_forall in H2. apply Forall_forall. intros c C. specialize (H2 c C). cbv beta in H2. unfold name_char, letter. unfold alpha in H2. lia. }
  destruct s as [|c s]; [discriminate|]. assert (letter c) by (unfold letter; unfold alpha in H1; lia).
  split; (split; [assumption|]); exists c, s; (split; [reflexivity|]); [assumption|now left].
Qed.
Lemma decide_no34 s : forallb (fun c => negb (c =? 34)%N) s = true -> Forall (fun c => c <> 34%N) s.
Proof. intros H. rewrite forallb_forall in H. apply Forall_forall. intros c C. specialize (H c C). lia. Qed.
Lemma root_read rest t : opened t -> exists a,
  markup 10 (b "rdf:RDF xmlns:rdf=" ++ dquote ++ b "http://www.w3.org/1999/02/22-rdf-syntax-ns#" ++ dquote ++ newline
    ++ b "         xmlns:cipher=" ++ dquote ++ b "https://urban-warrior.org/WizardsToolkit/cipher/1.0/" ++ dquote ++ b ">" ++ rest) 0 t =
  Ok (Some (inl (open_tag (b "rdf:RDF") a t, 0, 62%N :: rest))).
Proof.
  intros O.
  destruct (attribute_read (b "xmlns:rdf") (b "http://www.w3.org/1999/02/22-rdf-syntax-ns#")
    (newline ++ b "         xmlns:cipher=" ++ dquote ++ b "https://urban-warrior.org/WizardsToolkit/cipher/1.0/" ++ dquote ++ b ">" ++ rest) [] 0) as [v0 _];
    [now apply decide_tag|now apply decide_no34|].
  set (p := b "xmlns:rdf" ++ [61; 34]%N ++ b "http://www.w3.org/1999/02/22-rdf-syntax-ns#" ++ 34%N ::
    newline ++ b "         xmlns:cipher=" ++ dquote ++ b "https://urban-warrior.org/WizardsToolkit/cipher/1.0/" ++ dquote ++ b ">" ++ rest).
  assert (exists k, length p = S (S k)) as [k Lk] by (eexists; reflexivity).
  destruct (attribute_read (b "xmlns:rdf") (b "http://www.w3.org/1999/02/22-rdf-syntax-ns#")
    (newline ++ b "         xmlns:cipher=" ++ dquote ++ b "https://urban-warrior.org/WizardsToolkit/cipher/1.0/" ++ dquote ++ b ">" ++ rest) [] (S (S k))) as [v1 E1];
    [now apply decide_tag|now apply decide_no34|].
  destruct (attribute_read (b "xmlns:cipher") (b "https://urban-warrior.org/WizardsToolkit/cipher/1.0/") (b ">" ++ rest)
    ([] ++ [(b "xmlns:rdf", Some v1)]) (S k)) as [v2 E2]; [now apply decide_tag|now apply decide_no34|].
  eexists. apply (markup_opening 10 (b "rdf:RDF") p 32); [now apply decide_tag|intros [K|K]; discriminate K|assumption|now right|].
  cbv zeta. change (drop_spaces (32%N :: p)) with p. change ((alpha (hd 0%N p) || (hd 0%N p =? 95)%N) && (0 =? 0)) with true. cbv iota.
  rewrite Lk. fold p in E1. rewrite E1.
  change (drop_spaces (newline ++ b "         xmlns:cipher=" ++ dquote ++ b "https://urban-warrior.org/WizardsToolkit/cipher/1.0/" ++ dquote ++ b ">" ++ rest))
    with (b "xmlns:cipher" ++ [61; 34]%N ++ b "https://urban-warrior.org/WizardsToolkit/cipher/1.0/" ++ 34%N :: b ">" ++ rest).
  etransitivity; [exact E2|reflexivity].
Qed.
Lemma content_read filename rest t : Forall (fun c => c <> 34%N) filename -> opened t -> exists a,
  markup 10 (b "cipher:Content rdf:about=" ++ dquote ++ filename ++ dquote ++ b ">" ++ rest) 0 t =
  Ok (Some (inl (open_tag (b "cipher:Content") a t, 0, 62%N :: rest))).
Proof.
  intros F O. set (p := b "rdf:about" ++ [61; 34]%N ++ filename ++ 34%N :: b ">" ++ rest).
  assert (exists k, length p = S k) as [k Lk] by (eexists; reflexivity).
  destruct (attribute_read (b "rdf:about") filename (b ">" ++ rest) [] (S k)) as [v E1]; [now apply decide_tag|assumption|].
  eexists. apply (markup_opening 10 (b "cipher:Content") p 32); [now apply decide_tag|intros [K|K]; discriminate K|assumption|now right|].
  cbv zeta. change (drop_spaces (32%N :: p)) with p. change ((alpha (hd 0%N p) || (hd 0%N p =? 95)%N) && (0 =? 0)) with true. cbv iota.
  rewrite Lk. etransitivity; [exact E1|reflexivity].
Qed.
(** the text up to the first field *)
Lemma head_read filename rest fuel : Forall (fun c => c <> 34%N) filename -> exists a a',
  parse (S (S fuel)) 10 (tl (rdf_head filename ++ rest)) 0 Before =
  after_markup fuel 10 (62%N :: newline ++ rest) 0
    (Inside (mkFrame (b "cipher:Content") a' [] []) [mkFrame (b "rdf:RDF") a (newline ++ b "  ") []]).
Proof.
  intros F.
  destruct (root_read (newline ++ b "  <cipher:Content rdf:about=" ++ dquote ++ filename ++ dquote ++ b ">" ++ newline ++ rest) Before I) as [a Ea].
  destruct (content_read filename (newline ++ rest) (Inside (mkFrame (b "rdf:RDF") a (newline ++ b "  ") []) []) F I) as [a' Ea'].
  exists a, a'. rewrite parse_step.
  match type of Ea with markup _ ?q _ _ = _ => assert (tl (rdf_head filename ++ rest) = q) as -> end.
  { unfold rdf_head. rewrite <- !app_assoc. reflexivity. }
  rewrite Ea. cbn [bind open_tag].
  change (newline ++ b "  <cipher:Content rdf:about=" ++ dquote ++ filename ++ dquote ++ b ">" ++ newline ++ rest)
    with ((newline ++ b "  ") ++ 60%N :: b "cipher:Content rdf:about=" ++ dquote ++ filename ++ dquote ++ b ">" ++ newline ++ rest).
  rewrite after_value; [|repeat (constructor; [repeat split; discriminate|]); constructor].
  rewrite parse_step. unfold more. cbn [f_tag f_attrs f_content f_kids]. change ([] ++ newline ++ b "  ") with (newline ++ b "  "). rewrite Ea'. reflexivity.
Qed.
Lemma text_read filename l fuel : Forall (fun c => c <> 34%N) filename -> Forall nice l -> exists a a' c c' o kids,
  parse (S (S (2 * length l + S (S fuel)))) 10
    (tl (rdf_head filename ++ flat_map line' l ++ b "  <" ++ b "/cipher:Content>" ++ newline ++ b "</rdf:RDF>")) 0 Before =
  Ok (Some (Tree (Xml (b "rdf:RDF") a c [(o, Xml (b "cipher:Content") a' c' kids)]) false)) /\ map snd kids = map kid l.
Proof.
  intros F H.
  destruct (head_read filename (flat_map line' l ++ b "  <" ++ b "/cipher:Content>" ++ newline ++ b "</rdf:RDF>") (2 * length l + S (S fuel)) F) as (a & a' & E).
  rewrite E. rewrite lines_read by (assumption || apply newline_value).
  match goal with |- context [collected ?g l] => destruct (collected_kids l g) as [Ct Ck]; set (G := collected g l) in *; clearbody G end.
  cbn [more f_tag f_kids map app] in Ct, Ck.
  rewrite parse_step.
  change (b "/cipher:Content>" ++ newline ++ b "</rdf:RDF>") with (47%N :: b "cipher:Content" ++ 62%N :: newline ++ 60%N :: 47%N :: b "rdf:RDF" ++ [62%N]).
  rewrite markup_closing; [|now apply decide_tag|assumption]. cbn [bind].
  rewrite after_value by apply newline_value. rewrite parse_step, markup_closing; [|now apply decide_tag|reflexivity]. cbn [bind].
  unfold after_markup. cbn [tl stop closed more with_kid f_tag f_attrs f_content f_kids app].
  do 5 eexists. exists (f_kids G). split; [|exact Ck]. rewrite <- Ct. reflexivity.
Qed.
