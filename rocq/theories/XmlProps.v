(** C87-C93: the XML reader and writer. *)
From Coq Require Import Arith NArith ZArith Bool String Lia ZifyBool ZifyNat ZifyN Sorting List.
From Verif Require Import Base Outcome CStringModel CStringSpec OptionModel Base64Model ScanModel ScanProof2 XmlModel XmlSpec XmlTreeSpec
  XmlProof XmlProof2 XmlProof3 XmlProof4 XmlProof5.
Import ListNotations.

(** * C87: escaped text is read back *)
(** every Latin-1 text of XML characters comes back as its UTF-8 form: as
    content, and as an attribute value when escaped pedantically as
    XMLTreeInfoToXML does *)
Theorem text_round_trip base64 s pedantic fuel : Forall xml_char s -> 4 * length s < fuel ->
  exists r, utf8_text r s /\
    ParseEntities fuel predefined General (CanonicalXMLContent base64 s pedantic) = Ok (Some r) /\
    (pedantic = true -> ParseEntities fuel predefined Attribute (CanonicalXMLContent base64 s pedantic) = Ok (Some r)).
Proof.
  intros H F. exists (ConvertLatin1ToUTF8 s). split; [|split].
  - apply latin1_utf8. eapply Forall_impl; [|exact H]. unfold xml_char. intros. lia.
  - apply parse_canonical; [now left|assumption|assumption].
  - intros ->. apply parse_canonical; [now right|assumption|assumption].
Qed.
Print Assumptions text_round_trip.
Example text_round_trip_ex : let s := [60; 38; 233; 13; 10; 34; 9]%N in
  Forall xml_char s /\
  CanonicalXMLContent (fun x => x) s true = b "&lt;&amp;" ++ [195; 169]%N ++ b "&#xD;&#xA;&quot;&#x9;" /\
  ParseEntities 100 predefined Attribute (CanonicalXMLContent (fun x => x) s true) = Ok (Some [60; 38; 195; 169; 13; 10; 34; 9]%N).
Proof. split; [|split; reflexivity]. repeat (constructor; [unfold xml_char; lia|]). constructor. Qed.
(** without pedantry an attribute value loses its line ends *)
Example text_round_trip_not_pedantic : ParseEntities 100 predefined Attribute (CanonicalXMLContent (fun x => x) [10%N] false) = Ok (Some [32%N]).
Proof. reflexivity. Qed.

(** * C88: character references *)
(** a reference to a code point of Unicode becomes its UTF-8 form, the text around
    it stays *)
Theorem char_reference_partial t pre post s c fuel : plain_text pre -> plain_text post -> char_ref s c -> (0 < c < 1114112)%N ->
  length pre + length post + 1 < fuel ->
  exists u, utf8_text u [c] /\ ParseEntities fuel t General (pre ++ s ++ post) = Ok (Some (pre ++ u ++ post)).
Proof.
  intros P Q R C F. exists (char_bytes (Z.of_N c)). split; [now apply char_bytes_code|]. now apply parse_reference.
Qed.
Print Assumptions char_reference_partial.
(** the euro sign, both ways *)
Example char_reference_ex :
  char_ref (b "&#8364;") 8364 /\ char_ref (b "&#x20aC;") 8364 /\
  ParseEntities 20 predefined General (b "1&#8364;2&#x20aC;") = Ok (Some [49; 226; 130; 172; 50; 226; 130; 172]%N).
Proof.
  split; [|split; [|reflexivity]].
  - exists (b "8364"). split; [discriminate|]. left. split; reflexivity.
  - exists (b "20aC"). split; [discriminate|]. right. split; reflexivity.
Qed.
(** numbers that are no code point are cut to 32 bits and taken, and so are negative ones *)
Theorem char_reference_refuted :
  (exists s c, char_ref s c /\ (1114112 <= c)%N /\ ParseEntities 100 predefined General s = Ok (Some (b "A"))) /\
  ParseEntities 100 predefined General (b "&#-191;") = Ok (Some (b "A")) /\
  ParseEntities 100 predefined General (b "lost&#-256;text") = Ok (Some (b "lost")).
Proof.
  split; [|split; reflexivity]. exists (b "&#4294967361;"), 4294967361%N. split; [|split; [lia|reflexivity]].
  exists (b "4294967361"). split; [discriminate|]. left. split; reflexivity.
Qed.
Print Assumptions char_reference_refuted.

(** * C89: entity expansion ends *)
(** the tables a document can set up: the predefined entities and declarations
    that ValidateEntities let through (xml-tree.c:1797-1799), with the ';' of 1766 *)
Inductive declared (limit : nat) : entities -> Prop :=
| declared_none : declared limit predefined
| declared_one t name value : declared limit t -> ValidateEntities limit (name ++ [59%N]) t value = true ->
    declared limit (t ++ [(name ++ [59%N], value)]).
Lemma declared_sound limit t : declared limit t ->
  exists l, t = predefined ++ l /\ exists bound, 5 <= bound /\ Forall (sound_entry bound) t.
Proof.
  induction 1 as [|t name value _ (l & E & bound & B & F) V].
  - exists []. split; [reflexivity|]. exists 5. split; [lia|apply predefined_sound].
  - exists (l ++ [(name ++ [59%N], value)]). split; [rewrite E; now rewrite <- app_assoc|].
    exists (bound + length value). split; [lia|]. apply Forall_app. split.
    + eapply Forall_impl; [|exact F]. intros e (S & [P|[A L]]); (split; [exact S|]); [now left|right; split; [exact A|lia]].
    + constructor; [|constructor]. split; cbn [fst snd]; [apply in_or_app; right; now left|]. right. split; [|lia].
      intros K. unfold ValidateEntities in V. rewrite E, validate_amp in V by assumption. discriminate.
Qed.
Theorem entity_expansion_ends limit t : declared limit t -> exists k, forall st s fuel, k * length s < fuel ->
  exists r, ParseEntities fuel t st s = Ok (Some r).
Proof.
  intros D. destruct (declared_sound limit t D) as (l & _ & bound & B & F). exists (S bound). intros st s fuel L.
  now apply (parse_entities_ends bound).
Qed.
Print Assumptions entity_expansion_ends.
Definition one_entity : entities := predefined ++ [(b "wiz;", b "wizard")].
Example entity_expansion_ends_ex : declared 1024 one_entity /\
  ParseEntities 100 one_entity General (b "a &wiz;&amp;wiz; &none;") = Ok (Some (b "a wizard&wiz; &none;")).
Proof. split; [|reflexivity]. apply (declared_one 1024 predefined (b "wiz") (b "wizard")); [constructor|reflexivity]. Qed.
(** a table that refers to itself, which ValidateEntities keeps out, would never end *)
Example entity_expansion_circular : ParseEntities 100 (predefined ++ [(b "x;", b "&x;")]) General (b "&x;") = Ok None.
Proof. reflexivity. Qed.

(** * C90: a declared entity is accepted and stands for its value *)
Theorem entity_declaration_partial limit t name value : ~ In 38%N value -> ValidateEntities limit name t value = true.
Proof. intros H. unfold ValidateEntities. apply validate_free; [lia|assumption]. Qed.
Print Assumptions entity_declaration_partial.
(** and a reference to it stands for its value: names as in the table, each with its ';' once, at the end *)
Definition entity_table (t : entities) : Prop :=
  NoDup (map fst t) /\ Forall (fun e => exists n, fst e = n ++ [59%N] /\ ~ In 59%N n) t.
Lemma find_entity_in t n value r : entity_table t -> In (n ++ [59%N], value) t -> ~ In 59%N n ->
  find_entity t ((n ++ [59%N]) ++ r) = Some value.
Proof.
  intros [D F] I N. induction t as [|[m v] t IH]; [destruct I|]. cbn [map] in D. inversion D as [|? ? D1 D2]; subst. inversion F as [|? ? (k & K1 & K2) F2]; subst.
  cbn [find_entity]. cbn [fst] in *. destruct I as [I|I].
  - injection I as -> ->. now rewrite starts_with_app.
  - destruct (starts_with m ((n ++ [59%N]) ++ r)) eqn:E; [|now apply IH].
    apply starts_with_inv in E as [q E]. subst m. rewrite <- !app_assoc in E. cbn [app] in E.
    pose proof (after_semicolon_app n r) as A1. pose proof (after_semicolon_app k q) as A2.
    assert (forall l, ~ In 59%N l -> Forall (fun c => c <> 59%N) l) as G by (intros l H; apply Forall_forall; intros c C ->; tauto).
    specialize (A1 (G _ N)). specialize (A2 (G _ K2)). rewrite E, A2 in A1. injection A1 as ->.
    apply app_inv_tail in E. subst k. exfalso. apply D1. apply in_map_iff. now exists (n ++ [59%N], value).
Qed.
Theorem entity_reference_partial t pre post n value fuel :
  entity_table t -> In (n ++ [59%N], value) t -> plain_text pre -> plain_text post -> plain_text value -> value <> [] ->
  Forall (fun c => 33 <= c < 127 /\ c <> 35 /\ c <> 59)%N n -> n <> [] ->
  length pre + length value + length post + 1 < fuel ->
  ParseEntities fuel t General (pre ++ b "&" ++ n ++ b ";" ++ post) = Ok (Some (pre ++ value ++ post)).
Proof.
  intros T I P Q V Ve Nn Ne F.
  assert (~ In 59%N n) as Ns by (intros K; rewrite Forall_forall in Nn; specialize (Nn _ K); lia).
  unfold ParseEntities. rewrite normalize_none.
  2:{ apply Forall_app. split; [now apply plain_no_cr|]. constructor; [discriminate|]. apply Forall_app. split.
      - eapply Forall_impl; [|exact Nn]. cbv beta. intros. lia.
      - constructor; [discriminate|now apply plain_no_cr]. }
  replace fuel with (length pre + S (length (value ++ post) + S (fuel - length pre - length value - length post - 2))) by (rewrite app_length; lia).
  rewrite decode_plain by assumption.
  replace (b "&" ++ n ++ b ";" ++ post) with (38%N :: (n ++ [59%N]) ++ post) by (rewrite <- app_assoc; reflexivity).
  destruct (decode_entity t General false ([] ++ pre) (n ++ [59%N]) value post) as [m E].
  - discriminate.
  - destruct n as [|c n]; [congruence|]. inversion Nn; subst.
    change (starts_with (b "&#") (38%N :: ((c :: n) ++ [59%N]) ++ post)) with ((35 =? c)%N && true). lia.
  - now apply find_entity_in.
  - assumption.
  - rewrite <- app_assoc. apply (after_semicolon_app (38%N :: n)). constructor; [discriminate|].
    eapply Forall_impl; [|exact Nn]. cbv beta. intros. lia.
  - intros K. now destruct n.
  - rewrite E. assert (plain_text (value ++ post)) as VP by (apply Forall_app; now split).
    pose proof (decode_plain t m (value ++ post) VP (S (fuel - length pre - length value - length post - 2)) ([] ++ pre) []) as D.
    rewrite app_nil_r in D. rewrite D, decode_end. cbn [bind option_map app]. rewrite cstr_none; [reflexivity|].
    apply Forall_app. split; now apply plain_no_nul.
Qed.
Print Assumptions entity_reference_partial.
Example entity_reference_ex : entity_table one_entity /\ In (b "wiz" ++ [59%N], b "wizard") one_entity /\
  ParseEntities 100 one_entity General (b "a &wiz; of &wiz;") = Ok (Some (b "a wizard of wizard")).
Proof.
  split; [|split; [|reflexivity]].
  - split; [repeat constructor; cbn; intuition discriminate|].
    unfold one_entity, predefined; cbn [app].
    repeat match goal with |- Forall _ [] => constructor | |- Forall _ (_ :: _) => constructor end;
      [exists (b "lt")|exists (b "gt")|exists (b "quot")|exists (b "apos")|exists (b "amp")|exists (b "wiz")]; (split; [reflexivity|cbn; intuition discriminate]).
  - cbn. tauto.
Qed.
(** any number of references, to any of the entities *)
Inductive piece := Text (s : list N) | Reference (name value : list N).
Definition piece_source (p : piece) : list N := match p with Text s => s | Reference n _ => b "&" ++ n ++ b ";" end.
Definition piece_value (p : piece) : list N := match p with Text s => s | Reference _ v => v end.
Definition good_piece (t : entities) (p : piece) : Prop :=
  match p with
  | Text s => plain_text s
  | Reference n v => In (n ++ [59%N], v) t /\ plain_text v /\ v <> [] /\
                     Forall (fun c => 33 <= c < 127 /\ c <> 35 /\ c <> 59)%N n /\ n <> []
  end.
Lemma decode_pieces t l : entity_table t -> Forall (good_piece t) l -> exists k,
  k <= 2 * length (flat_map piece_value l) + 1 /\
  forall fuel m out, k <= fuel -> decode fuel t General m out (flat_map piece_source l) = Ok (Some (out ++ flat_map piece_value l)).
Proof.
  intros T G. induction G as [|p l P G (k & K & IH)]; cbn [flat_map].
  - exists 1. split; [lia|]. intros fuel m out F. replace fuel with (S (fuel - 1)) by lia. now rewrite app_nil_r.
  - destruct p as [s|n v]; cbn [piece_source piece_value good_piece] in *.
    + exists (length s + k). split; [rewrite app_length; lia|]. intros fuel m out F.
      replace fuel with (length s + (fuel - length s)) by lia. rewrite decode_plain by assumption.
      rewrite IH by lia. now rewrite app_assoc.
    + destruct P as (I & V & Ve & Nn & Ne).
      assert (~ In 59%N n) as Ns by (intros Q; rewrite Forall_forall in Nn; specialize (Nn _ Q); lia).
      exists (S (length v + k)). split; [rewrite app_length; destruct v; [congruence|cbn [length]; lia]|]. intros fuel m out F.
      replace fuel with (S (length v + (fuel - S (length v)))) by lia.
      set (post := flat_map piece_source l) in *.
      replace ((b "&" ++ n ++ b ";") ++ post) with (38%N :: (n ++ [59%N]) ++ post) by (rewrite <- !app_assoc; reflexivity).
      destruct (decode_entity t General m out (n ++ [59%N]) v post) as [m' E].
      * discriminate.
      * destruct n as [|c n]; [congruence|]. inversion Nn; subst.
        change (starts_with (b "&#") (38%N :: ((c :: n) ++ [59%N]) ++ post)) with ((35 =? c)%N && true). lia.
      * now apply find_entity_in.
      * assumption.
      * rewrite <- app_assoc. apply (after_semicolon_app (38%N :: n)). constructor; [discriminate|].
        eapply Forall_impl; [|exact Nn]. cbv beta. intros. lia.
      * intros Q. now destruct n.
      * rewrite E. rewrite decode_plain by assumption. rewrite IH by lia. now rewrite app_assoc.
Qed.
Theorem entity_references_partial t l fuel :
  entity_table t -> Forall (good_piece t) l -> 2 * length (flat_map piece_value l) < fuel ->
  ParseEntities fuel t General (flat_map piece_source l) = Ok (Some (flat_map piece_value l)).
Proof.
  intros T G F. unfold ParseEntities. rewrite normalize_none.
  2:{ induction G as [|p l P G IH]; cbn [flat_map]; [constructor|]. apply Forall_app. split.
      - destruct p as [s|n v]; cbn [piece_source good_piece] in *; [now apply plain_no_cr|].
        destruct P as (_ & _ & _ & Nn & _). constructor; [discriminate|]. apply Forall_app. split; [|repeat constructor; discriminate].
        eapply Forall_impl; [|exact Nn]. cbv beta. intros. lia.
      - apply IH. cbn [flat_map] in F. rewrite app_length in F. lia. }
  destruct (decode_pieces t l T G) as (k & K & E). rewrite E by lia. cbn [bind option_map app]. rewrite cstr_none; [reflexivity|].
  clear - G. induction G as [|p l P G IH]; cbn [flat_map]; [constructor|]. apply Forall_app. split; [|assumption].
  destruct p; cbn [piece_value good_piece] in *; apply plain_no_nul; tauto.
Qed.
Print Assumptions entity_references_partial.
Definition wizards : list piece := [Text (b "a "); Reference (b "wiz") (b "wizard"); Text (b " of "); Reference (b "wiz") (b "wizard"); Reference (b "wiz") (b "wizard")].
Example entity_references_ex : Forall (good_piece one_entity) wizards /\ flat_map piece_source wizards = b "a &wiz; of &wiz;&wiz;".
Proof.
  split; [|reflexivity].
  assert (forall s, forallb (fun c => (33 <=? c) && (c <? 127) && negb (c =? 35) && negb (c =? 38) && negb (c =? 59) || (c =? 32))%N s = true -> plain_text s) as P.
  { intros s H. apply Forall_forall. intros c C. rewrite forallb_forall in H. specialize (H c C). cbv beta in H. lia. }
  assert (good_piece one_entity (Reference (b "wiz") (b "wizard"))) as R.
  { split; [cbn; tauto|]. split; [now apply P|]. split; [discriminate|]. split; [|discriminate].
    apply Forall_forall. intros c C. cbn in C. repeat destruct C as [<-|C]; try lia. }
  unfold wizards. repeat match goal with |- Forall _ [] => constructor | |- Forall _ (_ :: _) => constructor end; try exact R; now apply P.
Qed.
(** but no value with a reference is accepted, circular or not *)
Theorem entity_declaration_refuted limit t name value : In 38%N value -> ValidateEntities limit name (predefined ++ t) value = false.
Proof. intros H. unfold ValidateEntities. now apply validate_amp. Qed.
Print Assumptions entity_declaration_refuted.
Example entity_declaration_refuted_ex :
  ValidateEntities 20 (b "att;") predefined (b "AT&amp;T") = false /\ ValidateEntities 20 (b "att;") predefined (b "AT+T") = true.
Proof. split; reflexivity. Qed.
(** the text behind a reference to an empty entity is lost *)
Theorem entity_empty_refuted :
  let t := predefined ++ [(b "e;", [])] in
  declared 1024 t /\ ParseEntities 100 t General (b "one&e;two") = Ok (Some (b "one")).
Proof. split; [|reflexivity]. apply (declared_one 1024 predefined (b "e") []); [constructor|reflexivity]. Qed.
Print Assumptions entity_empty_refuted.

(** * C91: a tree written and read again is the same *)
Theorem tree_round_trip_partial extent base64 x : 0 < extent -> well_formed x ->
  exists s, XMLTreeInfoToXML extent base64 0 x = Ok s /\
  forall fuel, length s <= fuel -> NewXMLTree fuel s = Ok (Some (Tree x false)).
Proof. apply tree_round_trip_lemma. Qed.
Print Assumptions tree_round_trip_partial.
Definition small_tree : xml :=
  Xml (b "rdf:RDF") [(b "about", Some (b "a ""b"" & c")); (b "x", Some [10%N])] (b "one <two> three")
    [(4, Xml (b "k") [] (b "v") []); (4, Xml (b "k") [] [] []); (15, Xml (b "m") [(b "n", Some [])] [9%N] [(1, Xml (b "k") [] [] [])])].
Lemma decide_name s : match s with c :: _ => (alpha c || (c =? 95)%N) | [] => false end &&
  forallb (fun c => alpha c || (c =? 95) || ((48 <=? c) && (c <=? 58)) || (c =? 45) || (c =? 46))%N s = true -> attribute_name s.
Proof.
  intros H. apply andb_true_iff in H as [H1 H2]. split.
  - rewrite forallb_forall in H2. apply Forall_forall. intros c C. specialize (H2 c C). cbv beta in H2. unfold name_char, letter. unfold alpha in H2. lia.
  - destruct s as [|c s]; [discriminate|]. exists c, s. split; [reflexivity|]. unfold letter. unfold alpha in H1. lia.
Qed.
Lemma name_tag s : attribute_name s -> tag_name s.
Proof. intros (A & c & r & E & L). split; [assumption|]. exists c, r. split; [assumption|now left]. Qed.
Lemma decide_ascii s : forallb (fun c => (c =? 9) || (c =? 10) || (c =? 13) || ((32 <=? c) && (c <? 128)))%N s = true -> Forall ascii_char s.
Proof. intros H. rewrite forallb_forall in H. apply Forall_forall. intros c C. specialize (H c C). cbv beta in H. unfold ascii_char, xml_char. lia. Qed.
Example small_tree_well_formed : well_formed small_tree.
Proof.
  repeat match goal with
  | |- well_formed _ => constructor
  | |- tag_name _ => apply name_tag
  | |- attribute_name _ => apply decide_name; reflexivity
  | |- Forall ascii_char _ => apply decide_ascii; reflexivity
  | |- ~ container _ => intros [K|K]; discriminate
  | |- _ /\ _ => split
  | |- exists v, snd _ = Some v /\ _ => eexists; split; [reflexivity|]
  | |- NoDup _ => repeat constructor; cbn; intuition discriminate
  | |- Sorted le _ => repeat constructor
  | |- ?a = [] \/ _ => first [left; reflexivity | right; discriminate]
  | |- Forall (fun k => fst k <= _) _ => repeat constructor; cbn; lia
  | |- Forall _ _ => constructor
  end.
Qed.
Example tree_round_trip_ex : exists s, XMLTreeInfoToXML 4096 (fun x => x) 0 small_tree = Ok s /\ NewXMLTree 300 s = Ok (Some (Tree small_tree false)).
Proof. eexists. split; [vm_compute; reflexivity|vm_compute; reflexivity]. Qed.

(** an element without text is closed before its children: two elements side by
    side, of which only the first is read *)
Theorem tree_round_trip_refuted base64 :
  let x := Xml (b "a") [] [] [(0, Xml (b "k") [] [] [])] in
  XMLTreeInfoToXML 4096 base64 0 x = Ok (b "<a/><k/>") /\
  NewXMLTree 100 (b "<a><k/></a>") = Ok (Some (Tree x false)) /\
  NewXMLTree 100 (b "<a/><k/>") = Ok (Some (Tree (Xml (b "a") [] [] []) true)).
Proof. split; [|split]; reflexivity. Qed.
Print Assumptions tree_round_trip_refuted.
(** UTF-8 text is encoded once more with every round *)
Theorem tree_utf8_refuted base64 :
  let doc := b "<a>" ++ [195; 169]%N ++ b "</a>" in
  exists x s y, NewXMLTree 100 doc = Ok (Some (Tree x false)) /\ XMLTreeInfoToXML 4096 base64 0 x = Ok s /\
    NewXMLTree 100 s = Ok (Some (Tree y false)) /\
    x = Xml (b "a") [] [195; 169]%N [] /\ y = Xml (b "a") [] [195; 131; 194; 169]%N [].
Proof. do 3 eexists. split; [reflexivity|]. split; [reflexivity|]. split; [reflexivity|]. split; reflexivity. Qed.
Print Assumptions tree_utf8_refuted.

(** * C92: the reader returns on every document *)
Theorem parser_returns s fuel : text s -> length s <= fuel -> exists r, NewXMLTree fuel s = Ok (Some r).
Proof. apply new_tree_ends. Qed.
Print Assumptions parser_returns.
Example parser_returns_ex : NewXMLTree 100 (b "<a b=c d='<e><!-- <![CDATA[ <?") = Ok (Some Untagged) /\
  NewXMLTree 100 (b "<a><b>x</a>") = Ok (Some (Tree (Xml (b "a") [] [] [(0, Xml (b "b") [] (b "x") [])]) true)).
Proof. split; reflexivity. Qed.

(** * C93: a tree can be written *)
Inductive valued (extent : nat) : xml -> Prop :=
| valued_intro tag attrs content kids :
    Forall (fun a => snd a <> None) attrs -> Forall (fun k => fst k < length content + extent) kids ->
    Forall (fun k => valued extent (snd k)) kids -> valued extent (Xml tag attrs content kids).
(** with all values present and the children within their text *)
Theorem tree_printed_partial extent base64 x : 0 < extent -> valued extent x -> exists s, XMLTreeInfoToXML extent base64 0 x = Ok s.
Proof.
  intros P V. assert (exists s, tag_xml extent base64 x = Ok s) as [s E].
  - induction x as [tag attrs content kids IH] using xml_induction. inversion V as [? ? ? ? A K F]; subst.
    cbn [tag_xml].
    assert (forall seen, exists s, attributes_xml base64 seen attrs = Ok s) as Ha.
    { clear - A. induction A as [|[n v] l H _ IHl]; intros seen; [now eexists|]. cbn [attributes_xml].
      destruct (IHl (n :: seen)) as [s ->]. cbn [bind]. destruct (existsb _ seen); [now eexists|].
      cbn [snd] in H. destruct v; [now eexists|congruence]. }
    destruct (Ha []) as [a ->]. cbn [bind].
    match goal with |- exists s, (let* inner := ?f 0 kids in _) = _ => assert (forall start, start <= length content -> exists s, f start kids = Ok s) as Hk end.
    { clear V Ha. induction kids as [|[o k] l IHl]; intros start Hs; [now eexists|].
      inversion IH; subst. inversion K; subst. inversion F; subst. cbn [fst snd] in *. unfold cut.
      destruct (Nat.leb_spec (length (skipn start content) + extent) (o - start)) as [B|B]; [rewrite skipn_length in B; lia|]. cbn [bind].
      destruct H1 as [s ->]; [assumption|]. cbn [bind].
      destruct (IHl ltac:(assumption) ltac:(assumption) ltac:(assumption) (Nat.min o (length content))) as [r R]; [lia|]. unfold cut in R.
      rewrite R. cbn [bind]. now eexists. }
    destruct (Hk 0) as [inner R]; [lia|]. rewrite R. cbn [bind]. now eexists.
  - exists s. unfold XMLTreeInfoToXML, cut.
    destruct (Nat.leb_spec (length (@nil N) + extent) 0) as [B|B]; [cbn in B; lia|exact E].
Qed.
Print Assumptions tree_printed_partial.
Example tree_printed_ex : valued 4096 small_tree.
Proof.
  repeat match goal with
  | |- valued _ _ => constructor
  | |- Forall (fun a => snd a <> None) _ => repeat constructor; discriminate
  | |- Forall (fun k => fst k < _) _ => apply Forall_forall; intros k K; cbn [In] in K; intuition subst; cbn [fst]; apply Nat.leb_le; reflexivity
  | |- Forall _ _ => constructor
  end.
Qed.
(** but the reader makes trees that cannot be written: an attribute without value, *)
Theorem attribute_without_value_refuted base64 :
  exists x, NewXMLTree 100 (b "<a b>t</a>") = Ok (Some (Tree x false)) /\ XMLTreeInfoToXML 4096 base64 0 x = UB.
Proof. eexists. split; reflexivity. Qed.
Print Assumptions attribute_without_value_refuted.
(** and a child that follows [extent] bytes of text of its parent, written by itself *)
Theorem child_printed_refuted extent base64 x o : extent <= o -> XMLTreeInfoToXML extent base64 o x = UB.
Proof. intros H. unfold XMLTreeInfoToXML, cut. cbn [length plus]. now rewrite (proj2 (Nat.leb_le _ _) H). Qed.
Print Assumptions child_printed_refuted.
Example child_printed_refuted_ex base64 : exists k, NewXMLTree 100 (b "<a>12345678<k/></a>") = Ok (Some (Tree (Xml (b "a") [] (b "12345678") [(8, k)]) false)) /\
  XMLTreeInfoToXML 8 base64 8 k = UB.
Proof. eexists. split; reflexivity. Qed.

(** * C98: the three kinds of line ends are one *)
Inductive line_end := CR | LF | CRLF.
Definition end_bytes (e : line_end) : list N := match e with CR => [13%N] | LF => [10%N] | CRLF => [13%N; 10%N] end.
Definition with_ends (l : list (list N * line_end)) (last : list N) : list N := flat_map (fun p => fst p ++ end_bytes (snd p)) l ++ last.
Definition line (s : list N) : Prop := Forall (fun c => c <> 10 /\ c <> 13)%N s.
(** a CR that ends a line has no LF behind it, and the text does not end with a CR
    (there the loop would leave the text) *)
Fixpoint unambiguous (l : list (list N * line_end)) (last : list N) : Prop :=
  match l with
  | [] => True
  | (_, e) :: l => (e = CR -> match l with (s, e') :: _ => s <> [] \/ e' <> LF | [] => last <> [] end) /\ unambiguous l last
  end.
Lemma normalize_line s r : line s -> normalize (s ++ r) = s ++ normalize r.
Proof.
  induction 1 as [|c s H L IH]; [reflexivity|]. cbn [app normalize]. replace (c =? 13)%N with false by lia. now rewrite IH.
Qed.
Theorem line_ends l last : Forall (fun p => line (fst p)) l -> line last -> unambiguous l last ->
  normalize (with_ends l last) = with_ends (map (fun p => (fst p, LF)) l) last.
Proof.
  intros F. revert last. induction F as [|[s e] l S F IH]; intros last L U.
  - cbn. rewrite <- (app_nil_r last) at 1. rewrite normalize_line by assumption. apply app_nil_r.
  - cbn [map fst snd] in *. unfold with_ends in *. cbn [flat_map fst snd end_bytes]. rewrite <- !app_assoc. rewrite normalize_line by assumption. f_equal.
    destruct U as [U1 U2]. specialize (IH last L U2). cbn [app]. rewrite <- IH.
    destruct e; cbn [end_bytes app normalize N.eqb Pos.eqb].
    + specialize (U1 eq_refl). f_equal.
      destruct l as [|[s' e'] l]; cbn [flat_map app fst snd] in *.
      * destruct last as [|c last]; [congruence|]. inversion L; subst. cbn [app]. now replace (c =? 10)%N with false by lia.
      * inversion F as [|? ? S' _]; subst. cbn [fst] in S'. destruct s' as [|c s'].
        -- destruct U1 as [U1|U1]; [congruence|]. destruct e'; [reflexivity|congruence|reflexivity].
        -- inversion S'; subst. cbn [app]. now replace (c =? 10)%N with false by lia.
    + reflexivity.
    + reflexivity.
Qed.
Print Assumptions line_ends.
Theorem line_ends_read t fuel st l last : Forall (fun p => line (fst p)) l -> line last -> unambiguous l last ->
  ParseEntities fuel t st (with_ends l last) = ParseEntities fuel t st (with_ends (map (fun p => (fst p, LF)) l) last).
Proof.
  intros F L U. unfold ParseEntities. rewrite line_ends by assumption. rewrite normalize_none; [reflexivity|].
  unfold with_ends. apply Forall_app. split; [|eapply Forall_impl; [|exact L]; cbv beta; tauto].
  clear U L. induction F as [|[s e] l S F IH]; cbn [map flat_map fst snd]; [constructor|]. apply Forall_app. split; [|assumption].
  apply Forall_app. split; [eapply Forall_impl; [|exact S]; cbv beta; tauto|]. cbn. repeat constructor. discriminate.
Qed.
Print Assumptions line_ends_read.
Example line_ends_ex :
  let l := [(b "a", CRLF); (b "", CR); (b "", CRLF); (b "b", LF); (b "", CR)] in
  unambiguous l (b "c") /\ ParseEntities 100 predefined General (with_ends l (b "c")) = Ok (Some (b "a" ++ [10; 10; 10] ++ b "b" ++ [10; 10] ++ b "c"))%N.
Proof. split; [|reflexivity]. repeat split; try discriminate; intros _; now right. Qed.
