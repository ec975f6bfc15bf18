(** Document types: what is declared is what is read, and where it is not. *)
From Coq Require Import Arith NArith ZArith Bool Lia String List ZifyBool ZifyNat ZifyN.
From Verif Require Import Base Outcome CStringModel OptionModel Base64Model ScanModel XmlModel DoctypeModel XmlProof XmlProof2 DoctypeProof DoctypeEnds.
Import ListNotations.

(** * C145: declarations are read *)
Inductive decl :=
| Entity (name value : list N)
| Comment (text : list N)
| Element (text : list N)
| Attributes (element : list N) (l : list (list N * list N)) (last : list N).      (* the last one is implied *)
(** as they are written *)
Definition implied_text (name : list N) : list N := 32%N :: name ++ [32;67;68;65;84;65;32;35;73;77;80;76;73;69;68]%N.
Definition attlist_open : list N := [60;33;65;84;84;76;73;83;84;32]%N.
Definition written (x : decl) : list N :=
  match x with
  | Entity name value => entity_text name value
  | Comment text => comment_text text
  | Element text => element_text text
  | Attributes e l z => attlist_open ++ e ++ flat_map attribute_text l ++ implied_text z ++ [62%N]
  end.
Example written_ex : written (Entity (b "e") (b "v w")) = b "<!ENTITY e ""v w"">" /\ written (Comment (b " x ")) = b "<!-- x -->" /\ written (Element (b "a (b)*")) = b "<!ELEMENT a (b)*>" /\
  written (Attributes (b "el") [(b "a", b "1"); (b "c", b "2 3")] (b "z")) = b "<!ATTLIST el a CDATA ""1"" c CDATA ""2 3"" z CDATA #IMPLIED>".
Proof. repeat split. Qed.
Definition decl_ok (dec : nat) (x : decl) : Prop :=
  match x with
  | Entity name value => name_ok name /\ Forall plain value /\ ~ In 34%N value /\ length value < dec
  | Comment text => ~ In 45%N text
  | Element text => ~ In 62%N text
  | Attributes e l z => name_ok e /\ Forall (attribute_ok dec) l /\ name_ok z
  end.
(** what they mean *)
Definition entities_of (l : list decl) : entities := flat_map (fun x => match x with Entity n v => [(n ++ [59%N], v)] | _ => [] end) l.
Definition defaults_of (l : list decl) : list (list N * list default) :=
  flat_map (fun x => match x with Attributes e (a :: l) _ => [(e, map (fun a => (fst a, Some (snd a), false)) (a :: l))] | _ => [] end) l.

(** ** the attributes of one element *)
Lemma attlist_blank fuel dec i e cur c y d : xml_space c = false -> c <> 62%N -> attlist (S fuel) dec i e cur (32%N :: c :: y) d = attlist (S fuel) dec i e cur (c :: y) d.
Proof.
  intros W G. cbn [attlist].
  assert (skip xml_space (32%N :: c :: y) = c :: y) as -> by (apply (skip_app xml_space [32%N]); [repeat constructor|exact W]). rewrite (skip_none xml_space (c :: y)) by exact W.
  destruct c as [|p]; [reflexivity|]. do 6 (destruct p as [p|p|]; try reflexivity). contradiction.
Qed.
Lemma attlist_end fuel dec i e cur s d : attlist (S fuel) dec i e cur (62%N :: s) d = Ok (Some (inl (d, cur, 62%N :: s, 62%N :: s))).
Proof. reflexivity. Qed.
Lemma attlist_implied fuel dec i e cur z s d : name_ok z -> attlist (S fuel) dec i e cur (implied_text z ++ 62%N :: s) d = attlist fuel dec i e 68 (62%N :: s) d.
Proof.
  intros Hn. destruct (name_head z Hn) as [c [r [E [A [W [Pc Gt]]]]]].
  assert (implied_text z ++ 62%N :: s = 32%N :: z ++ [32;67;68;65;84;65;32;35;73;77;80;76;73;69;68]%N ++ 62%N :: s) as ->.
  { unfold implied_text. rewrite <- app_comm_cons, <- !app_assoc. reflexivity. }
  set (tail := [32;67;68;65;84;65;32;35;73;77;80;76;73;69;68]%N ++ 62%N :: s). cbn [attlist].
  assert (skip xml_space (32%N :: z ++ tail) = z ++ tail) as -> by (apply (skip_app xml_space [32%N]); [repeat constructor|rewrite E; exact W]).
  assert (span xml_space (z ++ tail) = (z, tail)) as Sp by (apply span_app; [now apply name_no_space|reflexivity]). rewrite Sp.
  assert (forall (T : Type) (x y : T), match z ++ tail with [] => x | 62%N :: _ => x | _ => y end = y) as K.
  { intros T x y. rewrite E. cbn [app]. destruct c as [|p]; [reflexivity|]. do 6 (destruct p as [p|p|]; try reflexivity). contradiction. }
  rewrite K. reflexivity.
Qed.
Lemma attribute_text_head a s : name_ok (fst a) -> exists c y, attribute_text a ++ s = 32%N :: c :: y /\ xml_space c = false /\ c <> 62%N.
Proof.
  intros H. destruct (name_head _ H) as [c [r [E [_ [W [_ G]]]]]]. unfold attribute_text. rewrite E. cbn [app]. eauto.
Qed.
Lemma implied_head z s : name_ok z -> exists c y, implied_text z ++ s = 32%N :: c :: y /\ xml_space c = false /\ c <> 62%N.
Proof. intros H. destruct (name_head _ H) as [c [r [E [_ [W [_ G]]]]]]. unfold implied_text. rewrite E. cbn [app]. eauto. Qed.
(** the declaration up to its attributes *)
Lemma declare_attlist fuel dec lim n e x d : name_ok e -> match x with [] => True | c :: _ => xml_space c = true end ->
  declarations (S fuel) dec lim n (attlist_open ++ e ++ x) d =
  (let* r := attlist (S (length x)) dec (match n with Some n => position n (defaults d) | None => 0 end) e 0 (tl x) d in
   match r with
   | None => Ok None
   | Some (inr d) => Ok (Some (Refused d))
   | Some (inl (d, cur, x, n)) => if (cur =? 0)%N then Ok (Some (Read d)) else declarations fuel dec lim (Some n) (cur :: x) d
   end).
Proof.
  intros Hn Hx. destruct (name_head e Hn) as [c [r [E [A [W [Pc Gt]]]]]].
  cbn [declarations]. unfold attlist_open. cbn [app]. rewrite span_stop by reflexivity. cbn [snd].
  match goal with |- context [starts_with (b "<!ENTITY") ?x] => change (starts_with (b "<!ENTITY") x) with false end. rewrite andb_false_r.
  match goal with |- context [starts_with (b "<!ATTLIST") ?x] => change (starts_with (b "<!ATTLIST") x) with true end. cbv iota. cbn [skipn].
  assert (skip xml_space (32%N :: e ++ x) = e ++ x) as -> by (apply (skip_app xml_space [32%N]); [repeat constructor|rewrite E; exact W]).
  assert (span (fun c => xml_space c || (c =? 62)%N) (e ++ x) = (e, x)) as ->.
  { apply span_app; [|destruct x; [trivial|now rewrite Hx]]. destruct Hn as [_ F]. eapply Forall_impl; [|exact F]. cbn. intros k [K1 [_ [K2 _]]]. rewrite K1. cbn. lia. }
  rewrite E. cbn [app]. destruct x as [|y x]; [reflexivity|].
  assert (y <> 62%N) as Y by (intros ->; discriminate Hx).
  destruct y as [|p]; [reflexivity|]. do 6 (destruct p as [p|p|]; try reflexivity). contradiction.
Qed.
Lemma add_at_end dec e l : forall d i, i = length (defaults d) -> Forall (attribute_ok dec) l ->
  fold_left (with_default i e) l d = match l with [] => d | _ => {| general := general d; parameters := parameters d;
    defaults := defaults d ++ [(e, map (fun a => (fst a, Some (snd a), false)) l)]; standalone := standalone d |} end.
Proof.
  assert (forall old x a, add_default (length old) e a (old ++ [(e, x)]) = old ++ [(e, x ++ [a])]) as G1.
  { induction old as [|o old IH]; intros x a; cbn [length app add_default]; [reflexivity|]. now rewrite IH. }
  assert (forall old a, add_default (length old) e a old = old ++ [(e, [a])]) as G0.
  { induction old as [|o old IH]; intros a; cbn [length app add_default]; [reflexivity|]. now rewrite IH. }
  assert (forall l d old x, defaults d = old ++ [(e, x)] -> fold_left (with_default (length old) e) l d = {| general := general d; parameters := parameters d;
    defaults := old ++ [(e, x ++ map (fun a => (fst a, Some (snd a), false)) l)]; standalone := standalone d |}) as G.
  { clear l. induction l as [|a l IH]; intros d old x E; cbn [fold_left map]; [rewrite app_nil_r, <- E; now destruct d|].
    rewrite (IH _ old (x ++ [(fst a, Some (snd a), false)])); [|cbn [with_default defaults]; now rewrite E, G1]. cbn [with_default general parameters standalone]. now rewrite <- app_assoc. }
  intros d i -> F. destruct l as [|a l]; [reflexivity|]. cbn [fold_left].
  rewrite (G l _ (defaults d) [(fst a, Some (snd a), false)]); [reflexivity|]. cbn [with_default defaults]. apply G0.
Qed.
(** n is no name of an element *)
Definition no_element (n : option (list N)) (d : dtd) : Prop :=
  match n with None => defaults d = [] | Some n => In 59%N n \/ In 62%N n end /\ Forall (fun x => name_ok (fst x)) (defaults d).
Lemma no_position n d : no_element n d -> (match n with Some n => position n (defaults d) | None => 0 end) = length (defaults d).
Proof.
  intros [A F]. destruct n as [n|]; [|now rewrite A]. induction F as [|[e x] l [_ H] F IH]; [reflexivity|]. cbn [position length].
  destruct (list_eq_dec N.eq_dec n e) as [->|]; [|now rewrite IH]. exfalso. cbn [fst] in H. rewrite Forall_forall in H. destruct A as [A|A]; destruct (H _ A) as [_ [X [Y _]]]; congruence.
Qed.
Definition with_decl (d : dtd) (x : decl) : dtd :=
  {| general := general d ++ entities_of [x]; parameters := parameters d; defaults := defaults d ++ defaults_of [x]; standalone := standalone d |}.
Lemma dtd_eta d : {| general := general d; parameters := parameters d; defaults := defaults d; standalone := standalone d |} = d.
Proof. now destruct d. Qed.
Lemma declare dec lim fuel n x s d : decl_ok dec x -> no_element n d ->
  exists n', declarations (S fuel) dec lim n (written x ++ s) d = declarations fuel dec lim n' s (with_decl d x) /\ no_element n' (with_decl d x).
Proof.
  intros Ok_ N0. destruct x as [name value|text|text|e l z]; cbn [written decl_ok] in *.
  - destruct Ok_ as [A [B [C D]]]. exists (Some (name ++ [59%N])). rewrite declare_entity by assumption. change (62%N :: s) with ([62%N] ++ s). rewrite (declarations_gap fuel dec lim _ [62%N]) by (repeat constructor; discriminate). split.
    + f_equal. unfold with_entity, with_decl. cbn. now rewrite app_nil_r.
    + destruct N0 as [_ F]. split; [left; apply in_or_app; right; now left|]. cbn. now rewrite app_nil_r.
  - exists n. rewrite declare_comment by assumption. unfold with_decl. cbn. rewrite !app_nil_r, dtd_eta. now split.
  - exists n. rewrite declare_element by assumption. unfold with_decl. cbn. rewrite !app_nil_r, dtd_eta. now split.
  - destruct Ok_ as [A [F Z]]. exists (Some (62%N :: s)).
    set (x := flat_map attribute_text l ++ implied_text z ++ 62%N :: s).
    assert ((attlist_open ++ e ++ flat_map attribute_text l ++ implied_text z ++ [62%N]) ++ s = attlist_open ++ e ++ x) as ->.
    { unfold x. rewrite <- !app_assoc. reflexivity. }
    assert (exists c y, x = 32%N :: c :: y /\ xml_space c = false /\ c <> 62%N) as [c [y [Ex [W G]]]].
    { unfold x. destruct l as [|a l]; cbn [flat_map app]; [apply implied_head; exact Z|]. inversion F as [|? ? [Hn _] _]; subst. rewrite <- app_assoc. now apply attribute_text_head. }
    rewrite declare_attlist; [|exact A|rewrite Ex; reflexivity]. rewrite (no_position n d N0).
    assert (attlist (S (length x)) dec (length (defaults d)) e 0 (tl x) d = attlist (S (length x)) dec (length (defaults d)) e 0 x d) as ->.
    { rewrite Ex at 2 4. cbn [tl]. symmetry. now apply attlist_blank. }
    assert (exists k, S (length x) = length l + S (S k)) as [k ->].
    { exists (length x - length l - 1). unfold x. rewrite !app_length. cbn [length]. assert (length l <= length (flat_map attribute_text l)); [|lia].
      clear. induction l as [|a l IH]; [auto|]. cbn [flat_map length]. rewrite app_length. unfold attribute_text at 1. cbn [length]. lia. }
    unfold x at 1. rewrite attlist_many by exact F. rewrite attlist_implied by exact Z. rewrite attlist_end. cbn [bind]. change (68 =? 0)%N with false. cbv iota.
    rewrite (add_at_end dec e l d (length (defaults d)) eq_refl F). change (68%N :: 62%N :: s) with ([68%N; 62%N] ++ s). rewrite (declarations_gap fuel dec lim _ [68%N; 62%N]) by (repeat constructor; discriminate). split.
    + f_equal. unfold with_decl. destruct l as [|a l]; cbn; rewrite ?app_nil_r; [now rewrite dtd_eta|reflexivity].
    + split; [right; now left|]. destruct N0 as [_ N0]. unfold with_decl. cbn [defaults]. apply Forall_app. split; [exact N0|]. destruct l; cbn; constructor; [exact A|constructor].
Qed.
Lemma declare_all dec lim l : forall fuel n d, Forall (decl_ok dec) l -> no_element n d -> length l < fuel ->
  declarations fuel dec lim n (flat_map written l) d = Ok (Some (Read (fold_left with_decl l d))).
Proof.
  induction l as [|x l IH]; intros fuel n d F N0 L; (destruct fuel as [|fuel]; [cbn in L; lia|]); [reflexivity|]. inversion F as [|? ? A B]; subst. cbn [flat_map fold_left].
  destruct (declare dec lim fuel n x (flat_map written l) d A N0) as [n' [E N1]]. rewrite E. apply (IH fuel n' (with_decl d x)); [exact B|exact N1|cbn [length] in L; lia].
Qed.
Lemma fold_meaning l : forall d, fold_left with_decl l d = {| general := general d ++ entities_of l; parameters := parameters d; defaults := defaults d ++ defaults_of l; standalone := standalone d |}.
Proof.
  induction l as [|x l IH]; intros d; cbn [fold_left]; [cbn; now rewrite !app_nil_r, dtd_eta|]. rewrite IH. unfold with_decl. cbn [general parameters defaults standalone].
  change (entities_of (x :: l)) with (entities_of ([x] ++ l)). change (defaults_of (x :: l)) with (defaults_of ([x] ++ l)).
  unfold entities_of at 2 3. unfold defaults_of at 2 3. rewrite !flat_map_app, <- !app_assoc. reflexivity.
Qed.
(** Every document type that consists of these declarations is read as it is meant. *)
Theorem doctype_read dec lim alone l : Forall (decl_ok dec) l ->
  ParseInternalDoctype dec lim alone (flat_map written l)
  = Ok (Some (Read {| general := predefined ++ entities_of l; parameters := []; defaults := defaults_of l; standalone := alone |})).
Proof.
  intros F. unfold ParseInternalDoctype. rewrite (declare_all dec lim l) with (n := None) (d := empty_dtd alone); [|exact F|split; [reflexivity|constructor]|].
  - rewrite fold_meaning. reflexivity.
  - assert (length l <= length (flat_map written l)); [|lia]. clear. induction l as [|x l IH]; [auto|]. cbn [flat_map length]. rewrite app_length.
    assert (1 <= length (written x)); [|lia]. destruct x; cbn; lia.
Qed.
(** The first declaration of an entity counts (as it should), unless it is one of the five *)
Fixpoint assoc (name : list N) (l : list decl) : option (list N) :=
  match l with
  | Entity n v :: l => if list_eq_dec N.eq_dec n name then Some v else assoc name l
  | _ :: l => assoc name l
  | [] => None
  end.
Lemma starts_name n name r : Forall (fun c => c <> 59%N) n -> Forall (fun c => c <> 59%N) name -> starts_with (n ++ [59%N]) (name ++ 59%N :: r) = if list_eq_dec N.eq_dec n name then true else false.
Proof.
  revert name. induction n as [|c n IH]; intros name Fn F.
  - destruct name as [|x name]; cbn [app starts_with].
    + destruct (list_eq_dec N.eq_dec [] []); [reflexivity|congruence].
    + inversion F; subst. destruct (N.eqb_spec 59 x); [congruence|]. cbn. destruct (list_eq_dec N.eq_dec [] (x :: name)); [discriminate|reflexivity].
  - inversion Fn; subst. destruct name as [|x name]; cbn [app starts_with].
    + destruct (N.eqb_spec c 59); [congruence|]. cbn. destruct (list_eq_dec N.eq_dec (c :: n) []); [discriminate|reflexivity].
    + inversion F; subst. rewrite IH by assumption. destruct (N.eqb_spec c x) as [->|X]; cbn [andb].
      * destruct (list_eq_dec N.eq_dec n name) as [Y|Y]; destruct (list_eq_dec N.eq_dec (x :: n) (x :: name)); congruence.
      * destruct (list_eq_dec N.eq_dec (c :: n) (x :: name)); congruence.
Qed.
Theorem entity_first dec l name r : Forall (decl_ok dec) l -> name_ok name -> find_entity (entities_of l) (name ++ 59%N :: r) = assoc name l.
Proof.
  intros F Hn. induction F as [|x l Hx F IH]; [reflexivity|]. destruct x as [n v| | |]; cbn [entities_of flat_map app assoc]; try exact IH.
  cbn [find_entity]. destruct Hx as [[_ H] _]. destruct Hn as [_ G].
  rewrite starts_name; [|eapply Forall_impl; [|exact H]; now intros c [_ [X _]]|eapply Forall_impl; [|exact G]; now intros c [_ [X _]]].
  destruct (list_eq_dec N.eq_dec n name); [reflexivity|exact IH].
Qed.
(** External entities are skipped, so that no file is ever read for one. *)
Theorem external_skipped fuel dec lim n name kind s d : name_ok name -> match kind with [] => False | c :: _ => xml_space c = false /\ c <> 34%N /\ c <> 39%N end -> ~ In 62%N kind ->
  exists n', declarations (S fuel) dec lim n (entity_open ++ name ++ 32%N :: kind ++ 62%N :: s) d = declarations fuel dec lim n' s d.
Proof.
  intros Hn K G. destruct (name_head name Hn) as [c [r [E [A [W [Pc Gt]]]]]]. exists (Some (name ++ 59%N :: kind ++ 62%N :: s)).
  change (entity_open ++ name ++ 32%N :: kind ++ 62%N :: s) with (60%N :: 33%N :: 69%N :: 78%N :: 84%N :: 73%N :: 84%N :: 89%N :: 32%N :: name ++ 32%N :: kind ++ 62%N :: s).
  cbn [declarations]. rewrite span_stop by reflexivity. cbn [snd].
  destruct kind as [|q kind]; [destruct K|]. destruct K as [K1 [K2 K3]].
  match goal with |- context [9 <? ?x] => assert (9 <? x = true) as -> by (cbn [length]; rewrite !app_length; cbn [length]; rewrite E; cbn [length]; lia) end.
  assert (forall x, starts_with (b "<!ENTITY") (60%N :: 33%N :: 69%N :: 78%N :: 84%N :: 73%N :: 84%N :: 89%N :: x) = true) as -> by reflexivity. cbn [andb].
  cbn [skipn List.hd]. change (xml_space 32) with true. cbn [negb].
  assert (skip xml_space (32%N :: name ++ 32%N :: (q :: kind) ++ 62%N :: s) = name ++ 32%N :: (q :: kind) ++ 62%N :: s) as -> by (apply (skip_app xml_space [32%N]); [repeat constructor|rewrite E; exact W]).
  rewrite (skip_none _ (name ++ _)) by (rewrite E; cbn [app]; destruct (N.eqb_spec c 37); [contradiction|]; now rewrite W).
  assert (List.hd 0%N (name ++ 32%N :: (q :: kind) ++ 62%N :: s) = c) as -> by (rewrite E; reflexivity). rewrite A. cbn [negb].
  rewrite span_app by (try reflexivity; now apply name_no_space).
  rewrite (skip_none _ ((q :: kind) ++ _)) by exact K1. cbn [app].
  destruct (N.eqb_spec q 34); [contradiction|]. destruct (N.eqb_spec q 39); [contradiction|]. cbn [orb].
  change (q :: kind ++ 62%N :: s) with ((q :: kind) ++ [62%N] ++ s). rewrite strstr_app; [|rewrite Forall_forall; intros x X Y; injection Y as ->; contradiction|discriminate].
  apply (declarations_gap fuel dec lim _ [62%N]). repeat constructor; discriminate.
Qed.
Example doctype_ex : let l := [Comment (b " x "); Entity (b "co") (b "Wizards, Inc."); Element (b "a (b)*"); Attributes (b "a") [(b "k", b "1")] (b "z"); Entity (b "co") (b "other")] in
  Forall (decl_ok 100) l /\ entities_of l = [(b "co;", b "Wizards, Inc."); (b "co;", b "other")] /\ defaults_of l = [(b "a", [(b "k", Some (b "1"), false)])] /\ assoc (b "co") l = Some (b "Wizards, Inc.") /\
  flat_map written l = b "<!-- x --><!ENTITY co ""Wizards, Inc.""><!ELEMENT a (b)*><!ATTLIST a k CDATA ""1"" z CDATA #IMPLIED><!ENTITY co ""other"">".
Proof.
  cbv zeta. split; [|repeat split].
  assert (forall s, forallb (fun c => negb (xml_space c) && negb (c =? 59)%N && negb (c =? 62)%N && negb (c =? 0)%N) s = true -> Forall (fun c => xml_space c = false /\ c <> 59%N /\ c <> 62%N /\ c <> 0%N) s) as G.
  { intros s H. rewrite forallb_forall in H. apply Forall_forall. intros c C. specialize (H c C). destruct (xml_space c); cbn in H; [discriminate|]. lia. }
  repeat constructor; cbn [decl_ok fst snd]; try (split; [|split; [|split]]); try (split; [reflexivity|apply G; reflexivity]); try (cbn; intuition discriminate); try (cbn; lia);
    try (repeat constructor; discriminate).
  all: try (repeat (constructor; [repeat split; try discriminate; try (left; reflexivity); try (right; reflexivity)|])); try constructor.
Qed.
Print Assumptions doctype_read.
Print Assumptions entity_first.
Print Assumptions external_skipped.

(** * C146: without parameter entities the reading ends and stays inside the text, whatever is written *)
Theorem doctype_ends dec lim alone s : ~ In 37%N s -> (6 + length s) * length s < dec -> exists v, ParseInternalDoctype dec lim alone s = Ok (Some v).
Proof.
  intros P D. apply (declarations_end (5 + length s)); try lia; [exact P|]. exists []. cbn [empty_dtd general]. split; [now rewrite app_nil_r|apply predefined_sound].
Qed.
Print Assumptions doctype_ends.
Example doctype_ends_ex : exists d, ParseInternalDoctype 2000 20 false (b "<!ENTITY a ""x"" <!ATTLIST b c (d|e) '&a;&#65;<' junk <") = Ok (Some (Refused d)) /\ defaults d = [(b "b", [(b "c", Some (b "xA<"), true)])].
Proof. eexists. split; [vm_compute; reflexivity|reflexivity]. Qed.
(** With them it need not end: one that refers to itself is declared, ValidateEntities (1771-1787) looks for '&' only, and the next use of it expands it for ever. *)
Lemma loop_ends t : find_entity t (b "a;") = Some (b "%a;") -> forall fuel moved out, decode_parameter fuel t moved out (b "%a;") = Ok None.
Proof.
  intros F. induction fuel as [|fuel IH]; intros moved out; [reflexivity|].
  change (b "%a;") with [37; 97; 59]%N in *. change (b "a;") with [97; 59]%N in *. cbn [decode_parameter]. change (starts_with (b "&#") [37; 97; 59]%N) with false. change (37 =? 37)%N with true. cbv iota.
  rewrite F. change (after_semicolon [37; 97; 59]%N) with (Some ([] : list N)). cbv iota. cbn [length].
  change (extend moved 3 (3 - 0 - 1) [37; 97; 59]%N) with (true, firstn (3 + (3 - 2) - (if moved then 0 else 1)) [37; 97; 59]%N).
  destruct moved; exact (IH true out).
Qed.
Theorem parameter_loop_refuted dec lim alone s : ParseInternalDoctype dec lim alone (b "<!ENTITY % a '%a;'><!ENTITY % b '%a;'>" ++ s) = Ok None.
Proof.
  unfold ParseInternalDoctype. set (fuel := S (length _)). assert (exists k, fuel = S (S k)) as [k ->] by (eexists; unfold fuel; rewrite app_length; reflexivity).
  set (rest := b "<!ENTITY % b '%a;'>" ++ s).
  assert (b "<!ENTITY % a '%a;'><!ENTITY % b '%a;'>" ++ s = b "<!ENTITY % a '%a;'>" ++ rest) as -> by reflexivity.
  assert (forall k c rest d, (0 < length rest) -> declarations (S k) dec lim c (b "<!ENTITY % a '%a;'>" ++ rest) d =
    let* r := ParseParameters dec (parameters d) (b "%a;") in match r with None => Ok None | Some value =>
      if ValidateEntities lim (b "a;") (parameters d) value then declarations k dec lim (Some (b "a;")) (62%N :: rest)
         {| general := general d; parameters := parameters d ++ [(b "a;", value)]; defaults := defaults d; standalone := standalone d |} else Ok (Some (Refused d)) end) as Fst by reflexivity.
  rewrite Fst by (unfold rest; rewrite app_length; cbn; lia). cbn [empty_dtd parameters]. clear Fst.
  destruct dec as [|[|[|[|dec]]]]; try reflexivity.
  assert (ParseParameters (S (S (S (S dec)))) [] (b "%a;") = Ok (Some (b "%a;"))) as -> by reflexivity. cbn [bind].
  assert (ValidateEntities lim (b "a;") [] (b "%a;") = true) as -> by reflexivity.
  unfold rest. set (d := {| general := _ |}).
  assert (declarations (S k) (S (S (S (S dec)))) lim (Some (b "a;")) (62%N :: b "<!ENTITY % b '%a;'>" ++ s) d =
    let* r := ParseParameters (S (S (S (S dec)))) (parameters d) (b "%a;") in match r with None => Ok None | Some value =>
      if ValidateEntities lim (b "b;") (parameters d) value then declarations k (S (S (S (S dec)))) lim (Some (b "b;")) (62%N :: s)
         {| general := general d; parameters := parameters d ++ [(b "b;", value)]; defaults := defaults d; standalone := standalone d |} else Ok (Some (Refused d)) end) as -> by reflexivity.
  unfold ParseParameters. change (normalize (b "%a;")) with (b "%a;"). rewrite loop_ends by reflexivity. reflexivity.
Qed.
Print Assumptions parameter_loop_refuted.
(** A document type stands alone as soon as it has a declaration that says so: <?xml ... standalone = 'yes' ...?> *)
Theorem standalone_read fuel dec lim n pre q v s d : ~ In 115%N pre -> ~ In 63%N pre -> ~ In 63%N v -> one_of [61; 39; 34]%N q = true ->
  declarations (S fuel) dec lim n (b "<?xml " ++ pre ++ b "standalone=" ++ q :: b "yes" ++ v ++ b "?>" ++ s) d =
  declarations fuel dec lim n (62%N :: s) {| general := general d; parameters := parameters d; defaults := defaults d; standalone := true |}.
Proof.
  intros P1 P2 V Q. set (text := b "xml " ++ pre ++ b "standalone=" ++ q :: b "yes" ++ v).
  assert (b "<?xml " ++ pre ++ b "standalone=" ++ q :: b "yes" ++ v ++ b "?>" ++ s = b "<?" ++ text ++ b "?>" ++ s) as ->.
  { unfold text. rewrite <- !app_assoc. reflexivity. }
  assert (T : Forall (fun c => Some c <> hd_error (b "?>")) text).
  { assert (G : forall w, ~ In 63%N w -> Forall (fun c => Some c <> hd_error (b "?>")) w).
    { intros w H. apply Forall_forall. intros c I E. injection E as ->. contradiction. }
    unfold text. apply Forall_app. split; [repeat constructor; discriminate|]. apply Forall_app. split; [now apply G|]. apply Forall_app. split; [repeat constructor; discriminate|].
    constructor; [intros E; injection E as ->; discriminate Q|]. apply Forall_app. split; [repeat constructor; discriminate|now apply G]. }
  assert (declarations (S fuel) dec lim n (b "<?" ++ text ++ b "?>" ++ s) d = match strstr (b "?>") (text ++ b "?>" ++ s) with
    | Some x => declarations fuel dec lim n (tl x) {| general := general d; parameters := parameters d; defaults := defaults d;
        standalone := standalone d || says_standalone (firstn (S (S (length (text ++ b "?>" ++ s))) - 2 - length x) (text ++ b "?>" ++ s)) |}
    | None => Ok (Some (Read d)) end) as ->.
  { generalize (text ++ b "?>" ++ s). intros t. change (b "<?" ++ t) with (60%N :: 63%N :: t). cbn [declarations]. rewrite span_stop by reflexivity. cbn [snd].
    change (starts_with (b "<!ENTITY") (60%N :: 63%N :: t)) with false. rewrite andb_false_r. reflexivity. }
  rewrite strstr_app by (exact T || discriminate).
  replace (S (S (length (text ++ b "?>" ++ s))) - 2 - length (b "?>" ++ s)) with (length text) by (rewrite !app_length; cbn [length]; lia).
  rewrite firstn_app, firstn_all, Nat.sub_diag, firstn_O, app_nil_r. assert (says_standalone text = true) as ->; [|rewrite orb_true_r; reflexivity].
  unfold says_standalone, text. change (b "xml " ++ pre ++ b "standalone=" ++ q :: b "yes" ++ v) with (b "xml" ++ 32%N :: pre ++ b "standalone=" ++ q :: b "yes" ++ v).
  rewrite span_app by (try reflexivity; repeat constructor). destruct (list_eq_dec N.eq_dec (b "xml") (b "xml")) as [_|X]; [|now destruct X].
  assert (exists pre', skip xml_space (pre ++ b "standalone=" ++ q :: b "yes" ++ v) = pre' ++ b "standalone=" ++ q :: b "yes" ++ v /\ ~ In 115%N pre') as (pre' & -> & P').
  { clear - P1. induction pre as [|c pre IH]; [exists []; split; [reflexivity|easy]|]. unfold skip in *. cbn [app span]. destruct (xml_space c) eqn:C; cbn [negb].
    - destruct (span _ (pre ++ _)) as [w r] eqn:E in *. cbn [snd] in *. apply IH. intros I. apply P1. now right.
    - exists (c :: pre). split; [reflexivity|exact P1]. }
  change (b "standalone=" ++ q :: b "yes" ++ v) with (b "standalone" ++ 61%N :: q :: b "yes" ++ v).
  rewrite strstr_app; [|apply Forall_forall; intros c I E; injection E as ->; contradiction|discriminate].
  change (skipn 10 (b "standalone" ++ 61%N :: q :: b "yes" ++ v)) with (61%N :: q :: b "yes" ++ v).
  assert (skip (fun c => xml_space c || one_of [61; 39; 34]%N c) (61%N :: q :: b "yes" ++ v) = b "yes" ++ v) as ->; [|reflexivity].
  apply (skip_app _ [61%N; q] (b "yes" ++ v)); [|reflexivity]. constructor; [reflexivity|]. constructor; [|constructor]. cbn beta. now rewrite Q, orb_true_r.
Qed.
Print Assumptions standalone_read.
(** nothing else does *)
Theorem standalone_only fuel dec lim n text s d : ~ In 63%N text -> strstr (b "standalone") text = None ->
  declarations (S fuel) dec lim n (b "<?" ++ text ++ b "?>" ++ s) d = declarations fuel dec lim n (62%N :: s) d.
Proof.
  intros Q A.
  assert (declarations (S fuel) dec lim n (b "<?" ++ text ++ b "?>" ++ s) d = match strstr (b "?>") (text ++ b "?>" ++ s) with
    | Some x => declarations fuel dec lim n (tl x) {| general := general d; parameters := parameters d; defaults := defaults d;
        standalone := standalone d || says_standalone (firstn (S (S (length (text ++ b "?>" ++ s))) - 2 - length x) (text ++ b "?>" ++ s)) |}
    | None => Ok (Some (Read d)) end) as ->.
  { generalize (text ++ b "?>" ++ s). intros t. change (b "<?" ++ t) with (60%N :: 63%N :: t). cbn [declarations]. rewrite span_stop by reflexivity. cbn [snd].
    change (starts_with (b "<!ENTITY") (60%N :: 63%N :: t)) with false. rewrite andb_false_r. reflexivity. }
  rewrite strstr_app; [|apply Forall_forall; intros c I E; injection E as ->; contradiction|discriminate].
  replace (S (S (length (text ++ b "?>" ++ s))) - 2 - length (b "?>" ++ s)) with (length text) by (rewrite !app_length; cbn [length]; lia).
  rewrite firstn_app, firstn_all, Nat.sub_diag, firstn_O, app_nil_r. assert (says_standalone text = false) as ->; [|rewrite orb_false_r, dtd_eta; reflexivity].
  unfold says_standalone. destruct (span xml_space text) as [target x] eqn:E. destruct (list_eq_dec N.eq_dec target (b "xml")); [|reflexivity].
  assert (B : forall w y, strstr (b "standalone") (w ++ y) = None -> strstr (b "standalone") y = None).
  { clear. induction w as [|c w IH]; intros y; [easy|]. cbn [app strstr]. destruct (starts_with _ _); [discriminate|]. apply IH. }
  assert (X : forall p t, exists w, t = w ++ snd (span p t)).
  { clear. intros p t. induction t as [|c t (w & IH)]; [now exists []|]. cbn [span]. destruct (p c); [now exists []|]. destruct (span p t) as [u r]. cbn [snd] in *. exists (c :: w). now rewrite IH at 1. }
  destruct (X xml_space text) as (w & Ew). rewrite E in Ew. cbn [snd] in Ew. rewrite Ew in A. apply B in A.
  destruct x as [|c x]; [reflexivity|]. change (c :: x) with ([c] ++ x) in A. apply B in A. destruct (X (fun c => negb (xml_space c)) x) as (w' & Ew').
  unfold skip. rewrite Ew' in A. apply B in A. now rewrite A.
Qed.
Print Assumptions standalone_only.
(** A reference to a parameter entity between declarations is never replaced: it ends them, or, in a document that stands alone, it is skipped. *)
Theorem parameter_reference fuel dec lim n s d : declarations (S fuel) dec lim n (37%N :: s) d = if standalone d then declarations fuel dec lim n s d else Ok (Some (Read d)).
Proof.
  cbn [declarations]. rewrite span_stop by reflexivity. cbn [snd]. change (starts_with (b "<!ENTITY") (37%N :: s)) with false. now rewrite andb_false_r.
Qed.
Print Assumptions parameter_reference.

(** * C147: values by default *)
Fixpoint lookup (tag : list N) (l : list (list N * list N)) : option (list N) :=
  match l with (a, v) :: l => if list_eq_dec N.eq_dec a tag then Some v else lookup tag l | [] => None end.
(** what the declarations of an element say, all of them *)
Fixpoint declared_default (e tag : list N) (l : list decl) : option (list N) :=
  match l with
  | Attributes e' a _ :: l => if list_eq_dec N.eq_dec e' e then match lookup tag a with Some v => Some v | None => declared_default e tag l end else declared_default e tag l
  | _ :: l => declared_default e tag l
  | [] => None
  end.
Fixpoint lists_of (e : list N) (l : list decl) : nat :=
  match l with Attributes e' (_ :: _) _ :: l => (if list_eq_dec N.eq_dec e' e then 1 else 0) + lists_of e l | _ :: l => lists_of e l | [] => 0 end.
Lemma first_default_map tag a : first_default tag (map (fun a => (fst a, Some (snd a), false)) a) = lookup tag a.
Proof. induction a as [|[x v] a IH]; [reflexivity|]. cbn [map first_default lookup fst snd]. destruct (list_eq_dec N.eq_dec x tag); [reflexivity|exact IH]. Qed.
Lemma no_list e tag l : lists_of e l = 0 -> declared_default e tag l = None /\ first_element e (defaults_of l) = None.
Proof.
  induction l as [|x l IH]; [now split|]. destruct x as [| | |e' [|a q] z]; cbn [lists_of declared_default defaults_of flat_map app]; try exact IH.
  - intros H. destruct (IH H) as [A B]. cbn [lookup]. rewrite A. split; [destruct (list_eq_dec N.eq_dec e' e); reflexivity|exact B].
  - cbn [first_element]. destruct (list_eq_dec N.eq_dec e' e); [discriminate|]. exact IH.
Qed.
Lemma one_list e tag l : lists_of e l <= 1 -> match first_element e (defaults_of l) with Some l => first_default tag l | None => None end = declared_default e tag l.
Proof.
  induction l as [|x l IH]; [reflexivity|]. destruct x as [| | |e' [|a q] z]; cbn [lists_of declared_default defaults_of flat_map app]; try exact IH.
  - intros H. cbn [lookup]. unfold defaults_of in IH. rewrite (IH H). now destruct (list_eq_dec N.eq_dec e' e).
  - cbn [first_element]. destruct (list_eq_dec N.eq_dec e' e); [|exact IH]. intros H. rewrite first_default_map.
    destruct (no_list e tag l) as [A _]; [lia|]. rewrite A. now destruct (lookup tag (a :: q)).
Qed.
(** An attribute has its own value; without one, what its element has been declared with, if that is in one list *)
Theorem default_attribute_partial dec lim alone l e own tag : Forall (decl_ok dec) l -> lists_of e l <= 1 ->
  exists d, ParseInternalDoctype dec lim alone (flat_map written l) = Ok (Some (Read d)) /\
  GetXMLTreeAttribute d e own tag = match first_attr tag own with Some v => v | None => declared_default e tag l end.
Proof.
  intros F L. eexists. split; [apply doctype_read, F|]. unfold GetXMLTreeAttribute. cbn [defaults]. rewrite one_list by exact L. reflexivity.
Qed.
Print Assumptions default_attribute_partial.
Lemma ok_name s : match s with c :: _ => alpha c || (c =? 95)%N | [] => false end && forallb (fun c => negb (xml_space c) && negb (c =? 59)%N && negb (c =? 62)%N && negb (c =? 0)%N) s = true -> name_ok s.
Proof.
  intros H. apply andb_true_iff in H as [A H]. split; [destruct s; [discriminate|exact A]|]. rewrite forallb_forall in H. apply Forall_forall. intros c C. specialize (H c C). destruct (xml_space c); cbn in H; [discriminate|]. lia.
Qed.
Lemma ok_attribute dec a : name_ok (fst a) -> forallb (fun c => negb (c =? 38)%N && negb (c =? 13)%N && negb (c =? 0)%N && negb (c =? 34)%N && (negb (isspace c) || (c =? 32)%N)) (snd a) = true -> length (snd a) < dec -> attribute_ok dec a.
Proof.
  intros A H L. rewrite forallb_forall in H. split; [exact A|]. split; [|split; [|exact L]].
  - apply Forall_forall. intros c C. specialize (H c C). unfold plain_attribute. destruct (isspace c); cbn in H; lia.
  - intros C. specialize (H _ C). discriminate.
Qed.
Example default_attribute_ex : let l := [Attributes (b "a") [(b "k", b "1"); (b "m", b "2")] (b "z")] in
  Forall (decl_ok 100) l /\ lists_of (b "a") l = 1 /\ declared_default (b "a") (b "m") l = Some (b "2") /\ declared_default (b "a") (b "z") l = None.
Proof.
  cbv zeta. split; [|repeat split]. constructor; [|constructor]. split; [now apply ok_name|]. split; [|now apply ok_name].
  constructor; [|constructor; [|constructor]]; apply ok_attribute; cbn [fst snd]; try (now apply ok_name); try reflexivity; cbn; lia.
Qed.
(** The second list of an element is stored under the same name, behind the first, and never found (1806-1809 look for n, not t). *)
Theorem second_list_refuted dec lim alone e l1 z1 l2 z2 tag : name_ok e -> Forall (attribute_ok dec) l1 -> name_ok z1 -> Forall (attribute_ok dec) l2 -> name_ok z2 -> l1 <> [] -> lookup tag l1 = None ->
  exists d, ParseInternalDoctype dec lim alone (written (Attributes e l1 z1) ++ written (Attributes e l2 z2)) = Ok (Some (Read d)) /\
  declared_default e tag [Attributes e l1 z1; Attributes e l2 z2] = lookup tag l2 /\ GetXMLTreeAttribute d e [] tag = None.
Proof.
  intros He F1 H1 F2 H2 N1 L1. pose proof (doctype_read dec lim alone [Attributes e l1 z1; Attributes e l2 z2]) as R. cbn [flat_map] in R. rewrite app_nil_r in R. eexists. split; [apply R; constructor; [now split|]; constructor; [now split|constructor]|]. split.
  - cbn [declared_default]. destruct (list_eq_dec N.eq_dec e e); [|congruence]. rewrite L1. now destruct (lookup tag l2).
  - unfold GetXMLTreeAttribute. cbn [defaults first_attr defaults_of flat_map app]. destruct l1 as [|a l1]; [congruence|]. cbn [app first_element]. destruct (list_eq_dec N.eq_dec e e); [|congruence]. now rewrite first_default_map.
Qed.
Print Assumptions second_list_refuted.
Example second_list_refuted_ex : name_ok (b "a") /\ attribute_ok 100 (b "k", b "1") /\ lookup (b "m") [(b "k", b "1")] = None /\ lookup (b "m") [(b "m", b "2")] = Some (b "2").
Proof. split; [now apply ok_name|]. split; [|now split]. apply ok_attribute; cbn; [now apply ok_name|reflexivity|lia]. Qed.
(** A list whose last attribute has a value ends all declarations: whatever follows is not read (the byte that was overwritten, 1883, ends the loop). *)
Theorem quoted_last_refuted dec lim alone e l s : name_ok e -> Forall (attribute_ok dec) l -> l <> [] ->
  ParseInternalDoctype dec lim alone (attlist_open ++ e ++ flat_map attribute_text l ++ 62%N :: s)
  = Ok (Some (Read {| general := predefined; parameters := []; defaults := [(e, map (fun a => (fst a, Some (snd a), false)) l)]; standalone := alone |})).
Proof.
  intros A F N1. unfold ParseInternalDoctype. set (x := flat_map attribute_text l ++ 62%N :: s).
  assert (exists c y, x = 32%N :: c :: y /\ xml_space c = false /\ c <> 62%N) as [c [y [Ex [W G]]]].
  { unfold x. destruct l as [|a l]; [congruence|]. cbn [flat_map app]. inversion F as [|? ? [Hn _] _]; subst. rewrite <- app_assoc. now apply attribute_text_head. }
  rewrite declare_attlist; [|exact A|rewrite Ex; reflexivity].
  assert (attlist (S (length x)) dec 0 e 0 (tl x) (empty_dtd alone) = attlist (S (length x)) dec 0 e 0 x (empty_dtd alone)) as ->.
  { rewrite Ex at 2 4. cbn [tl]. symmetry. now apply attlist_blank. }
  assert (exists k, S (length x) = length l + S k) as [k ->].
  { exists (length x - length l). unfold x. rewrite !app_length. cbn [length]. assert (length l <= length (flat_map attribute_text l)); [|lia].
    clear. induction l as [|a l IH]; [auto|]. cbn [flat_map length]. rewrite app_length. unfold attribute_text at 1. cbn [length]. lia. }
  unfold x at 1. rewrite attlist_many by exact F. rewrite attlist_end. cbn [bind]. destruct l as [|a l]; [congruence|]. change (0 =? 0)%N with true. cbv iota.
  rewrite (add_at_end dec e (a :: l) (empty_dtd alone) 0 eq_refl F). reflexivity.
Qed.
Print Assumptions quoted_last_refuted.
(** the same for a list with no attribute at all: "<!ATTLIST e >" *)
Theorem empty_list_refuted dec lim alone e s : name_ok e -> ParseInternalDoctype dec lim alone (attlist_open ++ e ++ 32%N :: 62%N :: s) = Ok (Some (Read (empty_dtd alone))).
Proof. intros A. unfold ParseInternalDoctype. rewrite declare_attlist; [|exact A|reflexivity]. cbn [tl length]. rewrite attlist_end. reflexivity. Qed.
Print Assumptions empty_list_refuted.
Example quoted_last_refuted_ex : attlist_open ++ b "a" ++ flat_map attribute_text [(b "k", b "1")] ++ 62%N :: b "<!ENTITY e 'x'>" = b "<!ATTLIST a k CDATA ""1""><!ENTITY e 'x'>".
Proof. reflexivity. Qed.

(** * C148: tokens: the words, with one space between them *)
Fixpoint words_from (w s : list N) : list (list N) :=
  match s with
  | [] => match w with [] => [] | _ => [w] end
  | c :: s => if (c =? 32)%N then match w with [] => words_from [] s | _ => w :: words_from [] s end else words_from (w ++ [c]) s
  end.
Definition words (s : list N) : list (list N) := words_from [] s.
Fixpoint joined (l : list (list N)) : list N := match l with [] => [] | [w] => w | w :: l => w ++ 32%N :: joined l end.
Example words_ex : words (b "  two  words ") = [b "two"; b "words"] /\ joined (words (b "  two  words ")) = b "two words".
Proof. split; reflexivity. Qed.
Lemma words_span s : forall w, words_from w s = match w ++ fst (span (N.eqb 32) s), snd (span (N.eqb 32) s) with
  | [], [] => [] | [], _ :: r => words_from [] r | u, [] => [u] | u, _ :: r => u :: words_from [] r end.
Proof.
  induction s as [|c s IH]; intros w; cbn [words_from span].
  - cbn. rewrite app_nil_r. now destruct w.
  - rewrite (N.eqb_sym 32 c). destruct (c =? 32)%N; cbn [fst snd].
    + rewrite app_nil_r. now destruct w.
    + rewrite IH. destruct (span (N.eqb 32) s) as [u r]. cbn [fst snd]. rewrite <- app_assoc. reflexivity.
Qed.
Lemma words_blank s : words (drop_blank s) = words s.
Proof. unfold words. induction s as [|c s IH]; [reflexivity|]. cbn [drop_blank words_from]. destruct (c =? 32)%N eqn:E; [exact IH|]. cbn [words_from]. now rewrite E. Qed.
Lemma blank_head s : match drop_blank s with [] => True | c :: _ => c <> 32%N end.
Proof. induction s as [|c s IH]; [exact I|]. cbn [drop_blank]. destruct (N.eqb_spec c 32); [exact IH|assumption]. Qed.
Lemma drop_blank_length s : length (drop_blank s) <= length s.
Proof. induction s as [|c s IH]; [auto|]. cbn [drop_blank]. destruct (c =? 32)%N; cbn; lia. Qed.
Lemma collapse_spec : forall fuel s, length s <= fuel -> exists t, collapse fuel s = joined (words s) ++ t /\ (t = [] \/ t = [32%N] /\ words s <> []).
Proof.
  induction fuel as [|fuel IH]; intros s L; [destruct s; [|cbn in L; lia]; exists []; split; [reflexivity|now left]|].
  destruct s as [|c s]; [exists []; split; [reflexivity|now left]|]. set (u := c :: s) in *. cbn [collapse]. unfold u at 1. cbv iota.
  rewrite <- words_blank. pose proof (drop_blank_length u) as Lb. pose proof (blank_head u) as B. set (v := drop_blank u) in *.
  unfold words. rewrite words_span. cbn [app]. destruct (span (N.eqb 32) v) as [w r] eqn:Sv. cbn [fst snd].
  assert (v = w ++ r) as Ev by (pose proof (span_split (N.eqb 32) v) as H; now rewrite Sv in H).
  destruct r as [|x r].
  - exists []. rewrite app_nil_r. split; [|now left]. destruct w; reflexivity.
  - assert (w <> []) as Nw. { intros ->. clearbody v. subst v. destruct (N.eqb_spec 32 x) as [<-|X]; [now apply B|]. cbn [app span] in Sv. apply N.eqb_neq in X. rewrite X in Sv. destruct (span (N.eqb 32) r). discriminate Sv. }
    destruct w as [|y w]; [congruence|]. rewrite Ev, app_length in Lb. cbn [length] in Lb.
    destruct (IH r) as [t [E T]]; [cbn [length] in L, Lb; unfold u in *; cbn [length] in *; lia|]. rewrite E. fold (words r).
    destruct (words r) as [|h k] eqn:Ew.
    + destruct T as [->|[_ T]]; [|congruence]. exists [32%N]. split; [reflexivity|]. right. split; [reflexivity|discriminate].
    + exists t. split; [cbn [joined]; rewrite <- app_assoc; reflexivity|]. destruct T as [T|[T _]]; [now left|right]. split; [exact T|discriminate].
Qed.
Lemma words_shape s : forall w, ~ In 32%N w -> Forall (fun w => w <> [] /\ ~ In 32%N w) (words_from w s).
Proof.
  induction s as [|c s IH]; intros w H; cbn [words_from].
  - destruct w; repeat constructor; [discriminate|exact H].
  - destruct (N.eqb_spec c 32) as [|C].
    + assert (Forall (fun w => w <> [] /\ ~ In 32%N w) (words_from [] s)) by (apply IH; easy). destruct w; [assumption|]. constructor; [split; [discriminate|exact H]|assumption].
    + apply IH. intros K. apply in_app_or in K as [K|[K|[]]]; congruence.
Qed.
Lemma last_app_r (a c : list N) d : c <> [] -> last (a ++ c) d = last c d.
Proof. intros C. induction a as [|x a IH]; [reflexivity|]. cbn [app]. destruct (a ++ c) eqn:E; [destruct a; [contradiction|discriminate]|]. exact IH. Qed.
Lemma joined_last l : Forall (fun w => w <> [] /\ ~ In 32%N w) l -> l <> [] -> joined l <> [] /\ last (joined l) 0%N <> 32%N.
Proof.
  intros F H. induction F as [|w l [A B] F IH]; [congruence|]. destruct l as [|h k].
  - cbn [joined]. split; [exact A|]. intros K. apply B. rewrite <- K. destruct w as [|x w]; [congruence|]. clear. revert x. induction w as [|y w IHw]; intros x; [now left|]. right. apply IHw.
  - destruct IH as [C D]; [discriminate|]. change (joined (w :: h :: k)) with (w ++ [32%N] ++ joined (h :: k)). set (j := joined (h :: k)) in *.
    split; [intros K; apply app_eq_nil in K as [_ K]; discriminate|]. rewrite app_assoc, last_app_r by exact C. exact D.
Qed.
Theorem tokens_words fuel t s : ParseTokens fuel t s = let* r := ParseEntities fuel t Attribute s in Ok (option_map (fun r => joined (words r)) r).
Proof.
  unfold ParseTokens. destruct (ParseEntities fuel t Attribute s) as [r| |]; try reflexivity. cbn [bind]. destruct r as [r|]; [|reflexivity]. cbn [option_map]. do 2 f_equal.
  destruct (collapse_spec (length r) r (le_n _)) as [u [E [->|[-> W]]]]; rewrite E; unfold chop_blank.
  - rewrite app_nil_r. destruct (words r) as [|h k] eqn:Ew; [reflexivity|]. destruct (joined_last (h :: k)) as [_ K]; [rewrite <- Ew; apply words_shape; easy|discriminate|]. destruct (N.eqb_spec (last (joined (h :: k)) 0%N) 32); [contradiction|reflexivity].
  - rewrite last_app_r by discriminate. change (last [32%N] 0%N =? 32)%N with true. cbv iota. apply removelast_last.
Qed.
Print Assumptions tokens_words.
Example tokens_ex : ParseTokens 100 predefined (b "  a &lt;  c") = Ok (Some (b "a < c")).
Proof. reflexivity. Qed.
