(** Documents with a document type: they are read as they are meant, reading ends. *)
From Coq Require Import Arith NArith ZArith Bool String Lia ZifyBool ZifyNat ZifyN List.
From Verif Require Import Base Outcome CStringModel CStringSpec OptionModel Base64Model ScanModel XmlModel XmlSpec XmlTreeSpec XmlProof XmlProof2 XmlProof4 DoctypeModel DoctypeProof DoctypeEnds DoctypeProps XmlDocumentModel XmlDocumentEnds XmlDocumentSpec XmlDocumentProof XmlDocumentRead.
Import ListNotations.

(** * C260: reading a document ends *)
(** [text]: bytes but NUL *)
Theorem document_returns s fuel dec lim : text s -> ~ In 37%N s -> length s <= fuel -> (6 + length s) * length s < dec ->
  exists r d, NewXMLDocument fuel dec lim s = Ok (Some (r, d)) /\ r <> Doctype.
Proof. exact (new_document_ends s fuel dec lim). Qed.
Print Assumptions document_returns.
Lemma text_bytes s : forallb (fun c => (0 <? c) && (c <? 256))%N s = true -> text s.
Proof. intros H. rewrite forallb_forall in H. apply Forall_forall. intros c C. specialize (H c C). lia. Qed.
Definition unruly : list N := b "<!DOCTYPE r [<!ENTITY e ""x""><!ATTLIST r k CDATA 'v' ]><r a='&e;<?><!DOCTYPE [".
Example document_returns_ex : text unruly /\ ~ In 37%N unruly /\ match NewXMLDocument 100 1000 20 unruly with Ok (Some (Untagged, d)) => True | _ => False end.
Proof. split; [now apply text_bytes|]. split; [|vm_compute; exact I]. intros H. cut (existsb (N.eqb 37) unruly = true); [discriminate|]. apply existsb_exists. now exists 37%N. Qed.

(** * C261: a document is read as it is meant *)
(** no ']' of the declarations has only spaces between it and a '>' *)
Definition unclosed (s : list N) : Prop := forall a w z, s = a ++ 93%N :: w ++ 62%N :: z -> ~ Forall (fun c => xml_space c = true) w.
(** declarations of C145, and lists of attributes that are tokens *)
Inductive declared := Plain (x : decl) | Tokens (e : list N) (names : list (list N)).
Definition token_text (n : list N) : list N := 32%N :: n ++ b " NMTOKENS #IMPLIED".
Definition declared_text (x : declared) : list N := match x with Plain x => written x | Tokens e names => attlist_open ++ e ++ flat_map token_text names ++ [62%N] end.
Definition declared_ok (dec : nat) (x : declared) : Prop := match x with Plain x => decl_ok dec x | Tokens e names => name_ok e /\ names <> [] /\ Forall name_ok names end.
Definition plains (l : list declared) : list decl := flat_map (fun x => match x with Plain x => [x] | Tokens _ _ => [] end) l.
(** the elements with lists *)
Definition listed (l : list declared) : list (list N) := flat_map (fun x => match x with Plain (Attributes e (_ :: _) _) => [e] | Tokens e _ => [e] | _ => [] end) l.
Definition tokens_of (l : list declared) (tag name : list N) : bool :=
  existsb (fun x => match x with Tokens e names => if list_eq_dec N.eq_dec e tag then if in_dec (list_eq_dec N.eq_dec) name names then true else false else false | _ => false end) l.
Definition defaults_all (l : list declared) : list (list N * list default) :=
  flat_map (fun x => match x with Plain x => defaults_of [x] | Tokens e names => [(e, map (fun n => (n, None, true)) names)] end) l.
Record source := { declaration : option (list N); doctype : option (list N); declares : list declared; gap : list N; root : element }.
Definition declaration_text (x : option (list N)) : list N := match x with Some s => b "<?" ++ s ++ b "?>" | None => [] end.
Definition doctype_text (s : source) : list N := match doctype s with Some n => b "<!DOCTYPE " ++ n ++ b " [" ++ flat_map declared_text (declares s) ++ b "]>" ++ gap s | None => [] end.
Definition source_text (s : source) : list N := declaration_text (declaration s) ++ doctype_text s ++ 60%N :: element_text (root s) ++ [62%N].
Definition entity_value (s : source) (n : list N) : option (list N) := assoc n (plains (declares s)).
Definition good_source (dec : nat) (s : source) : Prop :=
  match declaration s with Some x => ~ In 63%N x /\ ~ In 62%N x | None => True end /\
  match doctype s with Some n => ~ In 91%N n /\ ~ In 62%N n | None => declares s = [] end /\
  Forall (declared_ok dec) (declares s) /\ NoDup (listed (declares s)) /\ unclosed (flat_map declared_text (declares s)) /\ ~ In 60%N (gap s) /\ good_element (entity_value s) (root s).
Definition stands_alone (s : source) : bool := match declaration s with Some x => says_standalone x | None => false end.
Definition source_dtd (s : source) : dtd := {| general := predefined ++ entities_of (plains (declares s)); parameters := []; defaults := defaults_all (declares s); standalone := stands_alone s |}.

(** ** the entities *)
Lemma attribute_name_ok n : attribute_name n -> name_ok n.
Proof.
  intros (A & x & r & -> & X). split; [unfold alpha; unfold letter in X; lia|]. eapply Forall_impl; [|exact A].
  unfold name_char, letter, xml_space. intros c C. lia.
Qed.
Lemma find_app t u s : find_entity t s = None -> find_entity (t ++ u) s = find_entity u s.
Proof. induction t as [|[n v] t IH]; [reflexivity|]. cbn [app find_entity]. destruct (starts_with n s); [discriminate|auto]. Qed.
Lemma table_env dec l n r : Forall (decl_ok dec) l -> attribute_name n -> ~ In n (map snd specials) -> find_entity (predefined ++ entities_of l) (n ++ 59%N :: r) = assoc n l.
Proof.
  intros F A S. pose proof (attribute_name_ok n A) as Hn. rewrite find_app; [now apply (entity_first dec)|].
  assert (Forall (fun c => c <> 59%N) n) as Fn by (destruct Hn as [_ G]; eapply Forall_impl; [|exact G]; now intros c [_ [X _]]).
  unfold predefined. cbn [find_entity].
  assert (forall m, Forall (fun c => c <> 59%N) m -> In m (map snd specials) -> starts_with (m ++ [59%N]) (n ++ 59%N :: r) = false) as G.
  { intros m Fm Im. rewrite starts_name by assumption. destruct (list_eq_dec N.eq_dec m n) as [->|]; [contradiction|reflexivity]. }
  change (b "lt;") with (b "lt" ++ [59%N]). change (b "gt;") with (b "gt" ++ [59%N]). change (b "quot;") with (b "quot" ++ [59%N]). change (b "apos;") with (b "apos" ++ [59%N]). change (b "amp;") with (b "amp" ++ [59%N]).
  rewrite !G; try reflexivity; try (repeat constructor; discriminate); cbn; tauto.
Qed.
Lemma plains_ok dec l : Forall (declared_ok dec) l -> Forall (decl_ok dec) (plains l).
Proof. induction 1 as [|x l H F IH]; [constructor|]. destruct x as [x|]; cbn [plains flat_map app]; [constructor; assumption|assumption]. Qed.
Lemma entities_sound dec bound l : Forall (declared_ok dec) l -> length (flat_map declared_text l) <= bound -> Forall (sound_entry bound) (predefined ++ entities_of (plains l)).
Proof.
  intros F L. apply Forall_app. split; [apply predefined_sound|]. induction F as [|x l Hx F IH]; [constructor|]. cbn [flat_map] in L. rewrite app_length in L.
  destruct x as [[n v| | |]|]; cbn [plains entities_of flat_map app]; try (apply IH; lia). constructor; [|apply IH; lia].
  destruct Hx as (_ & P & _). split; [cbn; apply in_or_app; right; now left|right]. cbn [snd]. split.
  - intros K. rewrite Forall_forall in P. destruct (P _ K) as [P1 _]. congruence.
  - cbn [declared_text written] in L. unfold entity_text in L. rewrite !app_length in L. lia.
Qed.
(** ** the types *)
Lemma first_element_none e l : ~ In e (listed l) -> first_element e (defaults_all l) = None.
Proof.
  induction l as [|x l IH]; [reflexivity|]. destruct x as [[| | |e' [|a q] z]|e' names]; cbn [listed defaults_all defaults_of flat_map app]; try exact IH; cbn [first_element];
    intros H; (destruct (list_eq_dec N.eq_dec e' e); [destruct H; now left|]); apply IH; intros K; apply H; now right.
Qed.
Lemma no_tokens_of l tag name : ~ In tag (listed l) -> tokens_of l tag name = false.
Proof.
  induction l as [|x l IH]; [reflexivity|]. destruct x as [[| | |e' [|a q] z]|e' names]; cbn [listed tokens_of existsb flat_map app orb]; try exact IH; intros H.
  - apply IH. intros K. apply H. now right.
  - destruct (list_eq_dec N.eq_dec e' tag); [destruct H; now left|]. apply IH. intros K. apply H. now right.
Qed.
Lemma types_declared l g alone tag name : NoDup (listed l) -> attribute_type {| general := g; parameters := []; defaults := defaults_all l; standalone := alone |} tag name = tokens_of l tag name.
Proof.
  unfold attribute_type. cbn [defaults]. induction l as [|x l IH]; [reflexivity|]. destruct x as [[| | |e [|a q] z]|e names]; cbn [listed tokens_of existsb defaults_all defaults_of flat_map app orb first_element]; try exact IH; intros N.
  - inversion N as [|? ? N1 N2]; subst. destruct (list_eq_dec N.eq_dec e tag) as [->|]; [|now apply IH]. fold (tokens_of l tag name). rewrite no_tokens_of by exact N1.
    generalize (a :: q). clear. intros l. induction l as [|a l IH]; [reflexivity|]. cbn [map declared_type]. now destruct (list_eq_dec N.eq_dec (fst a) name).
  - inversion N as [|? ? N1 N2]; subst. destruct (list_eq_dec N.eq_dec e tag) as [->|]; [|now apply IH]. fold (tokens_of l tag name). rewrite no_tokens_of by exact N1. rewrite orb_false_r.
    clear. induction names as [|a l IH]; [reflexivity|]. cbn [map declared_type]. rewrite IH. destruct (list_eq_dec N.eq_dec a name) as [->|D].
    + destruct (in_dec _ name (name :: l)) as [|K]; [reflexivity|destruct K; now left].
    + destruct (in_dec _ name l) as [K|K], (in_dec _ name (a :: l)) as [K'|K']; try reflexivity; [destruct K'; now right|]. destruct K'; contradiction.
Qed.
(** ** lists of tokens are read *)
Lemma attlist_token fuel dec i e cur z c s d : name_ok z -> (c = 32 \/ c = 62)%N -> attlist (S fuel) dec i e cur (token_text z ++ c :: s) d =
  attlist fuel dec i e 68 (c :: s) {| general := general d; parameters := parameters d; defaults := add_default i e (z, None, true) (defaults d); standalone := standalone d |}.
Proof.
  intros Hn C. destruct (name_head z Hn) as [x [r [E [A [W [Pc Gt]]]]]].
  assert (token_text z ++ c :: s = 32%N :: z ++ b " NMTOKENS #IMPLIED" ++ c :: s) as ->.
  { unfold token_text. rewrite <- app_comm_cons, <- !app_assoc. reflexivity. }
  set (tail := b " NMTOKENS #IMPLIED" ++ c :: s). cbn [attlist].
  assert (skip xml_space (32%N :: z ++ tail) = z ++ tail) as -> by (apply (skip_app xml_space [32%N]); [repeat constructor|rewrite E; exact W]).
  assert (span xml_space (z ++ tail) = (z, tail)) as Sp by (apply DoctypeProof.span_app; [now apply name_no_space|reflexivity]). rewrite Sp.
  assert (forall (T : Type) (x y : T), match z ++ tail with [] => x | 62%N :: _ => x | _ => y end = y) as K.
  { intros T x' y. rewrite E. cbn [app]. destruct x as [|p]; [reflexivity|]. do 6 (destruct p as [p|p|]; try reflexivity). contradiction. }
  rewrite K. destruct C; subst c; reflexivity.
Qed.
Lemma add_last e a (old : list (list N * list default)) x : add_default (length old) e a (old ++ [(e, x)]) = old ++ [(e, x ++ [a])].
Proof. induction old as [|o old IH]; cbn [length app add_default]; [reflexivity|]. now rewrite IH. Qed.
Lemma add_first e a (old : list (list N * list default)) : add_default (length old) e a old = old ++ [(e, [a])].
Proof. induction old as [|o old IH]; cbn [length app add_default]; [reflexivity|]. now rewrite IH. Qed.
Lemma token_head names s : exists c y, flat_map token_text names ++ 62%N :: s = c :: y /\ (c = 32 \/ c = 62)%N.
Proof. destruct names; cbn [flat_map app]; do 2 eexists; (split; [reflexivity|]); auto. Qed.
Lemma attlist_tokens dec e names : Forall name_ok names -> forall fuel cur s d old x, defaults d = old ++ [(e, x)] ->
  attlist (length names + S fuel) dec (length old) e cur (flat_map token_text names ++ 62%N :: s) d =
  Ok (Some (inl ({| general := general d; parameters := parameters d; defaults := old ++ [(e, x ++ map (fun n => (n, None, true)) names)]; standalone := standalone d |}, match names with [] => cur | _ => 68%N end, 62%N :: s, 62%N :: s))).
Proof.
  induction 1 as [|z names Hz F IH]; intros fuel cur s d old x E.
  - cbn [length plus flat_map app map]. rewrite attlist_end, app_nil_r, <- E, dtd_eta. reflexivity.
  - cbn [length plus flat_map map]. rewrite <- app_assoc. destruct (token_head names s) as (c & y & Ec & C). rewrite Ec. rewrite attlist_token by assumption. rewrite <- Ec.
    rewrite (IH fuel 68%N s _ old (x ++ [(z, None, true)])); [|cbn [defaults]; rewrite E; apply add_last]. cbn [general parameters standalone]. rewrite <- app_assoc. cbn [app].
    destruct names; reflexivity.
Qed.
Definition with_declared (d : dtd) (x : declared) : dtd :=
  {| general := general d ++ entities_of (plains [x]); parameters := parameters d; defaults := defaults d ++ defaults_all [x]; standalone := standalone d |}.
Lemma declare_one dec lim fuel n x s d : declared_ok dec x -> no_element n d ->
  exists n', declarations (S fuel) dec lim n (declared_text x ++ s) d = declarations fuel dec lim n' s (with_declared d x) /\ no_element n' (with_declared d x).
Proof.
  destruct x as [x|e names]; intros H N0.
  - destruct (declare dec lim fuel n x s d H N0) as (n' & E & N1). exists n'. unfold with_declared. cbn [declared_text plains defaults_all flat_map]. rewrite !app_nil_r. split; assumption.
  - destruct H as (A & Ne & F). exists (Some (62%N :: s)). cbn [declared_text].
    set (x := flat_map token_text names ++ 62%N :: s).
    assert ((attlist_open ++ e ++ flat_map token_text names ++ [62%N]) ++ s = attlist_open ++ e ++ x) as -> by (unfold x; rewrite <- !app_assoc; reflexivity).
    destruct names as [|z names]; [congruence|]. inversion F as [|? ? Hz F']; subst.
    assert (exists c y, x = 32%N :: c :: y /\ xml_space c = false /\ c <> 62%N) as [c [y [Ex [W G]]]].
    { unfold x. destruct (name_head z Hz) as [c [r [E [_ [W [_ G]]]]]]. cbn [flat_map]. unfold token_text at 1. rewrite E. cbn [app]. eauto. }
    rewrite declare_attlist; [|exact A|rewrite Ex; reflexivity]. rewrite (no_position n d N0).
    assert (attlist (S (length x)) dec (length (defaults d)) e 0 (tl x) d = attlist (S (length x)) dec (length (defaults d)) e 0 x d) as ->.
    { rewrite Ex at 2 4. cbn [tl]. symmetry. now apply attlist_blank. }
    assert (exists k, length x = length names + S k) as [k Ek].
    { exists (length x - length names - 1). assert (length (z :: names) <= length (flat_map token_text (z :: names))) as L; [|unfold x in *; rewrite app_length in *; cbn [length] in *; lia].
      generalize (z :: names). clear. intros l. induction l as [|a l IH]; [auto|]. cbn [flat_map length]. rewrite app_length. unfold token_text at 1. cbn [length]. lia. }
    rewrite Ek. unfold x. cbn [flat_map]. rewrite <- app_assoc. destruct (token_head names s) as (c' & y' & Ec & C). rewrite Ec. rewrite attlist_token by assumption. rewrite <- Ec.
    rewrite (attlist_tokens dec e names F' k 68%N s _ (defaults d) [(z, None, true)]); [|cbn [defaults]; apply add_first]. cbn [bind general parameters standalone].
    assert ((match names with [] => 68%N | _ => 68%N end) = 68%N) as -> by (destruct names; reflexivity). change (68 =? 0)%N with false. cbv iota.
    change (68%N :: 62%N :: s) with ([68%N; 62%N] ++ s). rewrite (declarations_gap fuel dec lim _ [68%N; 62%N]) by (repeat constructor; discriminate).
    unfold with_declared. cbn [plains defaults_all entities_of flat_map app map]. rewrite app_nil_r. split; [reflexivity|].
    split; [right; now left|]. destruct N0 as [_ N0]. cbn [defaults]. apply Forall_app. split; [exact N0|]. constructor; [exact A|constructor].
Qed.
Lemma declared_all dec lim l : forall fuel n d, Forall (declared_ok dec) l -> no_element n d -> length l < fuel ->
  declarations fuel dec lim n (flat_map declared_text l) d = Ok (Some (Read (fold_left with_declared l d))).
Proof.
  induction l as [|x l IH]; intros fuel n d F N0 L; (destruct fuel as [|fuel]; [cbn in L; lia|]); [reflexivity|]. inversion F as [|? ? A B]; subst. cbn [flat_map fold_left].
  destruct (declare_one dec lim fuel n x (flat_map declared_text l) d A N0) as [n' [E N1]]. rewrite E. apply (IH fuel n' (with_declared d x)); [exact B|exact N1|cbn [length] in L; lia].
Qed.
Lemma fold_declared l : forall d, fold_left with_declared l d = {| general := general d ++ entities_of (plains l); parameters := parameters d; defaults := defaults d ++ defaults_all l; standalone := standalone d |}.
Proof.
  induction l as [|x l IH]; intros d; cbn [fold_left]; [cbn; now rewrite !app_nil_r, dtd_eta|]. rewrite IH. unfold with_declared. cbn [general parameters defaults standalone].
  change (plains (x :: l)) with (plains ([x] ++ l)). change (defaults_all (x :: l)) with (defaults_all ([x] ++ l)).
  unfold plains at 2 3. unfold defaults_all at 2 3. unfold entities_of. rewrite !flat_map_app, <- !app_assoc. reflexivity.
Qed.
Lemma doctype_declared dec lim alone l : Forall (declared_ok dec) l ->
  add_doctype dec lim (empty_dtd alone) (flat_map declared_text l) = Ok (Some (Read {| general := predefined ++ entities_of (plains l); parameters := []; defaults := defaults_all l; standalone := alone |})).
Proof.
  intros F. unfold add_doctype. rewrite (declared_all dec lim l); [|exact F|split; [reflexivity|constructor]|].
  - rewrite fold_declared. reflexivity.
  - clear F. assert (length l <= length (flat_map declared_text l)); [|lia]. induction l as [|x l IH]; [auto|]. cbn [flat_map length]. rewrite app_length.
    assert (0 < length (declared_text x)); [|lia]. destruct x as [[]|]; cbn; lia.
Qed.

(** ** up to the root *)
Lemma after_gap fuel dec lim d g p : ~ In 60%N g -> after_document fuel dec lim 62 d (62%N :: g ++ 60%N :: p) 0 Before = document fuel dec lim 62 d p 0 Before.
Proof.
  intros G. unfold after_document. cbn [tl].
  assert (span (N.eqb 60) (g ++ 60%N :: p) = (g, 60%N :: p)) as Sp.
  { apply XmlProof4.span_app; [|reflexivity]. apply Forall_forall. intros c C. destruct (N.eqb_spec 60 c); [subst; contradiction|reflexivity]. }
  destruct (g ++ 60%N :: p) eqn:E; [destruct g; discriminate|]. rewrite Sp. reflexivity.
Qed.
Lemma end_instruction_at s r : ~ In 63%N s -> end_instruction (s ++ b "?>" ++ r) = Some (62%N :: r).
Proof. intros H. induction s as [|c s IH]; [reflexivity|]. cbn [app end_instruction]. destruct (N.eqb_spec c 63); [subst; destruct H; now left|]. apply IH. intros K. apply H. now right. Qed.
Lemma read_declaration fuel dec lim d s p : ~ In 63%N s -> ~ In 62%N s ->
  document (S fuel) dec lim 62 d (63%N :: s ++ b "?>" ++ 60%N :: p) 0 Before = document fuel dec lim 62 (with_instruction d s) p 0 Before.
Proof.
  intros H G. rewrite document_step. unfold document_markup. cbn [hd].
  change (alpha 63 || (63 =? 95)%N || (63 =? 58)%N || (128 <=? 63)%N) with false. change (63 =? 47)%N with false. cbv iota.
  match goal with |- context [starts_with (b "!--") ?x] => change (starts_with (b "!--") x) with false; change (starts_with (b "![CDATA[") x) with false; change (starts_with (b "!DOCTYPE") x) with false end.
  change (63 =? 63)%N with true. cbv iota.
  assert (end_instruction (63%N :: s ++ b "?>" ++ 60%N :: p) = Some (62%N :: 60%N :: p)) as ->.
  { cbn [end_instruction]. change (63 =? 63)%N with true. cbv iota. destruct s as [|c s]; [reflexivity|]. cbn [app].
    destruct (N.eqb_spec c 62); [subst; destruct G; now left|]. apply (end_instruction_at (c :: s)). exact H. }
  change (62 =? 62)%N with true. cbv iota.
  assert (length (63%N :: s ++ b "?>" ++ 60%N :: p) = length (62%N :: 60%N :: p) + 2 + length s) as L by (cbn [length]; rewrite !app_length; cbn [length]; change (length (b "?>")) with 2; lia).
  destruct (Nat.eqb_spec (length (63%N :: s ++ b "?>" ++ 60%N :: p)) (length (62%N :: 60%N :: p) + 1)) as [E|_]; [lia|].
  assert (firstn (length (63%N :: s ++ b "?>" ++ 60%N :: p) - length (62%N :: 60%N :: p) - 2) (tl (63%N :: s ++ b "?>" ++ 60%N :: p)) = s) as ->.
  { rewrite L. replace (length (62%N :: 60%N :: p) + 2 + length s - length (62%N :: 60%N :: p) - 2) with (length s) by lia. cbn [tl]. rewrite firstn_app, Nat.sub_diag, firstn_all. cbn [firstn]. apply app_nil_r. }
  cbn [bind]. exact (after_gap fuel dec lim _ [] p ltac:(auto)).
Qed.
Lemma end_outside s r : ~ In 91%N s -> ~ In 62%N s -> doctype_end false (s ++ r) = doctype_end false r.
Proof.
  intros H G. induction s as [|c s IH]; [reflexivity|]. cbn [app doctype_end].
  destruct (N.eqb_spec c 91); [subst; destruct H; now left|]. destruct (N.eqb_spec c 62); [subst; destruct G; now left|]. cbn. apply IH; intros K; [apply H|apply G]; now right.
Qed.
Lemma end_inside s r : unclosed s -> doctype_end true (s ++ 93%N :: 62%N :: r) = (true, 93%N :: 62%N :: r).
Proof.
  induction s as [|c s IH]; intros U; [reflexivity|]. cbn [app doctype_end orb negb andb].
  assert (unclosed s) as U' by (intros a w z E; apply (U (c :: a) w z); now rewrite E).
  destruct (N.eqb_spec c 93) as [->|]; [|now apply IH]. cbn [andb].
  assert ((hd 0 (skip xml_space (s ++ 93%N :: 62%N :: r)) =? 62)%N = false) as ->; [|now apply IH].
  destruct (span (fun c => negb (xml_space c)) s) as [w z] eqn:Sp. 
  assert (s = w ++ z) as E by (pose proof (span_split (fun c => negb (xml_space c)) s) as K; now rewrite Sp in K).
  assert (Forall (fun c => xml_space c = true) w) as Fw.
  { revert w z Sp E. clear. induction s as [|c s IH]; intros w z Sp _; cbn [span] in Sp; [injection Sp as <- <-; constructor|].
    destruct (xml_space c) eqn:C; cbn [negb] in Sp; [|injection Sp as <- <-; constructor]. destruct (span _ s) as [w' z'] eqn:Sp'. injection Sp as <- <-. constructor; [exact C|]. eapply IH; [reflexivity|].
    pose proof (span_split (fun c => negb (xml_space c)) s) as K. now rewrite Sp' in K. }
  assert (match z with [] => True | c :: _ => xml_space c = false end) as Hz.
  { clear - Sp. revert w z Sp. induction s as [|c s IH]; intros w z Sp; cbn [span] in Sp; [injection Sp as <- <-; exact I|].
    destruct (xml_space c) eqn:C; cbn [negb] in Sp; [|injection Sp as <- <-; exact C]. destruct (span _ s) as [w' z'] eqn:Sp'. injection Sp as <- <-. now apply (IH w' z'). }
  subst s. rewrite <- app_assoc. rewrite (skip_app xml_space w); [|exact Fw|destruct z; [reflexivity|exact Hz]].
  destruct z as [|x z]; [reflexivity|]. cbn [app hd]. destruct (N.eqb_spec x 62) as [->|]; [|reflexivity]. exfalso. apply (U [] w z); [reflexivity|exact Fw].
Qed.
Lemma read_doctype fuel dec lim alone n l g p : ~ In 91%N n -> ~ In 62%N n -> Forall (declared_ok dec) l -> unclosed (flat_map declared_text l) -> ~ In 60%N g ->
  document (S fuel) dec lim 62 (empty_dtd alone) (b "!DOCTYPE " ++ n ++ b " [" ++ flat_map declared_text l ++ b "]>" ++ g ++ 60%N :: p) 0 Before =
  document fuel dec lim 62 {| general := predefined ++ entities_of (plains l); parameters := []; defaults := defaults_all l; standalone := alone |} p 0 Before.
Proof.
  intros H G F U Hg. set (W := flat_map declared_text l) in *.
  assert (exists pre, b "!DOCTYPE " ++ n ++ b " [" ++ W ++ b "]>" ++ g ++ 60%N :: p = pre ++ 91%N :: W ++ 93%N :: 62%N :: g ++ 60%N :: p /\ ~ In 91%N pre /\ ~ In 62%N pre /\ exists r, pre = b "!DOCTYPE" ++ r) as (pre & -> & P1 & P2 & r & Er).
  { exists (b "!DOCTYPE " ++ n ++ [32%N]). split; [rewrite <- !app_assoc; reflexivity|].
    split; [intros K; apply in_app_or in K as [K|K]; [cbn in K; intuition discriminate|]; apply in_app_or in K as [K|[K|[]]]; [contradiction|discriminate]|].
    split; [intros K; apply in_app_or in K as [K|K]; [cbn in K; intuition discriminate|]; apply in_app_or in K as [K|[K|[]]]; [contradiction|discriminate]|].
    exists (32%N :: n ++ [32%N]). reflexivity. }
  set (q := 93%N :: 62%N :: g ++ 60%N :: p).
  rewrite document_step. unfold document_markup.
  assert (forall x, hd 0%N (pre ++ x) = 33%N) as -> by (intros; subst pre; reflexivity).
  change (alpha 33 || (33 =? 95)%N || (33 =? 58)%N || (128 <=? 33)%N) with false. change (33 =? 47)%N with false. cbv iota.
  assert (forall x, starts_with (b "!--") (pre ++ x) = false /\ starts_with (b "![CDATA[") (pre ++ x) = false /\ starts_with (b "!DOCTYPE") (pre ++ x) = true) as Sw by (intros; subst pre; now repeat split).
  destruct (Sw (91%N :: W ++ q)) as (-> & -> & ->).
  assert (doctype_end false (pre ++ 91%N :: W ++ q) = (true, q)) as -> by (rewrite end_outside by assumption; exact (end_inside W _ U)).
  assert (internal_subset (pre ++ 91%N :: W ++ q) q = W) as ->.
  { unfold internal_subset. rewrite XmlProof4.span_app; [|apply Forall_forall; intros c C; destruct (N.eqb_spec 91 c); [subst; contradiction|reflexivity]|reflexivity]. cbn [snd tl].
    rewrite app_length, Nat.add_sub, firstn_app, Nat.sub_diag, firstn_all. cbn [firstn]. apply app_nil_r. }
  unfold W. rewrite doctype_declared by exact F. cbn [bind tl]. now apply after_gap.
Qed.

Lemma document_read s fuel dec lim : good_source dec s -> length (source_text s) <= fuel -> (6 + length (source_text s)) * length (source_text s) < dec ->
  NewXMLDocument fuel dec lim (source_text s) = Ok (Some (Tree (element_means (entity_value s) (tokens_of (declares s)) (root s)) false, source_dtd s)).
Proof.
  intros (Hx & Hd & F & ND & U & Hg & E) L D.
  set (body := declaration_text (declaration s) ++ doctype_text s ++ 60%N :: element_text (root s)).
  assert (source_text s = body ++ [62%N]) as Es by (unfold source_text, body; now rewrite <- !app_assoc).
  rewrite Es in *. rewrite app_length in *. cbn [length] in *.
  assert (exists p, body = 60%N :: p) as [p Ep].
  { unfold body, declaration_text, doctype_text. destruct (declaration s); [eexists; reflexivity|]. destruct (doctype s); eexists; reflexivity. }
  unfold NewXMLDocument. rewrite removelast_last, last_last. 
  assert (forall A (x y : A), match body ++ [62%N] with [] => x | _ => y end = y) as M by (intros; rewrite Ep; reflexivity). rewrite M. clear M.
  assert (snd (span (N.eqb 60) body) = 60%N :: p) as -> by (rewrite Ep; now rewrite XmlProof4.span_stop).
  set (env := entity_value s).
  (* the elements *)
  assert (forall fuel alone, length (element_text (root s)) < fuel -> stands_alone s = alone ->
    document fuel dec lim 62 {| general := predefined ++ entities_of (plains (declares s)); parameters := []; defaults := defaults_all (declares s); standalone := alone |} (element_text (root s)) 0 Before
    = Ok (Some (Tree (element_means env (tokens_of (declares s)) (root s)) false, source_dtd s))) as Elements.
  { intros k alone Lk Ea. pose proof (steps_length (root s)) as Ls.
    replace k with (steps (root s) + (k - steps (root s))) by lia. rewrite <- (app_nil_r (element_text (root s))).
    rewrite (element_read dec lim (length body) {| general := predefined ++ entities_of (plains (declares s)); parameters := []; defaults := defaults_all (declares s); standalone := alone |} env (tokens_of (declares s))).
    - unfold source_dtd. rewrite Ea. reflexivity.
    - intros a l G Ll. cbn [general]. apply (parse_pieces (entities_of (plains (declares s))) env) with (bound := 5 + length body).
      + intros n r An Sn. apply (table_env dec); try assumption. now apply plains_ok.
      + apply (entities_sound dec); [exact F|]. unfold body, doctype_text. destruct (doctype s) as [n|]; [rewrite !app_length; lia|]. rewrite Hd. cbn. lia.
      + lia.
      + nia.
      + exact G.
    - intros tag name. now apply types_declared.
    - exact E.
    - unfold body. rewrite !app_length. cbn [length]. lia.
    - exact I.
    - now left. }
  (* in front of them *)
  assert (forall fuel alone, length (doctype_text s) + length (element_text (root s)) < fuel -> stands_alone s = alone -> forall p, doctype_text s ++ 60%N :: element_text (root s) = 60%N :: p ->
    document fuel dec lim 62 (empty_dtd alone) p 0 Before = Ok (Some (Tree (element_means env (tokens_of (declares s)) (root s)) false, source_dtd s))) as Rest.
  { intros k alone Lk Ea p' Ep'. unfold doctype_text in Ep', Lk. destruct (doctype s) as [n|] eqn:Dn.
    - assert (p' = b "!DOCTYPE " ++ n ++ b " [" ++ flat_map declared_text (declares s) ++ b "]>" ++ gap s ++ 60%N :: element_text (root s)) as ->.
      { rewrite <- !app_assoc in Ep'. injection Ep' as <-. reflexivity. }
      destruct k as [|k]; [lia|]. rewrite read_doctype by (try assumption; apply Hd). apply Elements; [|exact Ea]. rewrite !app_length in Lk. change (length (b "<!DOCTYPE ")) with 10 in Lk. lia.
    - injection Ep' as <-. cbn [app length] in Lk. specialize (Elements k alone ltac:(lia) Ea). rewrite Hd in Elements. rewrite Hd. exact Elements. }
  unfold declaration_text in body. destruct (declaration s) as [x|] eqn:Dx.
  - assert (p = 63%N :: x ++ b "?>" ++ doctype_text s ++ 60%N :: element_text (root s)) as Ep2.
    { unfold body, declaration_text in Ep. rewrite <- !app_assoc in Ep. injection Ep as <-. reflexivity. }
    assert (exists p', doctype_text s ++ 60%N :: element_text (root s) = 60%N :: p') as [p' Ep'] by (unfold doctype_text; destruct (doctype s); eexists; reflexivity).
    assert (length p = length x + 3 + (length (doctype_text s) + S (length (element_text (root s))))) as Lp.
    { rewrite Ep2. cbn [length]. rewrite !app_length. cbn [length]. change (length (b "?>")) with 2. lia. }
    assert (length body = S (length p)) as Lb by (rewrite Ep; reflexivity).
    rewrite Ep2, Ep'. destruct fuel as [|fuel]; [lia|]. rewrite read_declaration by apply Hx.
    change (with_instruction (empty_dtd false) x) with (empty_dtd (says_standalone x)). apply Rest; [lia| |exact Ep'].
    unfold stands_alone. now rewrite Dx.
  - apply Rest; [|unfold stands_alone; now rewrite Dx|exact Ep].
    unfold body, declaration_text in L. cbn [app] in L. rewrite app_length in L. cbn [length] in L. lia.
Qed.
Theorem document_as_meant s fuel dec lim : good_source dec s -> length (source_text s) <= fuel -> (6 + length (source_text s)) * length (source_text s) < dec ->
  NewXMLDocument fuel dec lim (source_text s) = Ok (Some (Tree (element_means (entity_value s) (tokens_of (declares s)) (root s)) false, source_dtd s)).
Proof. apply document_read. Qed.
Print Assumptions document_as_meant.
(** the attributes of its elements: their own, or those by default *)
Lemma no_default e tag l : ~ In e (listed l) -> declared_default e tag (plains l) = None.
Proof.
  induction l as [|x l IH]; [reflexivity|]. destruct x as [[| | |e' [|a q] z]|e' names]; cbn [listed plains declared_default flat_map app]; try exact IH; intros H.
  - cbn [lookup]. fold (plains l). rewrite (IH H). now destruct (list_eq_dec N.eq_dec e' e).
  - destruct (list_eq_dec N.eq_dec e' e); [destruct H; now left|]. apply IH. intros K. apply H. now right.
  - apply IH. intros K. apply H. now right.
Qed.
Lemma default_declared e tag l : NoDup (listed l) -> match first_element e (defaults_all l) with Some l => first_default tag l | None => None end = declared_default e tag (plains l).
Proof.
  induction l as [|x l IH]; [reflexivity|]. destruct x as [[| | |e' [|a q] z]|e' names]; cbn [listed plains defaults_all defaults_of declared_default flat_map app first_element]; try exact IH; intros N.
  - cbn [lookup]. fold (plains l). rewrite <- (IH N). now destruct (list_eq_dec N.eq_dec e' e).
  - inversion N as [|? ? N1 N2]; subst. destruct (list_eq_dec N.eq_dec e' e) as [->|]; [|now apply IH]. fold (plains l). rewrite first_default_map, no_default by exact N1. now destruct (lookup tag (a :: q)).
  - inversion N as [|? ? N1 N2]; subst. destruct (list_eq_dec N.eq_dec e' e) as [->|]; [|now apply IH]. fold (plains l). rewrite no_default by exact N1.
    clear. induction names as [|a l IH]; [reflexivity|]. cbn [map first_default]. now destruct (list_eq_dec N.eq_dec a tag).
Qed.
Theorem document_defaults s fuel dec lim e own tag : good_source dec s -> length (source_text s) <= fuel -> (6 + length (source_text s)) * length (source_text s) < dec ->
  exists x d, NewXMLDocument fuel dec lim (source_text s) = Ok (Some (Tree x false, d)) /\
  GetXMLTreeAttribute d e own tag = match first_attr tag own with Some v => v | None => declared_default e tag (plains (declares s)) end.
Proof.
  intros G L D. do 2 eexists. split; [now apply document_read|]. unfold GetXMLTreeAttribute. cbn [defaults source_dtd]. destruct G as (_ & _ & _ & N & _). rewrite default_declared by exact N. reflexivity.
Qed.
Print Assumptions document_defaults.
Definition sample : source := {| declaration := Some (b "xml version=""1.0"" standalone=""yes"""); doctype := Some (b "r");
  declares := [Plain (Entity (b "wiz") (b "a wizard")); Plain (Comment (b " defaults ")); Plain (Attributes (b "r") [(b "k", b "v")] (b "z")); Tokens (b "x") [b "k"; b "m"]]; gap := [10%N];
  root := Node (b "r") [(b "a", [Named (b "wiz"); Char 115; Special 34; Char 9])] [(map Char (b "I am ") ++ [Named (b "wiz")], Leaf (b "x") [(b "k", map Char (b "  u  v ")); (b "l", map Char (b " u"))])] [Special 60; Char 33] |}.
Example sample_source_text : source_text sample =
  b "<?xml version=""1.0"" standalone=""yes""?><!DOCTYPE r [<!ENTITY wiz ""a wizard""><!-- defaults --><!ATTLIST r k CDATA ""v"" z CDATA #IMPLIED><!ATTLIST x k NMTOKENS #IMPLIED m NMTOKENS #IMPLIED>]>" ++ [10%N] ++
  b "<r a=""&wiz;s&quot;" ++ [9%N] ++ b """>I am &wiz;<x k=""  u  v "" l="" u""/>&lt;!</r>".
Proof. reflexivity. Qed.
Example sample_means : element_means (entity_value sample) (tokens_of (declares sample)) (root sample) =
  Xml (b "r") [(b "a", Some (b "a wizards"" "))] (b "I am a wizard<!") [(13, Xml (b "x") [(b "k", Some (b "u v")); (b "l", Some (b " u"))] [] [])].
Proof. reflexivity. Qed.
Lemma no_byte c s : forallb (fun x => negb (x =? c)%N) s = true -> ~ In c s.
Proof. intros H K. rewrite forallb_forall in H. specialize (H c K). lia. Qed.
Lemma unclosed_without s : ~ In 93%N s -> unclosed s.
Proof. intros H a w z -> _. apply H. apply in_or_app. right. now left. Qed.
Definition letterb (c : N) : bool := ((65 <=? c) && (c <=? 90) || (97 <=? c) && (c <=? 122) || (c =? 95))%N.
Lemma all_bytes (p : N -> bool) (P : N -> Prop) s : (forall c, p c = true -> P c) -> forallb p s = true -> Forall P s.
Proof. intros I H. rewrite forallb_forall in H. apply Forall_forall. intros c C. apply I, H, C. Qed.
Lemma lettered s : forallb letterb s = true -> s <> [] -> attribute_name s /\ tag_name s /\ ~ container s.
Proof.
  intros H N. assert (forall c, letterb c = true -> letter c) as L by (unfold letterb, letter; intros; lia).
  assert (Forall letter s) as F by (eapply all_bytes; [|exact H]; exact L).
  assert (Forall name_char s) as G by (eapply Forall_impl; [|exact F]; intros c C; now left).
  assert (exists c r, s = c :: r /\ letter c) as (c & r & E & C) by (inversion F; subst; [congruence|eauto]).
  split; [split; [exact G|eauto]|]. split; [split; [exact G|eauto 6]|].
  intros K. assert (In 58%N (map lower s)) as I by (destruct K as [-> | ->]; cbn; tauto). apply in_map_iff in I as (x & X & I).
  rewrite Forall_forall in F. specialize (F x I). unfold letter in F. unfold lower in X. destruct ((65 <=? x) && (x <=? 90))%N eqn:B; lia.
Qed.
Example sample_good dec : 100 < dec -> good_source dec sample.
Proof.
  intros D. assert (forall s, forallb letterb s = true -> s <> [] -> attribute_name s /\ name_ok s) as A by (intros s H N; pose proof (proj1 (lettered s H N)); split; [assumption|now apply attribute_name_ok]).
  assert (forall s, forallb (fun c => (32 <=? c) && negb (c =? 38) && negb (c =? 37) && negb (c =? 60))%N s = true -> Forall plain s /\ Forall good s) as P.
  { intros s H. split; (eapply all_bytes; [|exact H]); unfold plain, good; intros c C; lia. }
  assert (good_piece (entity_value sample) true (Named (b "wiz")) /\ good_piece (entity_value sample) false (Named (b "wiz"))) as [W1 W2].
  { cut (good_piece (entity_value sample) true (Named (b "wiz"))); [intros G; split; exact G|]. split; [now apply A|]. split; [cbn; intuition discriminate|].
    exists (b "a wizard"). split; [reflexivity|]. split; [discriminate|now apply P]. }
  split; [split; now apply no_byte|]. split; [split; now apply no_byte|]. split.
  { repeat apply Forall_cons; try apply Forall_nil; cbn [declared_ok decl_ok].
    - split; [now apply A|]. split; [now apply P|]. split; [now apply no_byte|cbn; lia].
    - now apply no_byte.
    - split; [now apply A|]. split; [|now apply A]. apply Forall_cons; [|apply Forall_nil]. split; [now apply A|]. split; [|split; [now apply no_byte|cbn; lia]].
      apply Forall_cons; [|apply Forall_nil]. repeat split; try discriminate. now left.
    - split; [now apply A|]. split; [discriminate|]. repeat apply Forall_cons; try apply Forall_nil; now apply A. }
  split; [repeat constructor; cbn; intuition discriminate|].
  split; [apply unclosed_without; now apply no_byte|]. split; [now apply no_byte|]. cbn [root sample]. apply good_node; try (now apply lettered).
  - apply Forall_cons; [|apply Forall_nil]. split; [now apply A|]. cbn [snd]. repeat apply Forall_cons; try apply Forall_nil; try exact W1; cbn; unfold good; try (split; [lia|discriminate]). tauto.
  - apply Forall_cons; [|apply Forall_nil]. split; cbn [fst snd].
    + apply Forall_app. split; [|apply Forall_cons; [exact W2|apply Forall_nil]]. cbn. repeat apply Forall_cons; try apply Forall_nil; cbn; unfold good; (split; [lia|discriminate]).
    + apply good_leaf; try (now apply lettered). repeat apply Forall_cons; try apply Forall_nil; (split; [now apply A|]); cbn; repeat apply Forall_cons; try apply Forall_nil; cbn; unfold good; (split; [lia|discriminate]).
  - repeat apply Forall_cons; try apply Forall_nil; cbn; unfold good; [tauto|split; [lia|discriminate]].
Qed.
Example sample_defaults : listed (declares sample) = [b "r"; b "x"] /\ declared_default (b "r") (b "k") (plains (declares sample)) = Some (b "v").
Proof. split; reflexivity. Qed.

(** * C262: what a document may not have *)
(** entities whose values have markup in them: the text with the value in its place has the child, the reference has its text (XML 1.0, 4.4.2: included, as though it were part of the document at that place) *)
Definition with_entity (value body : list N) : list N := b "<!DOCTYPE r [<!ENTITY e """ ++ value ++ b """>]><r>" ++ body ++ b "</r>".
Theorem entity_markup_refuted : exists value, exists x y d,
  NewXMLDocument 100 1000 20 (with_entity value value) = Ok (Some (Tree x false, d)) /\ NewXMLDocument 100 1000 20 (with_entity value (b "&e;")) = Ok (Some (Tree y false, d)) /\
  x = Xml (b "r") [] [] [(0, Xml (b "b") [] [] [])] /\ y = Xml (b "r") [] (b "<b/>") [].
Proof. exists (b "<b/>"). do 3 eexists. split; [vm_compute; reflexivity|]. split; [vm_compute; reflexivity|]. split; reflexivity. Qed.
Print Assumptions entity_markup_refuted.
(** "]>" in a value ends the document type: the entity is what is in front of it, and nothing is said *)
Theorem doctype_quoted_refuted : exists value, ~ In 34%N value /\ Forall good value /\
  match NewXMLDocument 100 1000 20 (with_entity value (b "&e;")) with
  | Ok (Some (Tree x w, d)) => x = Xml (b "r") [] (b "a") [] /\ w = false /\ find_entity (general d) (b "e;") = Some (b "a") /\ value <> b "a"
  | _ => False
  end.
Proof. exists (b "a]>b"). split; [now apply no_byte|]. split; [|vm_compute; repeat split; discriminate]. apply (all_bytes (fun c => (32 <=? c) && negb (c =? 38) && negb (c =? 60))%N); [unfold good; intros; lia|reflexivity]. Qed.
Print Assumptions doctype_quoted_refuted.
