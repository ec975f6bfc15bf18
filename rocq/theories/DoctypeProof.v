(** Lemmas about document types. *)
From Coq Require Import Arith NArith ZArith Bool Lia String List ZifyBool ZifyNat ZifyN.
From Verif Require Import Base Outcome CStringModel OptionModel Base64Model ScanModel XmlModel DoctypeModel XmlProof XmlProof2.
Import ListNotations.

Lemma span_app stop w r : Forall (fun c => stop c = false) w -> match r with [] => True | c :: _ => stop c = true end -> span stop (w ++ r) = (w, r).
Proof.
  intros F H. induction F as [|c w E F IH]; cbn [app span].
  - destruct r as [|c r]; cbn [span]; [reflexivity|]. now rewrite H.
  - now rewrite E, IH.
Qed.
Lemma skip_app p w r : Forall (fun c => p c = true) w -> match r with [] => True | c :: _ => p c = false end -> skip p (w ++ r) = r.
Proof.
  intros F H. unfold skip. rewrite span_app; [reflexivity| |].
  - eapply Forall_impl; [|exact F]. cbn. intros c ->. reflexivity.
  - destruct r; [trivial|]. now rewrite H.
Qed.
Lemma skip_none p r : match r with [] => True | c :: _ => p c = false end -> skip p r = r.
Proof. intros H. apply (skip_app p [] r); [constructor|exact H]. Qed.

(** * Plain text *)
Definition plain (c : N) : Prop := (c <> 38 /\ c <> 37 /\ c <> 13 /\ c <> 0)%N.
Lemma no_reference c s : c <> 38%N -> starts_with (b "&#") (c :: s) = false.
Proof. intros H. change (starts_with (b "&#") (c :: s)) with ((38 =? c)%N && starts_with (b "#") s). destruct (N.eqb_spec 38 c); [congruence|reflexivity]. Qed.
Lemma decode_parameter_plain t v : forall fuel moved out, Forall plain v -> length v < fuel -> decode_parameter fuel t moved out v = Ok (Some (out ++ v)).
Proof.
  induction v as [|c v IH]; intros fuel moved out F H; (destruct fuel as [|fuel]; [cbn in H; lia|]); [cbn; now rewrite app_nil_r|].
  inversion F as [|? ? [A [B [C D]]] F']; subst. cbn [decode_parameter]. rewrite no_reference by exact A. destruct (N.eqb_spec c 37); [contradiction|].
  rewrite IH by (trivial; cbn in H; lia). now rewrite <- app_assoc.
Qed.
Lemma parse_parameters_plain fuel t v : Forall plain v -> length v < fuel -> ParseParameters fuel t v = Ok (Some v).
Proof.
  intros F H. unfold ParseParameters. rewrite normalize_none by (eapply Forall_impl; [|exact F]; intros c [_ [_ [C _]]]; exact C).
  rewrite decode_parameter_plain by assumption. cbn. rewrite cstr_none; [reflexivity|]. eapply Forall_impl; [|exact F]. now intros c [_ [_ [_ D]]].
Qed.
Definition plain_attribute (c : N) : Prop := (c <> 38 /\ c <> 13 /\ c <> 0 /\ (isspace c = false \/ c = 32))%N.
Lemma decode_plain t v : forall fuel moved out, Forall plain_attribute v -> length v < fuel -> decode fuel t Attribute moved out v = Ok (Some (out ++ v)).
Proof.
  induction v as [|c v IH]; intros fuel moved out F H; (destruct fuel as [|fuel]; [cbn in H; lia|]); [cbn; now rewrite app_nil_r|].
  inversion F as [|? ? [A [B [C D]]] F']; subst. rewrite decode_raw by (split; [exact A|tauto]).
  rewrite IH by (trivial; cbn in H; lia). now rewrite <- app_assoc.
Qed.
Lemma parse_attribute_plain fuel t v : Forall plain_attribute v -> length v < fuel -> ParseEntities fuel t Attribute v = Ok (Some v).
Proof.
  intros F H. unfold ParseEntities. rewrite normalize_none by (eapply Forall_impl; [|exact F]; intros c [_ [C _]]; exact C).
  rewrite decode_plain by assumption. cbn. rewrite cstr_none; [reflexivity|]. eapply Forall_impl; [|exact F]. now intros c [_ [_ [D _]]].
Qed.

(** * One declaration *)
Definition neutral (c : N) : Prop := (c <> 60 /\ c <> 37)%N.
Lemma declarations_gap fuel dec lim n g s d : Forall neutral g -> declarations fuel dec lim n (g ++ s) d = declarations fuel dec lim n s d.
Proof.
  intros G. destruct fuel as [|fuel]; [reflexivity|]. cbn [declarations].
  assert (snd (span (one_of [60; 37]%N) (g ++ s)) = snd (span (one_of [60; 37]%N) s)) as ->; [|reflexivity].
  induction G as [|c g [A B] G IH]; [reflexivity|]. cbn [app span]. assert (one_of [60; 37]%N c = false) as -> by (unfold one_of; cbn [existsb]; lia).
  destruct (span (one_of [60; 37]%N) (g ++ s)). exact IH.
Qed.
Lemma span_stop stop c s : stop c = true -> span stop (c :: s) = ([], c :: s).
Proof. intros H. cbn [span]. now rewrite H. Qed.
Definition entity_open : list N := [60;33;69;78;84;73;84;89;32]%N.
Definition entity_text (name value : list N) : list N := entity_open ++ name ++ [32;34]%N ++ value ++ [34;62]%N.
Definition name_ok (name : list N) : Prop :=
  match name with [] => False | c :: _ => (alpha c || (c =? 95)%N) = true end /\ Forall (fun c => xml_space c = false /\ c <> 59%N /\ c <> 62%N /\ c <> 0%N) name.
Lemma name_head name : name_ok name -> exists c r, name = c :: r /\ (alpha c || (c =? 95)%N) = true /\ xml_space c = false /\ c <> 37%N /\ c <> 62%N.
Proof.
  intros [A F]. destruct name as [|c r]; [destruct A|]. exists c, r. inversion F as [|? ? [B [C [D _]]] _]; subst. repeat split; try assumption.
  intros ->. discriminate.
Qed.
Lemma name_no_space name : name_ok name -> Forall (fun c => xml_space c = false) name.
Proof. intros [_ F]. eapply Forall_impl; [|exact F]. now intros c [H _]. Qed.
Definition with_entity (name value : list N) (d : dtd) : dtd :=
  {| general := general d ++ [(name ++ [59%N], value)]; parameters := parameters d; defaults := defaults d; standalone := standalone d |}.
Lemma declare_entity fuel dec lim n name value s d : name_ok name -> Forall plain value -> ~ In 34%N value -> length value < dec ->
  declarations (S fuel) dec lim n (entity_text name value ++ s) d = declarations fuel dec lim (Some (name ++ [59%N])) (62%N :: s) (with_entity name value d).
Proof.
  intros Hn P Q L. destruct (name_head name Hn) as [c [r [E [A [W [Pc Gt]]]]]].
  assert (entity_text name value ++ s = 60%N :: 33%N :: 69%N :: 78%N :: 84%N :: 73%N :: 84%N :: 89%N :: 32%N :: name ++ 32%N :: 34%N :: value ++ 34%N :: 62%N :: s) as ->.
  { unfold entity_text. rewrite <- !app_assoc. reflexivity. }
  cbn [declarations]. rewrite span_stop by reflexivity. cbn [snd].
  match goal with |- context [9 <? ?x] => assert (9 <? x = true) as -> by (cbn [length]; rewrite !app_length; cbn [length]; rewrite E; cbn [length]; lia) end.
  assert (forall x, starts_with (b "<!ENTITY") (60%N :: 33%N :: 69%N :: 78%N :: 84%N :: 73%N :: 84%N :: 89%N :: x) = true) as -> by reflexivity. cbn [andb].
  cbn [skipn List.hd]. change (xml_space 32) with true. cbn [negb].
  assert (skip xml_space (32%N :: name ++ 32%N :: 34%N :: value ++ 34%N :: 62%N :: s) = name ++ 32%N :: 34%N :: value ++ 34%N :: 62%N :: s) as ->.
  { apply (skip_app xml_space [32%N]); [repeat constructor|]. rewrite E. exact W. }
  rewrite (skip_none _ (name ++ _)) by (rewrite E; cbn [app]; destruct (N.eqb_spec c 37); [contradiction|]; now rewrite W).
  assert (List.hd 0%N (name ++ 32%N :: 34%N :: value ++ 34%N :: 62%N :: s) = c) as -> by (rewrite E; reflexivity). rewrite A. cbn [negb].
  rewrite span_app by (try reflexivity; now apply name_no_space).
  rewrite (skip_none _ (34%N :: _)) by reflexivity.
  change (((34 =? 34) || (34 =? 39))%N) with true. cbv iota.
  rewrite span_app; [|rewrite Forall_forall; intros x X; destruct (N.eqb_spec 34 x); [subst; contradiction|reflexivity]|reflexivity].
  assert (is 37 (fst (next (name ++ 32%N :: 34%N :: value ++ 34%N :: 62%N :: s))) = false) as ->.
  { rewrite E. cbn. destruct (N.eqb_spec c 37); [contradiction|reflexivity]. }
  rewrite parse_parameters_plain by assumption. cbv beta iota zeta delta [bind].
  assert (ValidateEntities lim (name ++ [59%N]) (general d) value = true) as ->.
  { unfold ValidateEntities. apply validate_free; [lia|]. intros X. rewrite Forall_forall in P. now destruct (P _ X). }
  reflexivity.
Qed.
(** a comment, and a declaration of an element *)
Definition comment_text (text : list N) : list N := [60;33;45;45]%N ++ text ++ [45;45;62]%N.
Lemma strstr_app x w r : Forall (fun c => Some c <> hd_error x) w -> x <> [] -> strstr x (w ++ x ++ r) = Some (x ++ r).
Proof.
  intros F N0. destruct x as [|a x]; [contradiction|]. induction F as [|c w A F IH].
  - cbn [app strstr]. assert (starts_with (a :: x) (a :: x ++ r) = true) as ->; [|reflexivity].
    clear. cbn [starts_with]. rewrite N.eqb_refl. cbn [andb]. induction x as [|y x IH]; [reflexivity|]. cbn [app starts_with]. now rewrite N.eqb_refl.
  - cbn [app] in *. cbn [strstr]. assert (starts_with (a :: x) (c :: w ++ a :: x ++ r) = false) as ->; [|exact IH].
    cbn [starts_with]. destruct (N.eqb_spec a c); [subst; cbn in A; congruence|reflexivity].
Qed.
Lemma declare_comment fuel dec lim n text s d : ~ In 45%N text ->
  declarations (S fuel) dec lim n (comment_text text ++ s) d = declarations fuel dec lim n s d.
Proof.
  intros H. assert (comment_text text ++ s = 60%N :: 33%N :: 45%N :: 45%N :: text ++ [45;45;62]%N ++ s) as -> by (unfold comment_text; rewrite <- !app_assoc; reflexivity).
  cbn [declarations]. rewrite span_stop by reflexivity. cbn [snd].
  match goal with |- context [starts_with (b "<!ENTITY") ?x] => change (starts_with (b "<!ENTITY") x) with false end. rewrite andb_false_r.
  match goal with |- context [starts_with (b "<!ATTLIST") ?x] => change (starts_with (b "<!ATTLIST") x) with false end. cbv iota.
  match goal with |- context [starts_with (b "<!--") ?x] => change (starts_with (b "<!--") x) with true end. cbv iota. cbn [skipn].
  change (b "-->") with [45;45;62]%N. rewrite strstr_app.
  - apply (declarations_gap fuel dec lim n [45;45;62]%N). repeat constructor; discriminate.
  - rewrite Forall_forall. intros c X E. injection E as ->. contradiction.
  - discriminate.
Qed.
Definition element_text (text : list N) : list N := [60;33;69;76;69;77;69;78;84;32]%N ++ text ++ [62]%N.
Lemma declare_element fuel dec lim n text s d : ~ In 62%N text ->
  declarations (S fuel) dec lim n (element_text text ++ s) d = declarations fuel dec lim n s d.
Proof.
  intros H. assert (element_text text ++ s = 60%N :: 33%N :: 69%N :: 76%N :: 69%N :: 77%N :: 69%N :: 78%N :: 84%N :: 32%N :: text ++ [62]%N ++ s) as -> by (unfold element_text; rewrite <- !app_assoc; reflexivity).
  cbn [declarations]. rewrite span_stop by reflexivity. cbn [snd].
  match goal with |- context [starts_with (b "<!ENTITY") ?x] => change (starts_with (b "<!ENTITY") x) with false end. rewrite andb_false_r.
  match goal with |- context [starts_with (b "<!ATTLIST") ?x] => change (starts_with (b "<!ATTLIST") x) with false end. cbv iota.
  match goal with |- context [starts_with (b "<!--") ?x] => change (starts_with (b "<!--") x) with false end. cbv iota.
  match goal with |- context [starts_with (b "<?") ?x] => change (starts_with (b "<?") x) with false end. cbv iota.
  change (60 =? 60)%N with true. cbv iota.
  change (60%N :: 33%N :: 69%N :: 76%N :: 69%N :: 77%N :: 69%N :: 78%N :: 84%N :: 32%N :: text ++ [62]%N ++ s) with ((60%N :: 33%N :: 69%N :: 76%N :: 69%N :: 77%N :: 69%N :: 78%N :: 84%N :: 32%N :: text) ++ [62]%N ++ s).
  rewrite strstr_app.
  - apply (declarations_gap fuel dec lim n [62]%N). repeat constructor; discriminate.
  - rewrite Forall_forall. intros c X E. injection E as ->. cbn in X. repeat (destruct X as [X|X]; [discriminate|]). contradiction.
  - discriminate.
Qed.

(** * Attributes *)
Definition attribute_text (a : list N * list N) : list N := 32%N :: fst a ++ [32;67;68;65;84;65;32;34]%N ++ snd a ++ [34]%N.
Definition attribute_ok (dec : nat) (a : list N * list N) : Prop := name_ok (fst a) /\ Forall plain_attribute (snd a) /\ ~ In 34%N (snd a) /\ length (snd a) < dec.
Definition with_default (i : nat) (element : list N) (d : dtd) (a : list N * list N) : dtd :=
  {| general := general d; parameters := parameters d; defaults := add_default i element (fst a, Some (snd a), false) (defaults d); standalone := standalone d |}.
(** one attribute; [x] is the text from behind the byte of the pointer *)
Lemma attlist_one fuel dec i element cur a s d : attribute_ok dec a ->
  attlist (S fuel) dec i element cur (attribute_text a ++ s) d = attlist fuel dec i element 0 s (with_default i element d a).
Proof.
  intros [Hn [P [Q L]]]. destruct a as [name value]. cbn [fst snd] in *. destruct (name_head name Hn) as [c [r [E [A [W [Pc Gt]]]]]].
  assert (attribute_text (name, value) ++ s = 32%N :: name ++ [32;67;68;65;84;65;32;34]%N ++ value ++ 34%N :: s) as ->.
  { unfold attribute_text. cbn [fst snd]. rewrite <- app_comm_cons, <- !app_assoc. reflexivity. }
  cbn [attlist]. cbn [app].
  assert (skip xml_space (32%N :: name ++ 32%N :: 67%N :: 68%N :: 65%N :: 84%N :: 65%N :: 32%N :: 34%N :: value ++ 34%N :: s)
          = name ++ 32%N :: 67%N :: 68%N :: 65%N :: 84%N :: 65%N :: 32%N :: 34%N :: value ++ 34%N :: s) as ->.
  { apply (skip_app xml_space [32%N]); [repeat constructor|]. rewrite E. exact W. }
  set (tail := 32%N :: 67%N :: 68%N :: 65%N :: 84%N :: 65%N :: 32%N :: 34%N :: value ++ 34%N :: s).
  assert (span xml_space (name ++ tail) = (name, tail)) as Sp by (apply span_app; [now apply name_no_space|reflexivity]). rewrite Sp.
  assert (forall (T : Type) (x y : T), match name ++ tail with [] => x | 62%N :: _ => x | _ => y end = y) as K.
  { intros T x y. rewrite E. cbn [app]. destruct c as [|p]; [reflexivity|]. do 6 (destruct p as [p|p|]; try reflexivity). contradiction. }
  rewrite K. clear K. unfold tail.
  rewrite (skip_none _ (67%N :: _)) by reflexivity.
  match goal with |- context [starts_with (b "CDATA") ?x] => change (starts_with (b "CDATA") x) with true end.
  match goal with |- context [starts_with (b "NOTATION") ?x] => change (starts_with (b "NOTATION") x) with false end. cbn [negb]. cbv iota zeta.
  match goal with |- context [is 40 (fst (next (67%N :: ?x)))] => change (is 40 (fst (next (67%N :: x)))) with false end. cbv iota.
  assert (span xml_space (67%N :: 68%N :: 65%N :: 84%N :: 65%N :: 32%N :: 34%N :: value ++ 34%N :: s) = ([67;68;65;84;65]%N, 32%N :: 34%N :: value ++ 34%N :: s)) as -> by reflexivity.
  cbn [snd].
  assert (skip (fun c0 => xml_space c0 || (c0 =? 41)%N) (32%N :: 34%N :: value ++ 34%N :: s) = 34%N :: value ++ 34%N :: s) as -> by reflexivity.
  match goal with |- context [starts_with (b "#FIXED") ?x] => change (starts_with (b "#FIXED") x) with false end. cbv iota.
  change (34 =? 35)%N with false. change ((34 =? 34) || (34 =? 39))%N with true. cbv iota.
  rewrite span_app; [|rewrite Forall_forall; intros x X; destruct (N.eqb_spec 34 x); [subst; contradiction|reflexivity]|reflexivity].
  rewrite parse_attribute_plain by assumption. reflexivity.
Qed.
Lemma attlist_many dec i element l : forall fuel cur s d, Forall (attribute_ok dec) l ->
  attlist (length l + fuel) dec i element cur (flat_map attribute_text l ++ s) d = attlist fuel dec i element (match l with [] => cur | _ => 0%N end) s (fold_left (with_default i element) l d).
Proof.
  induction l as [|a l IH]; intros fuel cur s d F; [reflexivity|]. inversion F; subst. cbn [length Nat.add flat_map fold_left]. rewrite <- app_assoc, attlist_one by assumption.
  rewrite IH by assumption. destruct l; reflexivity.
Qed.
