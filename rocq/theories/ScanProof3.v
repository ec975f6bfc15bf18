(** Proofs about ScanModel: digest files. *)
From Coq Require Import Arith NArith ZArith Bool Lia ZifyBool ZifyNat ZifyN String List.
From Verif Require Import Base BaseLemmas Outcome StringInfoModel CStringModel CStringSpec CStringProps CStringProps2 OptionModel OptionProps
  ScanModel ScanProof ScanProof2.
Import ListNotations.
Ltac Zify.zify_post_hook ::= Z.div_mod_to_equations.

Section Digest.
Variable E : nat.
Local Notation inD := (innerL E digest_scanner).

Lemma plain_key w : Forall plain w -> Forall (fun c => keychar digest_scanner c = true) w.
Proof.
  apply Forall_impl. intros c H. unfold keychar. rewrite plain_space by exact H. unfold plain in H. cbn [digest_scanner kt negb andb]. lia.
Qed.
Lemma nonzero_app p q : nonzero p -> nonzero q -> nonzero (p ++ q).
Proof. intros. apply Forall_app. now split. Qed.

(** a key, '>' and the end of the line *)
Lemma in_line k l f toks : startkey digest_scanner k -> Forall (fun c => keychar digest_scanner c = true) k -> nonzero k ->
  length k < E -> 2 < E -> ends_value digest_scanner l ->
  inD (S f) (k ++ 62%N :: 10%N :: l) E E toks = inD f (drop_spaces l) E E (toks ++ [(k, [10%N])]).
Proof.
  intros St K Nz Len E2 En. pose proof (innerL_pair E digest_scanner f k 10%N [] l E E toks) as H. cbn [app] in H.
  apply H; try assumption; try reflexivity; try discriminate; try constructor; try discriminate; try constructor; cbn [length]; lia.
Qed.

Lemma in_element n v l f toks : Forall plain n -> n <> [] -> Forall plain v -> v <> [] -> length n + 9 < E -> length v + 1 < E ->
  ends_value digest_scanner l ->
  inD (S (S (S (S f)))) (drop_spaces (element n v ++ l)) E E toks =
  inD f (drop_spaces l) E E (toks ++ [(b "digest:" ++ n, v); (b "/digest:" ++ n, [10%N])]).
Proof.
  intros Pn Nn Pv Nv Ln Lv En. unfold element.
  replace ((b "    <digest:" ++ n ++ b ">" ++ v ++ b "</digest:" ++ n ++ b ">" ++ newline) ++ l)
    with (b "    <" ++ (b "digest:" ++ n) ++ 62%N :: v ++ b "</digest:" ++ n ++ 62%N :: 10%N :: l)
    by (rewrite <- !app_assoc; reflexivity).
  change (drop_spaces (b "    <" ++ ?x)) with (60%N :: x). rewrite innerL_punct by reflexivity.
  change (drop_spaces ((b "digest:" ++ n) ++ ?x)) with ((b "digest:" ++ n) ++ x).
  destruct v as [|c v]; [contradiction|]. inversion Pv as [|? ? Pc Pv']; subst. cbn [app].
  rewrite (innerL_pair E digest_scanner); [| split; reflexivity
    | apply Forall_app; split; [repeat constructor | now apply plain_key]
    | apply nonzero_app; [repeat constructor; discriminate | now apply plain_nonzero]
    | rewrite app_length; change (length (b "digest:")) with 7; lia | reflexivity | unfold plain in Pc; cbn; lia
    | | now apply plain_nonzero | lia | now left | cbn [length] in Lv; lia].
  2:{ eapply Forall_impl; [|exact Pv']. intros x Hx. split; [now apply plain_space | unfold plain in Hx; cbn; lia]. }
  change (drop_spaces (b "</digest:" ++ ?x)) with (60%N :: b "/digest:" ++ x). rewrite innerL_punct by reflexivity.
  change (drop_spaces (b "/digest:" ++ ?x)) with (b "/digest:" ++ x). rewrite app_assoc.
  rewrite in_line; [| split; reflexivity
    | apply Forall_app; split; [repeat constructor | now apply plain_key]
    | apply nonzero_app; [repeat constructor; discriminate | now apply plain_nonzero]
    | rewrite app_length; change (length (b "/digest:")) with 8; lia | lia | exact En].
  rewrite <- app_assoc. reflexivity.
Qed.

Definition about (p : list N) : list N := b "rdf:about=" ++ 34%N :: p ++ [34%N].
Definition element_tokens (n v : list N) : list token := [(b "digest:" ++ n, v); (b "/digest:" ++ n, [10%N])].
Definition entry_tokens (e : entry) : list token :=
  [(b "digest:Content", []); (about (d_path e), [10%N])]
  ++ element_tokens (b "timestamp") (d_stamp e) ++ element_tokens (b "modify-date") (d_modify e)
  ++ element_tokens (b "create-date") (d_modify e) ++ element_tokens (b "extent") (d_extent e)
  ++ element_tokens (d_alg e) (d_hex e) ++ [(b "/digest:Content", [10%N])].

Definition word (w : list N) : Prop := Forall plain w /\ w <> [] /\ length w + 13 < E.

Definition entry_words (canonical : list N -> list N) (e : entry) : Prop :=
  word (d_path e) /\ canonical (d_path e) = d_path e /\ word (d_stamp e) /\ word (d_modify e) /\ word (d_extent e) /\
  word (d_alg e) /\ word (d_hex e).

Lemma b_plain w : forallb (fun c => (33 <=? c) && (c <? 256) && negb (c =? 34) && negb (c =? 39) && negb (c =? 60) && negb (c =? 62) && negb (c =? 63))%N w = true -> Forall plain w.
Proof. intros H. rewrite forallb_forall in H. apply Forall_forall. intros c I. specialize (H c I). unfold plain. lia. Qed.

Lemma element_ends n v l : ends_value digest_scanner (element n v ++ l).
Proof. now right. Qed.

Lemma in_entry canonical e l f toks : 30 < E -> entry_words canonical e -> ends_value digest_scanner l ->
  inD (25 + f) (drop_spaces (write_entry canonical e ++ l)) E E toks = inD f (drop_spaces l) E E (toks ++ entry_tokens e).
Proof.
  intros E30 ((Pp & Np & Lp) & Can & (Ps & Ns & Ls) & (Pm & Nm & Lm) & (Px & Nx & Lx) & (Pa & Na & La) & (Ph & Nh & Lh)) En.
  unfold write_entry. rewrite Can.
  change (25 + f) with (S (S (S (4 + (4 + (4 + (4 + (4 + (S (S f)))))))))).
  replace ((b "  <digest:Content rdf:about=" ++ dquote ++ d_path e ++ dquote ++ b ">" ++ newline ++
    element (b "timestamp") (d_stamp e) ++ element (b "modify-date") (d_modify e) ++ element (b "create-date") (d_modify e) ++
    element (b "extent") (d_extent e) ++ element (d_alg e) (d_hex e) ++ b "  </digest:Content>" ++ newline) ++ l)
   with (b "  <" ++ b "digest:Content" ++ 32%N :: about (d_path e) ++ 62%N :: 10%N ::
    element (b "timestamp") (d_stamp e) ++ element (b "modify-date") (d_modify e) ++ element (b "create-date") (d_modify e) ++
    element (b "extent") (d_extent e) ++ element (d_alg e) (d_hex e) ++ b "  <" ++ b "/digest:Content" ++ 62%N :: 10%N :: l).
  2:{ unfold about. do 3 (repeat rewrite <- app_assoc; cbn [dquote newline app]). reflexivity. }
  change (drop_spaces (b "  <" ++ b "digest:Content" ++ ?x)) with (60%N :: b "digest:Content" ++ x). rewrite innerL_punct by reflexivity.
  change (drop_spaces (b "digest:Content" ++ ?x)) with (b "digest:Content" ++ x).
  rewrite innerL_word; [| split; reflexivity | repeat constructor | repeat constructor; discriminate | change (14 < E); lia | reflexivity | discriminate | lia].
  change (drop_spaces (32%N :: about ?p ++ ?x)) with (about p ++ x).
  assert (P34 : keychar digest_scanner 34 = true) by reflexivity.
  rewrite in_line; [| split; reflexivity
    | unfold about; apply Forall_app; split; [repeat constructor | constructor; [exact P34|]; apply Forall_app; split; [now apply plain_key | repeat constructor]]
    | unfold about; apply nonzero_app; [repeat constructor; discriminate|]; constructor; [discriminate|];
      apply nonzero_app; [now apply plain_nonzero | repeat constructor; discriminate]
    | unfold about; rewrite app_length; cbn [length]; rewrite app_length; change (length (b "rdf:about=")) with 10; cbn [length]; lia
    | lia | apply element_ends].
  cbn [Nat.add].
  rewrite in_element; [| now apply b_plain | discriminate | exact Ps | exact Ns | change (length (b "timestamp")) with 9; lia | lia | apply element_ends].
  rewrite in_element; [| now apply b_plain | discriminate | exact Pm | exact Nm | change (length (b "modify-date")) with 11; lia | lia | apply element_ends].
  rewrite in_element; [| now apply b_plain | discriminate | exact Pm | exact Nm | change (length (b "create-date")) with 11; lia | lia | apply element_ends].
  rewrite in_element; [| now apply b_plain | discriminate | exact Px | exact Nx | change (length (b "extent")) with 6; lia | lia | apply element_ends].
  rewrite in_element; [| exact Pa | exact Na | exact Ph | exact Nh | lia | lia | now right].
  change (drop_spaces (b "  <" ++ b "/digest:Content" ++ ?x)) with (60%N :: b "/digest:Content" ++ x). rewrite innerL_punct by reflexivity.
  change (drop_spaces (b "/digest:Content" ++ ?x)) with (b "/digest:Content" ++ x).
  rewrite in_line; [| split; reflexivity | repeat constructor | repeat constructor; discriminate | change (15 < E); lia | lia | exact En].
  unfold entry_tokens, element_tokens. rewrite <- !app_assoc. reflexivity.
Qed.

Lemma entries_ends canonical l rest : ends_value digest_scanner rest ->
  ends_value digest_scanner (concat (map (write_entry canonical) l) ++ rest).
Proof. destruct l; [trivial|]. intros _. now right. Qed.

Lemma in_entries canonical rest f : 30 < E -> ends_value digest_scanner rest -> forall l toks, Forall (entry_words canonical) l ->
  inD (length l * 25 + f) (drop_spaces (concat (map (write_entry canonical) l) ++ rest)) E E toks =
  inD f (drop_spaces rest) E E (toks ++ concat (map entry_tokens l)).
Proof.
  intros E30 En. induction l as [|e l IH]; intros toks F.
  - cbn [map concat app length Nat.mul Nat.add]. now rewrite app_nil_r.
  - inversion F as [|? ? Fe Fl]; subst. cbn [map concat length]. change (S (length l) * 25 + f) with (25 + (length l * 25 + f)).
    rewrite <- app_assoc, in_entry by (first [assumption | now apply entries_ends]).
    rewrite IH by assumption. now rewrite <- app_assoc.
Qed.

Definition quoted (w : list N) : list N := 34%N :: w ++ [34%N].
Definition rdf_uri : list N := b "http://www.w3.org/1999/02/22-rdf-syntax-ns#".
Definition digest_uri : list N := b "https://urban-warrior.org/WizardsToolkit/digest/1.0/".
Definition start_tokens : list token :=
  [(b "xml", []); (b "version=" ++ quoted (b "1.0") ++ b "?", [10%N]); (b "rdf:RDF", []);
   (b "xmlns:rdf=" ++ quoted rdf_uri, []); (b "xmlns:digest=" ++ quoted digest_uri, [10%N])].

Lemma scan_digest canonical l f : 80 < E -> Forall (entry_words canonical) l ->
  scan E digest_scanner (8 + (length l * 25 + (3 + f))) (write_digest canonical l) =
  Ok (Some (start_tokens ++ concat (map entry_tokens l) ++ [(b "/rdf:RDF", [10%N])], None, [])).
Proof.
  intros E80 F. assert (V : forall w, forallb (fun c => keychar digest_scanner c) w = true -> Forall (fun c => keychar digest_scanner c = true) w).
  { intros w H. rewrite forallb_forall in H. now apply Forall_forall. }
  assert (Z : forall w, forallb (fun c => negb (c =? 0)%N) w = true -> nonzero w).
  { intros w H. rewrite forallb_forall in H. apply Forall_forall. intros c I. specialize (H c I). lia. }
  change (8 + (length l * 25 + (3 + f))) with (S (7 + (length l * 25 + (3 + f)))).
  apply outer_once; [lia | discriminate | discriminate | | now left]. cbn [Nat.add].
  replace (write_digest canonical l) with (60%N :: 63%N :: b "xml" ++ 32%N :: (b "version=" ++ quoted (b "1.0") ++ b "?") ++ 62%N :: 10%N ::
    60%N :: b "rdf:RDF" ++ 32%N :: (b "xmlns:rdf=" ++ quoted rdf_uri) ++ 10%N :: b "         " ++ (b "xmlns:digest=" ++ quoted digest_uri) ++
    62%N :: 10%N :: concat (map (write_entry canonical) l) ++ b "</rdf:RDF>" ++ newline) by reflexivity.
  rewrite innerL_punct by reflexivity. rewrite drop_spaces_stop by reflexivity.
  rewrite innerL_punct by reflexivity. change (drop_spaces (b "xml" ++ ?x)) with (b "xml" ++ x).
  rewrite innerL_word; [| split; reflexivity | now apply V | now apply Z | change (3 < E); lia | reflexivity | discriminate | lia].
  change (drop_spaces (32%N :: (b "version=" ++ ?y) ++ ?x)) with ((b "version=" ++ y) ++ x).
  rewrite in_line; [| split; reflexivity | now apply V | now apply Z | change (14 < E); lia | lia | now left].
  rewrite drop_spaces_stop by reflexivity. rewrite innerL_punct by reflexivity.
  change (drop_spaces (b "rdf:RDF" ++ ?x)) with (b "rdf:RDF" ++ x).
  rewrite innerL_word; [| split; reflexivity | now apply V | now apply Z | change (7 < E); lia | reflexivity | discriminate | lia].
  change (drop_spaces (32%N :: (b "xmlns:rdf=" ++ ?y) ++ ?x)) with ((b "xmlns:rdf=" ++ y) ++ x).
  rewrite innerL_word; [| split; reflexivity | now apply V | now apply Z | | reflexivity | discriminate | lia].
  2:{ match goal with |- ?a < _ => let n := eval vm_compute in a in change (n < E) end. lia. }
  change (drop_spaces (10%N :: b "         " ++ (b "xmlns:digest=" ++ ?y) ++ ?x)) with ((b "xmlns:digest=" ++ y) ++ x).
  rewrite in_line; [| split; reflexivity | now apply V | now apply Z | | lia | apply entries_ends; now left].
  2:{ match goal with |- ?a < _ => let n := eval vm_compute in a in change (n < E) end. lia. }
  rewrite in_entries; [| lia | now left | exact F].
  change (drop_spaces (b "</rdf:RDF>" ++ newline)) with (60%N :: b "/rdf:RDF" ++ [62; 10]%N).
  rewrite innerL_punct by reflexivity. change (drop_spaces (b "/rdf:RDF" ++ ?x)) with (b "/rdf:RDF" ++ x).
  rewrite in_line; [| split; reflexivity | now apply V | now apply Z | change (8 < E); lia | lia | exact I].
  rewrite innerL_end by exact I. reflexivity.
Qed.
End Digest.
