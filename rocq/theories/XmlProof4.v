(** Lemmas on XmlModel: what the printer writes the parser reads. *)
From Coq Require Import Arith NArith ZArith Bool String Lia ZifyBool ZifyNat ZifyN Sorting List.
From Verif Require Import Base Outcome CStringModel CStringSpec CStringProps OptionModel Base64Model ScanModel ScanProof2 XmlModel XmlSpec XmlTreeSpec XmlProof XmlProof2.
Import ListNotations.
Ltac Zify.zify_post_hook ::= Z.div_mod_to_equations.

(** * The loop *)
Definition after_markup (fuel : nat) (terminal : N) (q : list N) (ignore : nat) (t : tree) : outcome (option parsed) :=
  let finished := Ok (Some (match t with After _ => stop false t | _ => stop true t end)) in
  match tl q with
  | [] => finished
  | q =>
      let '(text, q) := span (N.eqb 60) q in
      match q with
      | [] => finished
      | _ :: q =>
          let* r := if ignore =? 0 then add_content (S (6 * length text)) General text t else Ok (Some t) in
          match r with
          | None => Ok None
          | Some t => parse fuel terminal q ignore t
          end
      end
  end.
Lemma parse_step fuel terminal p ignore t :
  parse (S fuel) terminal p ignore t =
  let* r := markup terminal p ignore t in
  match r with
  | None => Ok None
  | Some (inr r) => Ok (Some r)
  | Some (inl (t, ignore, q)) => after_markup fuel terminal q ignore t
  end.
Proof. reflexivity. Qed.

(** * Spans *)
Lemma span_app stop s c r : Forall (fun c => stop c = false) s -> stop c = true -> span stop (s ++ c :: r) = (s, c :: r).
Proof. intros H C. induction H as [|d s D _ IH]; cbn [app span]; [now rewrite C|]. now rewrite D, IH. Qed.
Lemma span_all stop s : Forall (fun c => stop c = false) s -> span stop s = (s, []).
Proof. intros H. induction H as [|d s D _ IH]; cbn [span]; [reflexivity|]. now rewrite D, IH. Qed.
Lemma span_stop stop c r : stop c = true -> span stop (c :: r) = ([], c :: r).
Proof. intros C. cbn [span]. now rewrite C. Qed.
Lemma drop_spaces_stop' c r : isspace c = false -> drop_spaces (c :: r) = c :: r.
Proof. intros H. cbn [drop_spaces]. now rewrite H. Qed.

(** * Text *)
Definition canon (pedantic : bool) (s : list N) : list N := flat_map (escape pedantic) s.
Lemma ascii_latin1 s : Forall ascii_char s -> ConvertLatin1ToUTF8 s = s.
Proof.
  induction 1 as [|c s [_ C] _ IH]; [reflexivity|]. cbn [ConvertLatin1ToUTF8 flat_map].
  destruct (N.ltb_spec c 128); [|lia]. cbn [app]. f_equal. exact IH.
Qed.
Lemma ascii_xml s : Forall ascii_char s -> Forall xml_char s.
Proof. apply Forall_impl. now intros c []. Qed.
Lemma canonical_ascii base64 s pedantic : Forall ascii_char s -> CanonicalXMLContent base64 s pedantic = canon pedantic s.
Proof. intros H. rewrite canonical_text by now apply ascii_xml. now rewrite ascii_latin1. Qed.
Lemma canon_length pedantic s : length s <= length (canon pedantic s).
Proof.
  induction s as [|c s IH]; [cbn; lia|]. cbn [canon flat_map length]. rewrite app_length.
  assert (1 <= length (escape pedantic c)); [|unfold canon in IH; lia].
  unfold escape. repeat match goal with |- context [if ?q then _ else _] => destruct q end; cbn; lia.
Qed.
Lemma escape_no pedantic c : Forall (fun x => x <> 60 /\ x <> 34)%N (escape pedantic c).
Proof.
  unfold escape. repeat match goal with |- Forall _ (if (c =? ?k)%N then _ else _) => destruct (N.eqb_spec c k) end;
    try destruct pedantic; repeat constructor; try discriminate; congruence.
Qed.
Lemma canon_no pedantic s : Forall (fun x => x <> 60 /\ x <> 34)%N (canon pedantic s).
Proof. induction s; [constructor|]. cbn. apply Forall_app. split; [apply escape_no|assumption]. Qed.
Lemma parse_canon st pedantic s : inverse st pedantic -> Forall ascii_char s ->
  ParseEntities (S (6 * length (canon pedantic s))) predefined st (canon pedantic s) = Ok (Some s).
Proof.
  intros I H. rewrite <- (canonical_ascii (fun x => x)) by assumption.
  rewrite (parse_canonical (fun x => x)); [|assumption|now apply ascii_xml|].
  - now rewrite ascii_latin1.
  - rewrite canonical_ascii by assumption. pose proof (canon_length pedantic s). lia.
Qed.

Definition more (f : frame) (s : list N) : frame := mkFrame (f_tag f) (f_attrs f) (f_content f ++ s) (f_kids f).
Lemma more_nil f : more f [] = f.
Proof. destruct f. unfold more. cbn. now rewrite app_nil_r. Qed.
Lemma after_text fuel s p f o : Forall ascii_char s ->
  after_markup fuel 62 (62%N :: canon false s ++ 60%N :: p) 0 (Inside f o) = parse fuel 62 p 0 (Inside (more f s) o).
Proof.
  intros H. unfold after_markup. cbn [tl].
  assert (span (N.eqb 60) (canon false s ++ 60%N :: p) = (canon false s, 60%N :: p)) as Sp.
  { apply span_app; [|reflexivity]. eapply Forall_impl; [|apply canon_no]. cbv beta. intros c C. lia. }
  destruct (canon false s ++ 60%N :: p) eqn:E; [destruct (canon false s); discriminate|]. rewrite Sp. clear E Sp.
  cbn [Nat.eqb]. unfold add_content. destruct s as [|c s]; [cbn [canon flat_map bind]; now rewrite more_nil|].
  pose proof (canon_length false (c :: s)) as L. pose proof (parse_canon General false (c :: s) (or_introl eq_refl) H) as P.
  destruct (canon false (c :: s)) as [|y0 l0]; [cbn in L; lia|]. rewrite P. reflexivity.
Qed.

(** * Attributes *)
Fixpoint attrs_text (l : list attr) : list N :=
  match l with
  | [] => []
  | (name, value) :: l =>
      32%N :: name ++ [61; 34]%N ++ canon true (match value with Some v => v | None => [] end) ++ 34%N :: attrs_text l
  end.
Definition good_attr (a : attr) : Prop := attribute_name (fst a) /\ exists v, snd a = Some v /\ Forall ascii_char v.
Lemma attributes_print base64 l : Forall good_attr l -> NoDup (map fst l) ->
  forall seen, (forall n, In n seen -> ~ In n (map fst l)) -> attributes_xml base64 seen l = Ok (attrs_text l).
Proof.
  induction 1 as [|[n v] l (A & u & U & V) _ IH]; intros D seen S; [reflexivity|]. cbn [fst snd map] in *. subst v.
  inversion D; subst. cbn [attributes_xml attrs_text]. rewrite IH; [|assumption|].
  - cbn [bind]. replace (existsb _ seen) with false; [now rewrite canonical_ascii|].
    symmetry. apply not_true_is_false. intros E. apply existsb_exists in E as (m & M & E).
    destruct (list_eq_dec N.eq_dec m n); [|discriminate]. subst. apply (S n M). now left.
  - intros m [->|M]; [assumption|]. intros K. apply (S m M). now right.
Qed.
Lemma name_stop c : name_char c -> xml_space c = false /\ c <> 61%N /\ c <> 47%N /\ c <> 62%N /\ isspace c = false.
Proof. unfold name_char, letter, xml_space, isspace. intros H. lia. Qed.
Lemma attrs_read l : Forall good_attr l -> forall rest acc fuel c, (c = 47 \/ c = 62)%N -> length l < fuel ->
  get_attributes fuel (drop_spaces (attrs_text l ++ c :: rest)) acc = Ok (Some (inl (acc ++ l, c :: rest))).
Proof.
  induction 1 as [|[n v] l (A & u & U & V) _ IH]; intros rest acc fuel c C F.
  - cbn [attrs_text app]. rewrite drop_spaces_stop' by (unfold isspace; lia). destruct fuel; [lia|]. cbn [get_attributes].
    replace ((c =? 47) || (c =? 62))%N with true by lia. now rewrite app_nil_r.
  - cbn [fst snd] in *. subst v. destruct fuel as [|fuel]; [cbn in F; lia|].
    destruct A as (A & x & n' & -> & L).
    assert (Forall name_char (x :: n')) as A' by assumption. 
    inversion A as [|? ? X A2]; subst. destruct (name_stop x X) as (_ & _ & X1 & X2 & X3).
    cbn [attrs_text]. repeat (rewrite <- app_assoc || rewrite <- app_comm_cons).
    change (drop_spaces (32%N :: ?y)) with (drop_spaces y). rewrite drop_spaces_stop' by assumption.
    cbn [get_attributes]. replace ((x =? 47) || (x =? 62))%N with false by lia.
    change (x :: n' ++ ?y) with ((x :: n') ++ y). cbn [app].
    change (x :: n' ++ 61%N :: ?y) with ((x :: n') ++ 61%N :: y).
    rewrite span_app; [| |reflexivity].
    2:{ eapply Forall_impl; [|exact A']. intros y Y. destruct (name_stop y Y) as (Y1 & Y2 & Y3 & Y4 & _).
        rewrite Y1. cbn. lia. }
    change (61 =? 61)%N with true. cbn [orb].
    rewrite (span_stop _ 34) by reflexivity. cbn [snd]. change (34 =? 34)%N with true. cbn [orb].
    rewrite span_app; [| |reflexivity].
    2:{ eapply Forall_impl; [|apply canon_no]. cbv beta. intros y Y. lia. }
    rewrite parse_canon by (assumption || (right; split; reflexivity)). cbn [bind].
    rewrite IH by (assumption || (cbn [length] in F; lia)). now rewrite <- app_assoc.
Qed.

(** * Tags *)
Definition put (x : xml) (t : tree) : tree :=
  match t with Before => After x | Inside f o => Inside (with_kid f x) o | After r => After r end.
Definition opened (t : tree) : Prop := match t with After _ => False | _ => True end.

Lemma not_container tag : tag_name tag -> ~ container tag -> skip_tag tag = Ok false.
Proof.
  intros [T _] C. unfold skip_tag, same.
  destruct locale_compare_order_partial as (cmp & E & _ & _ & Z).
  assert (Forall (fun c => 0 < c < 128)%N tag) as A by (eapply Forall_impl; [|exact T]; unfold name_char, letter; intros; lia).
  assert (text tag) as A' by (eapply Forall_impl; [|exact A]; cbv beta; intros; lia).
  assert (forall w, Forall (fun c => 0 < c < 128)%N w -> map lower tag <> map lower w ->
    LocaleCompare (tag ++ [0%N]) (w ++ [0%N]) = Ok (cmp tag w) /\ cmp tag w <> 0%Z) as G.
  { intros w W D. split; [apply E; [assumption|]; eapply Forall_impl; [|exact W]; cbv beta; intros; lia|].
    intros K. apply D, Z; assumption. }
  assert (forall w, forallb (fun c => (0 <? c) && (c <? 128))%N w = true -> Forall (fun c => 0 < c < 128)%N w) as W.
  { intros w H. rewrite forallb_forall in H. apply Forall_forall. intros c I. specialize (H c I). lia. }
  destruct (G (b "rdf:Bag")) as [E1 N1]; [now apply W|intros K; apply C; left; exact K|].
  destruct (G (b "rdf:Seq")) as [E2 N2]; [now apply W|intros K; apply C; right; exact K|].
  rewrite E1, E2. cbn [bind]. destruct (Z.eqb_spec (cmp tag (b "rdf:Bag")) 0); [congruence|].
  destruct (Z.eqb_spec (cmp tag (b "rdf:Seq")) 0); [congruence|]. reflexivity.
Qed.

Lemma attrs_text_length l : length l <= length (attrs_text l) - length l.
Proof.
  induction l as [|[n v] l IH]; [cbn; lia|]. cbn [attrs_text length]. repeat (rewrite app_length; cbn [length]). lia.
Qed.

(** both forms of a tag: [c] is '>' or '/' *)
Lemma markup_tag tag attrs c rest t : tag_name tag -> ~ container tag -> Forall good_attr attrs -> opened t -> (c = 47 \/ c = 62)%N ->
  markup 62 (tag ++ attrs_text attrs ++ c :: rest) 0 t =
  if (c =? 47)%N
  then if match rest with [] => true | d :: _ => (d =? 62)%N end
       then Ok (Some (inl (match close_tag tag (open_tag tag attrs t) with Some t => t | None => open_tag tag attrs t end, 0, rest)))
       else Ok (Some (inr (stop true t)))
  else Ok (Some (inl (open_tag tag attrs t, 0, c :: rest))).
Proof.
  intros T K A O C. pose proof (not_container tag T K) as Sk. destruct T as (T & x & tag' & E & X).
  assert (span (fun c => xml_space c || one_of [47; 62]%N c) (tag ++ attrs_text attrs ++ c :: rest) = (tag, attrs_text attrs ++ c :: rest)) as Sp.
  { assert (Forall (fun c => xml_space c || one_of [47; 62]%N c = false) tag) as F.
    { eapply Forall_impl; [|exact T]. intros y Y. destruct (name_stop y Y) as (Y1 & _ & Y2 & Y3 & _). rewrite Y1. cbn. lia. }
    destruct attrs as [|[n v] l]; cbn [attrs_text app]; apply span_app; try assumption; [destruct C; subst; reflexivity|reflexivity]. }
  unfold markup. rewrite Sp.
  assert (hd 0%N (tag ++ attrs_text attrs ++ c :: rest) = x) as -> by (subst tag; reflexivity).
  replace (alpha x || (x =? 95)%N || (x =? 58)%N || (128 <=? x)%N) with true by (unfold alpha; unfold letter in X; lia).
  assert ((let p2 := drop_spaces (attrs_text attrs ++ c :: rest) in
    if (alpha (hd 0%N p2) || (hd 0 p2 =? 95))%N && (0 =? 0) then get_attributes (S (length p2)) p2 []
    else Ok (Some (inl ([], snd (span (one_of [47; 62]%N) p2))))) = Ok (Some (inl (attrs, c :: rest)))) as G.
  { cbv zeta. destruct attrs as [|[n v] l].
    - cbn [attrs_text app]. rewrite drop_spaces_stop' by (unfold isspace; lia). cbn [hd].
      replace ((alpha c || (c =? 95))%N && (0 =? 0)) with false by (unfold alpha; lia).
      rewrite span_stop by (destruct C; subst; reflexivity). reflexivity.
    - pose proof (attrs_text_length ((n, v) :: l)) as L.
      inversion A as [|? ? [(N1 & y & n' & En & Ny) _] _]; subst. cbn [fst] in En. subst n.
      assert (isspace y = false) as Sy by (unfold isspace; unfold letter in Ny; lia).
      assert (hd 0%N (drop_spaces (attrs_text ((y :: n', v) :: l) ++ c :: rest)) = y) as Hd.
      { cbn [attrs_text app]. change (drop_spaces (32%N :: ?y)) with (drop_spaces y). now rewrite drop_spaces_stop'. }
      match goal with |- context [alpha (hd ?d ?X)] => change (hd d X) with (hd 0%N (drop_spaces (attrs_text ((y :: n', v) :: l) ++ c :: rest))) end.
      rewrite Hd. assert ((alpha y || (y =? 95))%N && (0 =? 0) = true) as -> by (unfold alpha; unfold letter in Ny; lia).
      rewrite attrs_read; [reflexivity|assumption|assumption|].
      cbn [attrs_text app] in *. change (drop_spaces (32%N :: ?y)) with (drop_spaces y). rewrite drop_spaces_stop' by assumption.
      cbn [length] in *. rewrite app_length. lia. }
  cbv zeta in G. rewrite G. cbn [bind]. rewrite Sk. cbn [bind].
  destruct t as [|f o|r]; [| |destruct O].
  - destruct C as [->| ->]; [|reflexivity]. change (47 =? 47)%N with true. cbv iota.
    destruct rest as [|d rest]; [cbn [Nat.eqb negb orb]; change (62 =? 62)%N with true; cbn [negb]; destruct (close_tag tag (open_tag tag attrs Before)); reflexivity|].
    destruct (d =? 62)%N; [|reflexivity]. cbn [negb].
    cbn [Nat.eqb negb orb]. destruct (close_tag tag (open_tag tag attrs Before)); reflexivity.
  - destruct C as [->| ->]; [|reflexivity]. change (47 =? 47)%N with true. cbv iota.
    destruct rest as [|d rest]; [cbn [Nat.eqb negb orb]; change (62 =? 62)%N with true; cbn [negb]; destruct (close_tag tag (open_tag tag attrs (Inside f o))); reflexivity|].
    destruct (d =? 62)%N; [|reflexivity]. cbn [Nat.eqb negb orb].
    destruct (close_tag tag (open_tag tag attrs (Inside f o))); reflexivity.
Qed.

Lemma close_open tag attrs t : opened t -> close_tag tag (open_tag tag attrs t) = Some (put (Xml tag attrs [] []) t).
Proof.
  intros O. destruct t as [|f o|r]; [| |destruct O]; cbn [open_tag close_tag f_tag put];
    (destruct (list_eq_dec N.eq_dec tag tag); [reflexivity|congruence]).
Qed.
(** the closing tag, at the end of the document or before '>' *)
Definition tail (q : list N) : Prop := q = [] \/ exists r, q = 62%N :: r.
Lemma markup_close tag f o q : tag_name tag -> tail q -> f_tag f = tag ->
  markup 62 (47%N :: tag ++ q) 0 (Inside f o) =
  Ok (Some (inl (match o with [] => After (closed f) | g :: o => Inside (with_kid g (closed f)) o end, 0, q))).
Proof.
  intros (T & x & tag' & E & X) Q F. unfold markup. cbn [hd tl].
  replace (alpha 47 || (47 =? 95)%N || (47 =? 58)%N || (128 <=? 47)%N) with false by reflexivity.
  change (47 =? 47)%N with true. cbv iota.
  assert (Forall (fun c => xml_space c || (c =? 62)%N = false) tag) as A.
  { eapply Forall_impl; [|exact T]. intros y Y. destruct (name_stop y Y) as (Y1 & _ & Y2 & Y3 & _). rewrite Y1. cbn. lia. }
  assert (span (fun c => xml_space c || (c =? 62)%N) (tag ++ q) = (tag, q)) as ->.
  { destruct Q as [->|[r ->]]; [rewrite app_nil_r; now apply span_all|]. now apply span_app. }
  assert (close_tag tag (Inside f o) = Some (match o with [] => After (closed f) | g :: o => Inside (with_kid g (closed f)) o end)) as C.
  { cbn [close_tag]. rewrite F. destruct (list_eq_dec N.eq_dec tag tag); [reflexivity|congruence]. }
  destruct Q as [->|[r ->]].
  - change (62 =? 62)%N with true. cbn [Nat.eqb]. now rewrite C.
  - cbn [Nat.eqb]. rewrite C. reflexivity.
Qed.

(** * Trees *)
Section Induction.
  Variable P : xml -> Prop.
  Hypothesis step : forall tag attrs content kids, Forall (fun k => P (snd k)) kids -> P (Xml tag attrs content kids).
  Fixpoint xml_induction (x : xml) : P x :=
    match x with
    | Xml tag attrs content kids =>
        step tag attrs content kids
          ((fix go (l : list (nat * xml)) : Forall (fun k => P (snd k)) l :=
              match l with [] => Forall_nil _ | k :: l => Forall_cons k (xml_induction (snd k)) (go l) end) kids)
    end.
End Induction.

(** print x = '<' body x '>' *)
Fixpoint body (x : xml) : list N :=
  let '(Xml tag attrs content kids) := x in
  tag ++ attrs_text attrs ++
  match content with
  | [] => [47%N]
  | _ => 62%N :: (fix go (start : nat) (l : list (nat * xml)) : list N :=
                    match l with
                    | [] => canon false (skipn start content)
                    | (o, k) :: l => canon false (firstn (o - start) (skipn start content)) ++ (60%N :: body k ++ [62%N]) ++ go o l
                    end) 0 kids ++ [60; 47]%N ++ tag
  end.
Fixpoint kids_text (content : list N) (start : nat) (l : list (nat * xml)) : list N :=
  match l with
  | [] => canon false (skipn start content)
  | (o, k) :: l => canon false (firstn (o - start) (skipn start content)) ++ (60%N :: body k ++ [62%N]) ++ kids_text content o l
  end.
Lemma body_eq tag attrs content kids : body (Xml tag attrs content kids) =
  tag ++ attrs_text attrs ++ match content with [] => [47%N] | _ => 62%N :: kids_text content 0 kids ++ [60; 47]%N ++ tag end.
Proof.
  cbn [body]. do 2 f_equal. destruct content as [|c content]; [reflexivity|]. f_equal. f_equal.
  generalize 0. induction kids as [|[o k] l IH]; intros start; [reflexivity|]. cbn [kids_text]. now rewrite IH.
Qed.
Fixpoint steps (x : xml) : nat :=
  let '(Xml tag attrs content kids) := x in
  match content with [] => 1 | _ => 2 + list_sum (map (fun k => steps (snd k)) kids) end.

Fixpoint positions (start : nat) (l : list (nat * xml)) (n : nat) : Prop :=
  match l with [] => start <= n | (o, _) :: l => start <= o <= n /\ positions o l n end.
Lemma positions_sorted n l : forall start, Sorted le (map fst l) -> Forall (fun k => fst k <= n) l -> start <= n ->
  HdRel le start (map fst l) -> positions start l n.
Proof.
  induction l as [|[o k] l IH]; intros start S F L H; [exact L|]. cbn [map fst positions] in *.
  inversion S; subst. inversion F; subst. inversion H; subst. cbn [fst] in *. split; [lia|]. now apply IH.
Qed.

Lemma kids_read content tag attrs o p : Forall ascii_char content -> forall l,
  Forall (fun k => forall t fuel q, opened t -> tail q -> parse (steps (snd k) + fuel) 62 (body (snd k) ++ q) 0 t = after_markup fuel 62 q 0 (put (snd k) t)) l ->
  forall start done fuel, positions start l (length content) ->
  after_markup (list_sum (map (fun k => steps (snd k)) l) + fuel) 62 (62%N :: kids_text content start l ++ 60%N :: p) 0
    (Inside (mkFrame tag attrs (firstn start content) done) o) =
  parse fuel 62 p 0 (Inside (mkFrame tag attrs content (done ++ l)) o).
Proof.
  intros A. induction 1 as [|[i k] l K _ IH]; intros start done fuel H.
  - cbn [map list_sum fold_right plus kids_text]. rewrite after_text.
    + unfold more. cbn [f_tag f_attrs f_content f_kids]. now rewrite firstn_skipn, app_nil_r.
    + rewrite <- (firstn_skipn start content) in A. now apply Forall_app in A.
  - cbn [map list_sum fold_right snd kids_text positions] in *. destruct H as [H1 H2].
    repeat (rewrite <- app_assoc || rewrite <- app_comm_cons). rewrite after_text.
    + cbn [app]. fold (list_sum (map (fun k => steps (snd k)) l)). rewrite <- Nat.add_assoc. rewrite K; [|exact I|right; eexists; reflexivity].
      cbn [put]. unfold more, with_kid. cbn [f_tag f_attrs f_content f_kids].
      assert (firstn start content ++ firstn (i - start) (skipn start content) = firstn i content) as ->.
      { rewrite <- (firstn_skipn start content) at 3. rewrite firstn_app, firstn_length, Nat.min_l by lia.
        f_equal. rewrite firstn_firstn, Nat.min_r by lia. reflexivity. }
      rewrite firstn_length, Nat.min_l by lia. rewrite IH by assumption. now rewrite <- app_assoc.
    + rewrite <- (firstn_skipn start content) in A. apply Forall_app in A as [_ A].
      rewrite <- (firstn_skipn (i - start)) in A. now apply Forall_app in A.
Qed.

Lemma node_read x : well_formed x -> forall t fuel q, opened t -> tail q ->
  parse (steps x + fuel) 62 (body x ++ q) 0 t = after_markup fuel 62 q 0 (put x t).
Proof.
  induction x as [tag attrs content kids IH] using xml_induction. intros W t fuel q O Q.
  inversion W as [? ? ? ? T K A D C E So L F]; subst.
  assert (Forall (fun k => forall t fuel q, opened t -> tail q -> parse (steps (snd k) + fuel) 62 (body (snd k) ++ q) 0 t = after_markup fuel 62 q 0 (put (snd k) t)) kids) as G.
  { rewrite Forall_forall in *. intros k I. apply IH; [assumption|]. now apply F. }
  rewrite body_eq. destruct content as [|c content].
  - destruct E as [->|E]; [|congruence]. cbn [steps plus]. rewrite parse_step.
    repeat rewrite <- app_assoc. cbn [app]. rewrite markup_tag by (assumption || now left).
    change (47 =? 47)%N with true. cbv iota.
    replace (match q with [] => true | d :: _ => (d =? 62)%N end) with true by (destruct Q as [->|[r ->]]; reflexivity).
    rewrite close_open by assumption. reflexivity.
  - set (text := c :: content) in *.
    assert (steps (Xml tag attrs text kids) = 2 + list_sum (map (fun k => steps (snd k)) kids)) as -> by reflexivity.
    replace (match text with [] => [47%N] | _ => 62%N :: kids_text text 0 kids ++ [60; 47]%N ++ tag end)
      with (62%N :: kids_text text 0 kids ++ [60; 47]%N ++ tag) by reflexivity.
    cbn [plus]. rewrite parse_step. repeat (rewrite <- app_assoc || rewrite <- app_comm_cons). cbn [app].
    rewrite markup_tag by (assumption || now right). change (62 =? 47)%N with false. cbv iota. cbn [bind].
    assert (exists o, open_tag tag attrs t = Inside (mkFrame tag attrs [] []) o /\ o = match t with Inside f o => f :: o | _ => [] end) as (o & -> & Eo)
      by (destruct t; [| |destruct O]; eexists; split; reflexivity).
    replace (S (list_sum (map (fun k => steps (snd k)) kids) + fuel)) with (list_sum (map (fun k => steps (snd k)) kids) + S fuel) by lia.
    pose proof (kids_read text tag attrs o (47%N :: tag ++ q) C kids G 0 [] (S fuel)) as R. cbn [firstn] in R. rewrite R; clear R.
    + rewrite parse_step. rewrite markup_close by (assumption || reflexivity). cbn [bind app]. unfold closed. cbn [f_tag f_attrs f_content f_kids].
      subst o. destruct t; [| |destruct O]; reflexivity.
    + apply positions_sorted; [assumption|assumption|lia|]. destruct (map fst kids); constructor. lia.
Qed.

Lemma kids_print extent base64 content : 0 < extent -> Forall ascii_char content -> forall l,
  Forall (fun k => tag_xml extent base64 (snd k) = Ok (60%N :: body (snd k) ++ [62%N])) l -> forall start, positions start l (length content) ->
  (fix kids_xml (start : nat) (l : list (nat * xml)) : outcome (list N) :=
       match l with
       | [] => Ok (CanonicalXMLContent base64 (skipn start content) false)
       | (o, k) :: l =>
           let* text := cut extent (skipn start content) (o - start) in
           let* s := tag_xml extent base64 k in
           let* rest := kids_xml (min o (length content)) l in
           Ok (CanonicalXMLContent base64 text false ++ s ++ rest)
       end) start l = Ok (kids_text content start l).
Proof.
  intros X A. induction 1 as [|[o k] l K _ IH]; intros start H.
  - cbn [kids_text]. rewrite canonical_ascii; [reflexivity|]. rewrite <- (firstn_skipn start content) in A. now apply Forall_app in A.
  - cbn [positions snd kids_text] in *. destruct H as [H1 H2]. unfold cut.
    destruct (Nat.leb_spec (length (skipn start content) + extent) (o - start)) as [B|B]; [rewrite skipn_length in B; lia|].
    cbn [bind]. rewrite K. cbn [bind]. rewrite Nat.min_l by lia. rewrite IH by assumption. cbn [bind].
    rewrite canonical_ascii; [reflexivity|]. rewrite <- (firstn_skipn start content) in A. apply Forall_app in A as [_ A].
    rewrite <- (firstn_skipn (o - start)) in A. now apply Forall_app in A.
Qed.
Lemma node_print extent base64 x : 0 < extent -> well_formed x -> tag_xml extent base64 x = Ok (60%N :: body x ++ [62%N]).
Proof.
  intros X. induction x as [tag attrs content kids IH] using xml_induction. intros W.
  inversion W as [? ? ? ? T K A D C E So L F]; subst.
  cbn [tag_xml]. rewrite attributes_print by (assumption || (intros n [])). cbn [bind].
  rewrite (kids_print extent base64 content X C kids); cbn [bind].
  - rewrite body_eq. destruct content as [|c content].
    + destruct E as [->|E]; [|congruence]. repeat rewrite <- app_assoc. reflexivity.
    + repeat (rewrite <- app_assoc || rewrite <- app_comm_cons). reflexivity.
  - rewrite Forall_forall in *. intros k I. apply IH; [assumption|]. now apply F.
  - apply positions_sorted; [assumption|assumption|lia|]. destruct (map fst kids); constructor. lia.
Qed.
Lemma steps_length x : steps x <= length (body x).
Proof.
  induction x as [tag attrs content kids IH] using xml_induction. rewrite body_eq. repeat rewrite app_length.
  destruct content as [|c content]; [cbn; lia|].
  assert (steps (Xml tag attrs (c :: content) kids) = 2 + list_sum (map (fun k => steps (snd k)) kids)) as -> by reflexivity.
  cbn [length]. repeat rewrite app_length. cbn [length].
  assert (forall start, list_sum (map (fun k => steps (snd k)) kids) <= length (kids_text (c :: content) start kids)); [|specialize (H 0); lia].
  induction IH as [|[o k] l K _ IHl]; intros start; [cbn [map list_sum fold_right]; lia|]. cbn [map list_sum fold_right snd kids_text] in *.
  fold (list_sum (map (fun k => steps (snd k)) l)). repeat rewrite app_length. cbn [length]. repeat rewrite app_length. specialize (IHl o). lia.
Qed.

Lemma tree_round_trip_lemma extent base64 x : 0 < extent -> well_formed x ->
  exists s, XMLTreeInfoToXML extent base64 0 x = Ok s /\
  forall fuel, length s <= fuel -> NewXMLTree fuel s = Ok (Some (Tree x false)).
Proof.
  intros X W. exists (60%N :: body x ++ [62%N]). split.
  - unfold XMLTreeInfoToXML, cut. destruct (Nat.leb_spec (length (@nil N) + extent) 0) as [B|B]; [cbn in B; lia|]. cbn [bind]. now apply node_print.
  - intros fuel F. unfold NewXMLTree. change (60%N :: body x ++ [62%N]) with ((60%N :: body x) ++ [62%N]).
    rewrite removelast_last, last_last. cbn [app]. rewrite span_stop by reflexivity. cbn [snd].
    pose proof (steps_length x) as L. cbn [length] in F. rewrite app_length in F. cbn [length] in F.
    replace fuel with (steps x + (fuel - steps x)) by lia.
    rewrite <- (app_nil_r (body x)). rewrite (node_read x W); [reflexivity|exact I|now left].
Qed.
