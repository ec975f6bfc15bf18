(** Documents: elements are read as they are meant. *)
From Coq Require Import Arith NArith ZArith Bool String Lia ZifyBool ZifyNat ZifyN List.
From Verif Require DoctypeProps.
From Verif Require Import Base Outcome CStringModel CStringSpec OptionModel Base64Model ScanModel XmlModel XmlSpec XmlTreeSpec XmlProof XmlProof2 XmlProof4 DoctypeModel XmlDocumentModel XmlDocumentSpec XmlDocumentProof.
Import ListNotations.

Definition after_document (fuel dec lim : nat) (terminal : N) (d : dtd) (q : list N) (ignore : nat) (t : tree) : outcome (option (parsed * dtd)) :=
  let finished := Ok (Some (match t with After _ => stop false t | _ => stop true t end, d)) in
  match tl q with
  | [] => finished
  | q =>
      let '(text, q) := span (N.eqb 60) q in
      match q with
      | [] => finished
      | _ :: q =>
          let* r := if ignore =? 0 then content_of dec d General text t else Ok (Some t) in
          match r with
          | None => Ok None
          | Some t => document fuel dec lim terminal d q ignore t
          end
      end
  end.
Lemma document_step fuel dec lim terminal d p ignore t :
  document (S fuel) dec lim terminal d p ignore t =
  let* r := document_markup dec lim terminal d p ignore t in
  match r with
  | None => Ok None
  | Some (inr r, d) => Ok (Some (r, d))
  | Some (inl (t, ignore, q), d) => after_document fuel dec lim terminal d q ignore t
  end.
Proof. reflexivity. Qed.

Lemma piece_text_nonempty env a p : good_piece env a p -> piece_text p <> [].
Proof. destruct p; discriminate. Qed.
Lemma piece_stops env a p : good_piece env a p -> Forall (fun c => c <> 60%N /\ (a = true -> c <> 34%N)) (piece_text p).
Proof.
  destruct p as [c|c|n]; cbn [good_piece piece_text].
  - intros [H K]. constructor; [|constructor]. split; [unfold good in H; lia|exact K].
  - intros H. cbn in H. destruct H as [<-|[<-|[<-|[<-|[<-|[]]]]]]; repeat constructor; try discriminate; cbn; intros; discriminate.
  - intros [[A _] _]. constructor; [split; discriminate|]. apply Forall_app. split; [|repeat constructor; discriminate]. eapply Forall_impl; [|exact A].
    unfold name_char, letter. intros c C. split; [lia|intros _; lia].
Qed.
Lemma chars_stops env a l : Forall (good_piece env a) l -> Forall (fun c => c <> 60%N /\ (a = true -> c <> 34%N)) (chars_text l).
Proof. intros H. apply Forall_flat. eapply Forall_impl; [|exact H]. apply piece_stops. Qed.

Section Induction.
  Variable P : element -> Prop.
  Hypothesis leaf : forall tag attrs, P (Leaf tag attrs).
  Hypothesis node : forall tag attrs kids rest, Forall (fun k => P (snd k)) kids -> P (Node tag attrs kids rest).
  Fixpoint element_induction (e : element) : P e :=
    match e with
    | Leaf tag attrs => leaf tag attrs
    | Node tag attrs kids rest =>
        node tag attrs kids rest
          ((fix go (l : list (list piece * element)) : Forall (fun k => P (snd k)) l :=
              match l with [] => Forall_nil _ | k :: l => Forall_cons k (element_induction (snd k)) (go l) end) kids)
    end.
End Induction.

Fixpoint steps (e : element) : nat :=
  match e with
  | Leaf _ _ => 1
  | Node _ _ kids _ => 2 + list_sum (map (fun k => steps (snd k)) kids)
  end.
Definition kids_text (l : list (list piece * element)) : list N := flat_map (fun k => chars_text (fst k) ++ 60%N :: element_text (snd k) ++ [62%N]) l.
Lemma steps_length e : steps e <= length (element_text e).
Proof.
  induction e as [tag attrs|tag attrs kids rest IH] using element_induction; cbn [steps element_text]; rewrite !app_length; cbn [length]; [lia|]. rewrite !app_length. cbn [length].
  assert (list_sum (map (fun k => steps (snd k)) kids) <= length (kids_text kids)); [|unfold kids_text in *; lia].
  induction IH as [|[s k] l K _ IHl]; [cbn; lia|]. cbn [map list_sum fold_right kids_text flat_map fst snd] in *. fold (list_sum (map (fun k => steps (snd k)) l)).
  rewrite !app_length. cbn [length]. rewrite app_length. cbn [length]. fold (kids_text l). unfold kids_text in *. lia.
Qed.

Section Reading.
  Variables (dec lim room : nat) (d : dtd) (env : list N -> option (list N)) (tok : list N -> list N -> bool).
  Hypothesis texts : forall a l, Forall (good_piece env a) l -> length (chars_text l) <= room -> ParseEntities dec (general d) (state_of a) (chars_text l) = Ok (Some (chars_mean env a l)).
  Hypothesis types : forall tag name, attribute_type d tag name = tok tag name.

  Lemma after_chars fuel s p f o : Forall (good_piece env false) s -> length (chars_text s) <= room ->
    after_document fuel dec lim 62 d (62%N :: chars_text s ++ 60%N :: p) 0 (Inside f o) = document fuel dec lim 62 d p 0 (Inside (more f (chars_mean env false s)) o).
  Proof.
    intros H L. unfold after_document. cbn [tl].
    assert (span (N.eqb 60) (chars_text s ++ 60%N :: p) = (chars_text s, 60%N :: p)) as Sp.
    { apply span_app; [|reflexivity]. eapply Forall_impl; [|apply (chars_stops env false), H]. cbv beta. intros c [C _]. lia. }
    destruct (chars_text s ++ 60%N :: p) eqn:E; [destruct (chars_text s); discriminate|]. rewrite Sp. clear E Sp.
    cbn [Nat.eqb]. unfold content_of. destruct s as [|x s]; [cbn [chars_text chars_mean flat_map bind]; now rewrite more_nil|].
    pose proof (texts false (x :: s) H L) as P. cbn [state_of] in P.
    assert (chars_text (x :: s) <> []) as Ne. { inversion H as [|? ? H1 _]; subst. pose proof (piece_text_nonempty _ _ _ H1). cbn [chars_text flat_map]. destruct (piece_text x); [congruence|discriminate]. }
    destruct (chars_text (x :: s)) as [|y0 l0]; [congruence|]. rewrite P. reflexivity.
  Qed.

  Lemma attributes_read l : Forall (good_attribute env) l -> forall tag rest acc fuel c, (c = 47 \/ c = 62)%N -> length l < fuel ->
    length (flat_map attribute_text l) <= room ->
    attributes_of fuel dec d tag (drop_spaces (flat_map attribute_text l ++ c :: rest)) acc = Ok (Some (inl (acc ++ map (attribute_means env tok tag) l, c :: rest))).
  Proof.
    induction 1 as [|[n v] l (A & V) _ IH]; intros tag rest acc fuel c C F L.
    - cbn [flat_map app map]. rewrite drop_spaces_stop' by (unfold isspace; lia). destruct fuel; [lia|]. cbn [attributes_of].
      replace ((c =? 47) || (c =? 62))%N with true by lia. now rewrite app_nil_r.
    - cbn [fst snd] in *. destruct fuel as [|fuel]; [cbn in F; lia|].
      destruct A as (A & x & n' & -> & Lx).
      assert (Forall name_char (x :: n')) as A' by assumption.
      inversion A as [|? ? X A2]; subst. destruct (name_stop x X) as (_ & _ & X1 & X2 & X3).
      cbn [flat_map] in L |- *. rewrite app_length in L. unfold attribute_text at 1 in L. cbn [fst snd length] in L. rewrite !app_length in L. cbn [length] in L.
      assert ((attribute_text (x :: n', v) ++ flat_map attribute_text l) ++ c :: rest = 32%N :: (x :: n') ++ 61%N :: 34%N :: chars_text v ++ 34%N :: flat_map attribute_text l ++ c :: rest) as ->.
      { unfold attribute_text at 1. cbn [fst snd]. repeat (rewrite <- app_assoc || rewrite <- app_comm_cons). reflexivity. }
      change (drop_spaces (32%N :: ?y)) with (drop_spaces y). cbn [app]. rewrite drop_spaces_stop' by assumption.
      cbn [attributes_of]. replace ((x =? 47) || (x =? 62))%N with false by lia.
      change (x :: n' ++ 61%N :: ?y) with ((x :: n') ++ 61%N :: y).
      rewrite span_app; [| |reflexivity].
      2:{ eapply Forall_impl; [|exact A']. intros y Y. destruct (name_stop y Y) as (Y1 & Y2 & Y3 & Y4 & _).
          rewrite Y1. cbn. lia. }
      change (61 =? 61)%N with true. cbn [orb].
      rewrite (span_stop _ 34) by reflexivity. cbn [snd]. change (34 =? 34)%N with true. cbn [orb].
      rewrite span_app; [| |reflexivity].
      2:{ eapply Forall_impl; [|apply (chars_stops env true), V]. cbv beta. intros y [_ Y]. specialize (Y eq_refl). lia. }
      unfold attribute_value. rewrite types. pose proof (texts true v V ltac:(lia)) as Pv. cbn [state_of] in Pv. rewrite DoctypeProps.tokens_words, Pv. cbn [bind option_map].
      destruct (tok tag (x :: n')) eqn:Tk; cbn [bind]; (rewrite IH; [|assumption|cbn [length] in F; lia|lia]); rewrite <- app_assoc; cbn [map app]; unfold attribute_means at 2; cbn [fst snd]; rewrite Tk; reflexivity.
  Qed.

  Lemma attributes_length l : length l <= length (flat_map attribute_text l) - length l.
  Proof.
    induction l as [|[n v] l IH]; [cbn; lia|]. cbn [flat_map length]. rewrite app_length.
    assert (4 <= length (attribute_text (n, v))) by (unfold attribute_text; cbn [fst snd length]; rewrite !app_length; cbn [length]; lia). lia.
  Qed.

  Lemma element_tag tag attrs c rest t : tag_name tag -> ~ container tag -> Forall (good_attribute env) attrs -> length (flat_map attribute_text attrs) <= room -> opened t -> (c = 47 \/ c = 62)%N ->
    document_markup dec lim 62 d (tag ++ flat_map attribute_text attrs ++ c :: rest) 0 t =
    if (c =? 47)%N
    then if match rest with [] => true | e :: _ => (e =? 62)%N end
         then Ok (Some (inl (match close_tag tag (open_tag tag (map (attribute_means env tok tag) attrs) t) with Some t => t | None => open_tag tag (map (attribute_means env tok tag) attrs) t end, 0, rest), d))
         else Ok (Some (inr (stop true t), d))
    else Ok (Some (inl (open_tag tag (map (attribute_means env tok tag) attrs) t, 0, c :: rest), d)).
  Proof.
    intros T K A Lr O C. pose proof (not_container tag T K) as Sk. destruct T as (T & x & tag' & E & X).
    set (p := tag ++ flat_map attribute_text attrs ++ c :: rest).
    assert (span (fun c => xml_space c || one_of [47; 62]%N c) p = (tag, flat_map attribute_text attrs ++ c :: rest)) as Sp.
    { assert (Forall (fun c => xml_space c || one_of [47; 62]%N c = false) tag) as F.
      { eapply Forall_impl; [|exact T]. intros y Y. destruct (name_stop y Y) as (Y1 & _ & Y2 & Y3 & _). rewrite Y1. cbn. lia. }
      unfold p. destruct attrs as [|[n v] l]; cbn [flat_map attribute_text app]; apply span_app; try assumption; [destruct C; subst; reflexivity|reflexivity]. }
    unfold document_markup.
    assert (hd 0%N p = x) as -> by (unfold p; subst tag; reflexivity).
    replace (alpha x || (x =? 95)%N || (x =? 58)%N || (128 <=? x)%N) with true by (unfold alpha; unfold letter in X; lia).
    unfold element_markup. rewrite Sp.
    assert ((let p2 := drop_spaces (flat_map attribute_text attrs ++ c :: rest) in
      if (alpha (hd 0%N p2) || (hd 0 p2 =? 95))%N && (0 =? 0) then attributes_of (S (length p2)) dec d tag p2 []
      else Ok (Some (inl ([], snd (span (one_of [47; 62]%N) p2))))) = Ok (Some (inl (map (attribute_means env tok tag) attrs, c :: rest)))) as G.
    { cbv zeta. destruct attrs as [|[n v] l].
      - cbn [flat_map app map]. rewrite drop_spaces_stop' by (unfold isspace; lia). cbn [hd].
        replace ((alpha c || (c =? 95))%N && (0 =? 0)) with false by (unfold alpha; lia).
        rewrite span_stop by (destruct C; subst; reflexivity). reflexivity.
      - pose proof (attributes_length ((n, v) :: l)) as L.
        inversion A as [|? ? [(N1 & y & n' & En & Ny) _] _]; subst. cbn [fst] in En. subst n.
        assert (isspace y = false) as Sy by (unfold isspace; unfold letter in Ny; lia).
        assert (hd 0%N (drop_spaces (flat_map attribute_text ((y :: n', v) :: l) ++ c :: rest)) = y) as Hd.
        { cbn [flat_map attribute_text app fst]. change (drop_spaces (32%N :: ?y)) with (drop_spaces y). now rewrite drop_spaces_stop'. }
        rewrite Hd. assert ((alpha y || (y =? 95))%N && (0 =? 0) = true) as -> by (unfold alpha; unfold letter in Ny; lia).
        rewrite attributes_read; [reflexivity|assumption|assumption| |exact Lr].
        assert (length (drop_spaces (flat_map attribute_text ((y :: n', v) :: l) ++ c :: rest)) + 1 = length (flat_map attribute_text ((y :: n', v) :: l) ++ c :: rest)) as Ld.
        { cbn [flat_map attribute_text app fst]. change (drop_spaces (32%N :: ?y)) with (drop_spaces y). rewrite drop_spaces_stop' by assumption. cbn [length]. lia. }
        rewrite app_length in Ld. cbn [length] in *. lia. }
    cbv zeta in G. rewrite G. cbn [bind]. rewrite Sk. cbn [bind].
    destruct t as [|f o|r]; [| |destruct O].
    - destruct C as [->| ->]; [|reflexivity]. change (47 =? 47)%N with true. cbv iota.
      destruct rest as [|e rest]; [cbn [Nat.eqb negb orb]; change (62 =? 62)%N with true; cbn [negb]; destruct (close_tag tag (open_tag tag _ Before)); reflexivity|].
      destruct (e =? 62)%N; [|reflexivity]. cbn [negb].
      cbn [Nat.eqb negb orb]. destruct (close_tag tag (open_tag tag _ Before)); reflexivity.
    - destruct C as [->| ->]; [|reflexivity]. change (47 =? 47)%N with true. cbv iota.
      destruct rest as [|e rest]; [cbn [Nat.eqb negb orb]; change (62 =? 62)%N with true; cbn [negb]; destruct (close_tag tag (open_tag tag _ (Inside f o))); reflexivity|].
      destruct (e =? 62)%N; [|reflexivity]. cbn [Nat.eqb negb orb].
      destruct (close_tag tag (open_tag tag _ (Inside f o))); reflexivity.
  Qed.

  Lemma element_close tag f o q : tag_name tag -> tail q -> f_tag f = tag ->
    document_markup dec lim 62 d (47%N :: tag ++ q) 0 (Inside f o) =
    Ok (Some (inl (match o with [] => After (closed f) | g :: o => Inside (with_kid g (closed f)) o end, 0, q), d)).
  Proof.
    intros (T & x & tag' & E & X) Q F. unfold document_markup. cbn [hd tl].
    replace (alpha 47 || (47 =? 95)%N || (47 =? 58)%N || (128 <=? 47)%N) with false by reflexivity.
    change (47 =? 47)%N with true. cbv iota.
    assert (Forall (fun c => xml_space c || (c =? 62)%N = false) tag) as A.
    { eapply Forall_impl; [|exact T]. intros y Y. destruct (name_stop y Y) as (Y1 & _ & Y2 & Y3 & _). rewrite Y1. cbn. lia. }
    assert (span (fun c => xml_space c || (c =? 62)%N) (tag ++ q) = (tag, q)) as ->.
    { destruct Q as [->|[r ->]]; [rewrite app_nil_r; now apply span_all|]. now apply span_app. }
    assert (close_tag tag (Inside f o) = Some (match o with [] => After (closed f) | g :: o => Inside (with_kid g (closed f)) o end)) as C.
    { cbn [close_tag]. rewrite F. destruct (list_eq_dec N.eq_dec tag tag); [reflexivity|congruence]. }
    destruct Q as [->|[r ->]].
    - change (62 =? 62)%N with true. cbn [Nat.eqb]. now rewrite C.
    - cbn [Nat.eqb]. rewrite C. reflexivity.
  Qed.

  Definition reads (e : element) : Prop := forall t fuel q, opened t -> tail q ->
    document (steps e + fuel) dec lim 62 d (element_text e ++ q) 0 t = after_document fuel dec lim 62 d q 0 (put (element_means env tok e) t).
  Lemma children_read tag attrs o p rest : Forall (good_piece env false) rest -> length (chars_text rest) <= room -> forall l,
    Forall (fun k => Forall (good_piece env false) (fst k) /\ length (chars_text (fst k)) <= room /\ reads (snd k)) l ->
    forall done done_kids fuel,
    after_document (list_sum (map (fun k => steps (snd k)) l) + fuel) dec lim 62 d (62%N :: kids_text l ++ chars_text rest ++ 60%N :: p) 0 (Inside (mkFrame tag attrs done done_kids) o) =
    document fuel dec lim 62 d p 0 (Inside (mkFrame tag attrs (done ++ flat_map (fun k => chars_mean env false (fst k)) l ++ chars_mean env false rest) (done_kids ++ placed env (element_means env tok) (length done) l)) o).
  Proof.
    intros G L. induction 1 as [|[s k] l (Gs & Ls & K) _ IH]; intros done done_kids fuel.
    - cbn [map list_sum fold_right plus kids_text flat_map app placed]. rewrite after_chars by assumption. unfold more. cbn [f_tag f_attrs f_content f_kids]. now rewrite app_nil_r.
    - cbn [map list_sum fold_right fst snd kids_text flat_map placed] in *. fold (list_sum (map (fun k => steps (snd k)) l)). fold (kids_text l).
      repeat (rewrite <- app_assoc || rewrite <- app_comm_cons). rewrite after_chars by assumption.
      rewrite <- Nat.add_assoc. rewrite K; [|exact I|right; eexists; reflexivity].
      cbn [put]. unfold more, with_kid. cbn [f_tag f_attrs f_content f_kids]. rewrite IH.
      rewrite !app_length. do 3 f_equal; [now rewrite <- !app_assoc|]. now rewrite <- app_assoc.
  Qed.

  Lemma element_read e : good_element env e -> length (element_text e) <= room -> reads e.
  Proof.
    induction e as [tag attrs|tag attrs kids rest IH] using element_induction; intros W L t fuel q O Q.
    - inversion W as [? ? T K A|]; subst. cbn [steps plus element_text element_means] in *. rewrite !app_length in L. rewrite document_step.
      repeat rewrite <- app_assoc. cbn [app]. rewrite element_tag by (assumption || (now left) || lia).
      change (47 =? 47)%N with true. cbv iota.
      replace (match q with [] => true | e :: _ => (e =? 62)%N end) with true by (destruct Q as [->|[r ->]]; reflexivity).
      rewrite close_open by assumption. reflexivity.
    - inversion W as [|? ? ? ? T K A F G]; subst. cbn [element_text element_means] in *. rewrite !app_length in L. cbn [length] in L. rewrite !app_length in L. fold (kids_text kids) in L.
      assert (Forall (fun k => Forall (good_piece env false) (fst k) /\ length (chars_text (fst k)) <= room /\ reads (snd k)) kids) as GK.
      { assert (forall k, In k kids -> length (chars_text (fst k)) + length (element_text (snd k)) <= length (kids_text kids)) as B.
        { clear. induction kids as [|y l IH]; intros k I; [destruct I|]. cbn [kids_text flat_map]. rewrite !app_length. cbn [length]. rewrite app_length. destruct I as [->|I]; [lia|]. specialize (IH k I). unfold kids_text in IH. lia. }
        rewrite Forall_forall in *. intros k I. destruct (F k I) as [F1 F2]. specialize (B k I). split; [assumption|]. split; [lia|]. apply IH; [assumption|assumption|lia]. }
      assert (steps (Node tag attrs kids rest) + fuel = S (list_sum (map (fun k => steps (snd k)) kids) + S fuel)) as -> by (cbn [steps]; lia).
      rewrite document_step. repeat (rewrite <- app_assoc || rewrite <- app_comm_cons). cbn [app].
      rewrite element_tag by (assumption || (now right) || lia). change (62 =? 47)%N with false. cbv iota. cbn [bind].
      assert (exists o, open_tag tag (map (attribute_means env tok tag) attrs) t = Inside (mkFrame tag (map (attribute_means env tok tag) attrs) [] []) o /\ o = match t with Inside f o => f :: o | _ => [] end) as (o & -> & Eo)
        by (destruct t; [| |destruct O]; eexists; split; reflexivity).
      fold (kids_text kids). rewrite children_read; [|assumption|lia|assumption].
      rewrite document_step. rewrite element_close by (assumption || reflexivity). cbn [bind app length]. unfold closed. cbn [f_tag f_attrs f_content f_kids].
      subst o. destruct t; [| |destruct O]; reflexivity.
  Qed.
End Reading.
