(** Adding a child keeps the three lists. *)
From Coq Require Import Arith NArith List Bool Lia Sorting.
From Verif Require Import Outcome XmlLinkModel XmlLinkSpec XmlLinkProof.
Import ListNotations.

Definition add_ok (l : list kid) (t : list N) (o : nat) : Prop :=
  match l with [] => True | k :: _ => k_tag k = t -> k_offset k <= o end.

Lemma list_ok_prefix f l1 l2 : list_ok f (l1 ++ l2) -> forall g, (forall x, In x l1 -> g x = f x) -> list_ok g l2 -> list_ok g (l1 ++ l2).
Proof.
  induction l1 as [|x l1 IH]; intros H g E G; [assumption|]. destruct H as [H1 H2]. split; [rewrite E; [exact H1|now left]|].
  apply IH; [assumption| |assumption]. intros y Y. apply E. now right.
Qed.
Lemma cons_last (x : nat) l : exists a, x :: l = a ++ [last l x].
Proof.
  destruct (split_last (x :: l)) as (a & q & E); [discriminate|]. exists a. rewrite E. f_equal. f_equal. destruct l as [|y r].
  - destruct a; [injection E as E; auto|destruct a; discriminate].
  - rewrite <- (last_last a q x). rewrite <- E. reflexivity.
Qed.
Lemma lastof_some d l : l <> [] -> exists a p, l = a ++ [p] /\ lastof d l = Some p.
Proof. intros H. destruct (split_last l H) as (a & p & ->). exists a, p. split; [reflexivity|apply lastof_app]. Qed.

Theorem add_child_ok s l c t o fuel : Rep s l -> ~ In c (ids l) -> length l < fuel -> add_ok l t o ->
  exists s', AddChild fuel s c t o = Ok s' /\ Rep s' (place (mkKid c t o) l).
Proof.
  intros R Nc U A. destruct (place_split (mkKid c t o) l (r_sorted _ _ R)) as (l1 & l2 & El & -> & F1 & F2). cbn [k_offset] in F1, F2.
  assert (NoDup (ids (l1 ++ mkKid c t o :: l2))) as Dn.
  { unfold ids. rewrite map_app. cbn [map k_id]. pose proof (r_nodup _ _ R) as D. rewrite El in D, Nc. unfold ids in D, Nc. rewrite map_app in D, Nc.
    apply (proj2 (NoDup_Add (Add_app c (map k_id l1) (map k_id l2)))). now split. }
  assert (StronglySorted (fun a b => k_offset a <= k_offset b) (l1 ++ mkKid c t o :: l2)) as Sn.
  { apply sorted_insert; [rewrite <- El; apply (r_sorted _ _ R)|exact F1|exact F2]. }
  destruct (list_eq_dec Nat.eq_dec (ids l) []) as [E0|E0].
  - destruct l; [|discriminate]. destruct l1; [|discriminate]. destruct l2; [|discriminate]. unfold AddChild. rewrite (r_child _ _ R). cbn [ids map hd_error].
    eexists. split; [reflexivity|]. split; cbn [cells child app].
    + exact Dn.
    + intros k [<-|[]]. cbn. now rewrite put_view, Nat.eqb_refl.
    + exact Sn.
    + reflexivity.
    + split; [|exact I]. cbn. rewrite put_link by reflexivity. apply upd_same.
    + split; [|exact I]. cbn. rewrite put_link by reflexivity. apply upd_same.
    + intros t'. unfold tagged. cbn [filter]. destruct (same_tag t' _); [|exact I]. split; [|exact I]. cbn. rewrite put_link by reflexivity. apply upd_same.
  - assert (l <> []) as Ne by (intros ->; now apply E0).
    destruct (add_ordered s l l1 l2 c t o fuel R El Ne Nc U F1 F2) as (head & n & Ch & G & h2 & E2 & M2 & N2 & S2 & O2).
    unfold AddChild. rewrite Ch, G. cbn [bind]. rewrite E2. cbn [bind]. clear E2.
    set (first := hd_error (ids (l1 ++ mkKid c t o :: l2))) in *.
    assert (meta h2 c = Some (t, o)) as Mc by (now rewrite M2, Nat.eqb_refl).
    assert (forall k, In k l -> meta h2 (k_id k) = Some (k_tag k, k_offset k)) as Mk.
    { intros k K. rewrite M2. destruct (Nat.eqb_spec (k_id k) c) as [E|_]; [|now apply (r_meta _ _ R)]. exfalso. apply Nc. rewrite <- E. now apply in_map. }
    assert (forall k, In k (l1 ++ mkKid c t o :: l2) -> meta h2 (k_id k) = Some (k_tag k, k_offset k)) as Mk'.
    { intros k K. apply in_app_or in K as [K|[<-|K]]; [apply Mk; rewrite El; apply in_or_app; now left|exact Mc|apply Mk; rewrite El; apply in_or_app; now right]. }
    assert (forall x, In x (firsts [] l) -> x <> c) as Fc by (intros x X ->; apply Nc; eapply firsts_incl, X).
    assert (list_ok (L sibling h2) (firsts [] l)) as Sh.
    { eapply list_ok_ext; [|exact (r_sibling _ _ R)]. intros x X. rewrite S2. apply upd_other. now apply Fc. }
    assert (forall t' x, In x (tagged t' l) -> x <> c) as Tc.
    { intros t' x X ->. apply tagged_in in X as (k & K & _ & E). apply Nc. rewrite <- E. now apply in_map. }
    assert (forall t', list_ok (L next h2) (tagged t' l)) as Nh.
    { intros t'. eapply list_ok_ext; [|exact (r_next _ _ R t')]. intros x X. rewrite N2. apply upd_other. now apply (Tc t'). }
    assert (Some head = hd_error (firsts [] l)) as Hh by (rewrite firsts_hd, <- (r_child _ _ R); congruence).
    assert (forall t', t' <> t -> tagged t' (l1 ++ mkKid c t o :: l2) = tagged t' l) as To.
    { intros t' Q. rewrite El, !tagged_app. f_equal. unfold tagged at 1. cbn [filter]. destruct (same_tag t' (mkKid c t o)) eqn:Z; [apply same_tag_spec in Z; cbn in Z; congruence|reflexivity]. }
    assert (tagged t (l1 ++ mkKid c t o :: l2) = tagged t l1 ++ c :: tagged t l2) as Tt.
    { rewrite tagged_app. f_equal. unfold tagged at 1. cbn [filter]. destruct (same_tag t (mkKid c t o)) eqn:Z; [reflexivity|]. exfalso. assert (same_tag t (mkKid c t o) = true) by (now apply same_tag_spec). congruence. }
    assert (tagged t l = tagged t l1 ++ tagged t l2) as Tl by (now rewrite El, tagged_app).
    pose proof (tagged_nodup t l (r_nodup _ _ R)) as Dt. rewrite Tl in Dt.
    assert (forall t' x, t' <> t -> In x (tagged t' l) -> ~ In x (tagged t l)) as Td.
    { intros t' x Q X Y. apply tagged_in in X as (k & K & T1 & I1). apply tagged_in in Y as (k' & K' & T2 & I2). apply Q. rewrite <- T1, <- T2. f_equal. apply (kid_unique l); [apply (r_nodup _ _ R)|assumption|assumption|congruence]. }
    pose proof (firsts_drop [] t l (fun q => q)) as Fd.
    assert (forall f1 f2, firsts [t] l = f1 ++ f2 -> Forall (known h2 (fun t' _ => t' <> t)) f1) as Ft.
    { intros f1 f2 E. apply Forall_forall. intros x X. assert (In x (firsts [t] l)) as Y by (rewrite E; apply in_or_app; now left).
      apply firsts_in in Y as (k & K & <- & Nt). exists (k_tag k), (k_offset k). split; [now apply Mk|]. intros Q. apply Nt. now left. }
    destruct (in_dec (list_eq_dec N.eq_dec) t (tags l1)) as [It|It].
    + (* another child with the tag before *)
      destruct (tagged_cons_in t l1 It) as (x & r & Ex). rewrite Tl, Ex in Fd. cbn [app] in Fd. destruct Fd as (f1 & f2 & E1 & E2).
      assert (exists k, In k l1 /\ k_id k = x /\ k_tag k = t) as (kx & Kx & Ix & Tx).
      { assert (In x (tagged t l1)) as Q by (rewrite Ex; now left). apply tagged_in in Q as (k & K & T & I). now exists k. }
      assert (In kx l) as Kl by (rewrite El; apply in_or_app; now left). pose proof (Mk kx Kl) as Mx. rewrite Ix, Tx in Mx.
      assert (length f1 + 1 <= length l) as Lf by (pose proof (firsts_length [] l) as Q; rewrite E1, app_length in Q; cbn [length] in Q; lia).
      rewrite Hh. assert (find_tag fuel h2 t None (hd_error (firsts [] l)) = Ok (lastof None f1, Some x)) as ->.
      { replace fuel with (length f1 + (fuel - length f1)) by lia. rewrite E1 in Sh |- *.
        rewrite (find_tag_skip h2 t f1 (x :: f2)); [|assumption|now apply (Ft f1 f2)]. cbn [hd_error].
        apply (find_tag_hit h2 t _ x (k_offset kx)); [assumption|lia]. }
      cbn [bind].
      destruct (meta_get _ _ _ _ Mx) as (nx & Gx & _ & Ox & _). rewrite Gx. cbn [bind]. rewrite Ox.
      assert (k_offset kx <= o) as Le by (rewrite Forall_forall in F1; now apply F1). rewrite (proj2 (Nat.leb_le _ _) Le).
      pose proof (Nh t) as Nt. rewrite Tl, Ex in Nt. cbn [app] in Nt.
      rewrite (last_before_ok h2 next o r (tagged t l2) x fuel Nt); [|congruence| | |].
      2:{ apply Forall_forall. intros y Y. assert (In y (tagged t l1)) as Q by (rewrite Ex; now right). apply tagged_in in Q as (k & K & T & <-). eexists _, _. split; [apply Mk; rewrite El; apply in_or_app; now left|]. rewrite Forall_forall in F1. auto. }
      2:{ apply Forall_forall. intros y Y. apply tagged_in in Y as (k & K & T & <-). eexists _, _. split; [apply Mk; rewrite El; apply in_or_app; now right|]. rewrite Forall_forall in F2. auto. }
      2:{ pose proof (tagged_length t l1) as Q. rewrite Ex in Q. cbn [length] in Q. rewrite El, app_length in U. lia. }
      cbn [bind]. destruct (cons_last x r) as [a Ea]. set (p := last r x) in *. 
      assert (In p (tagged t l1)) as Ip by (rewrite Ex, Ea; apply in_or_app; right; now left).
      assert (p <> c) as Pc by (apply (Tc t); rewrite Tl; apply in_or_app; now left).
      assert (exists kp, In kp l1 /\ k_id kp = p /\ k_tag kp = t) as (kp & Kp & Ikp & Tkp) by (apply tagged_in in Ip as (k & K & T & I); now exists k).
      assert (meta h2 p = Some (t, k_offset kp)) as Mp by (rewrite <- Ikp, <- Tkp; apply Mk; rewrite El; apply in_or_app; now left).
      destruct (meta_get _ _ _ _ Mp) as (np & Gp & _ & _ & Lp). rewrite Gp. cbn [bind]. rewrite Lp.
      assert (list_ok (L next h2) (a ++ p :: tagged t l2)) as Nt'.
      { change (list_ok (L next h2) ((x :: r) ++ tagged t l2)) in Nt. rewrite Ea, <- app_assoc in Nt. exact Nt. }
      rewrite (list_ok_at _ _ _ _ Nt').
      destruct (set_next_ok h2 c (hd_error (tagged t l2))) as (h3 & E3 & B3); [congruence|]. rewrite E3. cbn [bind].
      destruct (set_next_ok h3 p (Some c)) as (h4 & E4 & B4); [rewrite (sb_meta _ _ _ _ _ B3); congruence|]. rewrite E4. cbn [bind].
      eexists. split; [reflexivity|].
      assert (NoDup (a ++ p :: tagged t l2)) as Da.
      { rewrite Ex in Dt. change ((x :: r) ++ tagged t l2) with ((x :: r) ++ tagged t l2) in Dt. rewrite Ea, <- app_assoc in Dt. exact Dt. }
      split; cbn [cells child].
      * exact Dn.
      * intros k K. rewrite (sb_meta _ _ _ _ _ B4), (sb_meta _ _ _ _ _ B3). now apply Mk'.
      * exact Sn.
      * reflexivity.
      * eapply list_ok_ext; [|exact O2]. intros y _. now rewrite (sb_ordered _ _ _ _ _ B4), (sb_ordered _ _ _ _ _ B3).
      * replace (firsts [] (l1 ++ mkKid c t o :: l2)) with (firsts [] l).
        { eapply list_ok_ext; [|exact Sh]. intros y _. now rewrite (sb_sibling _ _ _ _ _ B4), (sb_sibling _ _ _ _ _ B3). }
        rewrite El, !firsts_app. f_equal. rewrite app_nil_r. cbn [firsts k_tag]. destruct (in_dec _ t (tags l1)); [reflexivity|contradiction].
      * intros t'. destruct (list_eq_dec N.eq_dec t' t) as [->|Q].
        { rewrite Tt, Ex, Ea, <- app_assoc. eapply list_ok_after; [exact Nt'| | |].
          - rewrite (sb_next _ _ _ _ _ B4). apply upd_same.
          - rewrite (sb_next _ _ _ _ _ B4), upd_other by congruence. rewrite (sb_next _ _ _ _ _ B3). apply upd_same.
          - intros y Y. assert (y <> p) by (intros ->; apply NoDup_remove_2 in Da; apply Da; apply in_or_app; tauto).
            assert (y <> c). { apply (Tc t). rewrite Tl, Ex. change ((x :: r) ++ tagged t l2) with ((x :: r) ++ tagged t l2). rewrite Ea. destruct Y; [apply in_or_app; left; apply in_or_app; now left|apply in_or_app; now right]. }
            rewrite (sb_next _ _ _ _ _ B4), upd_other by assumption. now rewrite (sb_next _ _ _ _ _ B3), upd_other by assumption. }
        { rewrite To by assumption. eapply list_ok_ext; [|exact (Nh t')]. intros y Y.
          assert (y <> p) by (intros ->; apply (Td t' p Q Y); rewrite Tl; apply in_or_app; now left).
          assert (y <> c) by (now apply (Tc t')).
          rewrite (sb_next _ _ _ _ _ B4), upd_other by assumption. now rewrite (sb_next _ _ _ _ _ B3), upd_other by assumption. }
    + (* the first of its tag *)
      pose proof (tagged_nil t l1 It) as T1. rewrite T1 in *. cbn [app] in *.
      set (G1 := firsts [] l1). set (G2 := firsts (tags l1) l2).
      assert (firsts [] l = G1 ++ G2) as EG by (rewrite El, firsts_app; unfold G1, G2; now rewrite app_nil_r).
      assert (exists H2, firsts [] (l1 ++ mkKid c t o :: l2) = G1 ++ c :: H2 /\ firsts [t] l = G1 ++ H2 /\
        match tagged t l2 with [] => H2 = G2 | x :: _ => exists g1 g2, G2 = g1 ++ x :: g2 /\ H2 = g1 ++ g2 end) as (H2 & EH & EH' & EG2).
      { exists (firsts (t :: tags l1) l2). split; [|split].
        - rewrite firsts_app. unfold G1. f_equal. rewrite app_nil_r. cbn [firsts k_tag k_id]. destruct (in_dec _ t (tags l1)); [contradiction|reflexivity].
        - rewrite El, firsts_app. f_equal; [|apply firsts_ext; intros z; rewrite in_app_iff; cbn; tauto]. unfold G1.
          pose proof (firsts_drop [] t l1 (fun q => q)) as Q. now rewrite T1 in Q.
        - pose proof (firsts_drop (tags l1) t l2 It) as Q. destruct (tagged t l2) as [|x r]; [exact Q|]. exact Q. }
      assert (Forall (known h2 (fun _ o' => o' <= o)) G1) as K1.
      { apply Forall_forall. intros y Y. apply firsts_in in Y as (k & K & <- & _). eexists _, _. split; [apply Mk; rewrite El; apply in_or_app; now left|]. rewrite Forall_forall in F1. auto. }
      assert (Forall (known h2 (fun _ o' => o < o')) G2) as K2.
      { apply Forall_forall. intros y Y. apply firsts_in in Y as (k & K & <- & _). eexists _, _. split; [apply Mk; rewrite El; apply in_or_app; now right|]. rewrite Forall_forall in F2. auto. }
      assert (length G1 + length G2 <= length l) as Lg by (pose proof (firsts_length [] l) as Q; rewrite EG, app_length in Q; lia).
      assert (NoDup (G1 ++ G2)) as Dg by (rewrite <- EG; apply firsts_nodup, (r_nodup _ _ R)).
      (* the rest, from the heap after the old first was unlinked *)
      assert (forall h3, (forall y, meta h3 y = meta h2 y) -> (forall y, L next h3 y = L next h2 y) -> (forall y, L ordered h3 y = L ordered h2 y) ->
        list_ok (L sibling h3) (G1 ++ H2) -> Forall (known h2 (fun _ o' => o < o')) H2 -> NoDup (G1 ++ H2) -> ~ In c (G1 ++ H2) -> length G1 < fuel ->
        hd_error (G1 ++ H2) = Some head ->
        exists s', (let* h := set_next h3 c (hd_error (tagged t l2)) in
                    let* pn := find_offset fuel h o None (Some head) in
                    let '(previous, found) := pn in
                    let* h := set_sibling h c found in
                    let* h := (match previous with Some p => set_sibling h p (Some c) | None => Ok h end) in
                    Ok (mkParent h first)) = Ok s' /\ Rep s' (l1 ++ mkKid c t o :: l2)) as Rest.
      { intros h3 M3 N3 O3 S3 KH DH CH LH Hd.
        destruct (set_next_ok h3 c (hd_error (tagged t l2))) as (h4 & E4 & B4); [rewrite M3; congruence|]. rewrite E4. cbn [bind].
        assert (forall y, meta h4 y = meta h2 y) as M4 by (intros y; now rewrite (sb_meta _ _ _ _ _ B4)).
        assert (list_ok (L sibling h4) (G1 ++ H2)) as S4 by (eapply list_ok_ext; [|exact S3]; intros y _; apply (sb_sibling _ _ _ _ _ B4)).
        replace fuel with (length G1 + (fuel - length G1)) by lia. rewrite <- Hd.
        rewrite (find_offset_skip h4 o G1 H2); [|assumption|eapply Forall_impl; [|exact K1]; intros y (t0 & o0 & Q1 & Q2); exists t0, o0; now rewrite M4].
        rewrite (find_offset_stop h4 o _ H2); [|eapply Forall_impl; [|exact KH]; intros y (t0 & o0 & Q1 & Q2); exists t0, o0; now rewrite M4|lia]. cbn [bind].
        destruct (set_sibling_ok h4 c (hd_error H2)) as (h5 & E5 & B5); [rewrite M4; congruence|]. rewrite E5. cbn [bind].
        assert (forall y, meta h5 y = meta h2 y) as M5 by (intros y; now rewrite (sb_meta _ _ _ _ _ B5)).
        assert (exists h6, (match lastof None G1 with Some p => set_sibling h5 p (Some c) | None => Ok h5 end) = Ok h6 /\
          (forall y, meta h6 y = meta h2 y) /\ (forall y, L next h6 y = L next h5 y) /\ (forall y, L ordered h6 y = L ordered h5 y) /\
          list_ok (L sibling h6) (G1 ++ c :: H2)) as (h6 & E6 & M6 & N6 & O6 & S6).
        { destruct (list_eq_dec Nat.eq_dec G1 []) as [E|E].
          - rewrite E in *. cbn [lastof map last app] in *. exists h5. repeat split; auto.
            + rewrite (sb_sibling _ _ _ _ _ B5). apply upd_same.
            + eapply list_ok_ext; [|exact S4]. intros y Y. rewrite (sb_sibling _ _ _ _ _ B5). apply upd_other. intros ->. contradiction.
          - destruct (lastof_some None G1 E) as (a & p & Ea & ->).
            assert (In p (G1 ++ H2)) as Ip by (rewrite Ea; apply in_or_app; left; apply in_or_app; right; now left).
            destruct (set_sibling_ok h5 p (Some c)) as (h6 & E6 & B6).
            { rewrite M5. assert (In p G1) as Q by (rewrite Ea; apply in_or_app; right; now left). rewrite Forall_forall in K1. destruct (K1 p Q) as (t0 & o0 & Q1 & _). congruence. }
            exists h6. split; [assumption|]. split; [intros y; now rewrite (sb_meta _ _ _ _ _ B6)|]. split; [apply (sb_next _ _ _ _ _ B6)|]. split; [apply (sb_ordered _ _ _ _ _ B6)|].
            rewrite Ea, <- app_assoc in S4, DH, CH |- *. cbn [app] in S4, DH, CH |- *.
            assert (p <> c) by (intros ->; apply CH; apply in_or_app; right; now left).
            eapply list_ok_after; [exact S4| | |].
            + rewrite (sb_sibling _ _ _ _ _ B6). apply upd_same.
            + rewrite (sb_sibling _ _ _ _ _ B6), upd_other by congruence. rewrite (sb_sibling _ _ _ _ _ B5). apply upd_same.
            + intros y Y. assert (y <> p) by (intros ->; apply NoDup_remove_2 in DH; apply DH; apply in_or_app; tauto).
              assert (y <> c) by (intros ->; apply CH; apply in_or_app; cbn; tauto).
              rewrite (sb_sibling _ _ _ _ _ B6), upd_other by assumption. now rewrite (sb_sibling _ _ _ _ _ B5), upd_other by assumption. }
        rewrite E6. cbn [bind]. eexists. split; [reflexivity|]. split; cbn [cells child].
        - exact Dn.
        - intros k K. rewrite M6. now apply Mk'.
        - exact Sn.
        - reflexivity.
        - eapply list_ok_ext; [|exact O2]. intros y _. now rewrite O6, (sb_ordered _ _ _ _ _ B5), (sb_ordered _ _ _ _ _ B4), O3.
        - rewrite EH. exact S6.
        - assert (forall y, L next h6 y = upd (L next h2) c (hd_error (tagged t l2)) y) as N7.
          { intros y. rewrite N6, (sb_next _ _ _ _ _ B5), (sb_next _ _ _ _ _ B4). unfold upd. now rewrite N3. }
          intros t'. destruct (list_eq_dec N.eq_dec t' t) as [->|Q].
          + rewrite Tt. split; [rewrite N7; apply upd_same|]. pose proof (Nh t) as Nt. rewrite Tl in Nt. eapply list_ok_ext; [|exact Nt].
            intros y Y. rewrite N7. apply upd_other. apply (Tc t). now rewrite Tl.
          + rewrite To by assumption. eapply list_ok_ext; [|exact (Nh t')]. intros y Y. rewrite N7. apply upd_other. now apply (Tc t'). }
      destruct (tagged t l2) as [|x r] eqn:Tx.
      * (* no other *)
        subst H2. rewrite Hh.
        assert (find_tag fuel h2 t None (hd_error (firsts [] l)) = Ok (lastof None (firsts [] l), None)) as ->.
        { pose proof (firsts_length [] l) as Q. replace fuel with (length (firsts [] l) + (fuel - length (firsts [] l))) by lia.
          rewrite <- (app_nil_r (firsts [] l)) at 3. rewrite find_tag_skip; [|now rewrite app_nil_r|].
          - apply find_tag_end. lia.
          - apply (Ft _ []). rewrite app_nil_r. rewrite EG. exact EH'. }
        cbn [bind]. rewrite <- Hh.
        assert ((match lastof None (firsts [] l), @None nat with Some p, Some q => let* n0 := get h2 q in set_sibling h2 p (sibling n0) | _, _ => Ok h2 end) = Ok h2) as -> by (now destruct (lastof None (firsts [] l))).
        cbn [bind]. apply (Rest h2); auto; try reflexivity.
        { now rewrite <- EG. } { intros Q. rewrite <- EG in Q. now apply Fc in Q. } { lia. } { now rewrite <- EG. }
      * destruct EG2 as (g1 & g2 & Eg & Eh).
        assert (exists k, In k l2 /\ k_id k = x /\ k_tag k = t) as (kx & Kx & Ix & Txx).
        { assert (In x (tagged t l2)) as Q by (rewrite Tx; now left). apply tagged_in in Q as (k & K & T & I). now exists k. }
        assert (In kx l) as Kl by (rewrite El; apply in_or_app; now right). pose proof (Mk kx Kl) as Mx. rewrite Ix, Txx in Mx.
        assert (firsts [] l = (G1 ++ g1) ++ x :: g2) as Ef by (rewrite EG, Eg; now rewrite <- app_assoc).
        rewrite Hh. assert (find_tag fuel h2 t None (hd_error (firsts [] l)) = Ok (lastof None (G1 ++ g1), Some x)) as ->.
        { pose proof (firsts_length [] l) as Q. rewrite Ef, app_length in Q. cbn [length] in Q. replace fuel with (length (G1 ++ g1) + (fuel - length (G1 ++ g1))) by lia.
          rewrite Ef. rewrite find_tag_skip; [|now rewrite <- Ef|].
          - cbn [hd_error]. apply (find_tag_hit _ _ _ _ (k_offset kx)); [assumption|lia].
          - apply (Ft _ g2). rewrite EH', Eh. now rewrite app_assoc. }
        cbn [bind]. destruct (meta_get _ _ _ _ Mx) as (nx & Gx & _ & Ox & Lx). rewrite Gx. cbn [bind]. rewrite Ox.
        assert (o < k_offset kx) as Gt by (rewrite Forall_forall in F2; now apply F2). destruct (Nat.leb_spec (k_offset kx) o); [lia|]. cbn [bind].
        assert (G1 ++ g1 <> []) as Nn.
        { intros Q. rewrite Q in Ef. cbn [app] in Ef. destruct l as [|k0 l0]; [congruence|]. cbn [firsts] in Ef. injection Ef as E _.
          assert (k0 = kx) as -> by (apply (kid_unique (k0 :: l0)); [apply (r_nodup _ _ R)|now left|assumption|congruence]). cbn in A. specialize (A Txx). lia. }
        destruct (lastof_some None _ Nn) as (a & p & Ea & ->). rewrite Lx.
        assert (L sibling h2 x = hd_error g2) as -> by (rewrite Ef in Sh; now apply list_ok_at in Sh).
        assert (In p (firsts [] l)) as Ip by (rewrite Ef, Ea; apply in_or_app; left; apply in_or_app; right; now left).
        destruct (set_sibling_ok h2 p (hd_error g2)) as (h3 & E3 & B3).
        { apply firsts_in in Ip as (k & K & <- & _). rewrite (Mk k K). discriminate. }
        rewrite E3. cbn [bind]. rewrite <- Hh.
        assert (G1 ++ H2 = a ++ p :: g2) as Eq by (rewrite Eh, app_assoc, Ea, <- app_assoc; reflexivity).
        assert (firsts [] l = a ++ p :: x :: g2) as Ef' by (rewrite Ef, Ea, <- app_assoc; reflexivity).
        pose proof (firsts_nodup [] l (r_nodup _ _ R)) as Df. rewrite Ef' in Df.
        assert (NoDup (a ++ p :: g2)) as Df' by (replace (a ++ p :: x :: g2) with ((a ++ [p]) ++ x :: g2) in Df by (now rewrite <- app_assoc); apply NoDup_remove_1 in Df; rewrite <- app_assoc in Df; exact Df).
        apply (Rest h3).
        { apply (sb_meta _ _ _ _ _ B3). } { apply (sb_next _ _ _ _ _ B3). } { apply (sb_ordered _ _ _ _ _ B3). }
        { rewrite Eq. rewrite Ef' in Sh. eapply list_ok_remove; [exact Sh| |].
          - rewrite (sb_sibling _ _ _ _ _ B3), upd_same. replace (a ++ p :: x :: g2) with ((a ++ [p]) ++ x :: g2) in Sh by (now rewrite <- app_assoc). symmetry. now apply list_ok_at in Sh.
          - intros y Y. rewrite (sb_sibling _ _ _ _ _ B3). apply upd_other. intros ->. apply NoDup_remove_2 in Df'. apply Df'. apply in_or_app. tauto. }
        { rewrite Eh. rewrite Eg in K2. apply Forall_app in K2 as [Q1 Q2]. inversion Q2; subst. apply Forall_app. now split. }
        { now rewrite Eq. }
        { intros Q. rewrite Eq in Q. apply (Fc c); [|reflexivity]. rewrite Ef'. apply in_app_or in Q as [Q|[Q|Q]]; apply in_or_app; [now left|right; now left|right; right; now right]. }
        { lia. }
        { rewrite Eq. assert (hd_error (a ++ p :: g2) = hd_error (firsts [] l)) as -> by (rewrite Ef'; now destruct a). now symmetry. }
Qed.
