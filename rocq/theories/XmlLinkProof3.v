(** Pruning a child keeps the three lists. *)
From Coq Require Import Arith NArith List Bool Lia Sorting.
From Verif Require Import Outcome XmlLinkModel XmlLinkSpec XmlLinkProof XmlLinkProof2.
Import ListNotations.

Lemma without_split c l1 k l2 : NoDup (ids (l1 ++ k :: l2)) -> k_id k = c -> without c (l1 ++ k :: l2) = l1 ++ l2.
Proof.
  intros D E. unfold without. rewrite filter_app. cbn [filter]. rewrite E, Nat.eqb_refl. cbn [negb].
  unfold ids in D. rewrite map_app in D. cbn [map] in D. rewrite E in D. apply NoDup_remove_2 in D.
  assert (forall l, (forall x, In x l -> k_id x <> c) -> filter (fun k => negb (k_id k =? c)) l = l) as G.
  { induction l as [|x l IH]; intros H; [reflexivity|]. cbn [filter]. destruct (Nat.eqb_spec (k_id x) c) as [Q|_]; [exfalso; now apply (H x (or_introl eq_refl))|].
    cbn [negb]. f_equal. apply IH. intros y Y. apply H. now right. }
  rewrite !G; [reflexivity| |]; intros x X Q; apply D; apply in_or_app; rewrite <- Q; [right|left]; now apply in_map.
Qed.
Lemma firsts_hd_tagged l k : NoDup (ids l) -> In k l -> In (k_id k) (firsts [] l) -> exists r, tagged (k_tag k) l = k_id k :: r.
Proof.
  intros D K F. assert (In (k_id k) (tagged (k_tag k) l)) as I by (apply tagged_in; now exists k).
  apply in_split in I as (a & r & E). destruct a as [|y a]; [now exists r|]. exfalso. eapply (firsts_not l); [exact D|exact E|discriminate|exact F].
Qed.

Theorem prune_ok s l1 k l2 fuel : Rep s (l1 ++ k :: l2) -> length (l1 ++ k :: l2) < fuel ->
  In (k_tag k) (tags l1) \/ ~ In (k_tag k) (tags l2) ->
  exists s', Prune fuel s (k_id k) = Ok s' /\ Rep s' (l1 ++ l2).
Proof.
  intros R U A. set (l := l1 ++ k :: l2) in *. set (c := k_id k). set (t := k_tag k) in *.
  assert (In k l) as Ik by (apply in_or_app; right; now left).
  pose proof (r_nodup _ _ R) as D. pose proof (r_meta _ _ R) as Mk. pose proof (Mk k Ik) as Mc. fold c t in Mc.
  destruct (meta_get _ _ _ _ Mc) as (x & G & Tx & Ox & Lx).
  assert (forall y, In y (ids l) -> meta (cells s) y <> None) as Ml by (intros y Y; apply in_map_iff in Y as (k' & <- & K); rewrite (Mk k' K); discriminate).
  assert (ids l = ids l1 ++ c :: ids l2) as Ei by (unfold l, ids; now rewrite map_app).
  assert (~ In c (ids l1 ++ ids l2)) as Nc by (rewrite Ei in D; now apply NoDup_remove_2 in D).
  assert (NoDup (ids (l1 ++ l2))) as Dn by (unfold ids; rewrite map_app; rewrite Ei in D; now apply NoDup_remove_1 in D).
  assert (StronglySorted (fun a b => k_offset a <= k_offset b) (l1 ++ l2)) as Sn by (eapply sorted_remove, (r_sorted _ _ R)).
  assert (forall k', In k' (l1 ++ l2) -> In k' l /\ k_id k' <> c) as Il.
  { intros k' K. split; [apply in_app_or in K as [K|K]; apply in_or_app; [now left|right; now right]|]. intros Q. apply Nc. rewrite <- Q. unfold ids. rewrite <- map_app. now apply in_map. }
  assert (tagged t l = tagged t l1 ++ c :: tagged t l2) as Tt.
  { unfold l. rewrite tagged_app. f_equal. unfold tagged at 1. cbn [filter]. destruct (same_tag t k) eqn:Z; [reflexivity|]. exfalso. assert (same_tag t k = true) by (now apply same_tag_spec). congruence. }
  assert (forall t', t' <> t -> tagged t' (l1 ++ l2) = tagged t' l) as To.
  { intros t' Q. unfold l. rewrite !tagged_app. f_equal. unfold tagged at 2. cbn [filter]. destruct (same_tag t' k) eqn:Z; [apply same_tag_spec in Z; fold t in Z; congruence|reflexivity]. }
  assert (forall t' y, t' <> t -> In y (tagged t' l) -> ~ In y (tagged t l)) as Td.
  { intros t' y Q X Y. apply tagged_in in X as (k1 & K & T1 & I1). apply tagged_in in Y as (k' & K' & T2 & I2). apply Q. rewrite <- T1, <- T2. f_equal. apply (kid_unique l); [assumption..|congruence]. }
  assert (forall t' y, In y (tagged t' l) -> In y (ids l)) as Ti by (intros t' y Y; apply tagged_in in Y as (k' & K & _ & <-); now apply in_map).
  pose proof (r_next _ _ R) as Rn. pose proof (Rn t) as Rt. rewrite Tt in Rt. pose proof (list_ok_at _ _ _ _ Rt) as Nx.
  pose proof (tagged_nodup t l D) as Dt. rewrite Tt in Dt.
  (* the last assignments: the links of the others are not touched *)
  assert (forall h first, (forall y, In y (ids l) -> meta h y = meta (cells s) y) -> first = hd_error (ids (l1 ++ l2)) ->
    list_ok (L ordered h) (ids (l1 ++ l2)) -> list_ok (L sibling h) (firsts [] (l1 ++ l2)) ->
    list_ok (L next h) (tagged t (l1 ++ l2)) -> (forall t', t' <> t -> list_ok (L next h) (tagged t' l)) ->
    Rep (mkParent (put h c (mkNode t (offset x) None None None)) first) (l1 ++ l2)) as Fin.
  { intros h first Mh Ef Oh Sh Nh Nh'. split; cbn [cells child].
    - exact Dn.
    - intros k' K. destruct (Il k' K) as [K1 K2]. rewrite put_view. destruct (Nat.eqb_spec (k_id k') c); [contradiction|]. rewrite Mh by (now apply in_map). now apply Mk.
    - exact Sn.
    - exact Ef.
    - eapply list_ok_ext; [|exact Oh]. intros y Y. rewrite put_link by reflexivity. apply upd_other. intros ->. apply Nc. unfold ids in Y. now rewrite map_app in Y.
    - eapply list_ok_ext; [|exact Sh]. intros y Y. rewrite put_link by reflexivity. apply upd_other. intros ->. apply Nc. apply firsts_incl in Y. unfold ids in Y. now rewrite map_app in Y.
    - intros t'. assert (list_ok (L next h) (tagged t' (l1 ++ l2))) as Q.
      { destruct (list_eq_dec N.eq_dec t' t) as [->|Q]; [exact Nh|]. rewrite To by assumption. now apply Nh'. }
      eapply list_ok_ext; [|exact Q]. intros y Y. rewrite put_link by reflexivity. apply upd_other. intros ->. apply tagged_in in Y as (k' & K & _ & E). now apply Il in K. }
  unfold Prune. rewrite G. cbn [bind]. rewrite !Lx, Nx, Tx.
  destruct (list_eq_dec Nat.eq_dec (ids l1) []) as [E1|E1].
  - (* the first child *)
    destruct l1; [|discriminate]. cbn [app] in *. destruct A as [[]|A]. rewrite (tagged_nil t l2 A) in *. cbn [hd_error bind].
    rewrite (r_child _ _ R), Ei. cbn [ids map app hd_error]. rewrite Nat.eqb_refl. cbn [bind]. eexists. split; [reflexivity|]. 
    pose proof (r_ordered _ _ R) as Ro. rewrite Ei in Ro. cbn [ids map app] in Ro. destruct Ro as [Ro1 Ro2].
    apply Fin.
    + reflexivity.
    + exact Ro1.
    + exact Ro2.
    + pose proof (r_sibling _ _ R) as Rs. unfold l in Rs. cbn [firsts] in Rs. destruct Rs as [_ Rs]. fold t in Rs.
      pose proof (firsts_drop [] t l2 (fun q => q)) as Q. rewrite (tagged_nil t l2 A) in Q. now rewrite Q in Rs.
    + first [exact I | now rewrite (tagged_nil t l2 A)].
    + intros t' Q. apply Rn.
  - destruct (split_last (ids l1) E1) as (a & p & Ea).
    assert (exists k0 l0, l1 = k0 :: l0) as (k0 & l0 & El1) by (destruct l1 as [|k0 l0]; [now destruct E1|now exists k0, l0]).
    assert (child s = Some (k_id k0)) as -> by (rewrite (r_child _ _ R), Ei, El1; reflexivity).
    assert (k_id k0 <> c) as H0 by (intros Q; apply Nc; rewrite El1; left; exact Q).
    destruct (Nat.eqb_spec (k_id k0) c) as [|_]; [contradiction|].
    assert (In k0 l) as Ik0 by (unfold l; rewrite El1; now left).
    (* 2459-2460 *)
    assert (exists h1, (match hd_error (tagged t l2) with Some q => set_sibling (cells s) q (L sibling (cells s) c) | None => Ok (cells s) end) = Ok h1 /\
      (forall y, meta h1 y = meta (cells s) y) /\ (forall y, L next h1 y = L next (cells s) y) /\ (forall y, L ordered h1 y = L ordered (cells s) y) /\
      L sibling h1 c = L sibling (cells s) c /\ list_ok (L sibling h1) (firsts [] l)) as (h1 & E3 & M1 & N1 & O1 & S1c & S1).
    { destruct (tagged t l2) as [|q r] eqn:Tq; cbn [hd_error]; [exists (cells s); repeat split; auto; apply (r_sibling _ _ R)|].
      assert (In q (tagged t l)) as Iq by (rewrite Tt; apply in_or_app; right; right; now left).
      destruct (set_sibling_ok (cells s) q (L sibling (cells s) c)) as (h1 & E & B); [apply Ml; eapply Ti, Iq|].
      exists h1. split; [assumption|]. split; [apply (sb_meta _ _ _ _ _ B)|]. split; [apply (sb_next _ _ _ _ _ B)|]. split; [apply (sb_ordered _ _ _ _ _ B)|].
      assert (q <> c) as Qc by (intros ->; apply NoDup_remove_2 in Dt; apply Dt; apply in_or_app; right; now left).
      split; [rewrite (sb_sibling _ _ _ _ _ B); apply upd_other; congruence|].
      eapply list_ok_ext; [|exact (r_sibling _ _ R)]. intros y Y. rewrite (sb_sibling _ _ _ _ _ B). apply upd_other. intros ->.
      eapply (firsts_not l t q (tagged t l1 ++ [c])); [exact D|rewrite Tt; now rewrite <- app_assoc|now destruct (tagged t l1)|exact Y]. }
    rewrite E3. cbn [bind].
    (* 2468-2470 *)
    pose proof (r_ordered _ _ R) as Ro. rewrite Ei, Ea, <- app_assoc in Ro. cbn [app] in Ro.
    assert (list_ok (L ordered h1) (a ++ p :: c :: ids l2)) as Ro1 by (eapply list_ok_ext; [|exact Ro]; intros y _; apply O1).
    assert (ids l = a ++ p :: c :: ids l2) as Ei' by (rewrite Ei, Ea, <- app_assoc; reflexivity).
    rewrite (before_ordered_ok h1 c (ids l2) a p).
    2:{ exact Ro1. }
    2:{ rewrite <- Ea, El1. reflexivity. }
    2:{ rewrite <- Ei'. exact D. }
    2:{ apply Forall_forall. intros y Y. rewrite M1. apply Ml. rewrite Ei, Ea. apply in_or_app. now left. }
    2:{ assert (length a < length (ids l1)) as Q by (rewrite Ea, app_length; cbn; lia). unfold ids in Q. rewrite map_length in Q. unfold l in U. rewrite app_length in U. cbn [length] in U. lia. }
    cbn [bind].
    assert (In p (ids l)) as Ip by (rewrite Ei'; apply in_or_app; right; now left).
    destruct (set_ordered_ok h1 p (L ordered (cells s) c)) as (h2 & E4 & B4); [rewrite M1; now apply Ml|]. rewrite E4. cbn [bind].
    assert (forall y, meta h2 y = meta (cells s) y) as M2 by (intros y; now rewrite (sb_meta _ _ _ _ _ B4)).
    assert (forall y, L next h2 y = L next (cells s) y) as N2 by (intros y; now rewrite (sb_next _ _ _ _ _ B4)).
    assert (list_ok (L sibling h2) (firsts [] l)) as S2 by (eapply list_ok_ext; [|exact S1]; intros y _; apply (sb_sibling _ _ _ _ _ B4)).
    assert (list_ok (L ordered h2) (ids (l1 ++ l2))) as O2.
    { unfold ids. rewrite map_app. change (map k_id l1) with (ids l1). rewrite Ea, <- app_assoc. cbn [app]. eapply list_ok_remove; [exact Ro1| |].
      - rewrite (sb_ordered _ _ _ _ _ B4), upd_same. now rewrite O1.
      - intros y Y. rewrite (sb_ordered _ _ _ _ _ B4). apply upd_other. intros ->. rewrite Ei' in D. apply NoDup_remove_2 in D. apply D. apply in_or_app. cbn. tauto. }
    assert (Some (k_id k0) = hd_error (ids (l1 ++ l2))) as Hf by (rewrite El1; reflexivity).
    pose proof (Mk k0 Ik0) as M0. rewrite <- M2 in M0. destruct (meta_get _ _ _ _ M0) as (n0 & G0 & Tn0 & _). rewrite G0. cbn [bind]. rewrite Tn0.
    assert (Some (k_id k0) = hd_error (firsts [] l)) as Hh by (rewrite firsts_hd, Ei, El1; reflexivity).
    pose proof (firsts_drop [] t l (fun q => q)) as Fd. rewrite Tt in Fd.
    assert (forall f1 f2, firsts [t] l = f1 ++ f2 -> Forall (known h2 (fun t' _ => t' <> t)) f1) as Ft.
    { intros f1 f2 E. apply Forall_forall. intros y Y. assert (In y (firsts [t] l)) as Z by (rewrite E; apply in_or_app; now left).
      apply firsts_in in Z as (k' & K & <- & Nt). exists (k_tag k'), (k_offset k'). split; [rewrite M2; now apply Mk|]. intros Q. apply Nt. now left. }
    destruct (in_dec (list_eq_dec N.eq_dec) t (tags l1)) as [It|It].
    + (* not the first of its tag *)
      destruct (tagged_cons_in t l1 It) as (x0 & r0 & Ex). rewrite Ex in Fd. cbn [app] in Fd. destruct Fd as (f1 & f2 & Ef1 & Ef2).
      assert (In x0 (tagged t l)) as Ix0 by (rewrite Tt, Ex; now left).
      assert (x0 <> c) as Xc by (intros ->; apply NoDup_remove_2 in Dt; apply Dt; rewrite Ex; now left).
      assert (exists o0, meta h2 x0 = Some (t, o0)) as [o0 Mx0].
      { apply tagged_in in Ix0 as (k' & K & T' & <-). exists (k_offset k'). rewrite M2, (Mk k' K). now rewrite T'. }
      assert ((if tag_eq (k_tag k0) t then Ok (k_id k0, h2)
               else let* p0 := before_tag fuel h2 t (k_id k0) in
                    let* n := get h2 p0 in
                    match sibling n with
                    | None => UB
                    | Some q => if q =? c then let* m := get h2 q in
                          let* h := set_sibling h2 p0 (match hd_error (tagged t l2) with Some _ => hd_error (tagged t l2) | None => sibling m end) in Ok (p0, h)
                        else Ok (q, h2)
                    end) = Ok (x0, h2)) as ->.
      { unfold tag_eq. destruct (list_eq_dec N.eq_dec (k_tag k0) t) as [Q|Q].
        - f_equal. f_equal. assert (tagged t l1 = k_id k0 :: tagged t l0) as Q' by (rewrite El1; unfold tagged; cbn [filter]; rewrite (proj2 (same_tag_spec t k0) Q); reflexivity). congruence.
        - assert (f1 <> []) as Nf.
          { intros ->. rewrite Ef1 in Hh. cbn [app hd_error] in Hh. injection Hh as Hh. rewrite <- Hh in Mx0. rewrite M0 in Mx0. congruence. }
          destruct (split_last f1 Nf) as (a' & p' & Ea').
          assert (list_ok (L sibling h2) (a' ++ p' :: x0 :: f2)) as S2' by (rewrite Ef1, Ea', <- app_assoc in S2; exact S2).
          rewrite (before_tag_ok h2 t x0 f2 a' p' (k_id k0) fuel o0).
          2:{ exact S2'. } 2:{ rewrite <- Ea'. rewrite Ef1 in Hh. destruct f1; [congruence|]. now symmetry. }
          2:{ rewrite <- Ea'. now apply (Ft f1 f2). } 2:{ exact Mx0. }
          2:{ pose proof (firsts_length [] l) as Z. rewrite Ef1, Ea', !app_length in Z. cbn [length] in Z. lia. }
          cbn [bind]. assert (In p' (firsts [] l)) as Ip' by (rewrite Ef1, Ea'; apply in_or_app; left; apply in_or_app; right; now left).
          apply firsts_in in Ip' as (kp & Kp & <- & _). pose proof (Mk kp Kp) as Mkp. rewrite <- M2 in Mkp. destruct (meta_get _ _ _ _ Mkp) as (np & Gp & _ & _ & Lp).
          rewrite Gp. cbn [bind]. rewrite Lp, (list_ok_at _ _ _ _ S2'). cbn [hd_error]. destruct (Nat.eqb_spec x0 c); [contradiction|reflexivity]. }
      cbn [bind]. destruct (cons_last x0 r0) as [a' Ea']. set (p' := last r0 x0) in *.
      assert (list_ok (L next h2) (a' ++ p' :: c :: tagged t l2)) as N2'.
      { rewrite Ex in Rt. change ((x0 :: r0) ++ c :: tagged t l2) with ((x0 :: r0) ++ c :: tagged t l2) in Rt. rewrite Ea', <- app_assoc in Rt. eapply list_ok_ext; [|exact Rt]. intros y _. apply N2. }
      assert (tagged t l = a' ++ p' :: c :: tagged t l2) as Tt' by (rewrite Tt, Ex, Ea', <- app_assoc; reflexivity).
      rewrite (before_next_ok h2 c (tagged t l2) a' p').
      2:{ exact N2'. } 2:{ rewrite <- Ea'. reflexivity. } 2:{ rewrite <- Tt', Tt. exact Dt. }
      2:{ apply Forall_forall. intros y Y. rewrite M2. apply Ml. apply (Ti t). rewrite Tt'. apply in_app_or in Y as [Y|[<-|[]]]; apply in_or_app; [now left|right; now left]. }
      2:{ pose proof (tagged_length t l) as Z. rewrite Tt', app_length in Z. cbn [length] in Z. lia. }
      cbn [bind]. assert (In p' (tagged t l)) as Ip' by (rewrite Tt'; apply in_or_app; right; now left).
      assert (exists o', meta h2 p' = Some (t, o')) as [o' Mp'] by (apply tagged_in in Ip' as (k' & K & T' & <-); exists (k_offset k'); rewrite M2, (Mk k' K); now rewrite T').
      destruct (meta_get _ _ _ _ Mp') as (np & Gp & _ & _ & Lp). rewrite Gp. cbn [bind]. rewrite Lp, (list_ok_at _ _ _ _ N2'). cbn [hd_error].
      rewrite <- M2 in Mc. destruct (meta_get _ _ _ _ Mc) as (nc & Gc & _ & _ & Lc). rewrite Gc. cbn [bind]. rewrite Lc.
      destruct (set_next_ok h2 p' (L next h2 c)) as (h3 & E5 & B5); [congruence|]. rewrite E5. cbn [bind]. eexists. split; [reflexivity|].
      apply Fin.
      * intros y _. now rewrite (sb_meta _ _ _ _ _ B5).
      * exact Hf.
      * eapply list_ok_ext; [|exact O2]. intros y _. apply (sb_ordered _ _ _ _ _ B5).
      * replace (firsts [] (l1 ++ l2)) with (firsts [] l); [eapply list_ok_ext; [|exact S2]; intros y _; apply (sb_sibling _ _ _ _ _ B5)|].
        unfold l. rewrite !firsts_app. f_equal. rewrite app_nil_r. cbn [firsts]. fold t. destruct (in_dec _ t (tags l1)); [reflexivity|contradiction].
      * rewrite tagged_app, Ex, Ea', <- app_assoc. cbn [app]. eapply list_ok_remove; [exact N2'| |].
        { rewrite (sb_next _ _ _ _ _ B5). apply upd_same. }
        { intros y Y. rewrite (sb_next _ _ _ _ _ B5). apply upd_other. intros ->. rewrite <- Tt, Tt' in Dt. apply NoDup_remove_2 in Dt. apply Dt. apply in_or_app. cbn. tauto. }
      * intros t' Q. eapply list_ok_ext; [|exact (Rn t')]. intros y Y. rewrite (sb_next _ _ _ _ _ B5), upd_other; [apply N2|]. intros ->. now apply (Td t' p' Q).
    + (* the only one of its tag *)
      destruct A as [A|A]; [contradiction|]. rewrite (tagged_nil t l1 It), (tagged_nil t l2 A) in *. cbn [app hd_error] in *.
      destruct Fd as (f1 & f2 & Ef1 & Ef2).
      assert (k_tag k0 <> t) as Q0 by (intros Q; apply It; rewrite El1; left; exact Q).
      unfold tag_eq. destruct (list_eq_dec N.eq_dec (k_tag k0) t); [contradiction|].
      assert (f1 <> []) as Nf by (intros ->; rewrite Ef1 in Hh; cbn [app hd_error] in Hh; congruence).
      destruct (split_last f1 Nf) as (a' & p' & Ea').
      assert (firsts [] l = a' ++ p' :: c :: f2) as Ef1' by (rewrite Ef1, Ea', <- app_assoc; reflexivity).
      rewrite <- M2 in Mc. rewrite (before_tag_ok h2 t c f2 a' p' (k_id k0) fuel (k_offset k)).
      2:{ rewrite <- Ef1'. exact S2. } 2:{ rewrite <- Ea'. rewrite Ef1 in Hh. destruct f1; [congruence|]. now symmetry. }
      2:{ rewrite <- Ea'. now apply (Ft f1 f2). } 2:{ exact Mc. }
      2:{ pose proof (firsts_length [] l) as Z. rewrite Ef1', !app_length in Z. cbn [length] in Z. lia. }
      cbn [bind]. assert (In p' (firsts [] l)) as Ip' by (rewrite Ef1'; apply in_or_app; right; now left).
      pose proof Ip' as Ip2. apply firsts_in in Ip2 as (kp & Kp & Ekp & _). pose proof (Mk kp Kp) as Mkp. rewrite <- M2, Ekp in Mkp. destruct (meta_get _ _ _ _ Mkp) as (np & Gp & _ & _ & Lp).
      rewrite Gp. cbn [bind]. rewrite Lp. rewrite Ef1' in S2. rewrite (list_ok_at _ _ _ _ S2). cbn [hd_error]. rewrite Nat.eqb_refl.
      destruct (meta_get _ _ _ _ Mc) as (nc & Gc & _ & _ & Lc). rewrite Gc. cbn [bind]. rewrite Lc.
      destruct (set_sibling_ok h2 p' (L sibling h2 c)) as (h3 & E5 & B5); [congruence|]. rewrite E5. cbn [bind].
      assert (k_tag kp <> t) as Qp.
      { assert (In p' f1) as Z by (rewrite Ea'; apply in_or_app; right; now left). pose proof (Ft f1 f2 Ef2) as W. rewrite Forall_forall in W. destruct (W p' Z) as (t' & o' & W1 & W2). congruence. }
      destruct (firsts_hd_tagged l kp D Kp) as [r Er]; [now rewrite Ekp|]. rewrite Ekp in Er.
      assert (~ In c (tagged (k_tag kp) l)) as Ncp by (intros Z; apply (Td (k_tag kp) c Qp Z); rewrite Tt; now left).
      destruct (before_next_absent h3 c r p' fuel) as [Q1 Q2].
      { pose proof (Rn (k_tag kp)) as Z. rewrite Er in Z. eapply list_ok_ext; [|exact Z]. intros y _. rewrite (sb_next _ _ _ _ _ B5). apply N2. }
      { intros Z. apply Ncp. rewrite Er. now right. }
      { apply Forall_forall. intros y Y. rewrite (sb_meta _ _ _ _ _ B5), M2. apply Ml. apply (Ti (k_tag kp)). now rewrite Er. }
      { pose proof (tagged_length (k_tag kp) l) as Z. rewrite Er in Z. cbn [length] in Z. lia. }
      rewrite Q1. cbn [bind]. set (q := last r p') in *.
      assert (meta h3 q <> None) as Mq.
      { rewrite (sb_meta _ _ _ _ _ B5), M2. apply Ml. apply (Ti (k_tag kp)). rewrite Er. destruct (cons_last p' r) as [b Eb]. fold q in Eb. rewrite Eb. apply in_or_app. right. now left. }
      destruct (meta h3 q) as [[tq oq]|] eqn:Mq'; [|congruence]. destruct (meta_get _ _ _ _ Mq') as (nq & Gq & _ & _ & Lq). rewrite Gq. cbn [bind]. rewrite Lq, Q2. cbn [bind].
      eexists. split; [reflexivity|].
      pose proof (firsts_nodup [] l D) as Df. rewrite Ef1' in Df.
      apply Fin.
      * intros y _. now rewrite (sb_meta _ _ _ _ _ B5).
      * exact Hf.
      * eapply list_ok_ext; [|exact O2]. intros y _. apply (sb_ordered _ _ _ _ _ B5).
      * replace (firsts [] (l1 ++ l2)) with (a' ++ p' :: f2).
        { eapply list_ok_remove; [exact S2| |].
          - rewrite (sb_sibling _ _ _ _ _ B5). apply upd_same.
          - intros y Y. rewrite (sb_sibling _ _ _ _ _ B5). apply upd_other. intros ->. apply NoDup_remove_2 in Df. apply Df. apply in_or_app. cbn. tauto. }
        pose proof (firsts_drop [] t (l1 ++ l2) (fun z => z)) as Z. rewrite tagged_app, (tagged_nil t l1 It), (tagged_nil t l2 A) in Z. cbn [app] in Z.
        rewrite <- Z. transitivity (firsts [t] l); [rewrite Ef2, Ea', <- app_assoc; reflexivity|].
        unfold l. rewrite !firsts_app. f_equal. cbn [firsts]. fold t. destruct (in_dec _ t (tags l1 ++ [t])) as [_|W]; [reflexivity|]. exfalso. apply W. apply in_or_app. right. now left.
      * now rewrite tagged_app, (tagged_nil t l1 It), (tagged_nil t l2 A).
      * intros t' Q. eapply list_ok_ext; [|exact (Rn t')]. intros y Y. rewrite (sb_next _ _ _ _ _ B5). apply N2.
Qed.
