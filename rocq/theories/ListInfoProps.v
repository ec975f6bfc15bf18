(** Listings of the configuration and of the content types (C230, C231). *)
From Coq Require Import NArith ZArith Bool String Lia ZifyBool ZifyNat ZifyN Arith Permutation Sorted List.
From Verif Require Import Base Outcome CStringSpec OptionModel GlobModel GlobSpec GlobProps.
From Verif Require Import ConfigureModel ConfigureProof ConfigureProps ListInfoModel.
Import ListNotations.

(** ** Specification: the listing by paths *)
(** what stands in front of the rows of a path *)
Definition title (columns p : list N) : list N := [10%N] ++ b "Path: " ++ p ++ [10; 10]%N ++ columns ++ [10%N] ++ repeat 45%N 79 ++ [10%N].
(** a row: the name, spaces up to a column but at least one, the value *)
Definition in_columns (width : nat) (n v t : list N) : Prop :=
  exists k, t = n ++ repeat 32%N k ++ v ++ [10%N] /\ length n + k = Nat.max width (S (length n)).
Definition or_unknown (t : option (list N)) : list N := match t with Some t => t | None => b "unknown" end.
Definition row_of_configure (e : entry) (t : list N) : Prop := in_columns 14 (or_unknown (name e)) (or_unknown (value e)) t.
(** a type of more than 25 bytes stands alone in its line *)
Definition row_of_mime (e : entry) (t : list N) : Prop :=
  exists ty, name e = Some ty /\ let d := match value e with Some d => d | None => [] end in
    (length ty <= 25 -> in_columns 28 ty d t) /\ (25 < length ty -> t = ty ++ [10%N] ++ repeat 32%N 28 ++ d ++ [10%N]).
(** a group of entries with the same path, up to case *)
Definition group_text (row : entry -> list N -> Prop) (columns : list N) (g : list entry) (t : list N) : Prop :=
  exists e l ts, g = e :: l /\ Forall (fun x => fold (path x) = fold (path e)) l /\ Forall2 row g ts /\ t = title columns (path e) ++ concat ts.
Definition key (g : list entry) : list N := match g with e :: _ => fold (path e) | [] => [] end.
(** every visible entry is listed once, under the one title of its path, in order *)
Definition listing (row : entry -> list N -> Prop) (columns : list N) (cache : list entry) (t : list N) : Prop :=
  exists gs ts p, (forall e, In e cache -> p e = true <-> stealth e = false) /\ Permutation (concat gs) (filter p cache) /\ StronglySorted entry_le (concat gs) /\
    NoDup (map key gs) /\ Forall2 (group_text row columns) gs ts /\ t = concat ts.

(** ** Proof *)
Section Rows.
Variable columns : list N.
Variable print : entry -> outcome (list N).
Variable row : entry -> list N -> Prop.
Definition printable (e : entry) : Prop := stealth e = false /\ zero_free (path e) /\ exists t, print e = Ok t /\ row e t.
Definition group_rows (g : list entry) (t : list N) : Prop :=
  exists e l ts, g = e :: l /\ Forall (fun x => fold (path x) = fold (path e)) l /\ Forall2 row g ts /\ t = concat ts.
Lemma rows_groups : forall l, Forall printable l -> StronglySorted entry_le l ->
  exists gs ts, concat gs = l /\ NoDup (map key gs) /\ Forall2 group_rows gs ts /\
    forall last, match last with Some p => zero_free p | None => True end ->
      rows columns print last l = Ok (match gs, ts with
        | (e :: _) :: gs', t :: ts' => (match last with Some p => if list_eq_dec N.eq_dec (fold p) (fold (path e)) then [] else title columns (path e) | None => title columns (path e) end)
            ++ t ++ concat (map (fun gt => title columns (match fst gt with e :: _ => path e | [] => [] end) ++ snd gt) (combine gs' ts'))
        | _, _ => [] end).
Proof.
  induction l as [|e l IH]; intros Pr So.
  - exists [], []. repeat split; try constructor.
  - inversion Pr as [|? ? (Se & Ze & t & Et & Rt) Pl]; subst. inversion So as [|? ? Sl Le]; subst.
    destruct (IH Pl Sl) as (gs & ts & Cg & Nd & F & R). specialize (R (Some (path e)) Ze).
    assert (Hd : forall last, match last with Some p => zero_free p | None => True end ->
      (if match last with None => true | Some p => negb (strcasecmp p (path e) =? 0)%Z end then heading columns (path e) else []) =
      match last with Some p => if list_eq_dec N.eq_dec (fold p) (fold (path e)) then [] else title columns (path e) | None => title columns (path e) end).
    { intros last Z. assert (heading columns (path e) = title columns (path e)) as -> by reflexivity.
      destruct last as [p|]; [|reflexivity]. destruct (Z.eqb_spec (strcasecmp p (path e)) 0) as [Q|Q]; destruct (list_eq_dec N.eq_dec (fold p) (fold (path e))) as [D|D]; try reflexivity.
      - apply strcasecmp_zero in Q; auto. contradiction.
      - destruct Q. apply strcasecmp_zero; auto. }
    destruct gs as [|g gs].
    { cbn in Cg. subst l. exists [[e]], [t]. split; [reflexivity|]. split; [repeat constructor; intros []|]. split.
      - constructor; [|constructor]. exists e, [], [t]. split; [reflexivity|]. split; [constructor|]. split; [now repeat constructor|]. cbn. now rewrite app_nil_r.
      - intros last Z. cbn [rows]. rewrite Se, Et. cbn [bind rows]. rewrite (Hd last Z). cbn. now rewrite !app_nil_r. }
    inversion F as [|ga t' gb ts' G F' Qa Qb]; subst ts. clear Qa. destruct G as (x & lx & tx & -> & Al & Rx & ->).
    destruct (list_eq_dec N.eq_dec (fold (path e)) (fold (path x))) as [D|D].
    + exists ((e :: x :: lx) :: gs), ((t ++ concat tx) :: ts'). split; [cbn in *; now f_equal|]. split.
      { cbn [map key] in Nd |- *. now rewrite D. }
      split.
      { constructor; [|exact F']. exists e, (x :: lx), (t :: tx). split; [reflexivity|]. split.
        - constructor; [now symmetry|]. eapply Forall_impl; [|exact Al]. cbn. intros y Y. congruence.
        - split; [now constructor|reflexivity]. }
      intros last Z. cbn [rows]. rewrite Se, Et. cbn [bind]. rewrite R. cbn [bind]. rewrite (Hd last Z). cbn [app]. now rewrite <- !app_assoc.
    + exists ([e] :: (x :: lx) :: gs), (t :: concat tx :: ts'). split; [cbn in *; now f_equal|]. split.
      { cbn [map key] in *. constructor; [|exact Nd]. intros I. destruct I as [I|I]; [congruence|].
        apply in_map_iff in I. destruct I as (g & Kg & Ig). apply in_split in Ig. destruct Ig as (g1 & g2 & ->).
        apply Forall2_app_inv_l in F'. destruct F' as (s1 & s2 & _ & F2 & _). inversion F2 as [|? ? ? ? (y & ly & ty & Ey & _) _ Q1 Q2]. rewrite Ey in *. cbn [key] in Kg. clear Q1.
        rewrite Forall_forall in Le. assert (entry_le e x) as L1 by (apply Le; rewrite <- Cg; now left).
        assert (entry_le x y) as L2.
        { rewrite <- Cg in Sl. cbn in Sl. inversion Sl as [|? ? _ Lx Q3]. rewrite Forall_forall in Lx. apply Lx.
          apply in_app_iff. right. rewrite concat_app. apply in_app_iff. right. now left. }
        unfold entry_le in L1, L2. destruct L1 as [(_ & L1)|(L1 & _)]; [|congruence]. destruct L2 as [(Nxy & L2)|(L2 & _)]; [|congruence].
        rewrite <- Kg in L1. apply Nxy. apply text_le_antisym; assumption. }
      split.
      { constructor; [|constructor; [|exact F']].
        - exists e, [], [t]. split; [reflexivity|]. split; [constructor|]. split; [now repeat constructor|]. cbn. now rewrite app_nil_r.
        - exists x, lx, tx. now repeat split. }
      intros last Z. cbn [rows]. rewrite Se, Et. cbn [bind]. rewrite R. cbn [bind]. rewrite (Hd last Z).
      destruct (list_eq_dec N.eq_dec (fold (path e)) (fold (path x))) as [?|_]; [contradiction|]. cbn [combine map fst snd concat]. now rewrite <- !app_assoc.
Qed.
Lemma rows_listing l : Forall printable l -> StronglySorted entry_le l ->
  exists gs ts, concat gs = l /\ NoDup (map key gs) /\ Forall2 (group_text row columns) gs ts /\ rows columns print None l = Ok (concat ts).
Proof.
  intros Pr So. destruct (rows_groups l Pr So) as (gs & ts & C & Nd & F & R). specialize (R None I).
  exists gs, (map (fun gt => title columns (match fst gt with e :: _ => path e | [] => [] end) ++ snd gt) (combine gs ts)).
  split; [exact C|]. split; [exact Nd|]. split.
  - clear -F. induction F as [|g t gs ts (e & l & rs & -> & A & B & ->) _ IH]; [constructor|]. cbn [combine map fst snd]. constructor; [|exact IH].
    exists e, l, rs. now repeat split.
  - rewrite R. clear -F. destruct F as [|g t gs ts (e & l & rs & -> & A & B & ->) F]; [reflexivity|]. cbn [combine map fst snd concat]. now rewrite <- !app_assoc.
Qed.
End Rows.
Lemma configure_row_ok e : row_of_configure e (configure_row e).
Proof.
  unfold row_of_configure, configure_row, in_columns, or_unknown. set (n := match name e with Some n => n | None => b "unknown" end).
  exists (13 - length n + 1). split; [|lia]. rewrite repeat_app. change (b " ") with (repeat 32%N 1). unfold newline. now rewrite <- !app_assoc.
Qed.
Lemma mime_row_ok e ty : name e = Some ty -> exists t, mime_row e = Ok t /\ row_of_mime e t.
Proof.
  intros Ne. unfold mime_row. rewrite Ne. eexists. split; [reflexivity|]. exists ty. split; [exact Ne|]. cbn zeta. split; intros L.
  - replace (length ty <=? 25) with true by lia. exists (28 - length ty). split; [reflexivity|lia].
  - replace (length ty <=? 25) with false by lia. unfold newline. now rewrite <- !app_assoc.
Qed.
Section Listings.
Variable sort : forall A : Type, (A -> A -> Z) -> list A -> list A.
Hypothesis Sorts : sorts sort.
Lemma star_ok : star = glob_text [Star].
Proof. reflexivity. Qed.
Lemma info_listing cache : text_named cache -> cleanly cache -> cache <> [] ->
  exists r p, GetConfigureInfoList sort star cache = Ok (Some r) /\ (forall e, In e cache -> p e = true <-> stealth e = false) /\
    Permutation r (filter p cache) /\ StronglySorted entry_le r /\ Forall (fun e => stealth e = false /\ zero_free (path e) /\ exists n, name e = Some n) r.
Proof.
  intros T C Ne. rewrite star_ok. destruct (info_list sort Sorts [Star] cache) as (r & p & E & P & Pm & So & _); try assumption;
    [repeat constructor|repeat constructor|]. exists r, p.
  assert (P' : forall e, In e cache -> p e = true <-> stealth e = false).
  { intros e I. rewrite (P e I). unfold listed. split; [now intros (S & _)|]. intros S. split; [exact S|]. right. unfold text_named in T. rewrite Forall_forall in T.
    destruct (T e I) as (m & M & _). exists m. split; [exact M|]. rewrite <- (app_nil_r m). apply matches_star. constructor. }
  split; [exact E|]. split; [exact P'|]. split; [exact Pm|]. split; [exact So|].
  apply Forall_forall. intros e I. apply (Permutation_in e Pm), filter_In in I. destruct I as (I & Q).
  split; [now apply P'|]. unfold cleanly, text_named in *. rewrite Forall_forall in C, T. split; [now apply C|]. destruct (T e I) as (m & M & _). now exists m.
Qed.
(** ** C230 *)
Theorem configure_listing : forall cache, text_named cache -> cleanly cache -> cache <> [] ->
  exists t, ListConfigureInfo sort cache = Ok (Some t) /\ listing row_of_configure (b "Name          Value") cache t.
Proof.
  intros cache T C Ne. destruct (info_listing cache T C Ne) as (r & p & E & P & Pm & So & V). unfold ListConfigureInfo. rewrite E. cbn [bind].
  destruct (rows_listing (b "Name          Value") (fun e => Ok (configure_row e)) row_of_configure r) as (gs & ts & Cg & Nd & F & R).
  - eapply Forall_impl; [|exact V]. intros e (S & Z & _). split; [exact S|]. split; [exact Z|]. eexists. split; [reflexivity|apply configure_row_ok].
  - exact So.
  - rewrite R. cbn [bind]. eexists. split; [reflexivity|]. exists gs, ts, p. rewrite Cg. now repeat split; try assumption; apply P.
Qed.
Theorem mime_listing : forall cache, text_named cache -> cleanly cache -> cache <> [] ->
  exists t, ListMimeInfo sort cache = Ok (Some t) /\ listing row_of_mime (b "Type                   Description") cache t.
Proof.
  intros cache T C Ne. destruct (info_listing cache T C Ne) as (r & p & E & P & Pm & So & V). unfold ListMimeInfo. rewrite E. cbn [bind].
  destruct (rows_listing (b "Type                   Description") mime_row row_of_mime r) as (gs & ts & Cg & Nd & F & R).
  - eapply Forall_impl; [|exact V]. intros e (S & Z & n & N). split; [exact S|]. split; [exact Z|]. exact (mime_row_ok e n N).
  - exact So.
  - rewrite R. cbn [bind]. eexists. split; [reflexivity|]. exists gs, ts, p. rewrite Cg. now repeat split; try assumption; apply P.
Qed.
(** ** C231: REFUTED: one visible element without a type, and there is no listing; without any type nothing is said at all *)
Theorem untyped_refuted : forall l1 e l2, text_named l1 -> stealth e = false -> name e = None -> ListMimeInfo sort (l1 ++ e :: l2) = UB /\ ListConfigureInfo sort (l1 ++ e :: l2) = UB.
Proof.
  intros l1 e l2 T S Ne. assert (forall cache : list entry, l1 ++ e :: l2 <> []) as Nn by (intros; now destruct l1).
  assert (select star (l1 ++ e :: l2) = UB) as Sl.
  { induction T as [|x l1 (m & M & Tm) _ IH]; cbn [app select]; [now rewrite S, Ne|]. destruct (stealth x); [apply IH; now destruct l1|]. rewrite M.
    destruct (glob_matches false [Star] m [] [] ltac:(repeat constructor) ltac:(repeat constructor) Tm) as (y & G & _).
    change (glob_text [Star] ++ [0%N]) with (star ++ [0%N]) in G. rewrite G. cbn [bind]. rewrite IH by (now destruct l1). reflexivity. }
  unfold ListMimeInfo, ListConfigureInfo, GetConfigureInfoList. destruct (l1 ++ e :: l2) eqn:Q; [now destruct l1|]. rewrite Sl. now split.
Qed.
Theorem no_types_refuted : ListMimeInfo sort [] = Ok None.
Proof. reflexivity. Qed.
End Listings.
Print Assumptions configure_listing.
Print Assumptions mime_listing.
Print Assumptions untyped_refuted.

(** ** Examples *)
Definition sample : list entry := [{| path := b "/A"; name := Some (b "a"); stealth := false; value := Some (b "1") |};
  {| path := b "/a"; name := Some (b "b"); stealth := false; value := None |}; {| path := b "/b"; name := Some (b "c"); stealth := true; value := None |};
  {| path := b "/c"; name := Some (b "a-name-of-18-bytes"); stealth := false; value := Some (b "2") |}].
Example sample_ok : text_named sample /\ cleanly sample /\ sample <> [].
Proof.
  split; [|split; [|discriminate]]; repeat constructor; try discriminate; eexists; (split; [reflexivity|repeat constructor]).
Qed.
Example sample_rows : rows (b "Name          Value") (fun e => Ok (configure_row e)) None sample =
  Ok (title (b "Name          Value") (b "/A") ++ b "a             1" ++ [10%N] ++ b "b             unknown" ++ [10%N] ++
      title (b "Name          Value") (b "/c") ++ b "a-name-of-18-bytes 2" ++ [10%N]).
Proof. vm_compute. reflexivity. Qed.
