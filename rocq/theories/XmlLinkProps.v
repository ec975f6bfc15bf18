(** C94-C95: the children of an XML element can be found by tag and in order. *)
From Coq Require Import Arith NArith List Bool Lia Sorting.
From Verif Require Import Outcome XmlLinkModel XmlLinkSpec XmlLinkProof XmlLinkProof2 XmlLinkProof3.
Import ListNotations.

(** the children a history should leave *)
Definition kids_step (l : list kid) (x : op) : list kid :=
  match x with Add c t o => place (mkKid c t o) l | Cut c => without c l end.
Definition kids (l : list op) : list kid := fold_left kids_step l [].
(** what the functions find in a parent *)
Definition finds (fuel : nat) (s : parent) (l : list kid) : Prop :=
  collect fuel (cells s) ordered (child s) = Ok (map k_id l) /\
  collect fuel (cells s) sibling (child s) = Ok (firsts [] l) /\
  (forall t, GetXMLTreeChild fuel s t = Ok (hd_error (tagged t l))) /\
  (forall t, collect fuel (cells s) next (hd_error (tagged t l)) = Ok (tagged t l)).
(** the calls that are covered: a new child is not put before a first child with
    its own tag, and the pruned child is not the first of several with its tag *)
Definition covered (l : list kid) (x : op) : Prop :=
  match x with
  | Add c t o => ~ In c (map k_id l) /\ (forall k r, l = k :: r -> k_tag k = t -> k_offset k <= o)
  | Cut c => exists l1 k l2, l = l1 ++ k :: l2 /\ k_id k = c /\ (In (k_tag k) (map k_tag l1) \/ ~ In (k_tag k) (map k_tag l2))
  end.
Fixpoint all_covered (l : list kid) (h : list op) : Prop :=
  match h with [] => True | x :: h => covered l x /\ all_covered (kids_step l x) h end.

Lemma collect_ok h link l fuel : list_ok (L link h) l -> Forall (fun x => meta h x <> None) l -> length l < fuel -> collect fuel h link (hd_error l) = Ok l.
Proof.
  revert fuel. induction l as [|x l IH]; intros fuel H F U; (destruct fuel; [cbn in U; lia|]); [reflexivity|]. inversion F as [|? ? M F']; subst.
  cbn [collect hd_error]. destruct (meta h x) as [[t o]|] eqn:Mx; [|congruence]. destruct (meta_get _ _ _ _ Mx) as (n & G & _ & _ & Lk). rewrite G. cbn [bind].
  destruct H as [H1 H2]. rewrite Lk, H1, IH; [reflexivity|assumption|assumption|cbn in U; lia].
Qed.
Lemma rep_finds s l fuel : Rep s l -> length l < fuel -> finds fuel s l.
Proof.
  intros R U.
  assert (forall y, In y (ids l) -> meta (cells s) y <> None) as Ml by (intros y Y; apply in_map_iff in Y as (k' & <- & K); rewrite (r_meta _ _ R k' K); discriminate).
  split; [|split; [|split]].
  - rewrite (r_child _ _ R). apply collect_ok; [apply (r_ordered _ _ R)|apply Forall_forall; exact Ml|unfold ids; now rewrite map_length].
  - rewrite (r_child _ _ R), <- firsts_hd. apply collect_ok; [apply (r_sibling _ _ R)|apply Forall_forall; intros y Y; apply Ml; eapply firsts_incl, Y|].
    pose proof (firsts_length [] l). lia.
  - intros t. unfold GetXMLTreeChild. rewrite (r_child _ _ R), <- firsts_hd. pose proof (firsts_drop [] t l (fun q => q)) as Fd. pose proof (firsts_length [] l) as Lf.
    assert (forall f1 f2, firsts [t] l = f1 ++ f2 -> Forall (known (cells s) (fun t' _ => t' <> t)) f1) as Ft.
    { intros f1 f2 E. apply Forall_forall. intros x X. assert (In x (firsts [t] l)) as Y by (rewrite E; apply in_or_app; now left).
      apply firsts_in in Y as (k & K & <- & Nt). exists (k_tag k), (k_offset k). split; [now apply (r_meta _ _ R)|]. intros Q. apply Nt. now left. }
    destruct (tagged t l) as [|x r] eqn:Tx.
    + replace fuel with (length (firsts [] l) + (fuel - length (firsts [] l))) by lia. rewrite <- (app_nil_r (firsts [] l)) at 3.
      rewrite find_tag_skip; [|rewrite app_nil_r; apply (r_sibling _ _ R)|apply (Ft _ []); now rewrite app_nil_r].
      cbn [hd_error]. rewrite find_tag_end by lia. reflexivity.
    + destruct Fd as (f1 & f2 & E1 & E2). rewrite E1, app_length in Lf. cbn [length] in Lf. rewrite E1.
      replace fuel with (length f1 + (fuel - length f1)) by lia. pose proof (r_sibling _ _ R) as Rs. rewrite E1 in Rs.
      rewrite find_tag_skip; [|exact Rs|now apply (Ft f1 f2)]. cbn [hd_error].
      assert (In x (tagged t l)) as I by (rewrite Tx; now left). apply tagged_in in I as (k & K & <- & <-).
      rewrite (find_tag_hit _ _ _ _ (k_offset k)) by (try apply (r_meta _ _ R k K); lia). reflexivity.
  - intros t. apply collect_ok; [apply (r_next _ _ R)| |pose proof (tagged_length t l); lia].
    apply Forall_forall. intros y Y. apply Ml. apply tagged_in in Y as (k & K & _ & <-). now apply in_map.
Qed.
Lemma place_length k l : length (place k l) = S (length l).
Proof. induction l as [|x l IH]; [reflexivity|]. cbn [place]. destruct (_ <=? _); cbn [length]; [now rewrite IH|reflexivity]. Qed.
Lemma without_length c l : length (without c l) <= length l.
Proof. unfold without. induction l as [|x l IH]; cbn [filter length]; [lia|]. destruct (negb _); cbn [length]; lia. Qed.
Lemma steps_ok fuel h : forall s l, Rep s l -> all_covered l h -> length l + length h < fuel ->
  exists s', fold_outcome (step fuel) h s = Ok s' /\ Rep s' (fold_left kids_step h l).
Proof.
  induction h as [|x h IH]; intros s l R C U; [now exists s|]. destruct C as [C1 C2]. cbn [length] in U. cbn [fold_outcome fold_left].
  destruct x as [c t o|c]; cbn [step kids_step] in *.
  - destruct C1 as [C1 C1']. destruct (add_child_ok s l c t o fuel R C1) as (s1 & E & R1); [lia| |].
    { unfold add_ok. destruct l as [|k r]; [exact I|]. intros Q. now apply (C1' k r). }
    rewrite E. cbn [bind]. apply IH; [exact R1|exact C2|rewrite place_length; lia].
  - destruct C1 as (l1 & k & l2 & -> & <- & A). destruct (prune_ok s l1 k l2 fuel R) as (s1 & E & R1); [lia|exact A|].
    rewrite E. cbn [bind]. rewrite (without_split (k_id k) l1 k l2) in *; [|apply (r_nodup _ _ R)|reflexivity|apply (r_nodup _ _ R)|reflexivity].
    apply IH; [exact R1|exact C2|]. rewrite app_length in *. cbn [length] in U. lia.
Qed.
Lemma empty_rep : Rep (mkParent (fun _ => None) None) [].
Proof. split; cbn; try constructor; intros; try contradiction; try reflexivity; exact I. Qed.

(** * C94, C95 *)
Theorem children_found_partial h fuel : all_covered [] h -> length h < fuel ->
  exists s, run fuel h = Ok s /\ finds fuel s (kids h).
Proof.
  intros C U. destruct (steps_ok fuel h (mkParent (fun _ => None) None) [] empty_rep C) as (s & E & R); [cbn; lia|]. exists s. split; [exact E|].
  apply rep_finds; [exact R|]. assert (forall h l, length (fold_left kids_step h l) <= length l + length h) as G.
  { clear. induction h as [|x h IH]; intros l; cbn [fold_left length]; [lia|]. eapply Nat.le_trans; [apply IH|]. destruct x; cbn [kids_step]; [rewrite place_length|pose proof (without_length c l)]; lia. }
  specialize (G h []). cbn in G. unfold kids. lia.
Qed.
Print Assumptions children_found_partial.
(** children as the parser adds them, each at the end: no condition but fresh addresses *)
Corollary children_parsed h fuel : NoDup (map (fun x => fst (fst x)) h) -> Sorted le (map snd h) -> length h < fuel ->
  exists s, run fuel (map (fun x => Add (fst (fst x)) (snd (fst x)) (snd x)) h) = Ok s /\
  finds fuel s (map (fun x => mkKid (fst (fst x)) (snd (fst x)) (snd x)) h).
Proof.
  intros D S U. apply Sorted_StronglySorted in S; [|exact Nat.le_trans]. set (K := fun x : nat * list N * nat => mkKid (fst (fst x)) (snd (fst x)) (snd x)).
  assert (forall k l, Forall (fun y => k_offset y <= k_offset k) l -> place k l = l ++ [k]) as P.
  { intros k l. induction 1 as [|y l H _ IH]; [reflexivity|]. cbn [place]. rewrite (proj2 (Nat.leb_le _ _) H), IH. reflexivity. }
  assert (forall h2 h1, NoDup (map (fun x => fst (fst x)) (h1 ++ h2)) -> StronglySorted le (map snd (h1 ++ h2)) ->
    all_covered (map K h1) (map (fun x => Add (fst (fst x)) (snd (fst x)) (snd x)) h2) /\
    fold_left kids_step (map (fun x => Add (fst (fst x)) (snd (fst x)) (snd x)) h2) (map K h1) = map K (h1 ++ h2)) as G.
  { clear - P. induction h2 as [|x h2 IH]; intros h1 D S; [split; [exact I|]; now rewrite app_nil_r|]. cbn [map all_covered fold_left].
    assert (Forall (fun y => k_offset y <= snd x) (map K h1)) as F.
    { rewrite map_app in S. cbn [map] in S. clear - S. induction h1 as [|y h1 IH]; [constructor|]. cbn [map app] in *. inversion S as [|? ? S1 S2]; subst. constructor; [|now apply IH].
      apply Forall_app in S2 as [_ S2]. inversion S2; subst. assumption. }
    assert (kids_step (map K h1) (Add (fst (fst x)) (snd (fst x)) (snd x)) = map K (h1 ++ [x])) as E.
    { cbn [kids_step]. rewrite map_app. now apply (P (K x)). }
    rewrite E. destruct (IH (h1 ++ [x])) as [C L2]; [now rewrite <- app_assoc|now rewrite <- app_assoc|]. rewrite <- app_assoc in L2. split; [|exact L2]. split; [|exact C].
    split.
    - rewrite map_app in D. cbn [map] in D. apply NoDup_remove_2 in D. intros Q. apply D. apply in_or_app. left. rewrite map_map in Q. exact Q.
    - intros k r Q _. rewrite Q in F. now inversion F. }
  destruct (G h [] D S) as [C E]. destruct (children_found_partial (map (fun x => Add (fst (fst x)) (snd (fst x)) (snd x)) h) fuel C) as (s & R & Fi); [now rewrite map_length|].
  exists s. split; [exact R|]. unfold kids in Fi. cbn [map app] in E. now rewrite E in Fi.
Qed.
Print Assumptions children_parsed.
Definition B : list N := [98%N].
Definition C : list N := [99%N].
Definition some_history : list op := [Add 1 B 4; Add 2 C 4; Add 3 C 0; Add 4 B 6; Add 5 C 2; Cut 4; Cut 2; Cut 1].
Example children_found_ex : all_covered [] some_history /\ map k_id (kids some_history) = [3; 5] /\
  map k_id (kids (firstn 5 some_history)) = [3; 5; 1; 2; 4].
Proof.
  split; [|split; reflexivity].
  assert (forall l1 k l2, In (k_tag k) (map k_tag l1) \/ ~ In (k_tag k) (map k_tag l2) -> covered (l1 ++ k :: l2) (Cut (k_id k))) as G by (intros l1 k l2 H; now exists l1, k, l2).
  cbn [some_history all_covered]. repeat (split; [split; [cbn; intuition discriminate|cbn; intros k r Q; try discriminate Q; injection Q as <- _; cbn; intros; first [lia|discriminate]]|]).
  split; [apply (G [mkKid 3 C 0; mkKid 5 C 2; mkKid 1 B 4; mkKid 2 C 4] (mkKid 4 B 6) []); right; cbn; tauto|].
  split; [apply (G [mkKid 3 C 0; mkKid 5 C 2; mkKid 1 B 4] (mkKid 2 C 4) []); right; cbn; tauto|].
  split; [apply (G [mkKid 3 C 0; mkKid 5 C 2] (mkKid 1 B 4) []); right; cbn; tauto|]. exact I.
Qed.

(** * C95: what the code does in the other cases *)
(** pruning the first of two children with the same tag loses the other one *)
Theorem pruned_first_refuted :
  let h := [Add 1 B 0; Add 2 C 0; Add 3 B 0; Cut 1] in
  exists s, run 9 h = Ok s /\ tagged B (kids h) = [3] /\ GetXMLTreeChild 9 s B = Ok None.
Proof. eexists. split; [reflexivity|]. split; reflexivity. Qed.
Print Assumptions pruned_first_refuted.
(** a child put before a first child with its tag makes that one its own sibling
    when it is pruned: looking up any other tag then never ends *)
Theorem pruned_endless_refuted :
  exists s, run 9 [Add 1 B 1; Add 2 B 0; Cut 2] = Ok s /\ kids [Add 1 B 1; Add 2 B 0; Cut 2] = [mkKid 1 B 1] /\
  forall fuel, GetXMLTreeChild fuel s C = Fatal.
Proof.
  assert (forall h n, h 1 = Some n -> tag n = B -> sibling n = Some 1 -> forall fuel p, find_tag fuel h C p (Some 1) = Fatal) as G.
  { intros h n E T S. induction fuel as [|fuel IH]; intros p; [reflexivity|]. cbn [find_tag]. unfold get. rewrite E. cbn [bind]. rewrite T, S. apply IH. }
  eexists. split; [reflexivity|]. split; [reflexivity|]. intros fuel. unfold GetXMLTreeChild. cbn [child cells].
  erewrite G; [reflexivity|reflexivity|reflexivity|reflexivity].
Qed.
Print Assumptions pruned_endless_refuted.
(** already before that, the list of siblings shows the tag twice *)
Theorem sibling_twice_refuted :
  exists s, run 9 [Add 1 B 1; Add 2 B 0] = Ok s /\ collect 9 (cells s) sibling (child s) = Ok [2; 1] /\ firsts [] (kids [Add 1 B 1; Add 2 B 0]) = [2].
Proof. eexists. split; [reflexivity|]. split; reflexivity. Qed.
Print Assumptions sibling_twice_refuted.
