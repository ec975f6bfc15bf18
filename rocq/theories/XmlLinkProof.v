(** The three lists threaded through the children of an element. *)
From Coq Require Import Arith NArith List Bool Lia Sorting.
From Verif Require Import Outcome XmlLinkModel XmlLinkSpec.
Import ListNotations.

(** * The heap as functions *)
Definition L (link : node -> option nat) (h : heap) (x : nat) : option nat := match h x with Some n => link n | None => None end.
Definition meta (h : heap) (x : nat) : option (list N * nat) := match h x with Some n => Some (tag n, offset n) | None => None end.

Lemma meta_get h x t o : meta h x = Some (t, o) -> exists n, get h x = Ok n /\ tag n = t /\ offset n = o /\ forall link, link n = L link h x.
Proof. unfold meta, get, L. destruct (h x) as [n|]; [|discriminate]. intros [= <- <-]. now exists n. Qed.

Record same_but (h h' : heap) (n s d : nat -> option nat) : Prop := {
  sb_meta : forall x, meta h' x = meta h x;
  sb_next : forall x, L next h' x = n x;
  sb_sibling : forall x, L sibling h' x = s x;
  sb_ordered : forall x, L ordered h' x = d x }.
Definition upd (f : nat -> option nat) (p : nat) (v : option nat) : nat -> option nat := fun x => if x =? p then v else f x.
Lemma upd_same f p v : upd f p v p = v.
Proof. unfold upd. now rewrite Nat.eqb_refl. Qed.
Lemma upd_other f p v x : x <> p -> upd f p v x = f x.
Proof. intros H. unfold upd. destruct (Nat.eqb_spec x p); congruence. Qed.

Lemma set_next_ok h p v : meta h p <> None ->
  exists h', set_next h p v = Ok h' /\ same_but h h' (upd (L next h) p v) (L sibling h) (L ordered h).
Proof.
  unfold set_next, get, meta. destruct (h p) as [n|] eqn:E; [|congruence]. intros _. eexists. split; [reflexivity|].
  split; intros x; unfold L, meta, put, upd; destruct (Nat.eqb_spec x p) as [->|]; rewrite ?E; reflexivity.
Qed.
Lemma set_sibling_ok h p v : meta h p <> None ->
  exists h', set_sibling h p v = Ok h' /\ same_but h h' (L next h) (upd (L sibling h) p v) (L ordered h).
Proof.
  unfold set_sibling, get, meta. destruct (h p) as [n|] eqn:E; [|congruence]. intros _. eexists. split; [reflexivity|].
  split; intros x; unfold L, meta, put, upd; destruct (Nat.eqb_spec x p) as [->|]; rewrite ?E; reflexivity.
Qed.
Lemma set_ordered_ok h p v : meta h p <> None ->
  exists h', set_ordered h p v = Ok h' /\ same_but h h' (L next h) (L sibling h) (upd (L ordered h) p v).
Proof.
  unfold set_ordered, get, meta. destruct (h p) as [n|] eqn:E; [|congruence]. intros _. eexists. split; [reflexivity|].
  split; intros x; unfold L, meta, put, upd; destruct (Nat.eqb_spec x p) as [->|]; rewrite ?E; reflexivity.
Qed.
Lemma put_view h c t o : forall x, meta (put h c (mkNode t o None None None)) x = if x =? c then Some (t, o) else meta h x.
Proof. intros x. unfold meta, put. now destruct (Nat.eqb_spec x c). Qed.
Lemma put_link h c t o link : link (mkNode t o None None None) = None ->
  forall x, L link (put h c (mkNode t o None None None)) x = upd (L link h) c None x.
Proof. intros E x. unfold L, put, upd. now destruct (Nat.eqb_spec x c). Qed.

(** * Lists *)
Fixpoint list_ok (f : nat -> option nat) (l : list nat) : Prop :=
  match l with [] => True | x :: r => f x = hd_error r /\ list_ok f r end.
Lemma list_ok_ext f g l : (forall x, In x l -> g x = f x) -> list_ok f l -> list_ok g l.
Proof.
  induction l as [|x l IH]; intros E H; [exact I|]. destruct H as [H1 H2]. split; [rewrite E; [assumption|now left]|].
  apply IH; [|assumption]. intros y Y. apply E. now right.
Qed.
Lemma list_ok_app_r f l1 l2 : list_ok f (l1 ++ l2) -> list_ok f l2.
Proof. induction l1 as [|x l1 IH]; intros H; [assumption|]. apply IH, H. Qed.
Lemma list_ok_after f g a p c r : list_ok f (a ++ p :: r) -> g p = Some c -> g c = hd_error r ->
  (forall x, In x a \/ In x r -> g x = f x) -> list_ok g (a ++ p :: c :: r).
Proof.
  induction a as [|x a IH]; intros H P C E.
  - destruct H as [_ H]. repeat split; [assumption|assumption|]. eapply list_ok_ext; [|exact H]. intros y Y. apply E. now right.
  - destruct H as [H1 H2]. split.
    + rewrite E by (left; now left). rewrite H1. now destruct a.
    + apply IH; try assumption. intros y Y. apply E. destruct Y; [left; now right|now right].
Qed.
Lemma list_ok_remove f g a p c r : list_ok f (a ++ p :: c :: r) -> g p = f c ->
  (forall x, In x a \/ In x r -> g x = f x) -> list_ok g (a ++ p :: r).
Proof.
  induction a as [|x a IH]; intros H P E.
  - destruct H as (_ & C & H). split; [congruence|]. eapply list_ok_ext; [|exact H]. intros y Y. apply E. now right.
  - destruct H as [H1 H2]. split.
    + rewrite E by (left; now left). rewrite H1. now destruct a.
    + apply IH; try assumption. intros y Y. apply E. destruct Y; [left; now right|now right].
Qed.
Lemma list_ok_at f a p r : list_ok f (a ++ p :: r) -> f p = hd_error r.
Proof. intros H. apply list_ok_app_r in H. apply H. Qed.

Definition lastof (d : option nat) (l : list nat) : option nat := last (map Some l) d.
Lemma lastof_cons d x l : lastof d (x :: l) = lastof (Some x) l.
Proof. unfold lastof. cbn [map]. destruct l as [|y l]; [reflexivity|]. change (last (Some x :: map Some (y :: l)) d) with (last (map Some (y :: l)) d). cbn [map]. revert y. induction l as [|z l IH]; intros y; [reflexivity|]. cbn [map last] in *. apply IH. Qed.
Lemma lastof_app d l x : lastof d (l ++ [x]) = Some x.
Proof. revert d. induction l as [|y l IH]; intros d; [reflexivity|]. cbn [app]. rewrite lastof_cons. apply IH. Qed.
Lemma split_last {A} (l : list A) : l <> [] -> exists a p, l = a ++ [p].
Proof. intros H. destruct (exists_last H) as (a & p & ->). now exists a, p. Qed.

(** * The loops *)
Definition known (h : heap) (P : list N -> nat -> Prop) (x : nat) : Prop := exists t o, meta h x = Some (t, o) /\ P t o.
Lemma find_tag_skip h t f1 r : forall prev fuel, list_ok (L sibling h) (f1 ++ r) -> Forall (known h (fun t' _ => t' <> t)) f1 ->
  find_tag (length f1 + fuel) h t prev (hd_error (f1 ++ r)) = find_tag fuel h t (lastof prev f1) (hd_error r).
Proof.
  induction f1 as [|x f1 IH]; intros prev fuel H F; [reflexivity|]. inversion F as [|? ? (t' & o & M & N) F']; subst.
  destruct (meta_get _ _ _ _ M) as (n & G & T & _ & Lk). cbn [length plus app hd_error find_tag]. rewrite G. cbn [bind].
  unfold tag_eq. destruct (list_eq_dec N.eq_dec (tag n) t) as [Q|_]; [congruence|]. destruct H as [H1 H2]. rewrite Lk, H1, IH by assumption.
  now rewrite lastof_cons.
Qed.
Lemma find_tag_hit h t prev x o fuel : meta h x = Some (t, o) -> 0 < fuel -> find_tag fuel h t prev (Some x) = Ok (prev, Some x).
Proof.
  intros M F. destruct fuel; [lia|]. destruct (meta_get _ _ _ _ M) as (n & G & T & _). cbn [find_tag]. rewrite G. cbn [bind].
  unfold tag_eq. destruct (list_eq_dec N.eq_dec (tag n) t); [reflexivity|congruence].
Qed.
Lemma find_tag_end h t prev fuel : 0 < fuel -> find_tag fuel h t prev None = Ok (prev, None).
Proof. destruct fuel; [lia|reflexivity]. Qed.
Lemma find_offset_skip h o f1 r : forall prev fuel, list_ok (L sibling h) (f1 ++ r) -> Forall (known h (fun _ o' => o' <= o)) f1 ->
  find_offset (length f1 + fuel) h o prev (hd_error (f1 ++ r)) = find_offset fuel h o (lastof prev f1) (hd_error r).
Proof.
  induction f1 as [|x f1 IH]; intros prev fuel H F; [reflexivity|]. inversion F as [|? ? (t & o' & M & N) F']; subst.
  destruct (meta_get _ _ _ _ M) as (n & G & _ & T & Lk). cbn [length plus app hd_error find_offset]. rewrite G. cbn [bind].
  rewrite T, (proj2 (Nat.leb_le _ _) N). destruct H as [H1 H2]. rewrite Lk, H1, IH by assumption. now rewrite lastof_cons.
Qed.
Lemma find_offset_stop h o prev r fuel : Forall (known h (fun _ o' => o < o')) r -> 0 < fuel ->
  find_offset fuel h o prev (hd_error r) = Ok (prev, hd_error r).
Proof.
  intros F U. destruct fuel; [lia|]. destruct r as [|x r]; [reflexivity|]. inversion F as [|? ? (t & o' & M & N) _]; subst.
  destruct (meta_get _ _ _ _ M) as (n & G & _ & T & _). cbn [find_offset hd_error]. rewrite G. cbn [bind]. rewrite T.
  destruct (Nat.leb_spec o' o); [lia|reflexivity].
Qed.
Lemma last_before_ok h link o l1 r : forall p fuel, list_ok (L link h) (p :: l1 ++ r) -> meta h p <> None ->
  Forall (known h (fun _ o' => o' <= o)) l1 -> Forall (known h (fun _ o' => o < o')) r -> length l1 < fuel ->
  last_before fuel h link o p = Ok (last l1 p).
Proof.
  induction l1 as [|x l1 IH]; intros p fuel H P F1 F2 U; (destruct fuel; [cbn in U; lia|]); cbn [last_before];
    destruct (meta h p) as [[tp op]|] eqn:M; try congruence; destruct (meta_get _ _ _ _ M) as (n & G & _ & _ & Lk); rewrite G; cbn [bind]; rewrite Lk.
  - destruct H as [H _]. cbn [app] in H. rewrite H. destruct r as [|y r]; [reflexivity|]. cbn [hd_error].
    inversion F2 as [|? ? (t' & o' & M' & N) _]; subst. destruct (meta_get _ _ _ _ M') as (m & G' & _ & T & _). rewrite G'. cbn [bind]. rewrite T.
    destruct (Nat.leb_spec o' o); [lia|reflexivity].
  - destruct H as [H H']. cbn [app hd_error] in H. rewrite H. inversion F1 as [|? ? (t' & o' & M' & N) F1']; subst.
    destruct (meta_get _ _ _ _ M') as (m & G' & _ & T & _). rewrite G'. cbn [bind]. rewrite T, (proj2 (Nat.leb_le _ _) N).
    cbn [length] in U. rewrite IH; [|exact H'|congruence|assumption|assumption|lia]. destruct l1 as [|z l1]; [reflexivity|]. f_equal. change (last (x :: z :: l1) p) with (last (z :: l1) p). clear. revert z. induction l1 as [|w l1 IHl]; intros z; [reflexivity|]. apply IHl.
Qed.
Lemma before_ordered_ok h c r a p : forall q fuel, list_ok (L ordered h) (a ++ p :: c :: r) -> hd_error (a ++ [p]) = Some q -> NoDup (a ++ p :: c :: r) ->
  Forall (fun x => meta h x <> None) (a ++ [p]) -> length a < fuel -> before_ordered fuel h c q = Ok p.
Proof.
  induction a as [|x a IH]; intros q fuel H Q D F U; (destruct fuel; [cbn in U; lia|]); cbn [before_ordered]; inversion F as [|? ? M F']; subst;
    cbn [app hd_error] in Q; injection Q as <-.
  - destruct (meta h p) as [[tp op]|] eqn:Mp; [|congruence]. destruct (meta_get _ _ _ _ Mp) as (n & G & _ & _ & Lk). rewrite G. cbn [bind]. rewrite Lk.
    destruct H as [H _]. rewrite H. cbn [hd_error]. now rewrite Nat.eqb_refl.
  - destruct (meta h x) as [[tp op]|] eqn:Mp; [|congruence]. destruct (meta_get _ _ _ _ Mp) as (n & G & _ & _ & Lk). rewrite G. cbn [bind]. rewrite Lk.
    destruct H as [H H']. rewrite H. cbn [length] in U. inversion D as [|? ? D1 D2]; subst.
    destruct (hd_error (a ++ [p])) as [y|] eqn:Y; [|destruct a; discriminate].
    assert (hd_error (a ++ p :: c :: r) = Some y) as -> by (destruct a; cbn in *; congruence).
    destruct (Nat.eqb_spec y c) as [->|_]; [|apply IH; [exact H'|reflexivity|exact D2|exact F'|lia]].
    exfalso. assert (In c (a ++ [p])) by (destruct a; cbn in *; injection Y as ->; now left).
    replace (a ++ p :: c :: r) with ((a ++ [p]) ++ c :: r) in D2 by (now rewrite <- app_assoc). apply NoDup_remove_2 in D2. apply D2. apply in_or_app. now left.
Qed.
Lemma before_next_ok h c r a p : forall q fuel, list_ok (L next h) (a ++ p :: c :: r) -> hd_error (a ++ [p]) = Some q -> NoDup (a ++ p :: c :: r) ->
  Forall (fun x => meta h x <> None) (a ++ [p]) -> length a < fuel -> before_next fuel h c q = Ok p.
Proof.
  induction a as [|x a IH]; intros q fuel H Q D F U; (destruct fuel; [cbn in U; lia|]); cbn [before_next]; inversion F as [|? ? M F']; subst;
    cbn [app hd_error] in Q; injection Q as <-.
  - destruct (meta h p) as [[tp op]|] eqn:Mp; [|congruence]. destruct (meta_get _ _ _ _ Mp) as (n & G & _ & _ & Lk). rewrite G. cbn [bind]. rewrite Lk.
    destruct H as [H _]. rewrite H. cbn [hd_error]. now rewrite Nat.eqb_refl.
  - destruct (meta h x) as [[tp op]|] eqn:Mp; [|congruence]. destruct (meta_get _ _ _ _ Mp) as (n & G & _ & _ & Lk). rewrite G. cbn [bind]. rewrite Lk.
    destruct H as [H H']. rewrite H. cbn [length] in U. inversion D as [|? ? D1 D2]; subst.
    destruct (hd_error (a ++ [p])) as [y|] eqn:Y; [|destruct a; discriminate].
    assert (hd_error (a ++ p :: c :: r) = Some y) as -> by (destruct a; cbn in *; congruence).
    destruct (Nat.eqb_spec y c) as [->|_]; [|apply IH; [exact H'|reflexivity|exact D2|exact F'|lia]].
    exfalso. assert (In c (a ++ [p])) by (destruct a; cbn in *; injection Y as ->; now left).
    replace (a ++ p :: c :: r) with ((a ++ [p]) ++ c :: r) in D2 by (now rewrite <- app_assoc). apply NoDup_remove_2 in D2. apply D2. apply in_or_app. now left.
Qed.
(** not there: the loop runs to the end *)
Lemma before_next_absent h c l : forall q fuel, list_ok (L next h) (q :: l) -> ~ In c l ->
  Forall (fun x => meta h x <> None) (q :: l) -> length l < fuel -> before_next fuel h c q = Ok (last l q) /\ L next h (last l q) = None.
Proof.
  induction l as [|x l IH]; intros q fuel H D F U; (destruct fuel; [cbn in U; lia|]); cbn [before_next]; inversion F as [|? ? M F']; subst;
    destruct (meta h q) as [[tp op]|] eqn:Mp; try congruence; destruct (meta_get _ _ _ _ Mp) as (n & G & _ & _ & Lk); rewrite G; cbn [bind]; rewrite Lk; destruct H as [H H']; rewrite H.
  - split; [reflexivity|exact H].
  - cbn [hd_error]. destruct (Nat.eqb_spec x c) as [->|_]; [exfalso; apply D; now left|]. cbn [length] in U.
    destruct (IH x fuel) as [R1 R2]; [assumption|intros K; apply D; now right|assumption|lia|]. rewrite R1.
    assert (last (x :: l) q = last l x) as -> by (clear; destruct l as [|z l]; [reflexivity|]; change (last (x :: z :: l) q) with (last (z :: l) q); revert z; induction l as [|w l IHl]; intros z; [reflexivity|apply IHl]).
    now split.
Qed.
Lemma before_tag_ok h t f r a p : forall q fuel o, list_ok (L sibling h) (a ++ p :: f :: r) -> hd_error (a ++ [p]) = Some q ->
  Forall (known h (fun t' _ => t' <> t)) (a ++ [p]) -> meta h f = Some (t, o) -> length a < fuel -> before_tag fuel h t q = Ok p.
Proof.
  induction a as [|x a IH]; intros q fuel o H Q F Mf U; (destruct fuel; [cbn in U; lia|]); cbn [before_tag]; inversion F as [|? ? (t' & o' & M & N) F']; subst;
    cbn [app hd_error] in Q; injection Q as <-; destruct (meta_get _ _ _ _ M) as (n & G & _ & _ & Lk); rewrite G; cbn [bind]; rewrite Lk; destruct H as [H H']; rewrite H.
  - cbn [hd_error]. destruct (meta_get _ _ _ _ Mf) as (m & G' & T & _). rewrite G'. cbn [bind]. unfold tag_eq. destruct (list_eq_dec N.eq_dec (tag m) t); [reflexivity|congruence].
  - destruct (hd_error (a ++ [p])) as [y|] eqn:Y; [|destruct a; discriminate].
    assert (hd_error (a ++ p :: f :: r) = Some y) as -> by (destruct a; cbn in *; congruence). cbn [length] in U.
    assert (known h (fun t' _ => t' <> t) y) as (t2 & o2 & M2 & N2) by (destruct a; cbn in Y; injection Y as ->; now inversion F').
    destruct (meta_get _ _ _ _ M2) as (m & G' & T & _). rewrite G'. cbn [bind]. unfold tag_eq. destruct (list_eq_dec N.eq_dec (tag m) t); [congruence|].
    eapply IH; [exact H'|reflexivity|exact F'|exact Mf|lia].
Qed.

(** * The children *)
Definition ids (l : list kid) : list nat := map k_id l.
Definition tags (l : list kid) : list (list N) := map k_tag l.
Lemma firsts_ext seen seen' l : (forall t, In t seen <-> In t seen') -> firsts seen l = firsts seen' l.
Proof.
  revert seen seen'. induction l as [|k l IH]; intros seen seen' E; [reflexivity|]. cbn [firsts].
  destruct (in_dec _ _ seen) as [I|I], (in_dec _ _ seen') as [J|J]; [now apply IH|exfalso; apply J; now apply E|exfalso; apply I; now apply E|].
  f_equal. apply IH. intros t. cbn. now rewrite E.
Qed.
Lemma firsts_app seen l1 l2 : firsts seen (l1 ++ l2) = firsts seen l1 ++ firsts (tags l1 ++ seen) l2.
Proof.
  revert seen. induction l1 as [|k l1 IH]; intros seen; [reflexivity|]. cbn [app firsts tags map].
  destruct (in_dec _ _ seen) as [I|I].
  - rewrite IH. f_equal. apply firsts_ext. intros t. cbn. rewrite !in_app_iff. intuition (subst; auto).
  - cbn [app]. f_equal. rewrite IH. f_equal. apply firsts_ext. intros t. cbn. rewrite !in_app_iff. cbn. intuition.
Qed.
Lemma firsts_in seen l x : In x (firsts seen l) -> exists k, In k l /\ k_id k = x /\ ~ In (k_tag k) seen.
Proof.
  revert seen. induction l as [|k l IH]; intros seen; cbn [firsts]; [intros []|].
  destruct (in_dec _ _ seen) as [I|I].
  - intros H. destruct (IH _ H) as (k' & K & E & N). exists k'. split; [now right|now split].
  - intros [H|H]; [exists k; split; [now left|now split]|]. destruct (IH _ H) as (k' & K & E & N). exists k'. split; [now right|]. split; [assumption|]. intros Q. apply N. now right.
Qed.
Lemma firsts_incl seen l : incl (firsts seen l) (ids l).
Proof. intros x H. destruct (firsts_in _ _ _ H) as (k & K & <- & _). now apply in_map. Qed.
Lemma firsts_nodup seen l : NoDup (ids l) -> NoDup (firsts seen l).
Proof.
  revert seen. induction l as [|k l IH]; intros seen H; [constructor|]. inversion H; subst. cbn [firsts]. destruct (in_dec _ _ seen); [now apply IH|].
  constructor; [|now apply IH]. intros K. now apply firsts_incl in K.
Qed.
Lemma firsts_hd l : hd_error (firsts [] l) = hd_error (ids l).
Proof. now destruct l. Qed.
Lemma firsts_length seen l : length (firsts seen l) <= length l.
Proof. revert seen. induction l as [|k l IH]; intros seen; cbn [firsts length]; [lia|]. destruct (in_dec _ _ seen); cbn [length]; [specialize (IH seen)|specialize (IH (k_tag k :: seen))]; lia. Qed.
Lemma same_tag_spec t k : same_tag t k = true <-> k_tag k = t.
Proof. unfold same_tag. destruct (list_eq_dec N.eq_dec (k_tag k) t); split; intros; try congruence; discriminate. Qed.
Lemma tagged_app t l1 l2 : tagged t (l1 ++ l2) = tagged t l1 ++ tagged t l2.
Proof. unfold tagged. now rewrite filter_app, map_app. Qed.
Lemma tagged_in t l x : In x (tagged t l) <-> exists k, In k l /\ k_tag k = t /\ k_id k = x.
Proof.
  unfold tagged. rewrite in_map_iff. split.
  - intros (k & E & K). apply filter_In in K as [K T]. apply same_tag_spec in T. now exists k.
  - intros (k & K & T & E). exists k. split; [assumption|]. apply filter_In. split; [assumption|]. now apply same_tag_spec.
Qed.
Lemma tagged_nil t l : ~ In t (tags l) -> tagged t l = [].
Proof.
  intros H. destruct (tagged t l) as [|x r] eqn:E; [reflexivity|]. exfalso. assert (In x (tagged t l)) as I by (rewrite E; now left).
  apply tagged_in in I as (k & K & <- & _). apply H. now apply in_map.
Qed.
Lemma tagged_cons_in t l : In t (tags l) -> exists x r, tagged t l = x :: r.
Proof.
  intros H. apply in_map_iff in H as (k & E & K). assert (In (k_id k) (tagged t l)) as I by (apply tagged_in; now exists k).
  destruct (tagged t l) as [|x r]; [destruct I|]. now exists x, r.
Qed.
Lemma tagged_nodup t l : NoDup (ids l) -> NoDup (tagged t l).
Proof.
  induction l as [|k l IH]; intros H; [constructor|]. inversion H; subst. unfold tagged. cbn [filter]. destruct (same_tag t k); [|now apply IH].
  cbn [map]. constructor; [|now apply IH]. intros K. apply tagged_in in K as (k' & K & _ & E). apply H2. rewrite <- E. now apply in_map.
Qed.
Lemma tagged_length t l : length (tagged t l) <= length l.
Proof. unfold tagged. rewrite map_length. induction l as [|k l IH]; cbn [filter length]; [lia|]. destruct (same_tag t k); cbn [length]; lia. Qed.
(** dropping the first child of a tag from the first children *)
Lemma firsts_drop seen t l : ~ In t seen ->
  match tagged t l with
  | [] => firsts (t :: seen) l = firsts seen l
  | x :: _ => exists f1 f2, firsts seen l = f1 ++ x :: f2 /\ firsts (t :: seen) l = f1 ++ f2
  end.
Proof.
  revert seen. induction l as [|k l IH]; intros seen Hs; [reflexivity|]. unfold tagged. cbn [filter].
  destruct (same_tag t k) eqn:T.
  - apply same_tag_spec in T. cbn [map firsts]. exists [], (firsts (k_tag k :: seen) l). rewrite T.
    destruct (in_dec _ t seen) as [I|I]; [tauto|]. destruct (in_dec _ t (t :: seen)) as [J|J]; [|exfalso; apply J; now left]. now split.
  - assert (k_tag k <> t) as Ne by (intros Q; apply same_tag_spec in Q; congruence). fold (tagged t l). cbn [firsts].
    destruct (in_dec _ (k_tag k) seen) as [I|I], (in_dec _ (k_tag k) (t :: seen)) as [J|J].
    + apply (IH seen Hs).
    + exfalso. apply J. now right.
    + destruct J; [congruence|tauto].
    + assert (~ In t (k_tag k :: seen)) as Hs' by (intros [Q|Q]; [congruence|tauto]). specialize (IH _ Hs').
      assert (firsts (k_tag k :: t :: seen) l = firsts (t :: k_tag k :: seen) l) as -> by (apply firsts_ext; cbn; intuition).
      destruct (tagged t l) as [|x r]; [now rewrite IH|]. destruct IH as (f1 & f2 & E1 & E2). exists (k_id k :: f1), f2. rewrite E1, E2. now split.
Qed.
Lemma kid_unique l k k' : NoDup (ids l) -> In k l -> In k' l -> k_id k = k_id k' -> k = k'.
Proof.
  induction l as [|x l IH]; intros D I J E; [destruct I|]. inversion D as [|? ? D1 D2]; subst.
  destruct I as [->|I], J as [->|J]; [reflexivity| | |now apply IH].
  - exfalso. apply D1. rewrite E. now apply in_map.
  - exfalso. apply D1. rewrite <- E. now apply in_map.
Qed.
(** an element that is not the first of its tag is not among the first children *)
Lemma firsts_not l t x a r : NoDup (ids l) -> tagged t l = a ++ x :: r -> a <> [] -> ~ In x (firsts [] l).
Proof.
  intros D T A H. pose proof (firsts_drop [] t l (fun q => q)) as F. pose proof (tagged_nodup t l D) as Dt. rewrite T in F, Dt.
  destruct a as [|y a]; [congruence|]. cbn [app] in F. destruct F as (f1 & f2 & E1 & E2).
  assert (x <> y) as Ne by (intros ->; inversion Dt; subst; apply H2; apply in_or_app; right; now left).
  assert (In x (firsts [t] l)) as I.
  { rewrite E2. rewrite E1 in H. apply in_app_or in H as [H|[H|H]]; [apply in_or_app; now left|congruence|apply in_or_app; now right]. }
  apply firsts_in in I as (k & K & <- & N). assert (In (k_id k) (tagged t l)) as I by (rewrite T; cbn; right; apply in_or_app; right; now left).
  apply tagged_in in I as (k' & K' & Tk & E). rewrite (kid_unique l k k') in N; [|assumption..|congruence]. apply N. now left.
Qed.

Record Rep (s : parent) (l : list kid) : Prop := {
  r_nodup : NoDup (ids l);
  r_meta : forall k, In k l -> meta (cells s) (k_id k) = Some (k_tag k, k_offset k);
  r_sorted : StronglySorted (fun a b => k_offset a <= k_offset b) l;
  r_child : child s = hd_error (ids l);
  r_ordered : list_ok (L ordered (cells s)) (ids l);
  r_sibling : list_ok (L sibling (cells s)) (firsts [] l);
  r_next : forall t, list_ok (L next (cells s)) (tagged t l) }.

Lemma place_split k l : StronglySorted (fun a b => k_offset a <= k_offset b) l ->
  exists l1 l2, l = l1 ++ l2 /\ place k l = l1 ++ k :: l2 /\ Forall (fun x => k_offset x <= k_offset k) l1 /\ Forall (fun x => k_offset k < k_offset x) l2.
Proof.
  induction 1 as [|x l S IH F]; [exists [], []; repeat split; constructor|]. cbn [place].
  destruct (Nat.leb_spec (k_offset x) (k_offset k)) as [H|H].
  - destruct IH as (l1 & l2 & E & P & F1 & F2). exists (x :: l1), l2. rewrite P. subst l. split; [reflexivity|]. split; [reflexivity|]. split; [now constructor|assumption].
  - exists [], (x :: l). split; [reflexivity|]. split; [reflexivity|]. split; [constructor|]. constructor; [assumption|].
    eapply Forall_impl; [|exact F]. cbv beta. intros. lia.
Qed.
Lemma sorted_insert l1 l2 k : StronglySorted (fun a b => k_offset a <= k_offset b) (l1 ++ l2) ->
  Forall (fun x => k_offset x <= k_offset k) l1 -> Forall (fun x => k_offset k < k_offset x) l2 ->
  StronglySorted (fun a b => k_offset a <= k_offset b) (l1 ++ k :: l2).
Proof.
  induction l1 as [|x l1 IH]; intros H F1 F2.
  - constructor; [assumption|]. eapply Forall_impl; [|exact F2]. cbv beta. intros. lia.
  - cbn [app] in *. inversion H as [|? ? H1 H2]; subst. inversion F1; subst. constructor; [now apply IH|].
    apply Forall_app in H2 as [A B]. apply Forall_app. split; [assumption|]. now constructor.
Qed.
Lemma sorted_remove l1 l2 k : StronglySorted (fun a b => k_offset a <= k_offset b) (l1 ++ k :: l2) -> StronglySorted (fun a b => k_offset a <= k_offset b) (l1 ++ l2).
Proof.
  induction l1 as [|x l1 IH]; intros H; cbn [app] in *; [now inversion H|]. inversion H as [|? ? H1 H2]; subst. constructor; [now apply IH|].
  apply Forall_app in H2 as [A B]. inversion B; subst. apply Forall_app. now split.
Qed.
Lemma last_in (l : list nat) d : l <> [] -> In (last l d) l.
Proof. intros H. destruct (split_last l H) as (a & p & ->). rewrite last_last. apply in_or_app. right. now left. Qed.

(** the first stage: the list of all children *)
Lemma add_ordered s l l1 l2 c t o fuel : Rep s l -> l = l1 ++ l2 -> l <> [] -> ~ In c (ids l) -> length l < fuel ->
  Forall (fun x => k_offset x <= o) l1 -> Forall (fun x => o < k_offset x) l2 ->
  let h := put (cells s) c (mkNode t o None None None) in
  exists head n, child s = Some head /\ get h head = Ok n /\ exists h2, 
    (if o <? offset n then let* h := set_ordered h c (Some head) in Ok (h, Some c)
     else let* p := last_before fuel h ordered o head in
          let* n := get h p in
          let* h := set_ordered h c (ordered n) in
          let* h := set_ordered h p (Some c) in Ok (h, Some head)) = Ok (h2, hd_error (ids (l1 ++ mkKid c t o :: l2))) /\
    (forall x, meta h2 x = if x =? c then Some (t, o) else meta (cells s) x) /\
    (forall x, L next h2 x = upd (L next (cells s)) c None x) /\
    (forall x, L sibling h2 x = upd (L sibling (cells s)) c None x) /\
    list_ok (L ordered h2) (ids (l1 ++ mkKid c t o :: l2)).
Proof.
  intros R El Ne Nc U F1 F2 h. pose proof (put_view (cells s) c t o) as Mh. fold h in Mh.
  assert (forall k, In k l -> meta h (k_id k) = Some (k_tag k, k_offset k)) as Mk.
  { intros k K. rewrite Mh. destruct (Nat.eqb_spec (k_id k) c) as [E|_]; [|now apply (r_meta _ _ R)]. exfalso. apply Nc. rewrite <- E. now apply in_map. }
  assert (meta h c = Some (t, o)) as Mc by (now rewrite Mh, Nat.eqb_refl).
  pose proof (fun link => put_link (cells s) c t o link) as Lh. fold h in Lh.
  destruct l as [|k0 l0]; [congruence|]. pose proof (r_child _ _ R) as Ch. cbn [ids map hd_error] in Ch.
  destruct (meta_get _ _ _ _ (Mk k0 (or_introl eq_refl))) as (n & G & _ & On & _). exists (k_id k0), n. split; [assumption|]. split; [assumption|].
  assert (list_ok (L ordered h) (ids (k0 :: l0))) as Oh.
  { eapply list_ok_ext; [|exact (r_ordered _ _ R)]. intros x X. rewrite Lh by reflexivity. apply upd_other. intros ->. now apply Nc. }
  rewrite On. destruct l1 as [|k1 l1].
  - cbn [app] in El. subst l2. inversion F2; subst. destruct (Nat.ltb_spec o (k_offset k0)); [|lia].
    destruct (set_ordered_ok h c (Some (k_id k0))) as (h2 & E & B); [congruence|]. rewrite E. cbn [bind]. exists h2. split; [reflexivity|].
    split; [intros x; now rewrite (sb_meta _ _ _ _ _ B), Mh|]. split; [intros x; rewrite (sb_next _ _ _ _ _ B); now apply Lh|]. split; [intros x; rewrite (sb_sibling _ _ _ _ _ B); now apply Lh|].
    split; [rewrite (sb_ordered _ _ _ _ _ B); apply upd_same|]. eapply list_ok_ext; [|exact Oh]. intros x X. rewrite (sb_ordered _ _ _ _ _ B). apply upd_other. intros ->. now apply Nc.
  - cbn [app] in El. injection El as <- El. inversion F1; subst. destruct (Nat.ltb_spec o (k_offset k0)); [lia|].
    assert (Forall (known h (fun _ o' => o' <= o)) (ids l1)) as G1.
    { apply Forall_forall. intros x X. apply in_map_iff in X as (k & <- & K). eexists _, _. split; [apply Mk; right; apply in_or_app; now left|]. rewrite Forall_forall in *. auto. }
    assert (Forall (known h (fun _ o' => o < o')) (ids l2)) as G2.
    { apply Forall_forall. intros x X. apply in_map_iff in X as (k & <- & K). eexists _, _. split; [apply Mk; right; apply in_or_app; now right|]. rewrite Forall_forall in *. auto. }
    unfold ids in Oh. cbn [map] in Oh. rewrite map_app in Oh.
    rewrite (last_before_ok h ordered o (ids l1) (ids l2)); [|exact Oh|rewrite (Mk k0 (or_introl eq_refl)); discriminate|assumption|assumption|unfold ids; rewrite map_length; cbn [length] in U; rewrite app_length in U; lia].
    cbn [bind]. set (p := last (ids l1) (k_id k0)).
    assert (exists a, k_id k0 :: ids l1 = a ++ [p]) as [a Ea].
    { unfold p. clear. destruct (split_last (k_id k0 :: ids l1)) as (a & q & E); [discriminate|]. exists a. rewrite E. f_equal. f_equal. destruct (ids l1) as [|y r] eqn:Q; [destruct a; [injection E as E; auto|destruct a; discriminate]|].
      rewrite <- (last_last a q (k_id k0)). rewrite <- E. reflexivity. }
    assert (In p (ids (k0 :: l1 ++ l2))) as Ip.
    { assert (In p (k_id k0 :: ids l1)) as Q by (rewrite Ea; apply in_or_app; right; now left). unfold ids. cbn [map]. rewrite map_app. destruct Q as [Q|Q]; [now left|right; apply in_or_app; now left]. }
    assert (p <> c) as Pc by (intros ->; now apply Nc).
    assert (exists tp op, meta h p = Some (tp, op)) as (tp & op & Mp).
    { apply in_map_iff in Ip as (k & <- & K). rewrite (Mk k K). now eexists _, _. }
    destruct (meta_get _ _ _ _ Mp) as (np & Gp & _ & _ & Lp). rewrite Gp. cbn [bind]. rewrite Lp.
    replace (k_id k0 :: map k_id l1 ++ map k_id l2) with (a ++ p :: ids l2) in Oh.
    2:{ change (k_id k0 :: map k_id l1 ++ map k_id l2) with ((k_id k0 :: ids l1) ++ ids l2). rewrite Ea, <- app_assoc. reflexivity. }
    rewrite (list_ok_at _ _ _ _ Oh).
    destruct (set_ordered_ok h c (hd_error (ids l2))) as (h1 & E1 & B1); [congruence|]. rewrite E1. cbn [bind].
    destruct (set_ordered_ok h1 p (Some c)) as (h2 & E2 & B2); [rewrite (sb_meta _ _ _ _ _ B1); congruence|]. rewrite E2. cbn [bind]. exists h2. split; [reflexivity|].
    split; [intros x; now rewrite (sb_meta _ _ _ _ _ B2), (sb_meta _ _ _ _ _ B1), Mh|].
    split; [intros x; rewrite (sb_next _ _ _ _ _ B2), (sb_next _ _ _ _ _ B1); now apply Lh|]. split; [intros x; rewrite (sb_sibling _ _ _ _ _ B2), (sb_sibling _ _ _ _ _ B1); now apply Lh|].
    replace (ids ((k0 :: l1) ++ mkKid c t o :: l2)) with (a ++ p :: c :: ids l2).
    2:{ unfold ids. rewrite map_app. cbn [map k_id]. change (k_id k0 :: map k_id l1) with (k_id k0 :: ids l1). rewrite Ea, <- app_assoc. reflexivity. }
    assert (NoDup (a ++ p :: ids l2)) as Dn.
    { pose proof (r_nodup _ _ R) as D. unfold ids in D. cbn [map] in D. rewrite map_app in D. change (k_id k0 :: map k_id l1 ++ map k_id l2) with ((k_id k0 :: ids l1) ++ ids l2) in D. rewrite Ea, <- app_assoc in D. exact D. }
    assert (~ In c (a ++ p :: ids l2)) as Nc'.
    { intros Q. apply Nc. unfold ids. cbn [map]. rewrite map_app. change (k_id k0 :: map k_id l1 ++ map k_id l2) with ((k_id k0 :: ids l1) ++ ids l2). rewrite Ea, <- app_assoc. exact Q. }
    eapply list_ok_after; [exact Oh| | |].
    + rewrite (sb_ordered _ _ _ _ _ B2). apply upd_same.
    + rewrite (sb_ordered _ _ _ _ _ B2), upd_other by congruence. rewrite (sb_ordered _ _ _ _ _ B1). apply upd_same.
    + intros x X. assert (x <> p) by (intros ->; apply NoDup_remove_2 in Dn; apply Dn; apply in_or_app; tauto).
      assert (x <> c) by (intros ->; apply Nc'; apply in_or_app; cbn; tauto).
      rewrite (sb_ordered _ _ _ _ _ B2), upd_other by assumption. rewrite (sb_ordered _ _ _ _ _ B1), upd_other by assumption. reflexivity.
Qed.
