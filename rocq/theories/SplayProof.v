(** Lemmas on the splay tree model. *)
From Coq Require Import NArith ZArith Arith List Bool Lia Sorting Permutation ZifyBool ZifyNat ZifyN.
From Verif Require Import SplayModel SplaySpec.
Import ListNotations.

Section Keys.
Variable K : Type.
Notation tree := (tree K).
Notation E := (E K).
Notation Node := (Node K).
Notation elt := (K * N)%type.

Fixpoint inorder (t : tree) : list elt :=
  match t with
  | SplayModel.E _ => []
  | SplayModel.Node _ l k v r => inorder l ++ (k, v) :: inorder r
  end.
Fixpoint height (t : tree) : nat :=
  match t with
  | SplayModel.E _ => 0
  | SplayModel.Node _ l _ _ r => S (Nat.max (height l) (height r))
  end.

Lemma inorder_length t : length (inorder t) = size K t.
Proof. induction t as [|l IHl k v r IHr]; [reflexivity|]. cbn [inorder size]. rewrite app_length. cbn [length]. lia. Qed.

(** ** IterateOverSplayTree *)
Definition right_of (t : tree) : tree := match t with SplayModel.E _ => E | SplayModel.Node _ _ _ _ r => r end.
Definition item_of (t : tree) : list elt := match t with SplayModel.E _ => [] | SplayModel.Node _ _ k v _ => [(k, v)] end.
Definition todo (x : tree * TransitionType) : list elt :=
  let (t, tr) := x in
  match tr with
  | LeftTransition => inorder t
  | DownTransition => item_of t ++ inorder (right_of t)
  | RightTransition => inorder (right_of t)
  | UpTransition => []
  end.
Definition cost (x : tree * TransitionType) : nat :=
  let (t, tr) := x in
  match tr with
  | LeftTransition => 4 * size K t
  | DownTransition => 3 + 4 * size K (right_of t)
  | RightTransition => 2 + 4 * size K (right_of t)
  | UpTransition => 1
  end.
Definition not_null (x : tree * TransitionType) : Prop := fst x <> E.
Definition total (s : list (tree * TransitionType)) : nat := list_sum (map cost s).

Lemma iterate_loop_ok fuel : forall s out, Forall not_null s -> total s < fuel ->
  iterate_loop K fuel s out = Some (rev out ++ flat_map todo s).
Proof.
  induction fuel as [|fuel IH]; intros s out F Hf; [lia|]. cbn [iterate_loop].
  destruct s as [|[[|l k v r] tr] s]; [cbn [flat_map]; now rewrite app_nil_r | inversion F as [|? ? X]; now destruct X|].
  inversion F as [|? ? _ F']; subst. unfold total in Hf. cbn [map list_sum fold_right] in Hf.
  change (fold_right Nat.add 0 (map cost s)) with (total s) in Hf.
  assert (NN : forall tr, not_null (Node l k v r, tr)) by (intros ?; discriminate).
  destruct tr; cbn [cost size right_of] in Hf; cbn [flat_map todo inorder right_of item_of app].
  - destruct l as [|a x y b] eqn:El.
    + rewrite IH; [reflexivity | constructor; [discriminate | exact F'] | unfold total; cbn [map list_sum fold_right cost right_of]; fold (total s); change (fold_right Nat.add 0 (map cost s)) with (total s); cbn [size] in Hf; lia].
    + rewrite <- El in *. rewrite IH.
      * cbn [flat_map todo]. cbn [right_of item_of app]. do 2 f_equal. rewrite <- (app_assoc (inorder l)). reflexivity.
      * constructor; [subst l; discriminate | constructor; [discriminate | exact F']].
      * unfold total. cbn [map list_sum fold_right cost right_of]. change (fold_right Nat.add 0 (map cost s)) with (total s). lia.
  - destruct r as [|a x y b] eqn:Er.
    + rewrite IH; [reflexivity | constructor; [discriminate | exact F'] | unfold total; cbn [map list_sum fold_right cost right_of]; change (fold_right Nat.add 0 (map cost s)) with (total s); cbn [size] in Hf; lia].
    + rewrite <- Er in *. rewrite IH.
      * reflexivity.
      * constructor; [subst r; discriminate | constructor; [discriminate | exact F']].
      * unfold total. cbn [map list_sum fold_right cost right_of]. change (fold_right Nat.add 0 (map cost s)) with (total s). lia.
  - rewrite IH.
    + cbn [rev flat_map todo]. now rewrite <- app_assoc.
    + constructor; [discriminate | exact F'].
    + unfold total. cbn [map list_sum fold_right cost right_of]. change (fold_right Nat.add 0 (map cost s)) with (total s). lia.
  - rewrite IH; [reflexivity | exact F' | lia].
Qed.

Lemma IterateOverSplayTree_ok t : IterateOverSplayTree K t = Some (inorder t).
Proof.
  destruct t as [|l k v r] eqn:Et; [reflexivity|]. unfold IterateOverSplayTree. rewrite <- Et.
  rewrite iterate_loop_ok.
  - cbn [rev app flat_map todo]. now rewrite app_nil_r.
  - constructor; [subst t; discriminate | constructor].
  - unfold total. cbn [map list_sum fold_right cost right_of]. lia.
Qed.

(** ** LinkSplayTreeNodes *)
Definition slice (l : list elt) (low n : nat) : list elt := firstn n (skipn low l).
Lemma slice_split l low a b x : nth_error l (low + a) = Some x ->
  slice l low (a + 1 + b) = slice l low a ++ x :: slice l (low + a + 1) b.
Proof.
  intros H. unfold slice. rewrite <- (firstn_skipn a (firstn (a + 1 + b) (skipn low l))).
  rewrite firstn_firstn, Nat.min_l by lia. f_equal.
  rewrite skipn_firstn_comm. replace (a + 1 + b - a) with (S b) by lia.
  rewrite <- (firstn_skipn (low + a) l) in H. rewrite nth_error_app2 in H by (rewrite firstn_length; lia).
  assert (L : low + a < length l) by (apply nth_error_Some; rewrite <- (firstn_skipn (low + a) l), nth_error_app2 by (rewrite firstn_length; lia); congruence).
  rewrite firstn_length, Nat.min_l, Nat.sub_diag in H by lia.
  assert (S1 : forall n m (z : list elt), skipn n (skipn m z) = skipn (m + n) z).
  { clear. induction m as [|m IH]; intros z; [reflexivity|]. destruct z; [now rewrite !skipn_nil | apply IH]. }
  rewrite S1. destruct (skipn (low + a) l) as [|y q] eqn:Eq; [discriminate H|]. injection H as ->.
  cbn [firstn]. f_equal. rewrite <- (S1 1 (low + a) l), Eq. reflexivity.
Qed.

Lemma Link_ok fuel : forall nodes low high, low <= high -> high < length nodes -> high - low < fuel ->
  exists t, LinkSplayTreeNodes K fuel nodes low high = Some t /\
    inorder t = slice nodes low (high - low + 1) /\ height t <= Nat.log2 (high - low + 1) + 1.
Proof.
  induction fuel as [|fuel IH]; intros nodes low high H1 H2 H3; [lia|]. cbn [LinkSplayTreeNodes].
  set (h := (high - low) / 2). assert (Hh : 2 * h <= high - low < 2 * h + 2).
  { unfold h. pose proof (Nat.div_mod_eq (high - low) 2). pose proof (Nat.mod_upper_bound (high - low) 2). lia. }
  destruct (nth_error nodes (low + h)) as [[k v]|] eqn:En.
  2:{ apply nth_error_None in En. lia. }
  assert (Left : exists l, (if low + h <? low + 1 then Some E else LinkSplayTreeNodes K fuel nodes low (low + h - 1)) = Some l /\
     inorder l = slice nodes low h /\ height l <= (if h =? 0 then 0 else Nat.log2 h + 1)).
  { destruct (Nat.eqb_spec h 0) as [->|Nz].
    - replace (low + 0 <? low + 1) with true by lia. exists E. repeat split. cbn. lia.
    - replace (low + h <? low + 1) with false by lia.
      destruct (IH nodes low (low + h - 1)) as (l & E1 & E2 & E3); [lia | lia | lia |].
      replace (low + h - 1 - low + 1) with h in * by lia. now exists l. }
  assert (Right : exists r, (if high <? low + h + 1 then Some E else LinkSplayTreeNodes K fuel nodes (low + h + 1) high) = Some r /\
     inorder r = slice nodes (low + h + 1) (high - low - h) /\ height r <= (if high - low - h =? 0 then 0 else Nat.log2 (high - low - h) + 1)).
  { destruct (Nat.eqb_spec (high - low - h) 0) as [Z|Nz].
    - replace (high <? low + h + 1) with true by lia. exists E. rewrite Z. repeat split. cbn. lia.
    - replace (high <? low + h + 1) with false by lia.
      destruct (IH nodes (low + h + 1) high) as (r & E1 & E2 & E3); [lia | lia | lia |].
      replace (high - (low + h + 1) + 1) with (high - low - h) in * by lia. now exists r. }
  destruct Left as (l & -> & El & Hl), Right as (r & -> & Er & Hr).
  eexists. split; [reflexivity|]. cbn [inorder height]. split.
  - rewrite El, Er. replace (high - low + 1) with (h + 1 + (high - low - h)) by lia. symmetry. now apply slice_split.
  - set (m := high - low + 1) in *.
    destruct (Nat.eq_dec m 1) as [M1|M1].
    + replace (h =? 0) with true in Hl by lia. replace (high - low - h =? 0) with true in Hr by lia. lia.
    + assert (Lg : Nat.log2 m = S (Nat.log2 (m / 2))).
      { pose proof (Nat.div_mod_eq m 2) as Dm. pose proof (Nat.mod_upper_bound m 2 ltac:(lia)) as Mu.
        assert (m mod 2 = 0 \/ m mod 2 = 1) as [Z|Z] by lia; rewrite Z in Dm.
        - rewrite Dm at 1. rewrite Nat.add_0_r. apply Nat.log2_double. lia.
        - rewrite Dm at 1. apply Nat.log2_succ_double. lia. }
      pose proof (Nat.div_mod_eq m 2) as Dm. pose proof (Nat.mod_upper_bound m 2 ltac:(lia)) as Mu.
      pose proof (Nat.log2_le_mono h (m / 2) ltac:(lia)). pose proof (Nat.log2_le_mono (high - low - h) (m / 2) ltac:(lia)).
      destruct (h =? 0), (high - low - h =? 0); lia.
Qed.

Lemma Balance_ok t : 2 < size K t ->
  exists t', BalanceSplayTree K (N.of_nat (size K t)) t = Some t' /\ inorder t' = inorder t /\
    height t' <= Nat.log2 (size K t) + 1.
Proof.
  intros H. unfold BalanceSplayTree. replace (N.of_nat (size K t) <=? 2)%N with false by lia.
  rewrite IterateOverSplayTree_ok, Nat2N.id. pose proof (inorder_length t) as L.
  destruct (Link_ok (length (inorder t)) (inorder t) 0 (size K t - 1)) as (t' & E1 & E2 & E3); [lia | lia | lia |].
  exists t'. split; [exact E1|]. replace (size K t - 1 - 0 + 1) with (size K t) in * by lia. split; [|exact E3].
  rewrite E2. unfold slice. cbn [skipn]. apply firstn_all2. lia.
Qed.

(** ** freeing *)
Lemma free_loop_ok fuel : forall active pend, Forall (fun t => t <> E) active -> Forall (fun t => t <> E) pend ->
  list_sum (map (fun t => 2 * size K t) active) + list_sum (map (fun t => 2 * size K t) pend) <= fuel + (match active with [] => 0 | _ => 1 end) ->
  exists o, free_loop K fuel active pend = Some o /\ Permutation o (flat_map inorder active ++ flat_map inorder pend).
Proof.
  induction fuel as [fuel IH] using lt_wf_ind. intros active pend Fa Fp Hf.
  destruct active as [|t active].
  - destruct pend as [|t pend]; [destruct fuel; cbn; eexists; (split; [reflexivity | constructor])|].
    assert (1 <= size K t) by (inversion Fp as [|? ? X]; destruct t; [now destruct X | cbn; lia]).
    cbn [map list_sum fold_right] in Hf. destruct fuel as [|fuel]; [lia|].
    cbn [free_loop]. destruct (IH fuel (Nat.lt_succ_diag_r _) (t :: pend) [] Fp (Forall_nil _)) as (o & E1 & P).
    { cbn [map list_sum fold_right]. lia. }
    exists o. split; [exact E1|]. cbn [flat_map app] in *. rewrite app_nil_r in P. exact P.
  - inversion Fa as [|? ? X Fa']; subst. destruct t as [|l k v r]; [now destruct X|].
    cbn [map list_sum fold_right size] in Hf. change (fold_right Nat.add 0) with list_sum in Hf.
    destruct fuel as [|fuel]; [lia|]. cbn [free_loop].
    set (p1 := match l with SplayModel.E _ => pend | _ => l :: pend end).
    assert (P1 : Forall (fun t => t <> E) p1 /\ list_sum (map (fun t => 2 * size K t) p1) = 2 * size K l + list_sum (map (fun t => 2 * size K t) pend) /\
       Permutation (flat_map inorder p1) (inorder l ++ flat_map inorder pend)).
    { unfold p1. destruct l eqn:El; [repeat split; [exact Fp | apply Permutation_refl]|]. rewrite <- El in *.
      split; [constructor; [subst l; discriminate | exact Fp]|]. split; [reflexivity | apply Permutation_refl]. }
    set (p2 := match r with SplayModel.E _ => p1 | _ => r :: p1 end).
    assert (P2 : Forall (fun t => t <> E) p2 /\ list_sum (map (fun t => 2 * size K t) p2) = 2 * size K r + list_sum (map (fun t => 2 * size K t) p1) /\
       Permutation (flat_map inorder p2) (inorder r ++ flat_map inorder p1)).
    { unfold p2. destruct r eqn:El; [repeat split; [apply P1 | apply Permutation_refl]|]. rewrite <- El in *.
      split; [constructor; [subst r; discriminate | apply P1]|]. split; [reflexivity | apply Permutation_refl]. }
    destruct P1 as (F1 & S1 & Q1), P2 as (F2 & S2 & Q2).
    destruct (IH fuel (Nat.lt_succ_diag_r _) active p2 Fa' F2) as (o & E1 & P).
    { rewrite S2, S1. destruct active as [|t active]; [cbn [map list_sum fold_right] in *; lia|].
      cbn [map list_sum fold_right] in *. lia. }
    rewrite E1. eexists. split; [reflexivity|]. cbn [flat_map inorder]. rewrite P, Q2, Q1.
    set (A := flat_map inorder active). set (Pd := flat_map inorder pend). clear.
    rewrite <- !app_assoc. cbn [app]. apply Permutation_cons_app.
    rewrite (Permutation_app_comm A), <- !app_assoc.
    rewrite (Permutation_app_swap_app (inorder r) (inorder l)). do 2 apply Permutation_app_head. apply Permutation_app_comm.
Qed.
End Keys.
