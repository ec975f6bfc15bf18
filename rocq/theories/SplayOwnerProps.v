(** Keys and values of splay trees are relinquished once, unless a pointer is added again; the iterator may keep a key
    that has been relinquished. *)
From Coq Require Import Arith NArith ZArith Bool Lia ZifyBool ZifyNat ZifyN Sorting Permutation List.
From Verif Require Import SplayModel SplaySpec SplayProof SplayProof2 SplayOwnerModel.
Import ListNotations.

(** * what the calls take and give back, from the calls and their answers alone; NULL is nothing *)
Definition notnull (p : N) : list N := if (p =? 0)%N then [] else [p].
Fixpoint keys_taken (l : list (sop N)) (r : list (sout N)) : list N :=
  match l, r with
  | SAdd _ _ k _ :: l, SBool _ true :: r => notnull k ++ keys_taken l r
  | _ :: l, _ :: r => keys_taken l r
  | _, _ => []
  end.
Fixpoint values_taken (l : list (sop N)) (r : list (sout N)) : list N :=
  match l, r with
  | SAdd _ _ _ v :: l, SBool _ true :: r => notnull v ++ values_taken l r
  | _ :: l, _ :: r => values_taken l r
  | _, _ => []
  end.
(** the keys RemoveNodeByValueFromSplayTree, the values RemoveNodeFromSplayTree has returned to the caller *)
Fixpoint keys_returned (l : list (sop N)) (r : list (sout N)) : list N :=
  match l, r with
  | SRemoveValue _ _ :: l, SKey _ (Some k) :: r => notnull k ++ keys_returned l r
  | _ :: l, _ :: r => keys_returned l r
  | _, _ => []
  end.
Fixpoint values_returned (l : list (sop N)) (r : list (sout N)) : list N :=
  match l, r with
  | SRemove _ _ :: l, SVal _ v :: r => notnull v ++ values_returned l r
  | _ :: l, _ :: r => values_returned l r
  | _, _ => []
  end.
(** the pointers in the nodes of the tree *)
Fixpoint keys_of (t : tree N) : list N := match t with E _ => [] | Node _ l k _ r => keys_of l ++ notnull k ++ keys_of r end.
Fixpoint values_of (t : tree N) : list N := match t with E _ => [] | Node _ l _ v r => values_of l ++ notnull v ++ values_of r end.
Definition keys_held (s : SplayTreeInfo N) : list N := keys_of (sp_root N s).
Definition values_held (s : SplayTreeInfo N) : list N := values_of (sp_root N s).

(** * proof *)
Lemma count_perm l l' : Permutation l l' <-> forall x, count_occ N.eq_dec l x = count_occ N.eq_dec l' x.
Proof. apply Permutation_count_occ. Qed.
Definition kk (l : list (N * N)) : list N := flat_map (fun e => notnull (fst e)) l.
Definition vv (l : list (N * N)) : list N := flat_map (fun e => notnull (snd e)) l.
Lemma keys_of_inorder t : keys_of t = kk (inorder N t).
Proof. induction t as [|l IHl k v r IHr]; [reflexivity|]. cbn [keys_of inorder]. unfold kk in *. rewrite flat_map_app. cbn [flat_map fst]. now rewrite IHl, IHr. Qed.
Lemma values_of_inorder t : values_of t = vv (inorder N t).
Proof. induction t as [|l IHl k v r IHr]; [reflexivity|]. cbn [values_of inorder]. unfold vv in *. rewrite flat_map_app. cbn [flat_map snd]. now rewrite IHl, IHr. Qed.
Lemma kk_app a b : kk (a ++ b) = kk a ++ kk b. Proof. apply flat_map_app. Qed.
Lemma vv_app a b : vv (a ++ b) = vv a ++ vv b. Proof. apply flat_map_app. Qed.
Lemma kk_cons k v l : kk ((k, v) :: l) = notnull k ++ kk l. Proof. reflexivity. Qed.
Lemma vv_cons k v l : vv ((k, v) :: l) = notnull v ++ vv l. Proof. reflexivity. Qed.
Lemma kk_perm a b : Permutation a b -> Permutation (kk a) (kk b). Proof. apply Permutation_flat_map. Qed.
Lemma vv_perm a b : Permutation a b -> Permutation (vv a) (vv b). Proof. apply Permutation_flat_map. Qed.
Lemma rkey_own k : relinquish_key true k = notnull k.
Proof. unfold relinquish_key, notnull. now destruct (k =? 0)%N. Qed.
Lemma rvalue_own v : relinquish_value true v = notnull v.
Proof. unfold relinquish_value, notnull. now destruct (v =? 0)%N. Qed.
Ltac count := apply count_perm; let x := fresh "x" in intros x; rewrite ?kk_app, ?vv_app, ?kk_cons, ?vv_cons, ?count_occ_app; cbn [kk vv flat_map count_occ]; try lia.

(** ** the end of a tree *)
Definition head_key_of (t : tree N) : list (N * N) := match t with E _ => [] | Node _ _ k v _ => [(k, v)] end.
Definition below_root (t : tree N) : list (N * N) := match t with E _ => [] | Node _ l _ _ r => inorder N l ++ inorder N r end.
Lemma relinquish_node_own t : relinquish_node true true t = (kk (head_key_of t), vv (head_key_of t)).
Proof. destruct t; [reflexivity|]. cbn. now rewrite rkey_own, rvalue_own, !app_nil_r. Qed.
Lemma head_below t : Permutation (inorder N t) (head_key_of t ++ below_root t).
Proof. destruct t; [constructor|]. cbn [inorder head_key_of below_root app]. symmetry. apply Permutation_middle. Qed.
Lemma relinquish_loop_ok fuel : forall active pend, Forall (fun t => t <> E N) active -> Forall (fun t => t <> E N) pend ->
  list_sum (map (fun t => 2 * size N t) active) + list_sum (map (fun t => 2 * size N t) pend) <= fuel + (match active with [] => 0 | _ => 1 end) ->
  exists fk fv o, relinquish_loop true true fuel active pend = Some (fk, fv) /\ fk = kk o /\ fv = vv o /\
    Permutation o (flat_map below_root active ++ flat_map below_root pend).
Proof.
  induction fuel as [fuel IH] using lt_wf_ind. intros active pend Fa Fp Hf.
  destruct active as [|t active].
  - destruct pend as [|t pend]; [exists [], [], []; destruct fuel; cbn; repeat (split; [reflexivity|]); constructor|].
    assert (1 <= size N t) by (inversion Fp as [|? ? X]; destruct t; [now destruct X | cbn; lia]).
    cbn [map list_sum fold_right] in Hf. destruct fuel as [|fuel]; [lia|].
    cbn [relinquish_loop]. destruct (IH fuel (Nat.lt_succ_diag_r _) (t :: pend) [] Fp (Forall_nil _)) as (fk & fv & o & E1 & Ek & Ev & P).
    { cbn [map list_sum fold_right]. lia. }
    exists fk, fv, o. split; [exact E1|]. split; [exact Ek|]. split; [exact Ev|]. cbn [flat_map app] in *. rewrite app_nil_r in P. exact P.
  - inversion Fa as [|? ? X Fa']; subst. destruct t as [|l k v r]; [now destruct X|].
    cbn [map list_sum fold_right size] in Hf. change (fold_right Nat.add 0) with list_sum in Hf.
    destruct fuel as [|fuel]; [lia|]. cbn [relinquish_loop].
    set (p1 := match l with E _ => pend | _ => l :: pend end).
    assert (P1 : Forall (fun t => t <> E N) p1 /\ list_sum (map (fun t => 2 * size N t) p1) = 2 * size N l + list_sum (map (fun t => 2 * size N t) pend) /\
       Permutation (flat_map below_root p1) (below_root l ++ flat_map below_root pend)).
    { unfold p1. destruct l eqn:El; [repeat split; [exact Fp | apply Permutation_refl]|]. rewrite <- El in *.
      split; [constructor; [subst l; discriminate | exact Fp]|]. split; [reflexivity | apply Permutation_refl]. }
    set (p2 := match r with E _ => p1 | _ => r :: p1 end).
    assert (P2 : Forall (fun t => t <> E N) p2 /\ list_sum (map (fun t => 2 * size N t) p2) = 2 * size N r + list_sum (map (fun t => 2 * size N t) p1) /\
       Permutation (flat_map below_root p2) (below_root r ++ flat_map below_root p1)).
    { unfold p2. destruct r eqn:El; [repeat split; [apply P1 | apply Permutation_refl]|]. rewrite <- El in *.
      split; [constructor; [subst r; discriminate | apply P1]|]. split; [reflexivity | apply Permutation_refl]. }
    destruct P1 as (F1 & S1 & Q1), P2 as (F2 & S2 & Q2).
    destruct (IH fuel (Nat.lt_succ_diag_r _) active p2 Fa' F2) as (fk & fv & o & E1 & Ek & Ev & P).
    { rewrite S2, S1. destruct active as [|t active]; [cbn [map list_sum fold_right] in *; lia|]. cbn [map list_sum fold_right] in *. lia. }
    rewrite E1. eexists _, _, (head_key_of l ++ head_key_of r ++ o). split; [reflexivity|].
    rewrite !relinquish_node_own. unfold both. cbn [fst snd]. rewrite !kk_app, !vv_app, Ek, Ev, <- !app_assoc. split; [reflexivity|]. split; [reflexivity|].
    cbn [flat_map below_root]. rewrite (head_below l), (head_below r), P, Q2, Q1.
    set (A := flat_map below_root active). set (Pd := flat_map below_root pend). clear.
    rewrite <- !app_assoc. apply Permutation_app_head. rewrite (Permutation_app_swap_app (below_root l) (head_key_of r)). apply Permutation_app_head.
    rewrite (Permutation_app_swap_app A (below_root r)), (Permutation_app_swap_app (below_root l) (below_root r)). apply Permutation_app_head.
    rewrite (Permutation_app_swap_app A (below_root l)). apply Permutation_refl.
Qed.
Lemma relinquish_all_ok t : exists fk fv, relinquish_all true true t = Some (fk, fv) /\ Permutation fk (keys_of t) /\ Permutation fv (values_of t).
Proof.
  rewrite keys_of_inorder, values_of_inorder. destruct t as [|l k v r] eqn:Et; [exists [], []; repeat split; constructor|]. unfold relinquish_all. rewrite <- Et.
  destruct (relinquish_loop_ok (2 * size N t + 1) [t] []) as (fk & fv & o & E1 & -> & -> & P).
  { constructor; [subst t; discriminate|constructor]. } { constructor. } { cbn [map list_sum fold_right]. lia. }
  rewrite E1, relinquish_node_own. cbn [option_map]. unfold both. cbn [fst snd]. eexists _, _. split; [reflexivity|]. rewrite <- kk_app, <- vv_app.
  cbn [flat_map] in P. rewrite !app_nil_r in P. split; [apply kk_perm|apply vv_perm]; rewrite (head_below t); now apply Permutation_app_head.
Qed.

Section Proof.
Variable compare : N -> N -> Z.
Variable by_pointer : bool.
Hypothesis ord : order N compare.
Notation sinv := (sinv N compare).
Notation fits := (fits N).

Lemma found_ok s l key : sinv s l -> fits l ->
  (found compare by_pointer s key = None /\ amap N compare l key = None) \/
  exists s1 a k v b, sp_root N s <> E N /\ SplaySplayTree N compare by_pointer s key = Some s1 /\ sp_root N s1 = Node N a k v b /\ l = inorder N a ++ (k, v) :: inorder N b /\
    compare k key = 0%Z /\ found compare by_pointer s key = Some (k, v).
Proof.
  intros Inv F. unfold found. destruct (sp_root N s) as [|a0 k0 v0 b0] eqn:Er0.
  { left. split; [reflexivity|]. assert (l = []) as ->. { destruct Inv as (X & _). rewrite Er0 in X. now rewrite <- X. } reflexivity. }
  destruct (SplaySplayTree_ok N compare by_pointer ord s l key Inv F) as (s1 & E1 & Inv1 & En & Sh). rewrite E1.
  destruct Sh as (a & k & v & b & Er & El & Nr). { destruct Inv as (X & _). rewrite Er0 in X. rewrite <- X. cbn [inorder]. now destruct (inorder N a0). }
  rewrite Er. destruct (Z.eqb_spec (compare k key) 0) as [Z|Z].
  - right. exists s1, a, k, v, b. split; [discriminate|]. repeat split; auto.
  - left. split; [reflexivity|]. subst l. apply amap_absent; try assumption. apply Inv.
Qed.
(** AddValueToSplayTree *)
Lemma add_held s l mem key value s' b : sinv s l -> fits l -> AddValueToSplayTree N compare by_pointer mem s key value = Some (s', b) ->
  match found compare by_pointer s key with
  | Some e => b = true /\ Permutation ((key, value) :: l) (e :: inorder N (sp_root N s'))
  | None => Permutation (if b then (key, value) :: l else l) (inorder N (sp_root N s'))
  end.
Proof.
  intros Inv F H. pose proof (add_ok N compare by_pointer ord mem s l key value Inv F) as (s2 & l2 & E2 & _).
  assert (b = match amap N compare l key with None => mem | Some _ => true end) as Eb by congruence. clear s2 l2 E2.
  unfold AddValueToSplayTree in H. destruct (SplaySplayTree_ok N compare by_pointer ord s l key Inv F) as (s1 & E1 & Inv1 & _ & Sh). rewrite E1 in H.
  destruct (sp_root N s1) as [|a k v c] eqn:Er.
  - assert (l = []) as ->. { destruct Inv1 as (X & _). rewrite Er in X. now rewrite <- X. }
    destruct (found_ok s [] key Inv F) as [[-> _]|(? & a & k & v & c & _ & _ & _ & X & _)]; [|now destruct (inorder N a)].
    destruct mem; injection H as <- <-; [apply Permutation_refl|]. rewrite Er. constructor.
  - destruct Inv1 as (I1 & So & _). rewrite Er in I1. cbn [inorder] in I1. unfold found. rewrite E1, Er.
    destruct (sp_root N s) as [|a0 k0 v0 b0] eqn:Er0. { exfalso. destruct Inv as (X & _). rewrite Er0 in X. rewrite <- I1 in X. cbn in X. now destruct (inorder N a). }
    destruct (compare k key =? 0)%Z eqn:Z.
    + injection H as <- <-. split; [reflexivity|]. cbn [sp_root inorder]. rewrite <- I1. rewrite <- !Permutation_middle. apply perm_swap.
    + destruct mem; cbn [negb] in H; [|injection H as <- <-; rewrite Er; cbn [inorder]; rewrite I1; apply Permutation_refl].
      destruct (compare k key <? 0)%Z; injection H as <- <-; cbn [sp_root inorder]; rewrite <- I1.
      * rewrite <- app_assoc. cbn [app]. rewrite <- !Permutation_middle. apply perm_swap.
      * rewrite <- !Permutation_middle. apply Permutation_refl.
Qed.
(** DeleteNodeFromSplayTree, RemoveNodeFromSplayTree *)
Lemma take_held s l key s' r : sinv s l -> fits l -> take_node N compare by_pointer s key = Some (s', r) ->
  match found compare by_pointer s key with
  | Some (k, v) => r = Some v /\ Permutation l ((k, v) :: inorder N (sp_root N s'))
  | None => r = None /\ l = inorder N (sp_root N s')
  end.
Proof.
  intros Inv F H. unfold take_node in H. destruct (sp_root N s) as [|a0 k0 v0 b0] eqn:Er0.
  { injection H as <- <-. unfold found. rewrite Er0. split; [reflexivity|]. symmetry. rewrite <- Er0. apply Inv. }
  destruct (SplaySplayTree_ok N compare by_pointer ord s l key Inv F) as (s1 & E1 & Inv1 & _ & Sh). rewrite E1 in H.
  unfold found. rewrite Er0, E1. change (sp_root N (clear_key N s1)) with (sp_root N s1) in H. destruct Inv1 as (I1 & _). destruct (sp_root N s1) as [|a k v b] eqn:Er.
  - injection H as <- <-. split; [reflexivity|]. cbn [clear_key sp_root]. now rewrite Er.
  - destruct (compare k key =? 0)%Z; injection H as <- <-.
    + split; [reflexivity|]. unfold remove_root, clear_key. cbn [sp_root]. rewrite Er. cbn [sp_root]. rewrite (join_inorder N), <- I1. cbn [inorder]. symmetry. apply Permutation_middle.
    + split; [reflexivity|]. cbn [clear_key sp_root]. now rewrite Er.
Qed.
(** DeleteNodeByValueFromSplayTree, RemoveNodeByValueFromSplayTree *)
Lemma by_value_held value : forall Q fuel s P s' r, sinv s (P ++ Q) -> fits (P ++ Q) -> length Q <= fuel ->
  by_value_loop N compare by_pointer fuel s (head_key N Q) value = Some (s', r) ->
  match found_value compare by_pointer fuel s (head_key N Q) value with
  | Some (k, v) => r = Some k /\ v = value /\ Permutation (P ++ Q) ((k, v) :: inorder N (sp_root N s'))
  | None => r = None /\ P ++ Q = inorder N (sp_root N s')
  end.
Proof.
  induction Q as [|[k v] Q IH]; intros fuel s P s' r Inv F Hf H.
  - assert (s' = s /\ r = None) as [-> ->] by (destruct fuel; cbn [by_value_loop head_key] in H; injection H as <- <-; now split). destruct fuel; cbn [found_value head_key]; (split; [reflexivity|symmetry; apply Inv]).
  - destruct fuel as [|fuel]; [cbn [length] in Hf; lia|]. cbn [by_value_loop found_value head_key] in H |- *.
    destruct (splay_present N compare by_pointer ord _ _ _ _ _ Inv F) as (s1 & a & b & E1 & Inv1 & En & Er & Ea & Eb). rewrite E1, Er in H |- *.
    destruct (N.eqb_spec v value) as [->|Nv].
    + destruct (splay_present N compare by_pointer ord _ _ _ _ _ Inv1 F) as (s2 & a2 & b2 & E2 & Inv2 & En2 & Er2 & Ea2 & Eb2). rewrite E2 in H |- *. rewrite Er2. injection H as <- <-.
      split; [reflexivity|]. split; [reflexivity|]. unfold remove_root, clear_key. cbn [sp_root]. rewrite Er2. cbn [sp_root]. rewrite (join_inorder N), Ea2, Eb2. symmetry. apply Permutation_middle.
    + rewrite (first_key_ok N), Eb in H |- *. replace (P ++ (k, v) :: Q) with ((P ++ [(k, v)]) ++ Q) in * by (now rewrite <- app_assoc).
      apply (IH fuel s1 (P ++ [(k, v)])); try assumption. cbn [length] in Hf. lia.
Qed.

Lemma step_owner s l o : sinv s l -> fits l ->
  exists s' r fk fv l', owner_step compare by_pointer true true s o = Some (s', r, (fk, fv)) /\ sinv s' l' /\ length l' <= S (length l) /\
    Permutation (keys_taken [o] [r] ++ keys_held s) (keys_held s' ++ fk ++ keys_returned [o] [r]) /\
    Permutation (values_taken [o] [r] ++ values_held s) (values_held s' ++ fv ++ values_returned [o] [r]).
Proof.
  intros Inv F. destruct (step_ok N compare by_pointer ord s l o Inv F) as (s' & r & l' & E1 & Inv' & Ln & _). unfold owner_step. rewrite E1.
  assert (Lk : keys_held s = kk l) by (unfold keys_held; rewrite keys_of_inorder; f_equal; apply Inv).
  assert (Lv : values_held s = vv l) by (unfold values_held; rewrite values_of_inorder; f_equal; apply Inv).
  assert (Lk' : keys_held s' = kk (inorder N (sp_root N s'))) by apply keys_of_inorder.
  assert (Lv' : values_held s' = vv (inorder N (sp_root N s'))) by apply values_of_inorder.
  assert (B : forall value, found_value compare by_pointer (size N (sp_root N s)) s (first_key N (sp_root N s)) value = found_value compare by_pointer (size N (sp_root N s)) s (head_key N l) value).
  { intros value. rewrite (first_key_ok N). now rewrite (proj1 Inv). }
  assert (BL : forall value s2 r2, by_value_loop N compare by_pointer (size N (sp_root N s)) s (first_key N (sp_root N s)) value = Some (s2, r2) ->
    match found_value compare by_pointer (size N (sp_root N s)) s (head_key N l) value with
    | Some (k, v) => r2 = Some k /\ v = value /\ Permutation l ((k, v) :: inorder N (sp_root N s2))
    | None => r2 = None /\ l = inorder N (sp_root N s2)
    end).
  { intros value s2 r2 H. rewrite (first_key_ok N), (proj1 Inv) in H. apply (by_value_held value l (size N (sp_root N s)) s [] s2 r2); try assumption. rewrite <- (inorder_length N), (proj1 Inv). apply Nat.le_refl. }
  assert (Same : l = inorder N (sp_root N s') -> Permutation ([] ++ keys_held s) (keys_held s' ++ [] ++ []) /\ Permutation ([] ++ values_held s) (values_held s' ++ [] ++ [])).
  { intros El. rewrite Lk, Lv, Lk', Lv', !app_nil_r, El. split; apply Permutation_refl. }
  destruct o as [mem k v|k|k|k|v|v| | | | | ]; cbn [sstep] in E1; cbn [option_map].
  - (* add *) unfold freed_by_add. destruct (AddValueToSplayTree N compare by_pointer mem s k v) as [[s2 b]|] eqn:Ea; [|discriminate]. cbn [out] in E1. injection E1 as <- <-.
    pose proof (add_held _ _ _ _ _ _ _ Inv F Ea) as H. destruct (found compare by_pointer s k) as [[ok ov]|].
    + destruct H as [-> H]. do 4 eexists. exists l'. split; [reflexivity|]. split; [exact Inv'|]. split; [exact Ln|]. rewrite rkey_own, rvalue_own, Lk, Lv, Lk', Lv'. cbn [keys_taken values_taken keys_returned values_returned].
      split; [pose proof (proj1 (count_perm _ _) (kk_perm _ _ H)) as C|pose proof (proj1 (count_perm _ _) (vv_perm _ _ H)) as C]; count; specialize (C x); rewrite ?kk_cons, ?vv_cons, ?count_occ_app in C; lia.
    + do 4 eexists. exists l'. split; [reflexivity|]. split; [exact Inv'|]. split; [exact Ln|]. rewrite Lk, Lv, Lk', Lv'. cbn [keys_taken values_taken keys_returned values_returned].
      destruct b; (split; [pose proof (proj1 (count_perm _ _) (kk_perm _ _ H)) as C|pose proof (proj1 (count_perm _ _) (vv_perm _ _ H)) as C]); count; specialize (C x); rewrite ?kk_cons, ?vv_cons, ?count_occ_app in C; lia.
  - (* get *) do 4 eexists. exists l'. split; [reflexivity|]. split; [exact Inv'|]. split; [exact Ln|]. destruct (get_ok N compare by_pointer ord s l k Inv F) as (s2 & E2 & Inv2 & _). rewrite E2 in E1. cbn [out] in E1. injection E1 as <- <-. apply Same. symmetry. apply Inv2.
  - (* remove *) unfold RemoveNodeFromSplayTree in E1. unfold freed_by_remove. destruct (take_node N compare by_pointer s k) as [[s2 b]|] eqn:Et; [|discriminate]. pose proof (take_held _ _ _ _ _ Inv F Et) as H.
    destruct (found compare by_pointer s k) as [[ok ov]|]; destruct H as [-> H]; cbn [out] in E1; injection E1 as <- <-; (do 4 eexists; exists l'; split; [reflexivity|]; split; [exact Inv'|]; split; [exact Ln|]).
    + rewrite rkey_own, Lk, Lv, Lk', Lv'. cbn [keys_taken values_taken keys_returned values_returned].
      split; [pose proof (proj1 (count_perm _ _) (kk_perm _ _ H)) as C|pose proof (proj1 (count_perm _ _) (vv_perm _ _ H)) as C]; count; specialize (C x); rewrite ?kk_cons, ?vv_cons, ?count_occ_app in C; lia.
    + cbn. now apply Same.
  - (* delete *) unfold DeleteNodeFromSplayTree in E1. unfold freed_by_delete. destruct (take_node N compare by_pointer s k) as [[s2 b]|] eqn:Et; [|discriminate]. pose proof (take_held _ _ _ _ _ Inv F Et) as H.
    destruct (found compare by_pointer s k) as [[ok ov]|]; destruct H as [-> H]; cbn [out] in E1; injection E1 as <- <-; (do 4 eexists; exists l'; split; [reflexivity|]; split; [exact Inv'|]; split; [exact Ln|]).
    + rewrite rkey_own, rvalue_own, Lk, Lv, Lk', Lv'. cbn [keys_taken values_taken keys_returned values_returned].
      split; [pose proof (proj1 (count_perm _ _) (kk_perm _ _ H)) as C|pose proof (proj1 (count_perm _ _) (vv_perm _ _ H)) as C]; count; specialize (C x); rewrite ?kk_cons, ?vv_cons, ?count_occ_app in C; lia.
    + cbn. now apply Same.
  - (* remove by value *) unfold RemoveNodeByValueFromSplayTree in E1. unfold freed_by_remove_value. rewrite B. destruct (by_value_loop N compare by_pointer _ s _ v) as [[s2 b]|] eqn:Et; [|discriminate]. specialize (BL v s2 b Et).
    destruct (found_value compare by_pointer _ s _ v) as [[ok ov]|].
    + destruct BL as (-> & -> & H). cbn [out] in E1. injection E1 as <- <-. do 4 eexists. exists l'. split; [reflexivity|]. split; [exact Inv'|]. split; [exact Ln|].
      rewrite rvalue_own, Lk, Lv, Lk', Lv'. cbn [keys_taken values_taken keys_returned values_returned].
      split; [pose proof (proj1 (count_perm _ _) (kk_perm _ _ H)) as C|pose proof (proj1 (count_perm _ _) (vv_perm _ _ H)) as C]; count; specialize (C x); rewrite ?kk_cons, ?vv_cons, ?count_occ_app in C; lia.
    + destruct BL as (-> & H). cbn [out] in E1. injection E1 as <- <-. do 4 eexists. exists l'. split; [reflexivity|]. split; [exact Inv'|]. split; [exact Ln|]. now apply Same.
  - (* delete by value *) unfold DeleteNodeByValueFromSplayTree in E1. unfold freed_by_delete_value. rewrite B. destruct (by_value_loop N compare by_pointer _ s _ v) as [[s2 b]|] eqn:Et; [|discriminate]. specialize (BL v s2 b Et).
    destruct (found_value compare by_pointer _ s _ v) as [[ok ov]|].
    + destruct BL as (-> & -> & H). cbn [out] in E1. injection E1 as <- <-. do 4 eexists. exists l'. split; [reflexivity|]. split; [exact Inv'|]. split; [exact Ln|].
      rewrite rkey_own, rvalue_own, Lk, Lv, Lk', Lv'. cbn [keys_taken values_taken keys_returned values_returned].
      split; [pose proof (proj1 (count_perm _ _) (kk_perm _ _ H)) as C|pose proof (proj1 (count_perm _ _) (vv_perm _ _ H)) as C]; count; specialize (C x); rewrite ?kk_cons, ?vv_cons, ?count_occ_app in C; lia.
    + destruct BL as (-> & H). cbn [out] in E1. injection E1 as <- <-. do 4 eexists. exists l'. split; [reflexivity|]. split; [exact Inv'|]. split; [exact Ln|]. now apply Same.
  - (* next key *) do 4 eexists. exists l'. split; [reflexivity|]. split; [exact Inv'|]. split; [exact Ln|]. unfold GetNextKeyInSplayTree in E1. destruct (next_keeps N compare by_pointer ord s l Inv F) as (s2 & r2 & E2 & Inv2). rewrite E2 in E1. cbn [out] in E1. injection E1 as <- <-. apply Same. symmetry. apply Inv2.
  - (* next value *) do 4 eexists. exists l'. split; [reflexivity|]. split; [exact Inv'|]. split; [exact Ln|]. unfold GetNextValueInSplayTree in E1. destruct (next_keeps N compare by_pointer ord s l Inv F) as (s2 & r2 & E2 & Inv2). rewrite E2 in E1. cbn [out] in E1. injection E1 as <- <-. apply Same. symmetry. apply Inv2.
  - (* reset iterator *) injection E1 as <- <-. do 4 eexists. exists l'. split; [reflexivity|]. split; [exact Inv'|]. split; [exact Ln|]. apply Same. symmetry. apply Inv.
  - (* reset *) injection E1 as <- <-. destruct (relinquish_all_ok (sp_root N s)) as (fk & fv & -> & Pk & Pv). cbn [option_map]. do 4 eexists. exists l'. split; [reflexivity|]. split; [exact Inv'|]. split; [exact Ln|].
    cbn [keys_taken values_taken keys_returned values_returned]. unfold keys_held, values_held. cbn [ResetSplayTree sp_root keys_of values_of app]. rewrite !app_nil_r. split; now symmetry.
  - (* count *) injection E1 as <- <-. do 4 eexists. exists l'. split; [reflexivity|]. split; [exact Inv'|]. split; [exact Ln|]. apply Same. symmetry. apply Inv.
Qed.
Lemma keys_taken_cons o r l rs : keys_taken (o :: l) (r :: rs) = keys_taken [o] [r] ++ keys_taken l rs.
Proof. destruct o; try reflexivity. destruct r as [[]| | |]; try reflexivity. cbn [keys_taken]. now rewrite app_nil_r. Qed.
Lemma values_taken_cons o r l rs : values_taken (o :: l) (r :: rs) = values_taken [o] [r] ++ values_taken l rs.
Proof. destruct o; try reflexivity. destruct r as [[]| | |]; try reflexivity. cbn [values_taken]. now rewrite app_nil_r. Qed.
Lemma keys_returned_cons o r l rs : keys_returned (o :: l) (r :: rs) = keys_returned [o] [r] ++ keys_returned l rs.
Proof. destruct o; try reflexivity. destruct r as [| |[]|]; try reflexivity. cbn [keys_returned]. now rewrite app_nil_r. Qed.
Lemma values_returned_cons o r l rs : values_returned (o :: l) (r :: rs) = values_returned [o] [r] ++ values_returned l rs.
Proof. destruct o; try reflexivity. destruct r; try reflexivity. cbn [values_returned]. now rewrite app_nil_r. Qed.
Lemma run_owner : forall ops s l, sinv s l -> (N.of_nat (length l + length ops) < 2 ^ 1024)%N ->
  exists s' rs fk fv l', owner_run compare by_pointer true true s ops = Some (s', rs, (fk, fv)) /\ sinv s' l' /\ length l' <= length l + length ops /\
    Permutation (keys_taken ops rs ++ keys_held s) (keys_held s' ++ fk ++ keys_returned ops rs) /\
    Permutation (values_taken ops rs ++ values_held s) (values_held s' ++ fv ++ values_returned ops rs).
Proof.
  induction ops as [|o ops IH]; intros s l Inv F.
  - exists s, [], [], [], l. split; [reflexivity|]. split; [exact Inv|]. split; [lia|]. cbn. rewrite !app_nil_r. split; apply Permutation_refl.
  - cbn [length] in F. destruct (step_owner s l o Inv) as (s1 & r1 & fk1 & fv1 & l1 & E1 & Inv1 & Ln & K1 & V1); [unfold SplayProof2.fits; generalize dependent (2 ^ 1024)%N; intros; lia|].
    destruct (IH s1 l1 Inv1) as (s2 & r2 & fk2 & fv2 & l2 & E2 & Inv2 & Ln2 & K2 & V2); [generalize dependent (2 ^ 1024)%N; intros; lia|].
    cbn [owner_run]. rewrite E1, E2. unfold both. cbn [fst snd]. do 4 eexists. exists l2. split; [reflexivity|]. split; [exact Inv2|]. split; [cbn [length]; lia|].
    rewrite keys_taken_cons, values_taken_cons, keys_returned_cons, values_returned_cons.
    split; apply count_perm; intros x.
    + pose proof (proj1 (count_perm _ _) K1 x) as C1. pose proof (proj1 (count_perm _ _) K2 x) as C2. rewrite !count_occ_app in *. lia.
    + pose proof (proj1 (count_perm _ _) V1 x) as C1. pose proof (proj1 (count_perm _ _) V2 x) as C2. rewrite !count_occ_app in *. lia.
Qed.
End Proof.

(** * C266: every key and value the tree has taken is in the tree, or has been relinquished, or has been returned, once.
    A key and value that AddValueToSplayTree refuses stay with the caller *)
Theorem splay_holds compare by_pointer ops : order N compare -> (N.of_nat (length ops) < 2 ^ 1024)%N ->
  exists s rs fk fv, owner_run compare by_pointer true true (NewSplayTree N) ops = Some (s, rs, (fk, fv)) /\
  Permutation (keys_taken ops rs) (keys_held s ++ fk ++ keys_returned ops rs) /\
  Permutation (values_taken ops rs) (values_held s ++ fv ++ values_returned ops rs).
Proof.
  intros O B. destruct (run_owner compare by_pointer O ops _ _ (new_inv N compare) B) as (s & rs & fk & fv & l & E1 & _ & _ & K & V).
  exists s, rs, fk, fv. split; [exact E1|]. cbn [NewSplayTree keys_held values_held keys_of values_of sp_root] in K, V. unfold keys_held at 1 in K. unfold values_held at 1 in V. cbn in K, V. rewrite !app_nil_r in K, V. now split.
Qed.
Print Assumptions splay_holds.
(** and with its end *)
Theorem splay_relinquishes compare by_pointer ops : order N compare -> (N.of_nat (length ops) < 2 ^ 1024)%N ->
  exists s rs fk fv dk dv, owner_run compare by_pointer true true (NewSplayTree N) ops = Some (s, rs, (fk, fv)) /\ DestroySplayTree true true s = Some (dk, dv) /\
  Permutation (keys_taken ops rs) (fk ++ dk ++ keys_returned ops rs) /\
  Permutation (values_taken ops rs) (fv ++ dv ++ values_returned ops rs).
Proof.
  intros O B. destruct (splay_holds compare by_pointer ops O B) as (s & rs & fk & fv & E1 & K & V). destruct (relinquish_all_ok (sp_root N s)) as (dk & dv & E2 & Pk & Pv).
  exists s, rs, fk, fv, dk, dv. split; [exact E1|]. split; [exact E2|].
  split; apply count_perm; intros x; [pose proof (proj1 (count_perm _ _) K x) as H; pose proof (proj1 (count_perm _ _) Pk x) as G|pose proof (proj1 (count_perm _ _) V x) as H; pose proof (proj1 (count_perm _ _) Pv x) as G]; unfold keys_held, values_held in H; rewrite !count_occ_app in *; lia.
Qed.
Print Assumptions splay_relinquishes.
(** pointers that are taken once are not relinquished twice, and what is in the tree has neither been relinquished nor returned *)
Theorem splay_once compare by_pointer ops : order N compare -> (N.of_nat (length ops) < 2 ^ 1024)%N ->
  exists s rs fk fv dk dv, owner_run compare by_pointer true true (NewSplayTree N) ops = Some (s, rs, (fk, fv)) /\ DestroySplayTree true true s = Some (dk, dv) /\
  (NoDup (keys_taken ops rs) -> NoDup (fk ++ dk ++ keys_returned ops rs) /\ forall p, In p (keys_held s) -> ~ In p fk /\ ~ In p (keys_returned ops rs)) /\
  (NoDup (values_taken ops rs) -> NoDup (fv ++ dv ++ values_returned ops rs) /\ forall p, In p (values_held s) -> ~ In p fv /\ ~ In p (values_returned ops rs)).
Proof.
  intros O B. destruct (splay_holds compare by_pointer ops O B) as (s & rs & fk & fv & E1 & K & V). destruct (splay_relinquishes compare by_pointer ops O B) as (s' & rs' & fk' & fv' & dk & dv & E2 & E3 & K' & V').
  rewrite E1 in E2. injection E2 as <- <- <- <-. exists s, rs, fk, fv, dk, dv. split; [exact E1|]. split; [exact E3|].
  assert (forall l l' : list N, NoDup (l ++ l') -> forall p, In p l -> ~ In p l') as D.
  { induction l as [|x l IH]; intros l' Nd p []; inversion Nd as [|? ? Nx Nd']; subst; [intros I; apply Nx; apply in_or_app; now right|eauto]. }
  split; intros Nd; (split; [eapply Permutation_NoDup; eassumption|]); intros p I.
  - assert (~ In p (fk ++ keys_returned ops rs)) as Q by (revert p I; apply D; eapply Permutation_NoDup; eassumption). split; intros J; apply Q, in_or_app; tauto.
  - assert (~ In p (fv ++ values_returned ops rs)) as Q by (revert p I; apply D; eapply Permutation_NoDup; eassumption). split; intros J; apply Q, in_or_app; tauto.
Qed.
Print Assumptions splay_once.
(** keys are pointers to numbers: the pointer p refers to p / 10 *)
Definition tens (a b : N) : Z := (Z.of_N (a / 10) - Z.of_N (b / 10))%Z.
Lemma tens_order : order N tens.
Proof. split; unfold tens; intros; lia. Qed.
Definition sample_calls : list (sop N) :=
  [SAdd N true 10 500; SAdd N true 20 501; SAdd N true 11 502; SAdd N false 30 503; SAdd N true 31 504; SAdd N true 40 0; SRemove N 39; SRemoveValue N 502; SDelete N 29; SAdd N true 50 505; SDeleteValue N 505; SAdd N true 60 506; SReset N; SAdd N true 70 507]%N.
Example sample_owned : order N tens /\ (N.of_nat (length sample_calls) < 2 ^ 1024)%N /\
  match owner_run tens false true true (NewSplayTree N) sample_calls with
  | Some (s, rs, (fk, fv)) => fk = [10; 31; 20; 50; 60; 40]%N /\ fv = [500; 502; 501; 505; 506]%N /\ keys_held s = [70]%N /\ values_held s = [507]%N /\
      keys_returned sample_calls rs = [11]%N /\ values_returned sample_calls rs = [504]%N /\ keys_taken sample_calls rs = [10; 20; 11; 31; 40; 50; 60; 70]%N /\ NoDup (keys_taken sample_calls rs) /\ NoDup (values_taken sample_calls rs)
  | None => False
  end.
Proof.
  split; [exact tens_order|]. split; [reflexivity|]. vm_compute. do 7 (split; [reflexivity|]). split; repeat constructor; cbn; intuition discriminate.
Qed.

(** * C267: without methods nothing is relinquished, and the methods do not change what the tree does *)
Definition only (a c : bool) (f : freed) : freed := (if a then fst f else [], if c then snd f else []).
Lemma only_nothing a c : only a c nothing = nothing. Proof. now destruct a, c. Qed.
Lemma only_both a c f g : only a c (both f g) = both (only a c f) (only a c g). Proof. now destruct a, c. Qed.
Lemma node_only a c t : relinquish_node a c t = only a c (relinquish_node true true t).
Proof. destruct t, a, c; reflexivity. Qed.
Lemma loop_only a c fuel : forall active pend, relinquish_loop a c fuel active pend = option_map (only a c) (relinquish_loop true true fuel active pend).
Proof.
  induction fuel as [|fuel IH]; intros [|[|l k v r] active] pend; cbn [relinquish_loop]; try reflexivity; try (destruct pend; [cbn; now rewrite only_nothing|]; try reflexivity; apply IH).
  rewrite IH. destruct (relinquish_loop true true fuel active _) as [f|]; [|reflexivity]. cbn [option_map]. now rewrite !only_both, <- !node_only.
Qed.
Lemma all_only a c t : relinquish_all a c t = option_map (only a c) (relinquish_all true true t).
Proof.
  destruct t as [|l k v r] eqn:Et; [cbn; now rewrite only_nothing|]. unfold relinquish_all. rewrite <- Et, loop_only. destruct (relinquish_loop true true _ _ _) as [f|]; [|reflexivity]. cbn [option_map]. now rewrite only_both, <- node_only.
Qed.
Theorem splay_methods compare by_pointer a c ops s :
  owner_run compare by_pointer a c s ops = option_map (fun '(s', rs, (fk, fv)) => (s', rs, (if a then fk else [], if c then fv else []))) (owner_run compare by_pointer true true s ops) /\
  option_map fst (owner_run compare by_pointer true true s ops) = srun N compare by_pointer s ops.
Proof.
  assert (St : forall s o, owner_step compare by_pointer a c s o = option_map (fun '(s', r, f) => (s', r, only a c f)) (owner_step compare by_pointer true true s o)).
  { intros s0 o. unfold owner_step. destruct (sstep N compare by_pointer s0 o) as [[s1 r]|]; [|reflexivity].
    destruct o as [mem k v|k|k|k|v|v| | | | | ]; cbn [option_map]; rewrite ?only_nothing; try reflexivity.
    - unfold freed_by_add. destruct (found compare by_pointer s0 k) as [[k' v']|]; rewrite ?only_nothing; [|reflexivity]. now destruct a, c.
    - unfold freed_by_remove. destruct (found compare by_pointer s0 k) as [[k' v']|]; rewrite ?only_nothing; [|reflexivity]. now destruct a, c.
    - unfold freed_by_delete. destruct (found compare by_pointer s0 k) as [[k' v']|]; rewrite ?only_nothing; [|reflexivity]. now destruct a, c.
    - unfold freed_by_remove_value. destruct (found_value compare by_pointer _ s0 _ v) as [[k' v']|]; rewrite ?only_nothing; [|reflexivity]. now destruct a, c.
    - unfold freed_by_delete_value. destruct (found_value compare by_pointer _ s0 _ v) as [[k' v']|]; rewrite ?only_nothing; [|reflexivity]. now destruct a, c.
    - rewrite all_only. destruct (relinquish_all true true (sp_root N s0)) as [f|]; reflexivity. }
  assert (St1 : forall s o, option_map fst (owner_step compare by_pointer true true s o) = sstep N compare by_pointer s o).
  { intros s0 o. unfold owner_step. destruct (sstep N compare by_pointer s0 o) as [[s1 r]|]; [|reflexivity].
    destruct o; cbn [option_map]; try reflexivity. destruct (relinquish_all_ok (sp_root N s0)) as (fk & fv & -> & _). reflexivity. }
  revert s. induction ops as [|o ops IH]; intros s; [cbn; destruct a, c; now split|]. cbn [owner_run srun]. rewrite St, <- St1. destruct (owner_step compare by_pointer true true s o) as [[[s1 r] f]|]; [|now split]. cbn [option_map fst].
  destruct (IH s1) as [I1 I2]. rewrite I1, <- I2. destruct (owner_run compare by_pointer true true s1 ops) as [[[s2 rs] g]|]; [|now split]. cbn [option_map fst]. split; [|reflexivity].
  destruct f as [f1 f2], g as [g1 g2]. unfold both, only. cbn [fst snd]. now destruct a, c.
Qed.
Print Assumptions splay_methods.
Example sample_methods : match owner_run tens false true false (NewSplayTree N) sample_calls, owner_run tens false false true (NewSplayTree N) sample_calls with
  | Some (_, _, f), Some (_, _, g) => f = ([10; 31; 20; 50; 60; 40]%N, []) /\ g = ([], [500; 502; 501; 505; 506]%N) | _, _ => False end.
Proof. vm_compute. now split. Qed.

(** * C268: what is relinquished must not be used: a pointer that is added again, the key of the iterator *)
(** the key, or the value, that is in the tree is added with the same pointer: it is relinquished and stays in the tree *)
Theorem add_again_refuted compare by_pointer s l mem k v v' : order N compare -> sinv N compare s l -> fits N l -> In (k, v) l -> k <> 0%N ->
  exists s' fk fv, owner_step compare by_pointer true true s (SAdd N mem k v') = Some (s', SBool N true, (fk, fv)) /\
  In k fk /\ In k (keys_held s') /\ (v <> 0%N -> In v fv /\ (v' = v -> In v (values_held s'))).
Proof.
  intros O Inv F I K. destruct (found_ok compare by_pointer O s l k Inv F) as [[_ H]|(s1 & a & k1 & v1 & b & Ne & E1 & Er & El & Z & Fd)].
  { exfalso. destruct Inv as (_ & So & _). assert (amap N compare l k = Some (k, v)) as X by (apply (amap_spec N compare O l So); split; [exact I|apply (cmp_refl N compare O)]). congruence. }
  assert ((k1, v1) = (k, v)) as Ek.
  { assert (Ha : amap N compare l k = Some (k, v)) by (apply (amap_spec N compare O l); [apply Inv|]; split; [exact I|apply (cmp_refl N compare O)]).
    assert (Hb : amap N compare l k = Some (k1, v1)) by (apply (amap_spec N compare O l); [apply Inv|]; split; [rewrite El; apply in_or_app; right; now left|now apply (cmp_eq N compare O)]). congruence. }
  injection Ek as -> ->. unfold owner_step. cbn [sstep]. unfold AddValueToSplayTree, freed_by_add. rewrite E1, Er, Fd. replace (compare k k =? 0)%Z with true by (symmetry; now apply Z.eqb_eq). cbn [out option_map].
  do 3 eexists. split; [reflexivity|]. rewrite rkey_own, rvalue_own. unfold keys_held, values_held, notnull. cbn [sp_root keys_of values_of]. unfold notnull. destruct (N.eqb_spec k 0); [contradiction|].
  split; [now left|]. split; [apply in_or_app; right; now left|]. intros Hv. destruct (N.eqb_spec v 0); [contradiction|]. split; [now left|]. intros ->. destruct (N.eqb_spec v 0); [contradiction|]. apply in_or_app. right. now left.
Qed.
Print Assumptions add_again_refuted.
Example add_again_ex : match owner_run tens false true true (NewSplayTree N) [SAdd N true 10 500; SAdd N true 20 501]%N with
  | Some (s, _, _) => In (10, 500)%N (inorder N (sp_root N s)) /\
      match owner_step tens false true true s (SAdd N true 10 500)%N with Some (s', r, f) => f = ([10], [500])%N /\ keys_held s' = [10; 20]%N /\ values_held s' = [500; 501]%N | None => False end
  | None => False end.
Proof. vm_compute. split; [now left|]. repeat split. Qed.

(** a call that does not walk reads, of what keys point to, the keys in the tree and the key it is given: it does the same whatever is elsewhere.
    A call that walks also reads the key of the iterator *)
Definition argument (s : SplayTreeInfo N) (o : sop N) : list N :=
  match o with
  | SAdd _ _ k _ | SGet _ k | SRemove _ k | SDelete _ k => [k]
  | SNextKey _ | SNextValue _ => match sp_next N s with Some k => [k] | None => [] end
  | _ => []
  end.
Definition keys_in (s : SplayTreeInfo N) : list N := map fst (inorder N (sp_root N s)).
Definition agree (c c' : N -> N -> Z) (l l' : list N) : Prop := forall x y, In x l -> In y l' -> c x y = c' x y.

Lemma Splay_agree c c' key : forall t d, (forall x, In x (map fst (inorder N t)) -> c x key = c' x key) -> Splay N c d key t = Splay N c' d key t.
Proof.
  induction t as [|l IHl k v r IHr]; intros d H; [reflexivity|]. cbn [inorder] in H. rewrite map_app in H. cbn [map fst] in H. cbn [Splay].
  rewrite <- (H k) by (apply in_or_app; right; now left). rewrite (IHl (S d)), (IHr (S d)); [reflexivity| |]; intros x I; apply H, in_or_app; [right; now right|now left].
Qed.
Lemma Link_incl fuel : forall nodes low high t, LinkSplayTreeNodes N fuel nodes low high = Some t -> incl (inorder N t) nodes.
Proof.
  induction fuel as [|fuel IH]; intros nodes low high t; [discriminate|]. cbn [LinkSplayTreeNodes]. set (m := low + _). destruct (nth_error nodes m) as [[k v]|] eqn:En; [|discriminate].
  destruct (if m <? low + 1 then _ else _) as [l|] eqn:El; [|discriminate]. destruct (if high <? m + 1 then _ else _) as [r|] eqn:Er; [|discriminate]. injection 1 as <-. cbn [inorder].
  apply nth_error_In in En. apply incl_app; [|apply incl_cons; [exact En|]].
  - destruct (m <? low + 1); [injection El as <-; intros ? []|eauto].
  - destruct (high <? m + 1); [injection Er as <-; intros ? []|eauto].
Qed.
Lemma SplaySplayTree_agree c c' s key : (forall x, In x (keys_in s) -> c x key = c' x key) -> SplaySplayTree N c false s key = SplaySplayTree N c' false s key.
Proof.
  intros H. unfold SplaySplayTree, keys_in in *. destruct (sp_root N s) as [|l k v r] eqn:Er; [reflexivity|]. rewrite <- Er in *.
  assert (c k key = c' k key) as -> by (apply H; rewrite Er; cbn [inorder]; rewrite map_app; apply in_or_app; right; now left).
  destruct (match sp_key N s with Some _ => _ | None => _ end); [reflexivity|]. rewrite (Splay_agree c c' key _ 0 H). destruct (Splay N c' 0 key (sp_root N s)); [reflexivity|].
  destruct (BalanceSplayTree N (sp_nodes N s) (sp_root N s)) as [t|] eqn:Eb; [|reflexivity]. rewrite (Splay_agree c c' key t 0); [reflexivity|]. intros x I. apply H.
  apply in_map_iff in I. destruct I as (e & <- & I). apply in_map. unfold BalanceSplayTree in Eb. destruct (_ <=? 2)%N; [injection Eb as <-; exact I|]. rewrite IterateOverSplayTree_ok in Eb. eapply Link_incl; eassumption.
Qed.
Lemma by_value_agree c c' l value : order N c -> fits N l -> agree c c' (map fst l) (map fst l) ->
  forall fuel s next, sinv N c s l -> (forall k, next = Some k -> In k (map fst l)) ->
  by_value_loop N c' false fuel s next value = by_value_loop N c false fuel s next value /\ found_value c' false fuel s next value = found_value c false fuel s next value.
Proof.
  intros O F A. assert (SA : forall s k, sinv N c s l -> In k (map fst l) -> SplaySplayTree N c' false s k = SplaySplayTree N c false s k).
  { intros s k Inv I. symmetry. apply SplaySplayTree_agree. intros x J. unfold keys_in in J. rewrite (proj1 Inv) in J. now apply A. }
  induction fuel as [|fuel IH]; intros s [key|] Inv Hn; try (split; reflexivity).
  cbn [by_value_loop found_value]. rewrite (SA s key Inv (Hn key eq_refl)). destruct (SplaySplayTree_ok N c false O s l key Inv F) as (s1 & E1 & Inv1 & _ & _). rewrite E1.
  destruct (sp_root N s1) as [|a k v b] eqn:Er; [split; reflexivity|]. assert (El : l = inorder N a ++ (k, v) :: inorder N b) by (rewrite <- (proj1 Inv1), Er; reflexivity).
  destruct (v =? value)%N.
  - rewrite (SA s1 k Inv1); [split; reflexivity|]. rewrite El, map_app. apply in_or_app. right. now left.
  - apply IH; [exact Inv1|]. intros k' Hk. rewrite (first_key_ok N) in Hk. rewrite El, map_app. apply in_or_app. right. right. destruct (inorder N b) as [|[k2 v2] b2]; [discriminate|]. injection Hk as ->. now left.
Qed.
Theorem splay_reads a b c c' s l o : order N c -> sinv N c s l -> fits N l -> agree c c' (keys_in s) (keys_in s ++ argument s o) ->
  owner_step c' false a b s o = owner_step c false a b s o.
Proof.
  intros O Inv F A.
  assert (SA : forall k, In k (argument s o) -> SplaySplayTree N c' false s k = SplaySplayTree N c false s k).
  { intros k I. symmetry. apply SplaySplayTree_agree. intros x J. apply A; [exact J|]. apply in_or_app. now right. }
  assert (El : keys_in s = map fst l) by (unfold keys_in; f_equal; apply Inv).
  assert (RA : forall k s1 a k1 v1 b, In k (argument s o) -> SplaySplayTree N c false s k = Some s1 -> sp_root N s1 = Node N a k1 v1 b -> c' k1 k = c k1 k).
  { intros k s1 a0 k1 v1 b0 I E1 Er. destruct (SplaySplayTree_ok N c false O s l k Inv F) as (s2 & E2 & Inv2 & _). rewrite E1 in E2. injection E2 as <-. symmetry. apply A; [|apply in_or_app; now right].
    rewrite El, <- (proj1 Inv2), Er. cbn [inorder]. rewrite map_app. apply in_or_app. right. now left. }
  assert (FA : forall k, In k (argument s o) -> found c' false s k = found c false s k).
  { intros k I. unfold found. destruct (sp_root N s); [reflexivity|]. rewrite (SA k I). destruct (SplaySplayTree N c false s k) as [s1|] eqn:E1; [|reflexivity]. destruct (sp_root N s1) eqn:Er; [reflexivity|]. now rewrite (RA _ _ _ _ _ _ I E1 Er). }
  assert (TA : forall k, In k (argument s o) -> take_node N c' false s k = take_node N c false s k).
  { intros k I. unfold take_node. destruct (sp_root N s); [reflexivity|]. rewrite (SA k I). destruct (SplaySplayTree N c false s k) as [s1|] eqn:E1; [|reflexivity]. change (sp_root N (clear_key N s1)) with (sp_root N s1). destruct (sp_root N s1) eqn:Er; [reflexivity|]. now rewrite (RA _ _ _ _ _ _ I E1 Er). }
  assert (BA : forall v, by_value_loop N c' false (size N (sp_root N s)) s (first_key N (sp_root N s)) v = by_value_loop N c false (size N (sp_root N s)) s (first_key N (sp_root N s)) v /\
     found_value c' false (size N (sp_root N s)) s (first_key N (sp_root N s)) v = found_value c false (size N (sp_root N s)) s (first_key N (sp_root N s)) v).
  { intros v. apply (by_value_agree c c' l v O F).
    - rewrite <- El. intros x y I J. apply A; [exact I|]. apply in_or_app. now left.
    - exact Inv.
    - intros k Hk. rewrite (first_key_ok N), (proj1 Inv) in Hk. destruct l as [|[k2 v2] l2]; [discriminate|]. injection Hk as ->. now left. }
  unfold owner_step. destruct o as [mem k v|k|k|k|v|v| | | | | ]; cbn [sstep argument] in *.
  - unfold AddValueToSplayTree, freed_by_add. rewrite (FA k) by now left. rewrite (SA k) by now left. destruct (SplaySplayTree N c false s k) as [s1|] eqn:E1; [|reflexivity]. destruct (sp_root N s1) eqn:Er; [reflexivity|]. rewrite (RA k _ _ _ _ _ (or_introl eq_refl) E1 Er). reflexivity.
  - unfold GetValueFromSplayTree. destruct (sp_root N s); [reflexivity|]. rewrite (SA k) by now left. destruct (SplaySplayTree N c false s k) as [s1|] eqn:E1; [|reflexivity]. destruct (sp_root N s1) eqn:Er; [reflexivity|]. rewrite (RA k _ _ _ _ _ (or_introl eq_refl) E1 Er). reflexivity.
  - unfold RemoveNodeFromSplayTree, freed_by_remove. rewrite (TA k), (FA k) by now left. reflexivity.
  - unfold DeleteNodeFromSplayTree, freed_by_delete. rewrite (TA k), (FA k) by now left. reflexivity.
  - unfold RemoveNodeByValueFromSplayTree, freed_by_remove_value. destruct (BA v) as [-> ->]. reflexivity.
  - unfold DeleteNodeByValueFromSplayTree, freed_by_delete_value. destruct (BA v) as [-> ->]. reflexivity.
  - unfold GetNextKeyInSplayTree, NextNode. destruct (sp_root N s) as [|ra rk rv rb]; [reflexivity|]. destruct (sp_next N s) as [k|]; [|reflexivity]. rewrite (SA k) by now left. reflexivity.
  - unfold GetNextValueInSplayTree, NextNode. destruct (sp_root N s) as [|ra rk rv rb]; [reflexivity|]. destruct (sp_next N s) as [k|]; [|reflexivity]. rewrite (SA k) by now left. reflexivity.
  - reflexivity.
  - reflexivity.
  - reflexivity.
Qed.
Print Assumptions splay_reads.

(** while the iterator walks, reading and adding calls that relinquish no key leave the key of the iterator in the tree *)
Definition walking (o : sop N) : bool := match o with SAdd _ _ _ _ => true | _ => reading N o end.
Definition next_in (s : SplayTreeInfo N) : Prop := forall k, sp_next N s = Some k -> k <> 0%N -> In k (keys_in s).
Lemma walk_step c bp s l o s' r fv : order N c -> sinv N c s l -> fits N l -> walking o = true -> next_in s -> owner_step c bp true true s o = Some (s', r, ([], fv)) -> next_in s'.
Proof.
  intros O Inv F W Nx H. unfold owner_step in H. destruct (sstep N c bp s o) as [[s1 r1]|] eqn:E1; [|discriminate].
  destruct o as [mem k v|k|k|k|v|v| | | | | ]; try discriminate W; cbn [sstep option_map] in *.
  - injection H as -> -> H. destruct (AddValueToSplayTree N c bp mem s k v) as [[s2 b]|] eqn:Ea; [|discriminate]. cbn [out] in E1. injection E1 as -> <-.
    pose proof (add_held c bp O _ _ _ _ _ _ _ Inv F Ea) as P. destruct (add_ok N c bp O mem s l k v Inv F) as (s3 & l3 & E3 & _ & _ & En & _). rewrite E3 in Ea. injection Ea as -> _.
    unfold next_in, keys_in in *. rewrite En. intros kn Hk Nz. specialize (Nx kn Hk Nz). rewrite (proj1 Inv) in Nx. apply in_map_iff in Nx. destruct Nx as ([k1 v1] & <- & Il). cbn [fst] in *.
    unfold freed_by_add in H. destruct (found c bp s k) as [[ok ov]|].
    + destruct P as [_ P]. injection H as H _. rewrite rkey_own in H. unfold notnull in H. destruct (N.eqb_spec ok 0) as [->|]; [|discriminate].
      assert (In (k1, v1) ((0%N, ov) :: inorder N (sp_root N s'))) as I2 by (eapply Permutation_in; [exact P|now right]). destruct I2 as [I2|I2]; [congruence|]. apply (in_map fst) in I2. exact I2.
    + assert (In (k1, v1) (inorder N (sp_root N s'))) as I2 by (eapply Permutation_in; [exact P|destruct b; [now right|exact Il]]). apply (in_map fst) in I2. exact I2.
  - injection H as -> -> _. destruct (get_ok N c bp O s l k Inv F) as (s2 & E2 & Inv2 & En). rewrite E2 in E1. cbn [out] in E1. injection E1 as <- <-. unfold next_in, keys_in in *. rewrite En, (proj1 Inv2), <- (proj1 Inv). exact Nx.
  - injection H as -> -> _. unfold GetNextKeyInSplayTree, NextNode in E1. destruct (sp_root N s) as [|a0 k0 v0 b0] eqn:Er0; [cbn [out] in E1; injection E1 as <- <-; exact Nx|]. destruct (sp_next N s) as [key|] eqn:En; [|cbn [out] in E1; injection E1 as <- <-; exact Nx].
    destruct (SplaySplayTree_ok N c bp O s l key Inv F) as (s2 & E2 & Inv2 & En2 & _). rewrite E2 in E1. destruct (sp_root N s2) as [|a k v b] eqn:Er2; cbn [out] in E1; injection E1 as <- <-.
    + unfold next_in, keys_in in *. rewrite En2, (proj1 Inv2), <- (proj1 Inv). exact Nx.
    + intros k1 Hk _. cbn [sp_next] in Hk. unfold keys_in. cbn [sp_root]. rewrite ?Er2. cbn [inorder]. rewrite map_app. apply in_or_app. right. right. rewrite (first_key_ok N) in Hk. destruct (inorder N b) as [|[k2 v2] b2]; [discriminate|]. injection Hk as ->. now left.
  - injection H as -> -> _. unfold GetNextValueInSplayTree, NextNode in E1. destruct (sp_root N s) as [|a0 k0 v0 b0] eqn:Er0; [cbn [out] in E1; injection E1 as <- <-; exact Nx|]. destruct (sp_next N s) as [key|] eqn:En; [|cbn [out] in E1; injection E1 as <- <-; exact Nx].
    destruct (SplaySplayTree_ok N c bp O s l key Inv F) as (s2 & E2 & Inv2 & En2 & _). rewrite E2 in E1. destruct (sp_root N s2) as [|a k v b] eqn:Er2; cbn [out] in E1; injection E1 as <- <-.
    + unfold next_in, keys_in in *. rewrite En2, (proj1 Inv2), <- (proj1 Inv). exact Nx.
    + intros k1 Hk _. cbn [sp_next] in Hk. unfold keys_in. cbn [sp_root]. rewrite ?Er2. cbn [inorder]. rewrite map_app. apply in_or_app. right. right. rewrite (first_key_ok N) in Hk. destruct (inorder N b) as [|[k2 v2] b2]; [discriminate|]. injection Hk as ->. now left.
  - injection H as -> -> _. injection E1 as <- <-. exact Nx.
Qed.
Theorem iterator_live c bp ops walk s rs f s' rs' fv : order N c -> (N.of_nat (length ops + length walk) < 2 ^ 1024)%N ->
  owner_run c bp true true (NewSplayTree N) ops = Some (s, rs, f) -> forallb walking walk = true ->
  owner_run c bp true true (ResetSplayTreeIterator N s) walk = Some (s', rs', ([], fv)) ->
  forall k, sp_next N s' = Some k -> k <> 0%N -> In k (keys_held s').
Proof.
  intros O B H W H'. destruct (run_owner c bp O ops _ _ (new_inv N c)) as (s0 & rs0 & fk0 & fv0 & l & E1 & Inv & Ln & _). { cbn [length]. generalize dependent (2 ^ 1024)%N. intros. lia. }
  rewrite H in E1. injection E1 as <- <- _. cbn [length] in Ln.
  assert (Inv' : sinv N c (ResetSplayTreeIterator N s) l). { destruct Inv as (I1 & I2 & I3 & I4). split; [exact I1|]. split; [exact I2|]. split; [exact I3|exact I4]. }
  assert (Nx : next_in (ResetSplayTreeIterator N s)). { intros k Hk _. unfold ResetSplayTreeIterator in Hk. cbn [sp_next] in Hk. rewrite (first_key_ok N) in Hk. unfold keys_in. cbn [ResetSplayTreeIterator sp_root]. destruct (inorder N (sp_root N s)) as [|[k2 v2] b2]; [discriminate|]. injection Hk as ->. now left. }
  assert (B' : (N.of_nat (length l + length walk) < 2 ^ 1024)%N) by (generalize dependent (2 ^ 1024)%N; intros; lia).
  assert (G : next_in s').
  { generalize dependent (ResetSplayTreeIterator N s). intros s1 H' Inv1 Nx1. clear Inv H Ln. revert s1 rs' fv l H' Inv1 Nx1 B'. induction walk as [|o walk IH]; intros s1 rs' fv l H' Inv1 Nx1 B'; cbn [owner_run] in H'; [injection H' as <- _ _; exact Nx1|].
    cbn [forallb] in W. apply andb_prop in W. destruct W as [Wo W]. cbn [length] in B'.
    assert (Fl : fits N l) by (unfold fits; generalize dependent (2 ^ 1024)%N; intros; lia).
    destruct (step_owner c bp O s1 l o Inv1 Fl) as (s2 & r2 & fk2 & fv2 & l2 & E2 & Inv2 & Ln2 & _). rewrite E2 in H'. destruct (owner_run c bp true true s2 walk) as [[[s3 rs3] [fk3 fv3]]|] eqn:E3; [|discriminate]. injection H' as <- _ Hk _.
    cbn [both fst snd] in Hk. apply app_eq_nil in Hk. destruct Hk as [-> ->].
    eapply (IH ltac:(cbn [length] in B; generalize dependent (2 ^ 1024)%N; intros; lia) W s2 rs3 fv3 l2 E3 Inv2).
    - exact (walk_step c bp s1 l o s2 r2 fv2 O Inv1 Fl Wo Nx1 E2).
    - generalize dependent (2 ^ 1024)%N. intros. lia. }
  intros k Hk Nz. specialize (G k Hk Nz). unfold keys_held. rewrite keys_of_inorder. unfold keys_in in G. apply in_map_iff in G. destruct G as ([k1 v1] & <- & I). unfold kk. apply in_flat_map. exists (k1, v1). split; [exact I|]. cbn [fst] in *. unfold notnull. destruct (N.eqb_spec k1 0); [contradiction|now left].
Qed.
Print Assumptions iterator_live.
Example iterator_live_ex : match owner_run tens false true true (NewSplayTree N) [SAdd N true 10 500; SAdd N true 30 501]%N with
  | Some (s, _, _) => match owner_run tens false true true (ResetSplayTreeIterator N s) [SNextKey N; SAdd N true 20 502; SGet N 10]%N with
     | Some (s', rs', f) => f = ([], []) /\ sp_next N s' = Some 30%N /\ nth 0 rs' (SUnit N) = SKey N (Some 10%N) | None => False end
  | None => False end.
Proof. vm_compute. repeat split. Qed.

(** but the key the iterator waits at may be deleted: it is relinquished, and the next call of the iterator reads it *)
Theorem iterator_stale_refuted c bp s k v l : order N c -> sinv N c s ((k, v) :: l) -> fits N ((k, v) :: l) -> l <> [] -> k <> 0%N ->
  exists s' fk fv, owner_run c bp true true s [SResetIterator N; SDelete N k] = Some (s', [SUnit N; SBool N true], (fk, fv)) /\
  In k fk /\ argument s' (SNextKey N) = [k] /\ keys_in s' = map fst l /\ ~ In k (keys_in s').
Proof.
  intros O Inv F Nl Nk. set (s0 := ResetSplayTreeIterator N s).
  assert (Inv0 : sinv N c s0 ((k, v) :: l)). { destruct Inv as (I1 & I2 & I3 & I4). split; [exact I1|]. split; [exact I2|]. split; [exact I3|exact I4]. }
  assert (Hn : sp_next N s0 = Some k). { unfold s0, ResetSplayTreeIterator. cbn [sp_next]. rewrite (first_key_ok N), (proj1 Inv). reflexivity. }
  destruct (splay_present N c bp O s0 [] k v l Inv0 F) as (s1 & a & b & E1 & Inv1 & En & Er & Ea & Eb).
  assert (Ne : sp_root N s0 <> E N). { intros X. destruct Inv0 as (I1 & _). rewrite X in I1. discriminate. }
  assert (Z : (c k k =? 0)%Z = true) by (apply Z.eqb_eq, (cmp_refl N c O)).
  assert (Fd : found c bp s0 k = Some (k, v)). { unfold found. destruct (sp_root N s0); [contradiction|]. now rewrite E1, Er, Z. }
  assert (Tk : take_node N c bp s0 k = Some (remove_root N (clear_key N s1), Some v)). { unfold take_node. destruct (sp_root N s0); [contradiction|]. rewrite E1. change (sp_root N (clear_key N s1)) with (sp_root N s1). now rewrite Er, Z. }
  cbn [owner_run]. unfold owner_step at 1. cbn [sstep option_map]. fold s0. unfold owner_step, sstep, DeleteNodeFromSplayTree, freed_by_delete. rewrite Tk, Fd. cbn [out option_map both nothing fst snd app]. rewrite rkey_own, rvalue_own.
  do 3 eexists. split; [reflexivity|]. assert (Hk : keys_in (remove_root N (clear_key N s1)) = map fst l). { unfold keys_in, remove_root, clear_key. cbn [sp_root]. rewrite Er. cbn [sp_root]. now rewrite (join_inorder N), Ea, Eb. }
  rewrite ?app_nil_r. split; [unfold notnull; destruct (N.eqb_spec k 0); [contradiction|now left]|]. split; [|split; [exact Hk|]].
  - unfold argument, remove_root, clear_key. cbn [sp_root]. rewrite Er. cbn [sp_next]. now rewrite En, Hn.
  - rewrite Hk. intros I. apply in_map_iff in I. destruct I as ([k1 v1] & X & I). cbn [fst] in X. subst k1. destruct Inv as (_ & So & _). apply StronglySorted_inv in So. destruct So as [_ So]. rewrite Forall_forall in So. specialize (So _ I). unfold before in So. cbn [fst] in So. apply Z.eqb_eq in Z. lia.
Qed.
Print Assumptions iterator_stale_refuted.
(** so what is in memory that is no longer the tree's decides what the iterator answers *)
Theorem iterator_freed_refuted : exists ops c c' s rs fk fv p,
  owner_run c false true true (NewSplayTree N) ops = Some (s, rs, (fk, fv)) /\ In p fk /\ NoDup (keys_taken ops rs) /\ order N c /\ order N c' /\ (forall x y, x <> p -> y <> p -> c x y = c' x y) /\
  option_map (fun x => snd (fst x)) (owner_step c false true true s (SNextKey N)) <> option_map (fun x => snd (fst x)) (owner_step c' false true true s (SNextKey N)).
Proof.
  exists [SAdd N true 10 500; SAdd N true 20 501; SAdd N true 30 502; SResetIterator N; SDelete N 10]%N, tens, (fun x y => tens (if x =? 10 then 40 else x) (if y =? 10 then 40 else y))%N.
  do 4 eexists. exists 10%N. split; [vm_compute; reflexivity|]. split; [now left|]. split; [repeat constructor; cbn; intuition discriminate|]. split; [exact tens_order|]. split.
  { split; unfold tens; intros; lia. }
  split; [|vm_compute; discriminate]. intros x y Hx Hy. destruct (N.eqb_spec x 10); [contradiction|]. destruct (N.eqb_spec y 10); [contradiction|reflexivity].
Qed.
Print Assumptions iterator_freed_refuted.
Example iterator_stale_ex : match owner_run tens false true true (NewSplayTree N) [SAdd N true 10 500; SAdd N true 20 501; SAdd N true 30 502]%N with
  | Some (s, _, _) => inorder N (sp_root N s) = [(10, 500); (20, 501); (30, 502)]%N /\
      match owner_run tens false true true s [SResetIterator N; SDelete N 10]%N with Some (s', _, f) => f = ([10], [500])%N /\ sp_next N s' = Some 10%N | None => False end
  | None => False end.
Proof. vm_compute. repeat split. Qed.
