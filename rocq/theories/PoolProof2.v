(** RemoveFreeBlock and InsertFreeBlock keep the invariant of PoolProof. *)
From Coq Require Import Arith NArith ZArith Bool List Lia Sorted ZifyBool ZifyNat ZifyN.
From Verif Require Import Outcome PoolModel PoolProof.
Import ListNotations.
Local Open Scope N_scope.
Ltac Zify.zify_post_hook ::= Z.div_mod_to_equations.

Definition with_mem (st : pool) (m bl : N -> N) : pool := mkPool m bl (mapped st) (number st).
Lemma rd_ok st ch L a c p : Good st ch L -> ch a = Some c -> a - 8 <= p -> p + 16 <= a + extent c -> p mod 8 = 0 -> rd st p = Ok (mem st p).
Proof. intros G C P1 P2 P3. unfold rd. now rewrite (i_in _ _ _ _ _ G a c p). Qed.
Lemma wr_ok st ch L a c p v : Good st ch L -> ch a = Some c -> a - 8 <= p -> p + 16 <= a + extent c -> p mod 8 = 0 ->
  wr p v st = Ok (with_mem st (upd (mem st) p v) (blocks st)).
Proof. intros G C P1 P2 P3. unfold wr. now rewrite (i_in _ _ _ _ _ G a c p). Qed.
(** with the region of a chunk only *)
Definition region (mp : list (N * N)) (ch : heap) : Prop :=
  forall a c p, ch a = Some c -> a - 8 <= p -> p + 16 <= a + extent c -> p mod 8 = 0 -> inside mp p = true.
Lemma wr_region st ch a c p v : region (mapped st) ch -> ch a = Some c -> a - 8 <= p -> p + 16 <= a + extent c -> p mod 8 = 0 ->
  wr p v st = Ok (with_mem st (upd (mem st) p v) (blocks st)).
Proof. intros G C P1 P2 P3. unfold wr. now rewrite (G a c p). Qed.
Lemma rd_region st ch a c p : region (mapped st) ch -> ch a = Some c -> a - 8 <= p -> p + 16 <= a + extent c -> p mod 8 = 0 -> rd st p = Ok (mem st p).
Proof. intros G C P1 P2 P3. unfold rd. now rewrite (G a c p). Qed.

Lemma free_facts m bl mp ch L a c : Inv m bl mp ch L -> ch a = Some c -> ending (c_kind c) = false ->
  a mod 16 = 0 /\ 16 <= a /\ c_size c mod 32 = 0 /\ 32 <= c_size c /\ extent c = c_size c.
Proof. intros I C E. pose proof (i_al _ _ _ _ _ I _ _ C). pose proof (i_sz _ _ _ _ _ I _ _ C) as Z. unfold extent. rewrite E in *. tauto. Qed.

Lemma sorted_app {A} (R : A -> A -> Prop) l1 l2 : StronglySorted R (l1 ++ l2) <->
  StronglySorted R l1 /\ StronglySorted R l2 /\ (forall x y, In x l1 -> In y l2 -> R x y).
Proof.
  induction l1 as [|a l1 IH]; cbn [app].
  - split; [intros H; repeat split; [constructor|assumption|intros x y []]|tauto].
  - split.
    + intros H. inversion H as [|? ? H1 H2]; subst. apply IH in H1 as (S1 & S2 & H1). rewrite Forall_app in H2. destruct H2 as [F1 F2].
      split; [now constructor|]. split; [assumption|]. intros x y [<-|X] Y; [|auto]. rewrite Forall_forall in F2. auto.
    + intros (S1 & S2 & H). inversion S1 as [|? ? H1 H2]; subst. constructor.
      * apply IH. split; [assumption|]. split; [assumption|]. intros x y X Y. apply H; [now right|assumption].
      * apply Forall_app. split; [assumption|]. apply Forall_forall. intros y Y. apply H; [now left|assumption].
Qed.

(** a chain without one element *)
Definition bypass (m : N -> N) (l1 l2 : list N) : N -> N :=
  let m1 := match l1 with [] => m | _ => upd m (last l1 0) (hd 0 l2) end in
  match l2 with [] => m1 | y :: _ => upd m1 (y + 8) (last l1 0) end.
Lemma last_in (l : list N) d : l <> [] -> In (last l d) l.
Proof. intros H. destruct (exists_last H) as (l' & x & ->). rewrite last_last. apply in_or_app. right. now left. Qed.
Lemma last_default (l : list N) d d' : l <> [] -> last l d = last l d'.
Proof. intros H. destruct (exists_last H) as (l' & x & ->). now rewrite !last_last. Qed.
Lemma chain_without m h l1 a l2 : NoDup (l1 ++ a :: l2) -> Forall (fun a => a mod 16 = 0) (l1 ++ a :: l2) -> chain m 0 h (l1 ++ a :: l2) 0 ->
  m a = hd 0 l2 /\ m (a + 8) = last l1 0 /\ chain (bypass m l1 l2) 0 (match l1 with [] => hd 0 l2 | _ => h end) (l1 ++ l2) 0.
Proof.
  intros D M C. apply chain_app in C as (k & C1 & C2). cbn [chain] in C2. destruct C2 as (-> & Ca & C2).
  assert (m a = hd 0 l2) as Hn by (destruct l2; cbn [chain hd] in *; [assumption|tauto]). split; [assumption|]. split; [assumption|].
  apply NoDup_remove in D as [D Da]. rewrite Forall_app in M. destruct M as [M1 M2]. inversion M2 as [|? ? Ma M3]; subst.
  assert (NoDup l1 /\ NoDup l2 /\ forall x, In x l1 -> ~ In x l2) as (D1 & D2 & D12).
  { clear - D. induction l1 as [|x l1 IH]; cbn [app] in D; [repeat split; [constructor|assumption|intros x []]|]. inversion D as [|? ? X D']; subst.
    destruct (IH D') as (A & B & E). split; [|split; [assumption|]].
    - constructor; [|assumption]. intros Q. apply X. apply in_or_app. now left.
    - intros y [<-|Y]; [|auto]. intros Q. apply X. apply in_or_app. now right. }
  apply chain_app. exists (hd 0 l2).
  assert (forall x y, In x (l1 ++ l2) -> In y (l1 ++ l2) -> x <> y + 8) as Sep.
  { intros x y X Y. assert (forall z, In z (l1 ++ l2) -> z mod 16 = 0) as W.
    { intros z Z. apply in_app_or in Z as [Z|Z]; [rewrite Forall_forall in M1|rewrite Forall_forall in M3]; auto. }
    specialize (W x X) as W1. specialize (W y Y). lia. }
  unfold bypass. split.
  - destruct l2 as [|y l2].
    + destruct l1 as [|x l1]; [reflexivity|]. apply chain_exit with (n := a); [discriminate|assumption|assumption|exact C1].
    + eapply chain_frame with (m := match l1 with [] => m | _ => upd m (last l1 0) y end).
      * intros x X. assert (In x (l1 ++ y :: l2)) as X' by (apply in_or_app; now left). assert (In y (l1 ++ y :: l2)) as Y' by (apply in_or_app; right; now left).
        rewrite !upd_other; [split; reflexivity| |]; [|now apply Sep]. intros Q. assert (x = y) by lia. subst. apply (D12 y X). now left.
      * destruct l1 as [|x l1]; [reflexivity|]. apply chain_exit with (n := a); [discriminate|assumption|assumption|exact C1].
  - destruct l2 as [|y l2]; [reflexivity|]. cbn [hd].
    apply chain_entry with (p := a); [now inversion D2|assumption|].
    assert (chain m a y (y :: l2) 0) as C3 by (cbn [hd] in Hn; rewrite Hn in C2; exact C2).
    destruct l1 as [|x l1]; [exact C3|]. eapply chain_frame; [|exact C3]. intros z Z.
    pose proof (last_in (x :: l1) 0 ltac:(discriminate)) as Li.
    rewrite !upd_other; [split; reflexivity| |].
    + intros Q. symmetry in Q. revert Q. apply Sep; apply in_or_app; tauto.
    + intros ->. exact (D12 _ Li Z).
Qed.
(** a chain with one element more *)
Definition insert (m : N -> N) (l1 : list N) (a : N) (l2 : list N) : N -> N :=
  let m1 := upd (upd m (a + 8) (last l1 0)) a (hd 0 l2) in
  let m2 := match l1 with [] => m1 | _ => upd m1 (last l1 0) a end in
  match l2 with [] => m2 | y :: _ => upd m2 (y + 8) a end.
Lemma chain_with m h l1 a l2 : NoDup (l1 ++ a :: l2) -> Forall (fun a => a mod 16 = 0) (l1 ++ a :: l2) -> chain m 0 h (l1 ++ l2) 0 ->
  chain (insert m l1 a l2) 0 (match l1 with [] => a | _ => h end) (l1 ++ a :: l2) 0.
Proof.
  intros D M C. apply chain_app in C as (k & C1 & C2).
  assert (k = hd 0 l2) as -> by (destruct l2; cbn [chain hd] in *; [assumption|tauto]).
  assert (forall x y, In x (l1 ++ a :: l2) -> In y (l1 ++ a :: l2) -> x <> y + 8) as Sep.
  { intros x y X Y. rewrite Forall_forall in M. pose proof (M x X). pose proof (M y Y). lia. }
  apply NoDup_remove in D as [D Da]. rewrite Forall_app in M. destruct M as [M1 M2]. inversion M2 as [|? ? Ma M3]; subst.
  assert (NoDup l1 /\ NoDup l2 /\ forall x, In x l1 -> ~ In x l2) as (D1 & D2 & D12).
  { clear - D. induction l1 as [|x l1 IH]; cbn [app] in D; [repeat split; [constructor|assumption|intros x []]|]. inversion D as [|? ? X D']; subst.
    destruct (IH D') as (A & B & E). split; [|split; [assumption|]].
    - constructor; [|assumption]. intros Q. apply X. apply in_or_app. now left.
    - intros y [<-|Y]; [|auto]. intros Q. apply X. apply in_or_app. now right. }
  assert (forall x, In x l1 -> In x (l1 ++ a :: l2)) as I1 by (intros; apply in_or_app; tauto).
  assert (forall x, In x l2 -> In x (l1 ++ a :: l2)) as I2 by (intros; apply in_or_app; right; now right).
  assert (In a (l1 ++ a :: l2)) as Ia by (apply in_or_app; right; now left).
  set (m1 := upd (upd m (a + 8) (last l1 0)) a (hd 0 l2)).
  assert (forall x, In x (l1 ++ l2) -> m1 x = m x /\ m1 (x + 8) = m (x + 8)) as F1.
  { intros x X. unfold m1. assert (x <> a) by (intros ->; auto). assert (In x (l1 ++ a :: l2)) by (apply in_app_or in X as [X|X]; auto).
    pose proof (Sep x a). pose proof (Sep a x). rewrite !upd_other; try tauto; intros Q; try lia; try (apply H1; auto; fail). }
  apply chain_app. exists a. split.
  - assert (chain (match l1 with [] => m1 | _ => upd m1 (last l1 0) a end) 0 (match l1 with [] => a | _ => h end) l1 a) as E.
    { destruct l1 as [|x l1]; [reflexivity|]. apply chain_exit with (n := hd 0 l2); [discriminate|assumption|assumption|].
      eapply chain_frame; [|exact C1]. intros y Y. apply F1. apply in_or_app. now left. }
    unfold insert. fold m1. destruct l2 as [|y l2]; [exact E|]. eapply chain_frame; [|exact E]. intros x X.
    rewrite !upd_other; [split; reflexivity| |apply Sep; auto using in_eq].
    intros Q. assert (x = y) by lia. subst. apply (D12 y X). now left.
  - cbn [chain]. split; [reflexivity|].
    assert (insert m l1 a l2 (a + 8) = last l1 0) as ->.
    { unfold insert. fold m1. assert (match l1 with [] => m1 | _ => upd m1 (last l1 0) a end (a + 8) = last l1 0) as E.
      { destruct l1 as [|x l1]; [unfold m1; rewrite upd_other by lia; apply upd_same|]. rewrite upd_other.
        - unfold m1. rewrite upd_other by lia. apply upd_same.
        - apply not_eq_sym. apply Sep; [apply I1; now apply last_in|assumption]. }
      destruct l2 as [|y l2]; [exact E|]. rewrite upd_other; [exact E|]. intros Q. apply Da. apply in_or_app. right. left. lia. }
    assert (insert m l1 a l2 a = hd 0 l2) as ->.
    { unfold insert. fold m1. assert (match l1 with [] => m1 | _ => upd m1 (last l1 0) a end a = hd 0 l2) as E.
      { destruct l1 as [|x l1]; [apply upd_same|]. rewrite upd_other; [apply upd_same|]. intros Q. apply Da. apply in_or_app. left. rewrite Q. now apply last_in. }
      destruct l2 as [|y l2]; [exact E|]. rewrite upd_other; [exact E|]. apply Sep; auto using in_eq. }
    split; [reflexivity|].
    destruct l2 as [|y l2]; [reflexivity|]. cbn [hd]. unfold insert. fold m1.
    apply chain_entry with (p := last l1 0); [now inversion D2|assumption|].
    assert (chain m1 (last l1 0) y (y :: l2) 0) as C3.
    { eapply chain_frame; [|exact C2]. intros z Z. apply F1. apply in_or_app. now right. }
    destruct l1 as [|x l1]; [exact C3|]. eapply chain_frame; [|exact C3]. intros z Z.
    pose proof (last_in (x :: l1) 0 ltac:(discriminate)) as Li.
    rewrite !upd_other; [split; reflexivity| |].
    + apply not_eq_sym. apply Sep; [apply I1; exact Li|apply I2; exact Z].
    + intros ->. exact (D12 _ Li Z).
Qed.

Lemma free_list m bl mp ch L i : Inv m bl mp ch L -> Forall (fun a => a mod 16 = 0) (L i) /\
  Forall (fun a => 16 <= a /\ exists c, ch a = Some c /\ c_kind c = Free /\ policy (c_size c) = i) (L i).
Proof.
  intros I. split; apply Forall_forall; intros x X; apply (i_ls _ _ _ _ _ I) in X as (d & X & K & P); pose proof (i_al _ _ _ _ _ I _ _ X); [tauto|].
  split; [tauto|]. now exists d.
Qed.
(** what the relinking leaves *)
Definition outside_links (ch : heap) (a p : N) : Prop := forall x d, ch x = Some d -> c_kind d = Free -> x <> a -> p <> x /\ p <> x + 8.

Lemma remove_ok st ch L a c : Good st ch L -> ch a = Some c -> c_kind c = Free -> exists st' L',
  RemoveFreeBlock a (policy (c_size c)) st = Ok st' /\ mapped st' = mapped st /\ number st' = number st /\
  Good st' (set ch a (Some (mkChunk (c_size c) Loose (c_prev c)))) L' /\
  (forall j, (length (L' j) <= length (L j))%nat) /\
  (forall p, outside_links ch a p -> mem st' p = mem st p).
Proof.
  intros G C K. set (i := policy (c_size c)).
  pose proof (policy_bound (c_size c)) as Pb. fold i in Pb.
  assert (In a (L i)) as Ia by (apply (i_ls _ _ _ _ _ G); exists c; auto).
  destruct (free_list _ _ _ _ _ i G) as [M F]. pose proof (i_nd _ _ _ _ _ G i) as D. pose proof (i_dl _ _ _ _ _ G i Pb) as Ch. pose proof (i_so _ _ _ _ _ G i) as So.
  destruct (in_split _ _ Ia) as (l1 & l2 & E). rewrite E in M, F, D, Ch, So.
  destruct (chain_without _ _ _ _ _ D M Ch) as (H1 & H2 & H3).
  assert (forall x, In x (l1 ++ l2) -> In x (L i) /\ x <> a) as Inn.
  { intros x X. rewrite E. apply NoDup_remove in D as [_ D]. split; [|intros ->; contradiction]. apply in_or_app. apply in_app_or in X as [X|X]; [now left|right; now right]. }
  assert (forall x, In x (l1 ++ l2) -> 16 <= x /\ exists d, ch x = Some d /\ c_kind d = Free /\ 32 <= c_size d /\ extent d = c_size d /\ x mod 16 = 0 /\ x <> a) as Fx.
  { intros x X. apply Inn in X as [X Xa]. apply (i_ls _ _ _ _ _ G) in X as (d & X & Kd & _).
    destruct (free_facts _ _ _ _ _ _ _ G X ltac:(now rewrite Kd)) as (? & ? & ? & ? & ?). split; [assumption|]. exists d. auto 8. }
  set (bl' := match l1 with [] => upd (blocks st) i (hd 0 l2) | _ => blocks st end).
  set (L' := fun j => if j =? i then l1 ++ l2 else L j).
  exists (with_mem st (bypass (mem st) l1 l2) bl'), L'.
  destruct (free_facts _ _ _ _ _ _ _ G C ltac:(now rewrite K)) as (A1 & A2 & S1 & S2 & Ex).
  assert (forall p, (forall x, In x (l1 ++ l2) -> p <> x /\ p <> x + 8) -> bypass (mem st) l1 l2 p = mem st p) as Fr.
  { intros p P. unfold bypass.
    assert (match l1 with [] => mem st | _ => upd (mem st) (last l1 0) (hd 0 l2) end p = mem st p) as Q.
    { destruct l1 as [|x l1]; [reflexivity|]. apply upd_other. apply P. apply in_or_app. left. now apply last_in. }
    destruct l2 as [|y l2]; [exact Q|]. rewrite upd_other; [exact Q|]. apply P. apply in_or_app. right. now left. }
  split; [|split; [reflexivity|split; [reflexivity|split; [|split]]]].
  - unfold RemoveFreeBlock. rewrite (rd_ok st ch L a c a G C) by lia. cbn [bind].
    rewrite (rd_ok st ch L a c (a + 8) G C) by lia. cbn [bind]. rewrite H1, H2.
    assert ((if last l1 0 =? 0 then Ok (set_head i (hd 0 l2) st) else wr (last l1 0) (hd 0 l2) st) =
            Ok (with_mem st (match l1 with [] => mem st | _ => upd (mem st) (last l1 0) (hd 0 l2) end) bl')) as ->.
    { unfold bl'. destruct l1 as [|x l1]; [reflexivity|].
      destruct (Fx (last (x :: l1) 0)) as (X1 & d & X2 & X3 & X4 & X5 & X6 & _); [apply in_or_app; left; now apply last_in|].
      destruct (N.eqb_spec (last (x :: l1) 0) 0); [lia|]. erewrite wr_ok; [reflexivity|exact G|exact X2|lia|lia|lia]. }
    cbn [bind]. destruct l2 as [|y l2]; [reflexivity|]. cbn [hd].
    destruct (Fx y) as (X1 & d & X2 & X3 & X4 & X5 & X6 & _); [apply in_or_app; right; now left|].
    destruct (N.eqb_spec y 0); [lia|]. erewrite wr_region; [reflexivity|exact (i_in _ _ _ _ _ G)|exact X2|lia|lia|lia].
  - unfold Good, with_mem. cbn [mem blocks mapped].
    apply (relink _ _ _ _ _ a c Loose _ _ L' G C); auto.
    + intros p P. apply Fr. intros x X. destruct (Fx x X) as (_ & d & X2 & X3 & _). eapply P; eauto.
    + discriminate.
    + intros j x. unfold L'. destruct (N.eqb_spec j i) as [->|Nj].
      * split.
        -- intros X. destruct (Inn x X) as [X1 X2]. apply (i_ls _ _ _ _ _ G) in X1 as (d & X1 & X3 & X4). exists d. rewrite set_other by assumption. auto.
        -- intros (d & X1 & X2 & X3). destruct (N.eq_dec x a) as [->|Na]; [rewrite set_same in X1; injection X1 as <-; discriminate|].
           rewrite set_other in X1 by assumption. assert (In x (L i)) as X by (apply (i_ls _ _ _ _ _ G); now exists d).
           rewrite E in X. apply in_or_app. apply in_app_or in X as [X|[X|X]]; [now left|congruence|now right].
      * rewrite (i_ls _ _ _ _ _ G j x). split; intros (d & X1 & X2 & X3); exists d; (split; [|auto]).
        -- rewrite set_other; [assumption|]. intros ->. rewrite C in X1. injection X1 as <-. apply Nj. now symmetry.
        -- destruct (N.eq_dec x a) as [->|Na]; [rewrite set_same in X1; injection X1 as <-; discriminate|]. now rewrite set_other in X1 by assumption.
    + intros j. unfold L'. destruct (j =? i); [|apply (i_nd _ _ _ _ _ G)]. now apply NoDup_remove in D.
    + intros j. unfold L'. destruct (j =? i); [|apply (i_so _ _ _ _ _ G)].
      apply sorted_app in So as (T1 & T2 & T3). inversion T2; subst. apply sorted_app. split; [assumption|]. split; [assumption|]. intros x y X Y. apply T3; [assumption|now right].
    + intros j Jb. unfold L'. destruct (N.eqb_spec j i) as [->|Nj].
      * assert (bl' i = match l1 with [] => hd 0 l2 | _ => blocks st i end) as -> by (unfold bl'; destruct l1; [apply upd_same|reflexivity]). exact H3.
      * assert (bl' j = blocks st j) as -> by (unfold bl'; destruct l1; [now apply upd_other|reflexivity]).
        eapply chain_frame; [|exact (i_dl _ _ _ _ _ G j Jb)]. intros x X. apply (i_ls _ _ _ _ _ G) in X as (e & X1 & X2 & X3).
        assert (forall y, In y (l1 ++ l2) -> x <> y) as Ny.
        { intros y Y ->. apply Inn in Y as [Y _]. apply (i_ls _ _ _ _ _ G) in Y as (e' & Y1 & Y2 & Y3). rewrite X1 in Y1. injection Y1 as <-. congruence. }
        pose proof (i_al _ _ _ _ _ G _ _ X1). split; apply Fr; intros y Y; destruct (Fx y Y) as (_ & f & Y1 & _ & _ & _ & Y2 & _); specialize (Ny y Y); lia.
    + unfold bl'. destruct l1; [|apply (i_se _ _ _ _ _ G)]. rewrite upd_other by lia. apply (i_se _ _ _ _ _ G).
  - intros j. unfold L'. destruct (N.eqb_spec j i) as [->|]; [|lia]. rewrite E, !app_length. cbn [length]. lia.
  - intros p P. cbn [with_mem mem]. apply Fr. intros x X. destruct (Fx x X) as (_ & d & X2 & X3 & _ & _ & _ & Xa). eapply P; eauto.
Qed.

Lemma size_ok st ch L a c : Good st ch L -> ch a = Some c -> match c_kind c with Loose | Raw => False | _ => True end -> SizeOfBlock st a = Ok (c_size c).
Proof.
  intros G C K. pose proof (i_al _ _ _ _ _ G _ _ C). pose proof (i_sz _ _ _ _ _ G _ _ C) as Z. pose proof (i_hd _ _ _ _ _ G _ _ C) as Hh. unfold SizeOfBlock.
  rewrite (rd_ok st ch L a c (a - 8) G C); [|lia| |lia].
  - cbn [bind]. assert (mem st (a - 8) = c_size c + b2n (c_prev c)) as -> by (destruct (c_kind c); tauto).
    f_equal. unfold size_mask. destruct (c_prev c), (ending (c_kind c)); cbn [b2n]; lia.
  - unfold extent. destruct (ending (c_kind c)); lia.
Qed.
Lemma size_header st ch a c : region (mapped st) ch -> ch a = Some c -> 16 <= a -> a mod 16 = 0 -> c_size c mod 32 = 0 -> 32 <= extent c ->
  mem st (a - 8) = c_size c + b2n (c_prev c) -> SizeOfBlock st a = Ok (c_size c).
Proof.
  intros R C A A2 Z Ex H. unfold SizeOfBlock. rewrite (rd_region st ch a c (a - 8) R C); [|lia|lia|lia]. cbn [bind]. now rewrite H, size_mask_eq.
Qed.

(** the place in a sorted list *)
Lemma find_place_ok st ch L size : Good st ch L -> forall l fuel prev h, (forall x, In x l -> exists d, ch x = Some d /\ c_kind d = Free) ->
  chain (mem st) prev h l 0 -> (length l < fuel)%nat -> exists l1 l2, l = l1 ++ l2 /\
  find_place fuel st size prev h = Ok (last l1 prev, hd 0 l2) /\ Forall (fun x => size_at ch x < size) l1 /\
  match l2 with [] => True | y :: _ => size <= size_at ch y end.
Proof.
  intros G. induction l as [|x l IH]; intros fuel prev h Fx C Lf; destruct fuel as [|fuel]; cbn [length] in Lf; try lia.
  - cbn [chain] in C. subst h. exists [], []. repeat split; constructor.
  - cbn [chain] in C. destruct C as (-> & C1 & C2). destruct (Fx x (or_introl eq_refl)) as (d & X & K).
    destruct (free_facts _ _ _ _ _ _ _ G X ltac:(now rewrite K)) as (A1 & A2 & S1 & S2 & Ex).
    cbn [find_place]. destruct (N.eqb_spec x 0); [lia|]. rewrite (size_ok st ch L x d G X) by (now rewrite K). cbn [bind].
    destruct (N.ltb_spec (c_size d) size).
    + rewrite (rd_ok st ch L x d x G X) by lia. cbn [bind].
      destruct (IH fuel x (mem st x)) as (l1 & l2 & E & H1 & H2 & H3); [intros y Y; apply Fx; now right|assumption|lia|].
      exists (x :: l1), l2. subst l. split; [reflexivity|]. split; [|split; [|assumption]].
      * rewrite H1. do 2 f_equal. clear. revert x prev. induction l1 as [|y l1 IH]; intros x prev; [reflexivity|]. change (last (x :: y :: l1) prev) with (last (y :: l1) prev). now rewrite <- (IH y prev), <- (IH y x).
      * constructor; [|assumption]. unfold size_at. now rewrite X.
    + exists [], (x :: l). repeat split; [constructor|]. unfold size_at. rewrite X. assumption.
Qed.

Lemma insert_ok fuel st ch L a c : Good st ch L -> ch a = Some c -> c_kind c = Loose ->
  mem st (a - 8) = c_size c + b2n (c_prev c) -> mem st (a + c_size c - 16) = c_size c ->
  (forall d, ch (a + c_size c) = Some d -> c_kind d <> Free) -> (forall p d, ch p = Some d -> c_kind d = Free -> p + c_size d <> a) ->
  (length (L (policy (c_size c))) < fuel)%nat -> exists st' L',
  InsertFreeBlock fuel a (policy (c_size c)) st = Ok st' /\ mapped st' = mapped st /\ number st' = number st /\
  Good st' (set ch a (Some (mkChunk (c_size c) Free (c_prev c)))) L' /\
  (forall j, (length (L' j) <= S (length (L j)))%nat) /\
  (forall p, outside_links ch a p -> p <> a -> p <> a + 8 -> mem st' p = mem st p).
Proof.
  intros G C K Hh Hf Hn Hp Lf. set (i := policy (c_size c)) in *.
  pose proof (policy_bound (c_size c)) as Pb. fold i in Pb.
  destruct (free_list _ _ _ _ _ i G) as [M F]. pose proof (i_nd _ _ _ _ _ G i) as D. pose proof (i_dl _ _ _ _ _ G i Pb) as Ch. pose proof (i_so _ _ _ _ _ G i) as So.
  destruct (free_facts _ _ _ _ _ _ _ G C ltac:(now rewrite K)) as (A1 & A2 & S1 & S2 & Ex).
  destruct (find_place_ok st ch L (c_size c) G (L i) fuel 0 (blocks st i)) as (l1 & l2 & E & H1 & H2 & H3).
  { intros x X. apply (i_ls _ _ _ _ _ G) in X as (d & X1 & X2 & _). now exists d. }
  { exact Ch. }
  { exact Lf. }
  rewrite E in M, F, D, Ch, So.
  assert (forall x, In x (l1 ++ l2) -> 16 <= x /\ exists d, ch x = Some d /\ c_kind d = Free /\ 32 <= c_size d /\ extent d = c_size d /\ x mod 16 = 0 /\ x <> a) as Fx.
  { intros x X. rewrite <- E in X. apply (i_ls _ _ _ _ _ G) in X as (d & X & Kd & _).
    destruct (free_facts _ _ _ _ _ _ _ G X ltac:(now rewrite Kd)) as (? & ? & ? & ? & ?). split; [assumption|]. exists d. repeat split; auto. intros ->. congruence. }
  assert (~ In a (l1 ++ l2)) as Na by (intros X; destruct (Fx a X) as (_ & d & _ & _ & _ & _ & _ & Q); congruence).
  assert (NoDup (l1 ++ a :: l2)) as D'.
  { clear - D Na. induction l1 as [|x l1 IH]; cbn [app] in *; [now constructor|]. inversion D as [|? ? X D2]; subst. constructor.
    - intros Q. apply in_app_or in Q as [Q|[Q|Q]]; [apply X; apply in_or_app; now left|subst; apply Na; now left|apply X; apply in_or_app; now right].
    - apply IH; [assumption|]. intros Q. apply Na. now right. }
  assert (Forall (fun a => a mod 16 = 0) (l1 ++ a :: l2)) as M' by (rewrite Forall_app in *; destruct M; split; [assumption|now constructor]).
  pose proof (chain_with _ _ _ _ _ D' M' Ch) as H4.
  set (bl' := match l1 with [] => upd (blocks st) i a | _ => blocks st end).
  set (L' := fun j => if j =? i then l1 ++ a :: l2 else L j).
  exists (with_mem st (insert (mem st) l1 a l2) bl'), L'.
  assert (forall p, (forall x, In x (l1 ++ l2) -> p <> x /\ p <> x + 8) -> p <> a -> p <> a + 8 -> insert (mem st) l1 a l2 p = mem st p) as Fr.
  { intros p P P1 P2. unfold insert.
    assert (match l1 with [] => upd (upd (mem st) (a + 8) (last l1 0)) a (hd 0 l2) | _ => upd (upd (upd (mem st) (a + 8) (last l1 0)) a (hd 0 l2)) (last l1 0) a end p = mem st p) as Q.
    { destruct l1 as [|x l1]; [now rewrite !upd_other|]. rewrite !upd_other; auto. apply P. apply in_or_app. left. now apply last_in. }
    destruct l2 as [|y l2]; [exact Q|]. rewrite upd_other; [exact Q|]. apply P. apply in_or_app. right. now left. }
  split; [|split; [reflexivity|split; [reflexivity|split; [|split]]]].
  - unfold InsertFreeBlock. rewrite (size_header st ch a c (i_in _ _ _ _ _ G) C A2 A1 S1 ltac:(lia) Hh). cbn [bind].
    rewrite H1. cbn [bind].
    rewrite (wr_ok st ch L a c (a + 8) _ G C) by lia. cbn [bind].
    erewrite (wr_region _ ch a c a); [|exact (i_in _ _ _ _ _ G)|exact C|lia|lia|lia]. cbn [bind with_mem mem blocks].
    set (m1 := upd (upd (mem st) (a + 8) (last l1 0)) a (hd 0 l2)).
    match goal with |- bind ?e _ = _ => assert (e = Ok (with_mem st (match l1 with [] => m1 | _ => upd m1 (last l1 0) a end) bl')) as -> end.
    { unfold bl'. destruct l1 as [|x l1]; [reflexivity|].
      destruct (Fx (last (x :: l1) 0)) as (X1 & d & X2 & X3 & X4 & X5 & X6 & _); [apply in_or_app; left; now apply last_in|].
      destruct (N.eqb_spec (last (x :: l1) 0) 0); [lia|]. erewrite wr_region; [reflexivity|exact (i_in _ _ _ _ _ G)|exact X2|lia|lia|lia]. }
    cbn [bind]. unfold insert. fold m1. destruct l2 as [|y l2]; [reflexivity|]. cbn [hd].
    destruct (Fx y) as (X1 & d & X2 & X3 & X4 & X5 & X6 & _); [apply in_or_app; right; now left|].
    destruct (N.eqb_spec y 0); [lia|]. erewrite wr_region; [reflexivity|exact (i_in _ _ _ _ _ G)|exact X2|lia|lia|lia].
  - unfold Good, with_mem. cbn [mem blocks mapped].
    apply (relink _ _ _ _ _ a c Free _ _ L' G C); auto.
    + intros p P. destruct (P a c C (or_intror eq_refl)). apply Fr; try assumption. intros x X. destruct (Fx x X) as (_ & d & X2 & X3 & _). eapply P; eauto.
    + intros j x. unfold L'. destruct (N.eqb_spec j i) as [->|Nj].
      * split.
        -- intros X. destruct (N.eq_dec x a) as [->|Nx].
           ++ rewrite set_same. eexists. split; [reflexivity|]. cbn [c_kind c_size]. auto.
           ++ assert (In x (L i)) as X1 by (rewrite E; apply in_or_app; apply in_app_or in X as [X|[X|X]]; [now left|congruence|now right]).
              apply (i_ls _ _ _ _ _ G) in X1 as (d & X1 & X3 & X4). exists d. rewrite set_other by assumption. auto.
        -- intros (d & X1 & X2 & X3). apply in_or_app. destruct (N.eq_dec x a) as [->|Nx]; [right; now left|].
           rewrite set_other in X1 by assumption. assert (In x (L i)) as X by (apply (i_ls _ _ _ _ _ G); now exists d).
           rewrite E in X. apply in_app_or in X as [X|X]; [now left|right; now right].
      * rewrite (i_ls _ _ _ _ _ G j x). split; intros (d & X1 & X2 & X3).
        -- exists d. split; [|auto]. rewrite set_other; [assumption|]. intros ->. congruence.
        -- destruct (N.eq_dec x a) as [->|Nx]; [rewrite set_same in X1; injection X1 as <-; cbn [c_size] in X3; exfalso; apply Nj; symmetry; exact X3|]. rewrite set_other in X1 by assumption. exists d. auto.
    + intros j. unfold L'. destruct (j =? i); [assumption|apply (i_nd _ _ _ _ _ G)].
    + intros j. unfold L'. destruct (j =? i); [|apply (i_so _ _ _ _ _ G)].
      assert (size_at ch a = c_size c) as Sa by (unfold size_at; now rewrite C).
      apply sorted_app in So as (T1 & T2 & T3). apply sorted_app. split; [assumption|]. rewrite Forall_forall in H2. split.
      * constructor; [assumption|]. rewrite Sa. destruct l2 as [|y l2]; constructor; [assumption|]. inversion T2 as [|? ? _ T4]; subst. eapply Forall_impl; [|exact T4]. cbv beta. intros. lia.
      * intros x y X [<-|Y]; [|now apply T3]. rewrite Sa. specialize (H2 x X). lia.
    + intros j Jb. unfold L'. destruct (N.eqb_spec j i) as [->|Nj].
      * assert (bl' i = match l1 with [] => a | _ => blocks st i end) as -> by (unfold bl'; destruct l1; [apply upd_same|reflexivity]). exact H4.
      * assert (bl' j = blocks st j) as -> by (unfold bl'; destruct l1; [now apply upd_other|reflexivity]).
        eapply chain_frame; [|exact (i_dl _ _ _ _ _ G j Jb)]. intros x X. apply (i_ls _ _ _ _ _ G) in X as (e & X1 & X2 & X3).
        assert (forall y, In y (l1 ++ l2) -> x <> y) as Ny.
        { intros y Y ->. rewrite <- E in Y. apply (i_ls _ _ _ _ _ G) in Y as (e' & Y1 & Y2 & Y3). rewrite X1 in Y1. injection Y1 as <-. congruence. }
        assert (x <> a) as Nxa by (intros ->; congruence).
        pose proof (i_al _ _ _ _ _ G _ _ X1). split; (apply Fr; [|lia|lia]); intros y Y; destruct (Fx y Y) as (_ & f & Y1 & _ & _ & _ & Y2 & _); specialize (Ny y Y); lia.
    + unfold bl'. destruct l1; [|apply (i_se _ _ _ _ _ G)]. rewrite upd_other by lia. apply (i_se _ _ _ _ _ G).
  - intros j. unfold L'. destruct (N.eqb_spec j i) as [->|]; [|lia]. rewrite E, !app_length. cbn [length]. lia.
  - intros p P P1 P2. cbn [with_mem mem]. apply Fr; try assumption. intros x X. destruct (Fx x X) as (_ & d & X2 & X3 & _ & _ & _ & Xa). eapply P; eauto.
Qed.
