(** AcquireBlock keeps the invariant and finds the best fit. *)
From Coq Require Import Arith NArith ZArith Bool List Lia Sorted ZifyBool ZifyNat ZifyN.
From Verif Require Import Outcome PoolModel PoolProof PoolProof2 PoolProof3.
Import ListNotations.
Local Open Scope N_scope.
Ltac Zify.zify_post_hook ::= Z.div_mod_to_equations.

Definition settled_kind (k : kind) : Prop := match k with Loose | Raw => False | _ => True end.
Definition settled (ch : heap) : Prop := forall a c, ch a = Some c -> settled_kind (c_kind c).
(** what is not free: its size *)
Definition busy (ch : heap) (b : N) : option (N * kind) :=
  match ch b with Some c => if used (c_kind c) then Some (c_size c, c_kind c) else None | None => None end.
Lemma busy_set_same ch a c : busy (set ch a c) a = match c with Some c => if used (c_kind c) then Some (c_size c, c_kind c) else None | None => None end.
Proof. unfold busy. now rewrite set_same. Qed.
Lemma busy_set_other ch a c b : b <> a -> busy (set ch a c) b = busy ch b.
Proof. intros H. unfold busy. now rewrite set_other. Qed.

Lemma header_ok st ch L a c : Good st ch L -> ch a = Some c -> settled_kind (c_kind c) ->
  rd st (a - 8) = Ok (c_size c + b2n (c_prev c)) /\ mem st (a - 8) = c_size c + b2n (c_prev c) /\ c_size c mod 2 = 0 /\ 16 <= c_size c /\ 24 <= extent c /\ 16 <= a /\ a mod 16 = 0.
Proof.
  intros G C K. pose proof (i_al _ _ _ _ _ G _ _ C). pose proof (i_sz _ _ _ _ _ G _ _ C) as Z. pose proof (i_hd _ _ _ _ _ G _ _ C) as Hh.
  assert (24 <= extent c) as Ex by (unfold extent; destruct (ending (c_kind c)); lia).
  assert (mem st (a - 8) = c_size c + b2n (c_prev c)) as E by (destruct (c_kind c); cbn in K; tauto).
  rewrite (rd_ok st ch L a c (a - 8) G C) by lia. rewrite E. repeat split; try tauto; destruct (ending (c_kind c)); lia.
Qed.
Lemma bit_of n b : n mod 2 = 0 -> previous_bit (n + b2n b) = b2n b.
Proof. intros H. unfold previous_bit. destruct b; cbn [b2n]; lia. Qed.
Lemma mask_of n b : n mod 2 = 0 -> size_mask (n + b2n b) = n.
Proof. intros H. unfold size_mask. destruct b; cbn [b2n]; lia. Qed.

(** the payload of a used chunk has no word of another chunk *)
Lemma payload_apart m bl mp ch L b s pv p y e q : Inv m bl mp ch L -> ch b = Some (mkChunk s Used pv) -> b <= p -> p + 8 < b + s ->
  ch y = Some e -> y <> b -> y - 8 <= q -> q + 8 < y + extent e -> p <> q.
Proof.
  intros I C P1 P2 Y N Q1 Q2. apply (apart _ _ _ _ _ b _ y e p q I C Y); [congruence|lia|exact P2|assumption|assumption].
Qed.
Lemma payload_links m bl mp ch L b s pv p a : Inv m bl mp ch L -> ch b = Some (mkChunk s Used pv) -> b <= p -> p + 8 < b + s -> outside_links ch a p.
Proof.
  intros I C P1 P2 x d X K Nx. destruct (free_facts _ _ _ _ _ _ _ I X ltac:(now rewrite K)) as (A1 & A2 & S1 & S2 & Ex).
  assert (x <> b) by (intros ->; rewrite C in X; injection X as <-; discriminate).
  split; apply (payload_apart _ _ _ _ _ _ _ _ p x d _ I C P1 P2 X); auto; lia.
Qed.
(** nor has a header *)
Lemma header_links m bl mp ch L a c : Inv m bl mp ch L -> ch a = Some c -> outside_links ch a (a - 8).
Proof.
  intros I C x d X K Nx. destruct (free_facts _ _ _ _ _ _ _ I X ltac:(now rewrite K)) as (A1 & A2 & S1 & S2 & Ex). pose proof (i_al _ _ _ _ _ I _ _ C). pose proof (i_sz _ _ _ _ _ I _ _ C) as Z.
  assert (24 <= extent c) by (unfold extent; destruct (ending (c_kind c)); lia).
  split; apply (apart _ _ _ _ _ a c x d _ _ I C X); auto; lia.
Qed.

(** * the search *)
Lemma find_block_ok st ch L size : Good st ch L -> forall l fuel prev h, (forall x, In x l -> exists d, ch x = Some d /\ c_kind d = Free) ->
  StronglySorted (fun x y => size_at ch x <= size_at ch y) l ->
  chain (mem st) prev h l 0 -> (length l < fuel)%nat -> exists r, find_block fuel st size h = Ok r /\
  (r = 0 /\ (forall y, In y l -> size_at ch y < size) \/ In r l /\ size <= size_at ch r /\ (forall y, In y l -> size <= size_at ch y -> size_at ch r <= size_at ch y)).
Proof.
  intros G. induction l as [|x l IH]; intros fuel prev h Fx So C Lf; destruct fuel as [|fuel]; cbn [length] in Lf; try lia.
  - cbn [chain] in C. subst h. exists 0. split; [reflexivity|]. left. split; [reflexivity|]. intros y [].
  - cbn [chain] in C. destruct C as (-> & C1 & C2). destruct (Fx x (or_introl eq_refl)) as (d & X & K). inversion So as [|? ? So' Fo]; subst.
    destruct (free_facts _ _ _ _ _ _ _ G X ltac:(now rewrite K)) as (A1 & A2 & S1 & S2 & Ex).
    cbn [find_block]. destruct (N.eqb_spec x 0); [lia|]. rewrite (size_ok st ch L x d G X) by (now rewrite K). cbn [bind].
    assert (size_at ch x = c_size d) as Sx by (unfold size_at; now rewrite X).
    destruct (N.ltb_spec (c_size d) size).
    + rewrite (rd_ok st ch L x d x G X) by lia. cbn [bind].
      destruct (IH fuel x (mem st x)) as (r & H1 & H2); [intros y Y; apply Fx; now right|assumption|assumption|lia|].
      exists r. split; [assumption|]. destruct H2 as [(-> & H2)|(H2 & H3 & H4)].
      * left. split; [reflexivity|]. intros y [<-|Y]; [lia|auto].
      * right. split; [now right|]. split; [assumption|]. intros y [<-|Y] Q; [lia|auto].
    + exists x. split; [reflexivity|]. right. split; [now left|]. split; [lia|]. intros y [<-|Y] Q; [lia|]. rewrite Forall_forall in Fo. auto.
Qed.
Lemma find_list_ok st : blocks st 49 <> 0 -> forall fuel i, i <= 49 -> (50 < fuel + N.to_nat i)%nat -> exists j,
  find_list fuel st i = Ok j /\ i <= j <= 49 /\ blocks st j <> 0 /\ (forall k, i <= k -> k < j -> blocks st k = 0).
Proof.
  intros Se. induction fuel as [|fuel IH]; intros i Hi F; [lia|]. cbn [find_list]. unfold MaxBlocks. destruct (N.ltb_spec 49 i); [lia|].
  destruct (N.eqb_spec (blocks st i) 0) as [E|E].
  - assert (i <> 49) by congruence. destruct (IH (i + 1)) as (j & H1 & H2 & H3 & H4); [lia|lia|]. exists j. split; [assumption|]. split; [lia|]. split; [assumption|].
    intros k K1 K2. destruct (N.eq_dec k i) as [->|]; [assumption|]. apply H4; lia.
  - exists i. split; [reflexivity|]. split; [lia|]. split; [assumption|]. intros. lia.
Qed.

Definition choose (fuel : nat) (n : N) (st : pool) : outcome (option N) :=
  let* block := find_block fuel st n (blocks st (policy n)) in
  if block =? 0 then let* i := find_list 60 st (policy n + 1) in if MaxBlocks <=? i then Ok None else Ok (Some (blocks st i)) else Ok (Some block).
Lemma choose_ok fuel st ch L n : Good st ch L -> (length (L (policy n)) < fuel)%nat ->
  (choose fuel n st = Ok None /\ forall a c, ch a = Some c -> c_kind c = Free -> c_size c < n) \/
  exists x s pv, choose fuel n st = Ok (Some x) /\ ch x = Some (mkChunk s Free pv) /\ n <= s /\
    (forall a c, ch a = Some c -> c_kind c = Free -> n <= c_size c -> s <= c_size c).
Proof.
  intros G Lf. pose proof (policy_bound n) as Pb.
  destruct (find_block_ok st ch L n G (L (policy n)) fuel 0 (blocks st (policy n))) as (r & E & H); auto.
  { intros x X. apply (i_ls _ _ _ _ _ G) in X as (d & X1 & X2 & _). now exists d. }
  { exact (i_so _ _ _ _ _ G _). }
  { exact (i_dl _ _ _ _ _ G _ Pb). }
  assert (forall a c, ch a = Some c -> c_kind c = Free -> In a (L (policy (c_size c))) /\ size_at ch a = c_size c) as Li.
  { intros a c A K. split; [apply (i_ls _ _ _ _ _ G); now exists c|]. unfold size_at. now rewrite A. }
  unfold choose. rewrite E. cbn [bind]. destruct H as [(-> & H)|(H1 & H2 & H3)].
  - cbn [N.eqb]. destruct (find_list_ok st (i_se _ _ _ _ _ G) 60 (policy n + 1)) as (j & E2 & J1 & J2 & J3); [lia|lia|]. rewrite E2. cbn [bind]. unfold MaxBlocks.
    assert (forall a c, ch a = Some c -> c_kind c = Free -> n <= c_size c -> j <= policy (c_size c)) as Far.
    { intros a c A K Q. destruct (Li a c A K) as [La Sa]. pose proof (policy_mono _ _ Q). pose proof (policy_bound (c_size c)).
      destruct (N.eq_dec (policy (c_size c)) (policy n)) as [Ep|Np]; [rewrite Ep in La; specialize (H a La); lia|].
      destruct (N.lt_ge_cases (policy (c_size c)) j); [|assumption]. exfalso.
      pose proof (i_dl _ _ _ _ _ G (policy (c_size c)) ltac:(lia)) as Ch. rewrite J3 in Ch by lia. destruct (L (policy (c_size c))) as [|z l] eqn:El; [destruct La|]. cbn [chain] in Ch. destruct Ch as (Q1 & _).
      assert (In z (L (policy (c_size c)))) as Iz by (rewrite El; now left). apply (i_ls _ _ _ _ _ G) in Iz as (f & Zf & _).
      pose proof (i_al _ _ _ _ _ G _ _ Zf). lia. }
    destruct (N.leb_spec 49 j).
    + left. split; [reflexivity|]. intros a c A K. destruct (N.lt_ge_cases (c_size c) n) as [|Q]; [assumption|]. specialize (Far a c A K Q). pose proof (policy_bound (c_size c)). lia.
    + right. pose proof (i_dl _ _ _ _ _ G j ltac:(lia)) as Ch. destruct (L j) as [|x l] eqn:El; [cbn [chain] in Ch; congruence|]. cbn [chain] in Ch. destruct Ch as (Hx & _).
      assert (In x (L j)) as Ix by (rewrite El; now left). pose proof Ix as Ix'. apply (i_ls _ _ _ _ _ G) in Ix' as (d & X1 & X2 & X3). destruct d as [s k pv]. cbn [c_kind c_size] in *. subst k.
      exists x, s, pv. rewrite Hx. split; [reflexivity|]. split; [assumption|]. split.
      * destruct (N.le_gt_cases n s) as [|Q]; [assumption|]. pose proof (policy_mono s n ltac:(lia)). lia.
      * intros a c A K Q. specialize (Far a c A K Q). destruct (Li a c A K) as [La Sa]. destruct (N.eq_dec (policy (c_size c)) j) as [Ej|Nj].
        -- pose proof (i_so _ _ _ _ _ G j) as So. rewrite Ej, El in La. rewrite El in So. apply StronglySorted_inv in So as [_ Fo]. rewrite Forall_forall in Fo.
           assert (size_at ch x = s) as Sx by (unfold size_at; now rewrite X1). destruct La as [->|La]; [rewrite X1 in A; injection A as <-; cbn; lia|]. specialize (Fo a La). lia.
        -- destruct (N.le_gt_cases s (c_size c)) as [|Q2]; [assumption|]. pose proof (policy_mono (c_size c) s ltac:(lia)). lia.
  - right. apply (i_ls _ _ _ _ _ G) in H1 as ([s k pv] & X1 & X2 & X3). cbn [c_kind c_size] in *. subst k.
    pose proof (i_al _ _ _ _ _ G _ _ X1). destruct (N.eqb_spec r 0); [lia|]. assert (size_at ch r = s) as Sr by (unfold size_at; now rewrite X1).
    exists r, s, pv. split; [reflexivity|]. split; [assumption|]. split; [lia|]. intros a c A K Q. destruct (Li a c A K) as [La Sa]. pose proof (policy_mono _ _ Q).
    destruct (N.eq_dec (policy (c_size c)) (policy n)) as [Ep|Np]; [rewrite Ep in La; specialize (H3 a La); lia|].
    destruct (N.le_gt_cases s (c_size c)) as [|Q2]; [assumption|]. pose proof (policy_mono (c_size c) s ltac:(lia)). lia.
Qed.

Lemma round_up_ok size : 1 <= size -> size + 55 < 2 ^ 64 -> round_up size mod 32 = 0 /\ size + 24 <= round_up size <= size + 55.
Proof. change (2 ^ 64) with 18446744073709551616. intros H1 H2. unfold round_up. change (2 ^ 64) with 18446744073709551616. rewrite (N.mod_small (size + 55)) by lia. lia. Qed.

(** chunks other than [x] in the middle of a change *)
Definition settled_but (ch : heap) (x : N) : Prop := forall a c, a <> x -> ch a = Some c -> settled_kind (c_kind c).

(** the end of AcquireBlock: the block is marked *)
Definition finish (block size : N) (st : pool) : outcome (N * pool) :=
  let* s := SizeOfBlock st block in
  if negb (size =? s) then Fatal
  else
    let* next := NextBlock st block in
    let* h := rd st (next - 8) in
    let* st := wr (next - 8) (size_mask h + 1) st in
    Ok (block, st).
Lemma finish_ok st ch L x n pv : Good st ch L -> ch x = Some (mkChunk n Loose pv) -> settled_but ch x -> mem st (x - 8) = n + b2n pv -> exists st' ch',
  finish x n st = Ok (x, st') /\ mapped st' = mapped st /\ number st' = number st /\ Good st' ch' L /\ settled ch' /\ ch' x = Some (mkChunk n Used pv) /\
  (forall b, b <> x -> busy ch' b = busy ch b) /\
  (forall b s pv' p, ch b = Some (mkChunk s Used pv') -> b <= p -> p + 8 < b + s -> mem st' p = mem st p) /\ (forall mp, Shape mp ch -> Shape mp ch').
Proof.
  intros G C S Hh. destruct (free_facts _ _ _ _ _ _ _ G C eq_refl) as (A1 & A2 & S1 & S2 & Ex). cbn [c_size] in *.
  destruct (i_nx _ _ _ _ _ G _ _ C eq_refl) as (d & D & P). cbn [c_size c_kind used] in D, P.
  assert (x + n <> x) as Nx by lia. pose proof (S _ _ Nx D) as Kd.
  destruct (header_ok _ _ _ _ _ G D Kd) as (H1 & H2 & H3 & H4 & H5 & H6 & H7). rewrite P in *.
  assert (SizeOfBlock st x = Ok n) as Es by (apply (size_header st ch x (mkChunk n Loose pv) (i_in _ _ _ _ _ G)); auto; lia).
  unfold finish. rewrite Es. cbn [bind]. rewrite N.eqb_refl. cbn [negb]. unfold NextBlock. rewrite Es. cbn [bind]. rewrite H1. cbn [bind]. rewrite mask_of by assumption.
  rewrite (wr_ok st ch L (x + n) d (x + n - 8) _ G D) by lia. cbn [bind].
  assert (c_kind d <> Loose /\ c_kind d <> Raw) as [Kd1 Kd2] by (destruct (c_kind d); cbn in Kd; split; congruence || tauto).
  pose proof (mark_ok _ _ _ _ _ x n Loose pv d Used G C ltac:(now right) ltac:(now left) D Kd1 Kd2 ltac:(auto)) as I. cbn [used b2n] in I.
  eexists _, _. split; [reflexivity|]. split; [reflexivity|]. split; [reflexivity|]. split; [exact I|]. split; [|split; [|split; [|split]]].
  - intros a c. destruct (N.eq_dec a (x + n)) as [->|Na]; [rewrite set_same; intros Q; injection Q as <-; exact Kd|]. rewrite set_other by assumption.
    destruct (N.eq_dec a x) as [->|Na']; [rewrite set_same; intros Q; injection Q as <-; exact Logic.I|]. rewrite set_other by assumption. now apply S.
  - rewrite set_other by lia. apply set_same.
  - intros b Nb. destruct (N.eq_dec b (x + n)) as [->|Nb2].
    + rewrite busy_set_same. cbn [c_kind c_size]. unfold busy. now rewrite D.
    + rewrite !busy_set_other; auto.
  - intros b s pv' p B P1 P2. cbn [with_mem mem]. apply upd_other. destruct (N.eq_dec b (x + n)) as [->|Nb]; [lia|].
    apply (payload_apart _ _ _ _ _ b s pv' p (x + n) d _ G B P1 P2 D); auto; lia.
  - intros mp Q. apply (shape_set _ _ _ d); [|rewrite set_other by assumption; exact D|reflexivity|reflexivity]. exact (shape_set _ _ _ _ (mkChunk n Used pv) Q C eq_refl eq_refl).
Qed.

Lemma acquire_ok fuel st ch L size : Good st ch L -> settled ch -> 1 <= size -> size + 55 < 2 ^ 64 -> (forall i, S (length (L i)) < fuel)%nat ->
  let n := round_up size in
  (AcquireBlock fuel size st = Ok (0, st) /\ forall a c, ch a = Some c -> c_kind c = Free -> c_size c < n) \/
  exists x s pv st' ch' L', AcquireBlock fuel size st = Ok (x, st') /\ ch x = Some (mkChunk s Free pv) /\ n <= s /\
    (forall a c, ch a = Some c -> c_kind c = Free -> n <= c_size c -> s <= c_size c) /\
    mapped st' = mapped st /\ number st' = number st /\ Good st' ch' L' /\ settled ch' /\ ch' x = Some (mkChunk n Used pv) /\
    (forall b, b <> x -> busy ch' b = busy ch b) /\ (forall j, (length (L' j) <= S (length (L j)))%nat) /\
    (forall b s' pv' p, ch b = Some (mkChunk s' Used pv') -> b <= p -> p + 8 < b + s' -> mem st' p = mem st p) /\ (forall mp, Shape mp ch -> Shape mp ch').
Proof.
  intros G Se Z1 Z2 Lf n. destruct (round_up_ok size Z1 Z2) as [N1 N2]. fold n in N1, N2.
  unfold AcquireBlock. fold n. cbv zeta. rewrite (policy_ok n N1 ltac:(lia)). cbn [bind].
  match goal with |- context [bind (find_block fuel st n (blocks st (policy n))) ?k] => set (rest := k) end.
  assert (forall o, choose fuel n st = Ok o -> bind (find_block fuel st n (blocks st (policy n))) rest =
    match o with None => Ok (0, st) | Some block =>
      let* next := NextBlock st block in let* h := rd st (next - 8) in if negb (previous_bit h =? 0) then Fatal else
      let* s := SizeOfBlock st block in if s <? n then Fatal else let* i := AllocationPolicy s in let* st := RemoveFreeBlock block i st in
      let* st := (if n <? s then let* st := wr (block + n - 8) (s - n) st in let* st := wr (block + n + (s - n) - 16) (s - n) st in let* i := AllocationPolicy (s - n) in
                   let* st := InsertFreeBlock fuel (block + n) i st in let* h := rd st (block - 8) in wr (block - 8) (n + previous_bit h) st else Ok st) in
      finish block n st end) as Sh.
  { intros o. unfold choose. destruct (find_block fuel st n (blocks st (policy n))) as [b| |]; cbn [bind]; try discriminate. unfold rest.
    destruct (b =? 0); cbn [bind]; [destruct (find_list 60 st (policy n + 1)) as [j| |]; cbn [bind]; try discriminate; destruct (MaxBlocks <=? j); cbn [bind]|]; intros Q; injection Q as <-; reflexivity. }
  destruct (choose_ok fuel st ch L n G ltac:(specialize (Lf (policy n)); lia)) as [(E & H)|(x & s & pv & E & X & Ns & Best)]; rewrite (Sh _ E); clear Sh rest.
  { left. now split. }
  right. exists x, s, pv.
  destruct (free_facts _ _ _ _ _ _ _ G X eq_refl) as (A1 & A2 & S1 & S2 & Ex). cbn [c_size] in *.
  destruct (i_nx _ _ _ _ _ G _ _ X eq_refl) as (d & D & P). cbn [c_size c_kind used] in D, P.
  destruct (header_ok _ _ _ _ _ G D (Se _ _ D)) as (H1 & H2 & H3 & H4 & H5 & H6 & H7). rewrite P in *.
  pose proof (size_ok st ch L x _ G X Logic.I) as Es. cbn [c_size] in Es. unfold NextBlock. rewrite Es. cbn [bind]. rewrite H1. cbn [bind]. rewrite bit_of by assumption. cbn [b2n N.eqb negb].
  destruct (N.ltb_spec s n); [lia|]. rewrite (policy_ok s S1 S2). cbn [bind].
  destruct (header_ok _ _ _ _ _ G X Logic.I) as (_ & Hx & _). cbn [c_size c_prev] in Hx.
  destruct (remove_ok st ch L x _ G X eq_refl) as (st1 & L1 & E1 & M1 & Nu1 & G1 & Le1 & F1). cbn [c_size c_prev] in *. rewrite E1. cbn [bind].
  assert (mem st1 (x - 8) = s + b2n pv) as Hx1 by (rewrite F1; [assumption|exact (header_links _ _ _ _ _ _ _ G X)]).
  set (ch1 := set ch x (Some (mkChunk s Loose pv))) in *.
  assert (ch1 x = Some (mkChunk s Loose pv)) as X1 by apply set_same.
  assert (forall b, busy ch1 b = busy ch b) as B1.
  { intros b. destruct (N.eq_dec b x) as [->|]; [unfold ch1; rewrite busy_set_same; unfold busy; now rewrite X|now apply busy_set_other]. }
  assert (forall b s' pv', ch b = Some (mkChunk s' Used pv') -> b <> x) as Nb by (intros b s' pv' B ->; congruence).
  assert (settled_but ch1 x) as Se1 by (intros a c Na; unfold ch1; rewrite set_other by assumption; apply Se).
  destruct (N.ltb_spec n s) as [Lt|Ge].
  2:{ assert (n = s) as -> by lia. cbn [bind].
      destruct (finish_ok st1 ch1 L1 x s pv G1 X1 Se1 Hx1) as (st2 & ch2 & E2 & M2 & Nu2 & G2 & Se2 & X2 & B2 & F2 & Sh2).
      exists st2, ch2, L1. rewrite E2. repeat (split; [first [reflexivity|assumption|congruence|idtac]|]).
      - intros b Hb. rewrite B2 by assumption. apply B1.
      - intros j. specialize (Le1 j). lia.
      - intros b s' pv' p B P1 P2. rewrite (F2 b s' pv' p); [|unfold ch1; rewrite set_other; eauto|assumption|assumption]. apply F1. exact (payload_links _ _ _ _ _ _ _ _ _ _ G B P1 P2).
      - intros mp Q. apply Sh2. exact (shape_set _ _ _ _ (mkChunk s Loose pv) Q X eq_refl eq_refl). }
  (* split *)
  assert (s - n >= 32 /\ (s - n) mod 32 = 0) as [R1 R2] by lia.
  pose proof (split_ok _ _ _ _ _ _ _ _ n G1 X1 N1 ltac:(lia) Lt) as G2. set (y := x + n) in *. set (ch2 := set (set ch1 x (Some (mkChunk n Loose pv))) y (Some (mkChunk (s - n) Loose false))) in *.
  assert (ch2 y = Some (mkChunk (s - n) Loose false)) as Y2 by apply set_same.
  assert (ch2 x = Some (mkChunk n Loose pv)) as X2 by (unfold ch2; rewrite set_other by lia; apply set_same).
  assert (forall b, b <> x -> b <> y -> ch2 b = ch b) as O2 by (intros b Q1 Q2; unfold ch2, ch1; rewrite !set_other; auto).
  assert (ch y = None) as Ny by (apply (nothing_inside _ _ _ _ _ _ _ _ G X); unfold extent; cbn [c_kind ending c_size]; lia).
  assert (region (mapped st1) ch2) as Rg by (exact (i_in _ _ _ _ _ G2)).
  assert (extent (mkChunk (s - n) Loose false) = s - n) as Exy by reflexivity.
  rewrite (wr_region st1 ch2 y _ _ _ Rg Y2) by lia. cbn [bind].
  match goal with |- context [wr (y + (s - n) - 16) (s - n) ?t] => rewrite (wr_region t ch2 y _ _ _ Rg Y2) by lia end. cbn [bind with_mem mem blocks mapped number].
  rewrite (policy_ok (s - n) R2 ltac:(lia)). cbn [bind].
  set (m3 := upd (upd (mem st1) (y - 8) (s - n)) (y + (s - n) - 16) (s - n)).
  set (st3 := mkPool m3 (blocks st1) (mapped st1) (number st1)).
  assert (Good st3 ch2 L1) as G3.
  { unfold Good, st3, m3. cbn [mem blocks mapped]. apply (write_own _ _ _ _ _ y (mkChunk (s - n) Loose false)); [apply (write_own _ _ _ _ _ y (mkChunk (s - n) Loose false)); [exact G2|assumption|cbn [c_kind]; lia|lia]|assumption|cbn [c_kind]; lia|lia]. }
  assert (x + s = y + (s - n)) as Exs by lia.
  destruct (insert_ok fuel st3 ch2 L1 y _ G3 Y2 eq_refl) as (st4 & L4 & E4 & M4 & Nu4 & G4 & Le4 & F4); cbn [c_size c_prev] in *.
  { unfold st3, m3. cbn [mem]. rewrite upd_other by lia. rewrite upd_same. cbn [b2n]. lia. }
  { apply upd_same. }
  { intros e Y. rewrite <- Exs in Y. rewrite O2 in Y by lia. rewrite D in Y. injection Y as <-. exact (i_co _ _ _ _ _ G _ _ _ X eq_refl D). }
  { intros p e Q K. destruct (N.eq_dec p x) as [->|Np]; [rewrite X2 in Q; injection Q as <-; discriminate|]. unfold y.
    apply (before _ _ _ _ _ x (mkChunk n Loose pv) p e G3 X2 Q Np eq_refl). now rewrite K. }
  { specialize (Lf (policy (s - n))). specialize (Le1 (policy (s - n))). lia. }
  match goal with |- context [InsertFreeBlock fuel y (policy (s - n)) ?t] => change t with st3 end. rewrite E4. cbn [bind].
  set (ch4 := set ch2 y (Some (mkChunk (s - n) Free false))) in *.
  assert (ch4 x = Some (mkChunk n Loose pv)) as X4 by (unfold ch4; rewrite set_other by lia; assumption).
  assert (extent (mkChunk n Loose pv) = n) as Exn by reflexivity.
  assert (mem st4 (x - 8) = s + b2n pv) as Hx4.
  { rewrite F4; [|exact (fun z e Z K Nz => header_links _ _ _ _ _ x _ G3 X2 z e Z K ltac:(intros ->; rewrite X2 in Z; injection Z as <-; discriminate))|lia|lia].
    unfold st3, m3. cbn [mem]. rewrite !upd_other by lia. exact Hx1. }
  rewrite (rd_ok st4 ch4 L4 x _ (x - 8) G4 X4) by lia. cbn [bind]. rewrite Hx4. rewrite previous_bit_eq by assumption.
  rewrite (wr_ok st4 ch4 L4 x _ (x - 8) _ G4 X4) by lia. cbn [bind].
  set (st5 := with_mem st4 (upd (mem st4) (x - 8) (n + b2n pv)) (blocks st4)).
  assert (Good st5 ch4 L4) as G5 by (unfold Good, st5; cbn [with_mem mem blocks mapped]; apply (write_own _ _ _ _ _ x (mkChunk n Loose pv)); [exact G4|assumption|cbn [c_kind]; lia|lia]).
  destruct (finish_ok st5 ch4 L4 x n pv G5 X4) as (st6 & ch6 & E6 & M6 & Nu6 & G6 & Se6 & X6 & B6 & F6 & Sh6).
  { intros a c Na. unfold ch4. destruct (N.eq_dec a y) as [->|Nay]; [rewrite set_same; intros Q; injection Q as <-; exact Logic.I|]. rewrite set_other by assumption. rewrite O2 by assumption. apply Se. }
  { apply upd_same. }
  exists st6, ch6, L4. rewrite E6.
  repeat (split; [first [reflexivity|assumption|congruence|idtac]|]).
  - rewrite M6. change (mapped st5) with (mapped st4). rewrite M4. exact M1.
  - rewrite Nu6. change (number st5) with (number st4). rewrite Nu4. exact Nu1.
  - intros b Hb. rewrite B6 by assumption. unfold ch4. destruct (N.eq_dec b y) as [->|Nby].
    + rewrite busy_set_same. unfold busy. now rewrite Ny.
    + rewrite busy_set_other by assumption. unfold busy. now rewrite O2.
  - intros j. specialize (Le4 j). specialize (Le1 j). lia.
  - intros b s' pv' p B P1 P2. pose proof (Nb _ _ _ B) as Nbx. assert (b <> y) as Nby by congruence.
    assert (ch2 b = Some (mkChunk s' Used pv')) as B2 by (rewrite O2; auto).
    rewrite (F6 b s' pv' p); [|unfold ch4; rewrite set_other; auto|assumption|assumption].
    assert (forall q, x - 8 <= q -> q + 8 < x + s -> p <> q) as Px by (intros q Q1 Q2; apply (payload_apart _ _ _ _ _ b s' pv' p x _ q G B P1 P2 X); auto).
    unfold st5. cbn [with_mem mem]. rewrite upd_other by (apply Px; clear - Lt A2 N2 Z1 R1; lia).
    rewrite F4; [|exact (payload_links _ _ _ _ _ _ _ _ _ _ G3 B2 P1 P2)|apply Px; clear - Lt A2 N2 Z1 R1; lia|apply Px; clear - Lt A2 N2 Z1 R1; lia].
    unfold st3, m3. cbn [mem]. rewrite !upd_other by (apply Px; clear - Lt A2 N2 Z1 R1; lia). apply F1. exact (payload_links _ _ _ _ _ _ _ _ _ _ G B P1 P2).
  - intros mp Q. apply Sh6. apply (shape_set _ _ _ _ (mkChunk (s - n) Free false)) with (2 := Y2); [|reflexivity|reflexivity].
    apply (shape_split _ _ _ s Loose pv); [|exact X1|now right|now right|now right|lia|lia]. exact (shape_set _ _ _ _ (mkChunk s Loose pv) Q X eq_refl eq_refl).
Qed.
