(** What is gathered from the random devices, and the estimate of its entropy *)
From Coq Require Import NArith ZArith Arith List Bool Lia.
From Verif Require Import Base Outcome FileModel FileProps GatherModel.
Import ListNotations.

(** ** A device is read whole or not at all *)
Lemma read_random_inv : forall sched f e n got pos r f' e', f_pos f = pos + length got -> got = firstn (length got) (skipn pos (f_bytes f)) ->
  read_random sched f e n got = Some (r, f', e') ->
  f_bytes f' = f_bytes f /\
  match r with
  | Some d => length d = length got + n /\ d = firstn (length d) (skipn pos (f_bytes f)) /\ f_pos f' = pos + length d
  | None => e' = false
  end.
Proof.
  induction sched as [|a sched IH]; intros f e n got pos r f' e' Hp Hg H; (destruct n as [|n]; cbn [read_random] in H;
    [injection H as <- <- <-; repeat split; [lia|exact Hg|exact Hp]|]); [discriminate|].
  assert (S n <> 0) by lia. set (m := S n) in *. clearbody m.
  destruct (sys_read a f e m) as [[d f1] e1] eqn:Es.
  assert (X : f_bytes f1 = f_bytes f /\ f_pos f1 = f_pos f + length d /\ d = firstn (length d) (skipn (f_pos f) (f_bytes f)) /\ length d <= m).
  { destruct a as [k| | |]; cbn [sys_read] in Es; injection Es as <- <- <-; cbn [f_bytes f_pos]; repeat split; cbn [length]; try lia.
    - apply firstn_length_self.
    - rewrite firstn_length. unfold granted. lia. }
  destruct X as (X1 & X2 & X3 & X4). destruct d as [|x d].
  - cbn [length] in X2. destruct e1.
    + rewrite <- X1 in *. apply (IH f1 true m got pos r f' e'); [lia|exact Hg|exact H].
    + injection H as <- <- <-. split; [exact X1|reflexivity].
  - assert (G1 : got ++ x :: d = firstn (length (got ++ x :: d)) (skipn pos (f_bytes f1))).
    { rewrite X1, app_length, firstn_add, <- Hg, skipn_add. f_equal. rewrite X3 at 1. now rewrite Hp. }
    specialize (IH f1 e1 (m - length (x :: d)) (got ++ x :: d) pos r f' e' ltac:(rewrite app_length; lia) G1 H).
    rewrite X1 in IH. destruct IH as [I1 I2]. split; [exact I1|]. destruct r as [d'|]; [|exact I2].
    destruct I2 as (L & D & P). rewrite app_length in L. repeat split; [lia|exact D|exact P].
Qed.
Theorem read_random_whole : forall sched f e n r f' e', ReadRandom sched f e n = Some (r, f', e') ->
  f_bytes f' = f_bytes f /\
  match r with
  | Some d => length d = n /\ d = firstn n (skipn (f_pos f) (f_bytes f)) /\ f_pos f' = f_pos f + n
  | None => e' = false
  end.
Proof.
  intros sched f e n r f' e' H.
  destruct (read_random_inv sched f e n [] (f_pos f) r f' e' ltac:(cbn; lia) eq_refl H) as [B R]. split; [exact B|].
  destruct r as [d|]; [|exact R]. destruct R as (L & D & P). cbn [length Nat.add] in L. rewrite L in *. repeat split; assumption.
Qed.
(** and whole, if it works *)
Theorem read_random_complete : forall sched f e n, Forall working sched -> n <= remaining f -> n <= transfers sched ->
  exists f' e', ReadRandom sched f e n = Some (Some (firstn n (skipn (f_pos f) (f_bytes f))), f', e').
Proof.
  intros sched f e n W R T.
  assert (G : forall sched f e n got, Forall working sched -> n <= remaining f -> n <= transfers sched ->
    exists d f' e', read_random sched f e n got = Some (Some d, f', e')).
  { clear. induction sched as [|a sched IH]; intros f e n got W R T; (destruct n as [|n]; [cbn [read_random]; eauto|]).
    - cbn in T. lia.
    - cbn [read_random]. inversion W as [|? ? Wa W']; subst. destruct a as [k| | |]; try contradiction; cbn [sys_read].
      + set (m := granted k (S n)). assert (Lm : 1 <= m) by (unfold m, granted; lia). clearbody m.
        destruct (firstn m (skipn (f_pos f) (f_bytes f))) as [|x d] eqn:Ed.
        { exfalso. apply (f_equal (@length _)) in Ed. rewrite firstn_length, skipn_length in Ed. unfold remaining in R. cbn [length] in Ed. lia. }
        apply IH; [exact W'| |].
        * unfold remaining in *. cbn [f_bytes f_pos length]. lia.
        * unfold transfers in *. cbn [filter is_transfer length] in *. lia.
      + apply IH; [exact W'|exact R|exact T]. }
  destruct (G sched f e n [] W R T) as (d & f' & e' & E). exists f', e'. unfold ReadRandom. rewrite E.
  destruct (read_random_whole sched f e n _ _ _ E) as (_ & _ & -> & _). reflexivity.
Qed.
(** a chunk of a device is 64 bytes of it *)
Theorem gather_whole : forall sched device e c, gather sched device e = Some (Ok c) ->
  match device, c with
  | Some f, Some d => length d = 64 /\ d = firstn 64 (skipn (f_pos f) (f_bytes f))
  | None, None => True
  | _, _ => False
  end.
Proof.
  intros sched [f|] e c H; cbn [gather] in H; [|injection H as <-; exact I].
  destruct (ReadRandom sched f e MaxEntropyExtent) as [[[r f'] e']|] eqn:E; [|discriminate].
  destruct (read_random_whole _ _ _ _ _ _ _ E) as [_ R]. destruct r as [d|]; [|cbn in H; discriminate].
  destruct R as (L & D & _). unfold MaxEntropyExtent in *. cbn [count_of] in H. rewrite L in H.
  replace (SetStringInfoLength (size_t (Z.of_nat 64))) with (Ok 64%N) in H by reflexivity. cbn [bind] in H.
  assert (F : firstn (N.to_nat 64) d = d) by (apply firstn_all2; rewrite L; apply Nat.le_refl).
  rewrite F in H. injection H as <-. split; assumption.
Qed.

(** ** A failure is an exception, gathering goes on: refuted, for each failure *)
Theorem device_failure_refuted : forall sched f e f' e',
  ReadRandom sched f e MaxEntropyExtent = Some (None, f', e') -> gather sched (Some f) e = Some Fatal.
Proof. intros sched f e f' e' H. cbn [gather]. rewrite H. reflexivity. Qed.
Example device_fails : ReadRandom [Transfer 9; Failed] (mkFile (repeat 7%N 100) 0) false MaxEntropyExtent = Some (None, mkFile (repeat 7%N 100) 10, false).
Proof. reflexivity. Qed.

(** ** The estimate *)
(** zlib's own bounds: stored blocks (of 16383 bytes; here any number from 16 up) with 5 bytes each,
    6 bytes around; and of deflateBound, more than twice the length only of very short inputs *)
Definition zlib_bound (deflate : list N -> list N) : Prop :=
  exists block, 16 <= block /\ forall d, length (deflate d) <= length d + 5 * (length d / block + 1) + 6.
Definition compresses_well (deflate : list N -> list N) (d : list N) : Prop := 2 * length (deflate d) < length d.
Lemma half_le c n : c <= 2 * n + 1 -> c / 2 <= n.
Proof. intros H. pose proof (Nat.div_mod c 2 ltac:(lia)). lia. Qed.
(** nothing of ten bytes or more is ever rejected *)
Theorem estimate_accepts : forall deflate deflateBound i entropy, zlib_bound deflate ->
  (forall n, 10 <= n -> deflateBound n <= 2 * n + 1) ->
  10 <= length entropy -> estimate deflate deflateBound i entropy = Ok tt.
Proof.
  intros deflate deflateBound i entropy (block & Lb & Z) B L. unfold estimate.
  assert (H : chaos_length deflate deflateBound i entropy <= 2 * length entropy + 1).
  { destruct i; cbn [chaos_length]; [lia|apply B; exact L|]. specialize (Z entropy).
    pose proof (Nat.mul_div_le (length entropy) block ltac:(lia)) as M.
    generalize dependent (length entropy / block). intros q Z M.
    assert (16 * q <= block * q) by (apply Nat.mul_le_mono_r; exact Lb). lia. }
  apply half_le in H. destruct (Nat.ltb_spec (length entropy) (chaos_length deflate deflateBound i entropy / 2)); [lia|reflexivity].
Qed.
(** entropy that compresses well is rejected: refuted, of every library and string *)
Theorem estimate_refuted : forall deflate deflateBound entropy, compresses_well deflate entropy ->
  estimate deflate deflateBound Coded entropy = Ok tt.
Proof.
  intros deflate deflateBound d C. unfold compresses_well in C. unfold estimate, chaos_length.
  assert (H : length (deflate d) / 2 <= length d) by (apply half_le; lia).
  destruct (Nat.ltb_spec (length d) (length (deflate d) / 2)); [lia|reflexivity].
Qed.

(** ** Examples *)
(** a coder that writes the length of a run in its last byte, else stores *)
Definition toy (d : list N) : list N := if forallb (N.eqb 0) d then [0%N; N.of_nat (length d)] else 1%N :: d.
Example toy_bound : zlib_bound toy.
Proof.
  exists 16. split; [lia|]. intros d. unfold toy. generalize (length d / 16). intros q. destruct (forallb (N.eqb 0) d); cbn [length]; lia.
Qed.
Example toy_well : compresses_well toy (repeat 0%N 64).
Proof. unfold compresses_well. vm_compute. lia. Qed.
Example gather_example :
  gather [Transfer 9; Interrupted; Transfer 60] (Some (mkFile (map N.of_nat (seq 0 100)) 0)) false = Some (Ok (Some (map N.of_nat (seq 0 64)))).
Proof. reflexivity. Qed.

Print Assumptions read_random_whole.
Print Assumptions read_random_complete.
Print Assumptions gather_whole.
Print Assumptions device_failure_refuted.
Print Assumptions estimate_accepts.
Print Assumptions estimate_refuted.
