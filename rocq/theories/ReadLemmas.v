(** Reading a file that holds a known string from the current position on. *)
From Coq Require Import NArith Arith List Lia Bool ZifyBool ZifyNat ZifyN.
From Verif Require Import Base BaseLemmas FileModel FileProps.
Import ListNotations.

Definition take (n : nat) (l : list N) : option (list N * list N) :=
  if n <=? length l then Some (firstn n l, skipn n l) else None.
Lemma take_app n x s : length x = n -> take n (x ++ s) = Some (x, s).
Proof.
  intros <-. unfold take. rewrite app_length. destruct (Nat.leb_spec (length x) (length x + length s)); [|lia].
  now rewrite firstn_app, skipn_app, Nat.sub_diag, firstn_all, skipn_all, app_nil_r.
Qed.
Lemma take_inv n l x s : take n l = Some (x, s) -> l = x ++ s /\ length x = n.
Proof.
  unfold take. destruct (Nat.leb_spec n (length l)); [|discriminate]. intros [= <- <-]. rewrite firstn_skipn, firstn_length. split; [reflexivity | lia].
Qed.
Lemma take_none n l : length l < n -> take n l = None.
Proof. unfold take. destruct (Nat.leb_spec n (length l)); [lia | reflexivity]. Qed.

Definition at_ (f : file) (s : list N) : Prop := skipn (f_pos f) (f_bytes f) = s.
Lemma read_chunk_at f s n : at_ f s ->
  match take n s with
  | Some (x, s') => exists f', read_chunk f n = (true, x, f') /\ at_ f' s'
  | None => exists x f', read_chunk f n = (false, x, f')
  end.
Proof.
  unfold at_. intros <-. unfold take, read_chunk. rewrite firstn_length.
  destruct (Nat.leb_spec n (length (skipn (f_pos f) (f_bytes f)))).
  - rewrite Nat.min_l, Nat.eqb_refl by lia. eexists. split; [reflexivity|]. cbn [f_pos f_bytes]. now rewrite skipn_add.
  - replace (Nat.min n _ =? n) with false by (symmetry; apply Nat.eqb_neq; lia). eauto.
Qed.
Lemma read_value_at k value f s old : at_ f s -> (forall b, length b = k -> bytes b -> value b = le_val b) -> bytes s ->
  match take k s with
  | Some (x, s') => exists f', read_value k value f old = (true, le_val x, f') /\ at_ f' s'
  | None => exists x f', read_value k value f old = (false, x, f')
  end.
Proof.
  intros A V B. pose proof (read_chunk_at f s k A) as R. destruct (take k s) as [[x s']|] eqn:T.
  - destruct R as (f' & R & A'). exists f'. unfold read_value. rewrite R. split; [|exact A']. f_equal. f_equal.
    apply take_inv in T as [-> L]. apply V; [exact L|]. now apply Forall_app in B as [B _].
  - destruct R as (x & f' & R). unfold read_value. rewrite R. eauto.
Qed.
Lemma take_bytes n l x s : bytes l -> take n l = Some (x, s) -> bytes x /\ bytes s.
Proof. intros B T. apply take_inv in T as [-> _]. now apply Forall_app in B. Qed.

Lemma le_val_small n x : (x < 256 ^ N.of_nat n)%N -> le_val (le_bytes n x) = x.
Proof. intros H. rewrite le_val_le_bytes. now apply N.mod_small. Qed.

(** reading what is there *)
Lemma read_chunk_app f x s n : at_ f (x ++ s) -> length x = n -> exists f', read_chunk f n = (true, x, f') /\ at_ f' s.
Proof. intros A L. pose proof (read_chunk_at f _ n A) as R. now rewrite (take_app n x s L) in R. Qed.
Lemma read_value_app k value f v s old : at_ f (le_bytes k v ++ s) -> (forall b, length b = k -> bytes b -> value b = le_val b) ->
  (v < 256 ^ N.of_nat k)%N -> exists f', read_value k value f old = (true, v, f') /\ at_ f' s.
Proof.
  intros A V H. destruct (read_chunk_app f _ s k A (le_bytes_length k v)) as (f' & R & A'). exists f'. unfold read_value. rewrite R.
  split; [|exact A']. rewrite V by (apply le_bytes_length || apply le_bytes_bytes). now rewrite le_val_small.
Qed.
Lemma read16_app f v s old : at_ f (le_bytes 2 v ++ s) -> (v < 2 ^ 16)%N -> exists f', ReadFile16Bits f old = (true, v, f') /\ at_ f' s.
Proof. intros A H. exact (read_value_app 2 value16 f v s old A value16_spec H). Qed.
Lemma read32_app f v s old : at_ f (le_bytes 4 v ++ s) -> (v < 2 ^ 32)%N -> exists f', ReadFile32Bits f old = (true, v, f') /\ at_ f' s.
Proof. intros A H. exact (read_value_app 4 value32 f v s old A value32_spec H). Qed.
Lemma read64_app f v s old : at_ f (le_bytes 8 v ++ s) -> (v < 2 ^ 64)%N -> exists f', ReadFile64Bits f old = (true, v, f') /\ at_ f' s.
Proof. intros A H. exact (read_value_app 8 value64 f v s old A value64_spec H). Qed.

(** what was read was there *)
Lemma read_chunk_inv f s n x f' : at_ f s -> read_chunk f n = (true, x, f') -> exists s', s = x ++ s' /\ length x = n /\ at_ f' s'.
Proof.
  intros A E. pose proof (read_chunk_at f s n A) as R. destruct (take n s) as [[x' s']|] eqn:T.
  - destruct R as (f1 & R & A1). rewrite R in E. injection E as <- <-. apply take_inv in T as [-> L]. exists s'. now repeat split.
  - destruct R as (x' & f1 & R). rewrite R in E. discriminate.
Qed.
Lemma read_chunk_part f s n : at_ f s -> exists st f', read_chunk f n = (st, firstn n s, f').
Proof. unfold at_, read_chunk. intros <-. eauto. Qed.
Lemma read_value_inv k value f s old v f' : at_ f s -> (forall b, length b = k -> bytes b -> value b = le_val b) -> bytes s ->
  read_value k value f old = (true, v, f') -> exists s', s = le_bytes k v ++ s' /\ (v < 256 ^ N.of_nat k)%N /\ at_ f' s' /\ bytes s'.
Proof.
  intros A V B E. unfold read_value in E. destruct (read_chunk f k) as [[st b] f1] eqn:R. destruct st; [|discriminate].
  injection E as <- <-. destruct (read_chunk_inv _ _ _ _ _ A R) as (s' & -> & L & A'). apply Forall_app in B as [B1 B2].
  exists s'. rewrite V by assumption. subst k. rewrite le_bytes_le_val by exact B1. repeat split; [|assumption..]. now apply le_val_bound.
Qed.
Lemma read16_inv f s old v f' : at_ f s -> bytes s -> ReadFile16Bits f old = (true, v, f') ->
  exists s', s = le_bytes 2 v ++ s' /\ (v < 2 ^ 16)%N /\ at_ f' s' /\ bytes s'.
Proof. intros A B. exact (read_value_inv 2 value16 f s old v f' A value16_spec B). Qed.
Lemma read32_inv f s old v f' : at_ f s -> bytes s -> ReadFile32Bits f old = (true, v, f') ->
  exists s', s = le_bytes 4 v ++ s' /\ (v < 2 ^ 32)%N /\ at_ f' s' /\ bytes s'.
Proof. intros A B. exact (read_value_inv 4 value32 f s old v f' A value32_spec B). Qed.
Lemma read64_inv f s old v f' : at_ f s -> bytes s -> ReadFile64Bits f old = (true, v, f') ->
  exists s', s = le_bytes 8 v ++ s' /\ (v < 2 ^ 64)%N /\ at_ f' s' /\ bytes s'.
Proof. intros A B. exact (read_value_inv 8 value64 f s old v f' A value64_spec B). Qed.
