(** Properties of the chunked I/O of wizard/file.c (C55, C68). *)
From Coq Require Import NArith Arith List Bool Lia ZifyBool ZifyNat ZifyN.
From Verif Require Import Base BaseLemmas FileModel.
Import ListNotations.

Definition remaining (f : file) : nat := length (f_bytes f) - f_pos f.
(** the answers a working system gives: progress or interruption *)
Definition working (a : answer) : Prop := match a with Transfer _ | Interrupted => True | _ => False end.
Definition is_transfer (a : answer) : bool := match a with Transfer _ => true | _ => false end.
Definition transfers (s : list answer) : nat := length (filter is_transfer s).

Lemma extent_pos : 1 <= WizardMaxBufferExtent.
Proof. unfold WizardMaxBufferExtent. lia. Qed.
Lemma skipn_add {A} (n m : nat) (l : list A) : skipn n (skipn m l) = skipn (m + n) l.
Proof. revert l. induction m as [|m IH]; intros l; [reflexivity|]. destruct l; [now rewrite !skipn_nil | apply IH]. Qed.
Lemma firstn_add {A} (n m : nat) (l : list A) : firstn (n + m) l = firstn n l ++ firstn m (skipn n l).
Proof. revert l. induction n as [|n IH]; intros l; [reflexivity|]. destruct l; [now rewrite !firstn_nil|]. cbn. f_equal. apply IH. Qed.

Lemma firstn_length_self {A} n (l : list A) : firstn n l = firstn (length (firstn n l)) l.
Proof. rewrite firstn_length, <- firstn_firstn. now rewrite firstn_all. Qed.

(** what the loop has done after any answers: the data are the next bytes of the file *)
Lemma read_loop_inv : forall sched f e n got pos r, f_pos f = pos + length got -> got = firstn (length got) (skipn pos (f_bytes f)) ->
  length got <= n -> read_loop sched f e n got = Some r ->
  let '(st, d, f', _, _) := r in
  f_bytes f' = f_bytes f /\ f_pos f' = pos + length d /\ d = firstn (length d) (skipn pos (f_bytes f)) /\ length d <= n /\
  (st = true <-> length d = n).
Proof.
  induction sched as [|a sched IH]; intros f e n got pos r Hp Hg Hl H; cbn [read_loop] in H.
  - destruct (Nat.leb_spec n (length got)); [|discriminate H]. injection H as <-. repeat split; auto; lia.
  - destruct (Nat.leb_spec n (length got)). { injection H as <-. repeat split; auto; lia. }
    destruct (sys_read a f e _) as [[d f1] e1] eqn:Es.
    assert (X : f_bytes f1 = f_bytes f /\ f_pos f1 = f_pos f + length d /\ d = firstn (length d) (skipn (f_pos f) (f_bytes f)) /\ length d <= n - length got).
    { destruct a as [k| | |]; cbn [sys_read] in Es; injection Es as <- <- <-; cbn [f_bytes f_pos]; repeat split; cbn [length]; try lia.
      - apply firstn_length_self.
      - rewrite firstn_length. unfold granted. lia. }
    destruct X as (X1 & X2 & X3 & X4). destruct d as [|x d].
    + assert (P1 : f_pos f1 = pos + length got) by (cbn [length] in X2; lia).
      destruct e1.
      * assert (G1 : got = firstn (length got) (skipn pos (f_bytes f1))) by now rewrite X1.
        specialize (IH f1 true n got pos r P1 G1 Hl H). destruct r as [[[[st d] f'] ?] ?]. now rewrite X1 in IH.
      * injection H as <-. repeat split; auto; lia.
    + assert (G1 : got ++ x :: d = firstn (length (got ++ x :: d)) (skipn pos (f_bytes f1))).
      { rewrite X1, app_length, firstn_add, <- Hg, skipn_add. f_equal. rewrite X3 at 1. now rewrite Hp. }
      specialize (IH f1 e1 n (got ++ x :: d) pos r ltac:(rewrite app_length; lia) G1 ltac:(rewrite app_length; lia) H).
      destruct r as [[[[st d'] f'] ?] ?]. now rewrite X1 in IH.
Qed.

(** C55, reading: whatever the schedule, the data are the next bytes of the
    file, in order, the offset is behind them, and success is reported exactly
    when all of them were read *)
Theorem ReadFileChunk_exact : forall sched f e n st d f' e' left,
  ReadFileChunk sched f e n = Some (st, d, f', e', left) ->
  f_bytes f' = f_bytes f /\ f_pos f' = f_pos f + length d /\ d = firstn (length d) (skipn (f_pos f) (f_bytes f)) /\
  length d <= n /\ (st = true <-> length d = n).
Proof.
  intros sched f e n st d f' e' left H.
  exact (read_loop_inv sched f e n [] (f_pos f) _ ltac:(cbn; lia) eq_refl ltac:(cbn; lia) H).
Qed.
Print Assumptions ReadFileChunk_exact.

Lemma read_loop_progress : forall sched f e n got, Forall working sched ->
  n <= length got + remaining f -> n <= length got + transfers sched ->
  exists d f' e' left, read_loop sched f e n got = Some (true, d, f', e', left).
Proof.
  induction sched as [|a sched IH]; intros f e n got W R T; cbn [read_loop].
  - unfold transfers in T. cbn in T. replace (n <=? length got) with true by lia. eauto.
  - destruct (Nat.leb_spec n (length got)); [eauto|]. inversion W as [|? ? Wa W']; subst.
    destruct a as [k| | |]; try contradiction; cbn [sys_read].
    + pose proof extent_pos. set (m := granted k _) in *. assert (Lm : 1 <= m) by (unfold m, granted; lia). clearbody m.
      destruct (firstn m (skipn (f_pos f) (f_bytes f))) as [|x d] eqn:Ed.
      { exfalso. apply (f_equal (@length _)) in Ed. rewrite firstn_length, skipn_length in Ed. unfold remaining in R. cbn [length] in Ed. lia. }
      assert (Ld : length (x :: d) <= length (f_bytes f) - f_pos f) by (rewrite <- Ed, firstn_length, skipn_length; lia).
      apply IH; [exact W' | |].
      * rewrite app_length. unfold remaining in *. cbn [f_bytes f_pos]. lia.
      * rewrite app_length. unfold transfers in *. cbn [filter is_transfer length] in T. cbn [length]. lia.
    + apply IH; [exact W' | exact R | exact T].
Qed.
(** and a working system does transfer them all *)
Theorem ReadFileChunk_complete : forall sched f e n, Forall working sched -> n <= remaining f -> n <= transfers sched ->
  exists f' e' left, ReadFileChunk sched f e n = Some (true, firstn n (skipn (f_pos f) (f_bytes f)), f', e', left).
Proof.
  intros sched f e n W R T. destruct (read_loop_progress sched f e n [] W) as (d & f' & e' & left & H); [cbn; lia | cbn; lia|].
  exists f', e', left. unfold ReadFileChunk. rewrite H. pose proof (ReadFileChunk_exact _ _ _ _ _ _ _ _ _ H) as (_ & _ & Hd & _ & Hs).
  rewrite (proj1 Hs eq_refl) in Hd. now rewrite Hd at 1.
Qed.
Print Assumptions ReadFileChunk_complete.
Example ReadFileChunk_sample : ReadFileChunk [Transfer 0; Interrupted; Transfer 1; Transfer 5] (mkFile [1; 2; 3; 4; 5]%N 1) false 4 =
  Some (true, [2; 3; 4; 5]%N, mkFile [1; 2; 3; 4; 5]%N 5, true, []).
Proof. reflexivity. Qed.

(** the end of the file: failure, with the bytes there were, provided that errno
    is not EINTR *)
Lemma read_loop_eof : forall sched f n got, Forall (fun a => is_transfer a = true) sched ->
  length got + remaining f < n -> remaining f < transfers sched ->
  exists left, read_loop sched f false n got =
    Some (false, got ++ skipn (f_pos f) (f_bytes f), mkFile (f_bytes f) (f_pos f + remaining f), false, left).
Proof.
  induction sched as [|a sched IH]; intros f n got W R T; [unfold transfers in T; cbn in T; lia|].
  cbn [read_loop]. replace (n <=? length got) with false by lia. inversion W as [|? ? Wa W']; subst.
  destruct a as [k| | |]; try discriminate Wa. cbn [sys_read]. pose proof extent_pos.
  set (m := granted k _) in *. assert (Lm : 1 <= m) by (unfold m, granted; lia). clearbody m.
  destruct (firstn m (skipn (f_pos f) (f_bytes f))) as [|x d] eqn:Ed.
  - assert (remaining f = 0). { apply (f_equal (@length _)) in Ed. rewrite firstn_length, skipn_length in Ed. unfold remaining in *. cbn [length] in Ed. lia. }
    exists sched. rewrite (skipn_all2 (f_bytes f)) by (unfold remaining in *; lia). rewrite app_nil_r. cbn [length]. now replace (remaining f) with 0.
  - assert (Ld : length (x :: d) <= length (f_bytes f) - f_pos f) by (rewrite <- Ed, firstn_length, skipn_length; lia).
    set (f1 := mkFile (f_bytes f) (f_pos f + length (x :: d))).
    assert (R1 : remaining f1 = remaining f - length (x :: d)) by (unfold remaining; cbn [f1 f_bytes f_pos]; lia).
    destruct (IH f1 n (got ++ x :: d) W') as (left & HI).
    + rewrite app_length, R1. unfold remaining in *. lia.
    + rewrite R1. unfold transfers, remaining in *. cbn [filter is_transfer length] in *. lia.
    + exists left. rewrite HI. do 3 f_equal. f_equal. f_equal.
      * rewrite <- app_assoc. f_equal. cbn [f1 f_bytes f_pos]. rewrite <- skipn_add.
        etransitivity; [|apply (firstn_skipn (length (x :: d)))]. apply (f_equal (fun q => q ++ _)). rewrite <- Ed. apply firstn_length_self.
      * f_equal. cbn [f1 f_bytes f_pos]. rewrite R1. unfold remaining in *. lia.
Qed.
Theorem ReadFileChunk_end_of_file : forall sched f n, Forall (fun a => is_transfer a = true) sched ->
  remaining f < n -> remaining f < transfers sched ->
  exists left, ReadFileChunk sched f false n = Some (false, skipn (f_pos f) (f_bytes f), mkFile (f_bytes f) (f_pos f + remaining f), false, left).
Proof. intros sched f n W R T. exact (read_loop_eof sched f n [] W ltac:(cbn; lia) T). Qed.
Print Assumptions ReadFileChunk_end_of_file.

(** C68 (refuted): after one interruption errno stays EINTR, so that the end of
    the file is never noticed: the loop goes on for ever *)
Theorem ReadFileChunk_end_of_file_after_interruption_refuted : forall f n sched, Forall (fun a => is_transfer a = true) sched ->
  remaining f < n -> ReadFileChunk (Interrupted :: sched) f false n = None.
Proof.
  assert (G : forall sched f n got, Forall (fun a => is_transfer a = true) sched -> length got + remaining f < n -> read_loop sched f true n got = None).
  { induction sched as [|a sched IH]; intros f n got W R; cbn [read_loop]; replace (n <=? length got) with false by lia; [reflexivity|].
    inversion W as [|? ? Wa W']; subst. destruct a as [k| | |]; try discriminate Wa. cbn [sys_read].
    set (m := granted k _) in *. destruct (firstn m (skipn (f_pos f) (f_bytes f))) as [|x d] eqn:Ed.
    - apply IH; [exact W'|]. unfold remaining in *. cbn [f_bytes f_pos length]. lia.
    - assert (Ld : length (x :: d) <= length (f_bytes f) - f_pos f) by (rewrite <- Ed, firstn_length, skipn_length; lia).
      apply IH; [exact W'|]. rewrite app_length. unfold remaining in *. cbn [f_bytes f_pos]. lia. }
  intros f n sched W R. unfold ReadFileChunk. cbn [read_loop sys_read]. replace (n <=? length []) with false by (cbn; lia).
  apply G; [exact W | cbn; lia].
Qed.
Print Assumptions ReadFileChunk_end_of_file_after_interruption_refuted.

(** ** writing *)
Lemma write_loop_inv : forall sched f e data st f' e' left, f_pos f <= length (f_bytes f) ->
  write_loop sched f e data = Some (st, f', e', left) ->
  exists n, n <= length data /\ f' = write_chunk f (firstn n data) /\ (st = true <-> n = length data).
Proof.
  assert (Z : forall f, f_pos f <= length (f_bytes f) -> write_chunk f [] = f).
  { intros [b p] H. unfold write_chunk. cbn in *. rewrite Nat.add_0_r, firstn_skipn. reflexivity. }
  induction sched as [|a sched IH]; intros f e data st f' e' left Hp H; cbn [write_loop] in H.
  - destruct data; [|discriminate H]. injection H as <- <- <- <-. exists 0. cbn. repeat split; auto. symmetry. now apply Z.
  - destruct data as [|x data'] eqn:Ed. { injection H as <- <- <- <-. exists 0. cbn. repeat split; auto. symmetry. now apply Z. }
    rewrite <- Ed in *. assert (Ln : 1 <= length data) by (subst; cbn; lia). clear Ed.
    assert (Stop : forall f1 (e1 : bool), f1 = f -> (if e1 then write_loop sched f1 e1 data else Some (false, f1, e1, sched)) = Some (st, f', e', left) ->
      exists n, n <= length data /\ f' = write_chunk f (firstn n data) /\ (st = true <-> n = length data)).
    { intros f1 [|] -> Hs; [eapply IH; eauto|]. injection Hs as <- <- <- <-. exists 0. cbn [firstn]. rewrite Z by exact Hp.
      split; [lia|]. split; [reflexivity|]. split; [discriminate | lia]. }
    destruct a as [k| | |]; cbn [sys_write] in H; [|exact (Stop f e eq_refl H) | exact (Stop f true eq_refl H) | exact (Stop f false eq_refl H)].
    assert (Lm : 1 <= length (firstn (S k) data)) by (rewrite firstn_length; lia).
    destruct (length (firstn (S k) data)) as [|m] eqn:Em; [lia|]. rewrite <- Em in *. clear Em m.
    set (c := firstn (S k) data) in *. set (f1 := mkFile _ _) in H.
    assert (P1 : f_pos f1 <= length (f_bytes f1)).
    { cbn [f1 f_pos f_bytes]. rewrite !app_length, firstn_length, skipn_length. lia. }
    assert (Ek : firstn (length c) data = c) by (symmetry; apply firstn_length_self).
    assert (Le : length c <= length data) by (unfold c; rewrite firstn_length; lia).
    destruct (IH f1 e (skipn (length c) data) st f' e' left P1 H) as (n & L & -> & S).
    rewrite skipn_length in L, S.
    exists (length c + n). split; [lia|]. split; [|split; intros X; [apply S in X; lia | apply S; lia]].
    rewrite firstn_add, Ek. unfold write_chunk. cbn [f1 f_bytes f_pos]. rewrite !app_length, Nat.add_assoc. f_equal.
    set (d := firstn n _). rewrite firstn_app, firstn_length, (Nat.min_l (f_pos f)) by lia.
    replace (f_pos f + length c - f_pos f) with (length c) by lia. rewrite (firstn_all2 (firstn (f_pos f) _)) by (rewrite firstn_length; lia).
    rewrite firstn_app, Nat.sub_diag, firstn_all, firstn_O, app_nil_r. rewrite <- !app_assoc. do 3 f_equal.
    rewrite skipn_app, (skipn_all2 (firstn (f_pos f) _)) by (rewrite firstn_length; lia). cbn [app].
    rewrite skipn_app, firstn_length, (Nat.min_l (f_pos f)), (skipn_all2 c) by lia. cbn [app]. rewrite skipn_add. f_equal. lia.
Qed.
(** C55, writing: whatever the schedule, a prefix of the data is in the file at
    the offset, nothing else has changed, and success is reported exactly when
    the prefix is all of it *)
Theorem WriteFileChunk_exact : forall sched f e data st f' e' left, f_pos f <= length (f_bytes f) ->
  WriteFileChunk sched f e data = Some (st, f', e', left) ->
  exists n, n <= length data /\ f' = write_chunk f (firstn n data) /\ (st = true <-> n = length data).
Proof. exact write_loop_inv. Qed.
Print Assumptions WriteFileChunk_exact.
Theorem WriteFileChunk_complete : forall sched f e data, f_pos f <= length (f_bytes f) -> Forall working sched -> length data <= transfers sched ->
  exists e' left, WriteFileChunk sched f e data = Some (true, write_chunk f data, e', left).
Proof.
  assert (G : forall sched f e data, Forall working sched -> length data <= transfers sched ->
    exists f' e' left, write_loop sched f e data = Some (true, f', e', left)).
  { induction sched as [|a sched IH]; intros f e data W T.
    - unfold transfers in T. cbn in T. destruct data; [cbn; eauto | cbn in T; lia].
    - cbn [write_loop]. destruct data as [|x data'] eqn:Ed; [eauto|]. rewrite <- Ed in *.
      assert (Ln : 1 <= length data) by (subst; cbn; lia). clear Ed. inversion W as [|? ? Wa W']; subst.
      destruct a as [k| | |]; try contradiction; cbn [sys_write].
      + assert (Lm : 1 <= length (firstn (S k) data)) by (rewrite firstn_length; lia).
        destruct (length (firstn (S k) data)) as [|m] eqn:Em; [lia|]. rewrite <- Em in *. apply IH; [exact W'|].
        rewrite skipn_length. unfold transfers in *. cbn [filter is_transfer length] in T. lia.
      + apply IH; [exact W' | exact T]. }
  intros sched f e data P W T. destruct (G sched f e data W T) as (f' & e' & left & H). exists e', left.
  destruct (WriteFileChunk_exact _ _ _ _ _ _ _ _ P H) as (n & Ln & -> & S). unfold WriteFileChunk. rewrite H.
  rewrite (proj1 S eq_refl), firstn_all. reflexivity.
Qed.
Print Assumptions WriteFileChunk_complete.
Example WriteFileChunk_sample : WriteFileChunk [Transfer 0; Interrupted; Transfer 1; Failed] (mkFile [1; 2; 3; 4; 5]%N 1) false [7; 8; 9]%N =
  Some (true, mkFile [1; 7; 8; 9; 5]%N 4, true, [Failed]).
Proof. reflexivity. Qed.

(** ** integers *)
Lemma lor_shift x y n : N.lor x (N.shiftl y n) = N.lor (N.shiftl y n) x.
Proof. apply N.lor_comm. Qed.
Lemma le_val_cons x l : (x < 256)%N -> le_val (x :: l) = N.lor x (N.shiftl (le_val l) 8).
Proof. intros H. rewrite lor_add_disjoint by exact H. reflexivity. Qed.
Lemma value16_spec b : length b = 2 -> bytes b -> value16 b = le_val b.
Proof.
  intros L B. do 2 (destruct b as [|? b]; [discriminate L|]). destruct b; [|discriminate L].
  unfold bytes in B. repeat match goal with H : Forall _ (_ :: _) |- _ => inversion H; clear H; subst end.
  rewrite !le_val_cons by assumption. cbn [le_val]. unfold value16. cbn [get nth].
  rewrite ?N.shiftl_0_l, ?N.lor_0_r, (N.lor_comm _ n). f_equal. apply N.mod_small. rewrite N.shiftl_mul_pow2.
  change (2 ^ 16)%N with (256 * 256)%N. change (2 ^ 8)%N with 256%N. lia.
Qed.
Lemma value32_spec b : length b = 4 -> bytes b -> value32 b = le_val b.
Proof.
  intros L B. do 4 (destruct b as [|? b]; [discriminate L|]). destruct b; [|discriminate L].
  unfold bytes in B. repeat match goal with H : Forall _ (_ :: _) |- _ => inversion H; clear H; subst end.
  rewrite !le_val_cons by assumption. cbn [le_val]. unfold value32. cbn [get nth].
  rewrite ?N.shiftl_0_l, ?N.lor_0_r, !N.shiftl_lor, !N.shiftl_shiftl.
  change (8 + 8)%N with 16%N. change (16 + 8)%N with 24%N. change (8 + 16)%N with 24%N.
  rewrite (N.lor_comm _ n), (N.lor_comm _ (N.shiftl n0 8)), (N.lor_comm _ (N.shiftl n1 16)). reflexivity.
Qed.
Lemma value64_spec b : length b = 8 -> bytes b -> value64 b = le_val b.
Proof.
  intros L B. do 8 (destruct b as [|? b]; [discriminate L|]). destruct b; [|discriminate L].
  unfold bytes in B. repeat match goal with H : Forall _ (_ :: _) |- _ => inversion H; clear H; subst end.
  rewrite !le_val_cons by assumption. cbn [le_val]. unfold value64. cbn [get nth].
  rewrite ?N.shiftl_0_l, ?N.lor_0_r, !N.shiftl_lor, !N.shiftl_shiftl. cbn [N.add Pos.add Pos.succ Pos.add_carry].
  rewrite (N.lor_comm _ n), (N.lor_comm _ (N.shiftl n0 8)), (N.lor_comm _ (N.shiftl n1 16)),
    (N.lor_comm _ (N.shiftl n2 24)), (N.lor_comm _ (N.shiftl n3 32)), (N.lor_comm _ (N.shiftl n4 40)), (N.lor_comm _ (N.shiftl n5 48)). reflexivity.
Qed.
Lemma buffer16_spec v : buffer16 v = le_bytes 2 v.
Proof. unfold buffer16. cbn [le_bytes]. rewrite !N.shiftr_div_pow2. reflexivity. Qed.
Lemma buffer32_spec v : buffer32 v = le_bytes 4 v.
Proof. unfold buffer32. cbn [le_bytes]. rewrite !N.div_div by discriminate. rewrite !N.shiftr_div_pow2. reflexivity. Qed.
Lemma buffer64_spec v : buffer64 v = le_bytes 8 v.
Proof. unfold buffer64. cbn [le_bytes]. rewrite !N.div_div by discriminate. rewrite !N.shiftr_div_pow2. reflexivity. Qed.

(** C55: what the writers put in the file the readers get back, for every value
    of the width *)
Theorem integers_round_trip : forall f old,
  (forall v, (v < 2 ^ 16)%N -> let '(st, w, _) := ReadFile16Bits (mkFile (f_bytes (write_chunk f (buffer16 v))) (f_pos f)) old in
     f_pos f <= length (f_bytes f) -> st = true /\ w = v) /\
  (forall v, (v < 2 ^ 32)%N -> let '(st, w, _) := ReadFile32Bits (mkFile (f_bytes (write_chunk f (buffer32 v))) (f_pos f)) old in
     f_pos f <= length (f_bytes f) -> st = true /\ w = v) /\
  (forall v, (v < 2 ^ 64)%N -> let '(st, w, _) := ReadFile64Bits (mkFile (f_bytes (write_chunk f (buffer64 v))) (f_pos f)) old in
     f_pos f <= length (f_bytes f) -> st = true /\ w = v).
Proof.
  intros f old.
  assert (G : forall b, f_pos f <= length (f_bytes f) ->
    firstn (length b) (skipn (f_pos f) (firstn (f_pos f) (f_bytes f) ++ b ++ skipn (f_pos f + length b) (f_bytes f))) = b).
  { intros b P. rewrite skipn_app, firstn_length, Nat.min_l, Nat.sub_diag, skipn_all2 by (rewrite ?firstn_length; lia). cbn [skipn app].
    rewrite firstn_app, Nat.sub_diag, firstn_all, firstn_O. apply app_nil_r. }
  unfold ReadFile16Bits, ReadFile32Bits, ReadFile64Bits, read_value, read_chunk, write_chunk. cbn [f_bytes f_pos].
  split; [|split]; intros v Hv P.
  - rewrite buffer16_spec. specialize (G (le_bytes 2 v) P). rewrite le_bytes_length in *. rewrite G, le_bytes_length.
    split; [reflexivity|]. rewrite value16_spec by (rewrite ?le_bytes_length; auto using le_bytes_bytes). rewrite le_val_le_bytes.
    apply N.mod_small. exact Hv.
  - rewrite buffer32_spec. specialize (G (le_bytes 4 v) P). rewrite le_bytes_length in *. rewrite G, le_bytes_length.
    split; [reflexivity|]. rewrite value32_spec by (rewrite ?le_bytes_length; auto using le_bytes_bytes). rewrite le_val_le_bytes.
    apply N.mod_small. exact Hv.
  - rewrite buffer64_spec. specialize (G (le_bytes 8 v) P). rewrite le_bytes_length in *. rewrite G, le_bytes_length.
    split; [reflexivity|]. rewrite value64_spec by (rewrite ?le_bytes_length; auto using le_bytes_bytes). rewrite le_val_le_bytes.
    apply N.mod_small. exact Hv.
Qed.
Print Assumptions integers_round_trip.
(** and the layout in the file is little-endian, on every machine *)
Theorem integers_little_endian : forall v,
  buffer16 v = le_bytes 2 v /\ buffer32 v = le_bytes 4 v /\ buffer64 v = le_bytes 8 v.
Proof. intros v. auto using buffer16_spec, buffer32_spec, buffer64_spec. Qed.
Print Assumptions integers_little_endian.
(** a reader that finds too few bytes says so and leaves the value alone *)
Theorem integers_short_file : forall f old,
  (remaining f < 2 -> let '(st, w, _) := ReadFile16Bits f old in st = false /\ w = old) /\
  (remaining f < 4 -> let '(st, w, _) := ReadFile32Bits f old in st = false /\ w = old) /\
  (remaining f < 8 -> let '(st, w, _) := ReadFile64Bits f old in st = false /\ w = old).
Proof.
  intros f old. unfold ReadFile16Bits, ReadFile32Bits, ReadFile64Bits, read_value, read_chunk.
  split; [|split]; intros H; match goal with |- context [length ?l =? ?n] => replace (length l =? n) with false by (rewrite firstn_length, skipn_length; unfold remaining in H; lia) end; auto.
Qed.
Print Assumptions integers_short_file.
Example integers_sample : ReadFile32Bits (write_chunk (mkFile [] 0) (buffer32 305419896)) 7 = (false, 7%N, mkFile [120; 86; 52; 18]%N 4) /\
  fst (ReadFile32Bits (mkFile [120; 86; 52; 18]%N 0) 7) = (true, 305419896%N).
Proof. vm_compute. auto. Qed.

(** ** [read_chunk] and [write_chunk], which the other models use, are what the
    loops do whenever they end well *)
Theorem chunk_summary : forall sched f e n st d f' e' left, f_pos f <= length (f_bytes f) ->
  ReadFileChunk sched f e n = Some (st, d, f', e', left) ->
  st = true \/ Forall (fun a => is_transfer a = true) sched /\ e = false -> (st, d, f') = read_chunk f n.
Proof.
  intros sched f e n st d f' e' left P H [->|[W ->]].
  - destruct (ReadFileChunk_exact _ _ _ _ _ _ _ _ _ H) as (A & B & C & D & E). unfold read_chunk.
    rewrite (proj1 E eq_refl) in C. rewrite <- C. rewrite (proj1 E eq_refl), Nat.eqb_refl.
    destruct f' as [b' p']. cbn in *. subst. do 2 f_equal. now rewrite (proj1 E eq_refl).
  - revert f n st d f' e' left P H. enough (G : forall sched f n got st d f' e' left, f_pos f <= length (f_bytes f) -> Forall (fun a => is_transfer a = true) sched ->
      read_loop sched f false n got = Some (st, d, f', e', left) -> length got <= n ->
      (st, d, f') = (n <=? length got + remaining f, got ++ firstn (n - length got) (skipn (f_pos f) (f_bytes f)),
         mkFile (f_bytes f) (f_pos f + Nat.min (n - length got) (remaining f)))).
    { intros f n st d f' e' left P H. rewrite (G sched f n [] st d f' e' left P W H ltac:(cbn; lia)). unfold read_chunk.
      cbn [length app]. rewrite Nat.sub_0_r, firstn_length, skipn_length. unfold remaining. f_equal. f_equal. lia. }
    clear W sched. induction sched as [|a sched IH]; intros f n got st d f' e' left P W H L; cbn [read_loop] in H.
    + destruct (Nat.leb_spec n (length got)); [|discriminate H]. injection H as <- <- <- <- <-.
      replace (n - length got) with 0 by lia. rewrite app_nil_r, Nat.add_0_r. destruct f. cbn. f_equal. f_equal. lia.
    + destruct (Nat.leb_spec n (length got)).
      { injection H as <- <- <- <- <-. replace (n - length got) with 0 by lia. rewrite app_nil_r, Nat.add_0_r. destruct f. cbn. f_equal. f_equal. lia. }
      inversion W as [|? ? Wa W']; subst. destruct a as [k| | |]; try discriminate Wa. cbn [sys_read] in H. pose proof extent_pos.
      set (m := granted k _) in *. assert (1 <= m <= n - length got) by (unfold m, granted; lia).
      destruct (firstn m (skipn (f_pos f) (f_bytes f))) as [|x c] eqn:Ed.
      * injection H as <- <- <- <- <-. assert (length (skipn (f_pos f) (f_bytes f)) = 0).
        { apply (f_equal (@length _)) in Ed. rewrite firstn_length in Ed. cbn [length] in Ed. lia. }
        rewrite skipn_length in *. replace (remaining f) with 0 by (unfold remaining; lia).
        rewrite (skipn_all2 (f_bytes f)) by lia. rewrite firstn_nil, app_nil_r. cbn [length]. rewrite Nat.min_0_r. f_equal. f_equal. lia.
      * rewrite <- Ed in H. assert (Ld : length (firstn m (skipn (f_pos f) (f_bytes f))) = Nat.min m (remaining f)) by (rewrite firstn_length, skipn_length; reflexivity).
        assert (1 <= remaining f). { rewrite Ed in Ld. cbn in Ld. lia. }
        set (c1 := firstn m _) in *. set (f1 := mkFile _ _) in H.
        assert (R1 : remaining f1 = remaining f - length c1) by (unfold remaining; cbn [f1 f_bytes f_pos]; lia).
        assert (P1 : f_pos f1 <= length (f_bytes f1)) by (cbn [f1 f_bytes f_pos]; unfold remaining in *; lia).
        rewrite (IH f1 n (got ++ c1) st d f' e' left P1 W' H) by (rewrite app_length; lia).
        rewrite R1, app_length. cbn [f1 f_bytes f_pos]. f_equal; [f_equal; [lia|]|f_equal; lia].
        rewrite <- app_assoc. f_equal. rewrite <- skipn_add.
        replace (n - length got) with (length c1 + (n - (length got + length c1))) by lia. rewrite (firstn_add (length c1)). f_equal.
        unfold c1 at 2. rewrite firstn_length, <- firstn_firstn. now rewrite firstn_all.
Qed.
Print Assumptions chunk_summary.
