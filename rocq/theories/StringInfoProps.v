(** C49, C50: StringInfo operations. *)
From Coq Require Import Arith NArith List Lia Bool.
From Verif Require Import Base BaseLemmas Outcome StringInfoModel StringInfoProof.
Import ListNotations.

(** C49: every sequence of StringInfo calls whose caller obligations hold runs
    without touching memory outside an allocation, keeps the allocation
    invariant, and acts on the contents as the byte-string operations do. *)
Theorem stringinfo_runs_refine : forall junk ops,
  avalid ops [] ->
  exists st, fold_outcome (step junk) ops [] = Ok st /\ Forall wf st /\ aruns ops [] (map contents st).
Proof. intros junk ops V. apply (run_refines junk ops [] (Forall_nil _)). exact V. Qed.
Print Assumptions stringinfo_runs_refine.

Example stringinfo_runs_ex : exists st,
  fold_outcome (step (fun _ => 77%N)) [OBlob [1;2;3;4;5]%N; OAcquire 8; OSet 1 0; OSplit 1 2; OSetLength 2 1] []
    = Ok st /\ map contents st = [[1;2;3;4;5]; [3;4;5;0;0;0]; [1]]%N.
Proof. eexists. split; reflexivity. Qed.
Example stringinfo_avalid_ex : avalid [OBlob [1;2;3]%N; OClone 0; OSplit 1 2] [].
Proof.
  constructor; [exact I|]. intros st H. inversion H; subst.
  constructor; [cbn; lia|]. intros st H1. inversion H1; subst.
  constructor; [cbn; lia|]. intros. constructor.
Qed.

Theorem stringinfo_clone : forall s, wf s ->
  exists s', CloneStringInfo s = Ok s' /\ wf s' /\ contents s' = contents s.
Proof. exact clone_spec. Qed.

Theorem stringinfo_compare : forall s t, wf s -> wf t ->
  CompareStringInfo s t = Ok (lex (contents s) (contents t)).
Proof. exact compare_spec. Qed.
Print Assumptions stringinfo_compare.

(** [lex] is what its name says *)
Lemma lex_eq a b : lex a b = Eq <-> a = b.
Proof.
  revert b. induction a as [|x a IH]; intros [|y b]; cbn; split; intros H; try congruence.
  - destruct (N.compare_spec x y); try discriminate. subst. f_equal. now apply IH.
  - injection H as -> ->. rewrite N.compare_refl. now apply IH.
Qed.
Lemma lex_lt a b : lex a b = Lt <->
  exists p, (exists y t, a = p /\ b = p ++ y :: t) \/
            (exists x y s t, a = p ++ x :: s /\ b = p ++ y :: t /\ (x < y)%N).
Proof.
  revert b. induction a as [|x a IH]; intros b.
  - destruct b as [|y b]; cbn; split; try discriminate.
    + intros (p & [(y & t & <- & E)|(x & y & s & t & E & _)]); [discriminate|destruct p; discriminate].
    + intros _. exists []. left. exists y, b. auto.
    + reflexivity.
  - destruct b as [|y b]; cbn; split; try discriminate.
    + intros (p & [(y & t & E & E')|(x' & y & s & t & _ & E & _)]); destruct p; discriminate.
    + destruct (N.compare_spec x y) as [->|L|L]; try discriminate.
      * intros H. apply IH in H as (p & H). exists (y :: p).
        destruct H as [(z & t & -> & ->)|(x' & z & s & t & -> & -> & L)].
        -- left. exists z, t. auto.
        -- right. exists x', z, s, t. auto.
      * intros _. exists []. right. exists x, y, a, b. auto.
    + intros (p & [(z & t & E & E')|(x' & z & s & t & E & E' & L)]).
      * subst p. injection E' as -> ->. rewrite N.compare_refl. apply IH. exists a. left.
        exists z, t. auto.
      * destruct p as [|q p].
        -- injection E as -> ->. injection E' as -> ->. now rewrite (proj2 (N.compare_lt_iff _ _)).
        -- injection E as -> ->. injection E' as -> ->. rewrite N.compare_refl. apply IH.
           exists p. right. exists x', z, s, t. auto.
Qed.

Theorem stringinfo_string_round_trip : forall b,
  exists s, StringToStringInfo b = Ok s /\ wf s /\ contents s = b /\
            StringInfoToString s = Ok (b ++ [0%N]).
Proof.
  intros b. destruct (from_string_spec b) as (s & E & W & C). exists s. repeat split; auto.
  rewrite to_string_spec by auto. now rewrite C.
Qed.

(** C50 is false of the code: ConcatenateStringInfo copies the source at offset
    (new length), i.e. behind the result, so the appended region never depends
    on the source, ... *)
Theorem concatenate_ignores_source_refuted : forall junk s t1 t2 r1 r2,
  slen t1 = slen t2 ->
  ConcatenateStringInfo junk s t1 = Ok r1 -> ConcatenateStringInfo junk s t2 = Ok r2 ->
  contents r1 = contents r2.
Proof.
  intros junk s t1 t2 r1 r2 L. unfold ConcatenateStringInfo. rewrite L.
  set (d := mem_resize _ _ _). set (n := (slen s + slen t2)%nat).
  unfold mem_read, mem_write.
  destruct (Nat.leb _ (length (datum t1))); cbn [bind]; [|discriminate].
  destruct (Nat.leb_spec (n + length (slice (datum t1) 0 (slen t2))) (length d)) as [H1|]; cbn [bind];
    [|discriminate].
  destruct (Nat.leb _ (length (datum t2))); cbn [bind]; [|discriminate].
  destruct (Nat.leb_spec (n + length (slice (datum t2) 0 (slen t2))) (length d)) as [H2|]; cbn [bind];
    [|discriminate].
  intros E1 E2. injection E1 as <-. injection E2 as <-. unfold contents; cbn [slen datum].
  assert (forall x, (n <= length d)%nat -> firstn n (splice d n x) = firstn n d) as G.
  { intros x Hx. unfold splice. apply firstn_app_exact. rewrite firstn_length. lia. }
  rewrite !G by lia. reflexivity.
Qed.
Print Assumptions concatenate_ignores_source_refuted.

(** ... it is whatever lay behind the old string ... *)
Lemma over_allocate_ge f e n : (e <= over_allocate f e n)%nat.
Proof.
  revert e. induction f; intros e; cbn [over_allocate]; [lia|].
  destruct (Nat.ltb e n); [|lia]. specialize (IHf (2 * e)%nat). lia.
Qed.
Lemma over_allocate_reaches f e n : (n <= e * 2 ^ f)%nat -> (n <= over_allocate f e n)%nat.
Proof.
  revert e. induction f; intros e H; cbn [over_allocate Nat.pow] in *; [lia|].
  destruct (Nat.ltb_spec e n); [|lia]. apply IHf. lia.
Qed.
Lemma OverAllocateMemory_ge n : (n <= OverAllocateMemory n)%nat.
Proof.
  unfold OverAllocateMemory. destruct (Nat.ltb_spec n (128 * 1024)); [|lia].
  apply over_allocate_reaches. replace (256 * 2 ^ 10)%nat with (2 * (128 * 1024))%nat; [lia|].
  cbn [Nat.pow]. lia.
Qed.

Theorem concatenate_appends_slack_refuted : forall junk s t, wf s -> wf t ->
  (slen t <= MaxCipherBlocksize)%nat ->
  exists r, ConcatenateStringInfo junk s t = Ok r /\
    contents r = contents s ++ slice (datum s) (slen s) (slen t).
Proof.
  intros junk s t Ws Wt L. unfold ConcatenateStringInfo. unfold wf in *.
  rewrite mem_read_ok by lia. cbn [bind].
  set (n := OverAllocateMemory (slen s + slen t + WizardPathExtent)).
  assert (slen s + slen t + WizardPathExtent <= n)%nat as Hn by apply OverAllocateMemory_ge.
  pose proof path_extent_ge. unfold slice at 1.
  rewrite mem_write_ok by (rewrite mem_resize_length, firstn_length; lia).
  cbn [bind]. eexists. split; [reflexivity|]. unfold contents; cbn [slen datum].
  unfold splice. rewrite firstn_app_exact by (rewrite firstn_length, mem_resize_length; lia).
  rewrite mem_resize_firstn by lia. unfold slice.
  rewrite <- (firstn_skipn (slen s) (firstn (slen s + slen t) (datum s))).
  rewrite firstn_firstn, skipn_firstn_comm. f_equal; f_equal; lia.
Qed.
Print Assumptions concatenate_appends_slack_refuted.

(** ... so "ab" + "cd" is not "abcd" ... *)
Theorem concatenate_not_append_refuted :
  exists s t, wf s /\ wf t /\ contents s = [97;98]%N /\ contents t = [99;100]%N /\
  forall junk, exists r, ConcatenateStringInfo junk s t = Ok r /\ contents r = [97;98;0;0]%N.
Proof.
  exists (BlobToStringInfo [97;98]%N), (BlobToStringInfo [99;100]%N).
  split; [apply blob_spec|]. split; [apply blob_spec|]. split; [reflexivity|]. split; [reflexivity|].
  intros junk.
  destruct (concatenate_appends_slack_refuted junk (BlobToStringInfo [97;98]%N)
    (BlobToStringInfo [99;100]%N)) as (r & E & C).
  - apply blob_spec.
  - apply blob_spec.
  - cbn [slen BlobToStringInfo length]. unfold MaxCipherBlocksize. lia.
  - exists r. split; [exact E|]. rewrite C. reflexivity.
Qed.

(** ... and a source of more than 4096 bytes makes it write outside the buffer
    as soon as the request is too large to be over-allocated. *)
Theorem concatenate_overflow_refuted : forall junk s t, wf t ->
  (WizardPathExtent < slen t)%nat -> (128 * 1024 <= slen s + slen t + WizardPathExtent)%nat ->
  ConcatenateStringInfo junk s t = UB.
Proof.
  intros junk s t W H1 H2. unfold ConcatenateStringInfo, OverAllocateMemory.
  rewrite (proj2 (Nat.ltb_ge _ _)) by exact H2. unfold wf in W.
  rewrite mem_read_ok by lia. cbn [bind]. unfold mem_write.
  rewrite mem_resize_length. unfold slice. rewrite firstn_length, skipn_length.
  destruct (Nat.leb_spec (slen s + slen t + Nat.min (slen t) (length (datum t) - 0))
    (slen s + slen t + WizardPathExtent)); [lia|reflexivity].
Qed.
