(** C64: reading a whole file into memory. *)
From Coq Require Import Arith NArith List Bool Lia.
From Verif Require Import Base BaseLemmas Outcome StringInfoModel StringInfoProof FileToBlobModel.
Import ListNotations.

(** what the stream delivers: the answers up to the end of file; an
    interrupted read delivers nothing and is repeated *)
Fixpoint input (reads : list answer) : list N :=
  match reads with
  | [] => []
  | ([], false) :: _ => []
  | (data, _) :: reads => data ++ input reads
  end.

(** every read returns at most [quantum] bytes, and two successive reads
    together at most [quantum + 1] *)
Fixpoint calm (quantum room : nat) (reads : list answer) : Prop :=
  match reads with
  | [] => True
  | (data, _) :: reads => length data <= quantum /\ length data <= room /\ calm quantum (quantum + 1 - length data) reads
  end.

Lemma splice_firstn {A} (d s : list A) i : i + length s <= length d -> firstn (i + length s) (splice d i s) = firstn i d ++ s.
Proof.
  intros H. unfold splice. rewrite app_assoc, firstn_app. rewrite app_length, firstn_length.
  replace (i + length s - (Nat.min i (length d) + length s)) with 0 by lia. cbn [firstn]. rewrite app_nil_r. apply firstn_all2.
  rewrite app_length, firstn_length. lia.
Qed.

Lemma input_cons d e reads : (length d =? 0) && negb e = false -> input ((d, e) :: reads) = d ++ input reads.
Proof. intros H. destruct d, e; cbn in *; reflexivity || discriminate. Qed.
Lemma input_eof d e reads : (length d =? 0) && negb e = true -> input ((d, e) :: reads) = [].
Proof. intros H. destruct d, e; cbn in *; reflexivity || discriminate. Qed.

Lemma pipe_loop_ok junk quantum extent : 1 <= quantum -> forall reads i room blob done,
  length done = i -> firstn i blob = done -> length blob = i + room -> 1 <= room -> i < extent \/ reads = [] ->
  calm quantum room reads ->
  exists blob' i' count, pipe_loop junk reads quantum extent i blob = Ok (blob', i', count) /\ i' + count < length blob' /\
    firstn (Nat.min (i' + count) extent) blob' = firstn extent (done ++ input reads) /\
    Nat.min (i' + count) extent = length (firstn extent (done ++ input reads)).
Proof.
  intros Q. induction reads as [|[d e] reads IH]; intros i room blob done L F B R X C.
  - cbn [pipe_loop input]. exists blob, i, 0. rewrite app_nil_r, Nat.add_0_r. split; [reflexivity|]. split; [lia|].
    subst i. split; [|rewrite firstn_length; lia].
    rewrite <- F at 2. rewrite firstn_firstn. f_equal. lia.
  - destruct C as (C1 & C2 & C3). cbn [pipe_loop]. destruct ((length d =? 0) && negb e) eqn:Z.
    + rewrite input_eof by assumption. exists blob, i, 0. rewrite app_nil_r, Nat.add_0_r. split; [reflexivity|]. split; [lia|].
      subst i. split; [|rewrite firstn_length; lia].
      rewrite <- F at 2. rewrite firstn_firstn. f_equal. lia.
    + rewrite input_cons by assumption. rewrite mem_write_ok by lia. cbn [bind].
      assert (P : firstn (i + length d) (mem_resize junk (splice blob i d) (i + quantum + 1)) = done ++ d).
      { rewrite mem_resize_firstn; [|lia|rewrite splice_length; lia]. rewrite splice_firstn by lia. now rewrite F. }
      destruct (Nat.leb_spec extent (i + length d)) as [E|E].
      * eexists _, _, _. split; [reflexivity|]. rewrite mem_resize_length. split; [lia|].
        rewrite app_assoc, firstn_app. replace (extent - length (done ++ d)) with 0 by (rewrite app_length; lia). cbn [firstn].
        rewrite app_nil_r, <- P. rewrite firstn_firstn. rewrite (Nat.min_comm (i + length d)). split; [reflexivity|].
        rewrite firstn_length, mem_resize_length. lia.
      * destruct (IH (i + length d) (quantum + 1 - length d) (mem_resize junk (splice blob i d) (i + quantum + 1)) (done ++ d)) as (b & i' & c & E1 & E2 & E3 & E4).
        -- rewrite app_length. lia.
        -- exact P.
        -- rewrite mem_resize_length. lia.
        -- lia.
        -- left. lia.
        -- exact C3.
        -- rewrite E1. exists b, i', c. rewrite app_assoc. auto.
Qed.

(** ** C64, the part that holds *)
Theorem file_to_blob_pipe_partial (junk : nat -> N) (reads : list answer) (st_size extent : nat) :
  let quantum := if 0 <? st_size then Nat.min st_size WizardMaxBufferExtent else WizardMaxBufferExtent in
  0 < extent -> calm quantum quantum reads ->
  exists blob len, FileToBlob_pipe junk reads st_size extent = Ok (blob, len) /\
    len = length (firstn extent (input reads)) /\ firstn len blob = firstn extent (input reads) /\ nth len blob 1%N = 0%N.
Proof.
  intros quantum X C. unfold FileToBlob_pipe. fold quantum.
  assert (Q : 1 <= quantum).
  { unfold quantum. assert (1 <= WizardMaxBufferExtent) by (unfold WizardMaxBufferExtent; cbn; lia). destruct (Nat.ltb_spec 0 st_size); lia. }
  clearbody quantum.
  destruct (pipe_loop_ok junk quantum extent Q reads 0 quantum (map junk (seq 0 quantum)) []) as (b & i & c & E1 & E2 & E3 & E4); try reflexivity; auto.
  { now rewrite map_length, seq_length. }
  cbn zeta. rewrite E1. cbn [bind]. cbn [app] in E3, E4. rewrite mem_write_ok by (cbn; lia). cbn [bind].
  eexists _, _. split; [reflexivity|]. split; [exact E4|]. rewrite <- E3. unfold splice. split.
  - rewrite firstn_app, firstn_firstn, firstn_length. replace (Nat.min (i + c) extent - Nat.min (Nat.min (i + c) extent) (length b)) with 0 by lia.
    cbn [firstn]. rewrite app_nil_r. f_equal. lia.
  - rewrite app_nth2 by (rewrite firstn_length; lia). rewrite firstn_length. replace (_ - _) with 0 by lia. reflexivity.
Qed.

(** ** C64 is false: two reads that together exceed the quantum by more than
    one byte are enough, and so is every longer pipe that is read in full *)
Theorem file_to_blob_pipe_refuted (junk : nat -> N) (a b : list N) (e1 e2 : bool) (reads : list answer) (extent : nat) :
  length a <= WizardMaxBufferExtent -> length b <= WizardMaxBufferExtent ->
  WizardMaxBufferExtent + 1 < length a + length b -> length a < extent ->
  FileToBlob_pipe junk ((a, e1) :: (b, e2) :: reads) 0 extent = UB.
Proof.
  intros A B AB X. unfold FileToBlob_pipe. change (0 <? 0) with false. cbv iota zeta. set (q := WizardMaxBufferExtent) in *. clearbody q.
  assert (UBL : pipe_loop junk ((a, e1) :: (b, e2) :: reads) q extent 0 (map junk (seq 0 q)) = UB); [|now rewrite UBL].
  change (pipe_loop junk ((a, e1) :: (b, e2) :: reads) q extent 0 (map junk (seq 0 q))) with
    (if (length a =? 0) && negb e1 then Ok (map junk (seq 0 q), 0, 0) else
       let* bl := mem_write (map junk (seq 0 q)) 0 a in
       if extent <=? 0 + length a then Ok (mem_resize junk bl (0 + q + 1), 0, length a)
       else if (length b =? 0) && negb e2 then Ok (mem_resize junk bl (0 + q + 1), 0 + length a, 0) else
         let* bl := mem_write (mem_resize junk bl (0 + q + 1)) (0 + length a) b in
         if extent <=? 0 + length a + length b then Ok (mem_resize junk bl (0 + length a + q + 1), 0 + length a, length b)
         else pipe_loop junk reads q extent (0 + length a + length b) (mem_resize junk bl (0 + length a + q + 1))).
  destruct (Nat.eqb_spec (length a) 0); [lia|]. destruct (Nat.eqb_spec (length b) 0); [lia|]. cbn [andb].
  rewrite mem_write_ok by (rewrite map_length, seq_length; lia). cbn [bind].
  destruct (Nat.leb_spec extent (0 + length a)); [lia|].
  unfold mem_write. rewrite mem_resize_length. destruct (Nat.leb_spec (0 + length a + length b) (0 + q + 1)); [lia|]. reflexivity.
Qed.

(** ** The seekable branch is sound *)
Lemma seek_loop_ok len : forall reads i blob done, length done = i -> firstn i blob = done -> i <= len -> len <= length blob ->
  (forall d e, In (d, e) reads -> True) -> length (done ++ input reads) <= len ->
  exists blob', seek_loop reads len i blob = Ok (blob', length (done ++ input reads)) /\ length blob' = length blob /\
    firstn (length (done ++ input reads)) blob' = done ++ input reads.
Proof.
  induction reads as [|[d e] reads IH]; intros i blob done L F I B _ S; cbn [seek_loop].
  - cbn [input] in *. rewrite app_nil_r in *. exists blob. subst i. destruct (len <=? length done); rewrite F; auto.
  - destruct (Nat.leb_spec len i) as [E|E].
    + destruct ((length d =? 0) && negb e) eqn:Z.
      * rewrite input_eof by assumption. rewrite app_nil_r. exists blob. subst i. rewrite F. auto.
      * rewrite input_cons in * by assumption. rewrite !app_length in S.
        assert (d = []) as -> by (apply length_zero_iff_nil; lia). assert (input reads = []) as -> by (apply length_zero_iff_nil; lia).
        rewrite !app_nil_r. exists blob. subst i. rewrite F. auto.
    + destruct ((length d =? 0) && negb e) eqn:Z.
      * rewrite input_eof by assumption. rewrite app_nil_r. exists blob. subst i. rewrite F. auto.
      * rewrite input_cons in * by assumption. rewrite !app_length in S. rewrite mem_write_ok by lia. cbn [bind].
        destruct (IH (i + length d) (splice blob i d) (done ++ d)) as (b & E1 & E2 & E3).
        -- rewrite app_length. lia.
        -- rewrite splice_firstn by lia. now rewrite F.
        -- lia.
        -- rewrite splice_length; lia.
        -- auto.
        -- rewrite !app_length. lia.
        -- rewrite <- app_assoc in *. exists b. rewrite splice_length in E2 by lia. auto.
Qed.

(** whatever the system answers within what was asked for: the blob is the
    first [min size extent] bytes of the file, or NULL if the file ended early *)
Theorem file_to_blob_seek (junk : nat -> N) (reads : list answer) (mapped : option (list N)) (size extent : nat) :
  let len := Nat.min size extent in
  match mapped with
  | Some m => length m = len ->
      exists blob, FileToBlob_seek junk reads mapped size extent = Ok (Some (blob, len)) /\ firstn len blob = m /\ nth len blob 1%N = 0%N
  | None => length (input reads) <= len ->
      if length (input reads) =? len
      then exists blob, FileToBlob_seek junk reads mapped size extent = Ok (Some (blob, len)) /\ firstn len blob = input reads /\ nth len blob 1%N = 0%N
      else FileToBlob_seek junk reads mapped size extent = Ok None
  end.
Proof.
  intros len. unfold FileToBlob_seek. fold len. clearbody len.
  assert (M : 128 = MaxCipherBlocksize) by reflexivity. assert (1 <= MaxCipherBlocksize) by (unfold MaxCipherBlocksize; lia).
  set (blob := map junk (seq 0 (len + MaxCipherBlocksize))).
  assert (BL : length blob = len + MaxCipherBlocksize) by (unfold blob; rewrite map_length, seq_length; reflexivity).
  clearbody blob. generalize dependent MaxCipherBlocksize. intros mc M H BL. clear M.
  destruct mapped as [m|]; intros LM.
  - unfold mem_read. destruct (Nat.leb_spec (0 + len) (length m)); [|lia]. cbn [bind].
    assert (SL : slice m 0 len = m) by (unfold slice; cbn [skipn]; apply firstn_all2; lia). rewrite SL.
    rewrite mem_write_ok by lia. cbn [bind]. rewrite mem_write_ok by (rewrite splice_length by lia; cbn; lia). cbn [bind].
    eexists. split; [reflexivity|].
    pose proof (splice_firstn blob m 0) as SF. cbn [Nat.add firstn app] in SF. specialize (SF ltac:(lia)). rewrite LM in SF.
    split.
    + unfold splice at 1. rewrite firstn_app, firstn_firstn, firstn_length, splice_length by lia.
      replace (len - Nat.min len (length blob)) with 0 by lia. cbn [firstn]. rewrite app_nil_r. replace (Nat.min len len) with len by lia. exact SF.
    + unfold splice at 1. rewrite app_nth2 by (rewrite firstn_length, splice_length by lia; lia). rewrite firstn_length, splice_length by lia.
      replace (_ - _) with 0 by lia. reflexivity.
  - destruct (seek_loop_ok len reads 0 blob []) as (b & E1 & E2 & E3); try reflexivity; try lia; auto. cbn [app] in *. rewrite E1. cbn [bind].
    destruct (Nat.eqb_spec (length (input reads)) len) as [E|E].
    + destruct (Nat.ltb_spec (length (input reads)) len); [lia|]. rewrite mem_write_ok by (cbn; lia). cbn [bind]. eexists. split; [reflexivity|].
      unfold splice. split.
      * rewrite firstn_app, firstn_firstn, firstn_length. replace (len - Nat.min len (length b)) with 0 by lia. cbn [firstn]. rewrite app_nil_r.
        replace (Nat.min len len) with len by lia. rewrite <- E at 1. exact E3.
      * rewrite app_nth2 by (rewrite firstn_length; lia). rewrite firstn_length. replace (_ - _) with 0 by lia. reflexivity.
    + destruct (Nat.ltb_spec (length (input reads)) len); [reflexivity|lia].
Qed.

Example file_to_blob_pipe_ex :
  calm 8 8 [([1;2;3], false); ([4;5;6;7;8;9], false); ([], true); ([1;2;3;4;5;6;7;8], false)]%N /\
  input [([1;2;3], false); ([4;5], false); ([], true); ([6], false); ([], false); ([7], false)]%N = [1;2;3;4;5;6]%N.
Proof. cbn. split; [lia|reflexivity]. Qed.
Example file_to_blob_pipe_run :
  exists blob, FileToBlob_pipe (fun _ => 7%N) [([1;2;3], false); ([4;5], false)]%N 5 100 = Ok (blob, 5) /\ firstn 6 blob = [1;2;3;4;5;0]%N.
Proof. eexists. split; vm_compute; reflexivity. Qed.
(** a pipe that delivers 8192 bytes twice *)
Example file_to_blob_pipe_overflow : forall junk extent, WizardMaxBufferExtent < extent ->
  FileToBlob_pipe junk [(repeat 1%N WizardMaxBufferExtent, false); (repeat 2%N WizardMaxBufferExtent, false)] 0 extent = UB.
Proof.
  intros junk extent H. assert (2 <= WizardMaxBufferExtent) by (unfold WizardMaxBufferExtent; lia).
  apply file_to_blob_pipe_refuted; rewrite ?repeat_length; generalize dependent WizardMaxBufferExtent; intros; lia.
Qed.
Example file_to_blob_seek_ex :
  (exists blob, FileToBlob_seek (fun _ => 7%N) [([1;2], false); ([3], false)]%N None 3 10 = Ok (Some (blob, 3)) /\ firstn 4 blob = [1;2;3;0]%N) /\
  FileToBlob_seek (fun _ => 7%N) [([1;2], false)]%N None 3 10 = Ok None.
Proof. split; [eexists; split; vm_compute; reflexivity|vm_compute; reflexivity]. Qed.

Print Assumptions file_to_blob_pipe_partial.
Print Assumptions file_to_blob_pipe_refuted.
Print Assumptions file_to_blob_seek.
