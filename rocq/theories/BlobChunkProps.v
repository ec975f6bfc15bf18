(** Chunks of files, pipes and compressed streams that take or give fewer bytes than asked for *)
From Coq Require Import NArith Arith List Bool Lia.
From Verif Require Import BlobChunkModel.
Import ListNotations.

(** ** Writing *)
Lemma put_bytes_prefix : forall data sched e sink n sink' e' sched',
  put_bytes sched e sink data = Some (n, sink', e', sched') -> n <= length data /\ sink' = sink ++ firstn n data.
Proof.
  induction data as [|c data IH]; intros sched e sink n sink' e' sched' H; cbn [put_bytes] in H.
  - injection H as <- <- <- <-. cbn. rewrite app_nil_r. split; [lia|reflexivity].
  - destruct sched as [|[takes e0] sched]; [discriminate|].
    destruct (takes =? 0)%N.
    + injection H as <- <- <- <-. cbn. rewrite app_nil_r. split; [lia|reflexivity].
    + destruct (put_bytes sched e0 (sink ++ [c]) data) as [[[[n1 s1] e1] c1]|] eqn:E; [|discriminate].
      injection H as <- <- <- <-. destruct (IH _ _ _ _ _ _ _ E) as [L ->].
      cbn [firstn length]. rewrite <- app_assoc. split; [lia|reflexivity].
Qed.
Lemma moved_asked k takes n : moved k takes n <= n.
Proof.
  assert (H : (asked k (N.of_nat n) <= N.of_nat n)%N).
  { assert (M : (N.of_nat n mod 2 ^ 32 <= N.of_nat n)%N) by (apply N.mod_le; discriminate).
    destruct k; cbn [asked]; cbv zeta; [apply N.le_refl| |]; destruct (2 ^ 31 <=? _)%N; try exact M; apply N.le_0_l. }
  unfold moved. generalize dependent (asked k (N.of_nat n)). intros. lia.
Qed.
Lemma WriteBlob_prefix k sched e sink data n sink' e' sched' :
  WriteBlob k sched e sink data = Some (n, sink', e', sched') -> n <= length data /\ sink' = sink ++ firstn n data.
Proof.
  unfold WriteBlob. destruct (Nat.eqb_spec (length data) 0) as [E|E].
  - intros H. injection H as <- <- <- <-. cbn. rewrite app_nil_r. split; [lia|reflexivity].
  - destruct (by_byte k (length data)); [apply put_bytes_prefix|].
    destruct sched as [|[takes e0] sched]; [discriminate|]. intros H. injection H as <- <- <- <-.
    split; [apply moved_asked|reflexivity].
Qed.
Lemma firstn_add {A} n m (l : list A) : firstn (n + m) l = firstn n l ++ firstn m (skipn n l).
Proof. revert l. induction n as [|n IH]; intros [|a l]; cbn; rewrite ?firstn_nil; [reflexivity..|]. now rewrite IH. Qed.
Lemma write_loop_prefix k data start : forall turns sched e i sink j sink' e' sched',
  write_loop turns k sched e i sink data = Some (j, sink', e', sched') -> i <= length data -> sink = start ++ firstn i data ->
  j <= length data /\ sink' = start ++ firstn j data /\ (j < length data -> e' = false).
Proof.
  induction turns as [|turns IH]; intros sched e i sink j sink' e' sched' H L ->; cbn [write_loop] in H.
  - destruct (Nat.ltb_spec i (length data)); [discriminate|]. injection H as <- <- <- <-. repeat split; [exact L|lia].
  - destruct (Nat.ltb_spec i (length data)) as [Li|Li];
      [|injection H as <- <- <- <-; repeat split; [exact L|lia]].
    destruct (WriteBlob k sched e (start ++ firstn i data) (skipn i data)) as [[[[n s1] e1] c1]|] eqn:W; [|discriminate].
    destruct (WriteBlob_prefix _ _ _ _ _ _ _ _ _ W) as [Ln ->]. rewrite skipn_length in Ln.
    destruct n as [|n].
    + cbn [firstn] in H. rewrite app_nil_r in H. destruct e1.
      * exact (IH _ _ _ _ _ _ _ _ H L eq_refl).
      * injection H as <- <- <- <-. repeat split; lia.
    + refine (IH _ _ _ _ _ _ _ _ H _ _); [lia|]. now rewrite firstn_add, app_assoc.
Qed.
(** what is returned is how many bytes the stream has taken, and these are the first of the data;
    if fewer than asked for, errno is not EINTR *)
Theorem write_chunk_prefix : forall turns k sched e sink data i sink' e' sched',
  WriteBlobChunk turns k sched e sink data = Some (i, sink', e', sched') ->
  i <= length data /\ sink' = sink ++ firstn i data /\ (i < length data -> e' = false).
Proof.
  intros turns k sched e sink data i sink' e' sched' H.
  apply (write_loop_prefix k data sink turns sched e 0 sink i sink' e' sched' H); [lia|]. cbn. now rewrite app_nil_r.
Qed.

(** a stream that takes at least a byte at each call takes all *)
Definition takes_some (a : answer) : Prop := (0 < fst a)%N.
(** lengths that the libraries of compressed streams take *)
Definition fits (k : kind) (n : nat) : Prop := match k with Stdio => True | _ => (N.of_nat n < 2 ^ 31)%N end.
Lemma put_bytes_some : forall data sched e sink, data <> [] -> Forall takes_some sched -> length data <= length sched ->
  exists sink' e' sched', put_bytes sched e sink data = Some (length data, sink', e', sched') /\
    length sched = length data + length sched' /\ Forall takes_some sched'.
Proof.
  induction data as [|c data IH]; intros sched e sink ND F L; [destruct (ND eq_refl)|].
  destruct sched as [|[takes e0] sched]; cbn [length] in L; [lia|]. inversion F as [|? ? F0 F1]; subst.
  cbn [put_bytes]. unfold takes_some in F0. cbn [fst] in F0.
  destruct (N.eqb_spec takes 0) as [->|_]; [lia|].
  destruct data as [|c' data].
  - cbn [put_bytes]. do 3 eexists. split; [reflexivity|]. split; [reflexivity|exact F1].
  - destruct (IH sched e0 (sink ++ [c]) ltac:(discriminate) F1 ltac:(cbn [length] in *; lia)) as (s' & e' & c1 & E & Ls & Fs).
    rewrite E. do 3 eexists. split; [reflexivity|]. cbn [length] in *. split; [lia|exact Fs].
Qed.
Lemma moved_some k takes n : 0 < n -> (0 < takes)%N -> fits k n -> 0 < moved k takes n.
Proof.
  intros Hn Ht Hf. unfold moved, asked, fits in *.
  destruct k; [lia| |]; (rewrite N.mod_small; [|eapply N.lt_trans; [exact Hf|reflexivity]]);
  destruct (N.leb_spec (2 ^ 31) (N.of_nat n)) as [H|H]; [apply N.lt_nge in Hf; destruct (Hf H)|clear Hf H; lia|apply N.lt_nge in Hf; destruct (Hf H)|clear Hf H; lia].
Qed.
Lemma WriteBlob_some k sched e sink data : data <> [] -> Forall takes_some sched -> length data <= length sched -> fits k (length data) ->
  exists n sink' e' sched', WriteBlob k sched e sink data = Some (n, sink', e', sched') /\ 0 < n <= length data /\
    length sched <= n + length sched' /\ Forall takes_some sched'.
Proof.
  intros ND F L Hf. assert (Ld : 0 < length data) by (destruct data; [destruct (ND eq_refl)|cbn; lia]).
  unfold WriteBlob. destruct (Nat.eqb_spec (length data) 0); [lia|]. destruct (by_byte k (length data)) eqn:B.
  - destruct (put_bytes_some data sched e sink ND F L) as (s' & e' & c1 & E & Ls & Fs).
    rewrite E. do 4 eexists. split; [reflexivity|]. repeat split; [exact Ld|lia|lia|exact Fs].
  - destruct sched as [|[takes e0] sched]; cbn [length] in *; [lia|]. inversion F as [|? ? F0 F1]; subst.
    assert (M := moved_some k takes (length data) Ld F0 Hf).
    do 4 eexists. split; [reflexivity|]. split; [split; [exact M|apply moved_asked]|]. split; [lia|exact F1].
Qed.
Lemma fits_le k n m : m <= n -> fits k n -> fits k m.
Proof. destruct k; cbn; [trivial| |]; intros L H; (eapply N.le_lt_trans; [|exact H]); lia. Qed.
Lemma write_loop_all k data : fits k (length data) -> forall turns sched e i sink,
  Forall takes_some sched -> i <= length data -> length data - i <= length sched -> length data - i <= turns ->
  exists sink' e' sched', write_loop turns k sched e i sink data = Some (length data, sink', e', sched').
Proof.
  intros Hf. induction turns as [|turns IH]; intros sched e i sink F Li Ls Lt; cbn [write_loop].
  - destruct (Nat.ltb_spec i (length data)); [lia|]. replace (length data) with i by lia. eauto.
  - destruct (Nat.ltb_spec i (length data)) as [L|L]; [|replace (length data) with i by lia; eauto].
    destruct (WriteBlob_some k sched e sink (skipn i data)) as (n & s' & e' & c1 & E & Ln & Ls' & Fs).
    + intros E. apply (f_equal (@length N)) in E. rewrite skipn_length in E. cbn in E. lia.
    + exact F.
    + rewrite skipn_length. lia.
    + apply (fits_le k (length data)); [rewrite skipn_length; lia|exact Hf].
    + rewrite skipn_length in Ln. rewrite E. destruct n as [|n]; [lia|]. apply IH; [exact Fs|lia|lia|lia].
Qed.
Theorem write_chunk_all : forall turns k sched e sink data, fits k (length data) -> Forall takes_some sched ->
  length data <= length sched -> length data <= turns ->
  exists e' sched', WriteBlobChunk turns k sched e sink data = Some (length data, sink ++ data, e', sched').
Proof.
  intros turns k sched e sink data Hf F Ls Lt.
  destruct (write_loop_all k data Hf turns sched e 0 sink F ltac:(lia) ltac:(lia) ltac:(lia)) as (s' & e' & c1 & E).
  exists e', c1. destruct (write_chunk_prefix _ _ _ _ _ _ _ _ _ _ E) as (_ & -> & _). now rewrite firstn_all in E.
Qed.

(** ** Reading *)
Lemma get_bytes_prefix : forall n sched e source got source' e' sched',
  get_bytes sched e source n = Some (got, source', e', sched') -> source = got ++ source' /\ length got <= n.
Proof.
  induction n as [|n IH]; intros sched e source got source' e' sched' H; cbn [get_bytes] in H.
  - injection H as <- <- <- <-. split; [reflexivity|cbn; lia].
  - destruct sched as [|[takes e0] sched]; [discriminate|].
    destruct source as [|c source]; [injection H as <- <- <- <-; split; [reflexivity|cbn; lia]|].
    destruct (takes =? 0)%N; [injection H as <- <- <- <-; split; [reflexivity|cbn; lia]|].
    destruct (get_bytes sched e0 source n) as [[[[g1 s1] e1] c1]|] eqn:E; [|discriminate].
    injection H as <- <- <- <-. destruct (IH _ _ _ _ _ _ _ E) as [-> L]. split; [reflexivity|cbn; lia].
Qed.
Lemma ReadBlob_prefix k sched e source n got source' e' sched' :
  ReadBlob k sched e source n = Some (got, source', e', sched') -> source = got ++ source' /\ length got <= n.
Proof.
  unfold ReadBlob. destruct (Nat.eqb_spec n 0) as [E|E].
  - intros H. injection H as <- <- <- <-. split; [reflexivity|cbn; lia].
  - destruct (by_byte k n); [apply get_bytes_prefix|].
    destruct sched as [|[takes e0] sched]; [discriminate|]. intros H. injection H as <- <- <- <-.
    split; [symmetry; apply firstn_skipn|]. rewrite firstn_length. pose proof (moved_asked k takes n). lia.
Qed.
Lemma read_loop_prefix k n all : forall turns sched e data source data' source' e' sched',
  read_loop turns k sched e data source n = Some (data', source', e', sched') -> length data <= n -> all = data ++ source ->
  all = data' ++ source' /\ length data' <= n /\ (length data' < n -> e' = false).
Proof.
  induction turns as [|turns IH]; intros sched e data source data' source' e' sched' H L ->; cbn [read_loop] in H.
  - destruct (Nat.ltb_spec (length data) n); [discriminate|]. injection H as <- <- <- <-. repeat split; [exact L|lia].
  - destruct (Nat.ltb_spec (length data) n) as [Li|Li]; [|injection H as <- <- <- <-; repeat split; [exact L|lia]].
    destruct (ReadBlob k sched e source (n - length data)) as [[[[g s1] e1] c1]|] eqn:R; [|discriminate].
    destruct (ReadBlob_prefix _ _ _ _ _ _ _ _ _ R) as [-> Lg].
    destruct g as [|c g].
    + cbn [app] in *. destruct e1.
      * exact (IH _ _ _ _ _ _ _ _ H L eq_refl).
      * injection H as <- <- <- <-. repeat split; lia.
    + refine (IH _ _ _ _ _ _ _ _ H _ _); [rewrite app_length; lia|now rewrite app_assoc].
Qed.
(** the data are the bytes that the stream has given, none is lost or read twice *)
Theorem read_chunk_prefix : forall turns k sched e source n data source' e' sched',
  ReadBlobChunk turns k sched e source n = Some (data, source', e', sched') ->
  source = data ++ source' /\ length data <= n /\ (length data < n -> e' = false).
Proof.
  intros turns k sched e source n data source' e' sched' H.
  exact (read_loop_prefix k n source turns sched e [] source data source' e' sched' H ltac:(cbn; lia) eq_refl).
Qed.
Lemma get_bytes_some : forall n sched e source, 0 < n -> Forall takes_some sched -> n <= length sched -> n <= length source ->
  exists got source' e' sched', get_bytes sched e source n = Some (got, source', e', sched') /\ length got = n /\
    length sched = n + length sched' /\ Forall takes_some sched'.
Proof.
  induction n as [|n IH]; intros sched e source ND F L Lc; [lia|].
  destruct sched as [|[takes e0] sched]; cbn [length] in L; [lia|]. inversion F as [|? ? F0 F1]; subst.
  destruct source as [|c source]; cbn [length] in Lc; [lia|].
  cbn [get_bytes]. unfold takes_some in F0. cbn [fst] in F0. destruct (N.eqb_spec takes 0) as [->|_]; [lia|].
  destruct n as [|n].
  - cbn [get_bytes]. do 4 eexists. split; [reflexivity|]. repeat split; exact F1.
  - destruct (IH sched e0 source ltac:(lia) F1 ltac:(lia) ltac:(lia)) as (g & s' & e' & c1 & E & Lg & Ls & Fs).
    rewrite E. do 4 eexists. split; [reflexivity|]. cbn [length]. split; [lia|]. split; [lia|exact Fs].
Qed.
Lemma ReadBlob_some k sched e source n : 0 < n -> Forall takes_some sched -> n <= length sched -> n <= length source -> fits k n ->
  exists got source' e' sched', ReadBlob k sched e source n = Some (got, source', e', sched') /\ 0 < length got <= n /\
    length sched <= length got + length sched' /\ Forall takes_some sched'.
Proof.
  intros Hn F L Lc Hf. unfold ReadBlob. destruct (Nat.eqb_spec n 0); [lia|]. destruct (by_byte k n) eqn:B.
  - destruct (get_bytes_some n sched e source Hn F L Lc) as (g & s' & e' & c1 & E & Lg & Ls & Fs).
    rewrite E. do 4 eexists. split; [reflexivity|]. repeat split; [lia|lia|lia|exact Fs].
  - destruct sched as [|[takes e0] sched]; cbn [length] in *; [lia|]. inversion F as [|? ? F0 F1]; subst.
    assert (M := moved_some k takes n Hn F0 Hf). pose proof (moved_asked k takes n).
    do 4 eexists. split; [reflexivity|]. rewrite firstn_length. split; [lia|]. split; [lia|exact F1].
Qed.
Lemma read_loop_all k n : fits k n -> forall turns sched e data source,
  Forall takes_some sched -> length data <= n -> n - length data <= length source -> n - length data <= length sched -> n - length data <= turns ->
  exists data' source' e' sched', read_loop turns k sched e data source n = Some (data', source', e', sched') /\ length data' = n.
Proof.
  intros Hf. induction turns as [|turns IH]; intros sched e data source F Li Lc Ls Lt; cbn [read_loop].
  - destruct (Nat.ltb_spec (length data) n); [lia|]. do 4 eexists. split; [reflexivity|lia].
  - destruct (Nat.ltb_spec (length data) n) as [L|L]; [|do 4 eexists; split; [reflexivity|lia]].
    destruct (ReadBlob_some k sched e source (n - length data)) as (g & s' & e' & c1 & E & Lg & Ls' & Fs); [lia|exact F|lia|lia|apply (fits_le k n); [lia|exact Hf]|].
    destruct (ReadBlob_prefix _ _ _ _ _ _ _ _ _ E) as [-> _]. rewrite app_length in Lc.
    rewrite E. destruct g as [|c g]; [cbn in Lg; lia|]. apply IH; rewrite ?app_length; try exact Fs; lia.
Qed.
Theorem read_chunk_all : forall turns k sched e source n, fits k n -> Forall takes_some sched ->
  n <= length source -> n <= length sched -> n <= turns ->
  exists e' sched', ReadBlobChunk turns k sched e source n = Some (firstn n source, skipn n source, e', sched').
Proof.
  intros turns k sched e source n Hf F Lc Ls Lt.
  destruct (read_loop_all k n Hf turns sched e [] source F ltac:(cbn; lia) ltac:(cbn; lia) ltac:(cbn; lia) ltac:(cbn; lia)) as (d & s' & e' & c1 & E & Ld).
  destruct (read_chunk_prefix _ _ _ _ _ _ _ _ _ _ E) as (-> & _ & _). exists e', c1. unfold ReadBlobChunk. rewrite E.
  rewrite <- Ld. rewrite firstn_app, skipn_app, firstn_all, skipn_all, Nat.sub_diag. cbn. now rewrite app_nil_r.
Qed.

(** ** Without the bound: refuted.  A compressed stream that takes all it is given takes nothing of 2 GiB *)
Lemma asked_large k n : k <> Stdio -> (2 ^ 31 <= n <= 2 ^ 32)%N -> asked k n = 0%N.
Proof.
  intros Hk [L H]. assert (E : asked k n = let w := (n mod 2 ^ 32)%N in if (2 ^ 31 <=? w)%N then 0%N else w) by (destruct k; [destruct (Hk eq_refl)|reflexivity..]).
  rewrite E. cbv zeta. destruct (N.eq_dec n (2 ^ 32)) as [->|Nn].
  - rewrite N.mod_same by discriminate. reflexivity.
  - rewrite N.mod_small by (apply N.lt_eq_cases in H; destruct H as [H|H]; [exact H|destruct (Nn H)]).
    now rewrite (proj2 (N.leb_le _ _) L).
Qed.
Lemma large_not_small k n : (2 ^ 31 <= N.of_nat n)%N -> by_byte k n = false /\ Nat.eqb n 0 = false.
Proof.
  intros L. assert (4 < n). { assert (4 < N.of_nat n)%N by (eapply N.lt_le_trans; [|exact L]; reflexivity). lia. }
  split; [|apply Nat.eqb_neq; lia]. destruct k; cbn [by_byte]; try reflexivity; apply Nat.leb_gt; assumption.
Qed.
Theorem write_chunk_large : forall turns k takes sched e sink data, k <> Stdio ->
  (2 ^ 31 <= N.of_nat (length data) <= 2 ^ 32)%N ->
  WriteBlobChunk (S turns) k ((takes, false) :: sched) e sink data = Some (0, sink, false, sched).
Proof.
  intros turns k takes sched e sink data Hk Hl. unfold WriteBlobChunk. cbn [write_loop].
  destruct (large_not_small k (length data) (proj1 Hl)) as [B Z]. apply Nat.eqb_neq in Z.
  destruct (Nat.ltb_spec 0 (length data)); [|lia].
  unfold WriteBlob. cbn [skipn]. apply Nat.eqb_neq in Z. rewrite Z, B. unfold moved. rewrite (asked_large k _ Hk Hl), N.min_0_r.
  cbn. now rewrite app_nil_r.
Qed.
Theorem write_large_refuted : ~ (forall k sched sink data, Forall takes_some sched -> Forall (fun a => snd a = false) sched -> length data <= length sched ->
  exists turns e' sched', WriteBlobChunk turns k sched false sink data = Some (length data, sink ++ data, e', sched')).
Proof.
  intros H. assert (En : exists n, N.of_nat n = (2 ^ 31)%N) by (exists (N.to_nat (2 ^ 31)); apply N2Nat.id).
  destruct En as [n En]. set (data := repeat 0%N n). set (sched := repeat (1%N, false) n).
  assert (Ln : length data = n) by apply repeat_length.
  destruct (H Gz sched [] data) as (turns & e' & s' & E).
  - apply Forall_forall. intros a I. apply repeat_spec in I. subst a. reflexivity.
  - apply Forall_forall. intros a I. apply repeat_spec in I. subst a. reflexivity.
  - unfold data, sched. rewrite !repeat_length. reflexivity.
  - assert (P : 0 < n) by (apply Nat.neq_0_lt_0; intros ->; discriminate En).
    destruct turns as [|turns].
    { unfold WriteBlobChunk in E. cbn [write_loop] in E. destruct (Nat.ltb_spec 0 (length data)); [discriminate|]. rewrite Ln in *. lia. }
    assert (Es : sched = (1%N, false) :: repeat (1%N, false) (n - 1)).
    { unfold sched. destruct n as [|m]; [lia|]. cbn [repeat]. f_equal. f_equal. lia. }
    rewrite Es, write_chunk_large in E; [|discriminate|rewrite Ln, En; split; discriminate].
    rewrite Ln in E. injection E as E0 _ _ _. clear - E0 P. lia.
Qed.
(** the same of reading *)
Theorem read_chunk_large : forall turns k takes sched e source n, k <> Stdio ->
  (2 ^ 31 <= N.of_nat n <= 2 ^ 32)%N ->
  ReadBlobChunk (S turns) k ((takes, false) :: sched) e source n = Some ([], source, false, sched).
Proof.
  intros turns k takes sched e source n Hk Hl. unfold ReadBlobChunk. cbn [read_loop length].
  destruct (large_not_small k n (proj1 Hl)) as [B Z]. assert (Z' := Z). apply Nat.eqb_neq in Z.
  destruct (Nat.ltb_spec 0 n); [|lia].
  unfold ReadBlob. rewrite Nat.sub_0_r, Z', B. unfold moved. rewrite (asked_large k _ Hk Hl), N.min_0_r. reflexivity.
Qed.
(** a stream that takes nothing, after an interruption: the loop does not end *)
Theorem write_stuck_refuted : forall turns k sched sink data, data <> [] -> Forall (fun a => a = (0%N, true)) sched ->
  forall e, WriteBlobChunk turns k sched e sink data = None.
Proof.
  unfold WriteBlobChunk. induction turns as [|turns IH]; intros k sched sink data ND F e; cbn [write_loop];
  (destruct data as [|c data]; [destruct (ND eq_refl)|]); [reflexivity|].
  cbn [length Nat.ltb Nat.leb skipn].
  unfold WriteBlob. cbn [length Nat.eqb].
  destruct (by_byte k (S (length data))).
  - cbn [put_bytes]. destruct sched as [|a sched]; [reflexivity|]. inversion F as [|? ? -> F1]; subst. cbn [N.eqb].
    apply IH; [discriminate|exact F1].
  - destruct sched as [|a sched]; [reflexivity|]. inversion F as [|? ? -> F1]; subst.
    unfold moved. rewrite N.min_0_l. cbn [N.to_nat firstn]. rewrite app_nil_r. apply IH; [discriminate|exact F1].
Qed.

(** ** Examples *)
(** seven bytes to a file that takes five of them, one, none because it is interrupted, then the last *)
Example write_example :
  WriteBlobChunk 9 Stdio [(5, false); (1, false); (0, true); (1, false)]%N false [9]%N [1; 2; 3; 4; 5; 6; 7]%N
  = Some (7, [9; 1; 2; 3; 4; 5; 6; 7]%N, false, []).
Proof. reflexivity. Qed.
Example write_all_example : fits Gz 7 /\ Forall takes_some (repeat (1%N, true) 7).
Proof. split; [reflexivity|]. repeat constructor. Qed.
Example read_example :
  ReadBlobChunk 9 Bz [(3, false); (2, false); (0, false)]%N false [1; 2; 3; 4; 5; 6; 7]%N 6 = Some ([1; 2; 3; 4; 5]%N, [6; 7]%N, false, []).
Proof. reflexivity. Qed.

Print Assumptions write_chunk_prefix.
Print Assumptions write_chunk_all.
Print Assumptions read_chunk_prefix.
Print Assumptions read_chunk_all.
Print Assumptions write_chunk_large.
Print Assumptions write_large_refuted.
Print Assumptions read_chunk_large.
Print Assumptions write_stuck_refuted.
