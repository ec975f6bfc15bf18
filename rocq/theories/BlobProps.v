(** Properties of the blob streams (C78-C81). *)
From Coq Require Import Arith NArith List Bool Lia ZifyBool ZifyNat.
From Verif Require Import Base Outcome BlobModel.
Import ListNotations.

(** * Specification: a file read at a cursor *)

Record cursor := mkCursor { c_bytes : list N; c_at : nat; c_hit : bool }.
(** the next [n] bytes, or all there are: then the end was hit *)
Definition take (n : nat) (c : cursor) : list N * cursor :=
  if n =? 0 then ([], c)
  else let d := firstn n (skipn (c_at c) (c_bytes c)) in
       (d, mkCursor (c_bytes c) (c_at c + length d) (c_hit c || (length d <? n))).

Inductive op := ORead (n : nat) | OChunk (n : nat) | OByte | OEof | OTell.
Inductive obs := Bytes (l : list N) | Byte (c : option N) | Flag (f : bool) | At (n : nat).

Definition spec_step (c : cursor) (o : op) : obs * cursor :=
  match o with
  | ORead n | OChunk n => let '(d, c) := take n c in (Bytes d, c)
  | OByte => let '(d, c) := take 1 c in (Byte (hd_error d), c)
  | OEof => (Flag (c_hit c), c)
  | OTell => (At (c_at c), c)
  end.
Fixpoint spec_run (c : cursor) (ops : list op) : list obs :=
  match ops with
  | [] => []
  | o :: ops => let '(x, c) := spec_step c o in x :: spec_run c ops
  end.

(** the calls themselves *)
Definition step (b : BlobInfo) (o : op) : outcome (obs * BlobInfo) :=
  match o with
  | ORead n => let* (d, b) := ReadBlob b n in Ok (Bytes d, b)
  | OChunk n => let* r := ReadBlobChunk (S n) false b n in
                match r with Some (d, b) => Ok (Bytes d, b) | None => UB end
  | OByte => let* (c, b) := ReadBlobByte b in Ok (Byte c, b)
  | OEof => let* f := EOFBlob b in Ok (Flag f, b)
  | OTell => let* n := TellBlob b in Ok (At n, b)
  end.
Fixpoint run (b : BlobInfo) (ops : list op) : outcome (list obs) :=
  match ops with
  | [] => Ok []
  | o :: ops => let* (x, b) := step b o in let* r := run b ops in Ok (x :: r)
  end.

(** ** Both kinds of stream represent a cursor *)

Inductive repr (c : cursor) : BlobInfo -> Prop :=
| repr_file b : b_type b = FileStream -> b_file b = Some (mkStdio (c_bytes c) (c_at c) (c_hit c)) -> repr c b
| repr_mem b rest : b_type b = BlobStream -> b_data b = Some (c_bytes c ++ rest) -> b_length b = length (c_bytes c) ->
    b_offset b = c_at c -> b_eof b = c_hit c -> repr c b.

Lemma getcs_fread_S n : forall f, getcs (S n) f = fread (S n) f.
Proof.
  induction n as [|n IH]; intros [bs p e].
  - unfold fread; cbn [getcs s_bytes s_pos s_eof]; unfold getc; cbn [s_bytes s_pos s_eof].
    destruct (nth_error bs p) eqn:E.
    + apply nth_error_split in E as (l1 & l2 & -> & <-). rewrite skipn_app, Nat.sub_diag, skipn_all2 by lia.
      cbn. now rewrite orb_false_r, Nat.add_1_r.
    + apply nth_error_None in E. rewrite skipn_all2 by lia. cbn. now rewrite orb_true_r, Nat.add_0_r.
  - remember (S n) as m. cbn [getcs]. unfold getc, fread at 1. cbn [s_bytes s_pos s_eof].
    destruct (nth_error bs p) eqn:E.
    + rewrite IH. unfold fread. cbn [s_bytes s_pos s_eof].
      apply nth_error_split in E as (l1 & l2 & -> & <-).
      replace (skipn (S (length l1)) (l1 ++ n0 :: l2)) with l2.
      2: { rewrite skipn_app, skipn_all2 by lia. now replace (S (length l1) - length l1) with 1 by lia. }
      rewrite skipn_app, Nat.sub_diag, skipn_all2 by lia. cbn [app skipn firstn length].
      replace (S (length (firstn m l2)) <? S m) with (length (firstn m l2) <? m) by reflexivity.
      now rewrite Nat.add_succ_r.
    + apply nth_error_None in E. rewrite skipn_all2 by lia. cbn. now rewrite orb_true_r, Nat.add_0_r.
Qed.
Lemma getcs_fread n f : getcs n f = fread n f \/ n = 0.
Proof. destruct n; [now right|left]. apply getcs_fread_S. Qed.

Lemma firstn_min {A} n (l : list A) : firstn (Nat.min n (length l)) l = firstn n l.
Proof.
  destruct (Nat.le_ge_cases n (length l)) as [H|H].
  - now rewrite Nat.min_l by lia.
  - now rewrite Nat.min_r, firstn_all, firstn_all2 by lia.
Qed.

Lemma read_memory_take c b n : n <> 0 -> b_type b = BlobStream -> repr c b ->
  exists b', read_memory b n = Ok (fst (take n c), b') /\ repr (snd (take n c)) b'.
Proof.
  intros Hn T R. destruct R as [b T'|b rest _ D L O E]; [congruence|].
  unfold read_memory, take. replace (n =? 0) with false by lia. rewrite L, O. cbn [fst snd].
  destruct (Nat.leb_spec (length (c_bytes c)) (c_at c)) as [H|H].
  - rewrite skipn_all2, firstn_nil by lia. eexists. split; [reflexivity|].
    cbn [length]. replace (0 <? n) with true by lia. rewrite orb_true_r, Nat.add_0_r.
    apply repr_mem with rest; cbn; auto.
  - unfold get_data, mem_read. rewrite D. cbn [bind].
    replace (_ <=? length (c_bytes c ++ rest)) with true by (rewrite app_length; lia).
    cbn [bind]. eexists. split.
    + do 2 f_equal. unfold slice. rewrite skipn_app, firstn_app, skipn_length.
      replace (_ - (length (c_bytes c) - c_at c)) with 0 by lia. rewrite firstn_O, app_nil_r.
      rewrite <- (skipn_length (c_at c)). apply firstn_min.
    + apply repr_mem with rest; cbn [b_type b_data b_length b_offset b_eof c_bytes c_at c_hit]; auto.
      * rewrite firstn_length, skipn_length. lia.
      * rewrite E. f_equal. rewrite firstn_length, skipn_length.
        destruct (Nat.ltb_spec (Nat.min n (length (c_bytes c) - c_at c)) n);
          destruct (Nat.eqb_spec (Nat.min n (length (c_bytes c) - c_at c)) n); cbn [negb]; lia || reflexivity.
Qed.

Lemma ReadBlob_take c b n : repr c b ->
  exists b', ReadBlob b n = Ok (fst (take n c), b') /\ repr (snd (take n c)) b' /\ b_type b' = b_type b.
Proof.
  intros R. unfold ReadBlob. destruct (Nat.eqb_spec n 0) as [->|Hn].
  - exists b. now repeat split.
  - destruct (b_type b) eqn:T.
    + destruct R as [b _ F|b]; [|congruence]. unfold get_file. rewrite F. cbn [bind].
      replace (if n <=? 4 then _ else _) with (fread n (mkStdio (c_bytes c) (c_at c) (c_hit c))).
      2: { destruct (n <=? 4); [|reflexivity]. destruct (getcs_fread n (mkStdio (c_bytes c) (c_at c) (c_hit c))); [congruence|lia]. }
      unfold fread, take. replace (n =? 0) with false by lia. cbn [s_bytes s_pos s_eof fst snd].
      eexists. split; [reflexivity|]. split; [|now cbn].
      apply repr_file; cbn; auto.
    + destruct (read_memory_take c b n Hn T R) as (b' & E & R'). exists b'. split; [exact E|split; [exact R'|]].
      revert E. unfold read_memory. destruct (_ <=? _); [intros [= _ <-]; exact T|].
      destruct (get_data b); cbn; try discriminate. destruct (mem_read _ _ _); cbn; try discriminate. intros [= _ <-]. exact T.
Qed.

(** the loop: the first turn takes all there is *)
Lemma take_take n c : let '(d, c1) := take n c in length d < n -> d <> [] ->
  take (n - length d) c1 = ([], c1).
Proof.
  unfold take. destruct (Nat.eqb_spec n 0) as [->|Hn]; [lia|].
  intros L _. replace (n - _ =? 0) with false by lia. cbn [c_bytes c_at c_hit].
  rewrite firstn_length, skipn_length in *. rewrite skipn_all2 by lia. rewrite firstn_nil. cbn [length].
  f_equal. f_equal; [lia|]. replace (Nat.min _ _ <? n) with true by lia. now rewrite orb_true_r.
Qed.
Lemma take_length n c : length (fst (take n c)) <= n.
Proof. unfold take. destruct (n =? 0); cbn; [lia|]. rewrite firstn_length. lia. Qed.

Lemma ReadBlobChunk_take c b n : repr c b ->
  exists b', ReadBlobChunk (S n) false b n = Ok (Some (fst (take n c), b')) /\ repr (snd (take n c)) b'.
Proof.
  intros R. unfold ReadBlobChunk. destruct (b_type b) eqn:T.
  - destruct (Nat.eqb_spec n 0) as [->|Hn].
    { exists b. now split. }
    cbn [read_loop length]. replace (n <=? 0) with false by lia. rewrite Nat.sub_0_r.
    destruct (ReadBlob_take c b n R) as (b1 & E & R1 & T1). rewrite E. cbn [bind].
    pose proof (take_take n c) as K. pose proof (take_length n c) as L.
    destruct (take n c) as [d c1]. cbn [fst snd] in *. destruct d as [|x d]; [now exists b1|].
    cbn [app]. remember (x :: d) as l. destruct (Nat.eq_dec (length l) n) as [Q|Q].
    + exists b1. split; [|exact R1]. destruct n; cbn [read_loop]; replace (_ <=? length l) with true by lia; reflexivity.
    + destruct n; [lia|]. cbn [read_loop]. replace (S n <=? length l) with false by lia.
      destruct (ReadBlob_take c1 b1 (S n - length l) R1) as (b2 & E2 & R2 & _). rewrite E2, K in * by (subst; try discriminate; lia).
      cbn [bind fst snd] in *. now exists b2.
  - destruct (ReadBlob_take c b n R) as (b1 & E & R1 & T1). rewrite E. cbn. now exists b1.
Qed.

Lemma step_spec c b o : repr c b ->
  exists b', step b o = Ok (fst (spec_step c o), b') /\ repr (snd (spec_step c o)) b'.
Proof.
  intros R. destruct o; cbn [step spec_step].
  - destruct (ReadBlob_take c b n R) as (b' & -> & R' & _). cbn. exists b'. destruct (take n c). now split.
  - destruct (ReadBlobChunk_take c b n R) as (b' & -> & R'). cbn. exists b'. destruct (take n c). now split.
  - unfold ReadBlobByte.
    assert (exists b', match b_type b with FileStream => ReadBlob b 1 | BlobStream => read_memory b 1 end
                       = Ok (fst (take 1 c), b') /\ repr (snd (take 1 c)) b') as (b' & E & R').
    { destruct (b_type b) eqn:T.
      - destruct (ReadBlob_take c b 1 R) as (b' & E & R' & _). eauto.
      - apply read_memory_take; auto. }
    rewrite E. cbn [bind]. pose proof (take_length 1 c). destruct (take 1 c) as [d c1]. cbn [fst snd] in *.
    exists b'. destruct d as [|x [|y d]]; cbn in *; try lia; now split.
  - exists b. split; [|exact R]. unfold EOFBlob. destruct R as [b T F|b rest T D L O E]; rewrite T; unfold get_file.
    + now rewrite F.
    + now rewrite E.
  - exists b. split; [|exact R]. unfold TellBlob. destruct R as [b T F|b rest T D L O E]; rewrite T; unfold get_file.
    + now rewrite F.
    + now rewrite O.
Qed.

Lemma run_spec ops : forall c b, repr c b -> run b ops = Ok (spec_run c ops).
Proof.
  induction ops as [|o ops IH]; intros c b R; [reflexivity|]. cbn [run spec_run].
  destruct (step_spec c b o R) as (b' & -> & R'). cbn [bind]. destruct (spec_step c o) as [x c'].
  cbn [fst snd] in *. now rewrite (IH _ _ R').
Qed.

(** C78: whichever way OpenBlob opened the file, the reads, the end-of-file
    tests and the positions are those of a cursor in its bytes, and every
    access is inside the mapping. *)
Theorem blob_reads q bytes ops :
  run (open_file q bytes) ops = Ok (spec_run (mkCursor bytes 0 false) ops) /\
  run (open_mapped q bytes) ops = Ok (spec_run (mkCursor bytes 0 false) ops).
Proof.
  split; apply run_spec.
  - apply repr_file; [reflexivity|]. unfold open_file, fread, fseek.
    cbn [s_bytes s_pos s_eof b_file c_bytes c_at c_hit skipn]. do 2 f_equal. rewrite firstn_length. lia.
  - apply repr_mem with []; auto. cbn. now rewrite app_nil_r.
Qed.
Example blob_reads_example :
  run (open_mapped 5 [7; 8; 9]%N) [ORead 2; OEof; OByte; OEof; OByte; OEof; OChunk 5; OTell] =
  Ok [Bytes [7; 8]%N; Flag false; Byte (Some 9%N); Flag false; Byte None; Flag true; Bytes []; At 3].
Proof. reflexivity. Qed.

(** With an EINTR left in errno by an earlier call, ReadBlobChunk does not
    return when the file is shorter than the request. *)
Theorem blob_chunk_stale_refuted : forall q bytes n turns, length bytes < n ->
  ReadBlobChunk turns true (open_file q bytes) n = Ok None.
Proof.
  intros q bytes n turns H. unfold ReadBlobChunk, open_file, fread. cbn [s_bytes s_pos s_eof b_type].
  set (b := mkBlob _ _ _ _ _ _ _ _ _).
  assert (R : repr (mkCursor bytes 0 false) b).
  { apply repr_file; [reflexivity|]. unfold b, fseek.
    cbn [s_bytes s_pos s_eof b_file c_bytes c_at c_hit skipn]. rewrite firstn_length. do 2 f_equal. lia. }
  assert (G : forall turns got b, length got < n -> repr (mkCursor bytes (length bytes) true) b -> read_loop turns true b n got = Ok None).
  { clear. induction turns as [|t IH]; intros got b L R; cbn [read_loop]; replace (n <=? length got) with false by lia; [reflexivity|].
    destruct (ReadBlob_take _ b (n - length got) R) as (b1 & E & R1 & _). rewrite E. cbn [bind].
    unfold take in *. replace (n - length got =? 0) with false in * by lia. cbn [c_bytes c_at c_hit fst snd] in *.
    rewrite skipn_all2, firstn_nil in * by lia. cbn [length orb] in R1. rewrite Nat.add_0_r in R1. now apply IH. }
  destruct turns as [|t]; cbn [read_loop length]; replace (n <=? 0) with false by lia; [reflexivity|].
  rewrite Nat.sub_0_r. destruct (ReadBlob_take _ b n R) as (b1 & E & R1 & _). rewrite E. cbn [bind].
  unfold take in *. replace (n =? 0) with false in * by lia. cbn [c_bytes c_at c_hit fst snd skipn] in *.
  rewrite firstn_all2 in * by lia. replace (length bytes <? n) with true in R1 by lia. cbn [orb] in R1.
  destruct bytes as [|x l]; [apply (G t []); [cbn; lia|exact R1]|].
  apply G; [exact H|exact R1].
Qed.
Example blob_chunk_stale_example : length [1; 2]%N < 4. Proof. cbn. lia. Qed.

(** * Writing *)

(** the bytes of a file after writing [src] at [pos] (not beyond its end) *)
Definition overwrite (pos : nat) (src l : list N) : list N := firstn pos l ++ src ++ skipn (pos + length src) l.

(** a heap blob holds a file of [bytes] at offset [pos] *)
Definition holds (bytes : list N) (pos : nat) (b : BlobInfo) : Prop :=
  b_type b = BlobStream /\ b_mapped b = false /\ b_offset b = pos /\ pos <= length bytes /\
  b_length b = length bytes /\ length bytes <= b_extent b /\
  exists rest, b_data b = Some (bytes ++ rest) /\ b_extent b <= length (bytes ++ rest).

Inductive wop := WBlob (src : list N) | WStream (src : list N).
Definition wsrc o := match o with WBlob s | WStream s => s end.
Definition wstep junk (b : BlobInfo) (o : wop) : outcome (nat * BlobInfo) :=
  match o with WBlob s => WriteBlob junk b s | WStream s => WriteBlobStream junk b s end.

Lemma splice_app (bytes rest : list N) pos src :
  pos <= length bytes ->
  exists rest', splice (bytes ++ rest) pos src = overwrite pos src bytes ++ rest' /\
                length rest' = length (bytes ++ rest) - Nat.max (length bytes) (pos + length src).
Proof.
  intros P. unfold splice, overwrite. exists (skipn (pos + length src - length bytes) rest). split.
  - rewrite firstn_app, skipn_app. replace (pos - length bytes) with 0 by lia. rewrite firstn_O, app_nil_r.
    now rewrite <- !app_assoc.
  - rewrite skipn_length, app_length. lia.
Qed.
Lemma overwrite_length pos src l : pos <= length l -> length (overwrite pos src l) = Nat.max (length l) (pos + length src).
Proof. intros P. unfold overwrite. rewrite !app_length, firstn_length, skipn_length. lia. Qed.

Lemma write_data_holds bytes pos b src : holds bytes pos b -> pos + length src <= b_extent b ->
  exists b', write_data b src = Ok (length src, b') /\ holds (overwrite pos src bytes) (pos + length src) b'.
Proof.
  intros (T & M & O & P & L & E & rest & D & X) H. unfold write_data, get_data, mem_write. rewrite D, M, O. cbn [bind].
  replace (_ <=? _) with true by lia. cbn [bind].
  destruct (splice_app bytes rest pos src P) as (rest' & -> & Lr). eexists. split; [reflexivity|].
  pose proof (overwrite_length pos src bytes P) as Lo. rewrite app_length in *.
  unfold holds. cbn. repeat split; auto; try lia.
  - rewrite L. destruct (Nat.leb_spec (length bytes) (pos + length src)); lia.
  - exists rest'. split; [reflexivity|]. rewrite app_length. lia.
Qed.

Lemma mem_resize_app junk (bytes rest : list N) n : length bytes <= n ->
  exists rest', mem_resize junk (bytes ++ rest) n = bytes ++ rest' /\ length (bytes ++ rest') = n.
Proof.
  intros H. unfold mem_resize. rewrite firstn_app, firstn_all2, <- app_assoc by lia.
  eexists. split; [reflexivity|]. rewrite !app_length, firstn_length, map_length, seq_length. lia.
Qed.

Lemma wstep_holds junk bytes pos b o : holds bytes pos b ->
  exists b', wstep junk b o = Ok (length (wsrc o), b') /\ holds (overwrite pos (wsrc o) bytes) (pos + length (wsrc o)) b'.
Proof.
  intros Hb. pose proof Hb as (T & M & O & P & L & E & rest & D & X). destruct o as [src|src]; cbn [wstep wsrc].
  - unfold WriteBlob. destruct (Nat.eqb_spec (length src) 0) as [Z|Z].
    + destruct src; [|discriminate]. exists b. split; [reflexivity|].
      cbn [length]. rewrite Nat.add_0_r. unfold overwrite. cbn [app length]. now rewrite Nat.add_0_r, firstn_skipn.
    + rewrite T, M, O. destruct (Nat.leb_spec (b_extent b) (pos + length src)) as [H|H].
      * unfold get_data. rewrite D. cbn [bind].
        destruct (mem_resize_app junk bytes rest (b_extent b + (length src + 2 * b_quantum b) + 1)) as (rest' & -> & Lr); [lia|].
        apply write_data_holds; [|cbn [b_extent]; lia]. unfold holds. cbn [b_type b_mapped b_offset b_length b_extent b_data].
        repeat split; auto; try lia. exists rest'. split; [reflexivity|]. lia.
      * apply write_data_holds; [exact Hb|lia].
  - unfold WriteBlobStream. rewrite T, O. destruct (Nat.leb_spec (b_extent b) (pos + length src)) as [H|H].
    + unfold SetBlobExtent, get_data. cbn [b_type b_mapped b_data b_extent b_quantum]. rewrite M, D. cbn [bind].
      destruct (mem_resize_app junk bytes rest (b_extent b + 2 * b_quantum b + length src)) as (rest' & -> & Lr); [lia|].
      apply write_data_holds; [|cbn [b_extent]; lia]. unfold holds. cbn [b_type b_mapped b_offset b_length b_extent b_data].
      repeat split; auto; try lia. exists rest'. split; [reflexivity|]. lia.
    + apply write_data_holds; [exact Hb|lia].
Qed.

Fixpoint wrun junk (b : BlobInfo) (ops : list wop) : outcome BlobInfo :=
  match ops with
  | [] => Ok b
  | o :: ops => let* (n, b) := wstep junk b o in if n =? length (wsrc o) then wrun junk b ops else UB
  end.

Lemma skipn_skipn_ {A} n m (l : list A) : skipn n (skipn m l) = skipn (m + n) l.
Proof. revert l. induction m; intros [|x l]; cbn; auto using skipn_nil. Qed.
Lemma overwrite_end pos src l1 l2 l : pos = length l1 -> l = l1 ++ l2 -> overwrite pos src l = l1 ++ src ++ skipn (length src) l2.
Proof.
  intros -> ->. unfold overwrite. rewrite firstn_app, Nat.sub_diag, firstn_all, firstn_O, app_nil_r.
  rewrite skipn_app, (skipn_all2 (n := length l1 + _)) by lia. do 2 f_equal. cbn [app]. f_equal. lia.
Qed.

(** C79: any sequence of writes of any sizes to a blob in heap memory stays
    inside its buffer, reports every byte written, and leaves the written
    bytes followed by what they did not cover. *)
Theorem memory_writes q junk bytes ops :
  exists b, wrun junk (open_memory q bytes) ops = Ok b /\
    let w := concat (map wsrc ops) in
    TellBlob b = Ok (length w) /\
    exists rest, b_data b = Some (w ++ skipn (length w) bytes ++ rest) /\
                 b_length b = length (w ++ skipn (length w) bytes).
Proof.
  assert (G : forall ops pre tail b, holds (pre ++ tail) (length pre) b ->
    exists b', wrun junk b ops = Ok b' /\
      let w := concat (map wsrc ops) in holds (pre ++ w ++ skipn (length w) tail) (length (pre ++ w)) b').
  { clear. induction ops as [|o ops IH]; intros pre tail b H.
    - exists b. split; [reflexivity|]. cbn. now rewrite app_nil_r.
    - cbn [wrun]. destruct (wstep_holds junk _ _ b o H) as (b1 & -> & H1). cbn [bind]. rewrite Nat.eqb_refl.
      rewrite (overwrite_end _ _ pre tail _ eq_refl eq_refl) in H1.
      rewrite app_assoc, <- app_length in H1. destruct (IH _ _ _ H1) as (b2 & E2 & H2). exists b2. split; [exact E2|].
      cbn [map concat]. cbv zeta in *. rewrite skipn_skipn_, app_length in *. rewrite <- !app_assoc in *.
      rewrite !app_length, Nat.add_assoc in *. exact H2. }
  destruct (G ops [] bytes (open_memory q bytes)) as (b & E & H).
  { repeat split; cbn; try lia. exists []. rewrite !app_nil_r. now split. }
  exists b. split; [exact E|]. cbv zeta in *. cbn [app] in H. destruct H as (T & M & O & P & L & X & rest & D & _).
  unfold TellBlob. rewrite T, O. split; [reflexivity|]. exists rest. split; [|exact L]. rewrite D. now rewrite <- app_assoc.
Qed.
Example memory_writes_example : exists b,
  wrun (fun _ => 99%N) (open_memory 2 [1; 2; 3; 4]%N) [WStream [5]%N; WBlob [6; 7]%N] = Ok b /\ b_data b = Some [5; 6; 7; 4]%N.
Proof. eexists. split; reflexivity. Qed.

(** A blob opened for reading whose file was mapped: a write is stored into a
    read-only mapping, or takes the mapping away from the reads that follow. *)
Theorem mapped_write_refuted q junk :
  (forall bytes src, 0 < length src < length bytes -> WriteBlob junk (open_mapped q bytes) src = UB) /\
  (forall bytes src, length bytes <= length src -> 0 < length bytes -> forall n, 0 < n ->
     exists b, WriteBlobString junk (open_mapped q bytes) src = Ok (0, b) /\ ReadBlob b n = UB).
Proof.
  split.
  - intros bytes src H. unfold WriteBlob, open_mapped. cbn [b_type b_extent b_offset b_mapped].
    replace (length src =? 0) with false by lia. replace (_ <=? _) with false by lia. reflexivity.
  - intros bytes src H P n Hn. unfold WriteBlobString, WriteBlobStream, open_mapped. cbn [b_type b_extent b_offset b_mapped].
    replace (_ <=? 0 + length src) with true by lia. cbn. eexists. split; [reflexivity|].
    unfold ReadBlob, read_memory, unmap. cbn. replace (n =? 0) with false by lia. now replace (length bytes <=? 0) with false by lia.
Qed.
Example mapped_write_example : 0 < length [1]%N < length [1; 2]%N. Proof. cbn. lia. Qed.

(** * SetBlobExtent *)

(** what is asked: the bytes of the file are kept, it is as long as the extent
    (zeros), and the position stays *)
Definition extended (extent : nat) (f f' : stdio) : Prop :=
  s_bytes f' = s_bytes f ++ repeat 0%N (extent - length (s_bytes f)) /\ s_pos f' = s_pos f.

(** C80: false.  A file at least as long as the extent has its byte there
    overwritten with zero; the position is always put at the beginning, so that
    the next write replaces the beginning of the file. *)
Definition stream_of (q : nat) (f : stdio) : BlobInfo :=
  mkBlob FileStream (Some f) None false 0 0 q 0 false.
Theorem extent_refuted q junk f extent : 0 < extent ->
  exists f', SetBlobExtent junk (stream_of q f) extent = Ok (true, stream_of q f') /\
    (extent <= length (s_bytes f) -> s_bytes f' = upd (s_bytes f) (extent - 1) 0%N) /\
    s_pos f' = 0 /\
    forall src, 0 < length src ->
      exists f2, WriteBlob junk (stream_of q f') src = Ok (length src, stream_of q f2) /\ firstn (length src) (s_bytes f2) = src.
Proof.
  intros H. eexists. split; [reflexivity|]. unfold extend_file, fseek_end. replace (extent <=? 0) with false by lia.
  split; [|split; [reflexivity|]].
  - intros L. unfold fseek, fwrite. cbn [s_bytes s_pos length]. replace (extent - 1 - length (s_bytes f)) with 0 by lia.
    cbn [repeat]. rewrite app_nil_r. assert (E : extent - 1 < length (s_bytes f)) by lia. revert E. generalize (extent - 1).
    generalize (s_bytes f). clear. induction l as [|x l IH]; cbn [length]; intros [|n] E; cbn; try lia.
    + reflexivity.
    + f_equal. apply IH. lia.
  - intros src Hs. unfold WriteBlob. replace (length src =? 0) with false by lia.
    eexists. split; [reflexivity|]. unfold fwrite at 1, fseek at 1. cbn [s_bytes s_pos]. rewrite Nat.sub_0_l. cbn [firstn app].
    rewrite firstn_app, Nat.sub_diag, firstn_all, firstn_O. apply app_nil_r.
Qed.
Example extent_example : exists f',
  SetBlobExtent (fun _ => 0%N) (stream_of 5 (mkStdio [65; 66; 67]%N 3 false)) 2 = Ok (true, stream_of 5 f') /\
  s_bytes f' = [65; 0; 67]%N /\ ~ extended 2 (mkStdio [65; 66; 67]%N 3 false) f'.
Proof. eexists. split; [reflexivity|]. split; [reflexivity|]. intros [E _]. discriminate E. Qed.

(** growing the file keeps its bytes, but not the position *)
Theorem extent_grow_partial q junk f extent : length (s_bytes f) < extent ->
  exists f', SetBlobExtent junk (stream_of q f) extent = Ok (true, stream_of q f') /\
    s_bytes f' = s_bytes f ++ repeat 0%N (extent - length (s_bytes f)).
Proof.
  intros H. eexists. split; [reflexivity|]. unfold extend_file, fseek_end. replace (extent <=? 0) with false by lia.
  unfold fseek, fwrite. cbn [s_bytes s_pos length].
  rewrite firstn_all2 by (rewrite app_length, repeat_length; lia).
  rewrite skipn_all2 by (rewrite app_length, repeat_length; lia). rewrite app_nil_r, <- app_assoc. f_equal.
  replace (extent - length (s_bytes f)) with (extent - 1 - length (s_bytes f) + 1) by lia.
  now rewrite repeat_app.
Qed.
Example extent_grow_example : length (s_bytes (mkStdio [65]%N 1 false)) < 3. Proof. cbn. lia. Qed.

(** A memory blob whose extent is made smaller than its length is read past
    the end of its buffer. *)
Theorem extent_shrink_refuted q junk bytes extent n : extent < length bytes -> extent < n ->
  exists b, SetBlobExtent junk (open_memory q bytes) extent = Ok (true, b) /\ ReadBlob b n = UB.
Proof.
  intros H Hn. eexists. split; [reflexivity|]. unfold ReadBlob, read_memory, open_memory. cbn.
  replace (n =? 0) with false by lia. replace (length bytes <=? 0) with false by lia. cbn. unfold mem_read.
  assert (L : length (mem_resize junk bytes extent) = extent).
  { unfold mem_resize. rewrite app_length, firstn_length, map_length, seq_length. lia. }
  rewrite L. now replace (_ <=? extent) with false by lia.
Qed.
Example extent_shrink_example : 1 < length [1; 2]%N /\ 1 < 2. Proof. cbn. lia. Qed.

(** * CloseBlob *)

(** C81, where it holds: a stream that is not to be closed (standard output, fd:,
    a pipe), or one whose first flush succeeds: success means that all bytes
    are on disk. *)
Theorem close_partial exempt w1 w2 closes s :
  (exempt = true \/ w1 = true) ->
  fst (CloseBlob exempt w1 w2 closes s) = true ->
  on_disk (snd (CloseBlob exempt w1 w2 closes s)) = on_disk s ++ pending s.
Proof.
  destruct s as [d p]. intros [-> | ->]; unfold CloseBlob, fclose, fflush; cbn [pending on_disk].
  - destruct p as [|x p]; cbn; [now rewrite app_nil_r|]. destruct w1; cbn; [reflexivity|discriminate].
  - destruct p as [|x p]; destruct exempt, closes; cbn; try rewrite app_nil_r; auto; discriminate.
Qed.
Example close_example : fst (CloseBlob false true true true (mkBuffered [1] [2]))%N = true. Proof. reflexivity. Qed.

(** false in general: the flush of the last bytes fails, they are dropped, the
    stream then closes without error, and CloseBlob returns true. *)
Theorem close_refuted w2 disk p : p <> [] ->
  CloseBlob false false w2 true (mkBuffered disk p) = (true, mkBuffered disk []).
Proof. intros H. destruct p; [contradiction|]. reflexivity. Qed.
Example close_refuted_example : [1%N] <> []. Proof. discriminate. Qed.

Print Assumptions blob_reads.
Print Assumptions blob_chunk_stale_refuted.
Print Assumptions memory_writes.
Print Assumptions mapped_write_refuted.
Print Assumptions extent_refuted.
Print Assumptions extent_grow_partial.
Print Assumptions extent_shrink_refuted.
Print Assumptions close_partial.
Print Assumptions close_refuted.
