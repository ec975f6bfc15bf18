(** What is taken for a blob is given back once. *)
From Coq Require Import Arith List Bool Lia.
From Verif Require Import BlobOwnerModel.
Import ListNotations.

(** ** What is to be shown *)
Definition kind_dec (a b : kind) : {a = b} + {a <> b}.
Proof. decide equality; apply Nat.eq_dec. Defined.
(** how often a kind is in hand after the events; None: it was given back when it was not in hand *)
Fixpoint in_hand (k : kind) (n : nat) (l : list event) : option nat :=
  match l with
  | [] => Some n
  | Take j :: l => in_hand k (if kind_dec j k then S n else n) l
  | Give j :: l => if kind_dec j k then match n with O => None | S n => in_hand k n l end else in_hand k n l
  end.
(** everything is given back, and only once *)
Definition settled (l : list event) : Prop := forall k, in_hand k 0 l = Some 0.

(** ** Counting *)
Lemma in_hand_app k l1 : forall n l2, in_hand k n (l1 ++ l2) = match in_hand k n l1 with Some m => in_hand k m l2 | None => None end.
Proof.
  induction l1 as [|[j|j] l1 IH]; intros n l2; cbn [app in_hand]; [reflexivity|apply IH|].
  destruct (kind_dec j k); [destruct n; [reflexivity|apply IH]|apply IH].
Qed.
Lemma gives k ks : forall n, in_hand k (count_occ kind_dec ks k + n) (map Give ks) = Some n.
Proof.
  induction ks as [|j ks IH]; intros n; cbn [map in_hand count_occ]; [reflexivity|]. destruct (kind_dec j k); [cbn|]; apply IH.
Qed.
(** what a blob has in hand *)
Definition possesses (b : blob) : list kind :=
  match type b with
  | FileStream => if file b then [Stream] else []
  | PipeStream => [Process] | ZipStream => [Gzip] | BZipStream => [Bzip] | _ => []
  end ++ (if mapped b then [Mapping (length_of b); Units (length_of b)] else []) ++ [Semaphore; Structure].
(** closed when it ends, and everything is given back in turn *)
Definition extends (os : list op) : bool := existsb (fun o => match o with Extend => true | _ => false end) os.
Lemma run_closed os : forall f, run (mkBlob UndefinedStream f false false 0) os = [Give Semaphore; Give Structure].
Proof. induction os as [|[| |] os IH]; intros f; [reflexivity|..]; apply IH. Qed.
Lemma run_gives os : forall b, exempt b = false -> type b <> UndefinedStream -> extends os && mapped b = false -> run b os = map Give (possesses b).
Proof.
  induction os as [|o os IH]; intros b X T E.
  - destruct b as [t f e m n]. cbn in X, T. subst e. destruct t; [destruct (T eq_refl)|..]; destruct f, m; reflexivity.
  - cbn [run]. destruct o; cbn [step].
    + apply IH; try assumption. 
    + destruct b as [t f e m n]. cbn in X, T. subst e. destruct t; [destruct (T eq_refl)|..]; unfold CloseBlob, DetachBlob; cbn [type exempt file mapped length_of]; rewrite run_closed; destruct f, m; reflexivity.
    + cbn in E. unfold SetBlobExtent. rewrite E. assert (Z : match type b with BlobStream => (b, []) | _ => (b, []) end = (b, @nil event)) by (destruct (type b); reflexivity).
      rewrite Z. cbn [app]. apply IH; try assumption. rewrite E. apply andb_false_r.
Qed.
Lemma run_exempt os : forall t f n, t <> BlobStream -> run (mkBlob t f true false n) os = [Give Semaphore; Give Structure].
Proof.
  induction os as [|[| |] os IH]; intros t f n T.
  - destruct t; reflexivity.
  - apply IH, T.
  - destruct t; cbn [run step CloseBlob type exempt file mapped length_of app]; apply IH; discriminate.
  - destruct t; cbn [run step SetBlobExtent type app]; try (apply IH; discriminate). destruct (T eq_refl).
Qed.
(** what is opened is in hand *)
Lemma open_read_hand MaxBuffer c a b l : open_read MaxBuffer c a = (b, l) ->
  exempt b = false /\ type b <> UndefinedStream /\ forall k, in_hand k 0 ([Take Structure; Take Semaphore] ++ l) = Some (count_occ kind_dec (possesses b) k).
Proof.
  unfold open_read. intros E.
  repeat match type of E with
  | (if ?x then _ else _) = _ => destruct x
  | context [if recoded a then _ else _] => destruct (recoded a)
  end; injection E as <- <-; (split; [reflexivity|split; [discriminate|]]); intros k; cbn [possesses type file mapped length_of app in_hand count_occ];
  repeat match goal with |- context [kind_dec ?x ?y] => destruct (kind_dec x y); try discriminate; try congruence end; reflexivity.
Qed.
Lemma open_write_hand c e a b l : open_write c e a = Some (b, l) ->
  exempt b = false /\ type b <> UndefinedStream /\ mapped b = false /\ forall k, in_hand k 0 ([Take Structure; Take Semaphore] ++ l) = Some (count_occ kind_dec (possesses b) k).
Proof.
  unfold open_write. destruct (opens a); [|discriminate]. intros E.
  assert (H : exempt b = false /\ type b <> UndefinedStream /\ mapped b = false /\ l = map Take (match type b with ZipStream => [Gzip] | BZipStream => [Bzip] | _ => [Stream] end) /\ file b = true /\ (type b = ZipStream \/ type b = BZipStream \/ type b = FileStream)).
  { destruct c, e; cbn in E; injection E as <- <-; cbn; repeat split; try discriminate; tauto. }
  destruct H as (H1 & H2 & H3 & H4 & H5 & H6). repeat split; try assumption. intros k. subst l. unfold possesses. rewrite H3, H5.
  destruct H6 as [H|[H|H]]; rewrite H; destruct k; reflexivity.
Qed.

(** ** A file that is opened by its name: everything is given back, once *)
Theorem files_settle : forall MaxBuffer write compress e a os b l, fifo a = false ->
  OpenBlob MaxBuffer Path write compress e a = (Some b, l) -> extends os && mapped b = false ->
  settled (life MaxBuffer Path write compress e a os).
Proof.
  intros M w c e a os b l F E X k. unfold life. rewrite E.
  assert (H : exempt b = false /\ type b <> UndefinedStream /\ in_hand k 0 l = Some (count_occ kind_dec (possesses b) k)).
  { cbn [OpenBlob] in E. rewrite F in E. destruct w.
    - destruct (open_write c e a) as [[b1 l1]|] eqn:O; [|discriminate]. injection E as <- <-. destruct (open_write_hand _ _ _ _ _ O) as (H1 & H2 & _ & H3). auto.
    - destruct (opens a); [|discriminate]. destruct (open_read M c a) as [b1 l1] eqn:O. injection E as <- <-. destruct (open_read_hand _ _ _ _ _ O) as (H1 & H2 & H3). auto. }
  destruct H as (H1 & H2 & H3). rewrite in_hand_app, H3, (run_gives os b H1 H2 X).
  rewrite <- (Nat.add_0_r (count_occ _ _ _)). apply gives.
Qed.
(** so is what is taken for stdin and stdout *)
Theorem standard_settles : forall MaxBuffer write compress e a os, settled (life MaxBuffer Dash write compress e a os).
Proof. intros M w c e a os k. unfold life. cbn [OpenBlob]. rewrite run_exempt by discriminate. destruct k; reflexivity. Qed.

(** ** Refuted: descriptors, commands and named pipes are never closed, whatever is called *)
Theorem exempt_refuted : forall MaxBuffer write compress e a os, opens a = true ->
  in_hand Stream 0 (life MaxBuffer Descriptor write compress e a os) = Some 1 /\
  in_hand Process 0 (life MaxBuffer Command write compress e a os) = Some 1 /\
  (fifo a = true -> in_hand Stream 0 (life MaxBuffer Path write compress e a os) = Some 1).
Proof.
  intros M w c e a os O. unfold life. cbn [OpenBlob]. rewrite O. split; [|split].
  - rewrite run_exempt by discriminate. reflexivity.
  - rewrite run_exempt by discriminate. reflexivity.
  - intros F. rewrite F. rewrite run_exempt by discriminate. reflexivity.
Qed.
(** a blob that cannot be opened leaves its semaphore behind *)
Theorem failed_open_refuted : forall MaxBuffer n write compress e a os, opens a = false -> n <> Dash ->
  in_hand Semaphore 0 (life MaxBuffer n write compress e a os) = Some 1.
Proof.
  intros M n w c e a os O N. unfold life. destruct n; [destruct (N eq_refl)|..]; cbn [OpenBlob]; rewrite ?O; try reflexivity.
  destruct (fifo a); [reflexivity|]. destruct w; [|reflexivity]. unfold open_write. rewrite O. reflexivity.
Qed.
(** the mapping of a file whose extent is set is given back twice, and its units *)
Lemma run_mapped os n : exists l, run (mkBlob BlobStream false false true n) os = [Give (Mapping n); Give (Units n)] ++ l.
Proof. induction os as [|[| |] os IH]; [eexists; reflexivity|exact IH|..]; eexists; reflexivity. Qed.
Theorem extend_refuted : forall MaxBuffer compress e a os, opens a = true -> fifo a = false -> gzip_mark a = false -> bzip_mark a = false ->
  MaxBuffer < size a -> granted a = true -> maps a = true ->
  in_hand (Mapping (size a)) 0 (life MaxBuffer Path false compress e a (Extend :: os)) = None /\
  in_hand (Units (size a)) 0 (life MaxBuffer Path false compress e a (Extend :: os)) = None.
Proof.
  intros M c e a os O F G B S Gr Mp. unfold life. cbn [OpenBlob]. rewrite F, O. unfold open_read. rewrite G, B, !andb_false_r, Gr, Mp.
  apply Nat.ltb_lt in S. rewrite S. cbn [andb]. cbn [run step SetBlobExtent type mapped length_of].
  destruct (run_mapped os (size a)) as [l ->]. set (n := size a). clearbody n.
  split; cbn [app in_hand];
  repeat match goal with |- context [kind_dec ?x ?y] => destruct (kind_dec x y); try discriminate; try congruence end; reflexivity.
Qed.

(** ** Examples *)
Definition plain : answers := mkAnswers true false false false true 10 true true.
Definition large : answers := mkAnswers true false false false true 5000 true true.
Example open_large : exists l, OpenBlob 4096 Path false true Other large = (Some (mkBlob BlobStream false false true 5000), l) /\
  life 4096 Path false true Other large [Use; Close; Close] =
    [Take Structure; Take Semaphore; Take Stream; Take (Units 5000); Take (Mapping 5000); Give Stream; Give (Mapping 5000); Give (Units 5000); Give Semaphore; Give Structure].
Proof. eexists. split; reflexivity. Qed.
Example open_gzip : life 4096 Path false true Other (mkAnswers true false true false true 10 true true) [Use; Extend] =
    [Take Structure; Take Semaphore; Take Stream; Give Stream; Take Gzip; Give Gzip; Give Semaphore; Give Structure].
Proof. reflexivity. Qed.
Example write_plain : exists b l, OpenBlob 4096 Path true true Other plain = (Some b, l) /\ extends [Use; Extend; Use] && mapped b = false.
Proof. eexists; eexists. split; reflexivity. Qed.

Print Assumptions files_settle.
Print Assumptions standard_settles.
Print Assumptions exempt_refuted.
Print Assumptions failed_open_refuted.
Print Assumptions extend_refuted.
