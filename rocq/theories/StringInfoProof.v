(** StringInfo operations refine byte-string operations and stay in bounds. *)
From Coq Require Import Arith NArith List Lia Bool.
From Verif Require Import Base BaseLemmas Outcome StringInfoModel.
Import ListNotations.

(** the byte string a StringInfo stands for, and the allocation invariant every
    constructor establishes *)
Definition contents (s : StringInfo) : list N := firstn (slen s) (datum s).
Definition wf (s : StringInfo) : Prop := (slen s + MaxCipherBlocksize <= length (datum s))%nat.

Lemma contents_length s : wf s -> length (contents s) = slen s.
Proof. unfold wf, contents. intros. rewrite firstn_length. lia. Qed.

Lemma mem_read_ok buf i n : (i + n <= length buf)%nat -> mem_read buf i n = Ok (slice buf i n).
Proof. intros. unfold mem_read. now rewrite (proj2 (Nat.leb_le _ _)). Qed.
Lemma mem_write_ok buf i src : (i + length src <= length buf)%nat ->
  mem_write buf i src = Ok (splice buf i src).
Proof. intros. unfold mem_write. now rewrite (proj2 (Nat.leb_le _ _)). Qed.
Lemma splice_length {A} (d : list A) i s : (i + length s <= length d)%nat ->
  length (splice d i s) = length d.
Proof. intros. unfold splice. rewrite !app_length, firstn_length, skipn_length. lia. Qed.
Lemma splice0 {A} (d s : list A) : splice d 0 s = s ++ skipn (length s) d.
Proof. reflexivity. Qed.
Lemma slice0 {A} (d : list A) n : slice d 0 n = firstn n d.
Proof. reflexivity. Qed.
Lemma mem_resize_length junk d n : length (mem_resize junk d n) = n.
Proof. unfold mem_resize. rewrite app_length, firstn_length, map_length, seq_length. lia. Qed.
Lemma mem_resize_firstn junk d n k : (k <= n)%nat -> (k <= length d)%nat ->
  firstn k (mem_resize junk d n) = firstn k d.
Proof.
  intros. unfold mem_resize. rewrite firstn_app, firstn_firstn, firstn_length.
  replace (k - Nat.min n (length d))%nat with 0%nat by lia. cbn [firstn].
  rewrite app_nil_r. f_equal. lia.
Qed.
Lemma firstn_app_exact {A} n (a b : list A) : length a = n -> firstn n (a ++ b) = a.
Proof. intros <-. rewrite firstn_app, Nat.sub_diag, firstn_all. apply app_nil_r. Qed.

Lemma skipn_repeat {A} (x : A) k n : skipn k (repeat x n) = repeat x (n - k).
Proof.
  revert n. induction k; intros n; cbn [skipn]; [f_equal; lia|].
  destruct n; cbn [repeat]; [reflexivity|apply IHk].
Qed.

Lemma acquire_spec n : wf (AcquireStringInfo n) /\ contents (AcquireStringInfo n) = repeat 0%N n.
Proof.
  unfold wf, contents, AcquireStringInfo; cbn [slen datum]. rewrite repeat_length. split; [lia|].
  rewrite repeat_app. apply firstn_app_exact, repeat_length.
Qed.

Lemma path_extent_ge : (MaxCipherBlocksize <= WizardPathExtent)%nat.
Proof. unfold MaxCipherBlocksize, WizardPathExtent. lia. Qed.

Lemma blob_spec b : wf (BlobToStringInfo b) /\ contents (BlobToStringInfo b) = b.
Proof.
  unfold wf, contents, BlobToStringInfo; cbn [slen datum]. pose proof path_extent_ge.
  split; [rewrite app_length, repeat_length; lia|]. now apply firstn_app_exact.
Qed.

Lemma clone_spec s : wf s -> exists s', CloneStringInfo s = Ok s' /\ wf s' /\ contents s' = contents s.
Proof.
  intros H. unfold CloneStringInfo. destruct (Nat.eqb_spec (slen s) 0) as [E|E].
  - exists (AcquireStringInfo (slen s)). destruct (acquire_spec (slen s)) as [W C].
    split; [auto|]. split; [auto|]. unfold contents at 2. rewrite E. reflexivity.
  - unfold wf in H. rewrite mem_read_ok by lia. cbn [bind].
    assert (length (slice (datum s) 0 (slen s + MaxCipherBlocksize)) = slen s + MaxCipherBlocksize)%nat as L
      by (rewrite slice0, firstn_length; lia).
    rewrite mem_write_ok by (cbn [datum AcquireStringInfo]; rewrite repeat_length; lia). cbn [bind].
    eexists. split; [reflexivity|]. unfold wf, contents; cbn [slen datum AcquireStringInfo]. split.
    + rewrite splice_length by (rewrite repeat_length; lia). rewrite repeat_length. lia.
    + rewrite splice0, firstn_app, L. replace (slen s - (slen s + MaxCipherBlocksize))%nat with 0%nat by lia.
      cbn [firstn]. rewrite app_nil_r, slice0, firstn_firstn. f_equal. lia.
Qed.

(** copy with zero padding or truncation *)
Definition fit (n : nat) (b : list N) : list N := firstn n b ++ repeat 0%N (n - length b).
Lemma fit_length n b : length (fit n b) = n.
Proof. unfold fit. rewrite app_length, firstn_length, repeat_length. lia. Qed.

Lemma set_spec s t : wf s -> wf t ->
  exists s', SetStringInfo s t = Ok s' /\ wf s' /\ contents s' = fit (slen s) (contents t) /\ slen s' = slen s.
Proof.
  intros H T. unfold SetStringInfo. destruct (Nat.eqb_spec (slen s) 0) as [E|E].
  { exists s. split; [auto|]. split; [auto|]. unfold contents, fit. rewrite E. auto. }
  unfold wf in *. rewrite mem_write_ok by (rewrite repeat_length; lia). cbn [bind].
  rewrite mem_read_ok by lia. cbn [bind].
  set (src := slice (datum t) 0 (Nat.min (slen s) (slen t))).
  assert (length src = Nat.min (slen s) (slen t)) as L by (subst src; rewrite slice0, firstn_length; lia).
  assert (length (splice (datum s) 0 (repeat 0%N (slen s))) = length (datum s)) as L2
    by (apply splice_length; rewrite repeat_length; lia).
  rewrite mem_write_ok by lia. cbn [bind].
  eexists. split; [reflexivity|]. cbn [slen datum]. split; [rewrite splice_length; lia|].
  split; [|reflexivity]. unfold contents at 1; cbn [slen datum].
  rewrite !splice0, repeat_length, skipn_app, repeat_length, skipn_repeat.
  rewrite L. rewrite app_assoc. rewrite firstn_app_exact.
  - unfold fit. rewrite contents_length by exact T. f_equal.
    + subst src. unfold contents. rewrite slice0, firstn_firstn. reflexivity.
    + f_equal. lia.
  - rewrite app_length, L, repeat_length. lia.
Qed.

Lemma set_datum_spec s src : wf s -> (slen s <= length src)%nat ->
  exists s', SetStringInfoDatum s src = Ok s' /\ wf s' /\ contents s' = firstn (slen s) src /\
             slen s' = slen s.
Proof.
  intros H T. unfold SetStringInfoDatum. destruct (Nat.eqb_spec (slen s) 0) as [E|E].
  { exists s. unfold contents. rewrite E. auto. }
  unfold wf in *. rewrite mem_read_ok by lia. cbn [bind].
  assert (length (slice src 0 (slen s)) = slen s) as L by (rewrite slice0, firstn_length; lia).
  rewrite mem_write_ok by lia. cbn [bind]. eexists. split; [reflexivity|]. cbn [slen datum].
  split; [rewrite splice_length; lia|]. split; [|reflexivity].
  unfold contents; cbn [slen datum]. rewrite splice0. now apply firstn_app_exact.
Qed.

Lemma reset_spec s : wf s ->
  exists s', ResetStringInfo s = Ok s' /\ wf s' /\ contents s' = repeat 0%N (slen s) /\ slen s' = slen s.
Proof.
  unfold wf, ResetStringInfo. intros H. rewrite mem_write_ok by (rewrite repeat_length; lia).
  cbn [bind]. eexists. split; [reflexivity|]. cbn [slen datum].
  split; [rewrite splice_length; rewrite ?repeat_length; lia|]. split; [|reflexivity].
  unfold contents; cbn [slen datum]. rewrite splice0. apply firstn_app_exact, repeat_length.
Qed.

Lemma set_length_spec junk s n : wf s ->
  wf (SetStringInfoLength junk s n) /\
  length (contents (SetStringInfoLength junk s n)) = n /\
  firstn (Nat.min n (slen s)) (contents (SetStringInfoLength junk s n)) =
    firstn (Nat.min n (slen s)) (contents s).
Proof.
  unfold wf, SetStringInfoLength. intros H. cbn [slen datum]. rewrite mem_resize_length.
  split; [lia|]. unfold contents; cbn [slen datum]. split.
  - rewrite firstn_length, mem_resize_length. lia.
  - rewrite !firstn_firstn. replace (Nat.min (Nat.min n (slen s)) n) with (Nat.min n (slen s)) by lia.
    replace (Nat.min (Nat.min n (slen s)) (slen s)) with (Nat.min n (slen s)) by lia.
    apply mem_resize_firstn; lia.
Qed.

Lemma split_spec junk s k : wf s ->
  if Nat.leb k (slen s)
  then exists p s', SplitStringInfo junk s k = Ok (Some p, s') /\ wf p /\ wf s' /\
         contents p = firstn k (contents s) /\ contents s' = skipn k (contents s)
  else SplitStringInfo junk s k = Ok (None, s).
Proof.
  intros H. unfold SplitStringInfo. destruct (Nat.leb_spec k (slen s)) as [K|K].
  2:{ now rewrite (proj2 (Nat.ltb_lt _ _)). }
  rewrite (proj2 (Nat.ltb_ge _ _)) by lia.
  destruct (set_spec (AcquireStringInfo k) s) as (p & -> & Wp & Cp & Lp); auto; [apply acquire_spec|].
  cbn [bind slen AcquireStringInfo] in *. unfold wf in H.
  rewrite mem_read_ok by lia. cbn [bind].
  assert (length (slice (datum s) k (slen s - k + MaxCipherBlocksize)) = slen s - k + MaxCipherBlocksize)%nat
    as L by (unfold slice; rewrite firstn_length, skipn_length; lia).
  rewrite mem_write_ok by lia. cbn [bind]. eexists p, _. split; [reflexivity|]. split; [auto|].
  split.
  { unfold wf, SetStringInfoLength; cbn [slen datum]. rewrite mem_resize_length. lia. }
  split.
  - rewrite Cp. unfold fit. rewrite contents_length by exact H.
    replace (k - slen s)%nat with 0%nat by lia. apply app_nil_r.
  - unfold SetStringInfoLength, contents; cbn [slen datum].
    rewrite mem_resize_firstn by (rewrite ?splice_length; lia).
    rewrite splice0, firstn_app, L.
    replace (slen s - k - (slen s - k + MaxCipherBlocksize))%nat with 0%nat by lia. cbn [firstn].
    rewrite app_nil_r. unfold slice. rewrite firstn_firstn, skipn_firstn_comm. f_equal. lia.
Qed.

(** lexicographic order, a proper prefix being smaller *)
Fixpoint lex (a b : list N) : comparison :=
  match a, b with
  | [], [] => Eq
  | [], _ => Lt
  | _, [] => Gt
  | x :: a', y :: b' => match N.compare x y with Eq => lex a' b' | c => c end
  end.

Lemma memcmp_lex a b :
  match memcmp a b with Eq => Nat.compare (length a) (length b) | c => c end = lex a b.
Proof.
  revert b. induction a as [|x a IH]; intros [|y b]; try reflexivity.
  cbn [memcmp lex length]. destruct (N.compare x y); try reflexivity. apply IH.
Qed.

Lemma memcmp_firstn a b n : n = Nat.min (length a) (length b) ->
  memcmp (firstn n a) (firstn n b) = memcmp a b.
Proof.
  revert a b. induction n; intros [|x a] [|y b] E; cbn [length Nat.min] in E; try lia; try reflexivity.
  cbn [firstn memcmp]. destruct (N.compare x y); try reflexivity. apply IHn. lia.
Qed.

Lemma compare_spec s t : wf s -> wf t -> CompareStringInfo s t = Ok (lex (contents s) (contents t)).
Proof.
  intros H T. unfold CompareStringInfo. pose proof H as H'. pose proof T as T'. unfold wf in H', T'.
  rewrite !mem_read_ok by lia. cbn [bind]. rewrite !slice0.
  rewrite <- memcmp_lex, !contents_length by auto.
  rewrite <- (memcmp_firstn (contents s) (contents t) (Nat.min (slen s) (slen t)))
    by (now rewrite !contents_length by auto).
  unfold contents. rewrite !firstn_firstn.
  replace (Nat.min (Nat.min (slen s) (slen t)) (slen s)) with (Nat.min (slen s) (slen t)) by lia.
  replace (Nat.min (Nat.min (slen s) (slen t)) (slen t)) with (Nat.min (slen s) (slen t)) by lia.
  destruct (memcmp _ _); reflexivity.
Qed.

Lemma to_string_spec s : wf s -> StringInfoToString s = Ok (contents s ++ [0%N]).
Proof. unfold wf, StringInfoToString. intros. now rewrite mem_read_ok by lia. Qed.

Lemma from_string_spec b : exists s, StringToStringInfo b = Ok s /\ wf s /\ contents s = b.
Proof.
  unfold StringToStringInfo. destruct (set_datum_spec (AcquireStringInfo (length b)) (b ++ [0%N]))
    as (s & E & W & C & _).
  - apply acquire_spec.
  - rewrite app_length; cbn [slen AcquireStringInfo]; lia.
  - exists s. split; [auto|]. split; [auto|]. rewrite C. cbn [slen AcquireStringInfo].
    now apply firstn_app_exact.
Qed.

(** ** Sequences of operations on a store of StringInfos *)

Inductive op :=
| OAcquire (n : nat)                (* append a new StringInfo to the store *)
| OBlob (b : list N)
| OClone (i : nat)
| OSet (i j : nat)                  (* SetStringInfo(store[i],store[j]) *)
| OSetDatum (i : nat) (src : list N)
| OSetLength (i n : nat)
| OSplit (i k : nat)                (* the prefix, if any, is appended *)
| OReset (i : nat).

Definition nth_si (st : list StringInfo) i : outcome StringInfo :=
  match nth_error st i with Some s => Ok s | None => UB end.

(** run one call of the C API *)
Definition step (junk : nat -> N) (st : list StringInfo) (o : op) : outcome (list StringInfo) :=
  match o with
  | OAcquire n => Ok (st ++ [AcquireStringInfo n])
  | OBlob b => Ok (st ++ [BlobToStringInfo b])
  | OClone i => let* s := nth_si st i in let* c := CloneStringInfo s in Ok (st ++ [c])
  | OSet i j => let* s := nth_si st i in let* t := nth_si st j in
                let* s' := SetStringInfo s t in Ok (upd st i s')
  | OSetDatum i src => let* s := nth_si st i in
                let* s' := SetStringInfoDatum s src in Ok (upd st i s')
  | OSetLength i n => let* s := nth_si st i in Ok (upd st i (SetStringInfoLength junk s n))
  | OSplit i k => let* s := nth_si st i in
                let* r := SplitStringInfo junk s k in
                let st' := upd st i (snd r) in
                Ok (match fst r with Some p => st' ++ [p] | None => st' end)
  | OReset i => let* s := nth_si st i in let* s' := ResetStringInfo s in Ok (upd st i s')
  end.

(** what the call means on byte strings; the only freedom is the value of the
    bytes added by SetStringInfoLength.  The preconditions (the objects exist,
    the source array of SetStringInfoDatum is long enough) are the caller's. *)
Inductive astep : op -> list (list N) -> list (list N) -> Prop :=
| AAcquire n st : astep (OAcquire n) st (st ++ [repeat 0%N n])
| ABlob b st : astep (OBlob b) st (st ++ [b])
| AClone i st b : nth_error st i = Some b -> astep (OClone i) st (st ++ [b])
| ASet i j st a b : nth_error st i = Some a -> nth_error st j = Some b ->
    astep (OSet i j) st (upd st i (firstn (length a) b ++ repeat 0%N (length a - length b)))
| ASetDatum i src st a : nth_error st i = Some a -> (length a <= length src)%nat ->
    astep (OSetDatum i src) st (upd st i (firstn (length a) src))
| ASetLength i n st a a' : nth_error st i = Some a -> length a' = n ->
    firstn (Nat.min n (length a)) a' = firstn (Nat.min n (length a)) a ->
    astep (OSetLength i n) st (upd st i a')
| ASplit i k st a : nth_error st i = Some a -> (k <= length a)%nat ->
    astep (OSplit i k) st (upd st i (skipn k a) ++ [firstn k a])
| ASplitNone i k st a : nth_error st i = Some a -> (length a < k)%nat ->
    astep (OSplit i k) st st
| AReset i st a : nth_error st i = Some a ->
    astep (OReset i) st (upd st i (repeat 0%N (length a))).

(** caller obligations for one call on a store of the given lengths *)
Definition valid (o : op) (lens : list nat) : Prop :=
  match o with
  | OAcquire _ | OBlob _ => True
  | OClone i | OSetLength i _ | OSplit i _ | OReset i => (i < length lens)%nat
  | OSet i j => (i < length lens)%nat /\ (j < length lens)%nat
  | OSetDatum i src => (i < length lens)%nat /\ (nth i lens 0 <= length src)%nat
  end.

Lemma map_upd {A B} (f : A -> B) l i x : map f (upd l i x) = upd (map f l) i (f x).
Proof. revert i; induction l; destruct i; cbn; auto. now rewrite IHl. Qed.
Lemma Forall_upd {A} (P : A -> Prop) l i x : Forall P l -> P x -> Forall P (upd l i x).
Proof. intros H Hx. revert i. induction H; destruct i; cbn; constructor; auto. Qed.
Lemma Forall_nth_error {A} (P : A -> Prop) l i x : Forall P l -> nth_error l i = Some x -> P x.
Proof. intros H E. rewrite Forall_forall in H. eapply H, nth_error_In; eauto. Qed.

Lemma upd_same {A} (l : list A) i x : nth_error l i = Some x -> upd l i x = l.
Proof. revert i; induction l; destruct i; cbn; intros H; try discriminate; [congruence|]. f_equal; auto. Qed.

Lemma nth_error_lt {A} (l : list A) i : (i < length l)%nat -> exists x, nth_error l i = Some x.
Proof.
  intros H. destruct (nth_error l i) eqn:E; [eauto|]. apply nth_error_None in E. lia.
Qed.

Lemma step_refines junk o st : Forall wf st -> valid o (map slen st) ->
  exists st', step junk st o = Ok st' /\ Forall wf st' /\
    astep o (map contents st) (map contents st').
Proof.
  intros W V.
  assert (forall i, (i < length (map slen st))%nat -> exists s, nth_error st i = Some s /\
    nth_si st i = Ok s /\ wf s /\ nth_error (map contents st) i = Some (contents s) /\
    length (contents s) = slen s) as G.
  { intros i Hi. rewrite map_length in Hi. destruct (nth_error_lt st i Hi) as [s E]. exists s.
    assert (wf s) by (eapply Forall_nth_error; eauto).
    unfold nth_si. rewrite E. repeat split; auto; [now apply map_nth_error|now apply contents_length]. }
  destruct o; cbn [valid step] in *.
  - eexists; split; [reflexivity|]. destruct (acquire_spec n) as [A B]. split.
    + apply Forall_app; auto.
    + rewrite map_app. cbn [map]. rewrite B. constructor.
  - eexists; split; [reflexivity|]. destruct (blob_spec b) as [A B]. split.
    + apply Forall_app; auto.
    + rewrite map_app. cbn [map]. rewrite B. constructor.
  - destruct (G i V) as (s & E & -> & Ws & Es & Ls). cbn [bind].
    destruct (clone_spec s Ws) as (c & -> & Wc & Cc). cbn [bind].
    eexists; split; [reflexivity|]. split; [apply Forall_app; auto|].
    rewrite map_app. cbn [map]. rewrite Cc. now constructor.
  - destruct V as [V1 V2]. destruct (G i V1) as (s & E & -> & Ws & Es & Ls).
    destruct (G j V2) as (t & E' & -> & Wt & Et & Lt). cbn [bind].
    destruct (set_spec s t Ws Wt) as (c & -> & Wc & Cc & _). cbn [bind].
    eexists; split; [reflexivity|]. split; [now apply Forall_upd|].
    rewrite map_upd, Cc. unfold fit. rewrite <- Ls. eapply ASet; eauto.
  - destruct V as [V1 V2]. destruct (G i V1) as (s & E & -> & Ws & Es & Ls). cbn [bind].
    assert (slen s <= length src)%nat as Lx.
    { erewrite nth_error_nth in V2 by (apply map_nth_error; exact E). exact V2. }
    destruct (set_datum_spec s src Ws Lx) as (c & -> & Wc & Cc & _). cbn [bind].
    eexists; split; [reflexivity|]. split; [now apply Forall_upd|].
    rewrite map_upd, Cc, <- Ls. eapply ASetDatum; eauto. lia.
  - destruct (G i V) as (s & E & -> & Ws & Es & Ls). cbn [bind].
    destruct (set_length_spec junk s n Ws) as (Wc & Lc & Cc).
    eexists; split; [reflexivity|]. split; [now apply Forall_upd|].
    rewrite map_upd. eapply ASetLength; eauto. now rewrite Ls.
  - destruct (G i V) as (s & E & -> & Ws & Es & Ls). cbn [bind].
    pose proof (split_spec junk s k Ws) as S. destruct (Nat.leb_spec k (slen s)).
    + destruct S as (p & s' & -> & Wp & Ws' & Cp & Cs). cbn [bind fst snd].
      eexists; split; [reflexivity|]. split.
      * apply Forall_app; split; auto. now apply Forall_upd.
      * rewrite map_app, map_upd. cbn [map]. rewrite Cp, Cs. eapply ASplit; eauto. lia.
    + rewrite S. cbn [bind fst snd]. eexists; split; [reflexivity|]. split.
      * now apply Forall_upd.
      * rewrite upd_same by auto. eapply ASplitNone; eauto. lia.
  - destruct (G i V) as (s & E & -> & Ws & Es & Ls). cbn [bind].
    destruct (reset_spec s Ws) as (c & -> & Wc & Cc & _). cbn [bind].
    eexists; split; [reflexivity|]. split; [now apply Forall_upd|].
    rewrite map_upd, Cc, <- Ls. eapply AReset; eauto.
Qed.

(** runs of calls *)
Inductive aruns : list op -> list (list N) -> list (list N) -> Prop :=
| ARnil st : aruns [] st st
| ARcons o ops st st1 st2 : astep o st st1 -> aruns ops st1 st2 -> aruns (o :: ops) st st2.

(** caller obligations along a run, stated on byte strings *)
Inductive avalid : list op -> list (list N) -> Prop :=
| AVnil st : avalid [] st
| AVcons o ops st : valid o (map (@length N) st) ->
    (forall st', astep o st st' -> avalid ops st') -> avalid (o :: ops) st.

Lemma run_refines junk ops st : Forall wf st -> avalid ops (map contents st) ->
  exists st', fold_outcome (step junk) ops st = Ok st' /\ Forall wf st' /\
    aruns ops (map contents st) (map contents st').
Proof.
  revert st. induction ops as [|o ops IH]; intros st W V.
  - exists st. repeat split; auto. constructor.
  - inversion V as [|? ? ? V1 V2]; subst. cbn [fold_outcome].
    assert (map (@length N) (map contents st) = map slen st) as Le.
    { rewrite map_map. apply map_ext_in. intros s Hs. apply contents_length.
      rewrite Forall_forall in W; auto. }
    rewrite Le in V1. destruct (step_refines junk o st W V1) as (st1 & -> & W1 & A1). cbn [bind].
    destruct (IH st1 W1 (V2 _ A1)) as (st2 & E & W2 & A2).
    exists st2. repeat split; auto. econstructor; eauto.
Qed.
