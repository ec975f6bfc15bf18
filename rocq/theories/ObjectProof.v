(** Lemmas on objects in memory. *)
From Coq Require Import NArith Bool Arith List Lia Permutation.
From Coq Require Import ZifyBool ZifyNat.
From Verif Require Import Base Outcome ObjectModel.
Import ListNotations.

(** ** Structures and what belongs to an object *)
(** the declarations of the structures; None for a handle of a kind that is not known *)
Definition members (c : class) (k : N) : option (list class) :=
  match c with
  | Raw | ArrayC => Some []
  | StringC => Some [Raw]
  | AESC => Some [StringC; Raw; Raw]
  | CipherC => match cipher_class k with Some c => Some [c; StringC; RandomC] | None => None end
  | CRC64C => Some [StringC; Raw]
  | MessageC => Some [StringC; StringC; Raw]
  | SHA3C => Some [StringC]
  | HashC => match hash_class k with Some c => Some [StringC; c] | None => None end
  | HMACC => Some [HashC; StringC; StringC; StringC]
  | RandomC => Some [HMACC; StringC; StringC; Raw]
  | KeyringC => Some [Raw; StringC; StringC; StringC]
  | SecretC => Some [Raw; StringC; StringC; StringC; StringC; KeyringC; CipherC; HMACC; RandomC]
  | AuthenticateC => if (k =? 1)%N then Some [SecretC] else None
  | NodeC => Some [StringC; StringC; NodeC; NodeC]
  | SplayC => Some [NodeC; Raw]
  | KeyC => Some [SplayC; StringC; StringC; CipherC; RandomC]
  end.
(** what an object may have: a SecretC a pass phrase, a SplayC nodes *)
Record flags := { phrases : bool; nodes : bool }.
(** pointers that are never NULL, and those that are where the flags say so *)
Definition present (fl : flags) (x : block) : Prop :=
  match class_of x with
  | StringC => pointer 0 x <> 0 | RandomC => pointer 3 x <> 0 | SplayC => pointer 1 x <> 0 /\ (nodes fl = false -> pointer 0 x = 0) | AuthenticateC => pointer 0 x <> 0
  | CipherC => pointer 1 x <> 0
  | SecretC => phrases fl = false -> pointer 0 x = 0
  | _ => True
  end.
(** [own h c p fp]: p is NULL or an object of class c, and [fp] are the addresses of its blocks *)
Inductive own (fl : flags) (h : heap) : class -> nat -> list nat -> Prop :=
| own_null c : own fl h c 0 []
| own_block c p x cs fps : get h p = Some (Live x) -> class_of x = c -> signature x = true -> members c (kind x) = Some cs -> present fl x ->
    owns fl h cs (pointers x) fps -> own fl h c p (p :: concat fps)
with owns (fl : flags) (h : heap) : list class -> list nat -> list (list nat) -> Prop :=
| owns_nil : owns fl h [] [] []
| owns_cons c cs p ps fp fps : own fl h c p fp -> owns fl h cs ps fps -> owns fl h (c :: cs) (p :: ps) (fp :: fps).
Scheme own_mut := Induction for own Sort Prop with owns_mut := Induction for owns Sort Prop.

(** what is left in a block that was given back: all but the first word of a seed *)
Definition left_in (x y : block) : Prop :=
  class_of y = class_of x /\ match class_of x with RandomC => skipn 8 (bytes y) = skipn 8 (bytes x) | _ => bytes y = bytes x end.
(** from h to h' the blocks of P are given back and nothing else is changed *)
Definition destroyed (h h' : heap) (P : nat -> Prop) : Prop :=
  length h' = length h /\ (forall a, P a -> exists x y, get h a = Some (Live x) /\ get h' a = Some (Dead y) /\ left_in x y) /\
  (forall a, ~ P a -> get h' a = get h a).
(** the same for the members of p, which stays *)
Definition emptied (h h' : heap) (p : nat) (P : nat -> Prop) : Prop :=
  length h' = length h /\ (forall a, P a -> exists x y, get h a = Some (Live x) /\ get h' a = Some (Dead y) /\ left_in x y) /\
  (forall a, a <> p -> ~ P a -> get h' a = get h a).
Definition opened phr (h : heap) (p : nat) (x : block) (cs : list class) (fps : list (list nat)) : Prop :=
  get h p = Some (Live x) /\ owns phr h cs (pointers x) fps /\ NoDup (p :: concat fps).

(** ** Lists *)
Lemma nodup_app_l {A} (l m : list A) : NoDup (l ++ m) -> NoDup l.
Proof. induction l as [|a l IH]; cbn; intros N; [constructor|]. inversion_clear N as [|? ? N1 N2]. constructor; [|now apply IH]. intros I. apply N1, in_app_iff. now left. Qed.
Lemma nodup_app_r {A} (l m : list A) : NoDup (l ++ m) -> NoDup m.
Proof. induction l as [|a l IH]; cbn; intros N; [exact N|]. inversion_clear N as [|? ? N1 N2]. now apply IH. Qed.
Lemma nodup_app_iff {A} (l m : list A) : NoDup (l ++ m) <-> NoDup l /\ NoDup m /\ forall a, In a l -> ~ In a m.
Proof.
  induction l as [|a l IH]; cbn; [split; [intros N; split; [constructor|]; split; [exact N|contradiction]|tauto]|]. split.
  - intros N. inversion_clear N as [|? ? N1 N2]. apply IH in N2. destruct N2 as (N2 & N3 & N4). split; [constructor; [intros I; apply N1, in_app_iff; now left|exact N2]|]. split; [exact N3|].
    intros b [<-|B]; [intros I; apply N1, in_app_iff; now right|auto].
  - intros (N1 & N2 & N3). inversion_clear N1 as [|? ? N4 N5]. constructor; [rewrite in_app_iff; intros [I|I]; [contradiction|]; now apply (N3 a); [left|]|]. apply IH. split; [exact N5|]. split; [exact N2|]. intros b B. apply N3. now right.
Qed.
Lemma update_length {A} : forall i (x : A) l, length (update i x l) = length l.
Proof. induction i as [|i IH]; intros x [|y l]; cbn; try reflexivity. now rewrite IH. Qed.
Lemma update_same {A} : forall i (x : A) l, i < length l -> nth_error (update i x l) i = Some x.
Proof. induction i as [|i IH]; intros x [|y l] L; cbn in *; try lia; [reflexivity|]. apply IH. lia. Qed.
Lemma update_other {A} : forall i j (x : A) l, j <> i -> nth_error (update i x l) j = nth_error l j.
Proof. induction i as [|i IH]; intros [|j] x [|y l] L; cbn in *; try reflexivity; try lia. apply IH. lia. Qed.
Lemma update_twice {A} : forall i (x y : A) l, update i x (update i y l) = update i x l.
Proof. induction i as [|i IH]; intros x y [|z l]; cbn; try reflexivity. now rewrite IH. Qed.
Lemma update_noop {A} : forall i (x d : A) l, nth i l d = x -> i < length l -> update i x l = l.
Proof. induction i as [|i IH]; intros x d [|y l] E L; cbn in *; try lia; [now subst|]. rewrite (IH x d); trivial. lia. Qed.
Lemma nth_update_same {A} i (x d : A) l : i < length l -> nth i (update i x l) d = x.
Proof. revert l. induction i as [|i IH]; intros [|y l] L; cbn in *; try lia; [reflexivity|]. apply IH. lia. Qed.
Lemma nth_update_other {A} : forall i j (x d : A) l, j <> i -> nth j (update i x l) d = nth j l d.
Proof. induction i as [|i IH]; intros [|j] x d [|y l] L; cbn in *; try reflexivity; try lia. apply IH. lia. Qed.
Lemma in_concat_nth (fps : list (list nat)) a : In a (concat fps) <-> exists i, In a (nth i fps []).
Proof.
  induction fps as [|f fps IH]; cbn.
  - split; [contradiction|]. intros ([|i] & I); contradiction.
  - rewrite in_app_iff, IH. split.
    + intros [I|(i & I)]; [exists 0; exact I|exists (S i); exact I].
    + intros ([|i] & I); [now left|right; exists i; exact I].
Qed.
Lemma nodup_update : forall i (f : list nat) fps, NoDup (concat fps) -> NoDup f -> (forall j, j <> i -> forall a, In a f -> ~ In a (nth j fps [])) -> NoDup (concat (update i f fps)).
Proof.
  induction i as [|i IH]; intros f [|g fps] N F D; cbn in *; try assumption.
  - apply nodup_app_r in N. induction f as [|a f IHf]; cbn; [exact N|]. inversion_clear F as [|? ? F1 F2]. constructor.
    + rewrite in_app_iff. intros [I|I]; [contradiction|]. apply in_concat_nth in I. destruct I as (j & I). apply (D (S j) ltac:(lia) a); [now left|exact I].
    + apply IHf; [exact F2|]. intros j J b B. apply D; [exact J|now right].
  - assert (D' : forall j, j <> i -> forall a, In a f -> ~ In a (nth j fps [])) by (intros j J a A; apply (D (S j)); [lia|exact A]).
    pose proof (IH f fps (nodup_app_r _ _ N) F D') as K.
    assert (Dg : forall a, In a g -> ~ In a (concat (update i f fps))).
    { intros a A I. apply in_concat_nth in I. destruct I as (j & I). destruct (Nat.eq_dec j i) as [->|J].
      - destruct (Nat.lt_ge_cases i (length fps)) as [L|L]; [|rewrite nth_overflow in I by (rewrite update_length; lia); contradiction].
        rewrite nth_update_same in I by exact L. now apply (D 0 ltac:(lia) a).
      - rewrite nth_update_other in I by exact J. clear - N A I. induction g as [|b g IHg]; [contradiction|]. cbn in N. inversion_clear N as [|? ? N1 N2].
        destruct A as [->|A]; [|now apply IHg]. apply N1. apply in_app_iff. right. apply in_concat_nth. now exists j. }
    clear - K Dg N. induction g as [|b g IHg]; cbn in *; [exact K|]. inversion_clear N as [|? ? N1 N2]. constructor.
    + rewrite in_app_iff. intros [I|I]; [apply N1; apply in_app_iff; now left|]. now apply (Dg b); [left|].
    + apply IHg; [exact N2|intros a A; apply Dg; now right].
Qed.
Lemma nodup_nth (fps : list (list nat)) : forall i, NoDup (concat fps) -> NoDup (nth i fps []).
Proof. induction fps as [|f fps IH]; intros [|i] N; cbn in *; try constructor; [now apply nodup_app_l in N|]. apply IH. now apply nodup_app_r in N. Qed.
Lemma nodup_disjoint (fps : list (list nat)) : forall i j a, NoDup (concat fps) -> i <> j -> In a (nth i fps []) -> ~ In a (nth j fps []).
Proof.
  induction fps as [|f fps IH]; intros i j a N D I J; [destruct i; contradiction|]. cbn in N.
  assert (X : forall k, In a f -> ~ In a (nth k fps [])).
  { intros k A K. clear - N A K. induction f as [|b f IHf]; [contradiction|]. cbn in N. inversion_clear N as [|? ? N1 N2]. destruct A as [->|A]; [|now apply IHf].
    apply N1, in_app_iff. right. apply in_concat_nth. now exists k. }
  destruct i as [|i], j as [|j]; cbn in I, J; try lia.
  - now apply (X j).
  - now apply (X i).
  - apply (IH i j a); trivial; [now apply nodup_app_r in N|lia].
Qed.

(** ** The heap *)
Lemma get_bound h p c : get h p = Some c -> 0 < p <= length h.
Proof. destruct p; cbn; [discriminate|]. intros E. assert (p < length h) by (apply nth_error_Some; congruence). lia. Qed.
Lemma get_some h p : 0 < p <= length h -> exists c, get h p = Some c.
Proof. destruct p; [lia|]. cbn. intros L. destruct (nth_error h p) eqn:E; [eauto|]. apply nth_error_None in E. lia. Qed.
Lemma get_set_same h p c : 0 < p <= length h -> get (set h p c) p = Some c.
Proof. destruct p; [lia|]. cbn. intros L. apply update_same. lia. Qed.
Lemma get_set_other h p q c : q <> p -> get (set h p c) q = get h q.
Proof. destruct p, q; cbn; trivial; try lia. intros D. apply update_other. lia. Qed.
Lemma set_length h p c : length (set h p c) = length h.
Proof. destruct p; cbn; [reflexivity|]. apply update_length. Qed.
Lemma load_ok h p x : get h p = Some (Live x) -> load h p = Ok x.
Proof. unfold load. now intros ->. Qed.
Lemma relinquish_ok h p x : get h p = Some (Live x) -> Relinquish p h = Ok (set h p (Dead x)).
Proof. intros E. destruct p; [discriminate|]. unfold Relinquish. now rewrite (load_ok _ _ _ E). Qed.
Lemma check_ok h p x : get h p = Some (Live x) -> signature x = true -> check p h = Ok x.
Proof. intros E S. destruct p; [discriminate|]. unfold check. rewrite (load_ok _ _ _ E). cbn [bind]. now rewrite S. Qed.
Lemma set_pointer_ok h p i q x : get h p = Some (Live x) -> set_pointer p i q h = Ok (set h p (Live (with_pointers x (update i q (pointers x))))).
Proof. intros E. unfold set_pointer. now rewrite (load_ok _ _ _ E). Qed.

(** ** What is owned depends only on its blocks *)
Section Own.
Variable phr : flags.
Lemma own_owns_frame h h' :
  (forall c p fp, own phr h c p fp -> (forall a, In a fp -> get h' a = get h a) -> own phr h' c p fp) /\
  (forall cs ps fps, owns phr h cs ps fps -> (forall a, In a (concat fps) -> get h' a = get h a) -> owns phr h' cs ps fps).
Proof.
  split; intros c p fp O; revert c p fp O.
  - apply (own_mut phr h (fun c p fp _ => (forall a, In a fp -> get h' a = get h a) -> own phr h' c p fp) (fun cs ps fps _ => (forall a, In a (concat fps) -> get h' a = get h a) -> owns phr h' cs ps fps)).
    + constructor.
    + intros c p x cs fps G C S M P O IH F. eapply own_block; try eassumption; [rewrite F; [exact G|now left]|]. apply IH. intros a A. apply F. now right.
    + constructor.
    + intros c cs p ps fp fps O IH1 Os IH2 F. cbn in F. constructor; [apply IH1|apply IH2]; intros a A; apply F, in_app_iff; auto.
  - apply (owns_mut phr h (fun c p fp _ => (forall a, In a fp -> get h' a = get h a) -> own phr h' c p fp) (fun cs ps fps _ => (forall a, In a (concat fps) -> get h' a = get h a) -> owns phr h' cs ps fps)).
    + constructor.
    + intros c p x cs fps G C S M P O IH F. eapply own_block; try eassumption; [rewrite F; [exact G|now left]|]. apply IH. intros a A. apply F. now right.
    + constructor.
    + intros c cs p ps fp fps O IH1 Os IH2 F. cbn in F. constructor; [apply IH1|apply IH2]; intros a A; apply F, in_app_iff; auto.
Qed.
Lemma own_frame h h' c p fp : own phr h c p fp -> (forall a, In a fp -> get h' a = get h a) -> own phr h' c p fp.
Proof. apply own_owns_frame. Qed.
Lemma own_owns_live h : (forall c p fp, own phr h c p fp -> forall a, In a fp -> exists x, get h a = Some (Live x)) /\
  (forall cs ps fps, owns phr h cs ps fps -> forall a, In a (concat fps) -> exists x, get h a = Some (Live x)).
Proof.
  split; intros c p fp O; revert c p fp O.
  - apply (own_mut phr h (fun c p fp _ => forall a, In a fp -> exists x, get h a = Some (Live x)) (fun cs ps fps _ => forall a, In a (concat fps) -> exists x, get h a = Some (Live x))); cbn.
    + contradiction.
    + intros c p x cs fps G C S M P O IH a [<-|A]; eauto.
    + contradiction.
    + intros c cs p ps fp fps O IH1 Os IH2 a A. apply in_app_iff in A. destruct A; eauto.
  - apply (owns_mut phr h (fun c p fp _ => forall a, In a fp -> exists x, get h a = Some (Live x)) (fun cs ps fps _ => forall a, In a (concat fps) -> exists x, get h a = Some (Live x))); cbn.
    + contradiction.
    + intros c p x cs fps G C S M P O IH a [<-|A]; eauto.
    + contradiction.
    + intros c cs p ps fp fps O IH1 Os IH2 a A. apply in_app_iff in A. destruct A; eauto.
Qed.
Lemma own_live h c p fp a : own phr h c p fp -> In a fp -> exists x, get h a = Some (Live x).
Proof. intros O. apply (proj1 (own_owns_live h) c p fp O). Qed.
Lemma owns_live h cs ps fps a : owns phr h cs ps fps -> In a (concat fps) -> exists x, get h a = Some (Live x).
Proof. intros O. apply (proj2 (own_owns_live h) cs ps fps O). Qed.
Lemma owns_nth h : forall cs ps fps, owns phr h cs ps fps -> forall i c, nth_error cs i = Some c -> own phr h c (nth i ps 0) (nth i fps []).
Proof. induction 1 as [|c cs p ps fp fps O Os IH]; intros i d E; destruct i; cbn in *; try discriminate; [now injection E as <-|]. now apply IH. Qed.
Lemma owns_lengths h : forall cs ps fps, owns phr h cs ps fps -> length ps = length cs /\ length fps = length cs.
Proof. induction 1 as [|c cs p ps fp fps O Os (A & B)]; cbn; lia. Qed.
Lemma owns_frame h h' cs ps fps : owns phr h cs ps fps -> (forall a, In a (concat fps) -> get h' a = get h a) -> owns phr h' cs ps fps.
Proof. apply own_owns_frame. Qed.
Lemma owns_update h h' : forall cs ps fps, owns phr h cs ps fps -> forall i c q f, nth_error cs i = Some c -> own phr h' c q f ->
  (forall j, j <> i -> forall a, In a (nth j fps []) -> get h' a = get h a) -> owns phr h' cs (update i q ps) (update i f fps).
Proof.
  induction 1 as [|c cs p ps fp fps O Os IH]; intros i d q f E N F; [destruct i; discriminate|]. destruct i; cbn in *.
  - injection E as <-. constructor; [exact N|]. apply (owns_frame h); [exact Os|]. intros a A. apply in_concat_nth in A. destruct A as (j & A). apply (F (S j)); [lia|exact A].
  - constructor; [apply (own_frame h); [exact O|]; apply (F 0); lia|]. apply (IH i d q f); trivial. intros j J. apply (F (S j)). lia.
Qed.

(** ** Destroying *)
Definition frees (D : nat -> heap -> outcome heap) (c : class) : Prop :=
  forall h p fp, p <> 0 -> own phr h c p fp -> NoDup fp -> exists h', D p h = Ok h' /\ destroyed h h' (fun a => In a fp).
Lemma relinquish_frees : frees Relinquish Raw.
Proof.
  intros h p fp Np O Nd. inversion O as [|? ? x cs fps G C S M P Os Q1 Q2 Q3]; subst; [contradiction|]. cbn in M. injection M as <-. inversion Os; subst. cbn [concat].
  rewrite (relinquish_ok _ _ _ G). eexists. split; [reflexivity|]. split; [apply set_length|]. split.
  - intros a [<-|[]]. exists x, x. rewrite get_set_same by now apply (get_bound _ _ _ G). repeat split; trivial. destruct (class_of x); reflexivity.
  - intros a A. apply get_set_other. intros ->. apply A. now left.
Qed.
Lemma destroy_member_at h p x cs fps i D c : opened phr h p x cs fps -> nth_error cs i = Some c ->
  (pointer i x <> 0 -> exists h', D (pointer i x) h = Ok h' /\ destroyed h h' (fun a => In a (nth i fps []))) ->
  exists h', destroy_member i D p h = Ok h' /\ opened phr h' p (with_pointers x (update i 0 (pointers x))) cs (update i [] fps) /\
    emptied h h' p (fun a => In a (nth i fps [])).
Proof.
  intros (G & Os & Nd) E F. unfold pointer in F. inversion_clear Nd as [|? ? N1 N2]. pose proof (owns_lengths _ _ _ _ Os) as (L1 & L2). assert (Li : i < length cs) by (apply nth_error_Some; congruence).
  pose proof (owns_nth _ _ _ _ Os i c E) as Oi. unfold destroy_member. rewrite (load_ok _ _ _ G). cbn [bind]. unfold pointer.
  assert (N3 : forall f : list nat, (forall a, In a (concat (update i [] fps)) -> In a (concat fps))).
  { intros _ a A. apply in_concat_nth in A. destruct A as (j & A). apply in_concat_nth. exists j. destruct (Nat.eq_dec j i) as [->|J]; [rewrite nth_update_same in A by lia; contradiction|]. now rewrite nth_update_other in A. }
  destruct (nth i (pointers x) 0) as [|q'] eqn:Q.
  - exists h. split; [reflexivity|]. assert (Z : nth i fps [] = []) by (inversion Oi; reflexivity || congruence || discriminate). rewrite (update_noop i 0 0) by (trivial; lia). rewrite (update_noop i [] []) by (auto; lia).
    split; [|split; [reflexivity|]; split; [intros a A; rewrite Z in A; contradiction|reflexivity]].
    split; [destruct x; exact G|]. split; [exact Os|now constructor].
  - set (q := S q') in *. destruct F as (h1 & -> & L & Fr & Sm); [discriminate|]. cbn [bind].
    assert (Pn : ~ In p (nth i fps [])) by (intros A; apply N1, in_concat_nth; now exists i).
    assert (G1 : get h1 p = Some (Live x)) by now rewrite Sm. rewrite (set_pointer_ok _ _ _ _ _ G1). eexists. split; [reflexivity|].
    pose proof (get_bound _ _ _ G1) as B1. split; [|split; [|split]].
    + split; [now apply get_set_same|]. split.
      * cbn [pointers with_pointers]. apply (owns_update h) with (c := c); trivial; [constructor|]. intros j J a A. rewrite get_set_other.
        -- apply Sm. now apply (nodup_disjoint fps j i).
        -- intros ->. apply N1, in_concat_nth. now exists j.
      * constructor; [intros A; apply N1; now apply (N3 [])|]. apply nodup_update; [exact N2|constructor|intros; contradiction].
    + rewrite set_length. exact L.
    + intros a A. destruct (Fr a A) as (y & z & Y). exists y, z. rewrite get_set_other; [exact Y|]. intros ->. contradiction.
    + intros a A B. rewrite get_set_other by exact A. now apply Sm.
Qed.
Lemma destroy_member_ok h p x cs fps i D c : opened phr h p x cs fps -> nth_error cs i = Some c -> frees D c ->
  exists h', destroy_member i D p h = Ok h' /\ opened phr h' p (with_pointers x (update i 0 (pointers x))) cs (update i [] fps) /\
    emptied h h' p (fun a => In a (nth i fps [])).
Proof.
  intros O E F. apply (destroy_member_at h p x cs fps i D c O E). intros Q. destruct O as (_ & Os & Nd). inversion_clear Nd as [|? ? _ N2].
  apply F; [exact Q|now apply (owns_nth _ _ _ _ Os)|now apply nodup_nth].
Qed.
(** the members after several were given back *)
Definition cleared {A B} (d : A) (l : list (nat * B)) (fps : list A) : list A := fold_left (fun fps x => update (fst x) d fps) l fps.
Lemma cleared_cons {A B} (d : A) (x : nat * B) l fps : cleared d (x :: l) fps = cleared d l (update (fst x) d fps).
Proof. reflexivity. Qed.
Lemma cleared_nth {A B} (d e : A) : forall (l : list (nat * B)) fps j, ~ In j (map fst l) -> nth j (cleared d l fps) e = nth j fps e.
Proof. induction l as [|(i, x) l IH]; intros fps j I; cbn in *; [reflexivity|]. unfold cleared in *. cbn. rewrite IH by tauto. apply nth_update_other. intuition. Qed.
Lemma destroy_members_ok p cs : forall l h x fps, opened phr h p x cs fps ->
  Forall (fun iD => exists c, nth_error cs (fst iD) = Some c /\ frees (snd iD) c) l ->
  exists h', destroy_members l p h = Ok h' /\ opened phr h' p (with_pointers x (cleared 0 l (pointers x))) cs (cleared [] l fps) /\
    emptied h h' p (fun a => exists i, In i (map fst l) /\ In a (nth i fps [])).
Proof.
  induction l as [|(i, D) l IH]; intros h x fps O F.
  - exists h. split; [reflexivity|]. split; [destruct x; exact O|]. split; [reflexivity|]. split; [intros a (i & I & _); contradiction|reflexivity].
  - inversion_clear F as [|? ? (c & E & Fc) F']. cbn [fst snd] in *. destruct (destroy_member_ok h p x cs fps i D c O E Fc) as (h1 & D1 & O1 & L1 & A1 & B1).
    destruct (IH h1 _ _ O1 F') as (h2 & D2 & O2 & L2 & A2 & B2). exists h2. cbn [destroy_members]. rewrite D1. cbn [bind]. split; [exact D2|]. split; [exact O2|].
    assert (Li : i < length fps) by (destruct O as (_ & Os & _); destruct (owns_lengths _ _ _ _ Os) as (_ & ->); apply nth_error_Some; congruence).
    assert (Pn : forall j, ~ In p (nth j fps [])).
    { intros j A. destruct O as (_ & _ & N). inversion_clear N as [|? ? N1 _]. apply N1, in_concat_nth. now exists j. }
    split; [congruence|]. split.
    + intros a (j & J & A). destruct (in_dec Nat.eq_dec j (map fst l)) as [Jl|Jl]; [destruct (Nat.eq_dec j i) as [->|Ji]|].
      * destruct (A1 a A) as (y & z & Y1 & Y2 & Y3). exists y, z. split; [exact Y1|]. split; [|exact Y3]. rewrite B2; [exact Y2|intros ->; now apply (Pn i)|].
        intros (k & K1 & K2). destruct (Nat.eq_dec k i) as [->|Ki]; [rewrite nth_update_same in K2 by exact Li; contradiction|]. rewrite nth_update_other in K2 by exact Ki.
        destruct O as (_ & _ & N). inversion_clear N as [|? ? _ N2]. apply (nodup_disjoint fps i k a N2); [congruence|assumption|assumption].
      * destruct (A2 a) as (y & z & Y1 & Y2 & Y3); [exists j; split; [exact Jl|now rewrite nth_update_other]|]. exists y, z. split; [|now split]. rewrite <- B1; [exact Y1|intros ->; now apply (Pn j)|].
        destruct O as (_ & _ & N). inversion_clear N as [|? ? _ N2]. now apply (nodup_disjoint fps j i).
      * destruct J as [<-|J]; [|contradiction]. cbn [fst] in *. destruct (A1 a A) as (y & z & Y1 & Y2 & Y3). exists y, z. split; [exact Y1|]. split; [|exact Y3]. rewrite B2; [exact Y2|intros ->; now apply (Pn i)|].
        intros (k & K1 & K2). destruct (Nat.eq_dec k i) as [->|Ki]; [contradiction|]. rewrite nth_update_other in K2 by exact Ki.
        destruct O as (_ & _ & N). inversion_clear N as [|? ? _ N2]. apply (nodup_disjoint fps i k a N2); [congruence|assumption|assumption].
    + intros a Ap Q. rewrite B2; [apply B1|exact Ap|]; [exact Ap| |].
      * intros A. apply Q. exists i. split; [now left|exact A].
      * intros (k & K1 & K2). apply Q. exists k. split; [now right|]. destruct (Nat.eq_dec k i) as [->|Ki]; [rewrite nth_update_same in K2 by exact Li; contradiction|]. now rewrite nth_update_other in K2.
Qed.
Lemma finish_ok h p x : get h p = Some (Live x) -> exists y, finish p h = Ok (set h p (Dead y)) /\ class_of y = class_of x /\ bytes y = bytes x.
Proof.
  intros G. pose proof (get_bound _ _ _ G) as B. unfold finish, store. rewrite (load_ok _ _ _ G). cbn [bind].
  set (y := mkBlock _ _ _ _ _). rewrite (relinquish_ok _ p y) by now apply get_set_same. exists y. split; [|split; reflexivity]. f_equal. destruct p; [lia|]. apply update_twice.
Qed.
Lemma emptied_finish h h1 p x y z P : emptied h h1 p P -> get h p = Some (Live x) -> get h1 p = Some (Live y) -> left_in x z -> ~ P p -> destroyed h (set h1 p (Dead z)) (fun a => a = p \/ P a).
Proof.
  intros (L & A & B) G G1 LI Np. split; [rewrite set_length; exact L|]. split.
  - intros a [->|Pa].
    + exists x, z. rewrite get_set_same by now apply (get_bound _ _ _ G1). split; [exact G|]. split; [reflexivity|exact LI].
    + destruct (A a Pa) as (u & v & U1 & U2 & U3). exists u, v. rewrite get_set_other by (intros ->; contradiction). split; [exact U1|]. now split.
  - intros a N. rewrite get_set_other by tauto. apply B; tauto.
Qed.
Lemma destroy_object_gen l h p x cs fps : opened phr h p x cs fps -> signature x = true -> class_of x <> RandomC ->
  Forall (fun iD => exists c, nth_error cs (fst iD) = Some c /\ frees (snd iD) c) l ->
  exists h', destroy_object l p h = Ok h' /\ destroyed h h' (fun a => a = p \/ exists i, In i (map fst l) /\ In a (nth i fps [])).
Proof.
  intros O S R F. unfold destroy_object. destruct (destroy_members_ok p cs l h x fps O F) as (h1 & D1 & O1 & E1). destruct O as (G & Os & Nd).
  rewrite (check_ok _ _ _ G S). cbn [bind]. rewrite D1. cbn [bind]. destruct O1 as (G1 & _). destruct (finish_ok _ _ _ G1) as (y & -> & Cy & By). eexists. split; [reflexivity|].
  eapply emptied_finish; try eassumption.
  - cbn in Cy, By. split; [exact Cy|]. destruct (class_of x); trivial; contradiction.
  - intros (i & _ & A). inversion_clear Nd as [|? ? N1 _]. apply N1, in_concat_nth. now exists i.
Qed.
Lemma destroyed_ext h h' P Q : (forall a, P a <-> Q a) -> destroyed h h' P -> destroyed h h' Q.
Proof. intros E (L & A & B). split; [exact L|]. split; [intros a Qa; apply A; now apply E|]. intros a Na. apply B. intros Pa. now apply Na, E. Qed.
Lemma destroy_object_ok l h p x cs fps : opened phr h p x cs fps -> signature x = true -> class_of x <> RandomC ->
  Forall (fun iD => exists c, nth_error cs (fst iD) = Some c /\ frees (snd iD) c) l -> (forall i, i < length cs -> In i (map fst l) \/ nth i fps [] = []) ->
  exists h', destroy_object l p h = Ok h' /\ destroyed h h' (fun a => In a (p :: concat fps)).
Proof.
  intros O S R F C. destruct (destroy_object_gen l h p x cs fps O S R F) as (h' & D & E). exists h'. split; [exact D|]. revert E. apply destroyed_ext.
  intros a. cbn [In]. rewrite in_concat_nth. split.
  - intros [->|(i & _ & A)]; [now left|right; now exists i].
  - intros [->|(i & A)]; [now left|]. right. exists i. split; [|exact A]. destruct O as (_ & Os & _). destruct (owns_lengths _ _ _ _ Os) as (_ & L).
    destruct (Nat.lt_ge_cases i (length cs)) as [Li|Li]; [|rewrite nth_overflow in A by lia; contradiction]. destruct (C i Li) as [I|I]; [exact I|]. rewrite I in A. contradiction.
Qed.
Lemma frees_object l c cs : c <> RandomC -> (forall k cs', members c k = Some cs' -> cs' = cs) ->
  Forall (fun iD => exists d, nth_error cs (fst iD) = Some d /\ frees (snd iD) d) l -> (forall i, i < length cs -> In i (map fst l)) -> frees (destroy_object l) c.
Proof.
  intros R M F C h p fp Np O Nd. inversion O as [|? ? x cs' fps G Cx S Mx P Os Q1 Q2 Q3]; [congruence|]. rewrite (M _ _ Mx) in Os. subst.
  apply (destroy_object_ok l h p x cs fps); trivial; [now repeat split|]. intros i Li. left. now apply C.
Qed.
Ltac all_members := repeat (apply Forall_cons; [eexists; split; [reflexivity|cbn [snd]; assumption || auto with frees]|]); apply Forall_nil.
Ltac all_indices := cbn; intros i Hi; repeat (destruct i as [|i]; [tauto|]); lia.
Hint Resolve relinquish_frees : frees.
Lemma string_frees : frees DestroyStringInfo StringC.
Proof. apply (frees_object _ _ [Raw]); [discriminate|now intros k cs' [= <-]|all_members|all_indices]. Qed.
Hint Resolve string_frees : frees.
Lemma aes_frees : frees DestroyAESInfo AESC.
Proof. apply (frees_object _ _ [StringC; Raw; Raw]); [discriminate|now intros k cs' [= <-]|all_members|all_indices]. Qed.
Lemma array_frees : frees DestroyArrayInfo ArrayC.
Proof. apply (frees_object _ _ []); [discriminate|now intros k cs' [= <-]|all_members|all_indices]. Qed.
Lemma crc_frees : frees DestroyCRC64Info CRC64C.
Proof. apply (frees_object _ _ [StringC; Raw]); [discriminate|now intros k cs' [= <-]|all_members|all_indices]. Qed.
Lemma message_frees : frees DestroyMessageInfo MessageC.
Proof. apply (frees_object _ _ [StringC; StringC; Raw]); [discriminate|now intros k cs' [= <-]|all_members|all_indices]. Qed.
Lemma sha3_frees : frees DestroySHA3Info SHA3C.
Proof. apply (frees_object _ _ [StringC]); [discriminate|now intros k cs' [= <-]|all_members|all_indices]. Qed.
Hint Resolve aes_frees array_frees crc_frees message_frees sha3_frees : frees.
Lemma hash_class_cases k c : hash_class k = Some c -> c = CRC64C \/ c = MessageC \/ c = SHA3C.
Proof. unfold hash_class. repeat destruct (_ : bool); intros [= <-]; auto. Qed.
Lemma cipher_class_cases k c : cipher_class k = Some c -> c = AESC \/ c = ArrayC.
Proof. unfold cipher_class. repeat destruct (_ : bool); intros [= <-]; auto. Qed.
Lemma hash_frees : frees DestroyHashInfo HashC.
Proof.
  intros h p fp Np O Nd. inversion O as [|? ? x cs fps G Cx Sx Mx P Os Q1 Q2 Q3]; [congruence|]. subst. unfold DestroyHashInfo. rewrite (check_ok _ _ _ G Sx). cbn [bind].
  cbn [members] in Mx. destruct (hash_class (kind x)) as [c|] eqn:K; [|discriminate]. injection Mx as <-.
  eapply destroy_object_ok; [split; [exact G|split; [exact Os|exact Nd]]|exact Sx|congruence| |all_indices].
  destruct (hash_class_cases _ _ K) as [->|[->| ->]]; all_members.
Qed.
Hint Resolve hash_frees : frees.
Lemma hmac_frees : frees DestroyHMACInfo HMACC.
Proof. apply (frees_object _ _ [HashC; StringC; StringC; StringC]); [discriminate|now intros k cs' [= <-]|all_members|all_indices]. Qed.
Hint Resolve hmac_frees : frees.
Lemma random_frees : frees DestroyRandomInfo RandomC.
Proof.
  intros h p fp Np O Nd. inversion O as [|? ? x cs fps G Cx Sx Mx P Os Q1 Q2 Q3]; [congruence|]. subst. cbn [members] in Mx. injection Mx as <-.
  unfold present in P. rewrite Cx in P. unfold DestroyRandomInfo. rewrite (check_ok _ _ _ G Sx). cbn [bind].
  pose proof (owns_nth _ _ _ _ Os 3 Raw eq_refl) as Om. fold (pointer 3 x) in Om. inversion Om as [? Z|? ? y ? ? Gy Cy _ _ _ _ Z1 Z2 Z3]; [congruence|]. clear Z1 Z2.
  destruct (pointer 3 x) as [|m'] eqn:Pm; [contradiction|]. rewrite (load_ok _ _ _ Gy). cbn [bind].
  assert (Op : opened phr h p x [HMACC; StringC; StringC; Raw] fps) by now repeat split.
  destruct (destroy_members_ok p _ [(2, DestroyStringInfo); (1, DestroyStringInfo); (0, DestroyHMACInfo)] h x fps Op) as (h1 & -> & O1 & E1); [all_members|]. cbn [bind].
  destruct O1 as (G1 & Os1 & Nd1). cbn [with_pointers] in G1. rewrite (load_ok _ _ _ G1). cbn [bind]. unfold store. rewrite (load_ok _ _ _ G1). cbn [bind].
  set (x2 := with_bytes _ _). pose proof (get_bound _ _ _ G1) as B1.
  assert (G2 : get (set h1 p (Live x2)) p = Some (Live x2)) by now apply get_set_same.
  unfold relinquish_semaphore. rewrite (load_ok _ _ _ G2). cbn [bind]. unfold pointer at 1. cbn [x2 pointers with_bytes with_pointers].
  rewrite cleared_nth by (cbn; lia). fold (pointer 3 x). rewrite Pm.
  inversion_clear Nd as [|? ? N1 N2].
  assert (Mp : S m' <> p) by (intros E; apply N1, in_concat_nth; exists 3; rewrite <- Z3; now left).
  assert (Gm : get (set h1 p (Live x2)) (S m') = Some (Live y)).
  { rewrite get_set_other by exact Mp. destruct E1 as (_ & _ & B). rewrite B; [exact Gy|exact Mp|]. intros (i & I & A). cbn in I.
    apply (nodup_disjoint fps 3 i (S m') N2); [intuition lia|rewrite <- Z3; now left|exact A]. }
  rewrite (relinquish_ok _ _ _ Gm). cbn [bind].
  assert (G3 : get (set (set h1 p (Live x2)) (S m') (Dead y)) p = Some (Live x2)) by (rewrite get_set_other by congruence; exact G2).
  rewrite (set_pointer_ok _ _ _ _ _ G3). cbn [bind]. set (x3 := with_pointers _ _).
  assert (G4 : get (set (set (set h1 p (Live x2)) (S m') (Dead y)) p (Live x3)) p = Some (Live x3)) by (apply get_set_same; now rewrite !set_length).
  destruct (finish_ok _ _ _ G4) as (z & -> & Cz & Bz). eexists. split; [reflexivity|].
  eapply (destroyed_ext _ _ (fun a => a = p \/ (a = S m' \/ exists i, In i [2; 1; 0] /\ In a (nth i fps [])))).
  - intros a. cbn [In]. rewrite in_concat_nth. split.
    + intros [->|[->|(i & _ & A)]]; [now left|right; exists 3; rewrite <- Z3; now left|right; now exists i].
    + intros [->|(i & A)]; [now left|]. right. destruct i as [|[|[|[|i]]]]; try (right; eexists; split; [|exact A]; cbn; tauto).
      * left. rewrite <- Z3 in A. destruct A as [<-|A]; [reflexivity|].
        pose proof (owns_nth _ _ _ _ Os 3 Raw eq_refl) as Oz. unfold pointer in Pm. rewrite Pm in Oz. inversion Oz as [|? ? w wcs wf Gw Cw _ Mw _ Ow Y1 Y2 Y3]. rewrite <- Y3 in Z3. injection Z3 as Z3. rewrite Z3 in A.
        cbn [members] in Mw. injection Mw as <-. inversion Ow. subst wf. contradiction.
      * rewrite nth_overflow in A by (destruct (owns_lengths _ _ _ _ Os) as (_ & ->); cbn; lia). contradiction.
  - eapply (emptied_finish h _ p x x3 z); [|exact G|exact G4| |].
    + destruct E1 as (L & A & B). split; [now rewrite !set_length|]. split.
      * intros a [->|Pa].
        -- exists y, y. rewrite get_set_other by exact Mp. rewrite get_set_same by now apply (get_bound _ _ _ Gm).
           split; [exact Gy|]. split; [reflexivity|]. split; [reflexivity|]. destruct (class_of y); reflexivity.
        -- destruct (A a Pa) as (u & v & U1 & U2 & U3). exists u, v. split; [exact U1|]. split; [|exact U3]. assert (a <> p) by (intros ->; destruct Pa as (i & _ & I); apply N1, in_concat_nth; now exists i).
           rewrite !get_set_other; trivial. intros ->. destruct Pa as (i & I & Ai). cbn in I. apply (nodup_disjoint fps 3 i (S m') N2); [intuition lia|rewrite <- Z3; now left|exact Ai].
      * intros a Ap Na. rewrite !get_set_other; trivial; [|tauto]. apply B; tauto.
    + split; [now rewrite Cz|]. rewrite Cx. rewrite Bz. cbn [x3 x2 bytes with_pointers with_bytes]. unfold zeros. rewrite skipn_app, repeat_length.
      replace (skipn 8 (repeat 0%N (Nat.min 8 (length (bytes x))))) with (@nil N) by (symmetry; apply skipn_all2; rewrite repeat_length; lia). cbn [app].
      destruct (Nat.le_gt_cases 8 (length (bytes x))) as [L|L]; [rewrite Nat.min_l by exact L; reflexivity|]. rewrite Nat.min_r by lia. rewrite (skipn_all2 (n := 8) (bytes x)) by lia. apply skipn_nil.
    + intros [A|(i & _ & A)]; [now apply Mp|]. apply N1, in_concat_nth. now exists i.
Qed.
Hint Resolve random_frees : frees.
Lemma cipher_frees : frees DestroyCipherInfo CipherC.
Proof.
  intros h p fp Np O Nd. inversion O as [|? ? x cs fps G Cx Sx Mx P Os Q1 Q2 Q3]; [congruence|]. subst. unfold DestroyCipherInfo. rewrite (check_ok _ _ _ G Sx). cbn [bind].
  cbn [members] in Mx. destruct (cipher_class (kind x)) as [c|] eqn:K; [|discriminate]. injection Mx as <-.
  eapply destroy_object_ok; [split; [exact G|split; [exact Os|exact Nd]]|exact Sx|congruence| |all_indices].
  destruct (cipher_class_cases _ _ K) as [->| ->]; all_members.
Qed.
Hint Resolve cipher_frees : frees.
Lemma keyring_frees : frees DestroyKeyringInfo KeyringC.
Proof. apply (frees_object _ _ [Raw; StringC; StringC; StringC]); [discriminate|now intros k cs' [= <-]|all_members|all_indices]. Qed.
Hint Resolve keyring_frees : frees.

(** *** Secrets, without their pass phrases *)
Definition secret_members : list class := [Raw; StringC; StringC; StringC; StringC; KeyringC; CipherC; HMACC; RandomC].
Lemma secret_gen h p x fps : opened phr h p x secret_members fps -> class_of x = SecretC -> signature x = true ->
  exists h', DestroySecretInfo p h = Ok h' /\ destroyed h h' (fun a => In a (p :: concat (update 0 [] fps))).
Proof.
  intros O C Sg. destruct (destroy_object_gen [(8, DestroyRandomInfo); (7, DestroyHMACInfo); (6, DestroyCipherInfo); (5, DestroyKeyringInfo); (4, DestroyStringInfo); (2, DestroyStringInfo); (1, DestroyStringInfo); (3, DestroyStringInfo)]
    h p x secret_members fps O Sg) as (h' & D & E); [congruence|all_members|]. exists h'. split; [exact D|]. revert E. apply destroyed_ext.
  intros a. cbn [In]. rewrite in_concat_nth. pose proof O as (_ & Os & _). destruct (owns_lengths _ _ _ _ Os) as (_ & L). cbn in L. split.
  - intros [->|(i & I & A)]; [now left|right]. exists i. rewrite nth_update_other; [exact A|]. intros ->. cbn in I. intuition lia.
  - intros [->|(i & A)]; [now left|]. right. exists i. destruct i as [|i]; [rewrite nth_update_same in A by lia; contradiction|]. rewrite nth_update_other in A by lia. split; [|exact A].
    destruct (Nat.lt_ge_cases (S i) 9) as [Li|Li]; [|rewrite nth_overflow in A by lia; contradiction]. cbn. lia.
Qed.
Lemma secret_frees : phrases phr = false -> frees DestroySecretInfo SecretC.
Proof.
  intros E h p fp Np O Nd. inversion O as [|? ? x cs fps G Cx Sx Mx P Os Q1 Q2 Q3]; [congruence|]. subst c p0 fp. cbn [members] in Mx. injection Mx as <-.
  destruct (secret_gen h p x fps) as (h' & D & F); trivial; [split; [exact G|split; [exact Os|exact Nd]]|]. exists h'. split; [exact D|].
  unfold present in P. rewrite Cx in P. specialize (P E). pose proof (owns_nth _ _ _ _ Os 0 Raw eq_refl) as O0. fold (pointer 0 x) in O0. rewrite P in O0.
  rewrite (update_noop 0 [] []) in F; [exact F| |destruct (owns_lengths _ _ _ _ Os) as (_ & ->); cbn; lia]. inversion O0; [reflexivity|discriminate].
Qed.
Lemma authenticate_frees : phrases phr = false -> frees DestroyAuthenticateInfo AuthenticateC.
Proof.
  intros E. pose proof (secret_frees E) as Fs. clear E. intros h p fp Np O Nd. inversion O as [|? ? x cs fps G Cx Sx Mx P Os Q1 Q2 Q3]; [congruence|]. subst. unfold DestroyAuthenticateInfo. rewrite (check_ok _ _ _ G Sx). cbn [bind].
  cbn [members] in Mx. destruct (kind x =? 1)%N; [|discriminate]. injection Mx as <-.
  eapply destroy_object_ok; [split; [exact G|split; [exact Os|exact Nd]]|exact Sx|congruence|all_members|all_indices].
Qed.

(** *** Trees *)
(** from h to h' the blocks of F which are not in F' are given back, those of F' keep their class and bytes, others do not change *)
Definition kept (h h' : heap) (F F' : list nat) : Prop :=
  length h' = length h /\ incl F' F /\
  (forall a, In a F' -> forall x, get h a = Some (Live x) -> exists y, get h' a = Some (Live y) /\ class_of y = class_of x /\ bytes y = bytes x) /\
  (forall a, In a F -> ~ In a F' -> exists x y, get h a = Some (Live x) /\ get h' a = Some (Dead y) /\ left_in x y) /\
  (forall a, ~ In a F -> get h' a = get h a).
Lemma left_in_refl x : left_in x x.
Proof. split; [reflexivity|]. destruct (class_of x); reflexivity. Qed.
Lemma kept_refl h F F' : incl F F' -> incl F' F -> kept h h F F'.
Proof. intros I J. split; [reflexivity|]. split; [exact J|]. split; [intros a A x G; exists x; now repeat split|]. split; [intros a A B; now apply I in A|reflexivity]. Qed.
Lemma kept_trans h h1 h2 F F1 F2 : kept h h1 F F1 -> kept h1 h2 F1 F2 -> (forall a, In a F1 -> exists x, get h a = Some (Live x)) -> kept h h2 F F2.
Proof.
  intros (L1 & I1 & K1 & D1 & S1) (L2 & I2 & K2 & D2 & S2) Lv. split; [congruence|]. split; [now apply (incl_tran I2)|]. split; [|split].
  - intros a A x G. destruct (K1 a (I2 a A) x G) as (y & G1 & C1 & B1). destruct (K2 a A y G1) as (z & G2 & C2 & B2). exists z. split; [exact G2|]. now rewrite C2, B2.
  - intros a A B. destruct (in_dec Nat.eq_dec a F1) as [J|J].
    + destruct (Lv a J) as (x & G). destruct (K1 a J x G) as (y & G1 & C1 & B1). destruct (D2 a J B) as (y' & z & G1' & G2 & Lf1 & Lf2). rewrite G1 in G1'. injection G1' as <-.
      exists x, z. split; [exact G|]. split; [exact G2|]. rewrite C1 in Lf1, Lf2. rewrite B1 in Lf2. now split.
    + destruct (D1 a A J) as (x & y & G & G1 & Lf). exists x, y. split; [exact G|]. split; [|exact Lf]. now rewrite (S2 a J).
  - intros a A. rewrite S2; [now apply S1|]. intros J. now apply A, I1.
Qed.
Lemma kept_frame h h' F F' G G' : kept h h' F F' -> (forall a, In a G <-> In a F \/ (In a G' /\ ~ In a F)) -> (forall a, In a F' -> In a G') -> (forall a, In a G' -> In a F -> In a F') -> kept h h' G G'.
Proof.
  intros (L & I & K & D & S) E J1 J2. split; [exact L|]. split; [|split; [|split]].
  - intros a A. apply E. destruct (in_dec Nat.eq_dec a F); [now left|now right].
  - intros a A x Gx. destruct (in_dec Nat.eq_dec a F) as [B|B]; [now apply K; [apply J2|]|]. exists x. rewrite S by exact B. now repeat split.
  - intros a A B. apply E in A. destruct A as [A|(A & _)]; [|contradiction]. apply D; [exact A|]. intros C. now apply B, J1.
  - intros a A. apply S. intros B. apply A, E. now left.
Qed.
Lemma kept_destroyed h h' F : kept h h' F [] -> destroyed h h' (fun a => In a F).
Proof. intros (L & _ & _ & D & S). split; [exact L|]. split; [intros a A; now apply D|exact S]. Qed.
Lemma own_not_null h c p fp : own phr h c p fp -> ~ In 0 fp.
Proof. intros O I. destruct (own_live _ _ _ _ _ O I) as (x & G). discriminate. Qed.

Lemma take_node_ok h c fc next : own phr h NodeC c fc -> c <> 0 -> NoDup fc ->
  exists h' x l r fl fr, take_node c next h = Ok h' /\ get h' c = Some (Live x) /\ pointers x = [next; 0; l; r] /\ own phr h' NodeC l fl /\ own phr h' NodeC r fr /\
    NoDup (c :: fl ++ fr) /\ kept h h' fc (c :: fl ++ fr).
Proof.
  intros O Nc Nd. inversion O as [|? ? x cs fps G Cx Sx Mx P Os Q1 Q2 Q3]; [congruence|]. subst c0 p fc. cbn [members] in Mx. injection Mx as <-.
  assert (Op : opened phr h c x [StringC; StringC; NodeC; NodeC] fps) by (split; [exact G|split; [exact Os|exact Nd]]).
  destruct (destroy_member_ok h c x _ fps 1 DestroyStringInfo StringC Op eq_refl (string_frees)) as (h1 & E1 & O1 & L1 & D1 & S1).
  destruct (destroy_member_ok h1 c _ _ _ 0 DestroyStringInfo StringC O1 eq_refl (string_frees)) as (h2 & E2 & (G2 & Os2 & Nd2) & L2 & D2 & S2).
  unfold take_node. rewrite E1. cbn [bind]. rewrite E2. cbn [bind]. rewrite (set_pointer_ok _ _ _ _ _ G2).
  inversion Os as [|? ? k ? fk ? Ok1 Os' A1 A2 A3]; subst. inversion Os' as [|? ? v ? fv ? Ov Os'' A4 A5 A6]; subst. inversion Os'' as [|? ? l ? fl ? Ol Os3 A7 A8 A9]; subst. inversion Os3 as [|? ? r ? fr ? Or Os4 A10 A11 A12]; subst. inversion Os4; subst.
  destruct x as [cx sx kx bx px]. cbn [pointers] in *. subst px. cbn [update with_pointers pointers class_of signature kind bytes] in *.
  assert (Nd' : NoDup (c :: fl ++ fr)) by (revert Nd2; cbn; now rewrite app_nil_r).
  pose proof (get_bound _ _ _ G2) as B2.
  cbn [concat app] in Nd |- *. rewrite app_nil_r in Nd |- *. inversion_clear Nd as [|? ? N1 N2]. apply nodup_app_iff in N2. destruct N2 as (Nk & N2 & Dk). apply nodup_app_iff in N2. destruct N2 as (Nv & N2 & Dv).
  rewrite !in_app_iff in N1. setoid_rewrite in_app_iff in Dk.
  assert (El : forall a, In a (fl ++ fr) -> get (set h2 c (Live {| class_of := cx; signature := sx; kind := kx; bytes := bx; pointers := [next; 0; l; r] |})) a = get h a).
  { intros a A. assert (a <> c) by (intros ->; apply in_app_iff in A; tauto). rewrite get_set_other by assumption. rewrite S2; [apply S1|assumption|]; [assumption| |].
    - cbn. intros B. now apply (Dv a).
    - cbn. intros B. apply (Dk a B). auto. }
  eexists _, _, l, r, fl, fr. split; [reflexivity|]. split; [now apply get_set_same|]. split; [reflexivity|].
  split; [apply (own_frame h); [exact Ol|]; intros a A; apply El, in_app_iff; now left|]. split; [apply (own_frame h); [exact Or|]; intros a A; apply El, in_app_iff; now right|]. split; [exact Nd'|].
  assert (Dkv : forall a, In a fk -> ~ In a fv) by (intros a A B; apply (Dk a A); auto).
  split; [now rewrite set_length, L2|]. split; [|split; [|split]].
  - intros a [<-|A]; [now left|]. right. apply in_app_iff. right. apply in_app_iff. now right.
  - intros a [<-|A] y Gy.
    + rewrite G in Gy. injection Gy as <-. eexists. split; [now apply get_set_same|]. now split.
    + exists y. split; [exact (eq_trans (El a A) Gy)|now split].
  - intros a [<-|A] B; [exfalso; apply B; now left|]. apply in_app_iff in A. assert (Ac : a <> c).
    { intros ->. apply B. now left. } rewrite get_set_other by exact Ac. destruct A as [A|A].
    + destruct (D2 a) as (u & w & U1 & U2 & U3); [exact A|]. exists u, w. split; [|now split]. rewrite <- S1; [exact U1|exact Ac|]. cbn. now apply Dkv.
    + apply in_app_iff in A. destruct A as [A|A]; [|exfalso; apply B; now right]. destruct (D1 a) as (u & w & U1 & U2 & U3); [exact A|]. exists u, w. split; [exact U1|]. split; [|exact U3]. rewrite S2; [exact U2|exact Ac|]. cbn. intros Q. now apply (Dkv a).
  - intros a A. rewrite get_set_other by (intros ->; apply A; now left). rewrite S2; [apply S1| |].
    + intros ->. apply A. now left.
    + cbn. intros B. apply A. right. apply in_app_iff. right. apply in_app_iff. now left.
    + intros ->. apply A. now left.
    + cbn. intros B. apply A. right. apply in_app_iff. now left.
Qed.

(** nodes linked through their keys, with the trees below them *)
Inductive chain (h : heap) : nat -> list nat -> Prop :=
| chain_nil : chain h 0 []
| chain_cons n x next l r fl fr rest : get h n = Some (Live x) -> pointers x = [next; 0; l; r] -> own phr h NodeC l fl -> own phr h NodeC r fr -> chain h next rest ->
    chain h n (n :: fl ++ fr ++ rest).
Lemma chain_frame h h' n f : chain h n f -> (forall a, In a f -> get h' a = get h a) -> chain h' n f.
Proof.
  induction 1 as [|n x next l r fl fr rest G Px Ol Or Ch IH]; intros E; [constructor|]. econstructor; try eassumption.
  - rewrite E; [exact G|now left].
  - apply (own_frame h); [exact Ol|]. intros a A. apply E. right. apply in_app_iff. now left.
  - apply (own_frame h); [exact Or|]. intros a A. apply E. right. apply in_app_iff. right. apply in_app_iff. now left.
  - apply IH. intros a A. apply E. right. apply in_app_iff. right. apply in_app_iff. now right.
Qed.
Lemma chain_live h n f a : chain h n f -> In a f -> exists x, get h a = Some (Live x).
Proof.
  induction 1 as [|n x next l r fl fr rest G Px Ol Or Ch IH]; [contradiction|]. intros [<-|A]; [eauto|]. apply in_app_iff in A. destruct A as [A|A]; [now apply (own_live _ _ _ _ _ Ol)|].
  apply in_app_iff in A. destruct A as [A|A]; [now apply (own_live _ _ _ _ _ Or)|auto].
Qed.
Lemma take_child_ok i active x h pend fc fp : get h active = Some (Live x) -> own phr h NodeC (pointer i x) fc -> chain h pend fp -> NoDup (fc ++ fp) ->
  exists h' pend' fp', take_child i active pend h = Ok (h', pend') /\ chain h' pend' fp' /\ NoDup fp' /\ kept h h' (fc ++ fp) fp'.
Proof.
  intros G O Ch N. unfold take_child. rewrite (load_ok _ _ _ G). cbn [bind]. destruct (pointer i x) as [|c'] eqn:Q.
  - assert (fc = []) by (inversion O; congruence || discriminate). subst fc. exists h, pend, fp. split; [reflexivity|]. split; [exact Ch|]. split; [exact N|]. apply kept_refl; cbn; apply incl_refl.
  - apply nodup_app_iff in N. destruct N as (N1 & N2 & N3). destruct (take_node_ok h (S c') fc pend O ltac:(discriminate) N1) as (h1 & y & l & r & fl & fr & -> & G1 & Py & Ol & Or & N4 & K). cbn [bind].
    assert (S1 : forall a, ~ In a fc -> get h1 a = get h a) by apply K. assert (I1 : incl (S c' :: fl ++ fr) fc) by apply K.
    assert (N5 : NoDup ((S c' :: fl ++ fr) ++ fp)) by (apply nodup_app_iff; split; [exact N4|]; split; [exact N2|]; intros a A; apply N3; now apply I1).
    exists h1, (S c'), (S c' :: fl ++ fr ++ fp). split; [reflexivity|]. split.
    + econstructor; try eassumption. apply (chain_frame h); [exact Ch|]. intros a A. apply S1. intros B. now apply (N3 a).
    + assert (Eq : S c' :: fl ++ fr ++ fp = (S c' :: fl ++ fr) ++ fp) by (cbn; now rewrite app_assoc). rewrite Eq. split; [exact N5|].
      eapply kept_frame; [exact K| | |].
      * intros a. rewrite !in_app_iff. split; [intros [A|A]; [now left|]; right; split; [now right|]; intros B; now apply (N3 a)|]. intros [A|([A|A] & B)]; [now left| |now right]. left. now apply I1.
      * intros a A. apply in_app_iff. now left.
      * intros a A B. apply in_app_iff in A. destruct A as [A|A]; [exact A|]. exfalso. now apply (N3 a).
Qed.
Lemma level_ok : forall fuel active fa pend fp h, chain h active fa -> chain h pend fp -> NoDup (fa ++ fp) -> length fa <= fuel ->
  exists h' pend' fp', level fuel active pend h = Ok (Some (h', pend')) /\ chain h' pend' fp' /\ NoDup fp' /\ kept h h' (fa ++ fp) fp' /\ (active <> 0 -> length fp' < length fa + length fp).
Proof.
  induction fuel as [|fuel IH]; intros active fa pend fp h Ca Cp N L.
  - inversion Ca; subst; [|cbn in L; lia]. exists h, pend, fp. cbn. split; [reflexivity|]. split; [exact Cp|]. split; [exact N|]. split; [apply kept_refl; apply incl_refl|contradiction].
  - inversion Ca as [|n x next l r fl fr rest G Px Ol Or Cr]; subst.
    + exists h, pend, fp. cbn. split; [reflexivity|]. split; [exact Cp|]. split; [exact N|]. split; [apply kept_refl; apply incl_refl|contradiction].
    + pose proof (get_bound _ _ _ G) as B. destruct active as [|act']; [lia|]. set (active := S act') in *. cbn [level]. fold active.
      cbn [app] in N. rewrite <- !app_assoc in N. inversion_clear N as [|? ? N1 N2]. apply nodup_app_iff in N2. destruct N2 as (Nl & N2 & Dl). apply nodup_app_iff in N2. destruct N2 as (Nr & N2 & Dr). apply nodup_app_iff in N2. destruct N2 as (Nt & Np & Dt).
      rewrite !in_app_iff in N1. setoid_rewrite in_app_iff in Dl. setoid_rewrite in_app_iff in Dl. setoid_rewrite in_app_iff in Dr.
      assert (P2 : pointer 2 x = l) by (unfold pointer; now rewrite Px). assert (P3 : pointer 3 x = r) by (unfold pointer; now rewrite Px). assert (P0 : pointer 0 x = next) by (unfold pointer; now rewrite Px).
      destruct (take_child_ok 2 active x h pend fl fp G ltac:(now rewrite P2) Cp) as (h1 & p1 & f1 & -> & C1 & M1 & K1).
      { apply nodup_app_iff. split; [exact Nl|]. split; [exact Np|]. intros a A I. apply (Dl a A). auto. }
      cbn [bind]. assert (S1 : forall a, ~ In a (fl ++ fp) -> get h1 a = get h a) by apply K1. assert (I1 : incl f1 (fl ++ fp)) by apply K1.
      assert (G1 : get h1 active = Some (Live x)) by (rewrite S1; [exact G|rewrite in_app_iff; tauto]).
      assert (Or1 : own phr h1 NodeC r fr).
      { apply (own_frame h); [exact Or|]. intros a A. apply S1. rewrite in_app_iff. intros [I|I]; [apply (Dl a I)|apply (Dr a A)]; auto. }
      destruct (take_child_ok 3 active x h1 p1 fr f1 G1 ltac:(now rewrite P3) C1) as (h2 & p2 & f2 & -> & C2 & M2 & K2).
      { apply nodup_app_iff. split; [exact Nr|]. split; [exact M1|]. intros a A I. apply I1, in_app_iff in I. destruct I as [I|I]; [apply (Dl a I)|apply (Dr a A)]; auto. }
      cbn [bind]. assert (S2 : forall a, ~ In a (fr ++ f1) -> get h2 a = get h1 a) by apply K2. assert (I2 : incl f2 (fr ++ f1)) by apply K2.
      assert (I12 : forall a, In a f2 -> In a fl \/ In a fr \/ In a fp).
      { intros a A. apply I2, in_app_iff in A. destruct A as [A|A]; [auto|]. apply I1, in_app_iff in A. tauto. }
      assert (G2 : get h2 active = Some (Live x)).
      { rewrite S2; [exact G1|]. rewrite in_app_iff. intros [I|I]; [tauto|]. apply I1, in_app_iff in I. tauto. }
      rewrite (load_ok _ _ _ G2). cbn [bind]. rewrite (relinquish_ok _ _ _ G2). cbn [bind]. rewrite P0.
      set (h3 := set h2 active (Dead x)).
      assert (S3 : forall a, a <> active -> get h3 a = get h2 a) by (intros a A; now apply get_set_other).
      assert (Cr3 : chain h3 next rest).
      { apply (chain_frame h); [exact Cr|]. intros a A. rewrite S3 by (intros ->; tauto). rewrite S2; [apply S1|].
        - rewrite in_app_iff. intros [I|I]; [apply (Dl a I); auto|now apply (Dt a)].
        - rewrite in_app_iff. intros [I|I]; [apply (Dr a I); auto|]. apply I1, in_app_iff in I. destruct I as [I|I]; [apply (Dl a I); auto|now apply (Dt a)]. }
      assert (C3 : chain h3 p2 f2).
      { apply (chain_frame h2); [exact C2|]. intros a A. apply S3. intros ->. apply I12 in A. tauto. }
      assert (N3 : NoDup (rest ++ f2)).
      { apply nodup_app_iff. split; [exact Nt|]. split; [exact M2|]. intros a A I. apply I12 in I. destruct I as [I|[I|I]]; [apply (Dl a I); auto|apply (Dr a I); auto|now apply (Dt a)]. }
      destruct (IH next rest p2 f2 h3 Cr3 C3 N3) as (h4 & p4 & f4 & -> & C4 & M4 & K4 & L4).
      { cbn in L. rewrite !app_length in L. lia. }
      exists h4, p4, f4. split; [reflexivity|]. split; [exact C4|]. split; [exact M4|].
      assert (KF : kept h h3 ((active :: fl ++ fr ++ rest) ++ fp) (rest ++ f2)).
      { assert (Ka : kept h h1 ((active :: fl ++ fr ++ rest) ++ fp) (active :: fr ++ rest ++ f1)).
        { eapply kept_frame; [exact K1| | |].
          - intros a. cbn [In app]. rewrite !in_app_iff. split.
            + intros [A|[A|[A|A]]] || intros [A|A]; [right; split; [now left|intros [I|I]; subst; tauto]|]. destruct A as [[A|[A|A]]|A]; [now left; left| | |now left; right].
              * right. split; [auto|]. intros [I|I]; [apply (Dl a I)|apply (Dr a A)]; auto.
              * right. split; [auto|]. intros [I|I]; [apply (Dl a I); auto|now apply (Dt a)].
            + intros [[A|A]|([A|[A|[A|A]]] & B')]; auto. apply I1, in_app_iff in A. tauto.
          - intros a A. right. rewrite !in_app_iff. auto.
          - intros a [<-|A] I; [exfalso; apply in_app_iff in I; tauto|]. rewrite !in_app_iff in A. apply in_app_iff in I. destruct A as [A|[A|A]]; [exfalso|exfalso|exact A].
            + destruct I as [I|I]; [apply (Dl a I)|apply (Dr a A)]; auto.
            + destruct I as [I|I]; [apply (Dl a I); auto|now apply (Dt a)]. }
        assert (Kb : kept h1 h2 (active :: fr ++ rest ++ f1) (active :: rest ++ f2)).
        { eapply kept_frame; [exact K2| | |].
          - intros a. cbn [In]. rewrite !in_app_iff. split.
            + intros [A|[A|[A|A]]]; [right; split; [auto|]| |right; split; [auto|]|]; auto.
              * subst a. intros [I|I]; [tauto|]. apply I1, in_app_iff in I. tauto.
              * intros [I|I]; [apply (Dr a I); auto|]. apply I1, in_app_iff in I. destruct I as [I|I]; [apply (Dl a I); auto|now apply (Dt a)].
            + intros [[A|A]|([A|[A|A]] & B')]; auto. apply I2, in_app_iff in A. tauto.
          - intros a A. right. rewrite in_app_iff. auto.
          - intros a [<-|A] I.
            + exfalso. apply in_app_iff in I. destruct I as [I|I]; [tauto|]. apply I1, in_app_iff in I. tauto.
            + apply in_app_iff in A. destruct A as [A|A]; [exfalso|exact A]. apply in_app_iff in I. destruct I as [I|I]; [apply (Dr a I); auto|]. apply I1, in_app_iff in I. destruct I as [I|I]; [apply (Dl a I); auto|now apply (Dt a)]. }
        assert (Kc : kept h2 h3 (active :: rest ++ f2) (rest ++ f2)).
        { split; [apply set_length|]. split; [intros a A; now right|]. split; [|split].
          - intros a A y Gy. exists y. rewrite S3; [now repeat split|]. intros ->. apply in_app_iff in A. destruct A as [A|A]; [tauto|]. apply I12 in A. tauto.
          - intros a [<-|A] Na; [|contradiction]. exists x, x. split; [exact G2|]. split; [apply get_set_same; now apply (get_bound _ _ _ G2)|apply left_in_refl].
          - intros a A. apply S3. intros ->. apply A. now left. }
        eapply kept_trans; [eapply kept_trans; [exact Ka|exact Kb|]|exact Kc|].
        - intros a [<-|A]; [eauto|]. rewrite !in_app_iff in A. destruct A as [A|[A|A]]; [now apply (own_live _ _ _ _ _ Or)|now apply (chain_live _ _ _ _ Cr)|].
          apply I1, in_app_iff in A. destruct A as [A|A]; [now apply (own_live _ _ _ _ _ Ol)|now apply (chain_live _ _ _ _ Cp)].
        - intros a [<-|A]; [eauto|]. apply in_app_iff in A. destruct A as [A|A]; [now apply (chain_live _ _ _ _ Cr)|]. apply I12 in A. destruct A as [A|[A|A]]; [now apply (own_live _ _ _ _ _ Ol)|now apply (own_live _ _ _ _ _ Or)|now apply (chain_live _ _ _ _ Cp)]. }
      split.
      * eapply kept_trans; [exact KF|exact K4|]. intros a A. apply in_app_iff in A. destruct A as [A|A]; [now apply (chain_live _ _ _ _ Cr)|]. apply I12 in A. destruct A as [A|[A|A]]; [now apply (own_live _ _ _ _ _ Ol)|now apply (own_live _ _ _ _ _ Or)|now apply (chain_live _ _ _ _ Cp)].
      * intros _. assert (length f1 <= length (fl ++ fp)) by now apply NoDup_incl_length. assert (length f2 <= length (fr ++ f1)) by now apply NoDup_incl_length.
        assert (length f4 <= length (rest ++ f2)) by (apply NoDup_incl_length; [exact M4|apply K4]). cbn [length]. rewrite !app_length in *. lia.
Qed.
Lemma levels_ok : forall turns fuel pend fp h, chain h pend fp -> NoDup fp -> length fp <= turns -> length fp <= fuel ->
  exists h', levels turns fuel pend h = Ok (Some h') /\ kept h h' fp [].
Proof.
  induction turns as [|turns IH]; intros fuel pend fp h C N L1 L2.
  - inversion C; subst; [|cbn in L1; lia]. exists h. split; [reflexivity|]. apply kept_refl; apply incl_refl.
  - destruct pend as [|p'] eqn:Q.
    + assert (fp = []) by (inversion C as [|? ? ? ? ? ? ? ? G]; subst; [reflexivity|discriminate]). subst fp. exists h. split; [reflexivity|]. apply kept_refl; apply incl_refl.
    + cbn [levels]. destruct (level_ok fuel (S p') fp 0 [] h C (chain_nil h)) as (h1 & p1 & f1 & -> & C1 & N1 & K1 & Ls); [now rewrite app_nil_r|exact L2|]. cbn [bind]. rewrite app_nil_r in K1. specialize (Ls ltac:(discriminate)). cbn in Ls.
      destruct (IH fuel p1 f1 h1 C1 N1 ltac:(lia) ltac:(lia)) as (h2 & -> & K2). exists h2. split; [reflexivity|]. eapply kept_trans; [exact K1|exact K2|]. intros a A. apply (chain_live _ _ _ _ C). now apply K1.
Qed.
Lemma splay_frees fuel h p fp : p <> 0 -> own phr h SplayC p fp -> NoDup fp -> length fp <= fuel ->
  exists h', DestroySplayTree fuel p h = Ok (Some h') /\ destroyed h h' (fun a => In a fp).
Proof.
  intros Np O Nd L. inversion O as [|? ? x cs fps G Cx Sx Mx P Os Q1 Q2 Q3]; [congruence|]. subst c p0 fp. cbn [members] in Mx. injection Mx as <-. unfold present in P. rewrite Cx in P. destruct P as (P & _).
  inversion Os as [|? ? root ? fr ? Or Os' A1 A2 A3]; subst. inversion Os' as [|? ? sem ? fs ? Osm Os'' A4 A5 A6]; subst. inversion Os''; subst.
  assert (P0 : pointer 0 x = root) by (unfold pointer; now rewrite <- A2). assert (P1 : pointer 1 x = sem) by (unfold pointer; now rewrite <- A2).
  unfold DestroySplayTree. rewrite (load_ok _ _ _ G). cbn [bind]. rewrite P1 in *. inversion Osm as [|? ? y ? fy Gy Cy Sy My _ Oy Z1 Z2 Z3]; [congruence|]. subst. cbn [members] in My. injection My as <-. inversion Oy; subst. cbn [concat app] in *.
  destruct (pointer 1 x) as [|sem'] eqn:Qs; [contradiction|]. set (sem := S sem') in *. rewrite (load_ok _ _ _ Gy). cbn [bind].
  inversion_clear Nd as [|? ? N1 N2]. apply nodup_app_iff in N2. destruct N2 as (Nr & _ & Dr). rewrite in_app_iff in N1. cbn [In] in N1.
  assert (exists h1, match pointer 0 x with 0 => Ok (Some h) | root => let* h := take_node root 0 h in levels fuel fuel root h end = Ok (Some h1) /\ kept h h1 fr []) as (h1 & E1 & K1).
  { destruct (pointer 0 x) as [|r'] eqn:Qr.
    - exists h. split; [reflexivity|]. assert (fr = []) by (inversion Or as [|? ? ? ? ? Gz]; subst; [reflexivity|discriminate]). subst fr. apply kept_refl; apply incl_refl.
    - cbv zeta. destruct (take_node_ok h (S r') fr 0 Or ltac:(discriminate) Nr) as (h1 & z & l & r & fl & frr & -> & G1 & Pz & Ol & Orr & Nn & K). cbn [bind].
      assert (Ch : chain h1 (S r') (S r' :: fl ++ frr ++ [])) by (econstructor; try eassumption; constructor). rewrite app_nil_r in Ch.
      assert (Ll : length (S r' :: fl ++ frr) <= fuel). { transitivity (length fr); [apply NoDup_incl_length; [exact Nn|apply K]|]. cbn in L. rewrite app_length in L. lia. }
      destruct (levels_ok fuel fuel (S r') _ h1 Ch Nn Ll Ll) as (h2 & E2 & K2). exists h2. split; [exact E2|]. eapply kept_trans; [exact K|exact K2|]. intros a A. apply (own_live _ _ _ _ _ Or). now apply K. }
  cbv zeta in E1 |- *. rewrite E1. cbn [bind]. apply kept_destroyed in K1. destruct K1 as (L1 & D1 & S1).
  assert (G1 : get h1 p = Some (Live x)) by (rewrite S1 by tauto; exact G). unfold store. rewrite (load_ok _ _ _ G1). cbn [bind]. set (x2 := mkBlock _ _ _ _ _). set (h2 := set h1 p (Live x2)).
  pose proof (get_bound _ _ _ G1) as B1. assert (G2 : get h2 p = Some (Live x2)) by now apply get_set_same. unfold relinquish_semaphore. rewrite (load_ok _ _ _ G2). cbn [bind].
  replace (pointer 1 x2) with sem by (rewrite <- Qs; reflexivity). unfold sem at 1. fold sem.
  assert (Ms : sem <> p) by (intros E; apply N1; auto). assert (Gs : get h2 sem = Some (Live y)).
  { unfold h2. rewrite get_set_other by exact Ms. rewrite S1; [exact Gy|]. intros A. apply (Dr sem A). now left. }
  rewrite (relinquish_ok _ _ _ Gs). cbn [bind]. set (h3 := set h2 sem (Dead y)). assert (G3 : get h3 p = Some (Live x2)) by (unfold h3; rewrite get_set_other by congruence; exact G2).
  rewrite (set_pointer_ok _ _ _ _ _ G3). cbn [bind]. set (x4 := with_pointers _ _). set (h4 := set h3 p (Live x4)).
  assert (G4 : get h4 p = Some (Live x4)) by (apply get_set_same; now apply (get_bound _ _ _ G3)). rewrite (relinquish_ok _ _ _ G4). cbn [bind]. eexists. split; [reflexivity|].
  split; [unfold h4, h3, h2; now rewrite !set_length|]. split.
  - intros a [<-|A].
    + exists x, x4. split; [exact G|]. split; [apply get_set_same; now apply (get_bound _ _ _ G4)|]. split; [reflexivity|]. rewrite Cx. reflexivity.
    + apply in_app_iff in A. destruct A as [A|[<-|[]]].
      * destruct (D1 a A) as (u & w & U1 & U2 & U3). exists u, w. split; [exact U1|]. split; [|exact U3]. assert (a <> p) by (intros ->; tauto). unfold h4, h3, h2. rewrite !get_set_other; trivial. intros ->. apply (Dr sem A). now left.
      * exists y, y. split; [exact Gy|]. split; [|apply left_in_refl]. unfold h4. rewrite !get_set_other by exact Ms. apply get_set_same. now apply (get_bound _ _ _ Gs).
  - intros a A. cbn [In] in A. rewrite in_app_iff in A. cbn [In] in A. unfold h4, h3, h2. rewrite !get_set_other by (intros ->; tauto). apply S1. tauto.
Qed.
Lemma key_frees fuel h p fp : p <> 0 -> own phr h KeyC p fp -> NoDup fp -> length fp <= fuel ->
  exists h', DestroyKeyInfo fuel p h = Ok (Some h') /\ destroyed h h' (fun a => In a fp).
Proof.
  intros Np O Nd L. inversion O as [|? ? x cs fps G Cx Sx Mx P Os Q1 Q2 Q3]; [congruence|]. subst c p0 fp. cbn [members] in Mx. injection Mx as <-.
  assert (Op : opened phr h p x [SplayC; StringC; StringC; CipherC; RandomC] fps) by (split; [exact G|split; [exact Os|exact Nd]]).
  unfold DestroyKeyInfo. rewrite (check_ok _ _ _ G Sx). cbn [bind].
  destruct (destroy_members_ok p _ [(3, DestroyCipherInfo); (4, DestroyRandomInfo); (2, DestroyStringInfo); (1, DestroyStringInfo)] h x fps Op) as (h1 & -> & O1 & L1 & D1 & S1); [all_members|]. cbn [bind].
  set (x1 := with_pointers _ _) in O1. set (fps1 := cleared _ _ _) in O1. pose proof O1 as (G1 & Os1 & Nd1). rewrite (load_ok _ _ _ G1). cbn [bind].
  destruct (owns_lengths _ _ _ _ Os) as (_ & Lf). cbn in Lf.
  assert (F0 : nth 0 fps1 [] = nth 0 fps []) by (apply cleared_nth; cbn; lia).
  set (D := fun q h => let* r := DestroySplayTree fuel q h in match r with Some h => Ok h | None => UB end).
  assert (Ft : pointer 0 x1 <> 0 -> exists h', DestroySplayTree fuel (pointer 0 x1) h1 = Ok (Some h') /\ destroyed h1 h' (fun a => In a (nth 0 fps1 []))).
  { intros Q. apply splay_frees; [exact Q|exact (owns_nth _ _ _ _ Os1 0 SplayC eq_refl)|inversion_clear Nd1; now apply nodup_nth|]. rewrite F0. destruct fps as [|f0 fps]; [discriminate|]. cbn in L |- *. rewrite app_length in L. lia. }
  destruct (destroy_member_at h1 p x1 _ fps1 0 D SplayC O1 eq_refl) as (h2 & E2 & (G2 & _) & L2 & D2 & S2).
  { intros Q. destruct (Ft Q) as (h' & E & F). exists h'. split; [|exact F]. unfold D. now rewrite E. }
  assert (E2' : match pointer 0 x1 with 0 => Ok (Some h1) | t => let* r := DestroySplayTree fuel t h1 in match r with None => Ok None | Some h => let* h := set_pointer p 0 0 h in Ok (Some h) end end = Ok (Some h2)).
  { unfold destroy_member in E2. rewrite (load_ok _ _ _ G1) in E2. cbn [bind] in E2. destruct (pointer 0 x1) as [|t] eqn:Q; [now injection E2 as <-|]. destruct Ft as (h' & E & F); [discriminate|]. unfold D in E2. rewrite E in E2 |- *. cbn [bind] in E2 |- *.
    destruct (set_pointer p 0 0 h'); try discriminate. now injection E2 as <-. }
  cbv zeta in E2' |- *. rewrite E2'. cbn [bind]. destruct (finish_ok _ _ _ G2) as (z & -> & Cz & Bz). cbn [bind]. eexists. split; [reflexivity|]. inversion_clear Nd as [|? ? N1 N2].
  assert (Pn : forall j, ~ In p (nth j fps [])) by (intros j A; apply N1, in_concat_nth; now exists j).
  eapply (destroyed_ext _ _ (fun a => a = p \/ exists i, In i [0; 3; 4; 2; 1] /\ In a (nth i fps []))).
  { intros a. cbn [In]. rewrite in_concat_nth. split; [intros [->|(i & _ & A)]; [now left|right; now exists i]|]. intros [->|(i & A)]; [now left|right; exists i; split; [|exact A]].
    destruct (Nat.lt_ge_cases i 5) as [Li|Li]; [lia|]. rewrite nth_overflow in A by lia. contradiction. }
  eapply emptied_finish; [|exact G|exact G2| |].
  - split; [congruence|]. split.
    + intros a (i & I & A). assert (a <> p) by (intros ->; now apply (Pn i)). destruct (Nat.eq_dec i 0) as [->|Ni].
      * destruct (D2 a) as (u & w & U1 & U2 & U3); [now rewrite F0|]. exists u, w. split; [|now split]. rewrite <- S1; [exact U1|assumption|]. intros (k & K1 & K2). apply (nodup_disjoint fps 0 k a N2); trivial. cbn in K1. lia.
      * destruct (D1 a) as (u & w & U1 & U2 & U3); [exists i; split; [cbn in I |- *; lia|exact A]|]. exists u, w. split; [exact U1|]. split; [|exact U3]. rewrite S2; [exact U2|assumption|]. rewrite F0. now apply (nodup_disjoint fps i 0 a N2).
    + intros a A B. rewrite S2; [apply S1|exact A|]; [exact A| |].
      * intros (i & I & J). apply B. exists i. split; [cbn in I |- *; lia|exact J].
      * rewrite F0. intros J. apply B. exists 0. split; [cbn; lia|exact J].
  - split; [now rewrite Cz|]. rewrite Cx. now rewrite Bz.
  - intros (i & _ & A). now apply (Pn i).
Qed.

(** ** Acquiring *)
(** from h to h' no block is changed; of the new ones those of [fp] live *)
Definition extends (h h' : heap) (fp : list nat) : Prop :=
  length h <= length h' /\ (forall a, a <= length h -> get h' a = get h a) /\ (forall a, In a fp -> length h < a) /\
  (forall a, length h < a <= length h' -> ~ In a fp -> exists y, get h' a = Some (Dead y)).
Definition base (h h' : heap) : Prop := length h <= length h' /\ forall a, a <= length h -> get h' a = get h a.
Definition builds_at (h0 : heap) (A : acquire) (c : class) : Prop :=
  forall h, base h0 h -> exists h' q fp, A h = Ok (h', q) /\ q <> 0 /\ own phr h' c q fp /\ NoDup fp /\ extends h h' fp.
Definition builds (A : acquire) (c : class) : Prop := forall h0, builds_at h0 A c.
Lemma base_refl h : base h h. Proof. split; auto. Qed.
Lemma extends_base h h' fp : extends h h' fp -> base h h'. Proof. intros (L & S & _). now split. Qed.
Lemma base_trans h h1 h2 : base h h1 -> base h1 h2 -> base h h2.
Proof. intros (L & S1) (L2 & S2). split; [lia|]. intros a A. rewrite S2 by lia. now apply S1. Qed.
Lemma extends_nil h : extends h h [].
Proof. split; [lia|]. split; [reflexivity|]. split; [contradiction|]. intros a A. lia. Qed.
Lemma extends_trans h0 h1 h2 f1 f2 : extends h0 h1 f1 -> extends h1 h2 f2 -> extends h0 h2 (f1 ++ f2).
Proof.
  intros (L1 & S1 & F1 & D1) (L2 & S2 & F2 & D2). split; [lia|]. split; [intros a A; rewrite S2 by lia; now apply S1|]. split.
  - intros a A. apply in_app_iff in A. destruct A as [A|A]; [now apply F1|]. specialize (F2 a A). lia.
  - intros a A N. rewrite in_app_iff in N. destruct (Nat.le_gt_cases a (length h1)) as [B|B]; [|apply D2; [lia|tauto]]. rewrite S2 by exact B. apply D1; [lia|tauto].
Qed.
Lemma extends_ext h h' f f' : (forall a, In a f <-> In a f') -> extends h h' f -> extends h h' f'.
Proof. intros E (L & S & F & D). split; [exact L|]. split; [exact S|]. split; [intros a A; apply F; now apply E|]. intros a A N. apply D; [exact A|]. intros I. now apply N, E. Qed.
Lemma extends_destroyed h h1 h2 fp gp : extends h h1 fp -> destroyed h1 h2 (fun a => In a gp) -> incl gp fp -> extends h h2 (filter (fun a => negb (existsb (Nat.eqb a) gp)) fp).
Proof.
  intros (L1 & S1 & F1 & D1) (L2 & D2 & S2) I.
  assert (X : forall a, existsb (Nat.eqb a) gp = true <-> In a gp).
  { intros a. rewrite existsb_exists. split; [intros (b & B & E); apply Nat.eqb_eq in E; now subst|]. intros A. exists a. split; [exact A|apply Nat.eqb_refl]. }
  split; [lia|]. split; [|split].
  - intros a A. rewrite S2; [now apply S1|]. intros G. apply I, F1 in G. lia.
  - intros a A. apply filter_In in A. now apply F1.
  - intros a A N. destruct (in_dec Nat.eq_dec a gp) as [G|G]; [destruct (D2 a G) as (x & y & _ & Y & _); eauto|]. rewrite S2 by exact G. apply D1; [lia|]. intros B. apply N. apply filter_In. split; [exact B|].
    destruct (existsb (Nat.eqb a) gp) eqn:Q; [apply X in Q; contradiction|reflexivity].
Qed.
Lemma own_bound h c p fp a : own phr h c p fp -> In a fp -> a <= length h.
Proof. intros O I. destruct (own_live _ _ _ _ _ O I) as (x & G). apply get_bound in G. lia. Qed.
Lemma get_app_old h t a : a <= length h -> get (h ++ t) a = get h a.
Proof. destruct a; [reflexivity|]. cbn. intros L. apply nth_error_app1. lia. Qed.
Lemma get_app_new h c : get (h ++ [c]) (S (length h)) = Some c.
Proof. cbn. rewrite nth_error_app2 by lia. now rewrite Nat.sub_diag. Qed.
Lemma alloc_extends h x : extends h (h ++ [Live x]) [S (length h)].
Proof.
  split; [rewrite app_length; lia|]. split; [intros a; apply get_app_old|]. split; [intros a [<-|[]]; lia|]. intros a A N. rewrite app_length in A. cbn in A, N. lia.
Qed.
Lemma array_builds l : builds (array l) Raw.
Proof.
  intros h0 h _. eexists _, _, [S (length h)]. split; [reflexivity|]. split; [discriminate|]. split; [|split; [repeat constructor; intros []|apply alloc_extends]].
  change [S (length h)] with (S (length h) :: concat []). eapply own_block; [apply get_app_new|reflexivity..|exact I|constructor].
Qed.
Lemma in_concat_update (f : list nat) : forall i fps a, i < length fps -> nth i fps [] = [] -> (In a (concat (update i f fps)) <-> In a f \/ In a (concat fps)).
Proof.
  induction i as [|i IH]; intros [|g fps] a L E; cbn in *; try lia.
  - subst g. now rewrite in_app_iff.
  - rewrite !in_app_iff, IH by (trivial; lia). tauto.
Qed.
(** p->member = Acquire() where the member was NULL *)
Lemma acquire_member_at h p x cs fps i A c : opened phr h p x cs fps -> nth_error cs i = Some c -> nth i fps [] = [] -> builds_at h A c ->
  exists h' q f, acquire_member i A p h = Ok h' /\ q <> 0 /\ opened phr h' p (with_pointers x (update i q (pointers x))) cs (update i f fps) /\
    length h <= length h' /\ (forall a, a <= length h -> a <> p -> get h' a = get h a) /\ (forall a, In a f -> length h < a) /\
    (forall a, length h < a <= length h' -> ~ In a f -> exists y, get h' a = Some (Dead y)) /\
    (exists h1, A h = Ok (h1, q) /\ extends h h1 f /\ forall a, a <> p -> get h' a = get h1 a).
Proof.
  intros (G & Os & Nd) E Z B. destruct (B h (base_refl h)) as (h1 & q & f & EA & Nq & Oq & Nf & X1). pose proof X1 as (L & S1 & F1 & D1). pose proof (get_bound _ _ _ G) as Bp.
  assert (G1 : get h1 p = Some (Live x)) by (rewrite S1 by lia; exact G). unfold acquire_member. rewrite EA. cbn [bind]. rewrite (set_pointer_ok _ _ _ _ _ G1).
  assert (Li : i < length cs) by (apply nth_error_Some; congruence). destruct (owns_lengths _ _ _ _ Os) as (_ & Lf). inversion_clear Nd as [|? ? N1 N2].
  assert (Pf : ~ In p f) by (intros I; apply F1 in I; lia).
  eexists _, q, f. split; [reflexivity|]. split; [exact Nq|]. split; [|split; [now rewrite set_length|split; [|split; [exact F1|split]]]].
  - split; [apply get_set_same; lia|]. split.
    + cbn [pointers with_pointers]. apply (owns_update h) with (c := c); trivial.
      * apply (own_frame h1); [exact Oq|]. intros a Aa. apply get_set_other. intros ->. contradiction.
      * intros j J a Aa. assert (Ic : In a (concat fps)) by (apply in_concat_nth; now exists j). rewrite get_set_other by (intros ->; contradiction). apply S1.
        destruct (owns_live _ _ _ _ _ Os Ic) as (y & Gy). apply get_bound in Gy. lia.
    + constructor.
      * rewrite in_concat_update by (trivial; lia). tauto.
      * apply nodup_update; trivial. intros j J a Aa I. apply F1 in Aa. assert (Ic : In a (concat fps)) by (apply in_concat_nth; now exists j). destruct (owns_live _ _ _ _ _ Os Ic) as (y & Gy). apply get_bound in Gy. lia.
  - intros a Aa Ap. rewrite get_set_other by exact Ap. now apply S1.
  - intros a Aa N. rewrite set_length in Aa. rewrite get_set_other by lia. now apply D1.
  - exists h1. split; [reflexivity|]. split; [exact X1|]. intros a Aa. now apply get_set_other.
Qed.
Lemma acquire_members_ok h0 p cs : forall l h x fps, opened phr h p x cs fps -> length h0 < p -> extends h0 h (p :: concat fps) -> NoDup (map fst l) ->
  Forall (fun iA => (exists c, nth_error cs (fst iA) = Some c /\ builds_at h0 (snd iA) c) /\ nth (fst iA) fps [] = []) l ->
  exists h' x' fps', acquire_members l p h = Ok h' /\ opened phr h' p x' cs fps' /\ extends h0 h' (p :: concat fps') /\
    class_of x' = class_of x /\ signature x' = signature x /\ kind x' = kind x /\ bytes x' = bytes x /\
    (forall i, In i (map fst l) -> pointer i x' <> 0) /\ (forall i, ~ In i (map fst l) -> pointer i x' = pointer i x).
Proof.
  induction l as [|(i, A) l IH]; intros h x fps O Hp X N F.
  - exists h, x, fps. cbn. split; [reflexivity|]. do 2 (split; [assumption|]). do 4 (split; [reflexivity|]). split; [contradiction|reflexivity].
  - inversion_clear F as [|? ? ((c & E & B) & Z) F']. cbn [fst snd map] in *. inversion_clear N as [|? ? Ni N'].
    assert (Li : i < length cs) by (apply nth_error_Some; congruence). pose proof O as (_ & Os & _). destruct (owns_lengths _ _ _ _ Os) as (Lp & Lf).
    destruct (acquire_member_at h p x cs fps i A c O E Z) as (h1 & q & f & EA & Nq & O1 & L1 & S1 & F1 & D1 & _).
    { intros h1 B1. apply B. now apply (base_trans h0 h); [apply extends_base in X|]. }
    destruct X as (L & S0 & F0 & D0).
    assert (X1 : extends h0 h1 (p :: concat (update i f fps))).
    { split; [lia|]. split; [intros a Aa; rewrite S1 by lia; now apply S0|]. split.
      - intros a [<-|Aa]; [exact Hp|]. apply in_concat_update in Aa; [|lia|exact Z]. destruct Aa as [Aa|Aa]; [specialize (F1 a Aa); lia|apply F0; now right].
      - intros a Aa Na. cbn [In] in Na. rewrite in_concat_update in Na by (trivial; lia). destruct (Nat.le_gt_cases a (length h)) as [Al|Al]; [|apply D1; [lia|tauto]]. rewrite S1 by (trivial; intros ->; tauto). apply D0; [lia|]. cbn. tauto. }
    destruct (IH h1 _ _ O1 Hp X1 N') as (h2 & x2 & fps2 & E2 & O2 & X2 & C2 & Sg2 & K2 & B2 & P2 & Q2).
    { apply Forall_forall. intros (j, A') I. rewrite Forall_forall in F'. destruct (F' (j, A') I) as (H1 & H2). split; [exact H1|]. cbn [fst] in *. rewrite nth_update_other; [exact H2|]. intros ->. apply Ni. now apply (in_map fst) in I. }
    exists h2, x2, fps2. cbn [acquire_members]. rewrite EA. cbn [bind]. split; [exact E2|]. split; [exact O2|]. split; [exact X2|]. split; [exact C2|]. split; [exact Sg2|]. split; [exact K2|]. split; [exact B2|]. split.
    + intros j [<-|J]; [|now apply P2]. rewrite Q2 by exact Ni. unfold pointer. cbn [pointers with_pointers]. rewrite nth_update_same by lia. exact Nq.
    + intros j J. cbn [In] in J. rewrite Q2 by tauto. unfold pointer. cbn [pointers with_pointers]. apply nth_update_other. intuition.
Qed.
Lemma owns_null h : forall cs, owns phr h cs (repeat 0 (length cs)) (repeat [] (length cs)).
Proof. induction cs as [|c cs IH]; cbn; constructor; [constructor|exact IH]. Qed.
Lemma nulls (n : nat) : concat (repeat (@nil nat) n) = [].
Proof. induction n; [reflexivity|exact IHn]. Qed.
Lemma nth_nulls i n : nth i (repeat (@nil nat) n) [] = [].
Proof. revert i. induction n; intros [|i]; cbn; auto. Qed.
Lemma nth_zeros i n : nth i (repeat 0 n) 0 = 0.
Proof. revert i. induction n; intros [|i]; cbn; auto. Qed.
Lemma builds_object_ex h0 c k cs l h : base h0 h -> NoDup (map fst l) -> Forall (fun iA => exists d, nth_error cs (fst iA) = Some d /\ builds_at h0 (snd iA) d) l ->
  exists h' p x fps, acquire_object c k (length cs) l h = Ok (h', p) /\ opened phr h' p x cs fps /\ extends h h' (p :: concat fps) /\
    class_of x = c /\ signature x = true /\ kind x = k /\ (forall i, In i (map fst l) -> pointer i x <> 0) /\ (forall i, ~ In i (map fst l) -> pointer i x = 0).
Proof.
  intros B N F. unfold acquire_object, structure, alloc. cbn [bind]. set (x := mkBlock _ _ _ _ _). set (p := S (length h)). set (h1 := h ++ [Live x]).
  assert (G : get h1 p = Some (Live x)) by apply get_app_new.
  assert (O : opened phr h1 p x cs (repeat [] (length cs))).
  { split; [exact G|]. split; [apply owns_null|]. rewrite nulls. repeat constructor; intros []. }
  destruct (acquire_members_ok h p cs l h1 x (repeat [] (length cs)) O) as (h2 & x2 & fps2 & E2 & O2 & X2 & C2 & S2 & K2 & B2 & P2 & Q2); trivial.
  - unfold p. lia.
  - rewrite nulls. apply alloc_extends.
  - apply Forall_forall. intros (j, A) I. rewrite Forall_forall in F. destruct (F (j, A) I) as (d & D1 & D2). split; [|apply nth_nulls]. exists d. split; [exact D1|]. intros h' B'. apply D2. now apply (base_trans h0 h).
  - exists h2, p, x2, fps2. rewrite E2. cbn [bind]. split; [reflexivity|]. split; [exact O2|]. split; [exact X2|]. split; [exact C2|]. split; [exact S2|]. split; [exact K2|]. split; [exact P2|].
    intros i I. rewrite (Q2 i I). apply nth_zeros.
Qed.
Lemma builds_object_at h0 c k n cs l : members c k = Some cs -> n = length cs -> NoDup (map fst l) -> Forall (fun iA => exists d, nth_error cs (fst iA) = Some d /\ builds_at h0 (snd iA) d) l ->
  (forall x, class_of x = c -> (forall i, In i (map fst l) -> pointer i x <> 0) -> (forall i, ~ In i (map fst l) -> pointer i x = 0) -> present phr x) ->
  builds_at h0 (acquire_object c k n l) c.
Proof.
  intros M -> N F P h B. destruct (builds_object_ex h0 c k cs l h B N F) as (h' & p & x & fps & E & O & X & Cx & Sx & Kx & P1 & P2).
  exists h', p, (p :: concat fps). split; [exact E|]. destruct O as (G & Os & Nd). split; [apply get_bound in G; lia|]. split; [|split; [exact Nd|exact X]].
  subst k. eapply own_block; try eassumption. now apply P.
Qed.
Lemma builds_object c k n cs l : members c k = Some cs -> n = length cs -> NoDup (map fst l) -> Forall (fun iA => exists d, nth_error cs (fst iA) = Some d /\ builds (snd iA) d) l ->
  (forall x, class_of x = c -> (forall i, In i (map fst l) -> pointer i x <> 0) -> (forall i, ~ In i (map fst l) -> pointer i x = 0) -> present phr x) ->
  builds (acquire_object c k n l) c.
Proof.
  intros M E N F P h0. apply (builds_object_at h0 c k n cs l); trivial. apply Forall_forall. intros iA I. rewrite Forall_forall in F. destruct (F iA I) as (d & D1 & D2). exists d. split; [exact D1|apply D2].
Qed.
Ltac built := repeat (apply Forall_cons; [eexists; split; [reflexivity|cbn [snd]; assumption || auto with builds]|]); apply Forall_nil.
Ltac distinct := cbn; repeat (constructor; [cbn; intuition discriminate|]); constructor.
Ltac presence := let x := fresh "x" in let C := fresh "C" in let P := fresh "P" in let Q := fresh "Q" in intros x C P Q; unfold present; rewrite C; try exact I; try (apply P; cbn; tauto).
Hint Resolve array_builds : builds.
Lemma string_builds l : builds (AcquireStringInfo l) StringC.
Proof. eapply builds_object; [reflexivity|reflexivity|distinct|built|presence]. Qed.
Hint Resolve string_builds : builds.
Lemma aes_builds : builds AcquireAESInfo AESC.
Proof. eapply builds_object; [reflexivity|reflexivity|distinct|built|presence]. Qed.
Lemma cipher_array_builds : builds AcquireArrayInfo ArrayC.
Proof. eapply builds_object; [reflexivity|reflexivity|distinct|built|presence]. Qed.
Lemma crc_builds : builds AcquireCRC64Info CRC64C.
Proof. eapply builds_object; [reflexivity|reflexivity|distinct|built|presence]. Qed.
Lemma message_builds : builds AcquireMessageInfo MessageC.
Proof. eapply builds_object; [reflexivity|reflexivity|distinct|built|presence]. Qed.
Lemma sha3_builds : builds AcquireSHA3Info SHA3C.
Proof. eapply builds_object; [reflexivity|reflexivity|distinct|built|presence]. Qed.
Hint Resolve aes_builds cipher_array_builds crc_builds message_builds sha3_builds : builds.
Lemma hash_builds k : hash_class k <> None -> builds (AcquireHashInfo k) HashC.
Proof.
  intros K. unfold AcquireHashInfo. destruct (hash_class k) as [c|] eqn:E; [|contradiction]. eapply builds_object; [cbn; rewrite E; reflexivity|reflexivity|distinct| |presence].
  destruct (hash_class_cases _ _ E) as [->|[->| ->]]; built.
Qed.
Lemma hmac_builds k : hash_class k <> None -> builds (AcquireHMACInfo k) HMACC.
Proof. intros K. pose proof (hash_builds k K). eapply builds_object; [reflexivity|reflexivity|distinct|built|presence]. Qed.
(** an object that is acquired and given back *)
Lemma temporary A D c h : builds A c -> frees D c -> exists h1 q h2, A h = Ok (h1, q) /\ D q h1 = Ok h2 /\ extends h h2 [].
Proof.
  intros B F. destruct (B h h (base_refl h)) as (h1 & q & fp & E & Nq & O & N & X). destruct (F h1 q fp Nq O N) as (h2 & E2 & K2). exists h1, q, h2. split; [exact E|]. split; [exact E2|].
  pose proof (extends_destroyed h h1 h2 fp fp X K2 (incl_refl fp)) as Y. revert Y. apply extends_ext. intros a. split; [|contradiction]. intros I. apply filter_In in I. destruct I as (I & J). exfalso.
  assert (existsb (Nat.eqb a) fp = true) by (apply existsb_exists; exists a; split; [exact I|apply Nat.eqb_refl]). rewrite H in J. discriminate.
Qed.
Lemma own_extends h h' c p fp gp : own phr h c p fp -> extends h h' gp -> own phr h' c p fp.
Proof. intros O (L & S & _). apply (own_frame h); [exact O|]. intros a A. apply S. now apply (own_bound h c p fp). Qed.
Lemma random_builds k n e : hash_class k <> None -> builds (AcquireRandomInfo k n e) RandomC.
Proof.
  intros K h0 h B. pose proof (hmac_builds k K). unfold AcquireRandomInfo.
  assert (Bo : builds (acquire_object RandomC 0 4 [(0, AcquireHMACInfo k); (1, AcquireStringInfo []); (2, AcquireStringInfo []); (3, array [])]) RandomC).
  { eapply builds_object; [reflexivity|reflexivity|distinct|built|presence]. }
  destruct (Bo h0 h B) as (h1 & p & fp & -> & Np & O & N & X). cbn [bind].
  destruct (temporary (AcquireStringInfo n) DestroyStringInfo StringC h1 (string_builds n) string_frees) as (h2 & q2 & h3 & -> & E3 & X3). cbn [bind]. rewrite E3. cbn [bind].
  destruct (temporary (AcquireStringInfo e) DestroyStringInfo StringC h3 (string_builds e) string_frees) as (h4 & q4 & h5 & -> & E5 & X5). cbn [bind]. rewrite E5. cbn [bind].
  exists h5, p, fp. split; [reflexivity|]. split; [exact Np|]. split; [apply (own_extends h3 _ _ _ _ []); [apply (own_extends h1 _ _ _ _ []); assumption|assumption]|]. split; [exact N|].
  pose proof (extends_trans _ _ _ _ _ (extends_trans _ _ _ _ _ X X3) X5) as Y. now rewrite !app_nil_r in Y.
Qed.
Lemma sha2256_known : hash_class SHA2256Hash <> None. Proof. discriminate. Qed.
Hint Resolve sha2256_known random_builds hmac_builds hash_builds : builds.
Lemma cipher_builds k n e : cipher_class k <> None -> builds (AcquireCipherInfo k n e) CipherC.
Proof.
  intros K. unfold AcquireCipherInfo. destruct (cipher_class k) as [c|] eqn:E; [|contradiction]. eapply builds_object; [cbn; rewrite E; reflexivity|reflexivity|distinct| |presence].
  destruct (cipher_class_cases _ _ E) as [->| ->]; built.
Qed.
Lemma aes_known : cipher_class AESCipher <> None. Proof. discriminate. Qed.
Hint Resolve aes_known cipher_builds : builds.
Lemma keyring_builds t : builds (AcquireKeyringInfo t) KeyringC.
Proof. unfold AcquireKeyringInfo. destruct t; (eapply builds_object; [reflexivity|reflexivity|distinct|built|presence]). Qed.
Hint Resolve keyring_builds : builds.
Lemma secret_builds t k n e : hash_class k <> None -> builds (AcquireSecretInfo t k n e) SecretC.
Proof. intros K. eapply builds_object; [reflexivity|reflexivity|distinct|built|presence]. intros _. apply Q. cbn. lia. Qed.
Hint Resolve secret_builds : builds.
Lemma authenticate_builds t k n e : hash_class k <> None -> builds (AcquireAuthenticateInfo 1 t k n e) AuthenticateC.
Proof. intros K. unfold AcquireAuthenticateInfo. change (1 =? 1)%N with true. cbv iota. apply (builds_object _ _ _ [SecretC]); [reflexivity|reflexivity|repeat constructor; intros []|built|presence]. Qed.
Lemma splay_builds : builds NewSplayTree SplayC.
Proof. eapply builds_object; [reflexivity|reflexivity|distinct|built|presence]. split; [apply P; cbn; tauto|]. intros _. apply Q. cbn. lia. Qed.
Hint Resolve splay_builds : builds.
End Own.
