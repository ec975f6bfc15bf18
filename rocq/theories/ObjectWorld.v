(** Lemmas on several objects in memory: copies, setters and programs. *)
From Coq Require Import NArith Bool Arith List Lia Permutation.
From Coq Require Import ZifyBool ZifyNat.
From Verif Require Import Base Outcome ObjectModel ObjectProof.
Import ListNotations.

(** the bytes of a string *)
Definition text (h : heap) (p : nat) (l : list N) : Prop :=
  exists x d, get h p = Some (Live x) /\ class_of x = StringC /\ get h (pointer 0 x) = Some (Live d) /\ bytes d = l.
Section World.
Variable phr : flags.
Notation own := (own phr). Notation owns := (owns phr). Notation opened := (opened phr).

Lemma own_string h p fp : p <> 0 -> own h StringC p fp -> exists x d, get h p = Some (Live x) /\ class_of x = StringC /\ signature x = true /\ pointers x = [pointer 0 x] /\ pointer 0 x <> 0 /\
  get h (pointer 0 x) = Some (Live d) /\ class_of d = Raw /\ signature d = true /\ pointers d = [] /\ fp = [p; pointer 0 x] /\ text h p (bytes d).
Proof.
  intros Np O. inversion O as [|? ? x cs fps G Cx Sx Mx P Os Q1 Q2 Q3]; [congruence|]. subst c p0 fp. cbn [members] in Mx. injection Mx as <-. unfold present in P. rewrite Cx in P.
  inversion Os as [|? ? q ? fq ? Oq Os' A1 A2 A3]; subst. inversion Os'; subst. assert (E : pointer 0 x = q) by (unfold pointer; now rewrite <- A2). rewrite E in *.
  inversion Oq as [|? ? d ? fd Gd Cd Sd Md _ Od Z1 Z2 Z3]; [congruence|]. subst. cbn [members] in Md. injection Md as <-. inversion Od; subst. exists x, d. rewrite <- A2.
  repeat (split; [trivial; congruence|]). exists x, d. auto.
Qed.
Lemma own_zero h c fp : own h c 0 fp -> fp = [].
Proof. intros O. inversion O as [|? ? ? ? ? G]; [reflexivity|discriminate]. Qed.
Lemma own_cons_string h p x d : get h p = Some (Live x) -> class_of x = StringC -> signature x = true -> pointers x = [pointer 0 x] -> pointer 0 x <> 0 ->
  get h (pointer 0 x) = Some (Live d) -> class_of d = Raw -> signature d = true -> pointers d = [] -> own h StringC p [p; pointer 0 x].
Proof.
  intros G C S P N Gd Cd Sd Pd. change [p; pointer 0 x] with (p :: concat [pointer 0 x :: concat []]). eapply own_block; [exact G|exact C|exact S|reflexivity|unfold present; now rewrite C|].
  rewrite P. constructor; [|constructor]. eapply own_block; [exact Gd|exact Cd|exact Sd|reflexivity|unfold present; now rewrite Cd|]. rewrite Pd. constructor.
Qed.
Lemma string_alloc l h : AcquireStringInfo l h = Ok ((h ++ [Live (mkBlock StringC true 0 [] [S (S (length h))])]) ++ [Live (mkBlock Raw true 0 l [])], S (length h)).
Proof.
  unfold AcquireStringInfo, acquire_object, structure, alloc. cbn [bind repeat acquire_members]. unfold acquire_member, array, alloc. cbn [bind].
  set (x := mkBlock StringC true 0 [] [0]). set (h1 := h ++ [Live x]). assert (G : get (h1 ++ [Live (mkBlock Raw true 0 l [])]) (S (length h)) = Some (Live x)).
  { rewrite get_app_old by (unfold h1; rewrite app_length; cbn; lia). apply get_app_new. }
  rewrite (set_pointer_ok _ _ _ _ _ G). cbn [bind update pointers x with_pointers class_of signature kind bytes]. do 2 f_equal. unfold h1. rewrite app_length. cbn [length set]. rewrite Nat.add_1_r.
  rewrite <- !app_assoc. generalize (S (S (length h))). intros n. clear. induction h as [|c h IH]; cbn; [reflexivity|]. now f_equal.
Qed.
Lemma string_text l h h' q : AcquireStringInfo l h = Ok (h', q) -> forall h2, (forall a, length h < a -> get h2 a = get h' a) -> text h2 q l.
Proof.
  rewrite string_alloc. intros [= <- <-] h2 F. set (x := mkBlock StringC true 0 [] [S (S (length h))]) in *. exists x, (mkBlock Raw true 0 l []). split; [|split; [reflexivity|split; [|reflexivity]]].
  - rewrite F by lia. rewrite get_app_old by (rewrite app_length; cbn; lia). apply get_app_new.
  - unfold pointer. cbn [x pointers nth]. rewrite F by lia. replace (S (S (length h))) with (S (length (h ++ [Live x]))) by (rewrite app_length; cbn; lia). apply get_app_new.
Qed.
Lemma text_frame h h' p l : text h p l -> (forall a x, get h a = Some (Live x) -> get h' a = Some (Live x)) -> text h' p l.
Proof. intros (x & d & G & C & D & B) F. exists x, d. auto. Qed.
Lemma clone_at h0 q fq l : q <> 0 -> own h0 StringC q fq -> text h0 q l -> forall h, base h0 h -> CloneStringInfo q h = AcquireStringInfo l h.
Proof.
  intros Nq O (x' & d' & Gx' & _ & Gd' & Bl) h (L & Bs). destruct (own_string _ _ _ Nq O) as (x & d & G & Cx & Sx & Px & P0 & Gd & Cd & _ & _ & _ & _). rewrite G in Gx'. injection Gx' as <-. rewrite Gd in Gd'. injection Gd' as <-.
  pose proof (get_bound _ _ _ G). pose proof (get_bound _ _ _ Gd). unfold CloneStringInfo. rewrite (check_ok h q x); [|rewrite Bs by lia; exact G|exact Sx]. cbn [bind]. rewrite (load_ok h _ d) by (rewrite Bs by lia; exact Gd). cbn [bind]. now rewrite Bl.
Qed.
Lemma own_text h q fq : q <> 0 -> own h StringC q fq -> exists l, text h q l.
Proof. intros Nq O. destruct (own_string _ _ _ Nq O) as (x & d & H). exists (bytes d). apply H. Qed.
Lemma clone_builds h0 q fq : q <> 0 -> own h0 StringC q fq -> builds_at phr h0 (CloneStringInfo q) StringC.
Proof. intros Nq O h B. destruct (own_text _ _ _ Nq O) as (l & T). rewrite (clone_at h0 q fq l Nq O T h B). apply (string_builds phr l h0 h B). Qed.

(** ** One object is changed *)
(** from h to h' the object with the blocks f is changed to one with f' *)
Definition changed (h h' : heap) (f f' : list nat) : Prop :=
  length h <= length h' /\ (forall a, a <= length h -> ~ In a f -> get h' a = get h a) /\ (forall a, In a f' -> In a f \/ length h < a) /\
  (forall a, a <= length h' -> In a f \/ length h < a -> ~ In a f' -> exists y, get h' a = Some (Dead y)).
(** a member is changed *)
Lemma nest h p x cs fps i c h' f' : opened h p x cs fps -> nth_error cs i = Some c -> changed h h' (nth i fps []) f' -> own h' c (pointer i x) f' -> NoDup f' ->
  opened h' p x cs (update i f' fps) /\ changed h h' (p :: concat fps) (p :: concat (update i f' fps)).
Proof.
  intros (G & Os & Nd) E (L & Sm & In' & De) O N. pose proof (owns_lengths _ _ _ _ _ Os) as (Lp & Lf). assert (Li : i < length cs) by (apply nth_error_Some; congruence). inversion_clear Nd as [|? ? N1 N2].
  assert (Bd : forall a, In a (concat fps) -> a <= length h) by (intros a A; destruct (owns_live _ _ _ _ _ _ Os A) as (y & Y); apply get_bound in Y; lia).
  pose proof (get_bound _ _ _ G) as Bp. assert (Pn : forall j, ~ In p (nth j fps [])) by (intros j A; apply N1, in_concat_nth; now exists j).
  assert (Pf : ~ In p f') by (intros A; apply In' in A; destruct A as [A|A]; [now apply (Pn i)|lia]).
  assert (Iu : forall a, In a (concat (update i f' fps)) <-> In a f' \/ exists j, j <> i /\ In a (nth j fps [])).
  { intros a. rewrite in_concat_nth. split.
    - intros (j & A). destruct (Nat.eq_dec j i) as [->|J]; [rewrite nth_update_same in A by lia; now left|]. right. exists j. now rewrite nth_update_other in A.
    - intros [A|(j & J & A)]; [exists i; now rewrite nth_update_same by lia|]. exists j. now rewrite nth_update_other. }
  split.
  - split; [rewrite Sm by (trivial; lia); exact G|]. split.
    + replace (pointers x) with (update i (pointer i x) (pointers x)) by (apply (update_noop i _ 0); [reflexivity|lia]). apply (owns_update phr h) with (c := c); trivial.
      intros j J a A. assert (Ic : In a (concat fps)) by (apply in_concat_nth; now exists j). apply Sm; [now apply Bd|]. intros B. now apply (nodup_disjoint fps i j a N2) in B; [|congruence].
    + constructor; [rewrite Iu; intros [A|(j & _ & A)]; [contradiction|now apply (Pn j)]|]. apply nodup_update; trivial. intros j J a A B. apply In' in A. destruct A as [A|A]; [now apply (nodup_disjoint fps i j a N2) in A; [|congruence]|].
      assert (Ic : In a (concat fps)) by (apply in_concat_nth; now exists j). apply Bd in Ic. lia.
  - split; [exact L|]. split; [|split].
    + intros a A B. apply Sm; [exact A|]. intros I. apply B. right. apply in_concat_nth. now exists i.
    + intros a [<-|A]; [left; now left|]. apply Iu in A. destruct A as [A|(j & _ & A)]; [|left; right; apply in_concat_nth; now exists j]. apply In' in A. destruct A as [A|A]; [left; right; apply in_concat_nth; now exists i|now right].
    + intros a A [[<-|B]|B] C.
      * exfalso. apply C. now left.
      * apply De; [exact A| |intros I; apply C; right; apply Iu; now left]. apply in_concat_nth in B. destruct B as (j & B). destruct (Nat.eq_dec j i) as [->|J]; [now left|]. exfalso. apply C. right. apply Iu. right. now exists j.
      * apply De; [exact A|now right|]. intros I. apply C. right. apply Iu. now left.
Qed.
(** the member is given back and becomes a copy of q *)
Lemma set_copy_ok h p x cs fps i q fq l : opened h p x cs fps -> nth_error cs i = Some StringC -> q <> 0 -> own h StringC q fq -> text h q l -> (forall a, In a fq -> ~ In a (p :: concat fps)) ->
  exists h' f r, set_copy i p q h = Ok h' /\ r <> 0 /\ length h < r /\ opened h' p (with_pointers x (update i r (pointers x))) cs (update i f fps) /\ changed h h' (p :: concat fps) (p :: concat (update i f fps)) /\
    text h' r l /\ text h' q l.
Proof.
  intros O E Nq Oq T Dj. pose proof O as (G & Os & Nd). pose proof (owns_lengths _ _ _ _ _ Os) as (Lp & Lf). assert (Li : i < length cs) by (apply nth_error_Some; congruence). inversion_clear Nd as [|? ? N1 N2].
  destruct (destroy_member_ok phr h p x cs fps i DestroyStringInfo StringC O E (string_frees phr)) as (h1 & E1 & O1 & L1 & D1 & S1). unfold set_copy. rewrite E1. cbn [bind].
  assert (Fq : forall a, In a fq -> get h1 a = get h a).
  { intros a A. apply S1; [intros ->; apply (Dj p A); now left|]. intros I. apply (Dj a A). right. apply in_concat_nth. now exists i. }
  assert (Oq1 : own h1 StringC q fq) by (apply (own_frame phr h); assumption).
  assert (T1 : text h1 q l).
  { destruct T as (y & d & Y1 & Y2 & Y3 & Y4). destruct (own_string _ _ _ Nq Oq) as (y' & d' & Z1 & _ & _ & _ & _ & Z2 & _ & _ & _ & Z3 & _). rewrite Y1 in Z1. injection Z1 as <-. exists y, d. rewrite !Fq by (subst fq; cbn; tauto). auto. }
  set (x1 := with_pointers x (update i 0 (pointers x))) in *. set (fps1 := update i [] fps) in *.
  destruct (acquire_member_at phr h1 p x1 cs fps1 i (CloneStringInfo q) StringC O1 E) as (h2 & r & f & E2 & Nr & O2 & L2 & S2 & F2 & D2 & (h' & C1 & X1 & C2)); [unfold fps1; now rewrite nth_update_same by lia|now apply (clone_builds h1 q fq)|].
  exists h2, f, r. split; [exact E2|]. split; [exact Nr|]. rewrite (clone_at h1 q fq l Nq Oq1 T1 h1 (base_refl h1)) in C1.
  assert (Lr : length h < r). { rewrite string_alloc in C1. injection C1 as _ <-. lia. }
  split; [exact Lr|]. unfold x1, fps1 in O2. cbn [with_pointers pointers class_of signature kind bytes] in O2. rewrite !update_twice in O2. split; [exact O2|].
  assert (Pn : forall j, ~ In p (nth j fps [])) by (intros j A; apply N1, in_concat_nth; now exists j).
  assert (Iu : forall a, In a (concat (update i f fps)) <-> In a f \/ exists j, j <> i /\ In a (nth j fps [])).
  { intros a. rewrite in_concat_nth. split.
    - intros (j & A). destruct (Nat.eq_dec j i) as [->|J]; [rewrite nth_update_same in A by lia; now left|]. right. exists j. now rewrite nth_update_other in A.
    - intros [A|(j & J & A)]; [exists i; now rewrite nth_update_same by lia|]. exists j. now rewrite nth_update_other. }
  pose proof (get_bound _ _ _ G) as Bp. split; [|split].
  - split; [lia|]. split; [|split].
    + intros a A B. rewrite S2; [apply S1|lia|]; [intros ->; apply B; now left| |intros ->; apply B; now left]. intros I. apply B. right. apply in_concat_nth. now exists i.
    + intros a [<-|A]; [left; now left|]. apply Iu in A. destruct A as [A|(j & _ & A)]; [right; apply F2 in A; lia|]. left. right. apply in_concat_nth. now exists j.
    + intros a A B C. cbn [In] in C. rewrite Iu in C. destruct B as [[<-|B]|B].
      * tauto.
      * apply in_concat_nth in B. destruct B as (j & B). destruct (Nat.eq_dec j i) as [->|J]; [|exfalso; apply C; right; right; now exists j].
        destruct (D1 a B) as (u & w & U1 & U2 & _). exists w. rewrite S2; [exact U2| |intros ->; now apply (Pn i)]. apply get_bound in U1. lia.
      * apply D2; [lia|tauto].
  - apply (string_text l h1 h' r C1). intros a A. apply C2. lia.
  - destruct T1 as (y & d & Y1 & Y2 & Y3 & Y4). destruct (own_string _ _ _ Nq Oq1) as (y' & d' & Z1 & _ & _ & _ & _ & Z2 & _ & _ & _ & Z3 & _). rewrite Y1 in Z1. injection Z1 as <-. pose proof (get_bound _ _ _ Y1). pose proof (get_bound _ _ _ Y3).
    exists y, d. rewrite !S2; auto; try lia; intros Ep; (apply (Dj p); [subst fq; rewrite <- Ep; cbn; tauto|now left]).
Qed.

(** ** Setters *)
Lemma own_open h c p fp : p <> 0 -> own h c p fp -> NoDup fp -> exists x cs fps, opened h p x cs fps /\ class_of x = c /\ signature x = true /\ members c (kind x) = Some cs /\ present phr x /\ fp = p :: concat fps.
Proof.
  intros Np O N. inversion O as [|? ? x cs fps G Cx Sx Mx P Os Q1 Q2 Q3]; [congruence|]. subst fp. exists x, cs, fps. split; [split; [exact G|split; [exact Os|exact N]]|]. auto.
Qed.
Lemma own_close h c p x cs fps : opened h p x cs fps -> class_of x = c -> signature x = true -> members c (kind x) = Some cs -> present phr x -> own h c p (p :: concat fps).
Proof. intros (G & Os & _) C S M P. eapply own_block; eassumption. Qed.
(** [modifies f c]: f(p,q) changes an object p of class c and nothing else, for every string q apart from it *)
Definition modifies (f : nat -> nat -> heap -> outcome heap) (c : class) : Prop :=
  forall h p fp q fq, p <> 0 -> q <> 0 -> own h c p fp -> NoDup fp -> own h StringC q fq -> (forall a, In a fq -> ~ In a fp) ->
  exists h' fp', f p q h = Ok h' /\ own h' c p fp' /\ NoDup fp' /\ changed h h' fp fp'.
Lemma set_copy_modifies i c cs0 : (forall k cs, members c k = Some cs -> cs = cs0) -> nth_error cs0 i = Some StringC ->
  (forall x r, class_of x = c -> r <> 0 -> present phr x -> present phr (with_pointers x (update i r (pointers x)))) -> modifies (set_copy i) c.
Proof.
  intros M E P h p fp q fq Np Nq O N Oq D. destruct (own_open _ _ _ _ Np O N) as (x & cs & fps & Op & Cx & Sx & Mx & Px & ->). pose proof (M _ _ Mx). subst cs.
  destruct (own_text _ _ _ Nq Oq) as (l & T). destruct (set_copy_ok h p x cs0 fps i q fq l Op E Nq Oq T D) as (h' & f & r & Es & Nr & _ & O' & Ch & _ & _).
  exists h', (p :: concat (update i f fps)). split; [exact Es|]. split; [|split; [apply O'|exact Ch]]. eapply own_close; [exact O'|exact Cx|exact Sx|exact Mx|]. now apply P.
Qed.
Lemma checked f c : modifies f c -> modifies (fun p q h => let* _ := check p h in f p q h) c.
Proof.
  intros M h p fp q fq Np Nq O N Oq D. destruct (M h p fp q fq Np Nq O N Oq D) as (h' & fp' & E & R). exists h', fp'. split; [|exact R].
  destruct (own_open _ _ _ _ Np O N) as (x & cs & fps & (G & _) & _ & Sx & _). now rewrite (check_ok _ _ _ G Sx).
Qed.
Lemma keyring_id_modifies : modifies SetKeyringId KeyringC.
Proof. apply checked, (set_copy_modifies 1 KeyringC [Raw; StringC; StringC; StringC]); [now intros k cs [= <-]|reflexivity|]. intros x r C _ _. unfold present. cbn. now rewrite C. Qed.
Lemma keyring_key_modifies : modifies SetKeyringKey KeyringC.
Proof. apply checked, (set_copy_modifies 2 KeyringC [Raw; StringC; StringC; StringC]); [now intros k cs [= <-]|reflexivity|]. intros x r C _ _. unfold present. cbn. now rewrite C. Qed.
Lemma keyring_nonce_modifies : modifies SetKeyringNonce KeyringC.
Proof. apply checked, (set_copy_modifies 3 KeyringC [Raw; StringC; StringC; StringC]); [now intros k cs [= <-]|reflexivity|]. intros x r C _ _. unfold present. cbn. now rewrite C. Qed.
Lemma secret_id_modifies : modifies SetSecretId SecretC.
Proof.
  apply (set_copy_modifies 1 SecretC secret_members); [now intros k cs [= <-]|reflexivity|]. intros x r C _. unfold present. cbn [class_of with_pointers]. rewrite C. intros P Q. specialize (P Q). unfold pointer in *. cbn [pointers with_pointers]. rewrite nth_update_other by discriminate. exact P.
Qed.
Lemma authenticate_id_modifies : modifies SetAuthenticateId AuthenticateC.
Proof.
  intros h p fp q fq Np Nq O N Oq D. destruct (own_open _ _ _ _ Np O N) as (x & cs & fps & Op & Cx & Sx & Mx & Px & ->). pose proof Op as (G & Os & _). unfold SetAuthenticateId. rewrite (check_ok _ _ _ G Sx). cbn [bind].
  cbn [members] in Mx. destruct (kind x =? 1)%N eqn:K; [|discriminate]. injection Mx as <-. unfold present in Px. rewrite Cx in Px. pose proof (owns_nth _ _ _ _ _ Os 0 SecretC eq_refl) as O0. fold (pointer 0 x) in O0.
  inversion_clear N as [|? ? N1 N2]. destruct (secret_id_modifies h (pointer 0 x) (nth 0 fps []) q fq Px Nq O0 (nodup_nth fps 0 N2) Oq) as (h' & f' & E & O' & N' & Ch).
  { intros a A I. apply (D a A). right. apply in_concat_nth. now exists 0. }
  destruct (nest h p x [SecretC] fps 0 SecretC h' f' Op eq_refl Ch O' N') as (Op' & Ch'). exists h', (p :: concat (update 0 f' fps)). split; [destruct (pointer 0 x); [contradiction|exact E]|]. split; [|split; [apply Op'|exact Ch']].
  eapply own_close; [exact Op'|exact Cx|exact Sx|cbn; rewrite K; reflexivity|]. unfold present. now rewrite Cx.
Qed.
(** the bytes that SetStringInfo leaves *)
Definition copied (l m : list N) : list N := firstn (length l) m ++ repeat 0%N (length l - length m).
Lemma skipn_zeros (n m : nat) : skipn n (repeat 0%N m) = repeat 0%N (m - n).
Proof. revert m. induction n as [|n IH]; intros [|m]; cbn; trivial. Qed.
Lemma set_string_ok h p fp q fq l m : p <> 0 -> q <> 0 -> own h StringC p fp -> NoDup fp -> own h StringC q fq -> (forall a, In a fq -> ~ In a fp) -> text h p l -> text h q m ->
  exists h', SetStringInfo p q h = Ok h' /\ own h' StringC p fp /\ changed h h' fp fp /\ text h' p (copied l m) /\ text h' q m.
Proof.
  intros Np Nq O N Oq D T1 T2. destruct (own_string _ _ _ Np O) as (x & d & Gx & Cx & Sx & Px & P0 & Gd & Cd & Sd & Pd & Ef & Tx). destruct (own_string _ _ _ Nq Oq) as (y & e & Gy & Cy & Sy & Py & Q0 & Ge & Ce & Se & Pe & Eg & Ty).
  assert (El : bytes d = l). { destruct T1 as (x' & d' & A1 & _ & A2 & A3). rewrite Gx in A1. injection A1 as <-. rewrite Gd in A2. now injection A2 as <-. }
  assert (Em : bytes e = m). { destruct T2 as (x' & d' & A1 & _ & A2 & A3). rewrite Gy in A1. injection A1 as <-. rewrite Ge in A2. now injection A2 as <-. }
  unfold SetStringInfo. rewrite (check_ok _ _ _ Gx Sx). cbn [bind]. rewrite (check_ok _ _ _ Gy Sy). cbn [bind]. rewrite (load_ok _ _ _ Gd). cbn [bind]. rewrite El.
  destruct l as [|l0 l'] eqn:El'.
  - exists h. split; [reflexivity|]. split; [exact O|]. split; [|split; [|exact T2]].
    + split; [lia|]. split; [reflexivity|]. split; [tauto|]. intros a A [B|B] C; [contradiction|lia].
    + unfold copied. cbn. exact T1.
  - rewrite <- El' in *. clear El' l0 l'. set (dp := pointer 0 x) in *. set (ep := pointer 0 y) in *. assert (Dpe : ep <> dp) by (intros Z; apply (D ep); [subst fq; cbn; tauto|]; rewrite Z; subst fp; cbn; tauto).
    assert (Dpx : p <> dp) by (intros Z; subst fp; rewrite <- Z in N; inversion_clear N as [|? ? N1 _]; apply N1; now left).
    assert (Dqd : q <> dp) by (intros Z; apply (D q); [subst fq; cbn; tauto|]; rewrite Z; subst fp; cbn; tauto).
    unfold store. rewrite (load_ok _ _ _ Gd). cbn [bind]. pose proof (get_bound _ _ _ Gd) as Bd.
    set (h1 := set h dp _). assert (Ge1 : get h1 ep = Some (Live e)) by (unfold h1; rewrite get_set_other by exact Dpe; exact Ge). rewrite (load_ok _ _ _ Ge1). cbn [bind].
    assert (Gd1 : get h1 dp = Some (Live (with_bytes d (repeat 0%N (length l))))) by (now apply get_set_same). rewrite (load_ok _ _ _ Gd1). cbn [bind]. rewrite Em.
    set (z := with_bytes _ (_ ++ _)). assert (Bz : bytes z = copied l m).
    { unfold z, copied. cbn [bytes with_bytes]. now rewrite skipn_zeros. }
    eexists. split; [reflexivity|]. assert (F : forall a, a <> dp -> get (set h1 dp (Live z)) a = get h a) by (intros a A; unfold h1; now rewrite !get_set_other).
    assert (Gz : get (set h1 dp (Live z)) dp = Some (Live z)) by (apply get_set_same; unfold h1; rewrite set_length; lia).
    split; [|split; [|split]].
    + subst fp. apply (own_cons_string _ p x z); trivial. rewrite F by exact Dpx. exact Gx.
    + split; [unfold h1; rewrite !set_length; lia|]. split; [intros a A B; apply F; intros ->; apply B; subst fp; cbn; tauto|]. split; [tauto|]. unfold h1. rewrite !set_length. intros a A [B|B] C; [contradiction|lia].
    + exists x, z. rewrite F by exact Dpx. auto.
    + exists y, e. rewrite F by exact Dqd. fold ep. rewrite F by exact Dpe. auto.
Qed.
Lemma string_modifies : modifies SetStringInfo StringC.
Proof.
  intros h p fp q fq Np Nq O N Oq D. destruct (own_text _ _ _ Np O) as (l & T1). destruct (own_text _ _ _ Nq Oq) as (m & T2). destruct (set_string_ok h p fp q fq l m Np Nq O N Oq D T1 T2) as (h' & E & O' & Ch & _).
  exists h', fp. auto.
Qed.
Lemma cipher_nonce_modifies : modifies SetCipherNonce CipherC.
Proof.
  intros h p fp q fq Np Nq O N Oq D. destruct (own_open _ _ _ _ Np O N) as (x & cs & fps & Op & Cx & Sx & Mx & Px & ->). pose proof Op as (G & Os & _). unfold SetCipherNonce. rewrite (check_ok _ _ _ G Sx). cbn [bind].
  pose proof Mx as Mx'. cbn [members] in Mx. destruct (cipher_class (kind x)) as [c|] eqn:K; [|discriminate]. injection Mx as <-. pose proof Px as Px'. unfold present in Px. rewrite Cx in Px. pose proof (owns_nth _ _ _ _ _ Os 1 StringC eq_refl) as O1. fold (pointer 1 x) in O1.
  inversion_clear N as [|? ? N1 N2]. destruct (string_modifies h (pointer 1 x) (nth 1 fps []) q fq Px Nq O1 (nodup_nth fps 1 N2) Oq) as (h' & f' & E & O' & N' & Ch).
  { intros a A I. apply (D a A). right. apply in_concat_nth. now exists 1. }
  destruct (nest h p x _ fps 1 StringC h' f' Op eq_refl Ch O' N') as (Op' & Ch'). exists h', (p :: concat (update 1 f' fps)). split; [exact E|]. split; [|split; [apply Op'|exact Ch']].
  eapply own_close; eassumption.
Qed.

(** ** Several objects *)
Notation root := (class * nat * list nat)%type.
Definition good (h : heap) (r : root) : Prop := snd (fst r) <> 0 /\ own h (fst (fst r)) (snd (fst r)) (snd r).
Definition blocks (rs : list root) : list nat := concat (map snd rs).
(** in h, which came out of h0, the objects rs live and no other new block does *)
Definition world (h0 h : heap) (rs : list root) : Prop := Forall (good h) rs /\ NoDup (blocks rs) /\ extends h0 h (blocks rs).
Lemma blocks_perm rs rs' : Permutation rs rs' -> Permutation (blocks rs) (blocks rs').
Proof.
  unfold blocks. induction 1; cbn; trivial; [now apply Permutation_app_head| |now apply (Permutation_trans IHPermutation1)]. rewrite !app_assoc. apply Permutation_app_tail, Permutation_app_comm.
Qed.
Lemma world_perm h0 h rs rs' : Permutation rs rs' -> world h0 h rs -> world h0 h rs'.
Proof.
  intros P (F & N & X). split; [now apply (Permutation_Forall P)|]. pose proof (blocks_perm _ _ P) as Pb. split; [now apply (Permutation_NoDup Pb)|]. revert X. apply extends_ext. intros a. split; apply Permutation_in; [exact Pb|now apply Permutation_sym].
Qed.
Lemma good_bound h rs a : Forall (good h) rs -> In a (blocks rs) -> exists x, get h a = Some (Live x).
Proof.
  unfold blocks. induction 1 as [|r rs (Nr & O) F IH]; [contradiction|]. cbn. intros I. apply in_app_iff in I. destruct I as [I|I]; [now apply (own_live _ _ _ _ _ _ O)|auto].
Qed.
Lemma good_frame h h' rs : Forall (good h) rs -> (forall a, In a (blocks rs) -> get h' a = get h a) -> Forall (good h') rs.
Proof.
  unfold blocks. induction 1 as [|r rs (Nr & O) F IH]; intros E; constructor.
  - split; [exact Nr|]. apply (own_frame phr h); [exact O|]. intros a A. apply E. cbn. apply in_app_iff. now left.
  - apply IH. intros a A. apply E. cbn. apply in_app_iff. now right.
Qed.
Lemma world_new h0 h rs A c : world h0 h rs -> builds_at phr h A c -> exists h' p fp, A h = Ok (h', p) /\ world h0 h' ((c, p, fp) :: rs) /\ extends h h' fp.
Proof.
  intros (F & N & X) B. destruct (B h (base_refl h)) as (h' & p & fp & E & Np & O & Nf & Y). exists h', p, fp. split; [exact E|]. split; [|exact Y]. pose proof Y as (L & Sm & Fr & _). assert (Bd : forall a, In a (blocks rs) -> a <= length h) by (intros a A'; destruct (good_bound _ _ _ F A') as (y & G); apply get_bound in G; lia).
  split; [constructor; [now split|]; apply (good_frame h); [exact F|]; intros a A'; apply Sm; now apply Bd|]. split.
  - cbn. apply nodup_app_iff. split; [exact Nf|]. split; [exact N|]. intros a A' I. apply Fr in A'. apply Bd in I. lia.
  - eapply extends_ext; [|apply (extends_trans _ _ _ _ _ X Y)]. intros a. unfold blocks. cbn. rewrite !in_app_iff. tauto.
Qed.
Lemma world_delete h0 h rs D c p fp : world h0 h ((c, p, fp) :: rs) -> frees phr D c -> exists h', D p h = Ok h' /\ world h0 h' rs /\ destroyed h h' (fun a => In a fp).
Proof.
  intros (F & N & X) Fr. inversion_clear F as [|? ? (Np & O) F']. cbn [fst snd] in *. unfold blocks in N. cbn in N. apply nodup_app_iff in N. destruct N as (Nf & N & Dj). destruct (Fr h p fp Np O Nf) as (h' & E & K). exists h'. split; [exact E|]. split; [|exact K].
  pose proof K as (L & D1 & S1). split; [apply (good_frame h); [exact F'|]; intros a A; apply S1; intros I; now apply (Dj a)|]. split; [exact N|].
  eapply extends_ext; [|apply (extends_destroyed _ _ _ _ _ X K)]; [|unfold blocks; cbn; intros a A; apply in_app_iff; now left].
  intros a. rewrite filter_In. unfold blocks. cbn [map concat snd]. rewrite in_app_iff.
  assert (Y : existsb (Nat.eqb a) fp = true <-> In a fp).
  { rewrite existsb_exists. split; [intros (b & B & Q); apply Nat.eqb_eq in Q; now subst|]. intros A. exists a. split; [exact A|apply Nat.eqb_refl]. }
  destruct (existsb (Nat.eqb a) fp) eqn:Q.
  - split; [intros (_ & Z); discriminate|]. intros I. exfalso. apply (Dj a); [now apply Y|exact I].
  - split; [intros ([A|A] & _); [apply Y in A; discriminate|exact A]|]. intros I. split; [now right|reflexivity].
Qed.
Lemma world_change h0 h h' rs c p fp fp' : world h0 h ((c, p, fp) :: rs) -> changed h h' fp fp' -> own h' c p fp' -> NoDup fp' -> world h0 h' ((c, p, fp') :: rs).
Proof.
  intros (F & N & X) (L & S1 & In' & De) O N'. inversion_clear F as [|? ? (Np & Oold) F']. cbn [fst snd] in *. unfold blocks in N. cbn in N. apply nodup_app_iff in N. destruct N as (Nf & N & Dj).
  assert (Bd : forall a, In a (blocks rs) -> a <= length h) by (intros a A'; destruct (good_bound _ _ _ F' A') as (y & G); apply get_bound in G; lia).
  split; [constructor; [now split|]; apply (good_frame h); [exact F'|]; intros a A; apply S1; [now apply Bd|]; intros I; now apply (Dj a)|]. destruct X as (L0 & S0 & F0 & D0). unfold blocks in *. cbn in F0, D0 |- *. split.
  - apply nodup_app_iff. split; [exact N'|]. split; [exact N|]. intros a A I. apply In' in A. destruct A as [A|A]; [now apply (Dj a)|]. apply Bd in I. lia.
  - split; [lia|]. split; [|split].
    + intros a A. rewrite S1; [now apply S0|lia|]. intros I. specialize (F0 a). rewrite in_app_iff in F0. specialize (F0 (or_introl I)). lia.
    + intros a A. apply in_app_iff in A. destruct A as [A|A]; [apply In' in A; destruct A as [A|A]; [|lia]|]; apply F0, in_app_iff; auto.
    + intros a A I. rewrite in_app_iff in I. destruct (in_dec Nat.eq_dec a fp) as [J|J]; [apply De; [lia|now left|tauto]|]. destruct (Nat.le_gt_cases a (length h)) as [K|K]; [|apply De; [lia|now right|tauto]].
      rewrite S1 by assumption. apply D0; [lia|]. rewrite in_app_iff. tauto.
Qed.
Lemma world_set h0 h rs f c p fp q fq : world h0 h ((c, p, fp) :: (StringC, q, fq) :: rs) -> modifies f c -> exists h' fp', f p q h = Ok h' /\ world h0 h' ((c, p, fp') :: (StringC, q, fq) :: rs).
Proof.
  intros W M. pose proof W as (F & N & X). inversion_clear F as [|? ? (Np & O) F']. inversion_clear F' as [|? ? (Nq & Oq) _]. cbn [fst snd] in *. unfold blocks in N. cbn in N. apply nodup_app_iff in N. destruct N as (Nf & N & Dj).
  destruct (M h p fp q fq Np Nq O Nf Oq) as (h' & fp' & E & O' & N' & Ch); [intros a A I; apply (Dj a I), in_app_iff; now left|]. exists h', fp'. split; [exact E|]. now apply (world_change h0 h h' _ c p fp fp').
Qed.
Lemma world_nil h : world h h [].
Proof. split; [constructor|]. split; [constructor|]. apply extends_nil. Qed.
Lemma world_builds h0 h c p fp : world h0 h [(c, p, fp)] -> p <> 0 /\ own h c p fp /\ NoDup fp /\ extends h0 h fp.
Proof. intros (F & N & X). inversion_clear F as [|? ? (Np & O) _]. unfold blocks in *. cbn in *. rewrite app_nil_r in *. auto. Qed.
End World.
(** ** Keys: the tree gets its first node *)
Section Mono.
Variables f g : flags.
Hypothesis Hp : phrases g = false -> phrases f = false.
Hypothesis Hn : nodes g = false -> nodes f = false.
Lemma present_mono x : present f x -> present g x.
Proof. unfold present. destruct (class_of x); intuition. Qed.
Lemma own_mono h c p fp : own f h c p fp -> own g h c p fp.
Proof.
  intros O. induction O using own_mut with (P0 := fun cs ps fps _ => owns g h cs ps fps); try (now constructor).
  eapply own_block; try eassumption. now apply present_mono.
Qed.
End Mono.
Definition no_nodes (f : flags) : flags := {| phrases := phrases f; nodes := false |}.
Lemma own_no_nodes f h c p fp : own (no_nodes f) h c p fp -> own f h c p fp.
Proof. apply own_mono; cbn; auto. Qed.
Lemma owns_no_nodes f h : forall cs ps fps, owns (no_nodes f) h cs ps fps -> owns f h cs ps fps.
Proof. induction cs as [|c cs IH]; intros ps fps O; inversion O; subst; constructor; [now apply own_no_nodes|now apply IH]. Qed.
Lemma world_no_nodes f h0 h rs : world (no_nodes f) h0 h rs -> world f h0 h rs.
Proof. intros (F & N & X). split; [|now split]. revert F. apply Forall_impl. intros r (A & B). split; [exact A|now apply own_no_nodes]. Qed.

Lemma first_node_ok f h t ft K V : nodes f = true -> t <> 0 -> own (no_nodes f) h SplayC t ft -> NoDup ft -> builds_at f h K StringC -> builds_at f h V StringC ->
  exists h' ft', first_node t K V h = Ok h' /\ own f h' SplayC t ft' /\ NoDup ft' /\ changed h h' ft ft'.
Proof.
  intros Hn Nt O N BK BV. destruct (own_open _ _ _ _ _ Nt O N) as (x & cs & fps & (G & Os & _) & Cx & Sx & Mx & Px & ->). injection Mx as <-. unfold present in Px. rewrite Cx in Px. destruct Px as (P1 & P0). specialize (P0 eq_refl).
  apply owns_no_nodes in Os. inversion Os as [|? ? r ? fr ? Or Os' A1 A2 A3]; subst. inversion Os' as [|? ? sem ? fs ? Osm Os'' A4 A5 A6]; subst. inversion Os''; subst.
  assert (r = 0) by (unfold pointer in P0; rewrite <- A2 in P0; exact P0). subst r. assert (fr = []) by (inversion Or as [|? ? ? ? ? Gz]; subst; [reflexivity|discriminate]). subst fr. cbn [concat app] in *. rewrite app_nil_r in *.
  assert (Bn : builds_at f h (acquire_object NodeC 0 4 [(0, K); (1, V)]) NodeC).
  { apply (builds_object_at f h NodeC 0 4 [StringC; StringC; NodeC; NodeC]); [reflexivity|reflexivity|repeat (constructor; [cbn; intuition discriminate|]); constructor| |].
    - repeat (apply Forall_cons; [eexists; split; [reflexivity|cbn [snd]; eassumption]|]). apply Forall_nil.
    - intros y Cy _ _. unfold present. now rewrite Cy. }
  destruct (Bn h (base_refl h)) as (h1 & nd & fn & E1 & Nn & On & Nfn & (L1 & S1 & F1 & D1)). unfold first_node. rewrite E1. cbn [bind]. pose proof (get_bound _ _ _ G) as Bt.
  assert (G1 : get h1 t = Some (Live x)) by (rewrite S1 by lia; exact G). rewrite (set_pointer_ok _ _ _ _ _ G1). set (x2 := with_pointers _ _). set (h2 := set h1 t (Live x2)).
  assert (Pt : pointers x2 = [nd; sem]) by (unfold x2; cbn [pointers with_pointers]; rewrite <- A2; reflexivity).
  inversion_clear N as [|? ? N1 N2]. assert (Tn : ~ In t fn) by (intros A; apply F1 in A; lia).
  assert (Bs : forall a, In a fs -> a <= length h) by (intros a A; destruct (own_live _ _ _ _ _ _ Osm A) as (y & Y); apply get_bound in Y; lia).
  exists h2, (t :: concat [fn; fs]). split; [reflexivity|]. split; [|split].
  - eapply own_block; [apply get_set_same; lia|exact Cx|exact Sx|reflexivity| |].
    + unfold present. fold x2. change (class_of x2) with (class_of x). rewrite Cx. split; [|rewrite Hn; discriminate]. unfold pointer in *. rewrite Pt. rewrite <- A2 in P1. exact P1.
    + fold x2. rewrite Pt. repeat constructor.
      * apply (own_frame f h1); [exact On|]. intros a A. apply get_set_other. intros ->. contradiction.
      * apply (own_frame f h); [exact Osm|]. intros a A. unfold h2. rewrite get_set_other by (intros ->; contradiction). apply S1. now apply Bs.
  - cbn [concat]. rewrite app_nil_r. constructor; [rewrite in_app_iff; tauto|]. apply nodup_app_iff. split; [exact Nfn|]. split; [exact N2|]. intros a A I. apply F1 in A. apply Bs in I. lia.
  - cbn [concat]. rewrite app_nil_r. unfold h2. split; [rewrite set_length; lia|]. split; [|split].
    + intros a A B. rewrite get_set_other by (intros ->; apply B; now left). now apply S1.
    + intros a [<-|A]; [left; now left|]. apply in_app_iff in A. destruct A as [A|A]; [right; now apply F1|left; now right].
    + intros a A B C. rewrite set_length in A. cbn [In] in C. rewrite in_app_iff in C. destruct B as [[->|B]|B]; [tauto|tauto|]. rewrite get_set_other by (intros ->; tauto). apply D1; [lia|tauto].
Qed.
(** a member that was NULL is handed over *)
Lemma hand_over f h0 h p x cs fps i c q fq rs h' : world f h0 h ((c, q, fq) :: (class_of x, p, p :: concat fps) :: rs) -> opened f h p x cs fps -> signature x = true -> members (class_of x) (kind x) = Some cs ->
  present f (with_pointers x (update i q (pointers x))) -> nth_error cs i = Some c -> nth i fps [] = [] -> set_pointer p i q h = Ok h' ->
  world f h0 h' ((class_of x, p, p :: concat (update i fq fps)) :: rs).
Proof.
  intros (F & N & X) (G & Os & Nd) Sx Mx P E Z Es. rewrite (set_pointer_ok _ _ _ _ _ G) in Es. injection Es as <-. inversion_clear F as [|? ? (Nq & Oq) F']. inversion_clear F' as [|? ? (Np & _) Fr]. cbn [fst snd] in *.
  unfold blocks in *. cbn [map concat snd] in *. apply nodup_app_iff in N. destruct N as (Nfq & N & Dq). apply nodup_app_iff in N. destruct N as (_ & Nr & Dp). inversion_clear Nd as [|? ? N1 N2].
  assert (Li : i < length cs) by (apply nth_error_Some; congruence). pose proof (owns_lengths _ _ _ _ _ Os) as (Lp & Lf). pose proof (get_bound _ _ _ G) as Bp.
  assert (Pq : ~ In p fq) by (intros A; apply (Dq p A); rewrite in_app_iff; left; now left).
  split; [constructor; [split; [exact Np|cbn [fst snd]]|]|split].
  - eapply own_block; [now apply get_set_same|reflexivity|exact Sx|exact Mx|exact P|]. cbn [pointers with_pointers]. apply (owns_update f h) with (c := c); trivial.
    + apply (own_frame f h); [exact Oq|]. intros a A. apply get_set_other. intros ->. contradiction.
    + intros j J a A. apply get_set_other. intros ->. apply N1, in_concat_nth. now exists j.
  - apply (good_frame f h); [exact Fr|]. intros a A. apply get_set_other. intros ->. apply (Dp p); [now left|exact A].
  - unfold blocks. cbn [map concat snd app]. constructor.
    + rewrite in_app_iff. rewrite in_concat_update by (trivial; lia). intros [[A|A]|A]; [contradiction|contradiction|]. apply (Dp p); [now left|exact A].
    + apply nodup_app_iff. split; [|split; [exact Nr|]].
      * apply nodup_update; trivial. intros j J a A I. apply (Dq a A). rewrite in_app_iff. left. right. apply in_concat_nth. now exists j.
      * intros a A I. apply in_concat_update in A; [|lia|exact Z]. destruct A as [A|A]; [apply (Dq a A); rewrite in_app_iff; now right|]. apply (Dp a); [now right|exact I].
  - destruct X as (L & S1 & F1 & D1). unfold blocks. cbn [map concat snd]. split; [now rewrite set_length|]. split; [|split].
    + intros a A. rewrite get_set_other; [now apply S1|]. intros ->. specialize (F1 p). rewrite !in_app_iff in F1. cbn [In] in F1. specialize (F1 ltac:(tauto)). lia.
    + intros a A. apply F1. rewrite in_app_iff in *. cbn [In app] in *. rewrite in_app_iff. rewrite in_concat_update in A by (trivial; lia). tauto.
    + intros a A I. rewrite set_length in A. cbn [In app] in I. rewrite !in_app_iff in I. cbn [In] in I. rewrite in_concat_update in I by (trivial; lia). rewrite get_set_other by (intros ->; tauto). apply D1; [exact A|]. rewrite !in_app_iff. cbn [In]. tauto.
Qed.
Lemma key_builds f n e mk k i : nodes f = true -> builds f (AcquireKeyInfo n e mk k i) KeyC.
Proof.
  intros Hn hb h0 _. unfold AcquireKeyInfo. set (phr := no_nodes f). set (l := [(0, NewSplayTree); (3, AcquireCipherInfo AESCipher n e); (2, AcquireStringInfo n); (4, AcquireRandomInfo SHA2256Hash n e)]).
  assert (Fk : Forall (fun iA => exists d, nth_error [SplayC; StringC; StringC; CipherC; RandomC] (fst iA) = Some d /\ builds_at phr h0 (snd iA) d) l).
  { repeat (apply Forall_cons; [eexists; split; [reflexivity|cbn [snd]]|]); [apply splay_builds|apply cipher_builds, aes_known|apply string_builds|apply random_builds, sha2256_known|apply Forall_nil]. }
  assert (Nl : NoDup (map fst l)) by (cbn; repeat (constructor; [cbn; intuition discriminate|]); constructor).
  destruct (builds_object_ex phr h0 KeyC 0 [SplayC; StringC; StringC; CipherC; RandomC] l h0 (base_refl h0) Nl Fk) as (h1 & p & x & fps & E1 & Op & X1 & Cx & Sx & Kx & P1 & P2).
  cbn [length] in E1. rewrite E1. cbn [bind].
  assert (T0 : pointer 0 x <> 0) by (apply P1; cbn; tauto). assert (Z1 : pointer 1 x = 0) by (apply P2; cbn; lia). clear P1 P2 Fk E1 Nl.
  assert (Np : p <> 0) by (destruct Op as (G & _); apply get_bound in G; lia).
  assert (W1 : world phr h0 h1 [(KeyC, p, p :: concat fps)]).
  { split; [constructor; [split; [exact Np|]|constructor]|]; [cbn [fst snd]; eapply own_close; [exact Op|exact Cx|exact Sx|reflexivity|unfold present; now rewrite Cx]|]. unfold blocks. cbn [map concat snd]. rewrite app_nil_r. split; [apply Op|exact X1]. }
  destruct (world_new _ _ _ _ _ _ W1 (string_builds phr mk h1)) as (h2 & m & fm & -> & W2 & Y2). cbn [bind].
  destruct (world_new _ _ _ _ _ _ W2 (string_builds phr k h2)) as (h3 & kk & fk & -> & W3 & Y3). cbn [bind].
  destruct (world_new _ _ _ _ _ _ W3 (hmac_builds phr SHA2256Hash sha2256_known h3)) as (h4 & a4 & fa & -> & W4 & Y4). cbn [bind].
  destruct (world_new _ _ _ _ _ _ W4 (string_builds phr i h4)) as (h5 & ii & fi & -> & W5 & Y5). cbn [bind].
  assert (G5 : get h5 p = Some (Live x)).
  { destruct Op as (G & _). pose proof (get_bound _ _ _ G). destruct Y2 as (L2 & S2 & _), Y3 as (L3 & S3 & _), Y4 as (L4 & S4 & _), Y5 as (L5 & S5 & _). now rewrite S5, S4, S3, S2 by lia. }
  set (fp := p :: concat fps) in *.
  apply (world_perm _ _ _ _ [(HMACC, a4, fa); (StringC, m, fm); (StringC, kk, fk); (StringC, ii, fi); (KeyC, p, fp)]) in W5.
  2: { apply Permutation_trans with ((HMACC, a4, fa) :: (StringC, ii, fi) :: [(StringC, kk, fk); (StringC, m, fm); (KeyC, p, fp)]); [apply perm_swap|]. apply perm_skip.
       apply Permutation_trans with ((StringC, ii, fi) :: (StringC, m, fm) :: (StringC, kk, fk) :: [(KeyC, p, fp)]); [apply perm_skip, perm_swap|]. apply Permutation_trans with ((StringC, m, fm) :: (StringC, ii, fi) :: (StringC, kk, fk) :: [(KeyC, p, fp)]); [apply perm_swap|]. apply perm_skip, perm_swap. }
  pose proof W5 as (_ & N5 & _).
  assert (Pp : ~ In p fa /\ ~ In p fm).
  { unfold blocks in N5. cbn [map concat snd] in N5. rewrite app_nil_r in N5. apply nodup_app_iff in N5. destruct N5 as (_ & N5 & D5). split.
    - intros A. apply (D5 p A). rewrite !in_app_iff. do 3 right. now left.
    - apply nodup_app_iff in N5. destruct N5 as (_ & _ & D6). intros A. apply (D6 p A). rewrite !in_app_iff. do 2 right. now left. }
  destruct (world_delete _ _ _ _ _ _ _ _ W5 (hmac_frees phr)) as (h6 & -> & W6 & K6). cbn [bind].
  destruct (world_delete _ _ _ _ _ _ _ _ W6 (string_frees phr)) as (h7 & -> & W7 & K7). cbn [bind].
  assert (G7 : get h7 p = Some (Live x)) by (destruct K6 as (_ & _ & S6), K7 as (_ & _ & S7); rewrite S7, S6 by tauto; exact G5). rewrite (load_ok _ _ _ G7). cbn [bind].
  pose proof W7 as (F7 & N7 & _). inversion_clear F7 as [|? ? (Nk & Ok7) F8]. inversion_clear F8 as [|? ? (Ni & Oi7) F9]. inversion_clear F9 as [|? ? (_ & Op7) _]. cbn [fst snd] in *.
  unfold blocks in N7. cbn [map concat snd] in N7. rewrite app_nil_r in N7. apply nodup_app_iff in N7. destruct N7 as (Nfk & N7 & Dk). apply nodup_app_iff in N7. destruct N7 as (Nfi & Nfp & Di).
  destruct (own_open _ _ _ _ _ Np Op7 Nfp) as (x' & cs' & fps' & Op' & _ & _ & Mx' & _ & Efp). pose proof Op' as (G' & Os' & Nd'). rewrite G7 in G'. injection G' as <-. injection Mx' as <-.
  pose proof (owns_nth _ _ _ _ _ Os' 0 SplayC eq_refl) as Ot. fold (pointer 0 x) in Ot. inversion Nd' as [|? ? Np1 Np2]; subst.
  destruct (first_node_ok f h7 (pointer 0 x) (nth 0 fps' []) (CloneStringInfo ii) (CloneStringInfo kk) Hn T0 Ot (nodup_nth fps' 0 Np2)) as (h8 & ft & E8 & O8 & N8 & Ch8).
  { apply (clone_builds f h7 ii fi Ni). now apply own_no_nodes. } { apply (clone_builds f h7 kk fk Nk). now apply own_no_nodes. }
  rewrite E8. cbn [bind].
  assert (Of : opened f h7 p x [SplayC; StringC; StringC; CipherC; RandomC] fps') by (split; [exact G7|split; [now apply owns_no_nodes|exact Nd']]).
  destruct (nest f h7 p x _ fps' 0 SplayC h8 ft Of eq_refl Ch8 O8 N8) as (Op8 & Ch8').
  assert (Ok8 : own f h8 KeyC p (p :: concat (update 0 ft fps'))) by (eapply own_close; [exact Op8|exact Cx|exact Sx|reflexivity|unfold present; now rewrite Cx]).
  apply world_no_nodes in W7. apply (world_perm _ _ _ _ [(KeyC, p, fp); (StringC, kk, fk); (StringC, ii, fi)]) in W7.
  2: { apply Permutation_sym, (Permutation_cons_append [(StringC, kk, fk); (StringC, ii, fi)]). }
  rewrite Efp in W7. pose proof (world_change f h0 h7 h8 _ KeyC p _ _ W7 Ch8' Ok8 (proj2 (proj2 Op8))) as W8.
  apply (world_perm _ _ _ _ [(StringC, kk, fk); (StringC, ii, fi); (KeyC, p, p :: concat (update 0 ft fps'))]) in W8.
  2: { apply (Permutation_cons_append [(StringC, kk, fk); (StringC, ii, fi)]). }
  pose proof W8 as (_ & N9 & _). unfold blocks in N9. cbn [map concat snd] in N9. rewrite app_nil_r in N9. apply nodup_app_iff in N9. destruct N9 as (_ & _ & D9).
  destruct (world_delete _ _ _ _ _ _ _ _ W8 (string_frees f)) as (h9 & -> & W9 & (_ & _ & S9)). cbn [bind].
  assert (Op9 : opened f h9 p x [SplayC; StringC; StringC; CipherC; RandomC] (update 0 ft fps')).
  { destruct Op8 as (G8 & Os8 & Nd8). split; [|split; [|exact Nd8]].
    - rewrite S9; [exact G8|]. intros A. apply (D9 p A). rewrite in_app_iff. right. now left.
    - apply (owns_frame f h8); [exact Os8|]. intros a A. apply S9. intros I. apply (D9 a I). rewrite in_app_iff. right. now right. }
  pose proof Op9 as (G9 & Os9 & _). pose proof (set_pointer_ok h9 p 1 ii x G9) as E9. rewrite E9. cbn [bind].
  assert (W10 : world f h0 (set h9 p (Live (with_pointers x (update 1 ii (pointers x))))) [(class_of x, p, p :: concat (update 1 fi (update 0 ft fps')))]).
  { apply (hand_over f h0 h9 p x [SplayC; StringC; StringC; CipherC; RandomC] (update 0 ft fps') 1 StringC ii fi []); trivial.
    - now rewrite Cx.
    - rewrite Cx. reflexivity.
    - unfold present. cbn [class_of with_pointers]. now rewrite Cx.
    - pose proof (owns_nth _ _ _ _ _ Os9 1 StringC eq_refl) as O1. fold (pointer 1 x) in O1. rewrite Z1 in O1. now apply (own_zero _ _ _ _ O1). }
  rewrite Cx in W10. apply world_builds in W10. destruct W10 as (_ & O10 & N10 & X10). eexists _, p, _. split; [reflexivity|]. split; [exact Np|]. split; [exact O10|]. split; [exact N10|exact X10].
Qed.
