(** C60: option names. *)
From Coq Require Import NArith ZArith Arith Bool String List Lia.
From Coq Require Import ZifyBool ZifyNat ZifyN.
From Verif Require Import Base Outcome CStringModel CStringSpec CStringProps OptionModel.
Import ListNotations.
Local Open Scope Z_scope.

(** the same name in another letter case *)
Definition recased (m m' : list N) : Prop := text m' /\ map lower m' = map lower m.

(** ** Names *)
(** letters and digits, with hyphens inside *)
Definition alnum (c : N) : bool := (isalpha c || (48 <=? c) && (c <=? 57))%N.
Definition name (m : list N) : bool :=
  match m with c :: m' => alnum c && forallb (fun c => alnum c || (c =? 45)%N) m' | [] => false end && (length m <? 20)%nat.

Definition tables : list WizardOption :=
  [WizardAuthenticateOptions; WizardCipherOptions; WizardDataTypeOptions; WizardDebugOptions; WizardEndianOptions;
   WizardEntropyOptions; WizardEntropyLevelOptions; WizardKeyLengthOptions; WizardHashOptions; WizardListOptions;
   WizardModeOptions; WizardLogEventOptions; WizardResourceOptions].
Lemma in_tables o : o <> WizardCommandOptions -> In o tables.
Proof. destruct o; cbn; tauto. Qed.

Lemma tables_ok : forallb (fun o => forallb (fun e => name (fst e) &&
    match lookup (GetOptionInfo o) (fst e) with Some t => (t =? snd e) && (0 <=? t) && (t <? 2 ^ 31) | None => false end) (GetOptionInfo o)) tables = true.
Proof. vm_compute. reflexivity. Qed.
Lemma entry_ok o m t : o <> WizardCommandOptions -> In (m, t) (GetOptionInfo o) ->
  name m = true /\ lookup (GetOptionInfo o) m = Some t /\ 0 <= t < 2 ^ 31.
Proof.
  intros O I. pose proof tables_ok as H. rewrite forallb_forall in H. specialize (H o (in_tables o O)). rewrite forallb_forall in H.
  specialize (H _ I). cbn [fst snd] in H. apply andb_prop in H as (H1 & H2). split; [exact H1|].
  destruct (lookup (GetOptionInfo o) m) as [t'|]; [|discriminate]. split; [f_equal; lia|lia].
Qed.

Lemma lower_ascii c d : (c < 256)%N -> lower c = lower d -> (d < 128)%N -> (c < 128)%N.
Proof. unfold lower. intros C E D. destruct ((65 <=? c) && (c <=? 90))%N eqn:X, ((65 <=? d) && (d <=? 90))%N eqn:Y; lia. Qed.
Lemma lower_alnum c d : lower c = lower d -> alnum c = alnum d.
Proof. unfold lower, alnum, isalpha. intros E. destruct ((65 <=? c) && (c <=? 90))%N eqn:X, ((65 <=? d) && (d <=? 90))%N eqn:Y; lia. Qed.
Lemma lower_hyphen c d : lower c = lower d -> (c =? 45)%N = (d =? 45)%N.
Proof. unfold lower. intros E. destruct ((65 <=? c) && (c <=? 90))%N eqn:X, ((65 <=? d) && (d <=? 90))%N eqn:Y; lia. Qed.
Lemma alnum_bounds c : alnum c = true -> (0 < c < 128)%N. Proof. unfold alnum, isalpha. lia. Qed.

Lemma name_ascii m : name m = true -> Forall (fun c => 0 < c < 128)%N m.
Proof.
  destruct m as [|c m]; [discriminate|]. intros H. apply andb_prop in H as (H & _). apply andb_prop in H as (H1 & H2).
  constructor; [now apply alnum_bounds|]. rewrite forallb_forall in H2. apply Forall_forall. intros d D. specialize (H2 d D).
  apply orb_prop in H2 as [H2|H2]; [now apply alnum_bounds|lia].
Qed.
Lemma recased_name m m' : name m = true -> recased m m' -> name m' = true.
Proof.
  intros N (_ & E). unfold name in *. assert (L : length m' = length m) by (rewrite <- (map_length lower m'), E; apply map_length). rewrite L.
  apply andb_prop in N as (N & ->). rewrite andb_true_r. destruct m as [|c m], m' as [|c' m']; try discriminate. cbn in E. injection E as E1 E2.
  rewrite (lower_alnum _ _ E1). apply andb_prop in N as (-> & N). cbn [andb]. clear -E2 N. revert m' E2 N.
  induction m as [|c m IH]; intros [|c' m'] E N; try discriminate; [reflexivity|]. cbn in *. injection E as E1 E2.
  rewrite (lower_alnum _ _ E1), (lower_hyphen _ _ E1). apply andb_prop in N as (-> & N). cbn. now apply IH.
Qed.
Lemma recased_map m m' : name m = true -> recased m m' -> map ascii_map m' = map ascii_map m.
Proof.
  intros N (T & E). apply name_ascii in N. clear -N T E. revert m' T E. induction m as [|c m IH]; intros [|c' m'] T E; try discriminate; [reflexivity|].
  cbn in *. injection E as E1 E2. apply text_cons in T as (T1 & T2). inversion N as [|? ? N1 N2]; subst.
  assert ((c' < 128)%N) by (eapply lower_ascii; [apply T1|exact E1|lia]).
  rewrite !ascii_map_ascii, E1 by lia. f_equal. now apply IH.
Qed.

(** the table is searched without regard to case *)
Lemma lookup_recased o m m' : o <> WizardCommandOptions -> name m = true -> recased m m' -> lookup (GetOptionInfo o) m' = lookup (GetOptionInfo o) m.
Proof.
  intros O N R. assert (T : text m) by (apply name_ascii in N; unfold text; eapply Forall_impl; [|exact N]; cbn; lia).
  assert (T' : text m') by apply R. pose proof (recased_map _ _ N R) as M.
  assert (I : forall k t, In (k, t) (GetOptionInfo o) -> text k).
  { intros k t H. apply (entry_ok o k t O) in H as (H & _). apply name_ascii in H. unfold text. eapply Forall_impl; [|exact H]. cbn. lia. }
  revert I. induction (GetOptionInfo o) as [|[k t] info IH]; intros I; [reflexivity|]. cbn [lookup].
  assert (K : text k) by (eapply I; left; reflexivity).
  rewrite !locale_compare_eq by assumption.
  pose proof (first_difference_zero m' k T' K) as Z1. pose proof (first_difference_zero m k T K) as Z2. rewrite M in Z1.
  rewrite IH by (intros ? ? ?; eapply I; right; eassumption).
  destruct (first_difference m' k) eqn:D1, (first_difference m k) eqn:D2; try reflexivity; exfalso;
    try (assert (Q : 0 = 0) by reflexivity; apply Z1 in Q; apply Z2 in Q; discriminate);
    try (assert (Q : 0 = 0) by reflexivity; apply Z2 in Q; apply Z1 in Q; discriminate).
Qed.

(** ** Reading a list *)
Definition separator (c : N) : bool := (isspace c || (c =? 44))%N.
Lemma alnum_plain c : alnum c = true -> separator c = false /\ (c =? 45)%N = false /\ (c =? 43)%N = false /\ (c =? 33)%N = false.
Proof. unfold alnum, isalpha, separator, isspace. lia. Qed.
Lemma hyphen_plain c : alnum c || (c =? 45)%N = true -> separator c = false.
Proof. unfold alnum, isalpha, separator, isspace. lia. Qed.

Lemma skip_separators_ok s p : forallb separator s = true -> skip_separators (s ++ p) = skip_separators p.
Proof. induction s as [|c s IH]; intros H; [reflexivity|]. cbn in H |- *. apply andb_prop in H as (H1 & H2). unfold separator in H1. rewrite H1. now apply IH. Qed.
Lemma take_token_ok room m p : forallb (fun c => negb (separator c)) m = true -> (length m <= room)%nat ->
  match p with [] => True | c :: _ => separator c = true end -> take_token room (m ++ p) = (m, p).
Proof.
  revert room. induction m as [|c m IH]; intros room H L P.
  - cbn [app]. destruct p as [|d p]; [destruct room; reflexivity|]. destruct room; [reflexivity|]. cbn. unfold separator in P. now rewrite P.
  - cbn in H, L. apply andb_prop in H as (H1 & H2). destruct room as [|room]; [lia|]. cbn [app take_token]. unfold separator in H1.
    destruct (isspace c || (c =? 44)%N); [discriminate|]. rewrite IH by (assumption || lia). reflexivity.
Qed.
Lemma find_char_seps c s p : In c s -> exists s', find_char c (s ++ p) = Some (s' ++ p) /\ (exists s0, s = s0 ++ s') /\ In c s'.
Proof.
  induction s as [|d s IH]; intros I; [destruct I|]. cbn [app find_char]. destruct (N.eqb_spec d c) as [->|N].
  - exists (c :: s). split; [reflexivity|]. split; [now exists []|now left].
  - destruct I as [->|I]; [now destruct N|]. destruct (IH I) as (s' & E & (s0 & ->) & J). exists s'. split; [exact E|]. split; [now exists (d :: s0)|exact J].
Qed.

(** names with what precedes each: separators, with a comma among them except
    before the first *)
Definition item := (list N * list N * Z)%type.
Definition joined (l : list item) : list N := flat_map (fun '(s, m, _) => s ++ m) l.
Definition is_item (o : WizardOption) (comma : bool) (i : item) : Prop :=
  let '(s, m', t) := i in
  forallb separator s = true /\ (comma = true -> In 44%N s) /\ exists m, In (m, t) (GetOptionInfo o) /\ recased m m'.

Lemma round (o : WizardOption) (f : nat) (many : bool) (i : item) (rest : list N) (types : Z) :
  o <> WizardCommandOptions -> is_item o false i -> match rest with [] => True | c :: _ => separator c = true end ->
  parse_loop (S f) (GetOptionInfo o) many (fst (fst i) ++ snd (fst i) ++ rest) types =
    if many then match find_char 44 rest with Some p => parse_loop f (GetOptionInfo o) many p (Z.lor types (snd i)) | None => Ok (Z.lor types (snd i)) end
    else Ok (Z.lor types (snd i)).
Proof.
  destruct i as [[s m'] t]. cbn [fst snd]. intros O (S & _ & m & I & R) P. cbn [parse_loop].
  destruct (entry_ok o m t O I) as (N & L & B). pose proof (recased_name m m' N R) as N'.
  rewrite skip_separators_ok by assumption.
  assert (K : skip_bang (skip_sign (skip_separators (m' ++ rest))) = m' ++ rest).
  { destruct m' as [|c m']; [discriminate|]. pose proof N' as N2. apply andb_prop in N2 as (N2 & _). apply andb_prop in N2 as (N2 & _).
    apply alnum_plain in N2 as (A1 & A2 & A3 & A4). unfold separator in A1. cbn. rewrite A1. cbn. rewrite A2, A3. cbn. now rewrite A4. }
  rewrite K, take_token_ok; [|..|assumption].
  2:{ apply forallb_forall. intros c Hc. destruct m' as [|d m']; [destruct Hc|]. apply andb_prop in N' as (N' & _). apply andb_prop in N' as (N1 & N2).
      rewrite forallb_forall in N2. destruct Hc as [<-|Hc]; [apply alnum_plain in N1 as (-> & _); reflexivity|]. apply N2, hyphen_plain in Hc. now rewrite Hc. }
  2:{ unfold name in N'. apply andb_prop in N' as (_ & N'). apply Nat.ltb_lt in N'. assert (20 <= WizardPathExtent - 1)%nat by (unfold WizardPathExtent; cbn; lia). lia. }
  rewrite (lookup_recased o m m') by assumption. rewrite L.
  assert (A : apply_type m' types t = Z.lor types t).
  { unfold apply_type. destruct m' as [|c m']; [reflexivity|]. apply andb_prop in N' as (N' & _). apply andb_prop in N' as (N' & _).
    apply alnum_plain in N' as (_ & _ & _ & ->). reflexivity. }
  rewrite A. reflexivity.
Qed.

Lemma joined_cons i l : joined (i :: l) = fst (fst i) ++ snd (fst i) ++ joined l.
Proof. destruct i as [[s m] t]. cbn. now rewrite <- app_assoc. Qed.
Lemma item_weak o i : is_item o true i -> is_item o false i.
Proof. destruct i as [[s m] t]. cbn. intuition discriminate. Qed.
Lemma joined_head o l : Forall (is_item o true) l -> match joined l with [] => True | c :: _ => separator c = true end.
Proof.
  destruct l as [|[[s m] t] l]; intros F; [exact I|]. inversion F as [|? ? X _]; subst. destruct X as (S & C & _). specialize (C eq_refl).
  destruct s as [|c s]; [destruct C|]. cbn in *. apply andb_prop in S. apply S.
Qed.

Lemma parse_items o : o <> WizardCommandOptions -> forall l i f types, is_item o false i -> Forall (is_item o true) l -> (length l <= f)%nat ->
  parse_loop (S f) (GetOptionInfo o) true (joined (i :: l)) types = Ok (fold_left Z.lor (map snd (i :: l)) types).
Proof.
  intros O. induction l as [|j l IH]; intros i f types I F L; rewrite joined_cons, round by (assumption || now apply (joined_head o)).
  - reflexivity.
  - inversion F as [|? ? J F']; subst. rewrite joined_cons. destruct j as [[s m'] t]. cbn [fst snd]. pose proof J as (S & C & X). specialize (C eq_refl).
    destruct (find_char_seps 44 s (m' ++ joined l) C) as (s' & -> & (s0 & ->) & C').
    destruct f as [|f]; [cbn in L; lia|].
    specialize (IH (s', m', t) f (Z.lor types (snd i))). rewrite joined_cons in IH. cbn [fst snd] in IH. rewrite IH.
    + reflexivity.
    + split; [|split; [discriminate|exact X]]. rewrite forallb_app in S. apply andb_prop in S. apply S.
    + exact F'.
    + cbn in L. lia.
Qed.

(** ** C60: every name of every table but the command table, in every letter
    case, is read back as its type *)
Theorem option_round_trip_partial (o : WizardOption) (type : Z) (m' : list N) (many : bool) :
  o <> WizardCommandOptions -> In type (map snd (GetOptionInfo o)) -> recased (WizardOptionToMnemonic o type) m' ->
  ParseWizardOption o many m' = Ok type.
Proof.
  intros O I R. unfold WizardOptionToMnemonic in R.
  assert (E : In (mnemonic_of (GetOptionInfo o) type, type) (GetOptionInfo o)).
  { clear R O. induction (GetOptionInfo o) as [|[k t] info IH]; [destruct I|]. cbn [mnemonic_of]. destruct (Z.eqb_spec type t) as [->|N]; [now left|].
    right. apply IH. destruct I as [I|I]; [cbn in I; congruence|exact I]. }
  unfold ParseWizardOption. pose proof (round o (length m') many ([], m', type) [] 0 O) as Q. cbn [fst snd app] in Q. rewrite app_nil_r in Q.
  destruct (entry_ok o _ _ O E) as (_ & _ & B). rewrite Q; [|cbn; split; [reflexivity|]; split; [discriminate|]; eexists; split; eassumption|exact Logic.I].
  cbn [find_char]. rewrite Z.lor_0_l. now destruct many.
Qed.

(** several names, separated by commas and white space, give the union *)
Theorem option_list (o : WizardOption) (i : item) (l : list item) :
  o <> WizardCommandOptions -> is_item o false i -> Forall (is_item o true) l ->
  ParseWizardOption o true (joined (i :: l)) = Ok (fold_left Z.lor (map snd (i :: l)) 0).
Proof.
  intros O I F. unfold ParseWizardOption. apply parse_items; try assumption.
  rewrite joined_cons, !app_length. assert (length l <= length (joined l))%nat; [|lia].
  clear I. induction F as [|j l J F IH]; [cbn; lia|]. rewrite joined_cons, !app_length. destruct j as [[s m] t]. destruct J as (_ & C & _).
  specialize (C eq_refl). destruct s; [destruct C|]. cbn [fst snd length]. lia.
Qed.

(** ** What is false *)

(** no command option is recognized: the sign that is part of its name is
    skipped (utilities/utility.c:215 relies on this call) *)
Theorem option_command_refuted (m : list N) (type : Z) (many : bool) :
  In (m, type) (GetOptionInfo WizardCommandOptions) -> ParseWizardOption WizardCommandOptions many m = Ok (-1).
Proof.
  intros I. assert (H : forallb (fun e => match ParseWizardOption WizardCommandOptions many (fst e) with Ok t => t =? -1 | _ => false end) (GetOptionInfo WizardCommandOptions) = true)
    by (destruct many; vm_compute; reflexivity).
  rewrite forallb_forall in H. specialize (H _ I). cbn [fst] in H. destruct (ParseWizardOption WizardCommandOptions many m); try discriminate. f_equal. lia.
Qed.

(** a negated name is added instead of removed *)
Theorem option_negation_refuted :
  ParseWizardOption WizardLogEventOptions true (b "Trace,!Trace") = Ok 1 /\
  ParseWizardOption WizardLogEventOptions true (b "!Blob") = ParseWizardOption WizardLogEventOptions true (b "Blob").
Proof. split; vm_compute; reflexivity. Qed.

(** an empty option reads uninitialized memory *)
Theorem option_empty_refuted (o : WizardOption) (many : bool) : o <> WizardCommandOptions -> ParseWizardOption o many [] = UB.
Proof.
  intros O.
  destruct o; try (now destruct O); destruct many; vm_compute; reflexivity.
Qed.

Example option_round_trip_ex :
  WizardOptionToMnemonic WizardHashOptions 7 = b "SHA256" /\ recased (b "SHA256") (b "sHa256") /\
  ParseWizardOption WizardHashOptions false (b "sHa256") = Ok 7.
Proof. split; [reflexivity|]. split; [split; [repeat constructor|reflexivity]|vm_compute; reflexivity]. Qed.
Example option_list_ex :
  is_item WizardLogEventOptions false ([], b "blob", 4) /\ is_item WizardLogEventOptions true (b " , ", b "EXCEPTION", 128) /\
  joined [([], b "blob", 4); (b " , ", b "EXCEPTION", 128)] = b "blob , EXCEPTION" /\
  ParseWizardOption WizardLogEventOptions true (b "blob , EXCEPTION") = Ok 132.
Proof.
  split; [|split; [|split; vm_compute; reflexivity]].
  - split; [reflexivity|]. split; [discriminate|]. exists (b "Blob"). split; [cbn; tauto|]. split; [repeat constructor|reflexivity].
  - split; [reflexivity|]. split; [cbn; tauto|]. exists (b "Exception"). split; [cbn; tauto|]. split; [repeat constructor|reflexivity].
Qed.
Example option_command_ex : In (b "-key", 1) (GetOptionInfo WizardCommandOptions). Proof. cbn. tauto. Qed.

Print Assumptions option_round_trip_partial.
Print Assumptions option_list.
Print Assumptions option_command_refuted.
Print Assumptions option_negation_refuted.
Print Assumptions option_empty_refuted.
