(** What ListWizardOptions prints is what ParseWizardOption reads. *)
From Coq Require Import NArith ZArith Bool String Arith List Lia.
From Verif Require Import Base Outcome CStringModel CStringSpec OptionModel OptionProps OptionListModel.
Import ListNotations.
Local Open Scope Z_scope.

(** ** What is to be shown *)
(** the lines of a text in which each line is ended *)
Fixpoint lines_from (line text : list N) : list (list N) :=
  match text with
  | [] => match line with [] => [] | _ => [rev line] end
  | c :: text => if (c =? 10)%N then rev line :: lines_from [] text else lines_from (c :: line) text
  end.
Definition lines (text : list N) : list (list N) := lines_from [] text.

(** the names of the tables *)
Definition named : list (list N * WizardOption) :=
  [(b "Authenticate", WizardAuthenticateOptions); (b "Cipher", WizardCipherOptions); (b "Command", WizardCommandOptions);
   (b "DataType", WizardDataTypeOptions); (b "Debug", WizardDebugOptions); (b "Endian", WizardEndianOptions);
   (b "Entropy", WizardEntropyOptions); (b "EntropyLevel", WizardEntropyLevelOptions); (b "Hash", WizardHashOptions);
   (b "KeyLength", WizardKeyLengthOptions); (b "List", WizardListOptions); (b "Mode", WizardModeOptions);
   (b "LogEvent", WizardLogEventOptions); (b "Resource", WizardResourceOptions)].
Definition option_dec (a c : WizardOption) : {a = c} + {a <> c}.
Proof. decide equality. Defined.
Definition option_eqb (a c : WizardOption) : bool := if option_dec a c then true else false.

(** ** Lines *)
Lemma lines_app m : forall line rest, ~ In 10%N m -> lines_from line (m ++ [10%N] ++ rest) = (rev line ++ m) :: lines_from [] rest.
Proof.
  induction m as [|c m IH]; intros line rest N; cbn [app lines_from].
  - now rewrite N.eqb_refl, app_nil_r.
  - destruct (N.eqb_spec c 10) as [->|E]; [destruct N; now left|]. change (m ++ 10%N :: rest) with (m ++ [10%N] ++ rest). rewrite IH by (intros I; apply N; now right).
    cbn [rev]. now rewrite <- app_assoc.
Qed.
Definition no_newline (info : list (list N * Z)) : Prop := Forall (fun e => ~ In 10%N (fst e)) info.
Lemma lines_loop info : no_newline info -> forall i, (0 < i)%nat -> lines (list_loop i info) = map fst info.
Proof.
  unfold lines. induction 1 as [|[m t] info Hm _ IH]; intros i Hi; cbn [list_loop map fst]; [reflexivity|].
  destruct (Nat.eqb_spec i 0) as [E|_]; [lia|]. cbn [andb]. rewrite lines_app by exact Hm. cbn [rev app]. f_equal. apply IH. lia.
Qed.
Definition all_options : list WizardOption := WizardCommandOptions :: tables.
Lemma in_all o : In o all_options.
Proof. destruct o; cbn; tauto. Qed.
Lemma tables_lines o : no_newline (GetOptionInfo o).
Proof.
  assert (H : forallb (fun o => forallb (fun e => forallb (fun c => negb (c =? 10)%N) (fst e)) (GetOptionInfo o)) all_options = true) by (vm_compute; reflexivity).
  rewrite forallb_forall in H. specialize (H o (in_all o)). apply Forall_forall. intros e I J. rewrite forallb_forall in H. specialize (H e I).
  rewrite forallb_forall in H. specialize (H _ J). discriminate H.
Qed.
Lemma streq_spec a c : reflect (a = c) (streq a c).
Proof. unfold streq. destruct (list_eq_dec N.eq_dec a c); now constructor. Qed.

(** ** The listing: a line for each name of the table, in its order, but not for a first "Undefined" *)
Theorem listing_lines : forall o, lines (ListWizardOptions o) =
  match GetWizardOptions o with m :: ms => if streq m (b "Undefined") then ms else m :: ms | [] => [] end.
Proof.
  intros o. unfold ListWizardOptions, GetWizardOptions. pose proof (tables_lines o) as H. destruct (GetOptionInfo o) as [|[m t] info]; [reflexivity|].
  inversion H as [|? ? Hm Hi]; subst. cbn [list_loop map fst Nat.eqb andb]. destruct (streq m (b "Undefined")).
  - now apply lines_loop; [|lia].
  - unfold lines. rewrite lines_app by exact Hm. cbn [rev app]. f_equal. apply lines_loop; [exact Hi|lia].
Qed.
(** every name of a table, in any letter case, is read as its type, also the other names of a type *)
Theorem option_entry : forall o m t m' many, o <> WizardCommandOptions -> In (m, t) (GetOptionInfo o) -> recased m m' ->
  ParseWizardOption o many m' = Ok t.
Proof.
  intros o m t m' many O E R. unfold ParseWizardOption.
  pose proof (round o (length m') many ([], m', t) [] 0 O) as Q. cbn [fst snd app] in Q. rewrite app_nil_r in Q.
  destruct (entry_ok o _ _ O E) as (_ & _ & B). rewrite Q; [|cbn; split; [reflexivity|]; split; [discriminate|]; eexists; split; eassumption|exact Logic.I].
  cbn [find_char]. rewrite Z.lor_0_l. now destruct many.
Qed.
(** what is listed is read, and never as the type of "Undefined"; every type but that is listed under some name *)
Theorem listing_parses : forall o l many, o <> WizardCommandOptions -> In l (lines (ListWizardOptions o)) ->
  exists t, ParseWizardOption o many l = Ok t /\ 0 <= t /\ In (l, t) (GetOptionInfo o) /\ l <> b "Undefined".
Proof.
  intros o l many O I. rewrite listing_lines in I.
  assert (U : forallb (fun o => match GetOptionInfo o with (m, _) :: info =>
      forallb (fun e => negb (streq (fst e) (b "Undefined"))) info | [] => true end) all_options = true) by (vm_compute; reflexivity).
  rewrite forallb_forall in U. specialize (U o (in_all o)).
  assert (J : In l (map fst (GetOptionInfo o)) /\ l <> b "Undefined").
  { unfold GetWizardOptions in I. destruct (GetOptionInfo o) as [|[m t] info]; [destruct I|]. cbn [map fst] in I |- *.
    assert (K : In l (map fst info) -> l <> b "Undefined").
    { intros J. apply in_map_iff in J. destruct J as ([m1 t1] & <- & J). rewrite forallb_forall in U. specialize (U _ J). cbn [fst] in *.
      destruct (streq_spec m1 (b "Undefined")); [discriminate U|assumption]. }
    destruct (streq_spec m (b "Undefined")) as [E|E]; [split; [now right|auto]|]. split; [exact I|]. destruct I as [<-|I]; [exact E|auto]. }
  destruct J as (J & N). apply in_map_iff in J. destruct J as ([m t] & E & J). cbn in E. subst m.
  exists t. destruct (entry_ok o l t O J) as (Nm & _ & B). repeat split; try assumption; try lia.
  apply (option_entry o l t l many O J). split; [|reflexivity]. pose proof (name_ascii l Nm) as A. unfold text. eapply Forall_impl; [|exact A]. cbn. lia.
Qed.
Theorem listing_complete : forall o m t, In (m, t) (GetOptionInfo o) -> m <> b "Undefined" -> In m (lines (ListWizardOptions o)).
Proof.
  intros o m t I N. rewrite listing_lines. unfold GetWizardOptions. apply (in_map fst) in I. cbn [fst] in I.
  destruct (map fst (GetOptionInfo o)) as [|m0 ms]; [exact I|]. destruct (streq_spec m0 (b "Undefined")) as [->|E]; [|exact I].
  destruct I as [<-|I]; [now destruct N|exact I].
Qed.

(** ** -list *)
(** each name printed by "-list list" gives the list of that name, in any letter case *)
Theorem list_command_lists : forall l arg, In l (lines (ListWizardOptions WizardListOptions)) -> recased l arg ->
  exists o, In (l, o) named /\ list_command arg = Ok (Printed (ListWizardOptions o)).
Proof.
  intros l arg I R. destruct (listing_parses WizardListOptions l false ltac:(discriminate) I) as (t & _ & T & E & _).
  assert (K : forallb (fun e => match option_of (snd e) with Some o => existsb (fun n => streq (fst n) (fst e) && option_eqb (snd n) o) named | None => false end) ListOptions = true) by (vm_compute; reflexivity).
  rewrite forallb_forall in K. specialize (K _ E). cbn [fst snd] in K. unfold list_command.
  rewrite (option_entry WizardListOptions l t arg false ltac:(discriminate) E R). cbn [bind].
  destruct (Z.ltb_spec t 0); [lia|]. destruct (option_of t) as [o|]; [|discriminate]. exists o. split; [|reflexivity].
  apply existsb_exists in K. destruct K as ([l1 o1] & J & K). cbn [fst snd] in K. apply andb_prop in K as (K1 & K2).
  destruct (streq_spec l1 l) as [->|]; [|discriminate]. unfold option_eqb in K2. destruct (option_dec o1 o) as [->|]; [exact J|discriminate].
Qed.
(** all tables can be listed: refuted.  That of the resources has no name *)
Lemma parse_one info p : match parse_loop (S (length p)) info false p 0 with Ok t => t = -1 \/ exists k t0, lookup info k = Some t0 /\ t = apply_type k 0 t0 | _ => True end.
Proof.
  cbn [parse_loop]. destruct (take_token _ _) as [token q]. destruct (lookup info token) as [t|] eqn:E; [right; eauto|].
  destruct token as [|c token]; [exact Logic.I|].
  destruct (find_char 45 token), (find_char 95 token); try (now left);
  (destruct (lookup info (squeeze _ _ _)) as [t|] eqn:E2; [right; eauto|now left]).
Qed.
Lemma lookup_in info k t : lookup info k = Some t -> exists m, In (m, t) info.
Proof.
  induction info as [|[m t1] info IH]; cbn [lookup]; [discriminate|].
  assert (D : lookup info k = Some t -> exists m0, In (m0, t) ((m, t1) :: info)) by (intros E; destruct (IH E) as [m0 I]; exists m0; now right).
  destruct (LocaleCompare _ _) as [[|z|z]| |]; try exact D. intros E. injection E as ->. exists m. now left.
Qed.
Theorem list_resources_refuted : forall arg, list_command arg <> Ok (Printed (ListWizardOptions WizardResourceOptions)).
Proof.
  intros arg X. unfold list_command, ParseWizardOption in X. pose proof (parse_one (GetOptionInfo WizardListOptions) arg) as P.
  destruct (parse_loop _ _ _ _ _) as [t| |]; cbn [bind] in X; try discriminate X.
  destruct (Z.ltb_spec t 0); [discriminate X|]. destruct P as [->|(k & t0 & L & ->)]; [lia|].
  destruct (lookup_in _ _ _ L) as [m I].
  assert (K : forallb (fun e => forallb (fun v => match option_of v with Some o => negb (streq (ListWizardOptions o) (ListWizardOptions WizardResourceOptions)) | None => false end) [snd e; 0]) ListOptions = true) by (vm_compute; reflexivity).
  rewrite forallb_forall in K. specialize (K _ I). cbn [snd forallb] in K. apply andb_prop in K as (K1 & K2). apply andb_prop in K2 as (K2 & _).
  assert (V : apply_type k 0 t0 = t0 \/ apply_type k 0 t0 = 0).
  { unfold apply_type. destruct k as [|c k]; [now left|]. destruct (c =? 33)%N; [right|left; apply Z.lor_0_l]. apply Z.land_0_l. }
  destruct V as [V|V]; rewrite V in X;
  match type of X with context [option_of ?v] => destruct (option_of v) as [o|]; [|discriminate] end;
  injection X as X; rewrite X in *; match goal with K : negb (streq ?a ?a) = true |- _ => destruct (streq_spec a a); [discriminate K|congruence] end.
Qed.

(** ** Examples *)
Example listing_modes : lines (ListWizardOptions WizardModeOptions) = [b "CBC"; b "CFB"; b "CTR"; b "ECB"; b "OFB"].
Proof. vm_compute. reflexivity. Qed.
Example listing_levels : lines (ListWizardOptions WizardEntropyLevelOptions) = [b "0"; b "1"; b "2"; b "3"; b "4"; b "5"; b "6"; b "7"; b "8"; b "9"].
Proof. vm_compute. reflexivity. Qed.
Example list_mode : list_command (b "mODE") = Ok (Printed (ListWizardOptions WizardModeOptions)) /\ list_command (b "Resource") = Ok Unrecognized.
Proof. split; vm_compute; reflexivity. Qed.
Example entry_alias : In (b "SHA2-256", 7) (GetOptionInfo WizardHashOptions) /\ recased (b "SHA2-256") (b "sha2-256") /\ WizardOptionToMnemonic WizardHashOptions 7 = b "SHA256".
Proof. repeat split; vm_compute; try reflexivity; [tauto|]. repeat constructor. Qed.

Print Assumptions listing_lines.
Print Assumptions option_entry.
Print Assumptions listing_parses.
Print Assumptions listing_complete.
Print Assumptions list_command_lists.
Print Assumptions list_resources_refuted.
