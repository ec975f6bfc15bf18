(** Lemmas on the expansion of file names. *)
From Coq Require Import Arith NArith ZArith Bool Lia String Permutation Sorted List ZifyBool ZifyNat ZifyN.
From Verif Require Import Base Outcome CStringModel CStringSpec CStringProps OptionModel GlobModel GlobSpec GlobProps PathModel PathProps ConfigureProof ExpandModel.
Import ListNotations.

(** ** Options *)
Definition signed_info (info : list (list N * Z)) : Prop := Forall (fun e => exists m, fst e = 43%N :: m \/ fst e = 45%N :: m) info.
Lemma ascii_sign c : ascii_map c = 43%Z \/ ascii_map c = 45%Z -> c = 43%N \/ c = 45%N.
Proof.
  intros H. destruct (N.ltb_spec c 256) as [L|L].
  - assert (K : forallb (fun c => negb ((ascii_map c =? 43)%Z || (ascii_map c =? 45)%Z) || (c =? 43)%N || (c =? 45)%N) (map N.of_nat (seq 0 256)) = true) by (vm_compute; reflexivity).
    apply (sweep _ _ c) in K; [|exact L]. cbv beta in K. lia.
  - unfold ascii_map in H. rewrite nth_overflow in H; [cbn in H; lia|]. change (List.length AsciiMap) with (N.to_nat 256). lia.
Qed.
Lemma lookup_unsigned info c t : signed_info info -> c <> 43%N -> c <> 45%N -> lookup info (c :: t) = None.
Proof.
  intros S A B. assert (K : ascii_map c <> 43%Z /\ ascii_map c <> 45%Z) by (split; intros H; destruct (ascii_sign c); auto).
  induction S as [|[m z] info (m' & M) S IH]; [reflexivity|]. cbn [lookup fst] in *.
  assert (exists x, LocaleCompare ((c :: t) ++ [0%N]) (m ++ [0%N]) = Ok x /\ x <> 0%Z) as (x & -> & X).
  { destruct M as [-> | ->]; cbn [app LocaleCompare].
    - change (ascii_map 43) with 43%Z. replace (ascii_map c =? 43)%Z with false by lia. rewrite orb_true_r. eexists; split; [reflexivity|lia].
    - change (ascii_map 45) with 45%Z. replace (ascii_map c =? 45)%Z with false by lia. rewrite orb_true_r. eexists; split; [reflexivity|lia]. }
  destruct x; [contradiction|exact IH|exact IH].
Qed.
Lemma find_char_le c p q : find_char c p = Some q -> length q <= length p.
Proof. induction p as [|d p IH]; cbn [find_char]; [discriminate|]. destruct (d =? c)%N; [intros [= <-]; lia|]. intros H. apply IH in H. cbn. lia. Qed.
Lemma squeeze_first d fuel : forall c t, exists t', squeeze fuel d (c :: t) = c :: t'.
Proof.
  induction fuel as [|fuel IH]; intros c t; cbn [squeeze]; [eauto|]. cbn [List.tl]. destruct (find_char d t) as [q|] eqn:F; [|eauto].
  apply find_char_le in F. cbn [length]. replace (S (length t) - length q) with (S (length t - length q)) by lia. cbn [firstn app]. apply IH.
Qed.
Lemma command_signed : signed_info (GetOptionInfo WizardCommandOptions).
Proof. cbn [GetOptionInfo]. unfold CommandOptions, signed_info. repeat (apply Forall_cons; [cbn [fst b]; eexists; first [left; reflexivity | right; reflexivity]|]). apply Forall_nil. Qed.
(** the text behind separators, a sign and an exclamation mark starts like a name *)
Definition named (a : list N) : Prop :=
  exists c s, skip_bang (skip_sign (skip_separators a)) = c :: s /\ isspace c = false /\ c <> 44%N /\ c <> 43%N /\ c <> 45%N.
Lemma parse_named a : named a -> ParseWizardOption WizardCommandOptions false a = Ok (-1)%Z.
Proof.
  intros (c & s & P & Sp & C & A & B). unfold ParseWizardOption. cbn [parse_loop]. rewrite P.
  assert (exists r, WizardPathExtent - 1 = S r) as (r & ->) by (exists (Nat.pred (WizardPathExtent - 1)); unfold WizardPathExtent; lia).
  cbn [take_token]. rewrite Sp. replace (c =? 44)%N with false by lia. cbn [orb]. destruct (take_token r s) as (t, q).
  rewrite lookup_unsigned by (try exact command_signed; assumption).
  assert (forall X Y : outcome Z, X = Y -> match find_char 45 t, find_char 95 t with None, None => Y | _, _ => X end = Y) as K by (intros X Y ->; now destruct (find_char 45 t), (find_char 95 t)).
  apply K. clear K. destruct (squeeze_first 45 (length (c :: t)) c t) as (t1 & ->). destruct (squeeze_first 95 (length (c :: t)) c t1) as (t2 & ->).
  now rewrite lookup_unsigned by (try exact command_signed; assumption).
Qed.
(** an option, or any text that starts like a name *)
Lemma named_option o : IsWizardOption o = true -> named o.
Proof.
  destruct o as [|c [|d s]]; try discriminate. cbn [IsWizardOption]. intros H. apply andb_prop in H. destruct H as (S & A).
  exists d, s. unfold OptionModel.isalpha in A. assert (isspace c = false) by (unfold isspace; lia). cbn [skip_separators]. rewrite H. replace (c =? 44)%N with false by lia. cbn [orb skip_sign].
  assert ((c =? 45)%N || (c =? 43)%N = true) as -> by lia. cbn [skip_bang]. replace (d =? 33)%N with false by lia. unfold isspace. repeat split; lia.
Qed.
Lemma named_name c s : isspace c = false -> ~ In c [44; 43; 45; 33]%N -> named (c :: s).
Proof.
  intros S I. cbn in I. exists c, s. cbn [skip_separators]. rewrite S. replace (c =? 44)%N with false by lia. cbn [orb skip_sign].
  replace (c =? 45)%N with false by lia. replace (c =? 43)%N with false by lia. cbn [orb skip_bang]. replace (c =? 33)%N with false by lia. repeat split; lia || assumption.
Qed.

Definition visible (e : list N) : Prop := match e with c :: _ => c <> 46%N | [] => True end.
Definition visibleb (e : list N) : bool := negb match e with c :: _ => is_dot c | [] => false end.
Lemma visible_iff e : visibleb e = true <-> visible e.
Proof. destruct e as [|c e]; [now split|]. unfold visibleb, visible, is_dot, dot. rewrite negb_true_iff, N.eqb_neq. tauto. Qed.
Definition globb (pattern e : list N) : bool := match GlobExpression (e ++ [0%N]) (pattern ++ [0%N]) false with Ok m => m | _ => false end.
Lemma globb_iff l e : Forall piece_ok l -> text (glob_text l) -> text e -> l <> [] -> globb (glob_text l) e = true <-> matches false l e.
Proof. intros P T Te Ne. unfold globb. destruct (glob_matches false l e [] [] P T Te) as (m & -> & M). rewrite M. tauto. Qed.
(** the order of the list *)
Definition name_le (x y : list N) : Prop := (first_difference x y <= 0)%Z.
Lemma file_compare x y : text x -> text y -> FileCompare x y = first_difference x y.
Proof. intros X Y. unfold FileCompare. now rewrite locale_compare_eq. Qed.
Lemma sorted_filter {A} (R : A -> A -> Prop) p l : StronglySorted R l -> StronglySorted R (filter p l).
Proof.
  induction 1 as [|x l S IH F]; [constructor|]. cbn. destruct (p x); [|exact IH]. constructor; [exact IH|]. rewrite Forall_forall in *.
  intros y Y. apply filter_In in Y. now apply F.
Qed.
Lemma permutation_filter {A} (p : A -> bool) l l' : Permutation l l' -> Permutation (filter p l) (filter p l').
Proof.
  induction 1; cbn; [constructor|destruct (p x); auto|destruct (p x), (p y); auto; constructor|eauto using Permutation_trans].
Qed.
Lemma filter_map_comm {A B} (f : A -> B) p l : filter p (map f l) = map f (filter (fun x => p (f x)) l).
Proof. induction l as [|x l IH]; [reflexivity|]. cbn. destruct (p (f x)); cbn; now rewrite IH. Qed.
Lemma filter_filter {A} (p q : A -> bool) l : filter p (filter q l) = filter (fun x => q x && p x) l.
Proof. induction l as [|x l IH]; [reflexivity|]. cbn. destruct (q x); cbn; [destruct (p x); now rewrite IH|exact IH]. Qed.

(** ** The vector *)
Section Vector.
Variable E : nat.
Variable isdir : list N -> Z.
Variable accessible : list N -> bool.
Variable entries : list N -> option (list (list N)).
Variable cwd : list N.
Variable home : option (list N).
Variable user : list N -> option (list N).
Variable sort : forall A : Type, (A -> A -> Z) -> list A -> list A.
Notation last_ := (expand_last E isdir accessible entries cwd home user sort).
Notation loop := (expand E isdir accessible entries cwd home user sort).
Notation top := (ExpandFilenames E isdir accessible entries cwd home user sort).
Notation xname := (fun (path f : list N) => match path with [] => fit E f | _ => fit E (fit E (fit E path ++ [slash]) ++ f) end).

Lemma transfer_eq path files : forall v capacity, length v + length files < capacity ->
  transfer E accessible path files v capacity = Ok (v ++ filter accessible (map (xname path) files)).
Proof.
  induction files as [|f files IH]; intros v capacity L; cbn [transfer map filter length] in *; [now rewrite app_nil_r|].
  set (n := match path with [] => fit E f | _ => fit E (fit E (fit E path ++ [slash]) ++ f) end).
  destruct (accessible n).
  - unfold push. destruct (Nat.ltb_spec (length v) capacity); [|lia]. cbn [bind]. rewrite IH by (rewrite app_length; cbn; lia). now rewrite <- app_assoc.
  - cbn [bind]. apply IH. lia.
Qed.
(** what an argument becomes *)
Definition becomes (a : list N) : outcome (list (list N)) :=
  if match a with c :: _ => (c =? 34)%N || (c =? 39)%N | [] => false end then Ok [a]
  else
    let* filename := GetPathComponent E isdir accessible a TailPath in
    if negb (IsGlob accessible filename) then Ok [a]
    else
      let* path := GetPathComponent E isdir accessible a HeadPath in
      let path := ExpandFilename E home user path in
      let* files := ListFiles E isdir entries sort (match path with [] => cwd | _ => path end) filename in
      match files with
      | None => Ok [a]
      | Some files => if forallb (fun f => (0 <? isdir f)%Z) files then Ok [a] else Ok (filter accessible (map (xname path) files))
      end.
Lemma filter_length_le {A} (p : A -> bool) l : length (filter p l) <= length l.
Proof. induction l as [|x l IH]; [reflexivity|]. cbn. destruct (p x); cbn; lia. Qed.
Lemma expand_last_eq argc a v capacity rest : length v + 1 + rest + 1 <= capacity -> rest < argc ->
  match becomes a with
  | Ok r => exists capacity', last_ argc a (v ++ [a]) capacity = Ok (v ++ r, capacity') /\ length (v ++ r) + rest + 1 <= capacity'
  | Fatal => last_ argc a (v ++ [a]) capacity = Fatal
  | UB => last_ argc a (v ++ [a]) capacity = UB
  end.
Proof.
  intros L R. unfold becomes, expand_last.
  assert (exists capacity', @Ok (list (list N) * nat) (v ++ [a], capacity) = Ok (v ++ [a], capacity') /\ length (v ++ [a]) + rest + 1 <= capacity') as K.
  { exists capacity. split; [reflexivity|]. rewrite app_length. cbn. lia. }
  destruct (match a with c :: _ => (c =? 34)%N || (c =? 39)%N | [] => false end); [exact K|].
  destruct (GetPathComponent E isdir accessible a TailPath) as [filename| |]; cbn [bind]; try reflexivity.
  destruct (negb (IsGlob accessible filename)); [exact K|].
  destruct (GetPathComponent E isdir accessible a HeadPath) as [path| |]; cbn [bind]; try reflexivity.
  set (path' := ExpandFilename E home user path). destruct (ListFiles E isdir entries sort (match path' with [] => cwd | _ => path' end) filename) as [[files|]| |]; cbn [bind]; try reflexivity; [|exact K].
  destruct (forallb (fun f => (0 <? isdir f)%Z) files); [exact K|].
  rewrite removelast_last. rewrite transfer_eq by (rewrite app_length; cbn; lia). cbn [bind]. eexists. split; [reflexivity|].
  rewrite !app_length. cbn [length]. pose proof (filter_length_le accessible (map (xname path') files)) as F. rewrite map_length in F. lia.
Qed.
Lemma bind_ok {A B} (m : outcome A) (f : A -> outcome B) r : bind m f = Ok r -> exists x, m = Ok x /\ f x = Ok r.
Proof. destruct m; cbn; try discriminate. eauto. Qed.
(** one argument *)
Lemma top_one a : top [a] = let* z := ParseWizardOption WizardCommandOptions false a in if (0 <? z)%Z then Ok [a] else becomes a.
Proof.
  unfold ExpandFilenames. cbn [length expand]. unfold push. cbn [length Nat.ltb Nat.leb Nat.add bind app].
  destruct (ParseWizardOption WizardCommandOptions false a) as [z| |]; cbn [bind]; try reflexivity.
  destruct (0 <? z)%Z.
  - assert (copy_parameters (Z.to_nat z) [] [a] 2 = Ok ([], [a])) as -> by (destruct (Z.to_nat z); reflexivity). cbn [bind expand]. reflexivity.
  - pose proof (expand_last_eq 1 a [] 2 0 ltac:(cbn; lia) ltac:(lia)) as H. cbn [app] in H. destruct (becomes a) as [r| |].
    + destruct H as (c & -> & L). cbn [bind]. cbn [bind expand]. assert (length r <? c = true) as K by (apply Nat.ltb_lt; lia). unfold Nat.ltb in K. cbn [Nat.leb] in K. now rewrite K.
    + now rewrite H.
    + now rewrite H.
Qed.
Lemma copy_parameters_eq n : forall args v capacity, length v + length args + 1 <= capacity ->
  copy_parameters n args v capacity = Ok (skipn n args, v ++ firstn n args).
Proof.
  induction n as [|n IH]; intros [|a args] v capacity L; cbn [copy_parameters skipn firstn]; try now rewrite app_nil_r.
  unfold push. cbn [length] in L. destruct (Nat.ltb_spec (length v) capacity); [|lia]. cbn [bind]. rewrite IH by (rewrite app_length; cbn; lia). now rewrite <- app_assoc.
Qed.
Definition unmarked (a : list N) : Prop := exists z, ParseWizardOption WizardCommandOptions false a = Ok z /\ (z <= 0)%Z.
Lemma loop_eq argc : forall fuel args v capacity rs, length args <= fuel -> length args <= argc -> length v + length args + 1 <= capacity ->
  Forall2 (fun a r => unmarked a /\ becomes a = Ok r) args rs ->
  exists capacity', loop fuel argc args v capacity = Ok (v ++ concat rs, capacity') /\ length (v ++ concat rs) < capacity'.
Proof.
  induction fuel as [|fuel IH]; intros args v capacity rs F A L H.
  - destruct args; [|cbn in F; lia]. inversion H; subst. cbn [expand concat]. rewrite app_nil_r. exists capacity. split; [reflexivity|cbn in L; lia].
  - destruct H as [|a r args rs ((z & Pz & Z) & B) H]; cbn [length] in *.
    + cbn [expand concat]. rewrite app_nil_r. exists capacity. split; [reflexivity|lia].
    + cbn [expand]. unfold push. destruct (Nat.ltb_spec (length v) capacity); [|lia]. cbn [bind]. rewrite Pz. cbn [bind]. destruct (Z.ltb_spec 0 z); [lia|].
      pose proof (expand_last_eq argc a v capacity (length args) ltac:(lia) ltac:(lia)) as K. rewrite B in K. destruct K as (c & -> & C). cbn [bind].
      destruct (IH args (v ++ r) c rs ltac:(lia) ltac:(lia) C H) as (c' & -> & C'). rewrite <- app_assoc in *. cbn [concat]. eauto.
Qed.
Lemma loop_safe argc : forall fuel args v capacity, length args <= fuel -> length args <= argc -> length v + length args + 1 <= capacity ->
  Forall (fun a => exists r, top [a] = Ok r) args ->
  exists v' capacity', loop fuel argc args v capacity = Ok (v', capacity') /\ length v' < capacity'.
Proof.
  induction fuel as [|fuel IH]; intros args v capacity F A L H.
  - destruct args; [|cbn in F; lia]. cbn [expand]. exists v, capacity. split; [reflexivity|cbn in L; lia].
  - destruct H as [|a args (r & Ha) H]; cbn [length] in *; cbn [expand].
    + exists v, capacity. split; [reflexivity|lia].
    + unfold push. destruct (Nat.ltb_spec (length v) capacity); [|lia]. cbn [bind]. rewrite top_one in Ha. apply bind_ok in Ha. destruct Ha as (z & -> & B). cbn [bind].
      destruct (0 <? z)%Z.
      * rewrite copy_parameters_eq by (rewrite app_length; cbn; lia). cbn [bind]. apply IH.
        -- rewrite skipn_length. lia.
        -- rewrite skipn_length. lia.
        -- rewrite !app_length, skipn_length, firstn_length. cbn [length]. lia.
        -- rewrite <- (firstn_skipn (Z.to_nat z) args) in H. apply Forall_app in H. apply H.
      * pose proof (expand_last_eq argc a v capacity (length args) ltac:(lia) ltac:(lia)) as K. rewrite B in K. destruct K as (c & -> & C). cbn [bind].
        apply IH; [lia|lia|exact C|exact H].
Qed.

(** ** Lists of files *)
Hypothesis Sorts : sorts sort.
Definition shown (e : list N) : list N := if (0 <? isdir e)%Z then fit E (e ++ [slash]) else e.
Lemma list_entries_eq l es : Forall piece_ok l -> text (glob_text l) -> Forall text es ->
  list_entries E isdir (glob_text l) es = Ok (map shown (filter (fun e => visibleb e && ((0 <? isdir e)%Z || globb (glob_text l) e)) es)).
Proof.
  intros P T F. induction F as [|e es Te F IH]; [reflexivity|]. cbn [list_entries filter]. unfold visibleb at 1.
  destruct (match e with c :: _ => is_dot c | [] => false end); cbn [negb andb]; [exact IH|]. destruct (0 <? isdir e)%Z eqn:D; cbn [orb].
  - rewrite IH. cbn [bind map]. unfold shown at 2. now rewrite D.
  - unfold globb at 1. destruct (glob_matches false l e [] [] P T Te) as (m & -> & _). cbn [bind]. rewrite IH. cbn [bind]. destruct m; [|reflexivity]. cbn [map]. unfold shown at 2. now rewrite D.
Qed.
Lemma sorted_files l : Forall text l -> Permutation (sort _ FileCompare l) l /\ StronglySorted name_le (sort _ FileCompare l).
Proof using Sorts.
  clear - Sorts. intros T. rewrite Forall_forall in T. destruct (Sorts _ FileCompare l) as (P & S). split; [exact P|].
  assert (StronglySorted (fun x y => (FileCompare x y <= 0)%Z) (sort _ FileCompare l)) as Q.
  { apply S.
    - intros x y X Y. rewrite !file_compare by auto. rewrite (first_difference_opp x y). lia.
    - intros x y z X Y Z. rewrite !file_compare by auto. apply first_difference_trans; auto. }
  assert (forall x, In x (sort _ FileCompare l) -> text x) as I by (intros x X; apply T; eapply Permutation_in; eassumption).
  clear -Q I. induction Q as [|x k Q IH F]; [constructor|]. constructor; [apply IH; intros; apply I; now right|].
  rewrite Forall_forall in *. intros y Y. unfold name_le. rewrite <- file_compare; [now apply F|apply I; now left|apply I; now right].
Qed.
End Vector.
