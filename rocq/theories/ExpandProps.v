(** C156-C157: the expansion of file names on the command line. *)
From Coq Require Import Arith NArith ZArith Bool Lia String Permutation Sorted List ZifyBool ZifyNat ZifyN.
From Verif Require Import Base Outcome CStringModel CStringSpec CStringProps OptionModel GlobModel GlobSpec GlobProps PathModel PathProps ConfigureProof ExpandModel ExpandProof.
Import ListNotations.

Section ExpandProps.
Variable E : nat.
Variable isdir : list N -> Z.
Variable accessible : list N -> bool.
Variable entries : list N -> option (list (list N)).
Variable cwd : list N.
Variable home : option (list N).
Variable user : list N -> option (list N).
Variable sort : forall A : Type, (A -> A -> Z) -> list A -> list A.
Hypothesis Sorts : sorts sort.
Notation expanded := (ExpandFilenames E isdir accessible entries cwd home user sort).
Notation get := (GetPathComponent E isdir accessible).
Notation becomes := (becomes E isdir accessible entries cwd home user sort).

Definition wildcards : list N := [42; 63; 123; 125; 91; 93]%N.     (* * ? { } [ ] *)
Definition wild (p : list N) : Prop := exists c, In c p /\ In c wildcards.
(** an argument that starts like a name: not with white space, a comma, a sign, an exclamation mark, a quote or a tilde *)
Definition nameable (a : list N) : Prop := exists c s, a = c :: s /\ isspace c = false /\ ~ In c [33; 34; 39; 43; 44; 45; 126]%N.
(** the order of a list of names *)
Definition in_order (l : list (list N)) : Prop := StronglySorted (fun x y => (first_difference x y <= 0)%Z) l.

(** ** Arguments are expanded one by one, and fit *)
(** C156: arguments that are not options with parameters are expanded each for itself, in order, and the vector holds all of them. *)
Theorem expand_each : forall argv rs,
  Forall2 (fun a r => (exists z, ParseWizardOption WizardCommandOptions false a = Ok z /\ (z <= 0)%Z) /\ expanded [a] = Ok r) argv rs ->
  expanded argv = Ok (concat rs).
Proof.
  intros argv rs H. unfold ExpandFilenames.
  destruct (loop_eq E isdir accessible entries cwd home user sort (length argv) (length argv) argv [] (length argv + 1) rs) as (c & -> & C); [lia|lia|cbn; lia| |].
  - clear -H. induction H as [|a r argv rs ((z & Pz & Z) & H) T IH]; constructor; [|exact IH]. split; [now exists z|].
    rewrite top_one, Pz in H. cbn [bind] in H. destruct (Z.ltb_spec 0 z); [lia|exact H].
  - cbn [bind app] in *. destruct (Nat.ltb_spec (length (concat rs)) c); [reflexivity|lia].
Qed.
(** With options with parameters as well: no write behind the vector. *)
Theorem expand_safe : forall argv, Forall (fun a => exists r, expanded [a] = Ok r) argv -> exists r, expanded argv = Ok r.
Proof.
  intros argv H. unfold ExpandFilenames at 1.
  destruct (loop_safe E isdir accessible entries cwd home user sort (length argv) (length argv) argv [] (length argv + 1)) as (v & c & -> & C); [lia|lia|cbn; lia|exact H|].
  cbn [bind]. destruct (Nat.ltb_spec (length v) c); [eauto|lia].
Qed.

(** ** Arguments that stay as they are *)
Lemma nameable_named a : nameable a -> named a.
Proof. intros (c & s & -> & S & I). apply named_name; [exact S|]. cbn in *. lia. Qed.
Lemma named_one a : named a -> expanded [a] = becomes a.
Proof. intros N. rewrite top_one, (parse_named a N). reflexivity. Qed.
Lemma isglob_iff f : IsGlob accessible f = true <-> accessible f = false /\ wild f.
Proof.
  unfold IsGlob. rewrite andb_true_iff, negb_true_iff, existsb_exists. unfold wild. split; intros (A & c & I & W); (split; [exact A|]); exists c; (split; [exact I|]).
  - apply existsb_exists in W. destruct W as (w & Iw & Q). apply N.eqb_eq in Q. now subst.
  - apply existsb_exists. exists c. split; [exact W|apply N.eqb_refl].
Qed.
Lemma becomes_no_glob a f : get a TailPath = Ok f -> IsGlob accessible f = false -> becomes a = Ok [a].
Proof.
  intros T G. unfold ExpandProof.becomes. destruct (match a with c :: _ => (c =? 34)%N || (c =? 39)%N | [] => false end); [reflexivity|].
  rewrite T. cbn [bind]. now rewrite G.
Qed.
Lemma tail_sub a : plain E accessible a -> exists f, get a TailPath = Ok f /\ incl f a.
Proof.
  intros P. destruct (rpos_sep_cases a) as [(d & f & -> & F)|F].
  - exists f. split; [now apply head_tail|]. intros x I. apply in_or_app. right. now right.
  - exists a. split; [now apply tail_of_name|apply incl_refl].
Qed.
(** C156: an argument without wildcards, an option or a quoted one stays as it is. *)
Theorem expand_literal : forall a, nameable a \/ IsWizardOption a = true -> plain E accessible a -> ~ wild a -> expanded [a] = Ok [a].
Proof.
  intros a Na P W. rewrite named_one by (destruct Na; [now apply nameable_named|now apply named_option]).
  destruct (tail_sub a P) as (f & T & I). apply (becomes_no_glob a f T). apply not_true_iff_false. intros G. apply isglob_iff in G.
  destruct G as (_ & c & Ic & Wc). apply W. exists c. split; [now apply I|exact Wc].
Qed.
Theorem expand_quoted : forall q s, In q [34; 39]%N -> expanded [q :: s] = Ok [q :: s].
Proof.
  intros q s Q. cbn in Q. rewrite named_one by (apply named_name; [unfold isspace; lia|cbn; lia]). unfold ExpandProof.becomes.
  assert ((q =? 34)%N || (q =? 39)%N = true) as -> by lia. reflexivity.
Qed.

(** ** Patterns *)
Definition name (path e : list N) : list N := match path with [] => e | _ => path ++ slash :: e end.
Lemma fit_all s : length s < E -> fit E s = s.
Proof. intros L. unfold fit. apply firstn_all2. lia. Qed.
Lemma xname_name path e : length path + length e + 1 < E -> match path with [] => fit E e | _ => fit E (fit E (fit E path ++ [slash]) ++ e) end = name path e.
Proof.
  intros L. unfold name. destruct path as [|c path]; [apply fit_all; cbn in L; lia|]. rewrite (fit_all (c :: path)) by lia.
  rewrite (fit_all (_ ++ [slash])) by (rewrite app_length; cbn [length] in *; lia). rewrite fit_all by (rewrite !app_length; cbn [length] in *; lia). now rewrite <- app_assoc.
Qed.
Definition picked (path : list N) (l : list piece) (e : list N) : bool :=
  visibleb e && globb (glob_text l) e && negb (0 <? isdir e)%Z && accessible (name path e).
Notation listed l := (fun e => visibleb e && ((0 <? isdir e)%Z || globb (glob_text l) e)).
Lemma shown_text e : text e -> text (shown E isdir e).
Proof.
  intros T. unfold shown. destruct (0 <? isdir e)%Z; [|exact T]. unfold fit. rewrite <- (firstn_skipn (E - 1) (e ++ [slash])) in *.
  assert (text (e ++ [slash])) as K by (apply Forall_app; split; [exact T|repeat constructor; reflexivity]).
  rewrite <- (firstn_skipn (E - 1) (e ++ [slash])) in K. apply Forall_app in K. rewrite firstn_skipn. apply K.
Qed.
(** the list of files, if one that is no directory is listed *)
Lemma pattern_files a path dir l es :
  nameable a \/ (exists s, a = 126%N :: s) -> get a TailPath = Ok (glob_text l) -> get a HeadPath = Ok dir -> ExpandFilename E home user dir = path ->
  IsGlob accessible (glob_text l) = true -> Forall piece_ok l -> text (glob_text l) ->
  entries (match path with [] => cwd | _ => path end) = Some es -> Forall text es ->
  (forall e, In e es -> length path + length e + 2 < E) ->
  becomes a = let files := sort _ FileCompare (map (shown E isdir) (filter (listed l) es)) in
              if forallb (fun f => (0 <? isdir f)%Z) files then Ok [a] else Ok (filter accessible (map (name path) files)).
Proof.
  intros Na T H X G P Tl En Te Le. unfold ExpandProof.becomes.
  replace (match a with c :: _ => (c =? 34)%N || (c =? 39)%N | [] => false end) with false.
  2: { destruct Na as [(c & s & -> & _ & I)|(s & ->)]; [cbn in I; lia|reflexivity]. }
  rewrite T. cbn [bind]. rewrite G. cbn [negb]. rewrite H. cbn [bind]. rewrite X. unfold ListFiles. rewrite En, list_entries_eq by assumption. cbn [bind].
  cbv zeta. destruct (forallb _ _); [reflexivity|]. do 2 f_equal. apply map_ext_in. intros f F. apply xname_name.
  destruct (Sorts _ FileCompare (map (shown E isdir) (filter (listed l) es))) as (Pm & _). apply (Permutation_in _ Pm) in F. apply in_map_iff in F.
  destruct F as (e & <- & F). apply filter_In in F. specialize (Le e (proj1 F)). unfold shown, fit. destruct (0 <? isdir e)%Z; [|lia].
  rewrite firstn_length, app_length. cbn [length]. lia.
Qed.
Lemma pattern_names path l es :
  Forall text es -> (forall e, In e es -> length path + length e + 2 < E) ->
  (forall e, In e es -> (0 < isdir e)%Z -> accessible (name path (e ++ [slash])) = false) ->
  exists names, filter accessible (map (name path) (sort _ FileCompare (map (shown E isdir) (filter (listed l) es)))) = map (name path) names /\
    Permutation names (filter (picked path l) es) /\ in_order names.
Proof.
  intros T Le D. set (files := map (shown E isdir) (filter (listed l) es)).
  assert (Forall text files) as Tf.
  { rewrite Forall_forall in *. intros f F. apply in_map_iff in F. destruct F as (e & <- & F). apply filter_In in F. apply shown_text. now apply T. }
  destruct (sorted_files sort Sorts files Tf) as (Pm & So).
  exists (filter (fun f => accessible (name path f)) (sort _ FileCompare files)). split; [|split].
  - apply filter_map_comm.
  - rewrite (permutation_filter _ _ _ Pm). unfold files. rewrite filter_map_comm, filter_filter.
    assert (map (shown E isdir) (filter (fun e => listed l e && accessible (name path (shown E isdir e))) es) = filter (picked path l) es) as ->; [|reflexivity].
    clear T Tf Pm So files. revert Le D. induction es as [|e es IH]; intros Le D; [reflexivity|]. cbn [filter].
    assert (IH' := IH (fun x I => Le x (or_intror I)) (fun x I => D x (or_intror I))).
    destruct (0 <? isdir e)%Z eqn:Q.
    + assert (accessible (name path (shown E isdir e)) = false) as ->.
      { unfold shown. rewrite Q. specialize (Le e (or_introl eq_refl)). rewrite fit_all by (rewrite app_length; cbn [length]; lia). apply D; [now left|lia]. }
      rewrite andb_false_r. unfold picked at 1. rewrite Q. cbn [negb]. rewrite andb_false_r. cbn [andb]. exact IH'.
    + unfold shown at 2. rewrite Q. unfold picked at 1. rewrite Q. cbn [negb orb]. rewrite andb_true_r.
      destruct (visibleb e && globb (glob_text l) e && accessible (name path e)); [|exact IH']. cbn [map]. rewrite IH'. unfold shown. now rewrite Q.
  - now apply sorted_filter.
Qed.
Lemma listed_some l es e : In e es -> visible e -> globb (glob_text l) e = true -> (isdir e <= 0)%Z ->
  forallb (fun f => (0 <? isdir f)%Z) (sort _ FileCompare (map (shown E isdir) (filter (listed l) es))) = false.
Proof.
  intros I V G D. apply not_true_iff_false. intros F. rewrite forallb_forall in F.
  destruct (Sorts _ FileCompare (map (shown E isdir) (filter (listed l) es))) as (Pm & _).
  assert (0 <? isdir e = true)%Z as K; [|lia]. apply F. apply (Permutation_in _ (Permutation_sym Pm)). apply in_map_iff. exists e.
  unfold shown. replace (0 <? isdir e)%Z with false by lia. split; [reflexivity|]. apply filter_In. split; [exact I|].
  rewrite (proj2 (visible_iff e) V), G. now rewrite orb_true_r.
Qed.

(** A pattern [l] in directory [d], which has the entries [es]. *)
Record pattern (d : list N) (l : list piece) (es : list (list N)) : Prop := {
  p_dir : d <> [];
  p_name : nameable (d ++ slash :: glob_text l);
  p_plain : plain E accessible (d ++ slash :: glob_text l);
  p_free : free 47 (glob_text l);
  p_ok : Forall piece_ok l;
  p_text : text (glob_text l);
  p_wild : wild (glob_text l);
  p_new : accessible (glob_text l) = false;
  p_entries : entries d = Some es;
  p_texts : Forall text es;
  p_fit : forall e, In e es -> length d + length e + 2 < E }.
Lemma wild_some l : wild (glob_text l) -> l <> [].
Proof. intros (c & I & _) ->. destruct I. Qed.
Lemma expand_no_tilde c s : c <> 126%N -> ExpandFilename E home user (c :: s) = c :: s.
Proof. intros H. unfold ExpandFilename. destruct c as [|p]; [reflexivity|]. do 7 (destruct p as [p|p|]; try reflexivity). contradiction. Qed.
Lemma p_becomes d l es : pattern d l es -> expanded [d ++ slash :: glob_text l] =
  let files := sort _ FileCompare (map (shown E isdir) (filter (listed l) es)) in
  if forallb (fun f => (0 <? isdir f)%Z) files then Ok [d ++ slash :: glob_text l] else Ok (filter accessible (map (name d) files)).
Proof.
  intros [D Na Pl Fr Ok_ Tx Wi New En Te Fi]. rewrite named_one by now apply nameable_named.
  destruct (head_tail E isdir accessible d (glob_text l) Pl Fr) as (H & T).
  assert (ExpandFilename E home user d = d) as X.
  { destruct d as [|c d]; [contradiction|]. apply expand_no_tilde. destruct Na as (c' & s & Q & _ & I). injection Q as <- _. cbn in I. lia. }
  apply (pattern_files _ d d l es); try assumption; auto.
  - apply isglob_iff. auto.
  - destruct d; [contradiction|exact En].
Qed.

(** C157: a pattern in a directory becomes the names of the visible files that match, in order.  (No entry has the name of
    a directory in the working directory, and one of the visible entries matches.) *)
Theorem expand_pattern : forall d l es, pattern d l es -> (forall e, In e es -> (isdir e <= 0)%Z) ->
  (exists e, In e es /\ visible e /\ matches false l e) ->
  exists names keep, expanded [d ++ slash :: glob_text l] = Ok (map (fun e => d ++ slash :: e) names) /\
    Permutation names (filter keep es) /\ in_order names /\
    forall e, In e es -> (keep e = true <-> visible e /\ matches false l e /\ accessible (d ++ slash :: e) = true).
Proof.
  intros d l es Pt D (e & I & V & M). pose proof Pt as [Dn Na Pl Fr Ok_ Tx Wi New En Te Fi]. rewrite (p_becomes d l es Pt). cbv zeta.
  assert (forall x, In x es -> text x) as Tx' by (rewrite Forall_forall in Te; exact Te).
  rewrite (listed_some l es e I V); [|apply globb_iff; auto using wild_some|now apply D].
  destruct (pattern_names d l es Te Fi) as (names & -> & Pm & So). { intros x X Y. specialize (D x X). lia. }
  exists names, (picked d l). split; [|split; [exact Pm|split; [exact So|]]].
  - f_equal. apply map_ext. intros x. unfold name. now destruct d.
  - intros x X. unfold picked. replace (0 <? isdir x)%Z with false by (specialize (D x X); lia). rewrite !andb_true_iff, visible_iff, globb_iff by auto using wild_some.
    unfold name. destruct d; [contradiction|]. cbn [negb]. tauto.
Qed.
(** A pattern that nothing matches, or of a directory that cannot be read, stays. *)
Theorem expand_unmatched : forall d l es, pattern d l es -> (forall e, In e es -> (isdir e <= 0)%Z) ->
  (forall e, In e es -> visible e -> ~ matches false l e) -> expanded [d ++ slash :: glob_text l] = Ok [d ++ slash :: glob_text l].
Proof.
  intros d l es Pt D U. rewrite (p_becomes d l es Pt). cbv zeta. pose proof Pt as [Dn Na Pl Fr Ok_ Tx Wi New En Te Fi]. rewrite Forall_forall in Te.
  assert (filter (listed l) es = []) as ->.
  { clear -D U Te Tx Ok_ Wi. induction es as [|e es IH]; [reflexivity|]. cbn [filter]. specialize (D e) as De. replace (0 <? isdir e)%Z with false by (specialize (De (or_introl eq_refl)); lia). cbn [orb].
    destruct (visibleb e && globb (glob_text l) e) eqn:Q.
    - apply andb_prop in Q. destruct Q as (Q & R). apply visible_iff in Q. apply globb_iff in R; try assumption; [|apply Te; now left|now apply wild_some]. destruct (U e (or_introl eq_refl) Q R).
    - apply IH; intros x I; [now apply D; right|now apply U; right|now apply Te; right]. }
  cbn [map]. destruct (Sorts _ FileCompare []) as (Pm & _). apply Permutation_sym, Permutation_nil in Pm. now rewrite Pm.
Qed.
Theorem expand_unreadable : forall a d g, nameable a -> get a HeadPath = Ok d -> get a TailPath = Ok g -> d <> [] ->
  nameable d -> entries d = None -> expanded [a] = Ok [a].
Proof.
  intros a d g Na H T Dn Nd En. rewrite named_one by now apply nameable_named. unfold ExpandProof.becomes.
  destruct (match a with c :: _ => (c =? 34)%N || (c =? 39)%N | [] => false end); [reflexivity|]. rewrite T. cbn [bind]. destruct (negb (IsGlob accessible g)); [reflexivity|].
  rewrite H. cbn [bind]. destruct Nd as (c & s & -> & _ & I). rewrite expand_no_tilde by (cbn in I; lia). unfold ListFiles. now rewrite En.
Qed.
(** C157: a pattern without directory becomes the files of the working directory; its directories are left out. *)
Theorem expand_here : forall l es,
  nameable (glob_text l) -> plain E accessible (glob_text l) -> free 47 (glob_text l) -> Forall piece_ok l -> text (glob_text l) ->
  wild (glob_text l) -> accessible (glob_text l) = false -> entries cwd = Some es -> Forall text es -> (forall e, In e es -> length e + 2 < E) ->
  (forall e, (0 < isdir e)%Z -> accessible (e ++ [slash]) = false) ->
  (exists e, In e es /\ visible e /\ matches false l e /\ (isdir e <= 0)%Z) ->
  exists names keep, expanded [glob_text l] = Ok names /\ Permutation names (filter keep es) /\ in_order names /\
    forall e, In e es -> (keep e = true <-> visible e /\ matches false l e /\ (isdir e <= 0)%Z /\ accessible e = true).
Proof.
  intros l es Na Pl Fr Ok_ Tx Wi New En Te Fi D (e & I & V & M & De). rewrite named_one by now apply nameable_named.
  assert (forall x, In x es -> text x) as Tx' by (rewrite Forall_forall in Te; exact Te).
  destruct (tail_of_name E isdir accessible (glob_text l) Pl Fr) as (H & T).
  rewrite (pattern_files _ [] [] l es) by (try assumption; auto; apply isglob_iff; auto). cbv zeta.
  rewrite (listed_some l es e I V); [|apply globb_iff; auto using wild_some|exact De].
  destruct (pattern_names [] l es Te Fi) as (names & -> & Pm & So). { intros x X Y. now apply D. }
  exists names, (picked [] l). split; [|split; [exact Pm|split; [exact So|]]].
  - f_equal. cbn [name]. apply map_id.
  - intros x X. unfold picked. rewrite !andb_true_iff, visible_iff, globb_iff, negb_true_iff, Z.ltb_ge by auto using wild_some. cbn [name]. tauto.
Qed.
(** C157: a tilde stands for the home directory. *)
Theorem expand_home : forall h g r, home = Some h -> nameable (h ++ slash :: g) -> h <> [] -> plain E accessible (h ++ slash :: g) ->
  plain E accessible (126%N :: slash :: g) -> free 47 g -> expanded [h ++ slash :: g] = Ok r -> r <> [h ++ slash :: g] ->
  expanded [126%N :: slash :: g] = Ok r.
Proof.
  intros h g r Hm Na Dn P P' F. unfold slash in *. rewrite !named_one; [|apply named_name; [reflexivity|cbn; lia]|now apply nameable_named].
  destruct (head_tail E isdir accessible h g P F) as (H & T). destruct (head_tail E isdir accessible [126%N] g P' F) as (H' & T'). cbn [app] in H', T'.
  pose proof Na as (c & s & Q & Sp & I). unfold ExpandProof.becomes. rewrite H, T. rewrite H', T'. cbn [bind].
  rewrite Q. assert ((c =? 34)%N || (c =? 39)%N = false) as -> by (cbn in I; lia). cbn [N.eqb Pos.eqb orb]. rewrite <- Q.
  destruct (negb (IsGlob accessible g)); [intros [= <-] R; now destruct R|].
  assert (ExpandFilename E home user h = h) as ->. { destruct h as [|x h]; [contradiction|]. apply expand_no_tilde. injection Q as -> _. cbn in I. lia. }
  assert (ExpandFilename E home user [126%N] = h) as ->.
  { cbn [ExpandFilename]. rewrite Hm, app_nil_r. destruct P as (_ & L & _). rewrite app_length in L. cbn [length] in L. rewrite !fit_all; [reflexivity|lia|rewrite fit_all; lia]. }
  destruct (ListFiles E isdir entries sort (match h with [] => cwd | _ => h end) g) as [[files|]| |]; cbn [bind]; try discriminate.
  - destruct (forallb (fun f => (0 <? isdir f)%Z) files); [intros [= <-] R; now destruct R|]. auto.
  - intros [= <-] R. now destruct R.
Qed.

(** ** What is false *)
(** The parameter of an option is expanded like any other argument. *)
Theorem expand_parameter_refuted : forall o p r, IsWizardOption o = true -> plain E accessible o -> ~ wild o -> nameable p ->
  expanded [p] = Ok r -> expanded [o; p] = Ok (o :: r).
Proof.
  intros o p r O P W Np R. rewrite (expand_each [o; p] [[o]; r]); [cbn [concat app]; now rewrite app_nil_r|].
  constructor; [|constructor; [|constructor]].
  - split; [exists (-1)%Z; split; [apply parse_named; now apply named_option|lia]|]. apply expand_literal; auto.
  - split; [exists (-1)%Z; split; [apply parse_named; now apply nameable_named|lia]|exact R].
Qed.
(** A pattern that matches, but no file, vanishes. *)
Theorem expand_vanishes_refuted : forall d l es, pattern d l es -> (forall e, In e es -> (isdir e <= 0)%Z) ->
  (exists e, In e es /\ visible e /\ matches false l e) -> (forall e, In e es -> accessible (d ++ slash :: e) = false) ->
  expanded [d ++ slash :: glob_text l] = Ok [].
Proof.
  intros d l es Pt D Ex A. destruct (expand_pattern d l es Pt D Ex) as (names & keep & -> & Pm & _ & K).
  assert (filter keep es = []) as Q.
  { clear -K A. induction es as [|e es IH]; [reflexivity|]. cbn [filter]. destruct (keep e) eqn:Q.
    - apply K in Q; [|now left]. rewrite A in Q by now left. destruct Q as (_ & _ & Q). discriminate.
    - apply IH; intros x X; [apply A; now right|apply K; now right]. }
  rewrite Q in Pm. apply Permutation_sym, Permutation_nil in Pm. now subst.
Qed.
(** A file that matches is lost if the working directory has a directory of its name. *)
Theorem expand_lost_refuted : forall d l es e, pattern d l es -> In e es -> (0 < isdir e)%Z -> (forall x, accessible (x ++ [slash]) = false) ->
  e <> glob_text l -> exists r, expanded [d ++ slash :: glob_text l] = Ok r /\ ~ In (d ++ slash :: e) r.
Proof.
  intros d l es e Pt I D A Ne. rewrite (p_becomes d l es Pt). cbv zeta. pose proof Pt as [Dn Na Pl Fr Ok_ Tx Wi New En Te Fi].
  destruct (forallb _ _).
  - eexists. split; [reflexivity|]. intros [Q|[]]. apply Ne. apply app_inv_head in Q. now injection Q as ->.
  - destruct (pattern_names d l es Te Fi) as (names & -> & Pm & _).
    { intros x _ _. replace (name d (x ++ [slash])) with ((d ++ slash :: x) ++ [slash]); [apply A|]. unfold name. destruct d; [contradiction|]. now rewrite <- app_assoc. }
    eexists. split; [reflexivity|]. intros X. apply in_map_iff in X. destruct X as (x & Q & X). unfold name in Q. destruct d as [|c d]; [contradiction|].
    apply app_inv_head in Q. injection Q as ->. apply (Permutation_in _ Pm) in X. apply filter_In in X. unfold picked in X. lia.
Qed.
(** A pattern that ends in a class is cut at its bracket, and never expanded. *)
Theorem expand_class_refuted : forall f s, nameable (f ++ 91%N :: s ++ [93%N]) -> length (f ++ 91%N :: s ++ [93%N]) < E ->
  free 58 (f ++ 91%N :: s ++ [93%N]) -> free 91 s -> plain E accessible f -> ~ wild f ->
  expanded [f ++ 91%N :: s ++ [93%N]] = Ok [f ++ 91%N :: s ++ [93%N]].
Proof.
  intros f s Na L C Fs P W. rewrite named_one by now apply nameable_named. destruct (tail_sub f P) as (t & T & I).
  assert (get (f ++ 91%N :: s ++ [93%N]) TailPath = Ok t) as K.
  { rewrite <- T. rewrite (get_plain E isdir accessible f) by exact P. cbv zeta. unfold GetPathComponent. rewrite firstn_all2 by lia. unfold strip_filesystem.
    rewrite first_pos_none by now apply free_test. cbn [bind]. rewrite (strip_subnode_app isdir accessible) by exact Fs. now destruct f. }
  apply (becomes_no_glob _ t K). apply not_true_iff_false. intros G. apply isglob_iff in G. destruct G as (_ & c & Ic & Wc). apply W. exists c. split; [now apply I|exact Wc].
Qed.
(** A pattern in the root directory is looked up in the working directory. *)
Theorem expand_root_refuted : forall g r, nameable g -> plain E accessible (slash :: g) -> plain E accessible g -> free 47 g ->
  expanded [g] = Ok r -> r <> [g] -> expanded [slash :: g] = Ok r.
Proof.
  intros g r Na P P' F. rewrite !named_one; [|apply named_name; [reflexivity|unfold slash; cbn; lia]|now apply nameable_named].
  destruct (head_of_root_refuted E isdir accessible g P P' F) as (H & T). unfold ExpandProof.becomes. change (47%N :: g) with (slash :: g) in H, T. rewrite H, T.
  destruct Na as (c & s & Q & _ & I). rewrite Q at 1. assert ((c =? 34)%N || (c =? 39)%N = false) as -> by (cbn in I; lia). change ((slash =? 34)%N || (slash =? 39)%N) with false. cbn iota.
  destruct (tail_of_name E isdir accessible g P' F) as (-> & ->). cbn [bind]. destruct (negb (IsGlob accessible g)); [intros [= <-] R; now destruct R|].
  cbn [ExpandFilename]. destruct (ListFiles E isdir entries sort cwd g) as [[files|]| |]; cbn [bind]; try discriminate.
  - destruct (forallb (fun f => (0 <? isdir f)%Z) files); [intros [= <-] R; now destruct R|]. auto.
  - intros [= <-] R. now destruct R.
Qed.
(** The argument - and an empty one: memory that was not written is read. *)
Theorem expand_dash_refuted : forall argv, expanded ([45%N] :: argv) = UB /\ expanded ([] :: argv) = UB.
Proof.
  intros argv. split; unfold ExpandFilenames; cbn [length expand]; unfold push; cbn [length Nat.ltb Nat.leb bind Nat.add].
  - assert (ParseWizardOption WizardCommandOptions false [45%N] = UB) as -> by (vm_compute; reflexivity). reflexivity.
  - assert (ParseWizardOption WizardCommandOptions false [] = UB) as -> by (vm_compute; reflexivity). reflexivity.
Qed.
End ExpandProps.

Print Assumptions expand_each.
Print Assumptions expand_safe.
Print Assumptions expand_literal.
Print Assumptions expand_quoted.
Print Assumptions expand_pattern.
Print Assumptions expand_unmatched.
Print Assumptions expand_unreadable.
Print Assumptions expand_here.
Print Assumptions expand_home.
Print Assumptions expand_parameter_refuted.
Print Assumptions expand_vanishes_refuted.
Print Assumptions expand_lost_refuted.
Print Assumptions expand_class_refuted.
Print Assumptions expand_root_refuted.
Print Assumptions expand_dash_refuted.

(** ** Examples *)
Definition ex_dir (p : list N) : Z := if list_eq_dec N.eq_dec p (b "old") then 1%Z else (-1)%Z.
Definition ex_files : list (list N) := [b "lib/b.c"; b "lib/a.c"; b "lib/.x.c"; b "lib/a.h"; b "z.c"; b "lib/old"].
Definition ex_accessible (p : list N) : bool := existsb (fun f => if list_eq_dec N.eq_dec p f then true else false) ex_files.
Definition ex_entries (p : list N) : option (list (list N)) :=
  if list_eq_dec N.eq_dec p (b "lib") then Some [b "b.c"; b ".x.c"; b "a.c"; b "a.h"]
  else if list_eq_dec N.eq_dec p (b "sub") then Some [b "x"; b "y"]
  else if list_eq_dec N.eq_dec p (b "mix") then Some [b "old"; b "a"]
  else if list_eq_dec N.eq_dec p (b "/w") then Some [b "z.c"; b "old"] else None.
Notation ex100 := (ExpandFilenames 100 ex_dir ex_accessible ex_entries (b "/w") (Some (b "lib")) (fun _ => None) insertion_sort).
Ltac decide_plain := split; [discriminate|]; split; [cbn; lia|]; split; [left; cbn; decide_free|first [left; discriminate | right; cbn; decide_free]].
Ltac decide_text := repeat (apply Forall_cons; [split; reflexivity|]); apply Forall_nil.
Example expand_100 : ex100 [b "-key"; b "lib/*.c"; b "z.?"; b "lib/*.x"; b "'*'"; b "~/*.h"; b "sub/?"] =
  Ok [b "-key"; b "lib/a.c"; b "lib/b.c"; b "z.c"; b "lib/*.x"; b "'*'"; b "lib/a.h"].
Proof. vm_compute. reflexivity. Qed.
Example pattern_100 : pattern 100 ex_accessible ex_entries (b "lib") [Star; Lit 46; Lit 99] [b "b.c"; b ".x.c"; b "a.c"; b "a.h"].
Proof.
  constructor; try discriminate; try reflexivity.
  - exists 108%N, (b "ib/*.c"). split; [reflexivity|]. split; [reflexivity|cbn; lia].
  - decide_plain.
  - cbn. decide_free.
  - repeat (apply Forall_cons; [cbn; lia|]). apply Forall_nil.
  - decide_text.
  - exists 42%N. split; cbn; auto.
  - repeat (apply Forall_cons; [decide_text|]). apply Forall_nil.
  - cbn. intros e H. repeat (destruct H as [<-|H]; [cbn; lia|]). destruct H.
Qed.
Example expand_pattern_100 : exists names keep, ex100 [b "lib/*.c"] = Ok (map (fun e => b "lib" ++ slash :: e) names) /\
  Permutation names (filter keep [b "b.c"; b ".x.c"; b "a.c"; b "a.h"]) /\ in_order names /\
  forall e, In e [b "b.c"; b ".x.c"; b "a.c"; b "a.h"] -> (keep e = true <-> visible e /\ matches false [Star; Lit 46; Lit 99] e /\ ex_accessible (b "lib" ++ slash :: e) = true).
Proof.
  apply (expand_pattern 100 ex_dir ex_accessible ex_entries (b "/w") (Some (b "lib")) (fun _ => None) insertion_sort insertion_sorts (b "lib") [Star; Lit 46; Lit 99] _ pattern_100).
  - cbn. intros e H. repeat (destruct H as [<-|H]; [cbn; lia|]). destruct H.
  - exists (b "b.c"). split; [now left|]. split; [cbn; lia|]. apply (globb_iff [Star; Lit 46; Lit 99] (b "b.c")); try discriminate; try reflexivity.
    + repeat (apply Forall_cons; [cbn; lia|]). apply Forall_nil.
    + decide_text.
    + decide_text.
Qed.
(** vanished, lost, a class, the root, and - *)
Example vanished_100 : ex100 [b "sub/?"] = Ok [] /\ ex100 [b "mix/*"] = Ok [] /\ ex100 [b "lib/[ab]"] = Ok [b "lib/[ab]"] /\
  ex100 [b "/*.c"] = Ok [b "z.c"] /\ ex100 [b "-"] = UB.
Proof. vm_compute. repeat split. Qed.
