(** Lists of messages (C253, C254). *)
From Coq Require Import NArith ZArith Bool String Lia ZifyBool ZifyNat ZifyN Arith Permutation Sorted List.
From Verif Require Import Base Outcome CStringSpec OptionModel GlobModel GlobSpec GlobProps SplayModel SplaySpec SplayProof SplayProof2.
From Verif Require Import ConfigureModel ConfigureProof ConfigureProps ListInfoModel ListInfoProps LocaleListModel.
Import ListNotations.

(** ** Specification *)
(** the messages of a cache with these bindings, in the order of their keys *)
Definition messages (info : N -> entry) (b : list (list N * N)) : list entry := map (fun x => info (snd x)) b.
(** a message is listed if it is not hidden and its tag matches the pattern, whatever the case of its letters *)
Definition shown (l : list piece) (e : entry) : Prop := stealth e = false /\ (l = [] \/ exists m, name e = Some m /\ matches true l m).
(** the messages are there, have a tag and a path *)
Definition fine (info : N -> entry) (b : list (list N * N)) : Prop := Forall (fun x => snd x <> 0%N) b /\ text_named (messages info b) /\ cleanly (messages info b).
(** the tag in a line, the text in the next one *)
Definition row_of_locale (e : entry) (t : list N) : Prop :=
  exists n, name e = Some n /\ t = n ++ [10%N] ++ match value e with Some m => [32; 32]%N ++ m | None => [] end ++ [10%N].

(** ** Proof *)
Lemma to_nul_free s : zero_free (to_nul s).
Proof. induction s as [|c s IH]; [constructor|]. cbn [to_nul]. destruct (N.eqb_spec c 0); constructor; assumption. Qed.
Lemma strcasecmp_opp p : forall q, strcasecmp q p = (- strcasecmp p q)%Z.
Proof. induction p as [|c p IH]; intros [|d q]; cbn [strcasecmp]; try lia. rewrite (N.eqb_sym (lower d)). destruct (lower c =? lower d)%N; [apply IH|lia]. Qed.
Lemma tag_order : order (list N) tag_compare.
Proof.
  constructor; unfold tag_compare.
  - intros x y. rewrite (strcasecmp_opp (to_nul x) (to_nul y)). lia.
  - intros x y z. rewrite !strcasecmp_le by apply to_nul_free. apply text_le_trans.
Qed.
Section Lists.
Variable info : N -> entry.
Variable sort : forall A : Type, (A -> A -> Z) -> list A -> list A.
Hypothesis Sorts : sorts sort.
Local Notation sinv := (sinv (list N) tag_compare).
Local Notation fits := (fits (list N)).
Definition picks (pattern : list N) (e : entry) : bool :=
  negb (stealth e) && match name e with None => false | Some m => match GlobExpression (m ++ [0%N]) (pattern ++ [0%N]) true with Ok b => b | _ => false end end.
Lemma picks_shown l e m : Forall piece_ok l -> text (glob_text l) -> name e = Some m -> text m -> picks (glob_text l) e = true <-> shown l e.
Proof.
  intros P T M Tm. unfold picks, shown. rewrite M. destruct (glob_matches true l m [] [] P T Tm) as (y & G & B). rewrite G, andb_true_iff, negb_true_iff, B. split.
  - intros (S & [->|Q]); split; auto. right. eauto.
  - intros (S & [->|(m' & [= <-] & Q)]); auto.
Qed.
Lemma next_step s P k v Q : sinv s (P ++ (k, v) :: Q) -> fits (P ++ (k, v) :: Q) -> sp_next _ s = Some k ->
  exists s', next_value s = Ok (s', v) /\ sinv s' (P ++ (k, v) :: Q) /\ sp_next _ s' = head_key (list N) Q.
Proof.
  intros I F H. destruct (next_ok (list N) tag_compare false tag_order s P k v Q I F H) as (s' & E & I' & H'). exists s'. unfold next_value, GetNextValueInSplayTree. rewrite E. auto.
Qed.
Lemma collect_ok l : Forall piece_ok l -> text (glob_text l) -> forall Q P s fuel, fine info Q -> sinv s (P ++ Q) -> fits (P ++ Q) -> sp_next _ s = head_key _ Q -> length Q < fuel ->
  exists s', collect info fuel (glob_text l) s = Ok (s', filter (picks (glob_text l)) (messages info Q)) /\ sinv s' (P ++ Q).
Proof.
  intros PO T. induction Q as [|[k v] Q IH]; intros P s fuel (F1 & F2 & F3) I F H U; (destruct fuel as [|fuel]; [cbn in U; lia|]); cbn [collect].
  - unfold next_value, GetNextValueInSplayTree. rewrite (next_end (list N) tag_compare false s _ I H). cbn [bind]. change (0 =? 0)%N with true. cbv iota. exists s. split; [reflexivity|exact I].
  - destruct (next_step s P k v Q I F H) as (s1 & -> & I1 & H1). cbn [bind]. unfold text_named, cleanly, messages in F2, F3. cbn [map snd] in F2, F3. inversion F1; subst. inversion F2 as [|? ? (m & M & Tm) F2']; subst. inversion F3; subst.
    cbn [snd] in *. destruct (N.eqb_spec v 0) as [Z|_]; [contradiction|]. destruct (IH (P ++ [(k, v)]) s1 fuel) as (s2 & E & I2).
    + split; [assumption|]. split; assumption.
    + rewrite <- app_assoc. exact I1.
    + rewrite <- app_assoc. exact F.
    + exact H1.
    + cbn [length] in U. lia.
    + rewrite <- app_assoc in I2. exists s2. split; [|exact I2]. cbn [messages map snd filter]. fold (messages info Q). rewrite M. destruct (glob_matches true l m [] [] PO T Tm) as (y & G & _).
      assert (picks (glob_text l) (info v) = negb (stealth (info v)) && y) as -> by (unfold picks; rewrite M, G; reflexivity).
      destruct (stealth (info v)); cbn [bind negb andb]; [rewrite E; reflexivity|]. rewrite G. cbn [bind]. rewrite E. destruct y; reflexivity.
Qed.
Lemma reset_inv s l : sinv s l -> sinv (ResetSplayTreeIterator _ s) l /\ sp_next _ (ResetSplayTreeIterator _ s) = head_key _ l.
Proof. intros I. split; [exact I|]. cbn [ResetSplayTreeIterator sp_next]. rewrite first_key_ok. f_equal. apply I. Qed.
Lemma star_first s k v l : sinv s ((k, v) :: l) -> fits ((k, v) :: l) -> exists s', GetLocaleInfo_ (Some star) s = Ok (s', v) /\ sinv s' ((k, v) :: l) /\ sp_next _ s' = head_key _ l.
Proof. intros I F. destruct (reset_inv _ _ I) as [I1 H1]. destruct (next_step _ [] k v l I1 F H1) as (s' & E & I' & H'). exists s'. split; [exact E|auto]. Qed.
Lemma star_none s : sinv s [] -> GetLocaleInfo_ (Some star) s = Ok (ResetSplayTreeIterator _ s, 0%N).
Proof. intros I. destruct (reset_inv _ _ I) as [I1 H1]. unfold GetLocaleInfo_. change (strcasecmp star star =? 0)%Z with true. cbv iota. unfold next_value, GetNextValueInSplayTree. rewrite (next_end _ _ _ _ _ I1 H1). reflexivity. Qed.
Lemma filter_length {A} (p : A -> bool) l : length (filter p l) <= length l.
Proof. induction l as [|x l IH]; cbn [filter]; [lia|]. destruct (p x); cbn [length]; lia. Qed.
Lemma array_ok s l m p : sinv s l -> length m <= length l -> in_array s (filter p m) = Ok (filter p m).
Proof. intros (_ & _ & C & _) L. unfold in_array, GetNumberOfNodesInSplayTree. rewrite C. pose proof (filter_length p m). destruct (N.leb_spec (N.of_nat (length (filter p m))) (N.of_nat (length l))); [reflexivity|lia]. Qed.
Lemma turns_ok s l : sinv s l -> turns s = S (length l).
Proof. intros (_ & _ & C & _). unfold turns, GetNumberOfNodesInSplayTree. rewrite C, Nat2N.id. reflexivity. Qed.
Lemma listed_sorted l c : Forall piece_ok l -> text (glob_text l) -> text_named c -> cleanly c ->
  (forall e, In e c -> picks (glob_text l) e = true <-> shown l e) /\
  Permutation (sort entry LocaleInfoCompare (filter (picks (glob_text l)) c)) (filter (picks (glob_text l)) c) /\ StronglySorted entry_le (sort entry LocaleInfoCompare (filter (picks (glob_text l)) c)).
Proof.
  intros PO T TN CL. unfold text_named, cleanly in *. rewrite Forall_forall in TN, CL. split; [intros e I; destruct (TN e I) as (m & M & Tm); eapply picks_shown; eassumption|].
  set (p := picks (glob_text l)). destruct (Sorts entry LocaleInfoCompare (filter p c)) as (Pm & St). split; [exact Pm|].
  assert (forall x, In x (filter p c) -> zero_free (path x) /\ zero_free (name_of x)) as W.
  { intros x I. apply filter_In in I as [I _]. destruct (TN x I) as (m & M & Tm). split; [auto|]. unfold name_of. rewrite M. now apply text_zero_free. }
  eapply sorted_impl; [|apply St].
  - intros x y X Y. apply (Permutation_in x Pm) in X. apply (Permutation_in y Pm) in Y. apply (compare_le x y); apply W; assumption.
  - intros x y X Y. unfold LocaleInfoCompare. fold (ConfigureInfoCompare x y). fold (ConfigureInfoCompare y x). rewrite !compare_le by (apply W; assumption). apply entry_le_total.
  - intros x y z X Y Z. unfold LocaleInfoCompare. fold (ConfigureInfoCompare x y). fold (ConfigureInfoCompare y z). fold (ConfigureInfoCompare x z). rewrite !compare_le by (apply W; assumption). apply entry_le_trans.
Qed.
Lemma info_list_inv l s b : Forall piece_ok l -> text (glob_text l) -> sinv s b -> fits b -> fine info b ->
  exists s', GetLocaleInfoList info sort (glob_text l) s = Ok (s', match b with [] => None | _ => Some (sort entry LocaleInfoCompare (filter (picks (glob_text l)) (messages info b))) end) /\ sinv s' b.
Proof.
  intros PO T I F G. unfold GetLocaleInfoList. destruct b as [|[k v] b].
  - rewrite (star_none _ I). cbn [bind]. exists (ResetSplayTreeIterator _ s). split; [reflexivity|exact I].
  - destruct (star_first _ _ _ _ I F) as (s1 & E1 & I1 & _). rewrite E1. cbn [bind]. pose proof G as (V & _). inversion V as [|? ? V1 _]; subst. cbn [snd] in V1. destruct (N.eqb_spec v 0) as [Z|_]; [contradiction|]. cbv zeta.
    destruct (reset_inv _ _ I1) as [I2 H2]. rewrite (turns_ok _ _ I2). destruct (collect_ok l PO T ((k, v) :: b) [] _ (S (length ((k, v) :: b))) G I2 F H2) as (s3 & E3 & I3); [lia|]. rewrite E3. cbn [bind]. cbn [app] in I3.
    rewrite (array_ok _ _ _ _ I3) by (unfold messages; rewrite map_length; lia). cbn [bind]. exists s3. split; [reflexivity|exact I3].
Qed.

(** ** C253: whatever was stored, taken out, looked up and listed before: GetLocaleInfoList gives the messages that are not hidden and whose tags
    match, each once, by path and tag, and there is room for them; without messages it gives NULL *)
Theorem locale_info_list ops : (N.of_nat (length ops) < 2 ^ 1024)%N ->
  exists s rs f b, srun (list N) tag_compare false (NewSplayTree _) ops = Some (s, rs) /\ fm_run (list N) tag_compare (fm_empty _) ops rs f /\ bindings (list N) tag_compare f b /\
    forall l, Forall piece_ok l -> text (glob_text l) -> fine info b ->
      exists s' r, GetLocaleInfoList info sort (glob_text l) s = Ok (s', r) /\ IterateOverSplayTree _ (sp_root _ s') = Some b /\
        match r with
        | None => b = []
        | Some r => b <> [] /\ StronglySorted entry_le r /\ exists p, (forall e, In e (messages info b) -> p e = true <-> shown l e) /\ Permutation r (filter p (messages info b))
        end.
Proof.
  intros B. destruct (run_ok (list N) tag_compare false tag_order ops _ _ (new_inv _ _) B) as (s & rs & b & E & I & Ln & R). assert (fits b) as F by (unfold SplayProof2.fits; cbn [length] in Ln; generalize dependent (2 ^ 1024)%N; intros; lia).
  exists s, rs, (amap _ tag_compare b), b. split; [exact E|]. split; [exact R|]. split; [apply amap_bindings; [exact tag_order|apply I]|]. intros l PO T G.
  destruct (info_list_inv l s b PO T I F G) as (s' & E' & I'). eexists _, _. split; [exact E'|]. split; [rewrite IterateOverSplayTree_ok; f_equal; apply I'|].
  destruct G as (_ & TN & CL). destruct (listed_sorted l _ PO T TN CL) as (A & Pm & St). destruct b as [|x b]; [reflexivity|]. split; [discriminate|]. split; [exact St|]. eexists. split; [exact A|exact Pm].
Qed.
Lemma locale_row_ok e n : name e = Some n -> exists t, locale_row e = Ok t /\ row_of_locale e t.
Proof. intros N. unfold locale_row, row_of_locale. rewrite N. eexists. split; [reflexivity|]. exists n. split; reflexivity. Qed.
(** ListLocaleInfo prints every message that is not hidden once, under the one title of its file *)
Theorem locale_listing ops : (N.of_nat (length ops) < 2 ^ 1024)%N ->
  exists s rs f b, srun (list N) tag_compare false (NewSplayTree _) ops = Some (s, rs) /\ fm_run (list N) tag_compare (fm_empty _) ops rs f /\ bindings (list N) tag_compare f b /\
    (fine info b -> b <> [] -> exists s' t, ListLocaleInfo info sort s = Ok (s', Some t) /\ listing row_of_locale (OptionModel.b "Tag/Message") (messages info b) t).
Proof.
  intros B. destruct (run_ok (list N) tag_compare false tag_order ops _ _ (new_inv _ _) B) as (s & rs & b & E & I & Ln & R). assert (fits b) as F by (unfold SplayProof2.fits; cbn [length] in Ln; generalize dependent (2 ^ 1024)%N; intros; lia).
  exists s, rs, (amap _ tag_compare b), b. split; [exact E|]. split; [exact R|]. split; [apply amap_bindings; [exact tag_order|apply I]|]. intros G NE.
  destruct (info_list_inv [Star] s b ltac:(repeat constructor) ltac:(repeat constructor) I F G) as (s' & E' & I'). change (glob_text [Star]) with star in *. unfold ListLocaleInfo. rewrite E'. cbn [bind]. destruct G as (_ & TN & CL).
  destruct (listed_sorted [Star] _ ltac:(repeat constructor) ltac:(repeat constructor) TN CL) as (A & Pm & St). change (glob_text [Star]) with star in *. destruct b as [|x b]; [congruence|]. set (c := messages info (x :: b)) in *. set (r := sort _ _ _) in *.
  assert (forall e, In e c -> picks star e = true <-> stealth e = false) as A'.
  { intros e J. rewrite (A e J). unfold shown. split; [tauto|]. intros S. split; [exact S|]. right. unfold text_named in TN. rewrite Forall_forall in TN. destruct (TN e J) as (m & M & _). exists m. split; [exact M|]. rewrite <- (app_nil_r m). apply matches_star. constructor. }
  destruct (rows_listing (OptionModel.b "Tag/Message") locale_row row_of_locale r) as (gs & ts & Cg & Nd & Fa & Ro); [|exact St|].
  - apply Forall_forall. intros e J. apply (Permutation_in e Pm), filter_In in J. destruct J as [J K]. split; [now apply A'|]. unfold cleanly, text_named in *. rewrite Forall_forall in CL, TN. split; [now apply CL|]. destruct (TN e J) as (m & M & _). exact (locale_row_ok e m M).
  - rewrite Ro. cbn [bind]. eexists _, _. split; [reflexivity|]. exists gs, ts, (picks star). rewrite Cg. split; [exact A'|]. split; [exact Pm|]. split; [exact St|]. split; [exact Nd|]. split; [exact Fa|reflexivity].
Qed.

(** ** C254, refuted: GetLocaleList never tells the tag that comes first, in any cache: the iterator is not reset after the look whether there is a message *)
Theorem locale_list_misses_refuted ops : (N.of_nat (length ops) < 2 ^ 1024)%N ->
  exists s rs f b, srun (list N) tag_compare false (NewSplayTree _) ops = Some (s, rs) /\ fm_run (list N) tag_compare (fm_empty _) ops rs f /\ bindings (list N) tag_compare f b /\
    forall l first rest, Forall piece_ok l -> text (glob_text l) -> fine info b -> b = first :: rest ->
      exists s' r p, GetLocaleList info sort (glob_text l) s = Ok (s', Some r) /\ (forall e, In e (messages info b) -> p e = true <-> shown l e) /\
        Permutation r (map name_of (filter p (messages info rest))).
Proof.
  intros B. destruct (run_ok (list N) tag_compare false tag_order ops _ _ (new_inv _ _) B) as (s & rs & b & E & I & Ln & R). assert (fits b) as F by (unfold SplayProof2.fits; cbn [length] in Ln; generalize dependent (2 ^ 1024)%N; intros; lia).
  exists s, rs, (amap _ tag_compare b), b. split; [exact E|]. split; [exact R|]. split; [apply amap_bindings; [exact tag_order|apply I]|]. intros l [k v] rest PO T G ->.
  destruct (star_first _ _ _ _ I F) as (s1 & E1 & I1 & H1). unfold GetLocaleList. rewrite E1. cbn [bind]. pose proof G as (V & TN & CL). inversion V as [|? ? V1 V2]; subst. cbn [snd] in V1. destruct (N.eqb_spec v 0) as [Z|_]; [contradiction|].
  assert (fine info rest) as G' by (unfold text_named, cleanly, messages in TN, CL; cbn [map] in TN, CL; inversion TN; inversion CL; split; [assumption|]; split; assumption).
  rewrite (turns_ok _ _ I1). destruct (collect_ok l PO T rest [(k, v)] s1 (S (length ((k, v) :: rest))) G' I1 F H1) as (s2 & E2 & I2); [cbn [length]; lia|]. rewrite E2. cbn [bind]. cbn [app] in I2.
  rewrite (array_ok _ _ _ _ I2) by (unfold messages; rewrite map_length; cbn [length]; lia). cbn [bind]. eexists _, _, (picks (glob_text l)). split; [reflexivity|]. split; [apply (listed_sorted l _ PO T TN CL)|]. apply Sorts.
Qed.
End Lists.
Print Assumptions locale_info_list.
Print Assumptions locale_listing.
Print Assumptions locale_list_misses_refuted.

(** ** Examples *)
Local Definition message (file tag : string) (hidden : bool) : entry := {| path := b file; name := Some (b tag); stealth := hidden; value := Some (b "text") |}.
Local Definition there (a : N) : entry := if (a =? 1)%N then message "/z" "a/b/" false else if (a =? 2)%N then message "/a" "c/d/" false else if (a =? 3)%N then message "/a" "a/e/" false else message "/b" "x/" true.
Local Definition stored : list (sop (list N)) := [SAdd _ true (b "c/d/") 2; SAdd _ true (b "a/b/") 1; SAdd _ true (b "x/") 4; SAdd _ true (b "a/e/") 3; SGet _ (b "A/B/")]%N.
Example stored_lists : match srun (list N) tag_compare false (NewSplayTree _) stored with
  | None => False
  | Some (s, _) =>
      IterateOverSplayTree _ (sp_root _ s) = Some [(b "a/b/", 1); (b "a/e/", 3); (b "c/d/", 2); (b "x/", 4)]%N /\
      match GetLocaleInfoList there insertion_sort star s, GetLocaleList there insertion_sort star s, GetLocaleList there insertion_sort (b "A/*") s with
      | Ok (_, Some l), Ok (_, Some t), Ok (_, Some u) => l = [message "/a" "a/e/" false; message "/a" "c/d/" false; message "/z" "a/b/" false] /\ t = [b "a/e/"; b "c/d/"] /\ u = [b "a/e/"]
      | _, _, _ => False
      end
  end.
Proof. vm_compute. repeat split; reflexivity. Qed.
Example stored_fine : fine there [(b "a/b/", 1); (b "a/e/", 3); (b "c/d/", 2); (b "x/", 4)]%N.
Proof. split; [|split]; repeat constructor; try discriminate; eexists; (split; [reflexivity|repeat constructor]). Qed.
