(** Where configuration files are found, how they are loaded, looked up and listed. *)
From Coq Require Import NArith ZArith Bool Arith Lia Permutation Sorted List ZifyBool ZifyNat ZifyN.
From Verif Require Import Base Outcome CStringSpec GlobModel GlobSpec GlobProps PathModel PathProps ConfigureModel ConfigureProof.
Import ListNotations.

(** * C136: where files are searched *)
(** the directories of a list with colons; a directory ends in a slash, the empty one is where the program runs *)
Fixpoint join (ds : list (list N)) : list N := match ds with [] => [] | [d] => d | d :: ds => d ++ 58%N :: join ds end.
Definition directory (d : list N) : list N := match d with [] => [] | _ => if (last d 0 =? 47)%N then d else d ++ [47]%N end.
Lemma colon_free d : ~ In 58%N d -> colon d = (d, None).
Proof.
  induction d as [|c d IH]; intros H; [reflexivity|]. cbn [colon]. destruct (N.eqb_spec c 58) as [->|_]; [cbn in H; tauto|].
  rewrite IH by (cbn in H; tauto). reflexivity.
Qed.
Lemma colon_at d r : ~ In 58%N d -> colon (d ++ 58%N :: r) = (d, Some r).
Proof.
  induction d as [|c d IH]; intros H; [reflexivity|]. cbn [colon app]. destruct (N.eqb_spec c 58) as [->|_]; [cbn in H; tauto|].
  rewrite IH by (cbn in H; tauto). reflexivity.
Qed.
Lemma ends_directory P d : length d < P - 1 -> (if ends_in_slash d then d else fit P (d ++ slash_text)) = directory d.
Proof.
  intros L. destruct d as [|x d] using rev_ind; [reflexivity|]. unfold ends_in_slash, directory. rewrite rev_app_distr. cbn [rev app].
  rewrite last_last. destruct (d ++ [x]) eqn:E; [now destruct d|]. rewrite <- E in *. destruct (x =? 47)%N; [reflexivity|].
  unfold fit. rewrite firstn_all2; [reflexivity|]. rewrite app_length. cbn [length slash_text]. lia.
Qed.
(** All directories of WIZARD_CONFIGURE_PATH are searched, in their order. *)
Theorem search_split P ds : ds <> [] -> Forall (fun d => ~ In 58%N d /\ length d < P - 1) ds ->
  search_list P (S (length (join ds))) (join ds) = map directory ds.
Proof.
  intros Ne H. assert (forall fuel, length (join ds) < fuel -> ds <> [] -> search_list P fuel (join ds) = map directory ds) as G; [clear Ne|apply G; [lia|exact Ne]].
  induction H as [|d ds (C & L) F IH]; [contradiction|]. intros [|fuel] K _; [lia|]. cbn [search_list map]. destruct ds as [|d' ds].
  - cbn [join]. rewrite colon_free by exact C. cbn [snd map]. f_equal. unfold search_element. replace (fit P d) with d by (unfold fit; rewrite firstn_all2; [reflexivity|lia]). rewrite colon_free by assumption.
    cbn [fst]. now apply ends_directory.
  - cbn [join] in *. rewrite colon_at by exact C. cbn [snd]. f_equal.
    + unfold search_element. assert (exists r, forall q, fit P (d ++ 58%N :: q) = d ++ 58%N :: r q) as (r & R).
      { exists (firstn (P - 2 - length d)). intros q. unfold fit. rewrite firstn_app, firstn_all2 by lia. replace (P - 1 - length d) with (S (P - 2 - length d)) by lia. reflexivity. }
      rewrite R, colon_at by exact C. cbn [fst]. now apply ends_directory.
    + apply IH; [|discriminate]. rewrite app_length in K. cbn [length] in K. cbn [join]. lia.
Qed.
(** The file is read from each directory that has it, and the directories of the variable come first. *)
Theorem options_found P (D : Type) (file : list N -> option D) env fixed filename ds : ds <> [] ->
  wizard_configure_path env = Some (join ds) ->
  Forall (fun d => ~ In 58%N d /\ length d + length filename < P - 1) ds ->
  exists rest, GetConfigureOptions P file env fixed filename =
    flat_map (fun d => match file (directory d ++ filename) with Some xml => [(directory d ++ filename, xml)] | None => [] end) ds ++ rest.
Proof.
  intros Ne W F. unfold GetConfigureOptions, GetConfigurePaths. rewrite W.
  rewrite search_split; [|exact Ne|eapply Forall_impl; [|exact F]; cbn; intros ? []; split; [assumption|lia]].
  rewrite flat_map_app. eexists. f_equal. clear W Ne. induction F as [|d ds (C & L) F IH]; [reflexivity|]. cbn [map flat_map]. rewrite IH. f_equal.
  replace (fit P (directory d ++ filename)) with (directory d ++ filename); [reflexivity|]. unfold fit. rewrite firstn_all2; [reflexivity|].
  rewrite app_length. assert (length (directory d) <= S (length d)); [|lia]. unfold directory. destruct d; [cbn; lia|]. destruct (_ =? _)%N; rewrite ?app_length; cbn; lia.
Qed.
(** The last place is .config/WizardsToolkit in the home directory; nothing is read for XDG_CONFIG_HOME then. *)
Theorem options_home P (D : Type) (file : list N -> option D) env fixed filename h : home env = Some h ->
  length (h ++ dot_config ++ toolkit ++ filename) + 3 < P ->
  let p := h ++ [47; 46; 99; 111; 110; 102; 105; 103; 47; 87; 105; 122; 97; 114; 100; 115; 84; 111; 111; 108; 107; 105; 116; 47]%N ++ filename in
  exists front, GetConfigureOptions P file env fixed filename = front ++ match file p with Some xml => [(p, xml)] | None => [] end.
Proof.
  intros Hh L p. unfold GetConfigureOptions, GetConfigurePaths. rewrite Hh, !flat_map_app.
  match goal with |- exists f, ?a ++ ?b ++ ?c ++ ?d = _ => exists (a ++ b ++ c); rewrite <- (app_assoc a), <- (app_assoc b c) end.
  do 3 f_equal. cbn [flat_map]. rewrite app_nil_r.
  assert (fit P (fit P (h ++ slash_text ++ dot_config ++ slash_text ++ toolkit ++ slash_text) ++ filename) = p) as ->; [|reflexivity].
  rewrite !app_length in L. unfold fit. rewrite (firstn_all2 (n := P - 1) (h ++ _)) by (rewrite !app_length; cbn [length slash_text]; lia).
  rewrite firstn_all2 by (rewrite !app_length; cbn [length slash_text]; lia). rewrite <- !app_assoc. reflexivity.
Qed.
(** Of XDG_CONFIG_HOME, LOCALAPPDATA, APPDATA and USERPROFILE the first that is set decides. *)
Theorem config_home_order P fixed filename c x l a u h v : (x = Some v \/ x = None /\ (l = Some v \/ l = None /\ (a = Some v \/ a = None /\ u = Some v))) ->
  GetConfigurePaths P {| wizard_configure_path := c; xdg_config_home := x; localappdata := l; appdata := a; userprofile := u; home := h |} fixed filename =
  GetConfigurePaths P {| wizard_configure_path := c; xdg_config_home := Some v; localappdata := None; appdata := None; userprofile := None; home := h |} fixed filename.
Proof. intros [->|(-> & [->|(-> & [->|(-> & ->)])])]; reflexivity. Qed.
(** REFUTED: a directory whose name is too long is not skipped but cut, and the rest of the name, with that of the file,
    is lost: what is read is whatever has the first P - 1 bytes as its name. *)
Theorem search_long_refuted P (D : Type) (file : list N -> option D) d filename : 1 < P -> ~ In 58%N d -> P - 1 <= length d ->
  GetConfigureOptions P file {| wizard_configure_path := Some d; xdg_config_home := None; localappdata := None; appdata := None; userprofile := None; home := None |}
    [] filename = match file (firstn (P - 1) d) with Some xml => [(firstn (P - 1) d, xml)] | None => [] end \/ last (firstn (P - 1) d) 0%N = 47%N.
Proof.
  intros HP C L. destruct (N.eq_dec (last (firstn (P - 1) d) 0%N) 47) as [E|E]; [now right|left].
  unfold GetConfigureOptions, GetConfigurePaths. cbn [wizard_configure_path xdg_config_home localappdata appdata userprofile home orelse search_list].
  rewrite colon_free by exact C. cbn [snd app flat_map]. rewrite app_nil_r.
  assert (~ In 58%N (firstn (P - 1) d)) as C' by (intros I; apply C; rewrite <- (firstn_skipn (P - 1) d); apply in_or_app; now left).
  assert (length (firstn (P - 1) d) = P - 1) as K by (rewrite firstn_length; lia).
  assert (search_element P d = firstn (P - 1) d) as ->.
  { unfold search_element. change (fit P d) with (firstn (P - 1) d). rewrite colon_free by exact C'. cbn [fst].
    remember (firstn (P - 1) d) as p. assert (ends_in_slash p = false) as ->.
    { unfold ends_in_slash. destruct p as [|x p] using rev_ind; [cbn in K; lia|]. rewrite rev_app_distr. cbn [rev app]. rewrite last_last in E. lia. }
    unfold fit. rewrite <- K, firstn_app, firstn_all, Nat.sub_diag. cbn [firstn]. apply app_nil_r. }
  assert (fit P (firstn (P - 1) d ++ filename) = firstn (P - 1) d) as ->; [|reflexivity].
  unfold fit. rewrite <- K at 1. rewrite firstn_app, firstn_all, Nat.sub_diag. cbn [firstn]. apply app_nil_r.
Qed.
(** REFUTED: the file in XDG_CONFIG_HOME is never found, as its name is put behind it once more. *)
Theorem xdg_refuted P (D : Type) (file : list N -> option D) h filename : filename <> [] ->
  length (h ++ slash_text ++ toolkit ++ slash_text ++ filename ++ filename) < P ->
  (forall p, p <> h ++ slash_text ++ toolkit ++ slash_text ++ filename -> file p = None) ->
  GetConfigureOptions P file {| wizard_configure_path := None; xdg_config_home := Some h; localappdata := None; appdata := None; userprofile := None; home := None |}
    [] filename = [].
Proof.
  intros Ne L H. unfold GetConfigureOptions, GetConfigurePaths. cbn [wizard_configure_path xdg_config_home localappdata appdata userprofile home orelse app flat_map].
  assert (fit P (fit P (h ++ slash_text ++ toolkit ++ slash_text ++ filename) ++ filename) = (h ++ slash_text ++ toolkit ++ slash_text ++ filename) ++ filename) as ->.
  { unfold fit. rewrite !app_length in L. rewrite (firstn_all2 (n := P - 1) (h ++ _)) by (rewrite !app_length; lia). apply firstn_all2. rewrite !app_length. lia. }
  rewrite H; [reflexivity|]. intros E. apply (f_equal (@length N)) in E. rewrite app_length in E. destruct filename; [contradiction|cbn [length] in E; lia].
Qed.
Example search_example : search_list 20 11 [47; 97; 58; 58; 98; 47; 58; 99; 100]%N = [[47; 97; 47]; []; [98; 47]; [99; 100; 47]]%N
  /\ join [[47; 97]; []; [98; 47]; [99; 100]]%N = [47; 97; 58; 58; 98; 47; 58; 99; 100]%N.
Proof. split; reflexivity. Qed.
Example options_example : GetConfigureOptions 40 (fun p => if list_eq_dec N.eq_dec p [47; 97; 47; 120]%N then Some 1 else None)
  {| wizard_configure_path := Some [98; 58; 47; 97]%N; xdg_config_home := None; localappdata := None; appdata := None; userprofile := None; home := Some [104]%N |}
  [] [120]%N = [([47; 97; 47; 120]%N, 1)].
Proof. reflexivity. Qed.
Example search_long_example : GetConfigureOptions 4 (fun p => if list_eq_dec N.eq_dec p [97; 98; 99]%N then Some 1 else None)
  {| wizard_configure_path := Some [97; 98; 99; 100]%N; xdg_config_home := None; localappdata := None; appdata := None; userprofile := None; home := None |}
  [] [120]%N = [([97; 98; 99]%N, 1)].
Proof. reflexivity. Qed.
Print Assumptions search_split.
Print Assumptions options_found.
Print Assumptions options_home.
Print Assumptions config_home_order.
Print Assumptions search_long_refuted.
Print Assumptions xdg_refuted.

(** * C137: loading and including files *)
Section Load.
Variable P : nat.
Variable isdir : list N -> Z.
Variable accessible : list N -> bool.
Variable file : list N -> option document.
Variable absolute : bool.
Notation include_path := (include_path P isdir accessible absolute).
Notation load := (load P isdir accessible file absolute).
(** a chain of n includes *)
Inductive reach : nat -> list N -> list N -> Prop :=
| reach_here f : reach 0 f f
| reach_step n f x a g y h : file f = Some x -> In (Some a) (includes x) -> include_path f a = Ok g -> file g = Some y -> reach n g h -> reach (S n) f h.
(** what is stored of an element *)
Definition truth (s : list N) : Prop := In (fold s) [[116; 114; 117; 101]; [111; 110]; [121; 101; 115]; [49]]%N.
Definition stems (e : entry) (f : list N) (el : element) : Prop :=
  path e = f /\ name e = e_name el /\ value e = e_value el /\ (stealth e = true <-> exists s, e_stealth el = Some s /\ truth s).
Definition well (el : element) : Prop := forall s, e_stealth el = Some s -> zero_free s.
Lemma is_true s : zero_free s -> IsWizardTrue s = true <-> truth s.
Proof.
  intros Z. unfold IsWizardTrue, truth. rewrite existsb_exists.
  assert (forall t, In t [[116; 114; 117; 101]; [111; 110]; [121; 101; 115]; [49]]%N -> zero_free t /\ fold t = t) as G.
  { intros t T. cbn in T. repeat (destruct T as [<-|T]; [split; [repeat constructor; discriminate|reflexivity]|]). contradiction. }
  split.
  - intros (t & I & E). destruct (G t I) as [Zt Ft]. apply Z.eqb_eq, strcasecmp_zero in E; auto. rewrite E, Ft. exact I.
  - intros I. destruct (G _ I) as [Zt Ft]. exists (fold s). split; [exact I|]. apply Z.eqb_eq, strcasecmp_zero; auto.
Qed.
Lemma stems_entry f el e : well el -> stems e f el <-> e = entry_of f el.
Proof.
  intros W. unfold stems, entry_of. destruct e as [p n s v]. cbn [path name value stealth]. split.
  - intros (-> & -> & -> & S). f_equal. destruct (e_stealth el) as [t|] eqn:E.
    + destruct s, (IsWizardTrue t) eqn:T; auto.
      * assert (true = true) as U by reflexivity. apply S in U as (t' & [= <-] & U). apply is_true in U; [congruence|now apply W].
      * apply is_true in T; [|now apply W]. apply S. eauto.
    + destruct s; [|reflexivity]. destruct (proj1 S eq_refl) as (? & [=] & _).
  - intros [= -> -> -> ->]. repeat split; auto.
    + destruct (e_stealth el) as [t|] eqn:E; [|discriminate]. intros T. exists t. split; [reflexivity|]. apply is_true; [now apply W|exact T].
    + intros (t & E & T). rewrite E. apply is_true; [now apply W|exact T].
Qed.
Hypothesis wellformed : forall f x, file f = Some x -> Forall well (elements x).

(** Loading appends, and only the elements of files reached by includes, each with the name of its file. *)
Theorem load_reach rest : forall f x cache cache', file f = Some x -> load rest f x cache = Ok cache' ->
  exists added, cache' = cache ++ added /\
    forall e, In e added <-> exists n g y el, n <= rest /\ reach n f g /\ file g = Some y /\ In el (elements y) /\ stems e g el.
Proof.
  induction rest as [|rest IH]; intros f x cache cache' X H; cbn [ConfigureModel.load bind] in H.
  - injection H as <-. eexists. split; [reflexivity|]. intros e. rewrite in_map_iff. split.
    + intros (el & <- & I). exists 0, f, x, el. split; [lia|]. split; [constructor|]. split; [exact X|]. split; [exact I|].
      apply stems_entry; [|reflexivity]. pose proof (wellformed f x X) as W. rewrite Forall_forall in W. auto.
    + intros (n & g & y & el & L & R & Y & I & S). assert (n = 0) as -> by lia. inversion R; subst. rewrite X in Y. injection Y as <-.
      exists el. split; [|exact I]. symmetry. apply stems_entry in S; auto. pose proof (wellformed _ x X) as W. rewrite Forall_forall in W. auto.
  - destruct (load_includes _ _ _ _ _ _ _ _) as [c1| |] eqn:LI in H; try discriminate; cbn [bind] in H. injection H as <-.
    assert (forall l c, load_includes P isdir accessible absolute (fun p cache => match file p with Some xml => load rest p xml cache | None => Ok cache end) f l c = Ok c1 ->
      exists added, c1 = c ++ added /\ forall e, In e added <-> exists a g z n h y el, In (Some a) l /\ include_path f a = Ok g /\ file g = Some z
        /\ n <= rest /\ reach n g h /\ file h = Some y /\ In el (elements y) /\ stems e h el) as G.
    { clear - IH. induction l as [|[a|] l IHl]; intros c L; cbn [load_includes] in L.
      - injection L as <-. exists []. split; [now rewrite app_nil_r|]. intros e. split; [contradiction|]. intros (? & ? & ? & ? & ? & ? & ? & [] & _).
      - destruct (include_path f a) as [g| |] eqn:IP; try discriminate. cbn [bind] in L. destruct (file g) as [z|] eqn:Z.
        + destruct (load rest g z c) as [c2| |] eqn:LD; try discriminate. cbn [bind] in L.
          destruct (IH g z c c2 Z LD) as (a1 & -> & A1). destruct (IHl _ L) as (a2 & -> & A2).
          exists (a1 ++ a2). split; [now rewrite app_assoc|]. intros e. rewrite in_app_iff, A1, A2. split.
          * intros [(n & h & y & el & Q)|(b & g' & z' & n & h & y & el & I & Q)].
            -- exists a, g, z, n, h, y, el. split; [now left|]. tauto.
            -- exists b, g', z', n, h, y, el. split; [now right|]. tauto.
          * intros (b & g' & z' & n & h & y & el & [[= <-]|I] & Q1 & Q2 & Q).
            -- rewrite IP in Q1. injection Q1 as <-. left. exists n, h, y, el. tauto.
            -- right. exists b, g', z', n, h, y, el. tauto.
        + cbn [bind] in L. destruct (IHl _ L) as (a2 & -> & A2). exists a2. split; [reflexivity|]. intros e. rewrite A2. split.
          * intros (b & g' & z' & n & h & y & el & I & Q). exists b, g', z', n, h, y, el. split; [now right|]. tauto.
          * intros (b & g' & z' & n & h & y & el & [[= <-]|I] & Q1 & Q2 & Q); [congruence|]. exists b, g', z', n, h, y, el. tauto.
      - destruct (IHl _ L) as (a2 & -> & A2). exists a2. split; [reflexivity|]. intros e. rewrite A2. split.
        * intros (b & g' & z' & n & h & y & el & I & Q). exists b, g', z', n, h, y, el. split; [now right|]. tauto.
        * intros (b & g' & z' & n & h & y & el & [[=]|I] & Q). exists b, g', z', n, h, y, el. tauto. }
    destruct (G _ _ LI) as (inc & -> & A). exists (inc ++ map (entry_of f) (elements x)). split; [now rewrite app_assoc|].
    intros e. rewrite in_app_iff, A, in_map_iff. split.
    + intros [(a & g & z & n & h & y & el & I & IP & Z & L & R & Y & E & S)|(el & <- & I)].
      * exists (Datatypes.S n), h, y, el. split; [lia|]. split; [eapply reach_step; eauto|]. auto.
      * exists 0, f, x, el. split; [lia|]. split; [constructor|]. split; [exact X|]. split; [exact I|].
        apply stems_entry; [|reflexivity]. pose proof (wellformed f x X) as W. rewrite Forall_forall in W. auto.
    + intros (n & g & y & el & L & R & Y & I & S). inversion R; subst.
      * right. rewrite X in Y. injection Y as <-. exists el. split; [|exact I]. symmetry. apply stems_entry in S; auto.
        pose proof (wellformed _ x X) as W. rewrite Forall_forall in W. auto.
      * left. rewrite X in H. injection H as <-. exists a, g0, y0, n0, g, y, el. split; [assumption|]. repeat (split; [assumption || lia|]). assumption.
Qed.
(** The elements of a file come behind those of the files it includes, in their order. *)
Theorem load_own_last rest f x cache cache' : file f = Some x -> load rest f x cache = Ok cache' ->
  exists front own, cache' = front ++ own /\ Forall2 (fun e el => stems e f el) own (elements x).
Proof.
  intros X H. assert (exists front, cache' = front ++ map (entry_of f) (elements x)) as (front & ->).
  { destruct rest; cbn [ConfigureModel.load bind] in H; [injection H as <-; eauto|]. destruct (load_includes _ _ _ _ _ _ _ _); try discriminate. injection H as <-. eauto. }
  exists front, (map (entry_of f) (elements x)). split; [reflexivity|]. pose proof (wellformed f x X) as W. clear - W.
  induction W; cbn [map]; constructor; auto. now apply stems_entry.
Qed.
(** All files found are loaded, one behind the other, whatever was there before. *)
Theorem load_files l cache cache' : Forall (fun px => file (fst px) = Some (snd px)) l -> load_options P isdir accessible file absolute l cache = Ok cache' ->
  exists parts, cache' = cache ++ concat parts /\ Forall2 (fun px part => forall e, In e part <->
    exists n g y el, n <= 201 /\ reach n (fst px) g /\ file g = Some y /\ In el (elements y) /\ stems e g el) l parts.
Proof.
  intros F. revert cache. induction F as [|(p & x) l X F IH]; intros cache H; cbn [load_options] in H.
  - injection H as <-. exists []. split; [now rewrite app_nil_r|constructor].
  - destruct (load 201 p x cache) as [c1| |] eqn:L; try discriminate. cbn [bind] in H. destruct (load_reach 201 p x cache c1 X L) as (added & -> & A).
    destruct (IH _ H) as (parts & -> & B). exists (added :: parts). split; [cbn [concat]; now rewrite app_assoc|]. constructor; [exact A|exact B].
Qed.
(** Loading always ends: no chain of includes is longer than 201. *)
Theorem load_ends rest : (forall f a, exists p, include_path f a = Ok p) -> forall f x cache, exists cache', load rest f x cache = Ok cache'.
Proof.
  intros T. induction rest as [|rest IH]; intros f x cache; cbn [ConfigureModel.load bind]; [eauto|].
  assert (forall l c, exists c', load_includes P isdir accessible absolute (fun p cache => match file p with Some xml => load rest p xml cache | None => Ok cache end) f l c = Ok c') as G.
  { induction l as [|[a|] l IHl]; intros c; cbn [load_includes]; [eauto| |apply IHl].
    destruct (T f a) as (p & ->). cbn [bind]. destruct (file p) as [z|]; [|apply IHl]. destruct (IH p z c) as (c' & ->). cbn [bind]. apply IHl. }
  destruct (G (includes x) cache) as (c' & ->). cbn [bind]. eauto.
Qed.
(** REFUTED that this takes a reasonable time: a file that includes itself twice is loaded 2^202 - 1 times. *)
Theorem load_self_refuted f a el : include_path f a = Ok f -> file f = Some {| includes := [Some a; Some a]; elements := [el] |} ->
  forall cache cache', load 201 f {| includes := [Some a; Some a]; elements := [el] |} cache = Ok cache' ->
  (N.of_nat (length cache') = N.of_nat (length cache) + (2 ^ 202 - 1))%N.
Proof.
  intros IP F. assert (forall rest cache cache', load rest f {| includes := [Some a; Some a]; elements := [el] |} cache = Ok cache' ->
    (N.of_nat (length cache') = N.of_nat (length cache) + (2 ^ (N.of_nat rest + 1) - 1))%N) as G.
  { induction rest as [|rest IH]; intros cache cache' H; cbn [ConfigureModel.load bind includes elements load_includes map] in H.
    - injection H as <-. rewrite app_length. cbn [length]. change (2 ^ (N.of_nat 0 + 1))%N with 2%N. lia.
    - rewrite IP in H. cbn [bind] in H. rewrite F in H. destruct (load rest f _ cache) as [c1| |] eqn:L1; try discriminate. cbn [bind] in H.
      destruct (load rest f _ c1) as [c2| |] eqn:L2; try discriminate. cbn [bind] in H. injection H as <-.
      apply IH in L1. apply IH in L2. rewrite app_length. cbn [length].
      replace (N.of_nat (S rest) + 1)%N with (N.succ (N.of_nat rest + 1)) by lia. rewrite N.pow_succ_r'.
      assert (0 < 2 ^ (N.of_nat rest + 1))%N by (apply N.neq_0_lt_0, N.pow_nonzero; lia). remember (2 ^ (N.of_nat rest + 1))%N as q. lia. }
  intros cache cache' H. rewrite (G _ _ _ H). change (N.of_nat 201 + 1)%N with 202%N. reflexivity.
Qed.
(** An include is looked up in the directory of the file that has it. *)
Theorem include_target d b a : plain P accessible (d ++ 47%N :: b) -> free 47 b -> d <> [] -> List.hd 0%N a <> 47%N ->
  length d + 1 + length a < P -> include_path (d ++ 47%N :: b) a = Ok (d ++ 47%N :: a).
Proof.
  intros Pl Fr Ne Ha L. unfold ConfigureModel.include_path. rewrite (proj1 (head_tail P isdir accessible d b Pl Fr)). cbn [bind].
  replace (match a with 47%N :: _ => true | _ => false end) with false.
  2:{ destruct a as [|c a]; [reflexivity|]. cbn in Ha. destruct c as [|[[[[[[]|[]|]|[]|]|[]|]|[]|]|[]|]]; try reflexivity. now destruct Ha. }
  rewrite andb_false_r. unfold fit. destruct d as [|c d]; [contradiction|]. remember (c :: d) as d'. clear Heqd'.
  rewrite (firstn_all2 (n := P - 1) (d' ++ slash_text)) by (rewrite app_length; cbn; lia). rewrite firstn_all2 by (rewrite !app_length; cbn; lia).
  now rewrite <- app_assoc.
Qed.
End Load.
(** REFUTED: in configure.c a name that starts with a slash is looked up below that directory. *)
Theorem include_absolute_refuted P isdir accessible d b a : plain P accessible (d ++ 47%N :: b) -> free 47 b -> d <> [] ->
  length d + 2 + length a < P -> include_path P isdir accessible false (d ++ 47%N :: b) (47%N :: a) = Ok (d ++ 47%N :: 47%N :: a).
Proof.
  intros Pl Fr Ne L. unfold include_path. rewrite (proj1 (head_tail P isdir accessible d b Pl Fr)). cbn [bind andb].
  unfold fit. destruct d as [|c d]; [contradiction|]. remember (c :: d) as d'. clear Heqd'.
  rewrite (firstn_all2 (n := P - 1) (d' ++ slash_text)) by (rewrite app_length; cbn; lia). rewrite firstn_all2 by (rewrite !app_length; cbn; lia).
  now rewrite <- app_assoc.
Qed.
(** but not where content types and logs are configured *)
Theorem include_absolute P isdir accessible f a : plain P accessible f -> length a + 1 < P -> include_path P isdir accessible true f (47%N :: a) = Ok (47%N :: a).
Proof.
  intros Pl L. unfold include_path. rewrite get_plain by exact Pl. cbn [bind andb]. unfold fit. rewrite firstn_all2 by (cbn; lia). reflexivity.
Qed.
(** REFUTED: from a file in the root directory, includes are looked up where the program runs. *)
Theorem include_root_refuted P isdir accessible absolute b a : plain P accessible (47%N :: b) -> free 47 b -> List.hd 0%N a <> 47%N -> length a < P ->
  include_path P isdir accessible absolute (47%N :: b) a = Ok a.
Proof.
  intros Pl Fr Ha L. unfold include_path. change (47%N :: b) with ([] ++ 47%N :: b). rewrite (proj1 (head_tail P isdir accessible [] b Pl Fr)). cbn [bind].
  replace (match a with 47%N :: _ => true | _ => false end) with false.
  2:{ destruct a as [|c a]; [reflexivity|]. cbn in Ha. destruct c as [|[[[[[[]|[]|]|[]|]|[]|]|[]|]|[]|]]; try reflexivity. now destruct Ha. }
  rewrite andb_false_r. unfold fit. cbn [app]. rewrite firstn_all2 by lia. reflexivity.
Qed.
Section LoadExample.
Let el (n : N) : element := {| e_name := Some [n]; e_stealth := Some [79; 110]%N; e_value := None |}.
Let file (p : list N) : option document :=
  if list_eq_dec N.eq_dec p [100; 47; 97]%N then Some {| includes := [None; Some [98]%N; Some [99]%N]; elements := [el 49] |}
  else if list_eq_dec N.eq_dec p [100; 47; 98]%N then Some {| includes := []; elements := [el 50; el 51] |} else None.
Example load_example : exists c, load 9 (fun _ => (-1)%Z) (fun _ => true) file false 201 [100; 47; 97]%N {| includes := [None; Some [98]%N; Some [99]%N]; elements := [el 49] |} [] = Ok c
  /\ map name c = [Some [50]; Some [51]; Some [49]]%N /\ map path c = [[100; 47; 98]; [100; 47; 98]; [100; 47; 97]]%N /\ map stealth c = [true; true; true]
  /\ file [100; 47; 97]%N = Some {| includes := [None; Some [98]%N; Some [99]%N]; elements := [el 49] |} /\ Forall well [el 49]
  /\ include_path 9 (fun _ => (-1)%Z) (fun _ => true) false [100; 47; 97]%N [98]%N = Ok [100; 47; 98]%N
  /\ include_path 9 (fun _ => (-1)%Z) (fun _ => true) false [100; 47; 97]%N [97]%N = Ok [100; 47; 97]%N.
Proof.
  eexists. split; [vm_compute; reflexivity|]. repeat (split; [reflexivity|]). split; [|split; reflexivity].
  repeat constructor. intros s [= <-]. repeat constructor; discriminate.
Qed.
End LoadExample.
Print Assumptions load_reach.
Print Assumptions load_own_last.
Print Assumptions load_files.
Print Assumptions load_ends.
Print Assumptions load_self_refuted.
Print Assumptions include_target.
Print Assumptions include_absolute_refuted.
Print Assumptions include_absolute.
Print Assumptions include_root_refuted.

(** * C138: looking up *)
Definition named (n : list N) (e : entry) : Prop := exists m, name e = Some m /\ fold m = fold n.
Definition all_named (cache : list entry) : Prop := Forall (fun e => exists m, name e = Some m /\ zero_free m) cache.
(** the first entry of that name *)
Definition first_named (n : list N) (cache : list entry) (r : option entry) : Prop :=
  match r with
  | Some e => exists l1 l2, cache = l1 ++ e :: l2 /\ named n e /\ Forall (fun x => ~ named n x) l1
  | None => Forall (fun x => ~ named n x) cache
  end.
Lemma search_spec n cache : zero_free n -> all_named cache -> forall before,
  exists r, search n before cache = Ok r /\
    match r with Some (l1, e, l2) => exists k, l1 = before ++ k /\ cache = k ++ e :: l2 /\ named n e /\ Forall (fun x => ~ named n x) k
               | None => Forall (fun x => ~ named n x) cache end.
Proof.
  intros Zn. induction 1 as [|e l (m & M & Zm) A IH]; intros before; cbn [search].
  - exists None. split; [reflexivity|constructor].
  - rewrite M. destruct (Z.eqb_spec (strcasecmp n m) 0) as [E|E].
    + exists (Some (before, e, l)). split; [reflexivity|]. exists []. rewrite app_nil_r. repeat split; [|constructor].
      exists m. split; [exact M|]. symmetry. now apply strcasecmp_zero.
    + assert (~ named n e) as D by (intros (m' & M' & F); rewrite M in M'; injection M' as <-; apply E, strcasecmp_zero; auto).
      destruct (IH (before ++ [e])) as (r & -> & S). exists r. split; [reflexivity|]. destruct r as [[[l1 x] l2]|].
      * destruct S as (k & -> & -> & Nm & F). exists (e :: k). rewrite <- app_assoc. repeat split; auto.
      * constructor; auto.
Qed.
Lemma star_name n : zero_free n -> n <> [42]%N -> (strcasecmp n [42]%N =? 0)%Z = false.
Proof.
  intros Z D. apply Z.eqb_neq. intros E. apply strcasecmp_zero in E; [|exact Z|repeat constructor; discriminate].
  destruct n as [|c [|]]; try discriminate. injection E as E. change (lower 42) with 42%N in E. unfold lower in E. destruct (_ && _) eqn:B; [lia|congruence].
Qed.
(** The first entry with the name, in any case of its letters, is found, and moved to the front. *)
Theorem info_first n cache : n = None \/ n = Some [42]%N -> GetConfigureInfo n cache = Ok (hd_error cache, cache).
Proof. intros [->| ->]; reflexivity. Qed.
Theorem info_found n cache : zero_free n -> n <> [42]%N -> all_named cache ->
  exists r cache', GetConfigureInfo (Some n) cache = Ok (r, cache') /\ first_named n cache r /\ Permutation cache' cache.
Proof.
  intros Z D A. unfold GetConfigureInfo. rewrite star_name by assumption. destruct (search_spec n cache Z A []) as (r & -> & S). cbn [bind].
  destruct r as [[[l1 e] l2]|].
  - destruct S as (k & -> & -> & Nm & F). cbn [app]. eexists _, _. split; [reflexivity|]. split; [now exists k, l2|apply Permutation_middle].
  - eexists _, _. split; [reflexivity|]. split; [exact S|reflexivity].
Qed.
(** Lookups do not change what other lookups find. *)
Fixpoint lookups (h : list (option (list N))) (cache : list entry) : outcome (list entry) :=
  match h with [] => Ok cache | n :: h => let* r := GetConfigureInfo n cache in lookups h (snd r) end.
Lemma first_moved n m l1 e l2 r : named m e -> Forall (fun x => ~ named m x) l1 -> first_named n (l1 ++ e :: l2) r -> first_named n (e :: l1 ++ l2) r.
Proof.
  intros Nm F. assert (forall x, ~ named n e -> In x l1 -> True) as _ by auto. destruct r as [x|]; cbn [first_named].
  - intros (k1 & k2 & E & Nx & Fx).
    assert (forall a b : entry, named m a -> named n a -> named n b -> named m b) as T.
    { intros a b (p & P1 & P2) (q & Q1 & Q2) (s & S1 & S2). rewrite P1 in Q1. injection Q1 as <-. exists s. split; [exact S1|]. congruence. }
    assert (named n e \/ ~ named n e) as [Y|Y].
    { unfold named. destruct (name e) as [p|]; [|right; intros (? & [=] & _)]. destruct (list_eq_dec N.eq_dec (fold p) (fold n)); [left; eauto|right; intros (? & [= <-] & ?); contradiction]. }
    + (* e is what n finds *)
      assert (x = e) as ->; [|now exists [], (l1 ++ l2)].
      revert k1 E Fx. clear - F T Nm Y Nx. induction l1 as [|a l1 IH]; intros k1 E Fx.
      * destruct k1 as [|b k1]; injection E as <- E; [reflexivity|]. inversion Fx; contradiction.
      * destruct k1 as [|b k1]; injection E as <- E.
        -- inversion F; subst. exfalso. eauto.
        -- inversion F; subst. inversion Fx; subst. eapply IH; eauto.
    + revert k1 E Fx. clear - F Y Nx. induction l1 as [|a l1 IH]; intros k1 E Fx.
      * destruct k1 as [|b k1]; injection E as <- E; [contradiction|]. exists (e :: k1), k2. inversion Fx; subst. repeat split; auto.
      * destruct k1 as [|b k1]; injection E as <- E.
        -- exists [e], (l1 ++ l2). repeat split; auto.
        -- inversion F; subst. inversion Fx; subst. destruct (IH ltac:(assumption) k1 E ltac:(assumption)) as (j1 & j2 & J & _ & G).
           destruct j1 as [|c j1]; injection J as <- J; [contradiction|]. inversion G; subst. exists (e :: a :: j1), j2. cbn [app]. rewrite J. repeat split; auto.
  - intros H. rewrite Forall_app in H. destruct H as [H1 H2]. inversion H2; subst. constructor; [assumption|]. apply Forall_app; auto.
Qed.
Theorem info_stable h cache cache' n r r' c' : (forall m, In (Some m) h -> zero_free m) -> zero_free n -> n <> [42]%N -> all_named cache ->
  lookups h cache = Ok cache' -> first_named n cache r -> GetConfigureInfo (Some n) cache' = Ok (r', c') -> r' = r.
Proof.
  intros Zh Z D A H F G.
  assert (first_named n cache' r /\ all_named cache') as [F' A'].
  { clear G. revert cache A H F. induction h as [|[m|] h IH]; intros cache A H F; cbn [lookups] in H.
    - injection H as <-. now split.
    - destruct (list_eq_dec N.eq_dec m [42]%N) as [->|Dm].
      + cbn [GetConfigureInfo strcasecmp lower bind] in H. apply (IH (fun q Q => Zh q (or_intror Q)) cache); auto.
      + assert (zero_free m) as Zm by (apply Zh; now left). unfold GetConfigureInfo in H. rewrite star_name in H by assumption.
        destruct (search_spec m cache Zm A []) as (s & E & S). rewrite E in H. cbn [bind] in H. destruct s as [[[l1 e] l2]|].
        * destruct S as (k & -> & -> & Nm & Fk). cbn [app snd] in H. apply (IH (fun q Q => Zh q (or_intror Q)) (e :: k ++ l2)); auto.
          -- unfold all_named in *. rewrite Forall_app in A. destruct A as [A1 A2]. inversion A2; subst. constructor; [assumption|]. apply Forall_app; auto.
          -- now apply (first_moved n m).
        * apply (IH (fun q Q => Zh q (or_intror Q)) cache); auto.
    - apply (IH (fun q Q => Zh q (or_intror Q)) cache); auto. }
  destruct (info_found n cache' Z D A') as (s & c2 & E & S & _). rewrite G in E. injection E as <- <-.
  clear - F' S. destruct r as [e|], r' as [e'|]; cbn [first_named] in *; try reflexivity.
  - destruct F' as (k1 & k2 & E & N1 & F1), S as (j1 & j2 & E' & N2 & F2). f_equal. rewrite E in E'. clear E. revert j1 E' F2.
    induction k1 as [|a k1 IH]; intros [|b j1] E' F2; injection E'; intros; subst; [reflexivity| | |].
    + inversion F2; contradiction.
    + inversion F1; contradiction.
    + inversion F1; inversion F2; subst. eapply IH; eauto.
  - destruct F' as (k1 & k2 & -> & N1 & F1). rewrite Forall_app in S. destruct S as [_ S]. inversion S; contradiction.
  - destruct S as (k1 & k2 & -> & N1 & F1). rewrite Forall_app in F'. destruct F' as [_ S]. inversion S; contradiction.
Qed.
(** REFUTED: an element without a name is stored, and looking up any name behind it reads from the null pointer. *)
Theorem info_null_refuted n l1 e l2 : zero_free n -> n <> [42]%N -> all_named l1 -> Forall (fun x => ~ named n x) l1 -> name e = None ->
  GetConfigureInfo (Some n) (l1 ++ e :: l2) = UB.
Proof.
  intros Z D A F E. unfold GetConfigureInfo. rewrite star_name by assumption.
  assert (forall before, search n before (l1 ++ e :: l2) = UB) as ->; [|reflexivity].
  induction A as [|x l (m & M & Zm) A IH]; intros before; cbn [search app]; [now rewrite E|]. inversion F as [|? ? Dx Fl]; subst. rewrite M.
  destruct (Z.eqb_spec (strcasecmp n m) 0) as [Q|Q]; [|now apply IH]. destruct Dx. exists m. split; [exact M|]. symmetry. now apply strcasecmp_zero.
Qed.
Definition ex (n v : N) : entry := {| path := []; name := Some [n]; stealth := false; value := Some [v] |}.
Example info_example : GetConfigureInfo (Some [66]%N) [ex 97 1; ex 98 2; ex 66 3] = Ok (Some (ex 98 2), [ex 98 2; ex 97 1; ex 66 3])
  /\ GetConfigureInfo (Some [66]%N) [ex 98 2; ex 97 1; ex 66 3] = Ok (Some (ex 98 2), [ex 98 2; ex 97 1; ex 66 3])
  /\ all_named [ex 97 1; ex 98 2; ex 66 3]
  /\ GetConfigureInfo (Some [66]%N) [ex 97 1; {| path := []; name := None; stealth := false; value := None |}; ex 98 2] = UB.
Proof. repeat (split; [reflexivity|]). split; [|reflexivity]. repeat constructor; eexists; (split; [reflexivity|repeat constructor; discriminate]). Qed.
Print Assumptions info_first.
Print Assumptions info_found.
Print Assumptions info_stable.
Print Assumptions info_null_refuted.

(** * C139: lists *)
Section Lists.
Variable sort : forall A : Type, (A -> A -> Z) -> list A -> list A.
Hypothesis Sorts : sorts sort.
(** an entry is listed if it is not hidden and its name matches the pattern *)
Definition listed (l : list piece) (e : entry) : Prop := stealth e = false /\ (l = [] \/ exists m, name e = Some m /\ matches false l m).
Definition text_named (cache : list entry) : Prop := Forall (fun e => exists m, name e = Some m /\ text m) cache.
Lemma select_spec l cache : Forall piece_ok l -> text (glob_text l) -> text_named cache ->
  exists p : entry -> bool, (forall e, In e cache -> p e = true <-> listed l e) /\ select (glob_text l) cache = Ok (filter p cache).
Proof.
  intros Ok' T. pose (p := fun e => negb (stealth e) && match name e with None => false
    | Some m => match GlobExpression (m ++ [0%N]) (glob_text l ++ [0%N]) false with Ok b => b | _ => false end end).
  intros A. exists p. assert (forall m, text m -> exists b, GlobExpression (m ++ [0%N]) (glob_text l ++ [0%N]) false = Ok b /\ (b = true <-> l = [] \/ matches false l m)) as G.
  { intros m M. exact (glob_matches false l m [] [] Ok' T M). }
  split.
  - intros e I. unfold text_named in A. rewrite Forall_forall in A. destruct (A e I) as (m & M & Tm). unfold p, listed. rewrite M. destruct (G m Tm) as (b & -> & B).
    rewrite andb_true_iff, negb_true_iff, B. split.
    + intros (S & [->|Q]); split; auto. right. eauto.
    + intros (S & [->|(m' & [= <-] & Q)]); auto.
  - induction A as [|e c (m & M & Tm) A IH]; [reflexivity|]. cbn [select filter]. unfold p at 1. rewrite M. destruct (G m Tm) as (b & -> & _).
    destruct (stealth e); cbn [negb andb]; [exact IH|]. cbn [bind]. rewrite IH. cbn [bind]. destruct b; reflexivity.
Qed.
(** the order of the list: by path, and by name where the paths are alike *)
Definition entry_le (x y : entry) : Prop :=
  fold (path x) <> fold (path y) /\ text_le (fold (path x)) (fold (path y)) \/ fold (path x) = fold (path y) /\ text_le (fold (name_of x)) (fold (name_of y)).
Lemma compare_le x y : zero_free (path x) -> zero_free (path y) -> zero_free (name_of x) -> zero_free (name_of y) ->
  (ConfigureInfoCompare x y <= 0)%Z <-> entry_le x y.
Proof.
  intros A B C D. unfold ConfigureInfoCompare, entry_le. destruct (Z.eqb_spec (strcasecmp (path x) (path y)) 0) as [E|E].
  - apply strcasecmp_zero in E; auto. rewrite strcasecmp_le by assumption. tauto.
  - rewrite strcasecmp_le by assumption. assert (fold (path x) <> fold (path y)) by (intros F; apply E, strcasecmp_zero; auto). tauto.
Qed.
Lemma entry_le_total x y : entry_le x y \/ entry_le y x.
Proof.
  unfold entry_le. destruct (list_eq_dec N.eq_dec (fold (path x)) (fold (path y))) as [E|E].
  - destruct (text_le_total (fold (name_of x)) (fold (name_of y))); auto.
  - destruct (text_le_total (fold (path x)) (fold (path y))); auto.
Qed.
Lemma entry_le_trans x y z : entry_le x y -> entry_le y z -> entry_le x z.
Proof.
  unfold entry_le. intros [[A B]|[A B]] [[C D]|[C D]].
  - left. split; [|eapply text_le_trans; eauto]. intros E. rewrite <- E in D. apply A. now apply text_le_antisym.
  - left. rewrite <- C. now split.
  - left. rewrite A. now split.
  - right. split; [congruence|]. eapply text_le_trans; eauto.
Qed.
Definition cleanly (cache : list entry) : Prop := Forall (fun e => zero_free (path e)) cache.
Lemma text_zero_free m : text m -> zero_free m.
Proof. intros T. eapply Forall_impl; [|exact T]. cbn. intros. lia. Qed.
Lemma sorted_impl {A} (R S : A -> A -> Prop) (l : list A) : (forall x y, In x l -> In y l -> R x y -> S x y) -> StronglySorted R l -> StronglySorted S l.
Proof.
  intros H S0. induction S0 as [|a l S0 IH F]; [constructor|]. constructor; [apply IH; intros; apply H; auto; now right|].
  rewrite Forall_forall in *. intros y Y. apply H; [now left|now right|now apply F].
Qed.
(** The list has exactly the entries that are not hidden and match, each as often as it is stored, in order, and there is room for it. *)
Theorem info_list l cache : Forall piece_ok l -> text (glob_text l) -> text_named cache -> cleanly cache -> cache <> [] ->
  exists r p, GetConfigureInfoList sort (glob_text l) cache = Ok (Some r) /\ (forall e, In e cache -> p e = true <-> listed l e) /\
    Permutation r (filter p cache) /\ StronglySorted entry_le r /\ length r <= length cache.
Proof.
  intros Ok' T A C Ne. destruct (select_spec l cache Ok' T A) as (p & Hp & S). unfold GetConfigureInfoList. destruct cache as [|e0 c0]; [contradiction|].
  remember (e0 :: c0) as cache. clear Heqcache. rewrite S. cbn [bind]. destruct (Sorts entry ConfigureInfoCompare (filter p cache)) as (Pm & St).
  eexists _, p. split; [reflexivity|]. split; [exact Hp|]. split; [exact Pm|].
  assert (forall x, In x (filter p cache) -> zero_free (path x) /\ zero_free (name_of x)) as W.
  { intros x I. apply filter_In in I as [I _]. unfold text_named in A. unfold cleanly in C. rewrite Forall_forall in A, C. destruct (A x I) as (m & M & Tm). split; [auto|].
    unfold name_of. rewrite M. now apply text_zero_free. }
  split.
  - eapply sorted_impl; [|apply St].
    + intros x y X Y. apply (Permutation_in x Pm) in X. apply (Permutation_in y Pm) in Y. apply compare_le; apply W; assumption.
    + intros x y X Y. rewrite !compare_le by (apply W; assumption). apply entry_le_total.
    + intros x y z X Y Z. rewrite !compare_le by (apply W; assumption). apply entry_le_trans.
  - rewrite (Permutation_length Pm). clear. induction cache as [|e c IH]; cbn [filter]; [lia|]. destruct (p e); cbn [length]; lia.
Qed.
Lemma combine_snd {A B} (a : list A) (b : list B) : length a = length b -> map snd (combine a b) = b.
Proof. revert b. induction a; intros [|]; cbn; intros; try discriminate; [reflexivity|]. f_equal. auto. Qed.
(** The list of names has the names of those entries, in order, wherever the copies are in memory. *)
Theorem name_list_sorted malloc l cache : Forall piece_ok l -> text (glob_text l) -> text_named cache -> cache <> [] ->
  exists r p, GetConfigureList sort malloc (glob_text l) cache = Ok (Some r) /\ (forall e, In e cache -> p e = true <-> listed l e) /\
    Permutation r (map name_of (filter p cache)) /\ StronglySorted (fun x y => text_le (fold x) (fold y)) r.
Proof.
  intros Ok' T A Ne. destruct (select_spec l cache Ok' T A) as (p & Hp & S). unfold GetConfigureList, name_list. destruct cache as [|e0 c0]; [contradiction|].
  remember (e0 :: c0) as cache. clear Heqcache. rewrite S. cbn [bind].
  remember (combine (map malloc (seq 0 (length (filter p cache)))) (map name_of (filter p cache))) as a eqn:Ea.
  assert (map snd a = map name_of (filter p cache)) as Ms by (subst a; apply combine_snd; rewrite !map_length, seq_length; reflexivity).
  assert (forall x, In x a -> zero_free (snd x)) as W.
  { intros x I. assert (In (snd x) (map snd a)) as J by now apply in_map. rewrite Ms in J. apply in_map_iff in J as (e & <- & J). apply filter_In in J as [J _].
    unfold text_named in A. rewrite Forall_forall in A. destruct (A e J) as (m & M & Tm). unfold name_of. rewrite M. now apply text_zero_free. }
  destruct (Sorts _ ConfigureCompare a) as (Pm & St). eexists _, p. split; [reflexivity|]. split; [exact Hp|]. split.
  - rewrite <- Ms. now apply Permutation_map.
  - assert (StronglySorted (fun x y : N * list N => text_le (fold (snd x)) (fold (snd y))) (sort _ ConfigureCompare a)) as Q.
    { eapply sorted_impl; [|apply St].
      - intros x y X Y. apply (Permutation_in x Pm) in X. apply (Permutation_in y Pm) in Y. unfold ConfigureCompare. now rewrite strcasecmp_le by auto.
      - intros x y X Y. unfold ConfigureCompare. rewrite !strcasecmp_le by auto. apply text_le_total.
      - intros x y z X Y Z. unfold ConfigureCompare. rewrite !strcasecmp_le by auto. apply text_le_trans. }
    clear - Q. induction Q as [|x m Q IH F]; cbn [map]; constructor; [exact IH|]. apply Forall_forall. intros y Y. apply in_map_iff in Y as (z & <- & Z).
    rewrite Forall_forall in F. now apply F.
Qed.
(** REFUTED for content types: the order is that of the places in memory, so for any two types there are places
    such that the greater comes first. *)
Theorem mime_list_refuted x y : stealth x = false -> stealth y = false ->
  (exists a b, name x = Some a /\ name y = Some b /\ text a /\ text b /\ text_le (fold a) (fold b) /\ fold a <> fold b) ->
  exists malloc, malloc 0 <> malloc 1 /\ GetMimeList sort malloc [42]%N [y; x] = Ok (Some [name_of y; name_of x]).
Proof.
  intros Sx Sy (a & b & X & Y & Ta & Tb & _). exists (fun n => if n =? 0 then 1%N else 2%N). split; [discriminate|].
  assert (forall m, GlobExpression (m ++ [0%N]) ([42]%N ++ [0%N]) false = Ok true) as G by reflexivity.
  unfold GetMimeList, name_list. cbn [select]. rewrite Sx, Sy, X, Y, !G. cbn [bind length seq map combine Nat.eqb].
  remember [(1%N, name_of y); (2%N, name_of x)] as l eqn:L. destruct (Sorts _ MimeCompare l) as (Pm & St).
  assert (forall p q, In p l -> In q l -> (MimeCompare p q <= 0)%Z <-> (fst p <= fst q)%N) as C.
  { subst l. intros p q [<-|[<-|[]]] [<-|[<-|[]]]; vm_compute; split; congruence || (intros; try discriminate; now destruct H). }
  assert (StronglySorted (fun p q => (fst p <= fst q)%N) (sort _ MimeCompare l)) as Q.
  { eapply sorted_impl; [|apply St].
    - intros p q I J. apply (Permutation_in p Pm) in I. apply (Permutation_in q Pm) in J. apply C; assumption.
    - intros p q I J. rewrite !C by assumption. lia.
    - intros p q r I J K. rewrite !C by assumption. lia. }
  destruct (sort _ MimeCompare l) as [|p [|q [|r s]]] eqn:E; try (apply Permutation_length in Pm; subst l; discriminate).
  do 2 f_equal. inversion Q as [|? ? _ F]; subst. inversion F; subst.
  assert (In p [(1%N, name_of y); (2%N, name_of x)]) as I by (apply (Permutation_in p Pm); now left).
  apply Permutation_sym in Pm. apply Permutation_length_2_inv in Pm as [Pm|Pm]; injection Pm; intros; subst; cbn [fst] in *; [reflexivity|lia].
Qed.
End Lists.
Example lists_example : let c := [ex 98 1; {| path := []; name := Some [99]%N; stealth := true; value := None |}; ex 65 2; ex 100 3] in
  let l := [Class [Range 65 99]] in
  GetConfigureInfoList insertion_sort (glob_text l) c = Ok (Some [ex 65 2; ex 98 1]) /\ sorts insertion_sort
  /\ GetConfigureList insertion_sort (fun n => N.of_nat n) (glob_text l) c = Ok (Some [[65]; [98]]%N)
  /\ GetMimeList insertion_sort (fun n => N.of_nat n + 1)%N [42]%N [ex 98 1; ex 97 2] = Ok (Some [[98]; [97]]%N)
  /\ Forall piece_ok l /\ text (glob_text l).
Proof.
  cbv zeta. split; [vm_compute; reflexivity|]. split; [apply insertion_sorts|]. split; [vm_compute; reflexivity|]. split; [vm_compute; reflexivity|].
  split; [repeat constructor; cbn; intuition discriminate|]. repeat constructor.
Qed.
Print Assumptions info_list.
Print Assumptions name_list_sorted.
Print Assumptions mime_list_refuted.
