(** The name and the path of the client (C257-C259). *)
From Coq Require Import NArith ZArith Bool Arith Lia List.
From Verif Require Import Base Outcome StringInfoModel CStringModel CStringSpec CStringProps PathModel PathProps ClientModel.
Import ListNotations.

(** ** What is meant: the last name that is not empty, as far as it fits *)
Section Meaning.
Variable E : nat.
Definition renamed (n : list N) (s : source) : list N :=
  match s with
  | Null | Text [] => n
  | Text t => firstn (E - 1) t
  | Own k => match skipn k n with [] => n | r => r end
  end.
(** a place of the buffer is in the string that is there *)
Definition sensible (n : list N) (s : source) : Prop :=
  match s with Null => True | Text t => text t | Own k => k <= length n end.
(** a buffer that has this string *)
Definition has (buffer n : list N) : Prop := length buffer = E /\ text n /\ length n < E /\ exists rest, buffer = n ++ 0%N :: rest.
End Meaning.

Lemma rd_at s c t i : i = length s -> rd (s ++ c :: t) i = Ok c.
Proof. intros ->. apply rd_app. Qed.
Lemma write_at s x y d i : i = length s -> mem_write (s ++ x :: d) i [y] = Ok (s ++ y :: d).
Proof. intros ->. apply write_cons. Qed.
Lemma c_string_ok n rest : text n -> c_string (n ++ 0%N :: rest) = Ok n.
Proof. induction n as [|c n IH]; intros T; [reflexivity|]. apply text_cons in T as (C & T). cbn [app c_string]. destruct (N.eqb_spec c 0); [lia|]. now rewrite IH. Qed.
(** copying [u] down over [b], which ends where [u] starts *)
Lemma move_ok rest : forall u n b a, text u -> length u < n -> 1 <= length b ->
  exists rest', move_down n (length b) (length a) (a ++ b ++ u ++ 0%N :: rest) = Ok (a ++ u ++ 0%N :: rest').
Proof.
  induction u as [|c u IH]; intros n b a T L B; (destruct n as [|n]; [cbn [length] in L; lia|]); cbn [move_down app].
  - replace (a ++ b ++ 0%N :: rest) with ((a ++ b) ++ 0%N :: rest) by now rewrite <- app_assoc. rewrite rd_at by (rewrite app_length; lia). cbn [bind]. destruct b as [|x b]; [cbn [length] in B; lia|].
    rewrite <- app_assoc. cbn [app]. rewrite write_cons. cbn [bind N.eqb]. eexists. reflexivity.
  - apply text_cons in T as (C & T). replace (a ++ b ++ c :: u ++ 0%N :: rest) with ((a ++ b) ++ c :: u ++ 0%N :: rest) by now rewrite <- app_assoc. rewrite rd_at by (rewrite app_length; lia). cbn [bind].
    destruct b as [|x b]; [cbn [length] in B; lia|]. rewrite <- app_assoc. cbn [app]. rewrite write_cons. cbn [bind]. destruct (N.eqb_spec c 0); [lia|].
    destruct (IH n (b ++ [c]) (a ++ [c]) T ltac:(cbn [length] in L; lia) ltac:(rewrite app_length; cbn [length]; lia)) as (rest' & E). exists rest'. rewrite !app_length in E. cbn [length] in E. rewrite <- !app_assoc in E. cbn [app] in E.
    replace (length b + 1) with (length (x :: b)) in E by (cbn [length]; lia). rewrite Nat.add_1_r in E. exact E.
Qed.
Lemma move_none rest : forall u n a, text u -> length u <= n -> move_down n 0 (length a) (a ++ u ++ 0%N :: rest) = Ok (a ++ u ++ 0%N :: rest).
Proof.
  induction u as [|c u IH]; intros n a T L.
  - destruct n as [|n]; cbn [move_down app Nat.add]; [now rewrite write_cons|]. rewrite rd_app. cbn [bind]. rewrite write_cons. reflexivity.
  - destruct n as [|n]; [cbn [length] in L; lia|]. cbn [move_down app Nat.add]. apply text_cons in T as (C & T). rewrite rd_app. cbn [bind]. rewrite write_cons. cbn [bind]. destruct (N.eqb_spec c 0); [lia|].
    pose proof (IH n (a ++ [c]) T ltac:(cbn [length] in L; lia)) as E. rewrite app_length in E. cbn [length] in E. rewrite Nat.add_1_r, <- !app_assoc in E. exact E.
Qed.
Lemma write_length b i v b' : mem_write b i v = Ok b' -> length b' = length b.
Proof.
  unfold mem_write. destruct (Nat.leb_spec (i + length v) (length b)); [|discriminate]. intros [= <-]. unfold splice. rewrite !app_length, firstn_length, skipn_length. lia.
Qed.
Lemma move_length : forall n k i b b', move_down n k i b = Ok b' -> length b' = length b.
Proof.
  induction n as [|n IH]; intros k i b b'; cbn [move_down]; [apply write_length|]. destruct (rd b (k + i)) as [c| |]; cbn [bind]; try discriminate. destruct (mem_write b i [c]) as [b1| |] eqn:W; cbn [bind]; try discriminate. apply write_length in W.
  destruct (c =? 0)%N; [intros [= <-]; exact W|]. intros H. apply IH in H. congruence.
Qed.
Lemma text_firstn k n : text n -> text (firstn k n).
Proof. intros T. rewrite <- (firstn_skipn k n) in T. now apply text_app in T. Qed.
Lemma text_skipn k n : text n -> text (skipn k n).
Proof. intros T. rewrite <- (firstn_skipn k n) in T. now apply text_app in T. Qed.

Section Client.
Variable E : nat.
Variable isdir : list N -> Z.
Variable accessible : list N -> bool.
Hypothesis EX : length wizard < E.

Lemma set_client_ok b n s : has E b n -> sensible n s -> exists b', set_client E b s = Ok b' /\ has E b' (renamed E n s).
Proof.
  intros (L & T & B & rest & ->) SE. destruct s as [|t|k]; cbn [set_client renamed sensible] in *.
  - eexists. split; [reflexivity|]. split; [exact L|]. split; [exact T|]. split; [exact B|]. exists rest. reflexivity.
  - destruct t as [|c t]; cbn [app rd nth_error bind]; [eexists; split; [reflexivity|]; split; [exact L|]; split; [exact T|]; split; [exact B|]; exists rest; reflexivity|].
    unfold rd. cbn [nth_error bind]. pose proof (proj1 (text_cons _ _) SE) as (C & _). destruct (N.eqb_spec c 0); [lia|].
    assert (length wizard = 6) as W6 by reflexivity.
    destruct (copy_wizard_string_partial (c :: t) [] (n ++ 0%N :: rest) E SE ltac:(lia) ltac:(lia)) as (r & Q & _). change ((c :: t) ++ [0%N]) with (c :: t ++ [0%N]) in Q. rewrite Q. cbn [bind]. eexists. split; [reflexivity|].
    split; [rewrite app_length; cbn [length]; rewrite skipn_length, firstn_length, L; cbn [length]; lia|]. split; [apply text_firstn, SE|]. split; [rewrite firstn_length; lia|]. eexists. reflexivity.
  - assert (n = firstn k n ++ skipn k n) as D by (symmetry; apply firstn_skipn). assert (length (firstn k n) = k) as LK by (rewrite firstn_length; lia). pose proof (text_skipn k n T) as TU. pose proof (skipn_length k n) as LU.
    destruct (skipn k n) as [|c u] eqn:U; rewrite D, <- app_assoc.
    + cbn [app]. rewrite rd_at by (symmetry; exact LK). cbn [bind N.eqb]. rewrite app_nil_r in D. rewrite app_nil_r, <- D. eexists. split; [reflexivity|]. split; [exact L|]. split; [exact T|]. split; [exact B|]. exists rest. reflexivity.
    + cbn [app]. rewrite rd_at by (symmetry; exact LK). cbn [bind]. pose proof (proj1 (text_cons _ _) TU) as (C & _). destruct (N.eqb_spec c 0); [lia|]. destruct k as [|k].
      * cbn [firstn app]. pose proof (move_none rest (c :: u) (E - 1) [] TU ltac:(lia)) as Q. cbn [length app] in Q. rewrite Q. eexists. split; [reflexivity|]. cbn [firstn app] in D. clear U LK LU. subst n. split; [exact L|]. split; [exact T|]. split; [exact B|]. exists rest. reflexivity.
      * destruct (move_ok rest (c :: u) (E - 1) (firstn (S k) n) [] TU ltac:(lia) ltac:(lia)) as (rest' & Q). rewrite LK in Q. cbn [length app] in Q. rewrite Q. eexists. split; [reflexivity|]. split; [apply move_length in Q; cbn [app]; rewrite Q; clear Q; rewrite app_length in L; rewrite app_length, LK; cbn [length] in *; rewrite app_length; cbn [length]; lia|].
        split; [exact TU|]. split; [lia|]. exists rest'. reflexivity.
Qed.

(** ** Programs.  The path of the program: what is given, else what the system says it is, else the directory *)
Definition program_path (p cwd exe file : option (list N)) (e : list N) : Prop :=
  e <> [] /\ length e < E /\ text e /\
  (p = Some e \/ (p = None \/ p = Some []) /\ (exe = Some e \/ exe = None /\ file = Some e \/ (exe = Some [] \/ exe = None /\ (file = None \/ file = Some [])) /\ cwd = Some e)).
Inductive Meant : bool * list N * list N -> op -> bool * list N * list N -> Prop :=
| M_name r n p s : sensible n s -> Meant (r, n, p) (SetClientName s) (r, renamed E n s, p)
| M_path r n p s : sensible p s -> Meant (r, n, p) (SetClientPath s) (r, n, renamed E p s)
| M_end r n p : Meant (r, n, p) Terminus (false, n, p)
| M_again n p q cwd exe file : Meant (true, n, p) (Genesis q cwd exe file) (true, n, p)
| M_start n p q cwd exe file d f : program_path q cwd exe file (d ++ 47%N :: f) -> plain E accessible (d ++ 47%N :: f) -> free 47 f -> f <> [] ->
    Meant (false, n, p) (Genesis q cwd exe file) (true, f, match d with [] => p | _ => d end)
| M_start_name n p q cwd exe file f : program_path q cwd exe file f -> plain E accessible f -> free 47 f -> Meant (false, n, p) (Genesis q cwd exe file) (true, f, p).
Inductive Meant_all : bool * list N * list N -> list op -> bool * list N * list N -> Prop :=
| M_nil c : Meant_all c [] c
| M_cons c o c1 l c2 : Meant c o c1 -> Meant_all c1 l c2 -> Meant_all c (o :: l) c2.
Definition shows (x : process) (c : bool * list N * list N) : Prop := let '(r, n, p) := c in started x = r /\ has E (name x) n /\ has E (path x) p.

Lemma program_path_ok q cwd exe file e : program_path q cwd exe file e -> match q with Some (c :: p) => firstn (E - 1) (c :: p) | _ => GetExecutionPath E cwd exe file end = e.
Proof.
  intros (Ne & L & _ & H). assert (forall t, t <> [] -> length t < E -> match t with [] => match cwd with Some d => if length d <? E then d else [] | None => [] end | c :: l => firstn (E - 1) (firstn E (c :: l)) end = t) as G.
  { intros [|c t] N1 N2; [congruence|]. rewrite (firstn_all2 (n := E)) by lia. apply firstn_all2. lia. }
  destruct H as [->|[Q H]].
  - destruct e; [congruence|]. apply firstn_all2. lia.
  - assert (match q with Some (c :: p) => firstn (E - 1) (c :: p) | _ => GetExecutionPath E cwd exe file end = GetExecutionPath E cwd exe file) as -> by (destruct Q as [->| ->]; reflexivity). unfold GetExecutionPath.
    destruct H as [->|[[-> ->]|[H ->]]]; [specialize (G e Ne L); destruct e; [congruence|exact G]|specialize (G e Ne L); destruct e; [congruence|exact G]|].
    assert (length e <? E = true) as -> by (apply Nat.ltb_lt; exact L). destruct H as [->|[-> [->| ->]]]; reflexivity.
Qed.
Lemma rename_text n t : t <> [] -> length t < E -> renamed E n (Text t) = t.
Proof. destruct t; [congruence|]. intros _ L. apply firstn_all2. lia. Qed.
Lemma meant_step x c o c' : shows x c -> Meant c o c' -> exists x', step E isdir accessible x o = Ok x' /\ shows x' c'.
Proof.
  intros S M. inversion M; subst; cbn [shows] in S; destruct S as (R & HN & HP); cbn [step].
  - destruct (set_client_ok _ _ s HN) as (b & -> & HB); [assumption|]. eexists. split; [reflexivity|]. cbn [shows started name path]. auto.
  - destruct (set_client_ok _ _ s HP) as (b & -> & HB); [assumption|]. eexists. split; [reflexivity|]. cbn [shows started name path]. auto.
  - eexists. split; [reflexivity|]. cbn [shows started name path]. auto.
  - rewrite R. exists x. split; [reflexivity|]. cbn [shows]. auto.
  - rewrite R. cbv zeta. pose proof H as (_ & L & T & _). rewrite (program_path_ok _ _ _ _ _ H). destruct (head_tail E isdir accessible d f) as [HD TL]; try assumption. rewrite TL. cbn [bind]. apply text_app in T as (TD & TF). apply text_cons in TF as (_ & TF). rewrite app_length in L. cbn [length] in L.
    destruct (set_client_ok _ _ (Text f) HN TF) as (b & -> & HB). cbn [bind]. rewrite HD. cbn [bind]. destruct (set_client_ok _ _ (Text d) HP TD) as (b' & -> & HB'). cbn [bind]. eexists. split; [reflexivity|]. cbn [shows started name path]. split; [reflexivity|].
    rewrite rename_text in HB by (assumption || lia). split; [exact HB|]. destruct d as [|c d]; [exact HB'|]. rewrite rename_text in HB' by (discriminate || lia). exact HB'.
  - rewrite R. cbv zeta. pose proof H as (Ne & L & T & _). rewrite (program_path_ok _ _ _ _ _ H). destruct (tail_of_name E isdir accessible f) as [HD TL]; try assumption. rewrite TL. cbn [bind].
    destruct (set_client_ok _ _ (Text f) HN T) as (b & -> & HB). cbn [bind]. rewrite HD. cbn [bind]. destruct (set_client_ok _ _ (Text []) HP (Forall_nil _)) as (b' & -> & HB'). cbn [bind]. eexists. split; [reflexivity|]. cbn [shows started name path]. split; [reflexivity|].
    rewrite rename_text in HB by assumption. split; [exact HB|exact HB'].
Qed.
(** ** C257: after every history, the client has the name and the path that were given last *)
Theorem client_as_meant l r n p : Meant_all (false, wizard, []) l (r, n, p) ->
  exists x, run E isdir accessible l = Ok x /\ GetClientName x = Ok n /\ GetClientPath x = Ok p /\ length n < E /\ length p < E /\ length (name x) = E /\ length (path x) = E.
Proof.
  intros M. assert (forall c l c', Meant_all c l c' -> forall x, shows x c -> exists x', fold_outcome (step E isdir accessible) l x = Ok x' /\ shows x' c') as G.
  { clear l r n p M. intros c l c' M. induction M as [c|c o c1 l c2 S M IH]; intros x X; cbn [fold_outcome]; [exists x; auto|]. destruct (meant_step _ _ _ _ X S) as (x' & -> & X'). cbn [bind]. exact (IH x' X'). }
  destruct (G _ _ _ M (initial E)) as (x & R & (_ & (L1 & T1 & B1 & r1 & Q1) & (L2 & T2 & B2 & r2 & Q2))).
  - split; [reflexivity|]. assert (length wizard = 6) as W6 by reflexivity. split; cbn [initial name path].
    + split; [rewrite app_length, repeat_length; lia|]. split; [repeat constructor|]. split; [exact EX|]. destruct (E - length wizard) as [|k] eqn:K; [lia|]. exists (repeat 0%N k). reflexivity.
    + split; [apply repeat_length|]. split; [constructor|]. split; [cbn [length]; lia|]. destruct E as [|k]; [lia|]. exists (repeat 0%N k). reflexivity.
  - exists x. split; [exact R|]. unfold GetClientName, GetClientPath. split; [rewrite Q1; apply c_string_ok, T1|]. split; [rewrite Q2; apply c_string_ok, T2|]. split; [exact B1|]. split; [exact B2|]. split; [exact L1|exact L2].
Qed.
Lemma meant_all_app c l c1 o c2 : Meant_all c l c1 -> Meant c1 o c2 -> Meant_all c (l ++ [o]) c2.
Proof. intros M S. induction M as [c|c o' c' l c'' S' M IH]; cbn [app]; econstructor; eauto. constructor. Qed.
(** ** C258: starting as d/f makes f the name and d the path, whatever they were *)
Theorem client_start l n p d f : Meant_all (false, wizard, []) l (false, n, p) -> text (d ++ 47%N :: f) -> plain E accessible (d ++ 47%N :: f) -> length (d ++ 47%N :: f) < E -> free 47 f -> d <> [] -> f <> [] ->
  exists x, run E isdir accessible (l ++ [Genesis (Some (d ++ 47%N :: f)) None None None]) = Ok x /\ GetClientName x = Ok f /\ GetClientPath x = Ok d.
Proof.
  intros M T P L F D NF. assert (Meant (false, n, p) (Genesis (Some (d ++ 47%N :: f)) None None None) (true, f, match d with [] => p | _ => d end)) as S.
  { constructor; try assumption. split; [destruct d; discriminate|]. split; [exact L|]. split; [exact T|]. left. reflexivity. }
  destruct (client_as_meant _ _ _ _ (meant_all_app _ _ _ _ _ M S)) as (x & R & A & B & _). exists x. split; [exact R|]. split; [exact A|]. rewrite B. destruct d; [congruence|reflexivity].
Qed.
(** ** C259, refuted: the path is not that of the program if that is in the root, or was started without a directory *)
Theorem client_path_refuted d f g : text (d ++ 47%N :: f) -> plain E accessible (d ++ 47%N :: f) -> length (d ++ 47%N :: f) < E -> free 47 f -> d <> [] -> f <> [] ->
  text g -> plain E accessible g -> plain E accessible (47%N :: g) -> length (47%N :: g) < E -> free 47 g -> g <> [] ->
  (exists x, run E isdir accessible [Genesis (Some (d ++ 47%N :: f)) None None None; Terminus; Genesis (Some g) None None None] = Ok x /\ GetClientName x = Ok g /\ GetClientPath x = Ok d) /\
  (exists x, run E isdir accessible [Genesis (Some (47%N :: g)) None None None] = Ok x /\ GetClientName x = Ok g /\ GetClientPath x = Ok []).
Proof.
  intros T P L F D NF TG PG PS LG FG NG. split.
  - assert (Meant_all (false, wizard, []) [Genesis (Some (d ++ 47%N :: f)) None None None; Terminus; Genesis (Some g) None None None] (true, g, match d with [] => [] | _ => d end)) as M.
    { econstructor; [apply M_start with (d := d) (f := f); try assumption; split; [destruct d; discriminate|]; split; [exact L|]; split; [exact T|]; left; reflexivity|]. econstructor; [apply M_end|]. econstructor; [|constructor]. apply M_start_name; try assumption. split; [exact NG|]. cbn [length] in LG. split; [lia|]. split; [exact TG|]. left. reflexivity. }
    destruct (client_as_meant _ _ _ _ M) as (x & R & A & B & _). exists x. split; [exact R|]. split; [exact A|]. rewrite B. destruct d; [congruence|reflexivity].
  - assert (Meant_all (false, wizard, []) [Genesis (Some (47%N :: g)) None None None] (true, g, [])) as M.
    { econstructor; [|constructor]. apply (M_start wizard [] (Some (47%N :: g)) None None None [] g); cbn [app]; try assumption. split; [discriminate|]. split; [exact LG|]. split; [apply text_cons; split; [lia|exact TG]|]. left. reflexivity. }
    destruct (client_as_meant _ _ _ _ M) as (x & R & A & B & _). exists x. split; [exact R|]. split; [exact A|exact B].
Qed.
End Client.
Print Assumptions client_as_meant.
Print Assumptions client_start.
Print Assumptions client_path_refuted.

(** ** Examples with buffers of 16 bytes *)
Local Definition none (_ : list N) : bool := false.
Local Definition nodir (_ : list N) : Z := (-1)%Z.
Local Definition bin : list N := [47; 98; 105; 110]%N.
Local Definition enc : list N := [101; 110; 99]%N.
Example program_paths : program_path 16 (Some []) (Some bin) None (Some (bin ++ 47%N :: enc)) (bin ++ 47%N :: enc) /\ plain 16 none (bin ++ 47%N :: enc) /\ free 47 enc.
Proof.
  assert (forall c l, existsb (N.eqb c) l = false -> free c l) as FR by (intros c l X I; assert (existsb (N.eqb c) l = true) by (apply existsb_exists; exists c; split; [exact I|apply N.eqb_refl]); congruence).
  split; [split; [discriminate|]; split; [cbn; lia|]; split; [repeat constructor|]; right; split; [right; reflexivity|]; right; left; split; reflexivity|].
  split; [split; [discriminate|]; split; [cbn; lia|]; split; [left; apply FR; reflexivity|]; left; discriminate|]. apply FR. reflexivity.
Qed.
Example client_history :
  match run 16 nodir none [SetClientName (Text (enc ++ enc)); SetClientName (Own 3); SetClientName Null; SetClientPath (Text (repeat 98%N 20)); SetClientPath (Text []); SetClientPath (Own 5)] with
  | Ok x => GetClientName x = Ok enc /\ GetClientPath x = Ok (repeat 98%N 10)
  | _ => False end.
Proof. vm_compute. split; reflexivity. Qed.
Example client_history_meant : exists c, Meant_all 16 none (false, wizard, []) [SetClientName (Text (enc ++ enc)); SetClientName (Own 3); SetClientPath (Text (repeat 98%N 20)); Terminus] c /\ c = (false, enc, repeat 98%N 15).
Proof. eexists. split; [repeat (econstructor; [try (constructor; cbn [sensible]; try exact I; try (repeat constructor; fail); cbn; lia); constructor; repeat constructor|]); constructor|reflexivity]. Qed.
Example client_genesis :
  match run 16 nodir none [Genesis (Some (bin ++ 47%N :: enc)) None None None; Terminus; Genesis None (Some bin) None (Some enc)] with
  | Ok x => GetClientName x = Ok enc /\ GetClientPath x = Ok bin
  | _ => False end.
Proof. vm_compute. split; reflexivity. Qed.
