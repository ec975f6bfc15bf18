(** Paths (C107-C110). *)
From Coq Require Import NArith ZArith Bool String Lia ZifyBool ZifyNat ZifyN Arith List.
From Verif Require Import Base Outcome OptionModel PathModel.
Import ListNotations.

(** * Splitting at the separators *)

(** components separated by '/' *)
Fixpoint joined (l : list (list N)) : list N :=
  match l with
  | [] => []
  | [x] => x
  | x :: l => x ++ 47%N :: joined l
  end.

Lemma joined_cons x l : l <> [] -> joined (x :: l) = x ++ 47%N :: joined l.
Proof. destruct l; [contradiction|reflexivity]. Qed.
Lemma split_off_spec p : let '(x, q) := split_off p in
  p = x ++ q /\ ~ In 47%N x /\ (q = [] \/ exists q', q = 47%N :: q') /\ filter is_sep x = [].
Proof.
  induction p as [|c p IH]; cbn [split_off]; [repeat split; auto|].
  unfold is_sep at 1. destruct (N.eqb_spec c slash) as [->|N].
  - split; [reflexivity|]. split; [auto|]. split; [right; eauto|reflexivity].
  - destruct (split_off p) as (x, q). destruct IH as (-> & F & Q & Z). split; [reflexivity|].
    split; [intros [->|I]; [now apply N|now apply F]|]. split; [exact Q|]. cbn [filter]. unfold is_sep at 1.
    now rewrite (proj2 (N.eqb_neq _ _) N).
Qed.
Lemma components_spec n : forall p, n = length (filter is_sep p) ->
  joined (components_loop (S n) p) = p /\ Forall (fun x => ~ In 47%N x) (components_loop (S n) p).
Proof.
  induction n as [|n IH]; intros p H; change (components_loop (S ?k) p) with (let '(x, q) := split_off p in x :: components_loop k (tl q));
    pose proof (split_off_spec p) as S; destruct (split_off p) as (x, q); destruct S as (-> & F & Q & Z);
    rewrite filter_app, Z in H; cbn [app] in H.
  - destruct Q as [->|(q' & ->)]; [|cbn in H; lia]. cbn [tl components_loop joined]. rewrite app_nil_r. auto.
  - destruct Q as [->|(q' & ->)]; [cbn in H; lia|]. cbn [tl]. cbn [filter] in H. change (is_sep 47) with true in H. cbn [length] in H.
    destruct (IH q' ltac:(lia)) as (J & A). split; [|now constructor].
    rewrite joined_cons by (cbn [components_loop]; destruct (split_off q'); discriminate). now rewrite J.
Qed.

(** C107: GetPathComponents returns the pieces between the separators. *)
Theorem path_components_split : forall path,
  joined (GetPathComponents path) = path /\
  Forall (fun x => ~ In 47%N x) (GetPathComponents path) /\ GetPathComponents path <> [].
Proof.
  intros path. unfold GetPathComponents. destruct (components_spec _ path eq_refl) as (J & A). split; [exact J|].
  split; [exact A|]. cbn [components_loop]. destruct (split_off path). discriminate.
Qed.
Print Assumptions path_components_split.

(** The pieces determine the list: no other list of components gives the path. *)
Theorem path_components_unique : forall l, l <> [] -> Forall (fun x => ~ In 47%N x) l ->
  GetPathComponents (joined l) = l.
Proof.
  assert (S : forall x q, ~ In 47%N x -> (q = [] \/ exists q', q = 47%N :: q') -> split_off (x ++ q) = (x, q)).
  { induction x as [|c x IH]; intros q F Q; cbn [app].
    - destruct Q as [->|(q' & ->)]; reflexivity.
    - cbn [split_off]. unfold is_sep. destruct (N.eqb_spec c slash) as [->|N]; [exfalso; apply F; now left|].
      rewrite IH; [reflexivity|intros I; apply F; now right|exact Q]. }
  assert (Fi : forall x, ~ In 47%N x -> filter is_sep x = []).
  { induction x as [|c x IH]; intros F; [reflexivity|]. cbn [filter]. unfold is_sep at 1.
    destruct (N.eqb_spec c slash) as [->|N]; [exfalso; apply F; now left|]. apply IH. intros I; apply F; now right. }
  unfold GetPathComponents. intros l. induction l as [|x l IH]; [contradiction|]. intros _ A. inversion A as [|? ? F A']; subst.
  destruct l as [|y l].
  - cbn [joined]. rewrite Fi by exact F. cbn [length components_loop]. rewrite <- (app_nil_r x) at 1. now rewrite S by auto.
  - rewrite joined_cons by discriminate. rewrite filter_app, Fi by exact F. cbn [filter app]. change (is_sep 47) with true.
    cbn [length]. cbn [components_loop]. rewrite S by eauto. cbn [tl]. f_equal. apply IH; [discriminate|exact A'].
Qed.
Print Assumptions path_components_unique.

(** * Positions *)
Lemma last_pos_none test l : forall i best, Forall (fun c => test c = false) l -> last_pos test l i best = best.
Proof.
  induction l as [|c l IH]; intros i best F; [reflexivity|]. inversion F as [|? ? C F']; subst. cbn [last_pos]. rewrite C. now apply IH.
Qed.
Lemma last_pos_app test a c z : forall i best, test c = true -> Forall (fun c => test c = false) z -> 0 < i + length a ->
  last_pos test (a ++ c :: z) i best = i + length a.
Proof.
  induction a as [|x a IH]; intros i best C F P; cbn [app last_pos length] in *.
  - rewrite C. replace (0 <? i) with true by lia. cbn [andb]. rewrite last_pos_none by exact F. lia.
  - rewrite IH by (try assumption; lia). lia.
Qed.
Lemma rpos_app test a c z : test c = true -> Forall (fun c => test c = false) z -> rpos test (a ++ c :: z) = length a.
Proof.
  intros C F. unfold rpos. destruct a as [|x a].
  - cbn [app last_pos length]. rewrite C. cbn [andb Nat.ltb Nat.leb]. now apply last_pos_none.
  - now rewrite last_pos_app by (try assumption; cbn [length]; lia).
Qed.
Lemma rpos_none test l : Forall (fun c => test c = false) l -> rpos test l = 0.
Proof. apply last_pos_none. Qed.
Lemma char_at_app a c z : char_at (a ++ c :: z) (length a) = c.
Proof. unfold char_at. rewrite app_nth2 by lia. now rewrite Nat.sub_diag. Qed.
Lemma first_pos_none test l : Forall (fun c => test c = false) l -> first_pos test l = None.
Proof. induction 1 as [|c l C _ IH]; [reflexivity|]. cbn. now rewrite C, IH. Qed.
Lemma first_pos_app test a c z : Forall (fun c => test c = false) a -> test c = true -> first_pos test (a ++ c :: z) = Some (length a).
Proof. intros F C. induction F as [|x a X _ IH]; cbn; [now rewrite C|]. now rewrite X, IH. Qed.

Definition free (c : N) (l : list N) : Prop := ~ In c l.
Lemma free_test c l : free c l -> Forall (fun x => (x =? c)%N = false) l.
Proof. intros F. apply Forall_forall. intros x I. apply N.eqb_neq. now intros ->. Qed.
Lemma free_app c a z : free c (a ++ z) <-> free c a /\ free c z.
Proof. unfold free. rewrite in_app_iff. tauto. Qed.
Lemma free_cons c x z : free c (x :: z) <-> x <> c /\ free c z.
Proof. unfold free. cbn. tauto. Qed.

Section PathProps.
Variable E : nat.
Variable isdir : list N -> Z.
Variable accessible : list N -> bool.
Notation get := (GetPathComponent E isdir accessible).

(** A path that fits, and is not taken apart at a colon or a bracket. *)
Definition plain (path : list N) : Prop :=
  path <> [] /\ length path < E /\ (free 58 path \/ accessible path = true) /\ (last path 0%N <> 93%N \/ free 91 path).

Lemma last_char_at l : char_at l (length l - 1) = last l 0%N.
Proof.
  destruct l as [|x l] using rev_ind; [reflexivity|]. rewrite last_last, app_length. cbn [length].
  replace (length l + 1 - 1) with (length l) by lia. apply char_at_app.
Qed.
Lemma get_plain path type : plain path ->
  get path type =
    let p := rpos is_sep path in
    match type with
    | FilesystemPath | SubnodePath => Ok []
    | RootPath =>
        let p := rpos (fun c => is_sep c || is_dot c) path in
        Ok (if is_dot (char_at path p) then firstn p path else path)
    | HeadPath => Ok (firstn p path)
    | TailPath => Ok (tail_of path p)
    | BasePath =>
        let t := tail_of path p in let p := rpos is_dot t in Ok (if (0 <? p)%nat then firstn p t else t)
    | ExtensionPath =>
        let t := tail_of path p in let p := rpos is_dot t in
        let x := if is_dot (char_at t p) then skipn (S p) t else [] in
        Ok (match first_pos (fun c => (c =? 63)%N) x with Some k => firstn k x | None => x end)
    | CanonicalPath => Ok path
    end.
Proof.
  intros (Ne & L & C & B). unfold GetPathComponent. rewrite firstn_all2 by lia.
  assert (F : strip_filesystem E isdir accessible path path = Ok ([], path)).
  { unfold strip_filesystem. destruct C as [C|C].
    - rewrite first_pos_none by now apply free_test. reflexivity.
    - rewrite C. cbn [negb]. rewrite andb_false_r. now destruct (first_pos _ path). }
  assert (S : strip_subnode path = ([], path)).
  { unfold strip_subnode. rewrite last_char_at. destruct B as [B|B].
    - now rewrite (proj2 (N.eqb_neq _ _) B).
    - replace (existsb (fun c => (c =? 91)%N) path) with false; [now rewrite andb_false_r|].
      symmetry. apply not_true_iff_false. intros X. apply existsb_exists in X. destruct X as (x & I & Q). apply N.eqb_eq in Q. now subst. }
  destruct path as [|c path]; [contradiction|]. rewrite F. cbn [bind]. rewrite S. destruct type; reflexivity.
Qed.

(** ** Directory and file *)
Lemma tail_app d f : free 47 f -> tail_of (d ++ 47%N :: f) (length d) = f.
Proof.
  intros F. unfold tail_of. rewrite char_at_app. change (is_sep 47) with true.
  replace (S (length d)) with (length (d ++ [47%N])) by (rewrite app_length; cbn; lia).
  replace (d ++ 47%N :: f) with ((d ++ [47%N]) ++ f) by now rewrite <- app_assoc. now rewrite skipn_app, skipn_all, Nat.sub_diag.
Qed.
Lemma tail_none f : free 47 f -> tail_of f 0 = f.
Proof.
  intros F. unfold tail_of, char_at. destruct f as [|c f]; [reflexivity|]. cbn [nth]. apply free_cons in F.
  unfold is_sep, slash. now rewrite (proj2 (N.eqb_neq _ _) (proj1 F)).
Qed.

(** C108: a path in a directory is its head, a separator and its tail. *)
Theorem head_tail : forall d f, plain (d ++ 47%N :: f) -> free 47 f ->
  get (d ++ 47%N :: f) HeadPath = Ok d /\ get (d ++ 47%N :: f) TailPath = Ok f.
Proof.
  intros d f P F. rewrite !get_plain by exact P. cbv zeta.
  rewrite rpos_app by (try reflexivity; now apply free_test). split.
  - rewrite firstn_app, Nat.sub_diag, firstn_all. cbn [firstn]. now rewrite app_nil_r.
  - now rewrite tail_app.
Qed.
Theorem tail_of_name : forall f, plain f -> free 47 f -> get f HeadPath = Ok [] /\ get f TailPath = Ok f.
Proof.
  intros f P F. rewrite !get_plain by exact P. cbv zeta. rewrite rpos_none by now apply free_test.
  split; [reflexivity|]. now rewrite tail_none.
Qed.
(** The root directory cannot be told from no directory. *)
Theorem head_of_root_refuted : forall f, plain (47%N :: f) -> plain f -> free 47 f ->
  get (47%N :: f) HeadPath = get f HeadPath /\ get (47%N :: f) TailPath = get f TailPath.
Proof.
  intros f P P' F. destruct (head_tail [] f P F) as (A & B). cbn [app] in A, B. rewrite A, B.
  destruct (tail_of_name f P' F) as (-> & ->). now split.
Qed.

(** Chopping components off the end. *)
Theorem chop_components : forall l d, d <> [] -> Forall (fun x => free 47 x) l ->
  length (d ++ concat (map (cons 47%N) l)) < E ->
  free 58 (d ++ concat (map (cons 47%N) l)) -> free 91 (d ++ concat (map (cons 47%N) l)) ->
  ChopPathComponents E isdir accessible (d ++ concat (map (cons 47%N) l)) (length l) = Ok d.
Proof.
  induction l as [|f l IH] using rev_ind; intros d Ne F L C B; [cbn; now rewrite app_nil_r|].
  rewrite app_length, Nat.add_comm. cbn [length Nat.add ChopPathComponents].
  rewrite map_app, concat_app in *. cbn [map concat] in *. rewrite app_nil_r in *. rewrite app_assoc in *.
  apply Forall_app in F. destruct F as (F & Ff). inversion Ff; subst.
  destruct (head_tail (d ++ concat (map (cons 47%N) l)) f) as (-> & _); [|assumption|].
  - split; [intros X; apply app_eq_nil in X; now destruct X|]. split; [exact L|]. split; [now left|now right].
  - cbn [bind]. apply free_app in C. apply free_app in B. apply IH; try tauto. rewrite app_length in L. lia.
Qed.

(** ** Root, base and extension *)
Lemma free_or_test c d l : free c l -> free d l -> Forall (fun x => (x =? c)%N || (x =? d)%N = false) l.
Proof.
  intros F G. apply Forall_forall. intros x I. apply orb_false_intro; apply N.eqb_neq; now intros ->.
Qed.
(** the directory part of [r], its name part *)
Lemma rpos_sep_cases r : (exists d n, r = d ++ 47%N :: n /\ free 47 n) \/ free 47 r.
Proof.
  induction r as [|c r IH]; [right; intros []|]. destruct IH as [(d & n & -> & F)|F].
  - left. exists (c :: d), n. now split.
  - destruct (N.eq_dec c 47) as [->|N]; [left; exists [], r; now split|]. right. apply free_cons. now split.
Qed.
Lemma skipn_length_app (a z : list N) c : skipn (S (length a)) (a ++ c :: z) = z.
Proof.
  replace (S (length a)) with (length (a ++ [c])) by (rewrite app_length; cbn; lia).
  replace (a ++ c :: z) with ((a ++ [c]) ++ z) by now rewrite <- app_assoc. now rewrite skipn_app, skipn_all, Nat.sub_diag.
Qed.
Lemma extension_of t e : free 46 e -> free 63 e ->
  (let p := rpos is_dot (t ++ 46%N :: e) in
   let x := if is_dot (char_at (t ++ 46%N :: e) p) then skipn (S p) (t ++ 46%N :: e) else [] in
   match first_pos (fun c => (c =? 63)%N) x with Some k => firstn k x | None => x end) = e.
Proof.
  intros D Q. cbv zeta. rewrite rpos_app by (try reflexivity; now apply free_test). rewrite char_at_app. change (is_dot 46) with true.
  cbv iota. rewrite skipn_length_app. now rewrite first_pos_none by now apply free_test.
Qed.

(** C109: a name with an extension is its root, a dot and its extension, and
    its base is the name part of the root. *)
Theorem root_extension : forall r e, plain (r ++ 46%N :: e) -> free 47 e -> free 46 e -> free 63 e ->
  get (r ++ 46%N :: e) RootPath = Ok r /\ get (r ++ 46%N :: e) ExtensionPath = Ok e.
Proof.
  intros r e P S D Q. rewrite !get_plain by exact P. cbv zeta. split.
  - rewrite rpos_app; [|reflexivity|]. 2: { apply Forall_forall. intros x I. unfold is_sep, is_dot, slash, dot.
      pose proof (proj1 (Forall_forall _ _) (free_or_test 47 46 e S D) x I) as T. exact T. }
    rewrite char_at_app. change (is_dot 46) with true. cbv iota.
    rewrite firstn_app, Nat.sub_diag, firstn_all. cbn [firstn]. now rewrite app_nil_r.
  - f_equal. destruct (rpos_sep_cases r) as [(d & n & -> & F)|F].
    + replace ((d ++ 47%N :: n) ++ 46%N :: e) with (d ++ 47%N :: (n ++ 46%N :: e)) by now rewrite <- app_assoc.
      assert (Fe : free 47 (n ++ 46%N :: e)) by (apply free_app; split; [exact F|]; apply free_cons; split; [discriminate|exact S]).
      rewrite rpos_app by (try reflexivity; now apply free_test). rewrite tail_app by exact Fe. now apply extension_of.
    + assert (Fe : free 47 (r ++ 46%N :: e)) by (apply free_app; split; [exact F|]; apply free_cons; split; [discriminate|exact S]).
      rewrite rpos_none by now apply free_test. rewrite tail_none by exact Fe. now apply extension_of.
Qed.
Theorem base_of_file : forall d n e, plain (d ++ 47%N :: n ++ 46%N :: e) -> n <> [] -> free 47 n -> free 47 e -> free 46 e ->
  get (d ++ 47%N :: n ++ 46%N :: e) BasePath = Ok n.
Proof.
  intros d n e P Ne F S D. rewrite get_plain by exact P. cbv zeta.
  assert (Fe : free 47 (n ++ 46%N :: e)) by (apply free_app; split; [exact F|]; apply free_cons; split; [discriminate|exact S]).
  rewrite rpos_app by (try reflexivity; now apply free_test). rewrite tail_app by exact Fe.
  rewrite rpos_app by (try reflexivity; now apply free_test). replace (0 <? length n) with true by (destruct n; [contradiction|cbn; lia]).
  now rewrite firstn_app, Nat.sub_diag, firstn_all, app_nil_r.
Qed.
Theorem no_extension : forall d f, plain (d ++ 47%N :: f) -> free 47 f -> free 46 f ->
  get (d ++ 47%N :: f) RootPath = Ok (d ++ 47%N :: f) /\ get (d ++ 47%N :: f) ExtensionPath = Ok [] /\
  get (d ++ 47%N :: f) BasePath = Ok f.
Proof.
  intros d f P F D. rewrite !get_plain by exact P. cbv zeta. split; [|split].
  - rewrite rpos_app; [|reflexivity|].
    + rewrite char_at_app. reflexivity.
    + apply Forall_forall. intros x I. exact (proj1 (Forall_forall _ _) (free_or_test 47 46 f F D) x I).
  - rewrite rpos_app by (try reflexivity; now apply free_test). rewrite tail_app by exact F.
    rewrite rpos_none by now apply free_test. replace (is_dot (char_at f 0)) with false; [reflexivity|].
    symmetry. unfold char_at. destruct f as [|c f]; [reflexivity|]. cbn [nth]. apply free_cons in D. now apply N.eqb_neq.
  - rewrite rpos_app by (try reflexivity; now apply free_test). rewrite tail_app by exact F.
    now rewrite rpos_none by now apply free_test.
Qed.

(** AppendFileExtension replaces the extension or appends one, *)
Theorem append_extension : forall r e x, plain (r ++ 46%N :: e) -> free 47 e -> free 46 e -> free 63 e -> x <> [] ->
  length r + length x + 2 <= E ->
  AppendFileExtension E isdir accessible x (r ++ 46%N :: e) = Ok (r ++ 46%N :: x).
Proof.
  intros r e x P S D Q Nx L. unfold AppendFileExtension. destruct x as [|x0 x]; [contradiction|].
  destruct (root_extension r e P S D Q) as (R & _).
  destruct (r ++ 46%N :: e) as [|c p] eqn:Eq; [now destruct r|]. rewrite R. cbn [bind]. f_equal.
  rewrite (firstn_all2 r) by lia. rewrite (firstn_all2 (r ++ [dot])) by (rewrite app_length; cbn [length] in *; lia).
  rewrite firstn_all2 by (rewrite !app_length; cbn [length] in *; lia). now rewrite <- app_assoc.
Qed.
Theorem append_new_extension : forall d f x, plain (d ++ 47%N :: f) -> free 47 f -> free 46 f -> x <> [] ->
  length (d ++ 47%N :: f) + length x + 2 <= E ->
  AppendFileExtension E isdir accessible x (d ++ 47%N :: f) = Ok ((d ++ 47%N :: f) ++ 46%N :: x).
Proof.
  intros d f x P F D Nx L. unfold AppendFileExtension. destruct x as [|x0 x]; [contradiction|].
  destruct (no_extension d f P F D) as (R & _).
  destruct (d ++ 47%N :: f) as [|c p] eqn:Eq; [now destruct d|]. rewrite R. cbn [bind]. f_equal.
  rewrite (firstn_all2 (c :: p)) by lia. rewrite (firstn_all2 ((c :: p) ++ [dot])) by (rewrite app_length; cbn [length] in *; lia).
  rewrite firstn_all2 by (rewrite !app_length; cbn [length] in *; lia). now rewrite <- app_assoc.
Qed.
(** but of a file whose name starts with a dot nothing is left, *)
Theorem hidden_file_refuted : forall d h x, plain (d ++ 47%N :: 46%N :: h) -> free 47 h -> free 46 h -> free 63 h -> x <> [] ->
  length d + length x + 3 <= E ->
  AppendFileExtension E isdir accessible x (d ++ 47%N :: 46%N :: h) = Ok (d ++ 47%N :: 46%N :: x) /\
  get (d ++ 47%N :: 46%N :: h) BasePath = Ok (46%N :: h) /\ get (d ++ 47%N :: 46%N :: h) ExtensionPath = Ok h.
Proof.
  intros d h x P S D Q Nx L. replace (d ++ 47%N :: 46%N :: h) with ((d ++ [47%N]) ++ 46%N :: h) in * by now rewrite <- app_assoc.
  replace (d ++ 47%N :: 46%N :: x) with ((d ++ [47%N]) ++ 46%N :: x) by now rewrite <- app_assoc.
  split; [apply append_extension; try assumption; rewrite app_length; cbn [length]; lia|].
  destruct (root_extension (d ++ [47%N]) h P S D Q) as (_ & X). split; [|exact X].
  rewrite get_plain by exact P. cbv zeta. rewrite <- app_assoc. cbn [app].
  assert (Fe : free 47 (46%N :: h)) by (apply free_cons; split; [discriminate|exact S]).
  rewrite rpos_app by (try reflexivity; now apply free_test). rewrite tail_app by exact Fe.
  change (46%N :: h) with ([] ++ 46%N :: h). rewrite rpos_app by (try reflexivity; now apply free_test). reflexivity.
Qed.

(** ** Subnodes and file systems *)
Lemma existsb_in c l : In c l -> existsb (fun x => (x =? c)%N) l = true.
Proof. intros I. apply existsb_exists. exists c. split; [exact I|apply N.eqb_refl]. Qed.
Lemma strip_subnode_app f s : free 91 s -> strip_subnode (f ++ 91%N :: s ++ [93%N]) = (s, f).
Proof.
  intros Sb. unfold strip_subnode. rewrite last_char_at.
  replace (f ++ 91%N :: s ++ [93%N]) with ((f ++ 91%N :: s) ++ [93%N]) by now rewrite <- app_assoc. rewrite last_last.
  rewrite existsb_in by (rewrite !in_app_iff; cbn; tauto). cbn [N.eqb Pos.eqb andb].
  rewrite (app_length _ [93%N]). cbn [length]. replace (length (f ++ 91%N :: s) + 1 - 1) with (length (f ++ 91%N :: s)) by lia.
  rewrite (firstn_app _ (f ++ 91%N :: s)), Nat.sub_diag, firstn_all. cbn [firstn]. rewrite app_nil_r.
  rewrite rpos_app by (try reflexivity; now apply free_test). rewrite <- (app_assoc f). cbn [app]. rewrite char_at_app. cbn [N.eqb Pos.eqb].
  rewrite skipn_length_app. f_equal.
  - rewrite app_length. cbn [length]. replace (length f + S (length s) - S (length f)) with (length s) by lia.
    now rewrite firstn_app, Nat.sub_diag, firstn_all, app_nil_r.
  - now rewrite firstn_app, Nat.sub_diag, firstn_all, app_nil_r.
Qed.

(** C110: the parts in brackets and in front of a colon. *)
Theorem subnode_path : forall f s, length (f ++ 91%N :: s ++ [93%N]) < E -> free 58 (f ++ 91%N :: s ++ [93%N]) -> free 91 s ->
  get (f ++ 91%N :: s ++ [93%N]) SubnodePath = Ok s /\ get (f ++ 91%N :: s ++ [93%N]) CanonicalPath = Ok f.
Proof.
  intros f s L C S. unfold GetPathComponent. rewrite firstn_all2 by lia. unfold strip_filesystem.
  rewrite first_pos_none by now apply free_test. cbn [bind]. rewrite strip_subnode_app by exact S. now destruct f.
Qed.
(** Only a subnode: RootPath reads in front of the buffer. *)
Theorem only_subnode_refuted : forall s, length s + 2 < E -> free 58 s -> free 91 s ->
  get (91%N :: s ++ [93%N]) RootPath = UB /\
  forall x, x <> [] -> AppendFileExtension E isdir accessible x (91%N :: s ++ [93%N]) = UB.
Proof.
  intros s L C S. assert (R : get (91%N :: s ++ [93%N]) RootPath = UB).
  { unfold GetPathComponent. rewrite firstn_all2 by (cbn [length]; rewrite app_length; cbn [length]; lia). unfold strip_filesystem.
    rewrite first_pos_none. 2: { apply free_test. apply free_cons. split; [discriminate|]. apply free_app. split; [exact C|]. intros [X|[]]. discriminate X. }
    cbn [bind]. pose proof (strip_subnode_app [] s S) as X. cbn [app] in X. now rewrite X. }
  split; [exact R|]. intros x Nx. unfold AppendFileExtension. destruct x; [contradiction|]. now rewrite R.
Qed.

Theorem filesystem_path : forall fs rest, 2 * length fs + length rest + 1 < E -> free 58 fs ->
  (isdir (fs ++ 58%N :: rest) < 0)%Z -> accessible (fs ++ 58%N :: rest) = false -> (0 <= isdir fs)%Z ->
  last rest 0%N <> 93%N ->
  get (fs ++ 58%N :: rest) FilesystemPath = Ok fs /\ get (fs ++ 58%N :: rest) CanonicalPath = Ok rest.
Proof.
  intros fs rest L C D A I B. unfold GetPathComponent. rewrite firstn_all2 by (rewrite app_length; cbn [length]; lia).
  assert (S : strip_filesystem E isdir accessible (fs ++ 58%N :: rest) (fs ++ 58%N :: rest) = Ok (fs, rest)).
  { unfold strip_filesystem. rewrite first_pos_app by (try reflexivity; now apply free_test). rewrite A.
    rewrite (proj2 (Z.ltb_lt _ _) D). cbn [negb andb]. rewrite firstn_app, Nat.sub_diag, firstn_all. cbn [firstn]. rewrite app_nil_r.
    rewrite (proj2 (Z.ltb_ge _ _) I). rewrite app_length. cbn [length]. replace (_ <? E) with true by lia.
    now rewrite skipn_length_app. }
  assert (N : strip_subnode rest = ([], rest)).
  { unfold strip_subnode. rewrite last_char_at. now rewrite (proj2 (N.eqb_neq _ _) B). }
  destruct (fs ++ 58%N :: rest) eqn:Eq; [now destruct fs|]. rewrite S. cbn [bind]. rewrite N. split; reflexivity.
Qed.
(** Moving the rest to the front reads behind the buffer if the path is long. *)
Theorem long_filesystem_refuted : forall fs rest type, length (fs ++ 58%N :: rest) < E -> E <= length fs + length (fs ++ 58%N :: rest) ->
  free 58 fs -> (isdir (fs ++ 58%N :: rest) < 0)%Z -> accessible (fs ++ 58%N :: rest) = false -> (0 <= isdir fs)%Z ->
  get (fs ++ 58%N :: rest) type = UB.
Proof.
  intros fs rest type L G C D A I. unfold GetPathComponent. rewrite firstn_all2 by lia.
  assert (S : strip_filesystem E isdir accessible (fs ++ 58%N :: rest) (fs ++ 58%N :: rest) = UB).
  { unfold strip_filesystem. rewrite first_pos_app by (try reflexivity; now apply free_test). rewrite A.
    rewrite (proj2 (Z.ltb_lt _ _) D). cbn [negb andb]. rewrite firstn_app, Nat.sub_diag, firstn_all. cbn [firstn]. rewrite app_nil_r.
    rewrite (proj2 (Z.ltb_ge _ _) I). now replace (_ <? E) with false by lia. }
  destruct (fs ++ 58%N :: rest) eqn:Eq; [now destruct fs|]. now rewrite S.
Qed.
End PathProps.
Print Assumptions head_tail.
Print Assumptions tail_of_name.
Print Assumptions head_of_root_refuted.
Print Assumptions chop_components.
Print Assumptions root_extension.
Print Assumptions base_of_file.
Print Assumptions no_extension.
Print Assumptions append_extension.
Print Assumptions append_new_extension.
Print Assumptions hidden_file_refuted.
Print Assumptions subnode_path.
Print Assumptions only_subnode_refuted.
Print Assumptions filesystem_path.
Print Assumptions long_filesystem_refuted.

(** ** Examples *)
Definition no_files (p : list N) : Z := (match p with [] => 0 | [99%N] => 1 | _ => -1 end)%Z.
Definition nothing (p : list N) : bool := false.
Notation get100 := (GetPathComponent 100 no_files nothing).
Ltac decide_free := repeat (apply free_cons; split; [discriminate|]); intros [].
Example plain_path : plain 100 nothing (b "/usr/lib.d/file.tar.gz").
Proof. split; [discriminate|]. split; [cbn; lia|]. split; [left; cbn; decide_free|left; discriminate]. Qed.
Example components : GetPathComponents (b "/usr//lib") = [[]; b "usr"; []; b "lib"].
Proof. reflexivity. Qed.
Example head_100 : get100 (b "/usr/lib.d/file.tar.gz") HeadPath = Ok (b "/usr/lib.d") /\
  get100 (b "/usr/lib.d/file.tar.gz") TailPath = Ok (b "file.tar.gz").
Proof. apply (head_tail 100 no_files nothing (b "/usr/lib.d") (b "file.tar.gz")); [exact plain_path|cbn; decide_free]. Qed.
Example root_100 : get100 (b "/usr/lib.d/file.tar.gz") RootPath = Ok (b "/usr/lib.d/file.tar").
Proof. apply (root_extension 100 no_files nothing (b "/usr/lib.d/file.tar") (b "gz")); [exact plain_path| | |]; cbn; decide_free. Qed.
Example append_100 : AppendFileExtension 100 no_files nothing (b "xz") (b "/usr/lib.d/file.tar.gz") = Ok (b "/usr/lib.d/file.tar.xz").
Proof.
  apply (append_extension 100 no_files nothing (b "/usr/lib.d/file.tar") (b "gz") (b "xz")); [exact plain_path| | | |discriminate|cbn; lia]; cbn; decide_free.
Qed.
Example chop_100 : ChopPathComponents 100 no_files nothing (b "/usr/lib/wizard") 2 = Ok (b "/usr").
Proof. reflexivity. Qed.
Example hidden_100 : AppendFileExtension 100 no_files nothing (b "txt") (b "/home/.profile") = Ok (b "/home/.txt").
Proof. reflexivity. Qed.
Example subnode_100 : get100 (b "book[2]") SubnodePath = Ok (b "2") /\ get100 (b "[2]") RootPath = UB.
Proof. split; reflexivity. Qed.
Example filesystem_100 : get100 (b "c:/documents") FilesystemPath = Ok (b "c") /\ get100 (b "c:/documents") CanonicalPath = Ok (b "/documents").
Proof. split; reflexivity. Qed.
