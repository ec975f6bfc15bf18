(** C130-C133: temporary files. *)
From Coq Require Import NArith ZArith Lia ZifyBool ZifyNat ZifyN Bool String Arith List.
From Verif Require Import Base Outcome CStringModel OptionModel ArgvModel TokenModel TempModel.
Import ListNotations.

(** ** Specification *)
(** names that are equal but for the case of letters *)
Definition alike (s t : list N) : Prop := map ascii_map s = map ascii_map t.
(** no two registered names are alike *)
Definition apart (l : list (list N)) : Prop := forall s t l1 l2 l3, l = l1 ++ s :: l2 ++ t :: l3 -> ~ alike s t.

(** ** Lemmas *)
Lemma like_alike s : forall t, like s t = true <-> alike s t.
Proof.
  unfold alike. induction s as [|c s IH]; intros [|d t]; cbn; split; intros H; try discriminate H; try reflexivity.
  - apply andb_true_iff in H as (H1 & H2). apply Z.eqb_eq in H1. apply IH in H2. now rewrite H1, H2.
  - injection H as H1 H2. apply IH in H2. now rewrite H1, Z.eqb_refl, H2.
Qed.
Lemma like_false s t : like s t = false <-> ~ alike s t.
Proof. rewrite <- like_alike. destruct (like s t); split; intros H; congruence. Qed.
Lemma add_file_same f n : add_file f n n = true. Proof. unfold add_file. now destruct (list_eq_dec N.eq_dec n n). Qed.
Lemma add_file_other f n m : m <> n -> add_file f n m = f m. Proof. unfold add_file. now destruct (list_eq_dec N.eq_dec m n). Qed.
Lemma remove_file_same f n : remove_file f n n = false. Proof. unfold remove_file. now destruct (list_eq_dec N.eq_dec n n). Qed.
Lemma remove_file_other f n m : m <> n -> remove_file f n m = f m. Proof. unfold remove_file. now destruct (list_eq_dec N.eq_dec m n). Qed.

Lemma apart_cons n l : apart (n :: l) <-> (forall t, In t l -> ~ alike n t) /\ apart l.
Proof.
  split.
  - intros A. split.
    + intros t I. apply in_split in I as (l1 & l2 & ->). apply (A n t [] l1 l2). reflexivity.
    + intros s t l1 l2 l3 ->. apply (A s t (n :: l1) l2 l3). reflexivity.
  - intros (A & B) s t [|x l1] l2 l3 E; cbn in E; injection E as -> E.
    + apply A. rewrite E. apply in_or_app. right. now left.
    + now apply (B s t l1 l2 l3).
Qed.
Lemma apart_filter p l : apart l -> apart (filter p l).
Proof.
  induction l as [|n l IH]; [easy|]. intros A. apply apart_cons in A as (A & B). cbn. destruct (p n); [|now apply IH].
  apply apart_cons. split; [|now apply IH]. intros t I. apply filter_In in I as (I & _). now apply A.
Qed.
(** of registered names that are apart at most one is alike *)
Lemma apart_one l s t n : apart l -> In s l -> In t l -> alike s n -> alike t n -> s = t.
Proof.
  induction l as [|x l IH]; [easy|]. intros A Is It Hs Ht. apply apart_cons in A as (A & B). unfold alike in *.
  destruct Is as [->|Is], It as [->|It].
  - reflexivity.
  - exfalso. apply (A t It). congruence.
  - exfalso. apply (A s Is). congruence.
  - now apply IH.
Qed.

Section Temp.
Variable P : nat.
Variable pid : list N.
Variable isdir : list N -> bool.
Variable tmpdir : option (list N).
Variable file_limit : option N.
Notation acquire := (AcquireUniqueFileResource P pid isdir tmpdir file_limit).

(** *** What was created *)
Lemma search_new f path tries name : search P pid isdir tmpdir f path tries = Ok (Some name) -> f name = false.
Proof.
  induction tries as [|t tries IH]; cbn [search]; [discriminate|].
  destruct (write_key (snd (GetPathTemplate P pid isdir tmpdir path)) (key6 t)) as [n1| |]; cbn [bind]; try discriminate.
  destruct (mkstemp f t n1) as [n|] eqn:M.
  - intros H. injection H as <-. unfold mkstemp in M. destruct (found t); [|discriminate M].
    destruct (list_eq_dec _ _ _); [|discriminate M]. destruct (f (firstn (length n1 - 6) n1 ++ l)) eqn:F; [discriminate M|]. injection M as <-. exact F.
  - destruct (write_key n1 (key12 t)) as [n2| |]; cbn [bind]; try discriminate. destruct (f n2) eqn:F; [exact IH|]. destruct (can_create t); [|discriminate].
    intros H. injection H as <-. exact F.
Qed.
(** the POSIX portable filename character set but for the dot *)
Definition filename_char (c : N) : Prop := (48 <= c <= 57 \/ 65 <= c <= 90 \/ 97 <= c <= 122 \/ c = 95 \/ c = 45)%N.
(** twelve characters of the portable set or of mkstemp *)
Definition drawn (tries : list try) (twelve : list N) : Prop :=
  exists t, In t tries /\ (twelve = map portable (key12 t) \/ exists six, found t = Some six /\ twelve = map portable (key6 t) ++ six).
Definition try_ok (t : try) : Prop := length (key6 t) = 6 /\ length (key12 t) = 12 /\ forall six, found t = Some six -> length six = 6 /\ Forall filename_char six.
Lemma portable_char x : filename_char (portable x).
Proof.
  assert (F : Forall filename_char portable_filename) by (let l := eval vm_compute in portable_filename in change portable_filename with l; unfold filename_char; repeat (apply Forall_cons; [lia|]); apply Forall_nil).
  unfold portable. rewrite Forall_forall in F. apply F, nth_In. change (length portable_filename) with 64.
  change 63%N with (N.ones 6). rewrite N.land_ones. pose proof (N.mod_upper_bound x (2 ^ 6) ltac:(discriminate)). change (2 ^ 6)%N with 64%N in *. lia.
Qed.
(** each character tells six bits of the random byte *)
Theorem portable_spread : forall x y, portable x = portable y <-> (x mod 64 = y mod 64)%N.
Proof.
  intros x y. unfold portable. change 63%N with (N.ones 6). rewrite !N.land_ones. change (2 ^ 6)%N with 64%N.
  pose proof (N.mod_upper_bound x 64 ltac:(discriminate)) as X. pose proof (N.mod_upper_bound y 64 ltac:(discriminate)) as Y.
  split; [|congruence]. intros E. apply N2Nat.inj. revert E. apply NoDup_nth; try (change (length portable_filename) with 64; lia).
  assert (B : forall l : list N, nodup N.eq_dec l = l -> NoDup l) by (intros l <-; apply NoDup_nodup). apply B. vm_compute. reflexivity.
Qed.
Lemma drawn_chars tries twelve : Forall try_ok tries -> drawn tries twelve -> Forall filename_char twelve /\ length twelve = 12.
Proof.
  intros F (t & I & D). rewrite Forall_forall in F. destruct (F t I) as (K6 & K12 & K).
  assert (M : forall k, Forall filename_char (map portable k)) by (intros k; apply Forall_map, Forall_forall; intros; apply portable_char).
  destruct D as [->|(six & E & ->)]; [rewrite map_length; now split|]. destruct (K six E) as (L & G). rewrite app_length, map_length, K6, L. split; [|reflexivity].
  apply Forall_app. now split.
Qed.
Lemma write_template base key : length key <= 12 -> write_key (base ++ Xs) key = Ok (base ++ map portable key ++ skipn (length key) Xs).
Proof.
  intros K. unfold write_key. rewrite app_length. change (length Xs) with 12. destruct (Nat.ltb_spec (length base + 12) 12); [lia|].
  replace (length base + 12 - 12) with (length base) by lia. rewrite firstn_app, firstn_all, Nat.sub_diag. cbn [firstn]. rewrite app_nil_r.
  rewrite skipn_app, (skipn_all2 base) by lia. replace (length base + length key - length base) with (length key) by lia. reflexivity.
Qed.
Lemma write_again base six r key : length six = 6 -> length r = 6 -> length key = 12 -> write_key (base ++ six ++ r) key = Ok (base ++ map portable key).
Proof.
  intros S R K. unfold write_key. rewrite !app_length, S, R. destruct (Nat.ltb_spec (length base + (6 + 6)) 12); [lia|].
  replace (length base + (6 + 6) - 12) with (length base) by lia. rewrite firstn_app, firstn_all, Nat.sub_diag. cbn [firstn]. rewrite app_nil_r.
  rewrite skipn_all2 by (rewrite !app_length; lia). now rewrite app_nil_r.
Qed.
Lemma search_name f path base : snd (GetPathTemplate P pid isdir tmpdir path) = base ++ Xs -> forall tries, Forall try_ok tries ->
  exists r, search P pid isdir tmpdir f path tries = Ok r /\ forall name, r = Some name -> exists twelve, drawn tries twelve /\ name = base ++ twelve.
Proof.
  intros B. induction tries as [|t tries IH]; intros F; [exists None; split; [reflexivity|discriminate]|]. inversion F as [|? ? (K6 & K12 & K) F']; subst.
  cbn [search]. rewrite B, write_template by lia. cbn [bind]. rewrite K6. change (skipn 6 Xs) with (b "XXXXXX").
  assert (M : mkstemp f t (base ++ map portable (key6 t) ++ b "XXXXXX") =
    match found t with Some six => if f ((base ++ map portable (key6 t)) ++ six) then None else Some ((base ++ map portable (key6 t)) ++ six) | None => None end).
  { unfold mkstemp. destruct (found t) as [six|]; [|reflexivity]. rewrite app_assoc, app_length. change (length (b "XXXXXX")) with 6.
    replace (length (base ++ map portable (key6 t)) + 6 - 6) with (length (base ++ map portable (key6 t))) by lia.
    rewrite firstn_app, firstn_all, Nat.sub_diag, skipn_app, skipn_all, Nat.sub_diag. cbn [firstn skipn app]. rewrite app_nil_r.
    destruct (list_eq_dec _ _ _) as [|Ne]; [reflexivity|now destruct Ne]. }
  rewrite M. destruct (found t) as [six|] eqn:Ef; [destruct (f ((base ++ map portable (key6 t)) ++ six))|].
  2:{ eexists. split; [reflexivity|]. intros name E. injection E as <-. exists (map portable (key6 t) ++ six). split; [|now rewrite app_assoc].
      exists t. split; [now left|]. right. now exists six. }
  all: rewrite write_again by (try rewrite map_length; (reflexivity || assumption)); cbn [bind].
  all: destruct (IH F') as (r & E & N); destruct (f (base ++ map portable (key12 t)));
    [exists r; split; [exact E|intros name En; destruct (N name En) as (tw & (u & Iu & D) & ->); exists tw; split; [exists u; split; [now right|exact D]|reflexivity]]|].
  all: eexists; split; [reflexivity|]; intros name En; destruct (can_create t); [|discriminate En]; injection En as <-; exists (map portable (key12 t)); split; [|reflexivity].
  all: exists t; split; [now left|now left].
Qed.

(** ** C130: where the file is *)
(** the file is in the directory, if this is one and there is room for the name *)
Theorem unique_name : forall w path tries d, Forall try_ok tries ->
  (match path with [] => tmpdir | _ => Some path end) = Some d -> isdir d = true -> length d + 25 <= P -> length d + 20 + length pid < P ->
  exists r w', acquire w path tries = Ok (r, w') /\ forall name, r = Some name -> exists twelve, drawn tries twelve /\ Forall filename_char twelve /\ length twelve = 12 /\
    name = d ++ (if (last d 0 =? 47)%N then [] else b "/") ++ b "wizard-" ++ pid ++ twelve.
Proof.
  intros w path tries d F D I L Lp. set (base := d ++ (if (last d 0 =? 47)%N then [] else b "/") ++ b "wizard-" ++ pid).
  assert (B : snd (GetPathTemplate P pid isdir tmpdir path) = base ++ Xs).
  { unfold GetPathTemplate. rewrite D. destruct (Nat.ltb_spec (P - 25) (length d)); [lia|]. rewrite I. cbn [negb]. unfold cut, template, base.
    destruct (last d 0 =? 47)%N; cbn [snd]; rewrite firstn_all2 by (rewrite !app_length; change (length Xs) with 12; cbn; lia); now rewrite <- !app_assoc. }
  destruct (search_name (present w) path base B tries F) as (r & E & N). unfold AcquireUniqueFileResource. rewrite E. cbn [bind].
  destruct r as [name|]; [|eexists _, _; split; [reflexivity|discriminate]]. destruct (N name eq_refl) as (tw & Dr & En).
  destruct (granted _ _); eexists _, _; (split; [reflexivity|]); intros n X; [|discriminate X]. injection X as <-. exists tw. split; [exact Dr|]. destruct (drawn_chars tries tw F Dr) as (C1 & C2). split; [exact C1|]. split; [exact C2|].
  rewrite En. unfold base. now rewrite <- !app_assoc.
Qed.
(** otherwise it is in the directory where the program runs *)
Theorem unique_place_refuted : forall w path tries, path <> [] -> Forall try_ok tries -> isdir path = false -> 20 + length pid < P ->
  exists r w', acquire w path tries = Ok (r, w') /\ forall name, r = Some name -> exists twelve, drawn tries twelve /\ Forall filename_char twelve /\ length twelve = 12 /\ name = b "wizard-" ++ pid ++ twelve.
Proof.
  intros w path tries NE F I L. set (base := b "wizard-" ++ pid).
  assert (B : snd (GetPathTemplate P pid isdir tmpdir path) = base ++ Xs).
  { unfold GetPathTemplate. destruct path as [|c path]; [contradiction|]. rewrite I. cbn [negb].
    assert (X : cut P (template pid) = base ++ Xs) by (unfold cut, template, base; rewrite firstn_all2 by (rewrite !app_length; change (length Xs) with 12; cbn; lia); now rewrite <- app_assoc).
    destruct (P - 25 <? length (c :: path)); exact X. }
  destruct (search_name (present w) path base B tries F) as (r & E & N). unfold AcquireUniqueFileResource. rewrite E. cbn [bind].
  destruct r as [name|]; [|eexists _, _; split; [reflexivity|discriminate]]. destruct (N name eq_refl) as (tw & Dr & En).
  destruct (granted _ _); eexists _, _; (split; [reflexivity|]); intros n X; [|discriminate X]. injection X as <-. exists tw. split; [exact Dr|]. destruct (drawn_chars tries tw F Dr) as (C1 & C2). split; [exact C1|]. split; [exact C2|].
  rewrite En. unfold base. now rewrite <- app_assoc.
Qed.

(** ** C131: the file is new *)
Lemma acquire_cases w path tries r w' : acquire w path tries = Ok (r, w') ->
  (r = None /\ w' = w) \/
  (exists name, present w name = false /\ r = Some name /\ granted file_limit (used w) = true /\
     w' = let v := register {| present := add_file (present w) name; temporary := temporary w; used := used w |} name in
          {| present := present v; temporary := temporary v; used := used v + 1 |}) \/
  (exists name, present w name = false /\ r = None /\ granted file_limit (used w) = false /\
     w' = {| present := remove_file (add_file (present w) name) path; temporary := temporary w; used := used w |}).
Proof.
  unfold AcquireUniqueFileResource. destruct (search P pid isdir tmpdir (present w) path tries) as [[name|]| |] eqn:S; cbn [bind]; try discriminate.
  - apply search_new in S. cbn [used present temporary]. destruct (granted file_limit (used w)) eqn:G; intros H; injection H as <- <-; right; [left|right]; exists name; now repeat split.
  - intros H. injection H as <- <-. now left.
Qed.
Theorem unique_new : forall w path tries name w', acquire w path tries = Ok (Some name, w') -> (forall t, In t (temporary w) -> ~ alike t name) ->
  present w name = false /\ present w' name = true /\ In name (temporary w') /\ (forall n, n <> name -> present w' n = present w n).
Proof.
  intros w path tries name w' E A. destruct (acquire_cases w path tries _ _ E) as [(X & _)|[(n & F & X & _ & ->)|(n & _ & X & _)]]; try discriminate X.
  injection X as <-. unfold register. cbn [temporary].
  destruct (find (fun t => like t name) (temporary w)) as [t|] eqn:Ft.
  - apply find_some in Ft as (It & Lt). apply like_alike in Lt. now destruct (A t It).
  - cbn. split; [exact F|split; [apply add_file_same|split; [now left|]]]. intros n Nn. now apply add_file_other.
Qed.
(** a name that differs in case only from that of another temporary file removes it *)
Theorem unique_twin_refuted : forall w path tries name w' t, acquire w path tries = Ok (Some name, w') -> apart (temporary w) ->
  In t (temporary w) -> alike t name -> present w' t = false /\ ~ (t <> name /\ In t (temporary w')).
Proof.
  intros w path tries name w' t E A It Lt. destruct (acquire_cases w path tries _ _ E) as [(X & _)|[(n & F & X & _ & ->)|(n & _ & X & _)]]; try discriminate X.
  injection X as <-. unfold register. cbn [temporary].
  destruct (find (fun t => like t name) (temporary w)) as [u|] eqn:Ft.
  - apply find_some in Ft as (Iu & Lu). apply like_alike in Lu. assert (u = t) as -> by (now apply (apart_one (temporary w) u t name)).
    cbn. split; [apply remove_file_same|]. intros (Ne & [->|I]); [now destruct Ne|]. apply filter_In in I as (_ & I). apply like_alike in Lt. now rewrite Lt in I.
  - apply (find_none _ _ Ft) in It. apply like_alike in Lt. congruence.
Qed.
(** if there are too many files the new one stays, and what the argument names is removed *)
Theorem exhausted_refuted : forall w path tries name, granted file_limit (used w) = false ->
  search P pid isdir tmpdir (present w) path tries = Ok (Some name) -> name <> path ->
  exists w', acquire w path tries = Ok (None, w') /\ present w name = false /\ present w' name = true /\ temporary w' = temporary w /\ present w' path = false.
Proof.
  intros w path tries name G S Ne. eexists. unfold AcquireUniqueFileResource. rewrite S. cbn [bind used present temporary]. rewrite G. split; [reflexivity|].
  split; [now apply search_new in S|]. cbn. split; [|split; [reflexivity|apply remove_file_same]]. rewrite remove_file_other by exact Ne. apply add_file_same.
Qed.

(** ** C132: relinquishing a file *)
Theorem relinquish_removes : forall w path trash, apart (temporary w) -> In path (temporary w) ->
  let w' := snd (RelinquishUniqueFileResource w path trash) in
  present w' path = false /\ ~ In path (temporary w') /\ (forall n, n <> path -> present w' n = present w n) /\ (forall t, t <> path -> (In t (temporary w') <-> In t (temporary w))).
Proof.
  intros w path trash A I. cbv zeta. unfold RelinquishUniqueFileResource.
  destruct (find (fun t => like t path) (temporary w)) as [p|] eqn:Fp.
  2:{ apply (find_none _ _ Fp) in I. assert (X : alike path path) by reflexivity. apply like_alike in X. congruence. }
  apply find_some in Fp as (Ip & Lp). apply like_alike in Lp. assert (p = path) as -> by (now apply (apart_one (temporary w) p path path)).
  assert (T : forall t, t <> path -> (In t (filter (fun t => negb (like t path)) (temporary w)) <-> In t (temporary w))).
  { intros t Ne. rewrite filter_In. split; [easy|]. intros It. split; [exact It|]. apply negb_true_iff, like_false. intros Al. apply Ne. now apply (apart_one (temporary w) t path path). }
  assert (T' : ~ In path (filter (fun t => negb (like t path)) (temporary w))).
  { rewrite filter_In. intros (_ & X). assert (Y : alike path path) by reflexivity. apply like_alike in Y. now rewrite Y in X. }
  destruct trash; cbn.
  - split; [apply remove_file_same|]. split; [exact T'|split; [|exact T]]. intros n Ne. rewrite !remove_file_other by exact Ne. reflexivity.
  - split; [apply remove_file_same|]. split; [exact T'|split; [|exact T]]. intros n Ne. now rewrite remove_file_other by exact Ne.
Qed.
(** the file is removed although it was not to be trashed, and if it is to be trashed the result is that it could not be removed *)
Theorem relinquish_trash_refuted : forall w path, apart (temporary w) -> In path (temporary w) -> present w path = true ->
  fst (RelinquishUniqueFileResource w path false) = true /\ present (snd (RelinquishUniqueFileResource w path false)) path = false /\
  fst (RelinquishUniqueFileResource w path true) = false /\ present (snd (RelinquishUniqueFileResource w path true)) path = false.
Proof.
  intros w path A I H. assert (X := relinquish_removes w path false A I). assert (Y := relinquish_removes w path true A I). cbv zeta in X, Y.
  split; [reflexivity|split; [apply X|split; [|apply Y]]]. unfold RelinquishUniqueFileResource in X |- *. cbn [negb snd fst] in X |- *. apply X.
Qed.
(** a name that differs in case removes another file *)
Theorem relinquish_twin_refuted : forall w path t, apart (temporary w) -> In t (temporary w) -> alike t path ->
  present (snd (RelinquishUniqueFileResource w path false)) t = false.
Proof.
  intros w path t A I L. unfold RelinquishUniqueFileResource. destruct (find (fun t => like t path) (temporary w)) as [p|] eqn:Fp.
  - apply find_some in Fp as (Ip & Lp). apply like_alike in Lp. assert (p = t) as -> by (now apply (apart_one (temporary w) p t path)). cbn. apply remove_file_same.
  - apply (find_none _ _ Fp) in I. apply like_alike in L. congruence.
Qed.

(** ** C133: no temporary file is left at the end *)
Inductive operation := Acquire (path : list N) (tries : list try) | Relinquish (path : list N) (trash : bool).
Fixpoint run (w : world) (ops : list operation) : outcome world :=
  match ops with
  | [] => Ok w
  | Acquire path tries :: ops => let* rw := acquire w path tries in run (snd rw) ops
  | Relinquish path trash :: ops => run (snd (RelinquishUniqueFileResource w path trash)) ops
  end.
Lemma register_apart w name : apart (temporary w) -> apart (temporary (register w name)).
Proof.
  intros A. unfold register. destruct (find (fun t => like t name) (temporary w)) as [u|] eqn:Fu; cbn; apply apart_cons; split.
  - intros t I L. apply filter_In in I as (_ & I). apply negb_true_iff, like_false in I. now apply I.
  - now apply apart_filter.
  - intros t I L. apply (find_none _ _ Fu), like_false in I. now apply I.
  - exact A.
Qed.
Lemma relinquish_apart w path trash : apart (temporary w) -> apart (temporary (snd (RelinquishUniqueFileResource w path trash))).
Proof.
  intros A. unfold RelinquishUniqueFileResource. destruct (find _ _); destruct trash; cbn; try exact A; now apply apart_filter.
Qed.
Lemma acquire_apart w path tries r w' : acquire w path tries = Ok (r, w') -> apart (temporary w) -> apart (temporary w').
Proof.
  intros E A. destruct (acquire_cases w path tries _ _ E) as [(_ & ->)|[(n & _ & _ & _ & ->)|(n & _ & _ & _ & ->)]]; [exact A| |exact A].
  cbn [temporary]. apply register_apart. exact A.
Qed.
(** registered names are always apart *)
Theorem history_apart : forall ops w w', apart (temporary w) -> run w ops = Ok w' -> apart (temporary w').
Proof.
  induction ops as [|[path tries|path trash] ops IH]; intros w w' A; cbn [run].
  - intros E. now injection E as <-.
  - destruct (acquire w path tries) as [[r v]| |] eqn:E; cbn [bind snd]; try discriminate. apply IH. now apply (acquire_apart w path tries r).
  - apply IH. now apply relinquish_apart.
Qed.
(** a file is one from before or a registered one *)
Definition accounted (f : list N -> bool) (w : world) : Prop := forall n, present w n = true -> f n = true \/ In n (temporary w).
Lemma register_accounted f w name : apart (temporary w) -> accounted f w -> accounted f (register {| present := add_file (present w) name; temporary := temporary w; used := used w |} name).
Proof.
  intros A H n. unfold register. cbn [temporary present]. destruct (find (fun t => like t name) (temporary w)) as [u|] eqn:Fu; cbn.
  - apply find_some in Fu as (Iu & Lu). apply like_alike in Lu. unfold remove_file. destruct (list_eq_dec N.eq_dec n u) as [|Nu]; [discriminate|].
    unfold add_file. destruct (list_eq_dec N.eq_dec n name) as [->|Nn]; [intros _; right; now left|]. intros Pn. destruct (H n Pn) as [X|X]; [now left|].
    right. right. apply filter_In. split; [exact X|]. apply negb_true_iff, like_false. intros L. apply Nu. now apply (apart_one (temporary w) n u name).
  - unfold add_file. destruct (list_eq_dec N.eq_dec n name) as [->|Nn]; [intros _; right; now left|]. intros Pn. destruct (H n Pn) as [X|X]; [now left|]. right. now right.
Qed.
Lemma relinquish_accounted f w path trash : apart (temporary w) -> accounted f w -> accounted f (snd (RelinquishUniqueFileResource w path trash)).
Proof.
  intros A H n. unfold RelinquishUniqueFileResource.
  assert (X : forall u, In u (temporary w) -> remove_file (present w) u n = true -> f n = true \/ In n (filter (fun t => negb (like t u)) (temporary w))).
  { intros u Iu. unfold remove_file. destruct (list_eq_dec N.eq_dec n u) as [|Nu]; [discriminate|]. intros Pn. destruct (H n Pn) as [X|X]; [now left|].
    right. apply filter_In. split; [exact X|]. apply negb_true_iff, like_false. intros L. apply Nu. now apply (apart_one (temporary w) n u u). }
  destruct (find (fun t => like t path) (temporary w)) as [u|] eqn:Fu.
  - apply find_some in Fu as (Iu & _). destruct trash; cbn; [|now apply X]. unfold remove_file at 1. destruct (list_eq_dec N.eq_dec n path); [discriminate|now apply X].
  - destruct trash; cbn; [|apply H]. unfold remove_file. destruct (list_eq_dec N.eq_dec n path); [discriminate|apply H].
Qed.
Lemma terminus_present w n : present (ResourceComponentTerminus w) n = true <-> present w n = true /\ ~ In n (temporary w).
Proof.
  unfold ResourceComponentTerminus. cbn [present]. generalize (present w). induction (temporary w) as [|t l IH]; intros f; cbn; [tauto|].
  rewrite IH. unfold remove_file. destruct (list_eq_dec N.eq_dec n t) as [->|Ne]; [|intuition congruence]. split; [intros (X & _); discriminate X|intros (_ & X); exfalso; apply X; now left].
Qed.
Theorem terminus_removes : forall w n, present (ResourceComponentTerminus w) n = true <-> present w n = true /\ ~ In n (temporary w).
Proof. exact terminus_present. Qed.
(** after any history without a limit no file is left that was not there before *)
Theorem nothing_left : forall ops w w', file_limit = None -> apart (temporary w) -> run w ops = Ok w' -> temporary w = [] ->
  forall n, present (ResourceComponentTerminus w') n = true -> present w n = true.
Proof.
  intros ops w w' NL A E T n H.
  assert (X : forall ops v v', apart (temporary v) -> accounted (present w) v -> run v ops = Ok v' -> accounted (present w) v').
  { clear - NL. induction ops as [|[path tries|path trash] ops IH]; intros v v' A H; cbn [run].
    - intros E. now injection E as <-.
    - destruct (acquire v path tries) as [[r u]| |] eqn:E; cbn [bind snd]; try discriminate. apply IH; [now apply (acquire_apart v path tries r)|].
      destruct (acquire_cases v path tries _ _ E) as [(_ & ->)|[(n & _ & _ & _ & ->)|(n & _ & _ & G & _)]]; [exact H| |unfold granted in G; now rewrite NL in G].
      intros m. cbn [present temporary]. now apply register_accounted.
    - apply IH; [now apply relinquish_apart|now apply relinquish_accounted]. }
  apply terminus_present in H as (H1 & H2). destruct (X ops w w' A) with (n := n) as [Y|Y]; [|exact E|exact H1|exact Y|contradiction]. intros m Hm. now left.
Qed.
(** files that were relinquished are counted for ever: there are never more successes than the limit *)
Fixpoint successes (w : world) (ops : list operation) : N :=
  match ops with
  | [] => 0
  | Acquire path tries :: ops => match acquire w path tries with Ok (r, w') => (match r with Some _ => 1 | None => 0 end + successes w' ops)%N | _ => 0%N end
  | Relinquish path trash :: ops => successes (snd (RelinquishUniqueFileResource w path trash)) ops
  end.
Theorem files_counted_refuted : forall l ops w, file_limit = Some l -> (used w < l)%N -> (used w + successes w ops < l)%N.
Proof.
  intros l. induction ops as [|[path tries|path trash] ops IH]; intros w L U; cbn [successes]; [lia| |].
  - destruct (acquire w path tries) as [[r v]| |] eqn:E; [|lia|lia].
    destruct (acquire_cases w path tries _ _ E) as [(-> & ->)|[(n & _ & -> & G & ->)|(n & _ & -> & G & ->)]].
    + now apply IH.
    + unfold granted in G. rewrite L in G. apply N.ltb_lt in G. set (v := register _ n). assert (Uv : used v = used w) by (unfold v, register; destruct (find _ _); reflexivity).
      cbv zeta. match goal with |- context [successes ?x ops] => assert (Z := IH x L) end. rewrite Uv in Z |- *. cbn [used] in Z. specialize (Z G). lia.
    + match goal with |- context [successes ?x ops] => assert (Z := IH x L) end. cbn [used] in Z. lia.
  - assert (Y : used (snd (RelinquishUniqueFileResource w path trash)) = used w) by (unfold RelinquishUniqueFileResource; destruct (find _ _); destruct trash; reflexivity).
    rewrite <- Y. apply IH; [exact L|now rewrite Y].
Qed.
End Temp.
Print Assumptions portable_spread.
Print Assumptions unique_name.
Print Assumptions unique_place_refuted.
Print Assumptions unique_new.
Print Assumptions unique_twin_refuted.
Print Assumptions exhausted_refuted.
Print Assumptions relinquish_removes.
Print Assumptions relinquish_trash_refuted.
Print Assumptions relinquish_twin_refuted.
Print Assumptions history_apart.
Print Assumptions terminus_removes.
Print Assumptions nothing_left.
Print Assumptions files_counted_refuted.

(** ** Examples *)
Definition a_try : try := {| key6 := [0; 1; 2; 3; 4; 5]%N; found := Some (b "aB3dEf"); key12 := [0; 0; 0; 0; 0; 0; 0; 0; 0; 0; 0; 64]%N; can_create := true |}.
Definition another_try : try := {| key6 := [0; 1; 2; 3; 4; 5]%N; found := Some (b "Ab3dEf"); key12 := [0; 0; 0; 0; 0; 0; 0; 0; 0; 0; 0; 0]%N; can_create := true |}.
Definition empty_world : world := {| present := fun _ => false; temporary := []; used := 0 |}.
Definition acquire_here := AcquireUniqueFileResource 4096 (b "12345") (fun d => if list_eq_dec N.eq_dec d (b "/tmp") then true else false) (Some (b "/tmp")) (Some 100%N).
Example try_example : try_ok a_try /\ apart (temporary empty_world) /\ granted (Some 1%N) 0 = false.
Proof. split; [split; [reflexivity|split; [reflexivity|intros six E; injection E as <-; split; [reflexivity|repeat (apply Forall_cons; [vm_compute; intuition discriminate|]); apply Forall_nil]]]|split; [intros s t [|x l1] l2 l3 E; discriminate E|reflexivity]]. Qed.
Example acquire_example : match acquire_here empty_world [] [a_try] with Ok (Some n, w) => Some (n, temporary w, present w n, used w) | _ => None end =
  Some (b "/tmp/wizard-12345ABCDEFaB3dEf", [b "/tmp/wizard-12345ABCDEFaB3dEf"], true, 1%N).
Proof. vm_compute. reflexivity. Qed.
(** two files in a row: the first is gone *)
Example twin_example : match acquire_here empty_world [] [a_try] with
  | Ok (Some n, w) => match acquire_here w [] [another_try] with Ok (Some m, w) => Some (n, present w n, present w m) | _ => None end | _ => None end =
  Some (b "/tmp/wizard-12345ABCDEFaB3dEf", false, true).
Proof. vm_compute. reflexivity. Qed.
