(** Programs on C strings (C255, C256). *)
From Coq Require Import NArith Bool Arith Lia List.
From Verif Require Import Outcome StringHeapModel StringHeapSpec StringHeapProof.
Import ListNotations.

Lemma nth_assign p : forall env v w, nth_error (assign v p env) w = if v =? w then match nth_error env w with None => None | Some _ => Some p end else nth_error env w.
Proof. induction env as [|q env IH]; intros [|v] [|w]; cbn [assign nth_error Nat.eqb]; try reflexivity; [destruct (v =? w); reflexivity|apply IH]. Qed.
Lemma nth_give x : forall s v w, nth_error (give v x s) w = if v =? w then match nth_error s w with None => None | Some _ => Some x end else nth_error s w.
Proof. induction s as [|q s IH]; intros [|v] [|w]; cbn [give nth_error Nat.eqb]; try reflexivity; [destruct (v =? w); reflexivity|apply IH]. Qed.
Lemma assign_length p : forall env v, length (assign v p env) = length env.
Proof. induction env as [|q env IH]; intros [|v]; cbn [assign length]; congruence. Qed.
Lemma give_length x : forall s v, length (give v x s) = length s.
Proof. induction s as [|q s IH]; intros [|v]; cbn [give length]; congruence. Qed.
Lemma nth_same {A B} (l : list A) (m : list B) v x : length l = length m -> nth_error l v = Some x -> exists y, nth_error m v = Some y.
Proof. intros L N. destruct (nth_error m v) as [y|] eqn:E; [exists y; reflexivity|]. apply nth_error_None in E. assert (v < length l) by (apply nth_error_Some; congruence). lia. Qed.
Lemma nth_snoc {A} (l : list A) x w y : nth_error (l ++ [x]) w = Some y -> nth_error l w = Some y \/ w = length l /\ y = x.
Proof.
  destruct (Nat.lt_ge_cases w (length l)); [rewrite nth_error_app1 by lia; auto|]. rewrite nth_error_app2 by lia. destruct (w - length l) as [|k] eqn:E; cbn [nth_error]; [intros [= ->]; right; split; [lia|reflexivity]|]. destruct k; discriminate.
Qed.
Lemma nth_old {A} (l : list A) x w y : nth_error l w = Some y -> nth_error (l ++ [x]) w = Some y.
Proof. intros N. rewrite nth_error_app1; [exact N|]. apply nth_error_Some. congruence. Qed.
Lemma holds_same h h' p x : holds h p x -> (forall l, cells h p = Ok l -> cells h' p = cells h p) -> holds h' p x.
Proof. destruct x as [t|]; cbn [holds]; [|auto]. intros (Z & r & E) H. split; [exact Z|]. exists r. rewrite (H _ E). exact E. Qed.
Lemma assigned h env s v d h' p t : represents h env s -> nth_error env v = Some d -> effect h d h' p t -> zero_free t = true -> represents h' (assign v p env) (give v (Some t) s).
Proof.
  intros (L & H & D & A) V ((r & C) & O & W) Z. assert (forall w q x, w <> v -> nth_error env w = Some q -> nth_error s w = Some x -> q = 0 \/ q <> d /\ q <> p /\ cells h' q = cells h q) as Other.
  { intros w q x N E X. pose proof (H w q x E X) as K. destruct x as [u|]; cbn [holds] in K; [|left; exact K]. right. destruct K as (_ & r' & K). pose proof (cells_bound _ _ _ K) as [B _].
    assert (q <> d) as ND by (intros ->; apply N; exact (D w v d E V B)). assert (q <> p) as NP by (intros ->; destruct W as [W|[W _]]; [contradiction|congruence]). split; [exact ND|]. split; [exact NP|]. apply O; assumption. }
  split; [rewrite assign_length, give_length; exact L|]. split; [|split].
  - intros w q x. rewrite nth_assign, nth_give. destruct (Nat.eqb_spec v w) as [<-|N].
    + destruct (nth_error env v), (nth_error s v); try discriminate. intros [= <-] [= <-]. split; [exact Z|]. exists r. exact C.
    + intros E X. pose proof (H w q x E X) as K. eapply holds_same; [exact K|]. intros l Cl. destruct (Other w q x) as [->|(_ & _ & Q)]; try assumption; [congruence|discriminate].
  - intros v1 v2 q. rewrite !nth_assign. assert (forall w, w <> v -> nth_error env w = Some p -> p = 0) as NP.
    { intros w N E. destruct (nth_same _ _ _ _ L E) as (x & X). destruct (Other w p x N E X) as [Q|(_ & Q & _)]; [exact Q|congruence]. }
    destruct (Nat.eqb_spec v v1) as [<-|N1], (Nat.eqb_spec v v2) as [<-|N2]; [reflexivity| | |apply D].
    + destruct (nth_error env v); [|discriminate]. intros [= <-] E B. exfalso. apply B, (NP v2); congruence.
    + destruct (nth_error env v); [|discriminate]. intros E [= <-] B. exfalso. apply B, (NP v1); congruence.
  - intros q l Cq. destruct (Nat.eq_dec q p) as [->|NP]; [exists v; rewrite nth_assign, Nat.eqb_refl, V; reflexivity|]. destruct (Nat.eq_dec q d) as [->|ND]; [destruct W as [W|[_ W]]; congruence|].
    rewrite O in Cq by assumption. destruct (A q l Cq) as (w & E). exists w. rewrite nth_assign. destruct (Nat.eqb_spec v w) as [<-|]; [congruence|exact E].
Qed.
Lemma pushed h env s h' p t : represents h env s -> effect h 0 h' p t -> zero_free t = true -> represents h' (env ++ [p]) (s ++ [Some t]).
Proof.
  intros (L & H & D & A) ((r & C) & O & W) Z. assert (cells h p = UB) as FR by (destruct W as [W|[W _]]; [rewrite W; reflexivity|exact W]).
  assert (forall w q x, nth_error env w = Some q -> nth_error s w = Some x -> q = 0 \/ q <> p /\ cells h' q = cells h q) as Other.
  { intros w q x E X. pose proof (H w q x E X) as K. destruct x as [u|]; cbn [holds] in K; [|left; exact K]. right. destruct K as (_ & r' & K). pose proof (cells_bound _ _ _ K) as [B _]. assert (q <> p) as NP by congruence. split; [exact NP|]. apply O; assumption. }
  split; [rewrite !app_length, L; reflexivity|]. split; [|split].
  - intros w q x E X. apply nth_snoc in E. apply nth_snoc in X. destruct E as [E|[-> ->]], X as [X|[Q ->]].
    + eapply holds_same; [exact (H w q x E X)|]. intros l Cl. destruct (Other w q x E X) as [->|[_ Q]]; [discriminate|exact Q].
    + assert (w < length env) by (apply nth_error_Some; congruence). lia.
    + assert (length env < length s) by (apply nth_error_Some; congruence). lia.
    + split; [exact Z|]. exists r. exact C.
  - assert (forall w, nth_error env w = Some p -> p = 0) as NP.
    { intros w E. destruct (nth_same _ _ _ _ L E) as (x & X). destruct (Other w p x E X) as [Q|[Q _]]; [exact Q|congruence]. }
    intros v1 v2 q X1 X2 B. apply nth_snoc in X1. apply nth_snoc in X2. destruct X1 as [X1|[Y1 Q1]], X2 as [X2|[Y2 Q2]]; subst; [exact (D v1 v2 q X1 X2 B)|exfalso; apply B, (NP v1 X1)|exfalso; apply B, (NP v2 X2)|reflexivity].
  - intros q l Cq. destruct (Nat.eq_dec q p) as [->|NP]; [exists (length env); rewrite nth_error_app2, Nat.sub_diag by lia; reflexivity|]. destruct (Nat.eq_dec q 0) as [->|N0]; [discriminate|].
    rewrite O in Cq by assumption. destruct (A q l Cq) as (w & E). exists w. apply nth_old, E.
Qed.
Lemma declared h env s : represents h env s -> represents h (env ++ [0]) (s ++ [None]).
Proof.
  intros (L & H & D & A). split; [rewrite !app_length, L; reflexivity|]. split; [|split].
  - intros w q x E X. apply nth_snoc in E. apply nth_snoc in X. destruct E as [E|[-> ->]], X as [X|[Q ->]]; [exact (H w q x E X)| | |reflexivity].
    + assert (w < length env) by (apply nth_error_Some; congruence). lia.
    + assert (length env < length s) by (apply nth_error_Some; congruence). lia.
  - intros v1 v2 q X1 X2 B. apply nth_snoc in X1. apply nth_snoc in X2. destruct X1 as [X1|[Y1 Q1]], X2 as [X2|[Y2 Q2]]; subst; [exact (D v1 v2 q X1 X2 B)|congruence|congruence|reflexivity].
  - intros q l Cq. destruct (A q l Cq) as (w & E). exists w. apply nth_old, E.
Qed.
Lemma destroyed h env s v d : represents h env s -> nth_error env v = Some d -> exists h', DestroyString d h = Ok h' /\ represents h' (assign v 0 env) (give v None s).
Proof.
  intros (L & H & D & A) V. destruct (nth_same _ _ _ _ L V) as (y & Y). pose proof (H v d y V Y) as K.
  assert (exists h', DestroyString d h = Ok h' /\ (forall q, q <> d -> cells h' q = cells h q) /\ cells h' d = UB) as (h' & E & O & U).
  { destruct y as [t|]; cbn [holds] in K; [|subst d; exists h; repeat split; reflexivity]. destruct K as (_ & r & C). pose proof (cells_bound _ _ _ C) as [B _]. exists (update (pred d) (false, map Some t ++ Some 0%N :: r) h).
    split; [unfold DestroyString, release; rewrite C; destruct d; [congruence|reflexivity]|]. split; [intros q N|]; rewrite (cells_update _ _ _ _ _ _ C); [destruct (Nat.eqb_spec q d); [contradiction|reflexivity]|rewrite Nat.eqb_refl; reflexivity]. }
  exists h'. split; [exact E|]. split; [rewrite assign_length, give_length; exact L|]. split; [|split].
  - intros w q x. rewrite nth_assign, nth_give. destruct (Nat.eqb_spec v w) as [<-|N].
    + destruct (nth_error env v), (nth_error s v); try discriminate. intros [= <-] [= <-]. reflexivity.
    + intros E' X. eapply holds_same; [exact (H w q x E' X)|]. intros l Cl. pose proof (cells_bound _ _ _ Cl) as [B _]. apply O. intros ->. apply N. exact (D v w d V E' B).
  - intros v1 v2 q. rewrite !nth_assign. destruct (Nat.eqb_spec v v1) as [<-|N1], (Nat.eqb_spec v v2) as [<-|N2]; [reflexivity| | |apply D]; rewrite V; intros; congruence.
  - intros q l Cq. assert (q <> d) as ND by congruence. rewrite O in Cq by exact ND. destruct (A q l Cq) as (w & E'). exists w. rewrite nth_assign. destruct (Nat.eqb_spec v w) as [<-|]; [congruence|exact E'].
Qed.
Section Strings.
Variables extent limit : nat.
Variable moves : heap -> bool.
Hypothesis E1 : 1 <= extent.
Lemma argument_ok h env s a x : represents h env s -> value s a = Some x ->
  exists c, argument_of env a = Ok c /\ reads h c x /\ (match x with Some t => zero_free t = true | None => True end) /\
    forall d p y, nth_error env d = Some p -> own d a (Some y) = false -> p <> 0 -> match c with At q => q <> p | _ => True end.
Proof.
  intros (L & H & D & A) V. destruct a as [t| |v]; cbn [value argument_of] in *.
  - destruct (zero_free t) eqn:Z; [|discriminate]. injection V as <-. exists (Lit t). split; [reflexivity|]. split; [split; [reflexivity|exact Z]|]. split; [exact Z|]. intros; exact I.
  - injection V as <-. exists Null. repeat split.
  - destruct (nth_same _ env _ _ (eq_sym L) V) as (q & E). unfold var. rewrite E. cbn [bind]. exists (At q). split; [reflexivity|]. pose proof (H v q x E V) as K. split; [exact K|]. split; [destruct x; [apply K|exact I]|].
    intros d p y P O B ->. cbn [own] in O. destruct (Nat.eqb_spec v d) as [|N]; [discriminate|]. apply N. exact (D v d p E P B).
Qed.
Lemma step_ok h env s o : represents h env s ->
  match meaning_of extent limit s o with
  | Next s' => exists h' env', step extent limit moves (h, env) o = Ok (h', env') /\ represents h' env' s'
  | TooLong => step extent limit moves (h, env) o = Fatal
  | Undefined => True
  end.
Proof.
  intros R. pose proof R as (L & H & D & _). destruct o as [|a|a|d a|d a|d]; cbn [meaning_of step].
  - exists h, (env ++ [0]). split; [reflexivity|apply declared, R].
  - destruct (value s a) as [x|] eqn:V; [|exact I]. destruct (argument_ok _ _ _ _ _ R V) as (c & -> & C & Z & _). cbn [bind]. pose proof (constant_ok extent limit E1 h c x C) as K. destruct (limit <? length (text x) + 1); [rewrite K; reflexivity|].
    destruct K as (h' & p & -> & X). cbn [bind]. eexists _, _. split; [reflexivity|]. eapply pushed; [exact R|exact X|destruct x; [exact Z|reflexivity]].
  - destruct (value s a) as [x|] eqn:V; [|exact I]. destruct (argument_ok _ _ _ _ _ R V) as (c & -> & C & Z & _). cbn [bind]. pose proof (acquire_ok extent limit E1 h c x C) as K. destruct (limit <? length (text x) + extent); [rewrite K; reflexivity|].
    destruct K as (h' & p & -> & X). cbn [bind]. eexists _, _. split; [reflexivity|]. eapply pushed; [exact R|exact X|destruct x; [exact Z|reflexivity]].
  - destruct (value s a) as [x|] eqn:V; [|exact I]. destruct (nth_error s d) as [y|] eqn:Y; [|destruct x; exact I]. destruct (argument_ok _ _ _ _ _ R V) as (c & -> & C & Z & NA). cbn [bind]. destruct (nth_same _ env _ _ (eq_sym L) Y) as (p & P). unfold var. rewrite P. cbn [bind].
    pose proof (H d p y P Y) as K. destruct x as [t|].
    + destruct (own d a y) eqn:O; [exact I|]. assert (match c with At q => q <> p | _ => True end) as NE.
      { destruct y as [u|]; [|cbn [holds] in K; subst p; destruct c as [| |q]; try exact Logic.I; intros ->; cbn [reads holds] in C; destruct C as (_ & r & C); discriminate].
        destruct K as (_ & r & K). apply cells_bound in K. exact (NA d p u P O (proj1 K)). }
      pose proof (clone_ok extent limit moves E1 h p y c t K C NE) as Q. destruct (limit <? length t + extent); [rewrite Q; reflexivity|]. destruct Q as (h' & p' & -> & X). cbn [bind]. eexists _, _. split; [reflexivity|]. eapply assigned; eassumption.
    + unfold CloneString. rewrite (reads_null _ _ _ C). destruct (destroyed h env s d p R P) as (h' & -> & R'). cbn [bind]. eexists _, _. split; [reflexivity|exact R'].
  - destruct (value s a) as [x|] eqn:V; [|exact I]. destruct (nth_error s d) as [y|] eqn:Y; [|destruct x; exact I]. destruct (argument_ok _ _ _ _ _ R V) as (c & -> & C & Z & NA). cbn [bind]. destruct (nth_same _ env _ _ (eq_sym L) Y) as (p & P). unfold var. rewrite P. cbn [bind].
    pose proof (H d p y P Y) as K. assert (zero_free (text y ++ text x) = true) as ZF.
    { unfold zero_free. rewrite forallb_app. apply andb_true_intro. split; [destruct y; [apply K|reflexivity]|destruct x; [exact Z|reflexivity]]. }
    assert (y = None \/ x <> None \/ (exists u, y = Some u) /\ x = None) as [Q|[Q|[(u & ->) ->]]] by (destruct y, x; eauto; right; left; discriminate); [| |exact I].
    + subst y. assert (match x with Some _ | None => if own d a None then Undefined else if limit <? length (text None) + length (text x) + extent then TooLong else Next (give d (Some (text None ++ text x)) s) end = (if own d a None then Undefined else if limit <? length (text None) + length (text x) + extent then TooLong else Next (give d (Some (text None ++ text x)) s))) as EQ by (destruct x; reflexivity).
      assert (own d a None = false) as OW by (destruct a; reflexivity). rewrite OW in *. pose proof (concatenate_ok extent limit moves E1 h p None c x K C ltac:(destruct c; exact I) ltac:(congruence)) as G.
      destruct x as [t|]; cbv beta iota; (destruct (limit <? length (text None) + _ + extent); [rewrite G; reflexivity|]); destruct G as (h' & p' & -> & X); cbn [bind]; eexists _, _; (split; [reflexivity|]); eapply assigned; eassumption.
    + destruct x as [t|]; [|congruence]. destruct (own d a y) eqn:O; [exact I|]. assert (match y, c with Some _, At q => q <> p | _, _ => True end) as NE.
      { destruct y as [u|]; [|destruct c; exact I]. destruct K as (_ & r & K). apply cells_bound in K. pose proof (NA d p u P O (proj1 K)) as G. destruct c; exact G. }
      pose proof (concatenate_ok extent limit moves E1 h p y c (Some t) K C NE ltac:(congruence)) as G. destruct (limit <? length (text y) + length (text (Some t)) + extent); [rewrite G; reflexivity|]. destruct G as (h' & p' & -> & X). cbn [bind]. eexists _, _. split; [reflexivity|]. eapply assigned; eassumption.
  - destruct (nth_error s d) as [y|] eqn:Y; [|exact I]. destruct (nth_same _ env _ _ (eq_sym L) Y) as (p & P). unfold var. rewrite P. cbn [bind]. destruct (destroyed h env s d p R P) as (h' & -> & R'). cbn [bind]. eexists _, _. split; [reflexivity|exact R'].
Qed.

(** ** C255: wherever realloc puts the blocks: after every program that gives no variable its own text, every variable has the text it should
    have, in a block of its own with room for the zero, and there is no other block; too long texts end the program *)
Theorem strings_as_meant l :
  match meaning_run extent limit l [] with
  | Next s => exists h env, run extent limit moves l ([], []) = Ok (h, env) /\ represents h env s
  | TooLong => run extent limit moves l ([], []) = Fatal
  | Undefined => True
  end.
Proof.
  assert (forall l h env s, represents h env s -> match meaning_run extent limit l s with Next s' => exists h' env', run extent limit moves l (h, env) = Ok (h', env') /\ represents h' env' s' | TooLong => run extent limit moves l (h, env) = Fatal | Undefined => True end) as G.
  { clear l. unfold run. induction l as [|o l IH]; intros h env s R; cbn [meaning_run fold_outcome]; [exists h, env; split; [reflexivity|exact R]|]. pose proof (step_ok h env s o R) as K. destruct (meaning_of extent limit s o) as [s'| |]; [|rewrite K; reflexivity|exact I]. destruct K as (h' & env' & -> & R'). cbn [bind]. apply IH, R'. }
  apply G. split; [reflexivity|]. split; [intros [|v] p x; discriminate|]. split; [intros [|v] w p; discriminate|]. intros [|[|p]] m; discriminate.
Qed.
(** ... so when all variables are NULL again, nothing is in use *)
Theorem strings_given_back l s : meaning_run extent limit l [] = Next s -> Forall (fun x => x = None) s -> exists h env, run extent limit moves l ([], []) = Ok (h, env) /\ in_use h = 0.
Proof.
  intros M F. pose proof (strings_as_meant l) as G. rewrite M in G. destruct G as (h & env & E & (L & H & _ & A)). exists h, env. split; [exact E|]. rewrite Forall_forall in F.
  assert (forall p m, cells h p = Ok m -> False) as No.
  { intros p m C. destruct (A p m C) as (v & V). destruct (nth_same _ _ _ _ L V) as (x & X). pose proof (H v p x V X) as K. rewrite (F x (nth_error_In _ _ X)) in K. cbn [holds] in K. subst p. discriminate. }
  unfold in_use. destruct (filter fst h) as [|[b m] r] eqn:Q; [reflexivity|]. exfalso. assert (In (b, m) (filter fst h)) as I by (rewrite Q; left; reflexivity). apply filter_In in I. destruct I as [I B]. cbn [fst] in B. subst b.
  apply In_nth_error in I. destruct I as (i & N). apply (No (S i) m). cbn [cells]. rewrite N. reflexivity.
Qed.
(** ** C256, refuted: a variable may not be given its own text, nor may NULL be appended to a text *)
Theorem own_text_refuted c t : zero_free (c :: t) = true -> length (c :: t) + length (c :: t) + extent <= limit ->
  run extent limit moves [Acquire (Literal (c :: t)); Clone 0 (Of 0)] ([], []) = UB /\
  ((forall h, moves h = true) -> run extent limit moves [Acquire (Literal (c :: t)); Concatenate 0 (Of 0)] ([], []) = UB).
Proof.
  intros Z LI. set (u := c :: t) in *. assert (1 <= length u) as LU by (unfold u; cbn [length]; lia). pose proof (acquire_ok extent limit E1 [] (Lit u) (Some u) (conj eq_refl Z)) as K. cbn [text] in K. destruct (Nat.ltb_spec limit (length u + extent)); [lia|]. destruct K as (h & p & E & ((r & C) & _)).
  unfold run. cbn [fold_outcome step argument_of bind]. rewrite E. cbn [bind app fold_outcome step argument_of var nth_error].
  pose proof (cells_bound _ _ _ C) as [B _]. assert (is_null (At p) = false) as NP by (destruct p; [congruence|reflexivity]). assert (strlen (At p) h = Ok (length u)) as SL by (cbn [strlen]; rewrite C; cbn [bind]; rewrite text_of_ok by exact Z; reflexivity).
  split.
  - unfold CloneString. rewrite NP, SL. destruct (Nat.eqb_spec p 0); [contradiction|]. cbn [bind]. destruct (Nat.ltb_spec limit (length u + extent)); [lia|]. destruct (resize_ok extent moves E1 h p _ (length u + extent) C) as (h1 & d & -> & C1 & _ & W). cbn [bind]. destruct (Nat.eqb_spec (length u) 0); [lia|].
    cbn [memcpy]. destruct W as [->|[_ ->]]; [|reflexivity]. rewrite C1. cbn [bind]. destruct (_ <? length u); [reflexivity|]. rewrite Nat.eqb_refl. destruct (Nat.ltb_spec 0 (length u)); [reflexivity|lia].
  - intros MV. unfold ConcatenateString. rewrite SL. destruct (Nat.eqb_spec p 0); [contradiction|]. cbn [bind]. destruct (Nat.ltb_spec limit (length u + length u)); [lia|]. destruct (Nat.ltb_spec limit (length u + length u + extent)); [lia|].
    unfold resize. rewrite C. cbn [bind]. rewrite MV. unfold release. rewrite C. cbn [bind]. destruct (Nat.eqb_spec (length u) 0); [lia|]. cbn [memcpy]. rewrite cells_push, update_length. pose proof (cells_bound _ _ _ C) as [_ B2]. destruct (Nat.eqb_spec p (S (length h))); [lia|].
    rewrite (cells_update _ _ _ _ _ _ C), Nat.eqb_refl. reflexivity.
Qed.
Theorem append_null_refuted t : zero_free t = true -> length t + extent <= limit -> run extent limit moves [Acquire (Literal t); Concatenate 0 Nothing] ([], []) = UB /\ exists h, run extent limit moves [Declare; Concatenate 0 Nothing] ([], []) = Ok (h, [1]).
Proof.
  intros Z LI. split.
  - pose proof (acquire_ok extent limit E1 [] (Lit t) (Some t) (conj eq_refl Z)) as K. cbn [text] in K. destruct (Nat.ltb_spec limit (length t + extent)); [lia|]. destruct K as (h & p & E & ((r & C) & _)). unfold run. cbn [fold_outcome step argument_of bind]. rewrite E. cbn [bind app fold_outcome step argument_of var nth_error].
    pose proof (cells_bound _ _ _ C) as [B _]. unfold ConcatenateString. destruct (Nat.eqb_spec p 0); [contradiction|]. cbn [strlen]. rewrite C. cbn [bind]. rewrite text_of_ok by exact Z. reflexivity.
  - destruct (fill_new extent E1 [] Null None extent eq_refl E1) as (h & E & _). exists h. assert (AcquireString extent limit Null [] = Ok (h, 1)) as A by (unfold AcquireString; cbn [is_null bind Nat.add]; destruct (Nat.ltb_spec limit extent); [lia|exact E]).
    unfold run. cbn [fold_outcome step argument_of bind app var nth_error]. unfold ConcatenateString. cbn [Nat.eqb]. rewrite A. reflexivity.
Qed.
End Strings.
Print Assumptions strings_as_meant.
Print Assumptions strings_given_back.
Print Assumptions own_text_refuted.
Print Assumptions append_null_refuted.

(** ** Examples: the blocks move at every third call *)
Local Definition ab : list N := [97; 98]%N.
Local Definition program : list op := [Declare; Acquire (Literal ab); Clone 0 (Of 1); Concatenate 1 (Of 0); Concatenate 1 (Literal ab); Constant (Of 1); Clone 2 (Literal []); Concatenate 2 (Of 1); Clone 1 Nothing].
Example program_means : meaning_run 4 1000 program [] = Next [Some ab; None; Some (ab ++ ab ++ ab)] /\ meaning_run 4 9 program [] = TooLong.
Proof. vm_compute. split; reflexivity. Qed.
Example program_runs : match run 4 1000 (fun h => Nat.even (length h)) program ([], []) with
  | Ok (h, env) => length env = 3 /\ in_use h = 2 /\ 2 < length h /\ holds h (nth 2 env 0) (Some (ab ++ ab ++ ab))
  | _ => False end.
Proof. vm_compute. repeat split; try lia. eexists. reflexivity. Qed.
Example program_clean : meaning_run 4 1000 (program ++ [Destroy 0; Destroy 2; Destroy 1]) [] = Next [None; None; None].
Proof. vm_compute. reflexivity. Qed.
Example own_text_case : zero_free ab = true /\ length ab + length ab + 4 <= 1000 /\ run 4 1000 (fun _ => false) [Acquire (Literal ab); Clone 0 (Of 0)] ([], []) = UB /\ run 4 1000 (fun _ => true) [Acquire (Literal ab); Concatenate 0 (Of 0)] ([], []) = UB.
Proof. split; [reflexivity|]. split; [vm_compute; lia|]. split; vm_compute; reflexivity. Qed.
