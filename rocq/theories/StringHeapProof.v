(** Proofs about C strings in memory. *)
From Coq Require Import NArith Bool Arith Lia List.
From Verif Require Import Outcome StringHeapModel StringHeapSpec.
Import ListNotations.

(** ** Blocks *)
Lemma cells_bound h p l : cells h p = Ok l -> p <> 0 /\ p <= length h.
Proof. destruct p as [|i]; cbn [cells]; [discriminate|]. destruct (nth_error h i) as [[[] m]|] eqn:E; try discriminate. intros _. assert (i < length h) by (apply nth_error_Some; congruence). lia. Qed.
Lemma nth_update x : forall h i j, nth_error (update i x h) j = if i =? j then match nth_error h j with None => None | Some _ => Some x end else nth_error h j.
Proof.
  induction h as [|y h IH]; intros [|i] [|j]; cbn [update nth_error Nat.eqb]; try reflexivity; [destruct (i =? j); reflexivity|apply IH].
Qed.
Lemma cells_update h p l b m q : cells h p = Ok l -> cells (update (pred p) (b, m) h) q = if q =? p then (if b then Ok m else UB) else cells h q.
Proof.
  intros H. destruct p as [|i]; [discriminate|]. destruct q as [|j]; [reflexivity|]. cbn [cells pred]. rewrite nth_update. cbn [Nat.eqb]. rewrite (Nat.eqb_sym i j). destruct (Nat.eqb_spec j i) as [->|]; [|reflexivity].
  cbn [cells] in H. destruct (nth_error h i); [|discriminate]. destruct b; reflexivity.
Qed.
Lemma cells_push h l q : cells (h ++ [(true, l)]) q = if q =? S (length h) then Ok l else cells h q.
Proof.
  destruct q as [|j]; [reflexivity|]. cbn [cells Nat.eqb]. destruct (Nat.eqb_spec j (length h)) as [->|N].
  - rewrite nth_error_app2, Nat.sub_diag by lia. reflexivity.
  - destruct (Nat.lt_ge_cases j (length h)); [rewrite nth_error_app1 by lia; reflexivity|]. rewrite nth_error_app2 by lia. destruct (j - length h) as [|[|k]] eqn:E; [lia| |]; cbn [nth_error]; (destruct (nth_error h j) eqn:X; [|reflexivity]); assert (j < length h) by (apply nth_error_Some; congruence); lia.
Qed.
Lemma update_length x : forall h i, length (update i x h) = length h.
Proof. induction h as [|y h IH]; intros [|i]; cbn [update length]; congruence. Qed.
Lemma put_length l off bs : off + length bs <= length l -> length (put l off bs) = length l.
Proof. intros H. unfold put. rewrite !app_length, firstn_length, skipn_length. lia. Qed.
Lemma store_ok h p l off bs : cells h p = Ok l -> off + length bs <= length l ->
  exists h', store p off bs h = Ok h' /\ forall q, cells h' q = if q =? p then Ok (put l off bs) else cells h q.
Proof.
  intros H L. unfold store. rewrite H. cbn [bind]. destruct (Nat.leb_spec (off + length bs) (length l)); [|lia]. eexists. split; [reflexivity|]. intros q. exact (cells_update h p l true _ q H).
Qed.
Lemma text_of_ok t : forall rest, zero_free t = true -> text_of (map Some t ++ Some 0%N :: rest) = Ok t.
Proof.
  induction t as [|c t IH]; intros rest Z; [reflexivity|]. cbn [zero_free forallb] in Z. apply andb_prop in Z. destruct Z as [Z1 Z2]. cbn [map app text_of]. destruct (c =? 0)%N; [discriminate|]. rewrite (IH rest Z2). reflexivity.
Qed.
(** a text behind a text, and a zero *)
Lemma put_text d t l : length d + length t < length l -> firstn (length d) l = map Some d ->
  exists rest, put (put l (length d) (map Some t)) (length d + length t) [Some 0%N] = map Some (d ++ t) ++ Some 0%N :: rest.
Proof.
  intros L F. set (r := skipn (length d + length t) l). assert (put l (length d) (map Some t) = map Some d ++ map Some t ++ r) as -> by (unfold put; rewrite F, map_length; reflexivity). unfold put.
  assert (firstn (length d + length t) (map Some d ++ map Some t ++ r) = map Some (d ++ t)) as ->.
  { rewrite app_assoc, <- map_app. rewrite firstn_app. rewrite (firstn_all2 (map Some (d ++ t))) by (rewrite map_length, app_length; lia). rewrite map_length, app_length, Nat.sub_diag. cbn [firstn]. apply app_nil_r. }
  eexists. reflexivity.
Qed.
Definition reads (h : heap) (s : source) (x : option (list N)) : Prop :=
  match s with Lit t => x = Some t /\ zero_free t = true | Null => x = None | At p => holds h p x end.
Lemma reads_null h s x : reads h s x -> is_null s = match x with None => true | Some _ => false end.
Proof.
  destruct s as [t| |p]; cbn [reads is_null]; [intros [-> _]; reflexivity|intros ->; reflexivity|]. destruct x as [t|]; cbn [holds]; [|intros ->; reflexivity]. intros (_ & r & E). apply cells_bound in E. destruct p; [lia|reflexivity].
Qed.
Lemma reads_length h s t : reads h s (Some t) -> strlen s h = Ok (length t).
Proof. destruct s as [u| |p]; cbn [reads strlen]; [intros [[= ->] _]; reflexivity|discriminate|]. intros (Z & r & E). rewrite E. cbn [bind]. rewrite text_of_ok by exact Z. reflexivity. Qed.
Lemma memcpy_ok h s t p l off : reads h s (Some t) -> cells h p = Ok l -> off + length t <= length l -> (match s with At q => q <> p | _ => True end) ->
  exists h', memcpy p off s (length t) h = Ok h' /\ forall q, cells h' q = if q =? p then Ok (put l off (map Some t)) else cells h q.
Proof.
  intros R C L NE. destruct s as [u| |q]; cbn [reads memcpy] in *; [|discriminate|].
  - destruct R as [[= ->] _]. destruct (Nat.leb_spec (length u) (length u + 1)); [|lia]. rewrite firstn_app, firstn_all, Nat.sub_diag. cbn [firstn]. rewrite app_nil_r. apply store_ok; [exact C|rewrite map_length; exact L].
  - destruct R as (Z & r & E). rewrite E. cbn [bind]. rewrite app_length, map_length. cbn [length]. destruct (Nat.ltb_spec (length t + S (length r)) (length t)); [lia|]. destruct (Nat.eqb_spec p q) as [->|_]; [congruence|]. cbn [andb].
    rewrite firstn_app, map_length, Nat.sub_diag. cbn [firstn]. rewrite firstn_all2, app_nil_r by (rewrite map_length; lia). apply store_ok; [exact C|rewrite map_length; exact L].
Qed.

(** ** What a call does: the block [d] is replaced by [p] with the text, all others stay *)
Definition effect (h : heap) (d : nat) (h' : heap) (p : nat) (t : list N) : Prop :=
  (exists rest, cells h' p = Ok (map Some t ++ Some 0%N :: rest)) /\ (forall q, q <> d -> q <> p -> cells h' q = cells h q) /\ (p = d \/ cells h p = UB /\ cells h' d = UB).
Section Strings.
Variables extent limit : nat.
Variable moves : heap -> bool.
Hypothesis E1 : 1 <= extent.

Lemma double_enough : forall fuel e l, l <= fuel + e -> 1 <= e -> l <= double fuel e l.
Proof. induction fuel as [|fuel IH]; intros e l H P; cbn [double]; [lia|]. destruct (Nat.ltb_spec e l); [apply IH; lia|lia]. Qed.
Lemma over_enough l : l <= OverAllocateMemory l.
Proof. unfold OverAllocateMemory. destruct (_ <? _)%N; [apply double_enough; lia|lia]. Qed.
Lemma fresh_cells h : cells h (S (length h)) = UB.
Proof. cbn [cells]. destruct (nth_error h (length h)) eqn:E; [|reflexivity]. assert (length h < length h) by (apply nth_error_Some; congruence). lia. Qed.
(** a new block of [n] bytes, filled with the text *)
Lemma fill_new h s x n : reads h s x -> length (text x) + 1 <= n ->
  exists h', (let (h1, p) := alloc n h in let* h2 := store p 0 [Some 0%N] h1 in let* h3 := (if is_null s then Ok h2 else memcpy p 0 s (length (text x)) h2) in let* h4 := store p (length (text x)) [Some 0%N] h3 in Ok (h4, p))
    = Ok (h', S (length h)) /\ effect h 0 h' (S (length h)) (text x).
Proof.
  intros R L. unfold alloc. set (p := S (length h)). set (h1 := h ++ [(true, repeat None n)]). assert (forall q, cells h1 q = if q =? p then Ok (repeat None n) else cells h q) as C1 by (intros q; apply cells_push).
  assert (cells h p = UB) as FR by apply fresh_cells. assert (cells h1 p = Ok (repeat None n)) as C1p by (rewrite C1, Nat.eqb_refl; reflexivity).
  destruct (store_ok h1 p _ 0 [Some 0%N] C1p) as (h2 & -> & C2); [rewrite repeat_length; cbn [length]; lia|]. cbn [bind]. set (l2 := put (repeat None n) 0 [Some 0%N]) in *. assert (length l2 = n) as L2 by (unfold l2; rewrite put_length, repeat_length; [reflexivity|rewrite repeat_length; cbn [length]; lia]).
  assert (exists h3, (if is_null s then Ok h2 else memcpy p 0 s (length (text x)) h2) = Ok h3 /\ forall q, cells h3 q = if q =? p then Ok (put l2 0 (map Some (text x))) else cells h q) as (h3 & -> & C3).
  { rewrite (reads_null _ _ _ R). destruct x as [t|]; cbn [text].
    - destruct (memcpy_ok h2 s t p l2 0) as (h3 & E & C3).
      + destruct s as [u| |q]; try exact R. cbn [reads holds] in *. destruct R as (Z & r & E). split; [exact Z|]. exists r. rewrite C2, C1. destruct (Nat.eqb_spec q p) as [->|]; [congruence|exact E].
      + rewrite C2, Nat.eqb_refl. reflexivity.
      + cbn [text] in L. lia.
      + destruct s as [u| |q]; try exact I. cbn [reads holds] in R. destruct R as (_ & r & E). congruence.
      + exists h3. split; [exact E|]. intros q. rewrite C3, C2, C1. destruct (q =? p); reflexivity.
    - exists h2. split; [reflexivity|]. intros q. rewrite C2, C1. destruct (q =? p); [|reflexivity]. unfold put at 1. cbn [map length firstn app Nat.add skipn]. reflexivity. }
  cbn [bind]. destruct (store_ok h3 p (put l2 0 (map Some (text x))) (length (text x)) [Some 0%N]) as (h4 & -> & C4).
  - rewrite C3, Nat.eqb_refl. reflexivity.
  - rewrite put_length; rewrite ?map_length; cbn [length]; lia.
  - cbn [bind]. exists h4. split; [reflexivity|]. split; [|split].
    + destruct (put_text [] (text x) l2) as (r & PT); [cbn [length]; lia|reflexivity|]. cbn [length Nat.add app] in PT. exists r. rewrite C4, Nat.eqb_refl, PT. reflexivity.
    + intros q N1 N2. rewrite C4, C3. destruct (Nat.eqb_spec q p); [contradiction|reflexivity].
    + right. split; [exact FR|reflexivity].
Qed.
Lemma acquire_ok h s x : reads h s x -> if limit <? length (text x) + extent then AcquireString extent limit s h = Fatal else exists h' p, AcquireString extent limit s h = Ok (h', p) /\ effect h 0 h' p (text x).
Proof.
  intros R. assert ((if is_null s then Ok 0 else strlen s h) = Ok (length (text x))) as N by (rewrite (reads_null _ _ _ R); destruct x as [t|]; [apply reads_length, R|reflexivity]).
  unfold AcquireString. rewrite N. cbn [bind]. destruct (limit <? length (text x) + extent); [reflexivity|]. destruct (fill_new h s x (length (text x) + extent) R) as (h' & E & X); [lia|]. exists h', (S (length h)). split; [exact E|exact X].
Qed.
Lemma constant_ok h s x : reads h s x -> if limit <? length (text x) + 1 then ConstantString limit s h = Fatal else exists h' p, ConstantString limit s h = Ok (h', p) /\ effect h 0 h' p (text x).
Proof.
  intros R. assert ((if is_null s then Ok 0 else strlen s h) = Ok (length (text x))) as N by (rewrite (reads_null _ _ _ R); destruct x as [t|]; [apply reads_length, R|reflexivity]).
  unfold ConstantString. rewrite N. cbn [bind]. destruct (limit <? length (text x) + 1); [reflexivity|]. destruct (fill_new h s x (length (text x) + 1) R) as (h' & E & X); [lia|]. exists h', (S (length h)). split; [exact E|exact X].
Qed.
Lemma resize_ok h d l n : cells h d = Ok l -> exists h' d', resize moves d n h = Ok (h', d') /\ cells h' d' = Ok (firstn n l ++ repeat None (n - length l)) /\ (forall q, q <> d -> q <> d' -> cells h' q = cells h q) /\ (d' = d \/ cells h d' = UB /\ cells h' d = UB).
Proof.
  intros C. unfold resize, release. rewrite C. cbn [bind]. destruct (moves h).
  - cbn [bind]. set (h1 := update (pred d) (false, l) h). exists (h1 ++ [(true, firstn n l ++ repeat None (n - length l))]), (S (length h1)). pose proof (cells_bound _ _ _ C) as [B1 B2].
    assert (length h1 = length h) as L1 by apply update_length. split; [reflexivity|]. split; [rewrite cells_push, Nat.eqb_refl; reflexivity|]. split.
    + intros q N1 N2. rewrite cells_push. destruct (Nat.eqb_spec q (S (length h1))); [contradiction|]. unfold h1. rewrite (cells_update _ _ _ _ _ _ C). destruct (Nat.eqb_spec q d); [contradiction|reflexivity].
    + right. rewrite L1. split; [apply fresh_cells|]. rewrite cells_push, L1. destruct (Nat.eqb_spec d (S (length h))); [lia|]. unfold h1. rewrite (cells_update _ _ _ _ _ _ C), Nat.eqb_refl. reflexivity.
  - eexists _, d. split; [reflexivity|]. split; [rewrite (cells_update _ _ _ _ _ _ C), Nat.eqb_refl; reflexivity|]. split; [|left; reflexivity]. intros q N1 _. rewrite (cells_update _ _ _ _ _ _ C). destruct (Nat.eqb_spec q d); [contradiction|reflexivity].
Qed.
(** the block is made larger, and the text is put behind the first [m] bytes *)
Lemma refill h d a b r s t n : cells h d = Ok (map Some (a ++ b) ++ Some 0%N :: r) -> reads h s (Some t) -> (match s with At q => q <> d | _ => True end) -> length a + length t + 1 <= n ->
  exists h' d', (let* (h1, d') := resize moves d n h in let* h2 := (if length t =? 0 then Ok h1 else memcpy d' (length a) s (length t) h1) in let* h3 := store d' (length a + length t) [Some 0%N] h2 in Ok (h3, d')) = Ok (h', d') /\ effect h d h' d' (a ++ t).
Proof.
  intros C R NE L. destruct (resize_ok h d _ n C) as (h1 & d' & -> & C1 & O1 & W1). cbn [bind]. set (l0 := map Some (a ++ b) ++ Some 0%N :: r) in *. set (l1 := firstn n l0 ++ repeat None (n - length l0)) in *.
  assert (length l1 = n) as L1 by (unfold l1; rewrite app_length, firstn_length, repeat_length; lia).
  assert (firstn (length a) l1 = map Some a) as F1.
  { unfold l1. rewrite firstn_app, firstn_firstn, firstn_length. replace (Nat.min (length a) n) with (length a) by lia. replace (length a - Nat.min n (length l0)) with 0 by (unfold l0; rewrite !app_length, map_length, app_length; lia). cbn [firstn]. rewrite app_nil_r. unfold l0. rewrite map_app, <- app_assoc, firstn_app, map_length, Nat.sub_diag. cbn [firstn]. rewrite app_nil_r, firstn_all2 by (rewrite map_length; lia). reflexivity. }
  assert (exists h2, (if length t =? 0 then Ok h1 else memcpy d' (length a) s (length t) h1) = Ok h2 /\ forall q, cells h2 q = if q =? d' then Ok (put l1 (length a) (map Some t)) else cells h1 q) as (h2 & -> & C2).
  { destruct (Nat.eqb_spec (length t) 0) as [Z|Z].
    - destruct t; [|discriminate]. exists h1. split; [reflexivity|]. intros q. destruct (Nat.eqb_spec q d') as [->|]; [|reflexivity]. rewrite C1. f_equal. unfold put. cbn [map app length]. rewrite Nat.add_0_r. symmetry. apply firstn_skipn.
    - assert (forall q, s = At q -> q <> d') as ND.
      { intros q ->. cbn [reads holds] in R. destruct R as (_ & r1 & E). destruct W1 as [->|[W _]]; [exact NE|]. congruence. }
      apply memcpy_ok; [|exact C1|lia|destruct s; try exact I; apply ND; reflexivity]. destruct s as [u| |q]; try exact R. cbn [reads holds] in *. destruct R as (Z0 & r1 & E). split; [exact Z0|]. exists r1. rewrite O1; [exact E|exact NE|apply ND; reflexivity]. }
  cbn [bind]. destruct (store_ok h2 d' (put l1 (length a) (map Some t)) (length a + length t) [Some 0%N]) as (h3 & -> & C3).
  - rewrite C2, Nat.eqb_refl. reflexivity.
  - rewrite put_length; rewrite ?map_length; cbn [length]; lia.
  - cbn [bind]. exists h3, d'. split; [reflexivity|]. split; [|split].
    + destruct (put_text a t l1) as (rest & PT); [lia|exact F1|]. exists rest. rewrite C3, Nat.eqb_refl, PT. reflexivity.
    + intros q N1 N2. rewrite C3, C2. destruct (Nat.eqb_spec q d'); [contradiction|]. apply O1; assumption.
    + destruct W1 as [->|[W1 W2]]; [left; reflexivity|right]. split; [exact W1|]. rewrite C3, C2. destruct (Nat.eqb_spec d d') as [<-|]; [congruence|exact W2].
Qed.
Lemma clone_ok h d y s t : holds h d y -> reads h s (Some t) -> (match s with At q => q <> d | _ => True end) ->
  if limit <? length t + extent then CloneString extent limit moves d s h = Fatal else exists h' p, CloneString extent limit moves d s h = Ok (h', p) /\ effect h d h' p t.
Proof.
  intros D R NE. unfold CloneString. rewrite (reads_null _ _ _ R). destruct y as [u|]; cbn [holds] in D.
  - destruct D as (Z & r & C). pose proof (cells_bound _ _ _ C) as [B _]. destruct (Nat.eqb_spec d 0); [contradiction|]. rewrite (reads_length _ _ _ R). cbn [bind]. destruct (limit <? length t + extent); [reflexivity|].
    destruct (refill h d [] u r s t (length t + extent) C R NE) as (h' & d' & E & X); [cbn [length]; lia|]. exists h', d'. split; [exact E|exact X].
  - subst d. cbn [Nat.eqb]. exact (acquire_ok h s (Some t) R).
Qed.
Lemma concatenate_ok h d y s x : holds h d y -> reads h s x -> (match y, s with Some _, At q => q <> d | _, _ => True end) -> (y <> None -> x <> None) ->
  if limit <? length (text y) + length (text x) + extent then ConcatenateString extent limit moves d s h = Fatal else exists h' p, ConcatenateString extent limit moves d s h = Ok (h', p) /\ effect h d h' p (text y ++ text x).
Proof.
  intros D R NE NN. unfold ConcatenateString. destruct y as [u|]; cbn [holds text] in *.
  - destruct D as (Z & r & C). pose proof (cells_bound _ _ _ C) as [B _]. destruct (Nat.eqb_spec d 0); [contradiction|]. destruct x as [t|]; [|exfalso; apply NN; congruence]. cbn [text].
    assert (strlen (At d) h = Ok (length u)) as -> by (cbn [strlen]; rewrite C; cbn [bind]; rewrite text_of_ok by exact Z; reflexivity). rewrite (reads_length _ _ _ R). cbn [bind].
    destruct (Nat.ltb_spec limit (length u + length t + extent)) as [Q|Q]; destruct (Nat.ltb_spec limit (length u + length t)) as [Q'|Q']; try reflexivity; try lia.
    destruct (refill h d u [] r s t (OverAllocateMemory (length u + length t + extent))) as (h' & d' & E & X).
    + rewrite app_nil_r. exact C.
    + exact R.
    + destruct s; exact NE.
    + pose proof (over_enough (length u + length t + extent)). lia.
    + exists h', d'. split; [exact E|exact X].
  - subst d. cbn [Nat.eqb length Nat.add app]. exact (acquire_ok h s x R).
Qed.
End Strings.
