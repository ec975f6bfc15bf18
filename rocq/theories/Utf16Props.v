(** What becomes of documents in UTF-16 and of attributes. *)
From Coq Require Import NArith ZArith Bool Arith Lia List ZifyBool ZifyNat ZifyN.
From Verif Require Import Base Outcome XmlModel XmlSpec XmlProof XmlProof3 Utf16Model Utf16Proof.
Import ListNotations.

(** * C134: documents in UTF-16 *)
(** The loop turns the UTF-16 form of any characters, in both byte orders, into their UTF-8 form. *)
Theorem utf16_read P big l n : 4 <= P -> Forall scalar l ->
  exists out, convert_units P big (utf16 big l) [] n (S n) = Ok out /\ utf8_text out l.
Proof.
  intros HP L. eexists. split; [apply convert_utf16; [exact HP|exact L|lia]|]. cbn [app]. unfold utf8_text.
  induction L as [|c l C L IH]; [reflexivity|]. cbn [flat_map]. change (c :: l) with ([c] ++ l).
  apply (code_points_app (length (char_bytes (Z.of_N c)))); [reflexivity| |exact IH].
  apply char_bytes_code. unfold scalar in C. lia.
Qed.
(** For any bytes at all the loop stays inside the block. *)
Theorem utf16_in_block P big p n : 4 <= P -> Forall (fun c => (c < 256)%N) p -> exists out, convert_units P big p [] n (S n) = Ok out.
Proof. intros HP B. apply (convert_in_block P HP big (length p)); auto with arith. Qed.
(** A text without a byte order mark is kept as it is. *)
Theorem utf16_unmarked P s : match s with c :: _ => (c <> 254 /\ c <> 255)%N | [] => True end -> ConvertUTF16ToUTF8 P s = Ok (Some s).
Proof.
  intros H. unfold ConvertUTF16ToUTF8. destruct s as [|c s]; [reflexivity|].
  destruct c as [|[[[[[[[[]|[]|]|[]|]|[]|]|[]|]|[]|]|[]|]|[[[[[[[]|[]|]|[]|]|[]|]|[]|]|[]|]|[]|]|]]; try reflexivity; cbn in H; destruct H; congruence.
Qed.
(** REFUTED: the zero behind the text is written behind the block, for every text with a character. *)
Theorem utf16_overrun_refuted P big l : 4 <= P -> Forall scalar l -> l <> [] -> ConvertUTF16ToUTF8 P (mark big ++ utf16 big l) = UB.
Proof.
  intros HP L N0. assert (forall n, convert_units P big (utf16 big l) [] n (S n) = Ok (flat_map (fun c => char_bytes (Z.of_N c)) l)) as E.
  { intros n. rewrite (convert_utf16 P HP big l L) by lia. reflexivity. }
  assert (exists x y, flat_map (fun c => char_bytes (Z.of_N c)) l = x :: y) as (x & y & F).
  { destruct l as [|c l]; [contradiction|]. cbn [flat_map]. unfold char_bytes at 1, utf8_of. destruct (_ <? _)%Z; cbn [app]; eauto. }
  unfold ConvertUTF16ToUTF8. destruct big; change (mark _) with [255; 254]%N || change (mark _) with [254; 255]%N; cbn [app skipn]; rewrite E, F; reflexivity.
Qed.
(** REFUTED: as the length is that of a C string, a text which starts with an ASCII character, as every document
    does, is not read at all. *)
Theorem utf16_ascii_refuted P big c l : (0 < c < 128)%N -> ConvertUTF16ToUTF8 P (c_string (mark big ++ utf16 big (c :: l))) = Ok None.
Proof.
  intros C. unfold utf16. cbn [flat_map]. unfold units at 1. replace (c <? 65536)%N with true by lia. cbn [flat_map].
  remember (flat_map _ l) as r eqn:R. clear R. unfold unit_bytes.
  replace (c / 256)%N with 0%N by lia. replace (c mod 256)%N with c by lia.
  destruct big; change (mark _) with [255; 254]%N || change (mark _) with [254; 255]%N; cbn [app c_string N.eqb Pos.eqb]; [reflexivity|].
  replace (c =? 0)%N with false by lia. reflexivity.
Qed.
(** REFUTED: what is not UTF-16 is not refused: behind a surrogate any unit is taken for the second half. *)
Theorem utf16_unpaired_refuted P u n : 4 <= P -> (55296 <= u < 57344)%N -> (* any surrogate, also one of the second halves *)
  convert_units P true (unit_bytes true u ++ unit_bytes true 60) [] n (S n) = Ok (char_bytes (Z.of_N (65536 + (u mod 1024) * 1024 + 60))).
Proof.
  intros HP U. pose proof (unit_back true u ltac:(lia)) as B. pose proof (unit_back true 60 ltac:(lia)) as B'.
  destruct (unit_bytes true u) as [|x [|y [|]]]; try contradiction. destruct (unit_bytes true 60) as [|x' [|y' [|]]]; try contradiction.
  cbn [app convert_units]. rewrite B, B'. replace (surrogate u) with true by (unfold surrogate; lia).
  assert (pair_of u 60 = 65536 + (u mod 1024) * 1024 + 60)%N as -> by (unfold pair_of; rewrite !low_ten, lor_ten by lia; change (60 mod 1024)%N with 60%N; lia).
  destruct (emit_ok P HP (65536 + (u mod 1024) * 1024 + 60) [] n (S n) ltac:(lia) ltac:(lia)) as (e & a & -> & _). reflexivity.
Qed.
Example utf16_example : exists out, convert_units 8 false (utf16 false [60; 228; 8364; 119070]%N) [] 12 13 = Ok out /\ utf8_text out [60; 228; 8364; 119070]%N
  /\ out = [60; 195; 164; 226; 130; 172; 240; 157; 132; 158]%N /\ utf16 false [60; 119070]%N = [60; 0; 52; 216; 30; 221]%N.
Proof. eexists. split; [vm_compute; reflexivity|]. split; [vm_compute; reflexivity|]. split; [reflexivity|vm_compute; reflexivity]. Qed.
Example utf16_overrun_example : ConvertUTF16ToUTF8 8 [254; 255; 32; 172]%N = UB /\ Forall scalar [8364]%N.
Proof. split; [apply (utf16_overrun_refuted 8 true [8364]%N); [lia|repeat constructor; red; lia|discriminate]|repeat constructor; red; lia]. Qed.
Example utf16_unmarked_example : ConvertUTF16ToUTF8 8 [60; 97; 47; 62]%N = Ok (Some [60; 97; 47; 62]%N).
Proof. now apply utf16_unmarked. Qed.
Print Assumptions utf16_read.
Print Assumptions utf16_in_block.
Print Assumptions utf16_unmarked.
Print Assumptions utf16_overrun_refuted.
Print Assumptions utf16_ascii_refuted.
Print Assumptions utf16_unpaired_refuted.

(** * C135: attributes *)
(** What an array holds: the pairs, in order; a value may be missing. *)
Definition slot_of (v : option (list N)) : slot := match v with Some s => Str s | None => Null end.
Definition pairs := list (list N * option (list N)).
Definition body (l : pairs) : list slot := flat_map (fun p => [Str (fst p); slot_of (snd p)]) l.
(** as the parser (xml-tree.c:2088-2110) and SetXMLTreeAttribute leave it: a NULL and a slot which is never written *)
Definition holds (a : attributes) (l : pairs) : Prop := match l with [] => a = Sentinel | _ => a = Array (body l ++ [Null; Junk]) end.
(** the first pair with the tag, if any *)
Fixpoint value_of (l : pairs) (tag : list N) : option (option (list N)) :=
  match l with [] => None | (t, v) :: l => if list_eq_dec N.eq_dec t tag then Some v else value_of l tag end.
Fixpoint set_first (l : pairs) (tag v : list N) : pairs :=
  match l with [] => [] | (t, w) :: l => if list_eq_dec N.eq_dec t tag then (t, Some v) :: l else (t, w) :: set_first l tag v end.

Ltac deq := match goal with |- context [list_eq_dec N.eq_dec ?a ?b] => destruct (list_eq_dec N.eq_dec a b) end.
Lemma scan_absent l tag : value_of l tag = None -> forall r i, scan (body l ++ Null :: r) tag i = Ok (i + 2 * length l, false).
Proof.
  induction l as [|[t v] l IH]; intros H r i; cbn [body flat_map app scan length]; [now rewrite Nat.add_0_r|].
  cbn [value_of] in H. cbn [fst snd]. destruct (list_eq_dec N.eq_dec t tag); [discriminate|]. cbn [app].
  change (flat_map _ l) with (body l). rewrite IH by exact H. do 2 f_equal. lia.
Qed.
Lemma scan_present l tag v : value_of l tag = Some v -> exists l1 t l2, l = l1 ++ (t, v) :: l2 /\ t = tag /\ value_of l1 tag = None
  /\ forall r i, scan (body l ++ r) tag i = Ok (i + 2 * length l1, true).
Proof.
  induction l as [|[t w] l IH]; [discriminate|]. cbn [value_of]. destruct (list_eq_dec N.eq_dec t tag) as [->|D].
  - intros [= ->]. exists [], tag, l. repeat split. intros. cbn [body flat_map app scan fst snd length]. deq; [|congruence]. now rewrite Nat.add_0_r.
  - intros H. destruct (IH H) as (l1 & t' & l2 & -> & -> & A & S). exists ((t, w) :: l1), tag, l2. repeat split.
    + cbn [value_of]. destruct (list_eq_dec N.eq_dec t tag); [congruence|exact A].
    + intros r i. cbn [app body flat_map scan fst snd]. destruct (list_eq_dec N.eq_dec t tag); [congruence|]. cbn [app].
      change (flat_map _ ?x) with (body x). rewrite S. cbn [length]. do 2 f_equal. lia.
Qed.
Lemma body_app l1 l2 : body (l1 ++ l2) = body l1 ++ body l2.
Proof. apply flat_map_app. Qed.
Lemma body_length l : length (body l) = 2 * length l.
Proof. induction l as [|p l IH]; [reflexivity|]. cbn [body flat_map app length]. change (flat_map _ l) with (body l). rewrite IH. lia. Qed.
Lemma end_of_body l r : forall j, end_of (body l ++ Null :: r) j = Ok (j + 2 * length l).
Proof.
  induction l as [|p l IH]; intros j; cbn [body flat_map app end_of length]; [now rewrite Nat.add_0_r|].
  change (flat_map _ l) with (body l). rewrite IH. f_equal. lia.
Qed.
Lemma slot_at_app l r i : i = length l -> slot_at (l ++ r) i = slot_at r 0.
Proof. intros ->. unfold slot_at. rewrite app_nth2, Nat.sub_diag; auto. Qed.
Lemma set_first_at l1 t v l2 w : value_of l1 t = None -> set_first (l1 ++ (t, v) :: l2) t w = l1 ++ (t, Some w) :: l2.
Proof.
  induction l1 as [|[u x] l1 IH]; cbn [app set_first value_of].
  - intros _. destruct (list_eq_dec N.eq_dec t t); [reflexivity|congruence].
  - destruct (list_eq_dec N.eq_dec u t); [discriminate|]. intros H. now rewrite IH.
Qed.
Lemma skipn_at {A} (l r : list A) n : n = length l -> skipn n (l ++ r) = r.
Proof. intros ->. rewrite skipn_app, skipn_all, Nat.sub_diag. reflexivity. Qed.
Lemma firstn_at {A} (l r : list A) n : n = length l -> firstn n (l ++ r) = l.
Proof. intros ->. rewrite firstn_app, firstn_all, Nat.sub_diag. cbn. apply app_nil_r. Qed.

(** Setting the value of an attribute which is there changes that attribute and no other. *)
Theorem attribute_changed a l tag v : holds a l -> value_of l tag <> None ->
  exists a', SetXMLTreeAttribute a tag (Some v) = Ok a' /\ holds a' (set_first l tag v).
Proof.
  intros H V. destruct (value_of l tag) as [w|] eqn:E; [|congruence]. destruct (scan_present l tag w E) as (l1 & t & l2 & -> & -> & A & S).
  assert (a = Array (body (l1 ++ (tag, w) :: l2) ++ [Null; Junk])) as -> by (unfold holds in H; destruct l1; exact H).
  unfold SetXMLTreeAttribute. cbn [slots]. rewrite S. cbn [bind Nat.add].
  assert (body (l1 ++ (tag, w) :: l2) ++ [Null; Junk] = body l1 ++ Str tag :: slot_of w :: body l2 ++ [Null; Junk]) as B.
  { rewrite body_app. cbn [body flat_map]. rewrite <- app_assoc. reflexivity. }
  rewrite B. rewrite (skipn_at (body l1)) by (now rewrite body_length).
  change (Str tag :: slot_of w :: body l2 ++ [Null; Junk]) with (body ((tag, w) :: l2) ++ Null :: [Junk]). rewrite end_of_body. cbn [bind].
  assert (forall r, slot_at (body l1 ++ r) (2 * length l1 + 1) = slot_at r 1) as G.
  { intros r. unfold slot_at. rewrite app_nth2, body_length by (rewrite body_length; lia). f_equal. lia. }
  rewrite G. cbn [body flat_map app fst snd slot_at nth].
  assert (put_slot (body l1 ++ Str tag :: slot_of w :: flat_map (fun p => [Str (fst p); slot_of (snd p)]) l2 ++ [Null; Junk]) (2 * length l1 + 1) (Str v)
          = body (set_first (l1 ++ (tag, w) :: l2) tag v) ++ [Null; Junk]) as R.
  { rewrite set_first_at by exact A. unfold put_slot.
    replace (body l1 ++ Str tag :: slot_of w :: flat_map (fun p => [Str (fst p); slot_of (snd p)]) l2 ++ [Null; Junk])
      with ((body l1 ++ [Str tag]) ++ slot_of w :: body l2 ++ [Null; Junk]) by (rewrite <- app_assoc; reflexivity).
    rewrite firstn_at by (rewrite app_length, body_length; cbn; lia).
    change (slot_of w :: ?x) with ([slot_of w] ++ x). rewrite app_assoc, skipn_at by (rewrite !app_length, body_length; cbn; lia).
    rewrite body_app. cbn [body flat_map fst snd slot_of]. rewrite <- !app_assoc. reflexivity. }
  destruct w as [w|]; cbn [slot_of] in *; rewrite R; eexists; (split; [reflexivity|]); rewrite set_first_at by exact A; unfold holds; destruct l1; reflexivity.
Qed.
(** The first attribute of a tag without attributes is added. *)
Theorem attribute_first a tag v : holds a [] -> exists a', SetXMLTreeAttribute a tag (Some v) = Ok a' /\ holds a' [(tag, Some v)].
Proof. intros ->. eexists. split; reflexivity. Qed.
(** Removing what is not there changes nothing. *)
Theorem attribute_none a l tag : holds a l -> value_of l tag = None -> SetXMLTreeAttribute a tag None = Ok a.
Proof.
  intros H V. unfold SetXMLTreeAttribute.
  assert (exists r, slots a = body l ++ Null :: r) as (r & ->).
  { unfold holds in H. destruct l; subst a; eexists; reflexivity. }
  rewrite scan_absent by exact V. reflexivity.
Qed.
(** REFUTED: adding an attribute to a tag which has some reads a slot which was never written. *)
Theorem attribute_second_refuted a l tag v : holds a l -> l <> [] -> value_of l tag = None -> SetXMLTreeAttribute a tag (Some v) = UB.
Proof.
  intros H N0 V. assert (a = Array (body l ++ [Null; Junk])) as -> by (unfold holds in H; destruct l; [contradiction|exact H]).
  unfold SetXMLTreeAttribute. cbn [slots]. rewrite scan_absent by exact V. cbn [bind Nat.add].
  remember (body l) as b eqn:B. assert (2 * length l = length b) as -> by (subst b; symmetry; apply body_length).
  assert (resize (b ++ [Null; Junk]) (length b + 4) = b ++ [Null; Junk; Junk; Junk]) as ->.
  { unfold resize. rewrite firstn_all2 by (rewrite app_length; cbn; lia). rewrite app_length. cbn [length].
    replace (length b + 4 - (length b + 2)) with 2 by lia. rewrite <- app_assoc. reflexivity. }
  assert (put_slot (b ++ [Null; Junk; Junk; Junk]) (length b) (Str tag) = b ++ [Str tag; Junk; Junk; Junk]) as ->.
  { unfold put_slot. rewrite firstn_at by reflexivity. f_equal. f_equal. change (Null :: ?x) with ([Null] ++ x). rewrite app_assoc. apply skipn_at. rewrite app_length. cbn; lia. }
  assert (put_slot (b ++ [Str tag; Junk; Junk; Junk]) (length b + 2) Null = b ++ [Str tag; Junk; Null; Junk]) as ->.
  { unfold put_slot. change [Str tag; Junk; Junk; Junk] with ([Str tag; Junk] ++ [Junk; Junk]). rewrite app_assoc, firstn_at by (rewrite app_length; cbn; lia).
    change [Junk; Junk] with ([Junk] ++ [Junk]). rewrite (app_assoc _ [Junk] [Junk]), skipn_at by (rewrite !app_length; cbn; lia). rewrite <- app_assoc. reflexivity. }
  assert (slot_at (b ++ [Str tag; Junk; Null; Junk]) (length b + 1) = Junk) as ->.
  { unfold slot_at. rewrite app_nth2 by lia. replace (length b + 1 - length b) with 1 by lia. reflexivity. }
  reflexivity.
Qed.
(** REFUTED: removing an attribute which is there changes a text nobody ever stored. *)
Theorem attribute_remove_refuted a l tag : holds a l -> value_of l tag <> None -> SetXMLTreeAttribute a tag None = UB.
Proof.
  intros H V. destruct (value_of l tag) as [w|] eqn:E; [|congruence]. destruct (scan_present l tag w E) as (l1 & t & l2 & -> & -> & A & SC).
  assert (a = Array (body (l1 ++ (tag, w) :: l2) ++ [Null; Junk])) as -> by (unfold holds in H; destruct l1; exact H).
  unfold SetXMLTreeAttribute. cbn [slots]. rewrite SC. cbn [bind Nat.add].
  assert (body (l1 ++ (tag, w) :: l2) ++ [Null; Junk] = body l1 ++ Str tag :: slot_of w :: body l2 ++ [Null; Junk]) as B.
  { rewrite body_app. cbn [body flat_map]. rewrite <- app_assoc. reflexivity. }
  rewrite B. rewrite (skipn_at (body l1)) by (now rewrite body_length).
  change (Str tag :: slot_of w :: body l2 ++ [Null; Junk]) with (body ((tag, w) :: l2) ++ Null :: [Junk]) at 1. rewrite end_of_body. cbn [bind length].
  assert (forall r, slot_at (body l1 ++ r) (2 * length l1 + 1) = slot_at r 1) as G.
  { intros r. unfold slot_at. rewrite app_nth2, body_length by (rewrite body_length; lia). f_equal. lia. }
  rewrite G. change (slot_at (Str tag :: slot_of w :: _) 1) with (slot_of w).
  rewrite (firstn_at (body l1)) by (now rewrite body_length).
  remember (body l1) as b1 eqn:B1. remember (body l2) as b2 eqn:B2.
  assert (length b1 = 2 * length l1) as L1 by (subst; apply body_length). assert (length b2 = 2 * length l2) as L2 by (subst; apply body_length).
  replace (skipn (2 * length l1 + 2) (b1 ++ Str tag :: slot_of w :: b2 ++ [Null; Junk])) with (b2 ++ [Null; Junk]).
  2:{ replace (b1 ++ Str tag :: slot_of w :: b2 ++ [Null; Junk]) with ((b1 ++ [Str tag; slot_of w]) ++ b2 ++ [Null; Junk]) by (rewrite <- app_assoc; reflexivity).
      rewrite skipn_at; [reflexivity|rewrite app_length; cbn; lia]. }
  replace (2 * length l1 + 2 * S (length l2) - 2 * length l1) with (length (b2 ++ [Null; Junk])) by (rewrite app_length; cbn; lia). rewrite firstn_all.
  replace (skipn (2 * length l1 + 2 * S (length l2)) (b1 ++ Str tag :: slot_of w :: b2 ++ [Null; Junk])) with [Null; Junk].
  2:{ replace (b1 ++ Str tag :: slot_of w :: b2 ++ [Null; Junk]) with ((b1 ++ Str tag :: slot_of w :: b2) ++ [Null; Junk]) by (rewrite <- app_assoc; reflexivity).
      rewrite skipn_at; [reflexivity|rewrite app_length; cbn; lia]. }
  assert (forall n r, slot_at (resize (b1 ++ (b2 ++ [Null; Junk]) ++ r) n) (2 * length l1 + 2 * S (length l2) - 1) = Junk) as J.
  { intros n r. unfold resize. replace (2 * length l1 + 2 * S (length l2) - 1) with (length (b1 ++ b2 ++ [Null])) by (rewrite !app_length; cbn; lia).
    replace (b1 ++ (b2 ++ [Null; Junk]) ++ r) with ((b1 ++ b2 ++ [Null]) ++ Junk :: r) by (rewrite <- !app_assoc; reflexivity).
    remember (b1 ++ b2 ++ [Null]) as q. unfold slot_at. rewrite firstn_app. destruct (Nat.le_gt_cases n (length q)) as [K|K].
    - replace (n - length q) with 0 by lia. cbn [firstn]. rewrite app_nil_r. rewrite app_nth2 by (rewrite firstn_length; lia).
      assert (forall k m, nth k (repeat Junk m) Junk = Junk) as W by (induction k; intros [|m]; cbn; auto). apply W.
    - rewrite firstn_all2 by lia. destruct (n - length q) as [|m] eqn:M; [lia|]. cbn [firstn]. rewrite <- app_assoc, app_nth2 by lia. rewrite Nat.sub_diag. reflexivity. }
  rewrite J. destruct w; reflexivity.
Qed.
(** Looking up an attribute finds the value of the first pair with the tag, and only if there is none the default. *)
Theorem attribute_found d name a l tag : holds a l ->
  GetXMLTreeAttribute d name a tag = Ok (match value_of l tag with
    | Some v => slot_of v
    | None => match look name d with Some t => match look tag t with Some v => v | None => Null end | None => Null end
    end).
Proof.
  intros H. assert (exists r, slots a = body l ++ Null :: r) as (r & S) by (unfold holds in H; destruct l; subst a; eexists; reflexivity).
  unfold GetXMLTreeAttribute. rewrite S. destruct (value_of l tag) as [v|] eqn:V.
  - destruct (scan_present l tag v V) as (l1 & t & l2 & -> & -> & A & K). rewrite K. cbn [bind Nat.add]. rewrite body_app. cbn [body flat_map fst snd].
    rewrite <- app_assoc. unfold slot_at. rewrite app_nth2, body_length by (rewrite body_length; lia). replace (2 * length l1 + 1 - 2 * length l1) with 1 by lia. reflexivity.
  - rewrite scan_absent by exact V. cbn [bind]. destruct (look name d) as [t|]; [|reflexivity]. destruct (look tag t); reflexivity.
Qed.
(** What was set is found; other attributes are as before. *)
Theorem attribute_set_get d name a l tag v a' : holds a l -> SetXMLTreeAttribute a tag (Some v) = Ok a' ->
  GetXMLTreeAttribute d name a' tag = Ok (Str v) /\ forall u, u <> tag -> GetXMLTreeAttribute d name a' u = GetXMLTreeAttribute d name a u.
Proof.
  intros H S. destruct (value_of l tag) as [w|] eqn:V.
  - destruct (attribute_changed a l tag v H ltac:(congruence)) as (a2 & S' & H'). rewrite S in S'. injection S' as <-.
    split; [|intros u U]; rewrite (attribute_found d name a' _ _ H'); [|rewrite (attribute_found d name a _ _ H)].
    + replace (value_of (set_first l tag v) tag) with (Some (Some v)); [reflexivity|]. clear - V.
      induction l as [|[t x] l IH]; [discriminate|]. cbn [set_first value_of] in *. destruct (list_eq_dec N.eq_dec t tag) as [->|D]; cbn [value_of]; deq; try congruence. now apply IH.
    + replace (value_of (set_first l tag v) u) with (value_of l u); [reflexivity|]. clear - U.
      induction l as [|[t x] l IH]; [reflexivity|]. cbn [set_first value_of]. destruct (list_eq_dec N.eq_dec t tag) as [->|D]; cbn [value_of]; deq; try congruence; auto.
  - destruct l as [|p l].
    + destruct (attribute_first a tag v H) as (a2 & S' & H'). rewrite S in S'. injection S' as <-.
      split; [|intros u U]; rewrite (attribute_found d name a' _ _ H'); [|rewrite (attribute_found d name a _ _ H)]; cbn [value_of];
      deq; try congruence; reflexivity.
    + rewrite (attribute_second_refuted a (p :: l) tag v H ltac:(discriminate) V) in S. discriminate.
Qed.
Example attribute_example : exists a, SetXMLTreeAttribute Sentinel [97]%N (Some [49]%N) = Ok a /\ holds a [([97]%N, Some [49]%N)]
  /\ GetXMLTreeAttribute [] [120]%N a [97]%N = Ok (Str [49]%N)
  /\ (exists a', SetXMLTreeAttribute a [97]%N (Some [50]%N) = Ok a' /\ GetXMLTreeAttribute [] [120]%N a' [97]%N = Ok (Str [50]%N))
  /\ SetXMLTreeAttribute a [98]%N (Some [50]%N) = UB /\ SetXMLTreeAttribute a [97]%N None = UB /\ SetXMLTreeAttribute a [98]%N None = Ok a
  /\ GetXMLTreeAttribute [([120]%N, [([98]%N, Str [51]%N)])] [120]%N a [98]%N = Ok (Str [51]%N).
Proof. eexists. split; [reflexivity|]. repeat split. eexists. split; reflexivity. Qed.
Print Assumptions attribute_changed.
Print Assumptions attribute_first.
Print Assumptions attribute_none.
Print Assumptions attribute_second_refuted.
Print Assumptions attribute_remove_refuted.
Print Assumptions attribute_found.
Print Assumptions attribute_set_get.
