(** C171-C173: the configuration of the log. *)
From Coq Require Import NArith ZArith Bool String Lia ZifyBool ZifyNat ZifyN Arith Permutation List.
From Verif Require Import Base Outcome CStringModel CStringProps OptionModel OptionProps ArgvModel ArgvProps TokenModel TokenProps LocaleModel LocaleProps LogModel LimitModel LogCacheModel.
From Verif Require ScanModel ScanProof2 LimitProps LogProps.
Import ListNotations.

(** ** Specification: a file of log maps *)
(** an attribute; the lists of events and handlers are those of C27 and C129 *)
Inductive kind :=
| Events (i : item) (l : list item)
| Output (es : list LogProps.entry)
| Filename (v : list N)
| Format (v : list N)
| Generations (n : N)
| Limit (n : N)
| AllGenerations
| NoLimit
| Other (v : list N).
Definition known : list (list N) := [b "events"; b "filename"; b "format"; b "generations"; b "limit"; b "output"].
Definition key (a : kind) : list N :=
  match a with
  | Events _ _ => b "events" | Output _ => b "output" | Filename _ => b "filename" | Format _ => b "format"
  | Generations _ | AllGenerations => b "generations" | Limit _ | NoLimit => b "limit" | Other _ => []
  end.
Definition value (a : kind) : list N :=
  match a with
  | Events i l => joined (i :: l) | Output es => LogProps.listed es | Filename v | Format v | Other v => v
  | Generations n | Limit n => ScanModel.decimal n
  | AllGenerations | NoLimit => b "unlimited"
  end.
(** how it is written: the key in any case *)
Definition attr : Type := list N * kind.
Definition is_key (k : list N) : Prop :=
  (exists c w, k = c :: w /\ isalpha c = true) /\ Forall word_char k /\ ~ In 92%N k /\
  like (firstn 3 k) (b "inf") = false /\ like (firstn 3 k) (b "nan") = false.
Definition good_attr (E : nat) (a : attr) : Prop :=
  let '(k, a) := a in
  is_key k /\ length k + 2 < E /\ length (value a) < E /\ like (firstn 4 (value a)) (b "url(") = false /\
  match a with
  | Events i l => is_item WizardLogEventOptions false i /\ Forall (is_item WizardLogEventOptions true) l
  | Output es => es <> [] /\ Forall LogProps.entry_ok es
  | Generations n | Limit n => (n < 2 ^ 64)%N
  | _ => True
  end /\
  match a with Other _ => forall x, In x known -> like k x = false | _ => like k (key a) = true end.
Definition quoted (v : list N) : list N := 34%N :: escaped 34 v ++ [34%N].
Definition print_attr (a : attr) : list N := fst a ++ 61%N :: quoted (value (snd a)) ++ [32%N].
Definition print_element (sp : list N) (l : list attr) : list N := b "<log " ++ flat_map print_attr l ++ b "/>" ++ sp.
Definition print_map (sp : list N) (m : list (list attr)) : list N :=
  b "<logmap>" ++ sp ++ flat_map (print_element sp) m ++ b "</logmap>" ++ sp.
Definition log_file (sp : list N) (maps : list (list (list attr))) : list N :=
  b "<?xml version=" ++ quoted (b "1.0") ++ b "?>" ++ sp ++ flat_map (print_map sp) maps.
Definition good_file (E : nat) (maps : list (list (list attr))) : Prop := Forall (Forall (Forall (good_attr E))) maps.

(** what a map says: all its events and handlers, the last of its other attributes *)
Definition all_events (l : list kind) : Z := fold_right Z.lor 0%Z (map (fun a => match a with Events i l => fold_left Z.lor (map snd (i :: l)) 0%Z | _ => 0%Z end) l).
Definition all_handlers (l : list kind) : N := fold_right N.lor 0%N (map (fun a => match a with Output es => LogProps.masks es | _ => 0%N end) l).
Fixpoint last_of {A} (f : kind -> option A) (l : list kind) : option A :=
  match l with [] => None | a :: l => match last_of f l with Some x => Some x | None => f a end end.
Definition or {A} (d : A) (o : option A) : A := match o with Some x => x | None => d end.
Definition says (p : list N) (l : list kind) : log_info :=
  mkLog (all_events l) (all_handlers l) p None
    (last_of (fun a => match a with Filename v => Some v | _ => None end) l)
    (last_of (fun a => match a with Format v => Some v | _ => None end) l)
    (or 0%N (last_of (fun a => match a with Generations n => Some n | AllGenerations => Some (2 ^ 64 - 1)%N | _ => None end) l))
    (or 0%N (last_of (fun a => match a with Limit n => Some n | NoLimit => Some (2 ^ 64 - 1)%N | _ => None end) l))
    false.
Definition map_says (p : list N) (m : list (list attr)) : log_info := says p (map snd (concat m)).

(** ** One attribute *)
Definition adds (a : kind) (i : log_info) : log_info :=
  match a with
  | Events x l => set_events i (Z.lor (event_mask i) (fold_left Z.lor (map snd (x :: l)) 0%Z))
  | Output es => set_handlers i (N.lor (handler_mask i) (LogProps.masks es))
  | Filename v => set_filename i v
  | Format v => set_format i v
  | Generations n => set_generations i n
  | AllGenerations => set_generations i (2 ^ 64 - 1)%N
  | Limit n => set_limit i n
  | NoLimit => set_limit i (2 ^ 64 - 1)%N
  | Other _ => i
  end.
Lemma like_trans s t u : like s t = true -> like s u = like t u.
Proof.
  revert t u. induction s as [|c s IH]; intros [|d t] u H; cbn in H; try discriminate H; [reflexivity|].
  apply andb_true_iff in H as (H1 & H2). apply Z.eqb_eq in H1. destruct u as [|e u]; [reflexivity|]. cbn. rewrite H1. f_equal. now apply IH.
Qed.
Lemma decimal_not n : like (ScanModel.decimal n) (b "unlimited") = false.
Proof.
  destruct (ScanProof2.decimal_spec n) as (D & Ne & _). destruct (ScanModel.decimal n) as [|c r]; [contradiction|].
  inversion D as [|? ? Hc _]; subst. change (b "unlimited") with (117%N :: b "nlimited"). cbn [like].
  assert (X : (c < 128)%N) by (unfold ScanModel.isdigit in Hc; lia). rewrite (ascii_map_ascii c X). unfold CStringSpec.lower. unfold ScanModel.isdigit in Hc.
  replace ((65 <=? c)%N && (c <=? 90)%N) with false by lia. change (ascii_map 117) with 117%Z. replace (Z.of_N c =? 117)%Z with false by lia. reflexivity.
Qed.
Lemma attribute_ok E k a i : good_attr E (k, a) -> attribute i k (value a) = Ok (adds a i).
Proof.
  intros (_ & _ & _ & _ & V & K). unfold attribute. destruct a; cbn [key value adds] in *;
    try (rewrite !(like_trans _ _ _ K); repeat match goal with |- context [like (b ?x) (b ?y)] => let v := eval vm_compute in (like (b x) (b y)) in change (like (b x) (b y)) with v end; cbv iota).
  - destruct V as (V1 & V2). rewrite option_list by (try assumption; discriminate). reflexivity.
  - destruct V as (V1 & V2). rewrite LogProps.handlers_parsed by assumption. reflexivity.
  - reflexivity.
  - reflexivity.
  - unfold number. now rewrite decimal_not, LimitProps.strtoul_decimal.
  - unfold number. now rewrite decimal_not, LimitProps.strtoul_decimal.
  - reflexivity.
  - reflexivity.
  - rewrite !K by (cbn; tauto). reflexivity.
Qed.
Lemma says_fold p l : forall i, path i = p -> stealth i = false -> name i = None ->
  fold_left (fun i a => adds a i) l i =
  mkLog (Z.lor (event_mask i) (all_events l)) (N.lor (handler_mask i) (all_handlers l)) p None
    (match last_of (fun a => match a with Filename v => Some v | _ => None end) l with Some v => Some v | None => filename i end)
    (match last_of (fun a => match a with Format v => Some v | _ => None end) l with Some v => Some v | None => format i end)
    (or (generations i) (last_of (fun a => match a with Generations n => Some n | AllGenerations => Some (2 ^ 64 - 1)%N | _ => None end) l))
    (or (limit i) (last_of (fun a => match a with Limit n => Some n | NoLimit => Some (2 ^ 64 - 1)%N | _ => None end) l))
    false.
Proof.
  induction l as [|a l IH]; intros i P S0 Nn.
  - cbn. rewrite Z.lor_0_r, N.lor_0_r. destruct i; cbn in *; now subst.
  - cbn [fold_left]. rewrite IH by (destruct a; assumption). cbn [last_of]. unfold all_events, all_handlers. cbn [map fold_right].
    destruct a; cbn [adds event_mask handler_mask filename format generations limit set_events set_handlers set_filename set_format set_generations set_limit];
      rewrite ?Z.lor_0_l, ?N.lor_0_l, ?Z.lor_assoc, ?N.lor_assoc; f_equal;
      repeat match goal with |- context [last_of ?f l] => destruct (last_of f l) end; reflexivity.
Qed.
Lemma says_of p l : fold_left (fun i a => adds a i) l (fresh p) = says p l.
Proof.
  rewrite (says_fold p) by reflexivity. unfold says. cbn. f_equal; repeat match goal with |- context [last_of ?f l] => destruct (last_of f l) end; reflexivity.
Qed.

(** ** Turns of the loop *)
Lemma joined_key (k : list N) r x : like (firstn 3 k) (b x) = false -> b x = b "inf" \/ b x = b "nan" -> like (firstn 3 (k ++ 61%N :: r)) (b x) = false.
Proof.
  intros H X.
  assert (Y : forall c, In c (b x) -> (ascii_map 61 =? ascii_map c)%Z = false).
  { destruct X as [-> | ->]; intros c I; cbn in I; repeat (destruct I as [<-|I]; [reflexivity|]); contradiction. }
  destruct X as [X|X]; rewrite X in *; (destruct k as [|c1 [|c2 [|c3 k]]]; [..|exact H]); cbn [app firstn];
    match goal with |- like ?s (b ?y) = _ => let l := eval vm_compute in (b y) in change (b y) with l in * end; cbn [like];
    rewrite ?Y by (cbn; tauto); cbn [andb]; rewrite ?andb_false_r; try reflexivity; destruct r; cbn [firstn like]; rewrite ?andb_false_r; reflexivity.
Qed.
Lemma lt_solid r : starts_solid (60%N :: r).
Proof. cbn. unfold blank. cbn. lia. Qed.
Section Turns.
Variable E : nat.
Variable strtod : list N -> nat.
Variable here : list N.
Variable include : list N -> list log_info -> outcome (list log_info).
Hypothesis numbers : forall s, may_be_number s = false -> strtod s = 0.
Hypothesis E_big : 20 <= E.
Notation next := (GetNextToken E strtod E).
Notation turn := (LogCacheModel.turn E strtod here include).
Notation loop := (log_loop E strtod here include).

Lemma token_key k r : is_key k -> length k + 2 < E -> next (k ++ 61%N :: r) = Ok (k, 61%N :: r).
Proof.
  intros ((c & w & -> & C) & W & B & I & A) Le. inversion W as [|? ? W1 W2]; subst.
  apply (token_word E strtod E [] c w [] 61%N r); try (cbn in *; lia); try apply Forall_nil; try assumption.
  - intros X. apply B. now right.
  - apply numbers. change (c :: w ++ [] ++ 61%N :: r) with ((c :: w) ++ 61%N :: r). unfold may_be_number.
    pose proof (joined_key (c :: w) r "inf" I ltac:(now left)) as J1. pose proof (joined_key (c :: w) r "nan" A ltac:(now right)) as J2. rewrite J1, J2.
    cbn [app]. unfold isalpha in C. lia.
  - destruct (like (firstn 4 (c :: w)) (b "url(")) eqn:U; [|reflexivity]. apply (like_paren strtod) in U. exfalso. rewrite Forall_forall in W. apply W in U. apply U. cbn. tauto.
Qed.
Lemma token_slash s r : blanks s -> starts_solid r -> next (47%N :: 62%N :: s ++ r) = Ok ([47; 62]%N, r).
Proof.
  intros S0 R. unfold GetNextToken. rewrite spaces_off_stop by (unfold blank; cbn; lia). change (closing 47) with (@None N). cbv iota.
  change (47 =? 47)%N with true. cbv iota. unfold slash_token. change (62 =? 62)%N with true. cbn [orb].
  replace (0 <? E - 1) with true by lia. replace (1 <? E - 1) with true by lia. cbn [bind]. rewrite strip_url_not by reflexivity. cbn [bind].
  now rewrite spaces_off_app.
Qed.
(** words that start no element of the loop *)
Definition plain (t : list N) : Prop :=
  like (firstn 9 t) (b "<!DOCTYPE") = false /\ like (firstn 4 t) (b "<!--") = false /\ like t (b "<include") = false /\ like t (b "<logmap>") = false.
Lemma turn_outside q t q' cache : next q = Ok (t, q') -> t <> [] -> length t < E -> plain t ->
  turn q (None, cache) = Ok (Some (q', (None, cache))).
Proof.
  intros Q T Le (P1 & P2 & P3 & P4). unfold LogCacheModel.turn. rewrite Q. cbn [bind]. rewrite (firstn_all2 (n := E - 1)) by lia. rewrite P1, P2, P3, P4. now destruct t.
Qed.
Lemma turn_inside q t q' t2 q2 i cache : next q = Ok (t, q') -> t <> [] -> length t < E -> plain t -> like t (b "</logmap>") = false ->
  next q' = Ok (t2, q2) -> starts 61 t2 = false ->
  turn q (Some i, cache) = Ok (Some (q', (Some i, cache))).
Proof.
  intros Q T Le (P1 & P2 & P3 & P4) P5 Q2 T2. unfold LogCacheModel.turn. rewrite Q. cbn [bind]. rewrite (firstn_all2 (n := E - 1)) by lia. rewrite P1, P2, P3, P4, P5, Q2. cbn [bind]. rewrite T2. now destruct t.
Qed.
Lemma turn_map q st : turn (b "<logmap>" ++ q) st = Ok (Some (62%N :: q, (Some (fresh here), snd st))).
Proof.
  destruct st as (info, cache). unfold LogCacheModel.turn. change (b "<logmap>" ++ q) with (60%N :: b "logmap" ++ 62%N :: q).
  rewrite token_tag; [|exact numbers|repeat (apply Forall_cons; [unfold word_char; cbn; lia|]); apply Forall_nil|cbn; lia|cbn; lia].
  cbn [bind]. rewrite (firstn_all2 (n := E - 1)) by (cbn; lia).
  repeat match goal with |- context [like ?x (b ?l)] => let v := eval vm_compute in (like x (b l)) in change (like x (b l)) with v; cbv iota end. reflexivity.
Qed.
Lemma turn_end q i cache : turn (b "</logmap>" ++ q) (Some i, cache) = Ok (Some (62%N :: q, (None, cache ++ [i]))).
Proof.
  unfold LogCacheModel.turn. change (b "</logmap>" ++ q) with (60%N :: b "/logmap" ++ 62%N :: q).
  rewrite token_tag; [|exact numbers|repeat (apply Forall_cons; [unfold word_char; cbn; lia|]); apply Forall_nil|cbn; lia|cbn; lia].
  cbn [bind]. rewrite (firstn_all2 (n := E - 1)) by (cbn; lia).
  repeat match goal with |- context [like ?x (b ?l)] => let v := eval vm_compute in (like x (b l)) in change (like x (b l)) with v; cbv iota end. reflexivity.
Qed.
Lemma alpha_plain c w : isalpha c = true -> plain (c :: w) /\ like (c :: w) (b "</logmap>") = false.
Proof.
  intros C. pose proof (alpha_map c C) as A. unfold plain.
  assert (X : forall t, like (c :: w) (60%N :: t) = false) by (intros t; cbn [like]; change (ascii_map 60) with 60%Z; now replace (ascii_map c =? 60)%Z with false by lia).
  assert (Y : forall k t, like (firstn (S k) (c :: w)) (60%N :: t) = false) by (intros k t; cbn [firstn like]; change (ascii_map 60) with 60%Z; now replace (ascii_map c =? 60)%Z with false by lia).
  repeat split; first [apply Y | apply X].
Qed.
Lemma turn_attr a r i cache : good_attr E a -> starts_solid r ->
  turn (print_attr a ++ r) (Some i, cache) = Ok (Some (r, (Some (adds (snd a) i), cache))).
Proof.
  destruct a as (k, a). intros G R. pose proof G as (K & Lk & Lv & U & _). unfold print_attr, quoted. cbn [fst snd].
  rewrite <- !app_assoc. cbn [app]. rewrite <- !app_assoc. cbn [app].
  assert (Q2 : next (61%N :: 34%N :: escaped 34 (value a) ++ 34%N :: 32%N :: r) = Ok ([61%N], 34%N :: escaped 34 (value a) ++ 34%N :: 32%N :: r)).
  { change (61%N :: 34%N :: ?x) with (61%N :: [] ++ 34%N :: x). apply token_symbol; [exact numbers|cbn; tauto|lia|apply Forall_nil|cbn; unfold blank; cbn; lia]. }
  unfold LogCacheModel.turn. rewrite token_key by assumption. cbn [bind]. rewrite (firstn_all2 (n := E - 1)) by lia.
  pose proof K as ((c & w & Ek & C) & _). rewrite Ek. destruct (alpha_plain c w C) as ((P1 & P2 & P3 & P4) & P5). rewrite P1, P2, P3, P4, P5, Q2. cbn [bind].
  change (starts 61 [61%N]) with true. cbn [negb].
  assert (Q3 : next (34%N :: escaped 34 (value a) ++ 34%N :: 32%N :: r) = Ok (value a, r)).
  { apply (token_quoted E strtod E [] 34%N 34%N (value a) [32%N] r); try assumption; try apply Forall_nil; [exact blanks_32|now left]. }
  rewrite Q3. cbn [bind]. rewrite <- Ek. rewrite (attribute_ok E) by exact G. reflexivity.
Qed.
Lemma token_log r : starts_solid r -> next (b "<log " ++ r) = Ok (b "<log", r).
Proof.
  intros R. change (b "<log " ++ r) with (60%N :: b "log" ++ 32%N :: r). apply token_open; [exact numbers|discriminate|repeat (apply Forall_cons; [unfold word_char; cbn; lia|]); apply Forall_nil|cbn; lia|cbn; lia|exact R].
Qed.

(** ** The loop *)
Definition reach (q : list N) (st : option log_info * list log_info) (q' : list N) (st' : option log_info * list log_info) : Prop :=
  forall fuel, length q <= fuel -> exists fuel', length q' <= fuel' /\ loop fuel q st = loop fuel' q' st'.
Lemma reach_refl q st : reach q st q st.
Proof. intros fuel H. now exists fuel. Qed.
Lemma reach_trans q st q' st' q'' st'' : reach q st q' st' -> reach q' st' q'' st'' -> reach q st q'' st''.
Proof. intros H G fuel L. destruct (H fuel L) as (f1 & L1 & ->). exact (G f1 L1). Qed.
Lemma reach_turn q st q' st' : turn q st = Ok (Some (q', st')) -> length q' < length q -> reach q st q' st'.
Proof.
  intros T L fuel H. destruct fuel as [|fuel]; [lia|]. exists fuel. split; [lia|]. destruct q as [|c q]; [cbn in L; lia|]. cbn [log_loop]. rewrite T. reflexivity.
Qed.
Lemma solid_alpha c w r : isalpha c = true -> starts_solid ((c :: w) ++ r).
Proof. intros C. cbn. unfold isalpha in C. unfold blank. cbn. lia. Qed.
Lemma attr_solid a r : good_attr E a -> starts_solid (print_attr a ++ r).
Proof. destruct a as (k, a). intros (((c & w & -> & C) & _) & _). unfold print_attr. cbn [fst]. rewrite <- app_assoc. now apply solid_alpha. Qed.
Lemma attrs_solid l r : Forall (good_attr E) l -> starts_solid r -> starts_solid (flat_map print_attr l ++ r).
Proof. intros [|a l' G _] R; [exact R|]. cbn [flat_map]. rewrite <- app_assoc. now apply attr_solid. Qed.
Lemma reach_attrs l r : Forall (good_attr E) l -> starts_solid r -> forall i cache,
  reach (flat_map print_attr l ++ r) (Some i, cache) r (Some (fold_left (fun i a => adds (snd a) i) l i), cache).
Proof.
  intros G R. induction G as [|a l G GL IH]; intros i cache; [apply reach_refl|]. cbn [flat_map fold_left]. rewrite <- app_assoc.
  eapply reach_trans; [|apply IH]. apply reach_turn; [apply turn_attr; [exact G|now apply attrs_solid]|].
  assert (0 < length (print_attr a)) by (unfold print_attr; rewrite app_length; cbn [length]; lia). rewrite (app_length (print_attr a)). lia.
Qed.
(** what follows an element: a token that is no '=' *)
Definition follows (r : list N) : Prop := starts_solid r /\ exists t q, next r = Ok (t, q) /\ starts 61 t = false.
Lemma follows_attrs l r : Forall (good_attr E) l -> starts_solid r -> follows (b "<log " ++ flat_map print_attr l ++ r).
Proof. intros G R. split; [apply lt_solid|]. exists (b "<log"), (flat_map print_attr l ++ r). split; [apply token_log; now apply attrs_solid|reflexivity]. Qed.
Lemma follows_end r : follows (b "</logmap>" ++ r).
Proof.
  split; [apply lt_solid|]. change (b "</logmap>" ++ r) with (60%N :: b "/logmap" ++ 62%N :: r). eexists _, _. split.
  - apply token_tag; [exact numbers|repeat (apply Forall_cons; [unfold word_char; cbn; lia|]); apply Forall_nil|cbn; lia|cbn; lia].
  - reflexivity.
Qed.
Lemma slash_solid r : starts_solid (b "/>" ++ r).
Proof. cbn. unfold blank. cbn. lia. Qed.
Lemma reach_element sp l r i cache : blanks sp -> Forall (good_attr E) l -> follows r ->
  reach (print_element sp l ++ r) (Some i, cache) r (Some (fold_left (fun i a => adds (snd a) i) l i), cache).
Proof.
  intros Sp G (R & t & q & Q & T). unfold print_element. rewrite <- !app_assoc.
  assert (Sl : starts_solid (flat_map print_attr l ++ b "/>" ++ sp ++ r)) by (apply attrs_solid; [exact G|apply slash_solid]).
  assert (Sx : next (b "/>" ++ sp ++ r) = Ok ([47; 62]%N, r)) by (apply (token_slash sp r); assumption).
  eapply reach_trans.
  { assert (F : exists t2 q2, next (flat_map print_attr l ++ b "/>" ++ sp ++ r) = Ok (t2, q2) /\ starts 61 t2 = false).
    { destruct G as [|a l' G GL]; [exists [47; 62]%N, r; split; [exact Sx|reflexivity]|].
      cbn [flat_map]. destruct a as (k, a). unfold print_attr at 1. cbn [fst]. rewrite <- !app_assoc. cbn [app]. eexists _, _. destruct G as (K & Lk & _). split; [now apply token_key|].
      destruct K as ((c & w & -> & C) & _). cbn. unfold isalpha in C. lia. }
    destruct F as (t2 & q2 & Q2 & T2).
    apply reach_turn; [eapply turn_inside; [apply token_log; exact Sl|discriminate|cbn; lia|repeat split|reflexivity|exact Q2|exact T2]|rewrite (app_length (b "<log ")); cbn; lia]. }
  eapply reach_trans; [apply reach_attrs; [exact G|apply slash_solid]|].
  apply reach_turn; [eapply turn_inside; [exact Sx|discriminate|cbn; lia|repeat split|reflexivity|exact Q|exact T]|rewrite !app_length; cbn; lia].
Qed.
Lemma reach_elements sp m r cache : blanks sp -> Forall (Forall (good_attr E)) m -> follows r -> forall i,
  reach (flat_map (print_element sp) m ++ r) (Some i, cache) r (Some (fold_left (fun i a => adds (snd a) i) (concat m) i), cache) /\
  follows (flat_map (print_element sp) m ++ r).
Proof.
  intros Sp G R. induction G as [|l m G GL IH]; intros i; [split; [apply reach_refl|exact R]|].
  cbn [flat_map concat]. rewrite <- app_assoc, fold_left_app. destruct (IH (fold_left (fun i a => adds (snd a) i) l i)) as (I1 & I2). split.
  - eapply reach_trans; [apply reach_element; assumption|exact I1].
  - unfold print_element at 1. rewrite <- !app_assoc. apply follows_attrs; [exact G|apply slash_solid].
Qed.
Lemma fold_snd (l : list attr) : forall i, fold_left (fun i (a : attr) => adds (snd a) i) l i = fold_left (fun i a => adds a i) (map snd l) i.
Proof. induction l as [|a l IH]; intros i; [reflexivity|]. cbn. apply IH. Qed.
Lemma token_gt s r : blanks s -> starts_solid r -> next (62%N :: s ++ r) = Ok ([62%N], r).
Proof. intros S0 R. apply token_symbol; [exact numbers|cbn; tauto|lia|exact S0|exact R]. Qed.
Lemma reach_map sp m r cache : blanks sp -> Forall (Forall (good_attr E)) m -> starts_solid r ->
  reach (print_map sp m ++ r) (None, cache) r (None, cache ++ [map_says here m]).
Proof.
  intros Sp G R. unfold print_map. rewrite <- !app_assoc.
  set (z := b "</logmap>" ++ sp ++ r). assert (Z : follows z) by apply follows_end.
  destruct (reach_elements sp m z cache Sp G Z (fresh here)) as (I1 & I2).
  eapply reach_trans; [apply reach_turn; [apply turn_map|cbn; lia]|]. cbn [snd].
  eapply reach_trans.
  { destruct I2 as (S2 & t & q & Q & T).
    apply reach_turn; [eapply turn_inside; [apply token_gt; [exact Sp|exact S2]|discriminate|cbn; lia|repeat split|reflexivity|exact Q|exact T]|cbn [length]; rewrite (app_length sp); lia]. }
  eapply reach_trans; [exact I1|]. unfold z. rewrite fold_snd, says_of. fold (map_says here m).
  eapply reach_trans; [apply reach_turn; [apply turn_end|rewrite (app_length (b "</logmap>")); cbn; lia]|].
  apply reach_turn; [eapply turn_outside; [apply token_gt; assumption|discriminate|cbn; lia|repeat split]|cbn [length]; rewrite (app_length sp); lia].
Qed.
Lemma maps_solid sp maps : starts_solid (flat_map (print_map sp) maps).
Proof. destruct maps as [|m maps]; [exact I|]. cbn [flat_map]. unfold print_map. rewrite <- !app_assoc. apply lt_solid. Qed.
Lemma reach_maps sp maps : blanks sp -> good_file E maps -> forall cache,
  reach (flat_map (print_map sp) maps) (None, cache) [] (None, cache ++ map (map_says here) maps).
Proof.
  intros Sp G. induction G as [|m maps G GL IH]; intros cache; cbn [flat_map map]; [rewrite app_nil_r; apply reach_refl|].
  eapply reach_trans; [apply reach_map; [exact Sp|exact G|apply maps_solid]|]. change (map_says here m :: map (map_says here) maps) with ([map_says here m] ++ map (map_says here) maps).
  rewrite app_assoc. apply IH.
Qed.
Lemma reach_file sp maps cache : blanks sp -> good_file E maps ->
  reach (log_file sp maps) (None, cache) [] (None, cache ++ map (map_says here) maps).
Proof.
  intros Sp G. unfold log_file. pose proof (maps_solid sp maps) as R. set (z := flat_map (print_map sp) maps) in *.
  change (b "<?xml version=" ++ quoted (b "1.0") ++ b "?>" ++ sp ++ z)
    with (60%N :: b "?xml" ++ 32%N :: b "version" ++ 61%N :: 34%N :: escaped 34 (b "1.0") ++ 34%N :: 63%N :: 62%N :: sp ++ z).
  eapply reach_trans; [apply reach_turn; [eapply turn_outside; [apply token_open; [exact numbers|discriminate|repeat (apply Forall_cons; [unfold word_char; cbn; lia|]); apply Forall_nil|cbn; lia|cbn; lia|cbn; unfold blank; cbn; lia]|discriminate|cbn; lia|repeat split]|cbn; lia]|].
  eapply reach_trans; [apply reach_turn; [eapply turn_outside; [apply token_key; [|cbn; lia]|discriminate|cbn; lia|repeat split]|cbn; lia]|].
  { split; [now exists 118%N, (b "ersion")|]. split; [repeat (apply Forall_cons; [unfold word_char; cbn; lia|]); apply Forall_nil|]. split; [cbn; lia|]. split; reflexivity. }
  eapply reach_trans; [apply reach_turn; [eapply turn_outside; [apply (token_symbol E strtod E numbers 61%N []); [cbn; tauto|lia|apply Forall_nil|cbn; unfold blank; cbn; lia]|discriminate|cbn; lia|repeat split]|cbn; lia]|].
  eapply reach_trans; [apply reach_turn; [eapply turn_outside; [apply token_value; [cbn; lia|reflexivity|cbn; unfold blank; cbn; lia]|discriminate|cbn; lia|repeat split]|cbn; lia]|].
  eapply reach_trans; [apply reach_turn; [eapply turn_outside; [apply (token_symbol E strtod E numbers 63%N []); [cbn; tauto|lia|apply Forall_nil|cbn; unfold blank; cbn; lia]|discriminate|cbn; lia|repeat split]|cbn; lia]|].
  eapply reach_trans; [apply reach_turn; [eapply turn_outside; [apply token_gt; assumption|discriminate|cbn; lia|repeat split]|cbn [length]; rewrite (app_length sp); lia]|].
  now apply reach_maps.
Qed.
End Turns.

(** ** C171: the log is configured as the files say *)
Section Loaded.
Variable E : nat.
Variable strtod : list N -> nat.
Variable file : list N -> option (list N).
Variable place : list N -> list N -> outcome (list N).
Hypothesis numbers : forall s, may_be_number s = false -> strtod s = 0.
Hypothesis E_big : 20 <= E.
Notation Load := (LoadLogCache E strtod file place).
Notation Acquire := (AcquireLogCache E strtod file place).

(** every log map of a file is an entry with all its events and handlers and the last of its other attributes *)
Theorem log_loaded : forall rest here sp maps cache, blanks sp -> good_file E maps ->
  Load rest here (log_file sp maps) cache = Ok (cache ++ map (map_says here) maps).
Proof.
  intros rest here sp maps cache Sp G.
  assert (X : forall include, log_loop E strtod here include (S (length (log_file sp maps))) (log_file sp maps) (None, cache) = Ok (cache ++ map (map_says here) maps)).
  { intros include. destruct (reach_file E strtod here include numbers E_big sp maps cache Sp G (S (length (log_file sp maps))) ltac:(lia)) as (f & _ & Q). rewrite Q. now destruct f. }
  destruct rest; cbn [LoadLogCache]; apply X.
Qed.
(** a file: its path, the white space between its tags and its maps *)
Definition written : Type := list N * list N * list (list (list attr)).
Definition option_of (w : written) : list N * list N := let '(p, sp, maps) := w in (p, log_file sp maps).
Definition good_written (w : written) : Prop := let '(p, sp, maps) := w in blanks sp /\ good_file E maps.
Definition entries_of (w : written) : list log_info := let '(p, sp, maps) := w in map (map_says p) maps.
(** the entries are those of the files in their order, and the built-in one after them *)
Theorem log_acquired : forall ws, Forall good_written ws -> Acquire (map option_of ws) = Ok (flat_map entries_of ws ++ [built_in]).
Proof.
  intros ws G. unfold AcquireLogCache.
  assert (X : forall cache, load_files E strtod file place (map option_of ws) cache = Ok (cache ++ flat_map entries_of ws)).
  { induction G as [|((p, sp), maps) ws (G1 & G2) GL IH]; intros cache; cbn [map flat_map load_files option_of]; [now rewrite app_nil_r|].
    rewrite log_loaded by assumption. cbn [bind]. rewrite IH. now rewrite <- app_assoc. }
  rewrite X. reflexivity.
Qed.
(** the first map of the first file that has one is in effect; without any, no events go to the console *)
Theorem log_in_effect : forall ws cache, Forall good_written ws -> Acquire (map option_of ws) = Ok cache ->
  forall n, n = None \/ n = Some (b "*") ->
  GetLogInfo n cache = (Some (hd (mkLog 0 1 (b "[built-in]") None (Some (b "Magick-%g.log")) (Some (b "%t %r %u %v %d %c[%p]: %m/%f/%l/%d\n  %e")) 0 0 false)
                              (flat_map entries_of ws)), cache).
Proof.
  intros ws cache G Q n Hn. rewrite log_acquired in Q by exact G. injection Q as <-.
  destruct Hn as [-> | ->]; unfold GetLogInfo; [|change (like (b "*") (b "*")) with true; cbv iota]; destruct (flat_map entries_of ws); reflexivity.
Qed.
(** an event is written if and only if an event of this map has one of its bits *)
Definition items_of (a : kind) : list item := match a with Events i l => i :: l | _ => [] end.
Lemma fold_lor_testbit (l : list Z) k : forall z, (Z.testbit (fold_left Z.lor l z) k = Z.testbit z k || existsb (fun t => Z.testbit t k) l)%bool.
Proof. induction l as [|t l IH]; intros z; cbn [fold_left existsb]; [now rewrite orb_false_r|]. now rewrite IH, Z.lor_spec, orb_assoc. Qed.
Lemma all_events_testbit l k : Z.testbit (all_events l) k = existsb (fun i => Z.testbit (snd i) k) (flat_map items_of l).
Proof.
  assert (M : forall x : list item, existsb (fun t => Z.testbit t k) (map snd x) = existsb (fun i => Z.testbit (snd i) k) x) by (induction x as [|i x IHx]; [reflexivity|cbn [map existsb]; now rewrite IHx]).
  induction l as [|a l IH]; [apply Z.testbit_0_l|]. unfold all_events. cbn [map fold_right flat_map]. rewrite Z.lor_spec, existsb_app. match goal with |- context [fold_right Z.lor 0%Z ?m] => change (fold_right Z.lor 0%Z m) with (all_events l) end. rewrite IH. f_equal.
  destruct a; cbn [items_of]; try apply Z.testbit_0_l. rewrite fold_lor_testbit, Z.testbit_0_l. cbn [existsb orb]. now rewrite M.
Qed.
Lemma land_bit m k : (0 <= k)%Z -> negb (Z.land m (2 ^ k) =? 0)%Z = Z.testbit m k.
Proof.
  intros K. destruct (Z.testbit m k) eqn:T.
  - apply negb_true_iff, Z.eqb_neq. intros Q. assert (X : Z.testbit (Z.land m (2 ^ k)) k = true) by now rewrite Z.land_spec, T, Z.pow2_bits_true. rewrite Q, Z.testbit_0_l in X. discriminate.
  - apply negb_false_iff, Z.eqb_eq. apply Z.bits_inj'. intros j J. rewrite Z.land_spec, Z.testbit_0_l. destruct (Z.eq_dec k j) as [<-|Nk]; [now rewrite T|].
    rewrite Z.pow2_bits_false by congruence. apply andb_false_r.
Qed.
Theorem log_filters : forall p sp m maps ws cache k, (0 <= k)%Z -> Forall good_written ((p, sp, m :: maps) :: ws) ->
  Acquire (map option_of ((p, sp, m :: maps) :: ws)) = Ok cache ->
  logs cache (2 ^ k) = existsb (fun i => Z.testbit (snd i) k) (flat_map items_of (map snd (concat m))).
Proof.
  intros p sp m maps ws cache k K G Q. rewrite log_acquired in Q by exact G. injection Q as <-. unfold logs. cbn [flat_map entries_of map app].
  change (event_mask (map_says p m)) with (all_events (map snd (concat m))). rewrite land_bit by exact K. rewrite <- all_events_testbit.
  cbn [IsEventLogging]. change (event_mask (map_says p m)) with (all_events (map snd (concat m))).
  destruct (Z.eqb_spec (all_events (map snd (concat m))) 0) as [Z0|]; [rewrite Z0, Z.testbit_0_l|]; reflexivity.
Qed.

(** ** C172: nothing is found by its name *)
Definition nameless (cache : list log_info) : Prop := Forall (fun i => name i = None /\ stealth i = false) cache.
Lemma attribute_nameless i k v j : attribute i k v = Ok j -> name j = name i /\ stealth j = stealth i.
Proof.
  unfold attribute. destruct (like k (b "events")); [destruct (ParseWizardOption _ _ _); try discriminate; intros [= <-]; now split|].
  repeat (match goal with |- (if ?x then _ else _) = _ -> _ => destruct x end; [intros [= <-]; now split|]). intros [= <-]. now split.
Qed.
Section Invariant.
Variable here : list N.
Variable include : list N -> list log_info -> outcome (list log_info).
Hypothesis include_ok : forall t cache cache', nameless cache -> include t cache = Ok cache' -> nameless cache'.
Lemma include_nameless fuel : forall t q cache q' cache', nameless cache -> log_include E strtod include fuel t q cache = Ok (q', cache') -> nameless cache'.
Proof.
  induction fuel as [|fuel IH]; intros t q cache q' cache' C H; cbn [log_include] in H; destruct (_ && _); try discriminate; try (injection H as <- <-; exact C).
  destruct (GetNextToken E strtod E q) as [(t1, q1)| |]; try discriminate. cbn [bind] in H. destruct (negb _); [now apply (IH _ _ _ _ _ C H)|].
  destruct (GetNextToken E strtod E q1) as [(t2, q2)| |]; try discriminate. cbn [bind] in H. destruct (like _ _); [|now apply (IH _ _ _ _ _ C H)].
  destruct (include t2 cache) as [cache1| |] eqn:I; try discriminate. cbn [bind] in H. apply include_ok in I; [|exact C]. now apply (IH _ _ _ _ _ I H).
Qed.
Definition state_ok (st : option log_info * list log_info) : Prop :=
  match fst st with Some i => name i = None /\ stealth i = false | None => True end /\ nameless (snd st).
Lemma turn_nameless q st q' st' : state_ok st -> turn E strtod here include q st = Ok (Some (q', st')) -> state_ok st'.
Proof.
  destruct st as (info, cache). intros (I & C) H. cbn [fst snd] in *. unfold turn in H. destruct (GetNextToken E strtod E q) as [(t1, q1)| |]; try discriminate. cbn [bind] in H.
  destruct t1 as [|c1 t1]; [discriminate|]. set (kw := firstn (E - 1) (c1 :: t1)) in *.
  destruct (like (firstn 9 kw) _); [destruct (log_skip E strtod _ _ q1); try discriminate; injection H as <- <-; now split|].
  destruct (like (firstn 4 kw) _); [destruct (log_skip E strtod _ _ q1); try discriminate; injection H as <- <-; now split|].
  destruct (like kw (b "<include")).
  { destruct (log_include E strtod include _ _ q1 cache) as [(q2, cache2)| |] eqn:Il; try discriminate. cbn [bind] in H. injection H as <- <-. apply include_nameless in Il; [now split|exact C]. }
  destruct (like kw (b "<logmap>")); [injection H as <- <-; now repeat split|].
  destruct info as [i|]; [|injection H as <- <-; now split].
  destruct (like kw (b "</logmap>")); [injection H as <- <-; split; [exact Logic.I|]; cbn [snd]; apply Forall_app; split; [exact C|constructor; [exact I|constructor]]|].
  destruct (GetNextToken E strtod E q1) as [(t2, q2)| |]; try discriminate. cbn [bind] in H. destruct (negb _); [injection H as <- <-; now split|].
  destruct (GetNextToken E strtod E q2) as [(t3, q3)| |]; try discriminate. cbn [bind] in H.
  destruct (attribute i kw t3) as [j| |] eqn:A; try discriminate. cbn [bind] in H. injection H as <- <-. apply attribute_nameless in A. destruct A as (A1 & A2). split; [|exact C]. cbn [fst]. now rewrite A1, A2.
Qed.
Lemma loop_nameless fuel : forall q st cache', state_ok st -> log_loop E strtod here include fuel q st = Ok cache' -> nameless cache'.
Proof.
  induction fuel as [|fuel IH]; intros q st cache' S0 H; destruct q as [|c q]; cbn [log_loop] in H; try discriminate; try (injection H as <-; apply S0).
  destruct (turn E strtod here include (c :: q) st) as [[(q', st')|]| |] eqn:T; try discriminate; cbn [bind] in H.
  - apply turn_nameless in T; [|exact S0]. now apply (IH _ _ _ T H).
  - injection H as <-. apply S0.
Qed.
End Invariant.
Lemma load_nameless rest : forall here xml cache cache', nameless cache -> Load rest here xml cache = Ok cache' -> nameless cache'.
Proof.
  induction rest as [|rest IH]; intros here xml cache cache' C H; cbn [LoadLogCache] in H; eapply loop_nameless; try exact H; try (split; [exact Logic.I|exact C]).
  - intros t c c' C1 [= <-]. exact C1.
  - cbv beta. intros t c c' C1 H1. destruct (place here t) as [p| |]; try discriminate. cbn [bind] in H1. destruct (file p) as [x|]; [now apply (IH _ _ _ _ C1 H1)|injection H1 as <-; exact C1].
Qed.
(** whatever the files contain, no log has a name *)
Lemma acquired_nameless options cache : Acquire options = Ok cache -> nameless cache /\ cache <> [].
Proof.
  unfold AcquireLogCache. destruct (load_files _ _ _ _ options []) as [c| |] eqn:Q; try discriminate. cbn [bind]. intros [= <-].
  split; [|destruct c; discriminate]. apply Forall_app. split; [|repeat constructor].
  assert (X : forall c0, nameless c0 -> load_files E strtod file place options c0 = Ok c -> nameless c).
  { clear Q. revert c. induction options as [|(p, xml) options IH]; intros c c0 C H; cbn [load_files] in H; [now injection H as <-|].
    destruct (Load 201 p xml c0) as [c1| |] eqn:Q1; try discriminate. cbn [bind] in H. apply load_nameless in Q1; [|exact C]. now apply (IH c c1). }
  apply (X []); [constructor|exact Q].
Qed.
(** so a log is never found by its name, *)
Theorem log_named_refuted : forall options cache n, Acquire options = Ok cache -> like n (b "*") = false -> GetLogInfo (Some n) cache = (None, cache).
Proof.
  intros options cache n Q Hn. apply acquired_nameless in Q as (Q & _). unfold GetLogInfo. rewrite Hn.
  assert (X : forall before, find_log n before cache = None); [|now rewrite X].
  induction Q as [|i cache (Ni & _) _ IH]; intros before; [reflexivity|]. cbn [find_log]. unfold named. rewrite Ni. apply IH.
Qed.
(** the lists are read through a null pointer for every pattern but the empty one and '*', *)
Theorem log_pattern_refuted : forall glob sort sort_names options cache pattern, Acquire options = Ok cache -> pattern <> [] -> like pattern (b "*") = false ->
  GetLogInfoList glob sort pattern cache = UB /\ GetLogList glob sort_names pattern cache = UB.
Proof.
  intros glob sort sort_names options cache pattern Q P1 P2. apply acquired_nameless in Q as (Q & NE). destruct cache as [|i cache]; [contradiction|]. inversion Q as [|? ? (Ni & Si) _]; subst.
  unfold GetLogInfoList, GetLogList. cbn [select]. rewrite Si, Ni. cbn [matches]. destruct pattern; [contradiction|]. cbn [at_nul orb]. rewrite P2. now split.
Qed.
(** and the list of all names is a list of empty texts *)
Theorem log_list_refuted : forall glob sort_names options cache, Acquire options = Ok cache ->
  (forall l, Permutation.Permutation (sort_names l) l) -> exists l, GetLogList glob sort_names (b "*") cache = Ok l /\ length l = length cache /\ Forall (fun n => n = []) l.
Proof.
  intros glob sort_names options cache Q P. apply acquired_nameless in Q as (Q & _).
  assert (X : select glob (b "*") cache = Ok cache).
  { induction Q as [|i cache (Ni & Si) _ IH]; [reflexivity|]. cbn [select]. rewrite Si, Ni, IH. reflexivity. }
  unfold GetLogList. rewrite X. cbn [bind]. eexists. split; [reflexivity|]. set (m := map _ cache). split.
  - rewrite (Permutation.Permutation_length (P m)). unfold m. apply map_length.
  - rewrite (P m). unfold m. clear X. induction Q as [|i cache (Ni & _) _ IH]; [constructor|]. cbn [map]. rewrite Ni. constructor; [reflexivity|exact IH].
Qed.
End Loaded.

(** ** C173: masks and handlers *)
Lemma land_ones t : (t <> 0)%Z -> negb (Z.land (-1) t =? 0)%Z = true.
Proof. intros T. rewrite Z.land_m1_l. apply negb_true_iff, Z.eqb_neq. exact T. Qed.
(** the mask is set to all events that are named *)
Theorem log_mask_set : forall x l i cache, is_item WizardLogEventOptions false x -> Forall (is_item WizardLogEventOptions true) l ->
  exists m cache', SetLogEventMask (joined (x :: l)) (i :: cache) = Ok (m, cache') /\
    (forall k, (0 <= k)%Z -> logs cache' (2 ^ k) = existsb (fun y => Z.testbit (snd y) k) (x :: l)) /\
    List.tl cache' = cache /\ forall f, format (hd f cache') = format i /\ handler_mask (hd f cache') = handler_mask i /\ filename (hd f cache') = filename i.
Proof.
  intros x l i cache X L. unfold SetLogEventMask. rewrite option_list by (try assumption; discriminate). cbn [bind].
  set (m := fold_left Z.lor (map snd (x :: l)) 0%Z).
  assert (M : (0 <= m)%Z).
  { assert (P : forall y, In y (x :: l) -> (0 <= snd y)%Z).
    { intros y Hy. assert (Y : exists c, is_item WizardLogEventOptions c y) by (destruct Hy as [<-|Hy]; [now exists false|exists true; rewrite Forall_forall in L; now apply L]).
      destruct Y as (c & Y). destruct y as ((s, n), t). destruct Y as (_ & _ & n0 & In0 & _). cbn [snd].
      change (GetOptionInfo WizardLogEventOptions) with LogWizardEventOptions in In0. cbn in In0. repeat (destruct In0 as [[= _ <-]|In0]; [lia|]). contradiction. }
    unfold m. assert (Q : forall (l : list Z) z, (0 <= z)%Z -> (forall t, In t l -> (0 <= t)%Z) -> (0 <= fold_left Z.lor l z)%Z).
    { induction l0 as [|t l0 IH]; intros z Hz H; [exact Hz|]. cbn [fold_left]. apply IH; [apply Z.lor_nonneg; split; [exact Hz|apply H; now left]|intros u Hu; apply H; now right]. }
    apply Q; [lia|]. intros t Ht. apply in_map_iff in Ht as (y & <- & Hy). now apply P. }
  replace (m =? -1)%Z with false by lia. do 2 eexists. split; [reflexivity|]. split; [|repeat split].
  intros k K. unfold logs. cbn [IsEventLogging event_mask set_events]. rewrite land_bit by exact K.
  assert (T : Z.testbit m k = existsb (fun y => Z.testbit (snd y) k) (x :: l)).
  { unfold m. rewrite fold_lor_testbit, Z.testbit_0_l. cbn [orb]. generalize (x :: l). intros y. induction y as [|z y IH]; [reflexivity|]. cbn [map existsb]. now rewrite IH. }
  rewrite <- T. destruct (Z.eqb_spec m 0) as [->|]; [now rewrite Z.testbit_0_l|reflexivity].
Qed.
(** it is not the mask before that is returned, but the new one *)
Theorem log_mask_refuted : forall events cache m cache', SetLogEventMask events cache = Ok (m, cache') -> exists i rest, cache' = i :: rest /\ m = event_mask i.
Proof.
  intros events cache m cache'. unfold SetLogEventMask. destruct (ParseWizardOption _ _ _); try discriminate. cbn [bind]. destruct cache as [|i cache]; [discriminate|].
  intros [= <- <-]. do 2 eexists. split; reflexivity.
Qed.
(** a name that is no event turns on all events if it is in a file, and none if it is given to SetLogEventMask *)
Theorem log_unknown_refuted : forall v i cache k, ParseWizardOption WizardLogEventOptions true v = Ok (-1)%Z -> like k (b "events") = true ->
  (exists j, attribute i k v = Ok j /\ forall t, (t <> 0)%Z -> logs (j :: cache) t = true) /\
  (exists cache', SetLogEventMask v (i :: cache) = Ok (0%Z, cache') /\ forall t, logs cache' t = false).
Proof.
  intros v i cache k P K. split.
  - unfold attribute. rewrite K, P. cbn [bind]. eexists. split; [reflexivity|]. intros t T. unfold logs. cbn [IsEventLogging event_mask set_events]. rewrite Z.lor_m1_r.
    change (-1 =? 0)%Z with false. cbn [negb andb]. now apply land_ones.
  - unfold SetLogEventMask. rewrite P. cbn [bind]. change (-1 =? -1)%Z with true. cbv iota. eexists. split; [reflexivity|]. intros t. reflexivity.
Qed.
(** an attribute without events is undefined behaviour *)
Theorem log_no_events_refuted : forall i k, like k (b "events") = true -> attribute i k [] = UB.
Proof. intros i k K. unfold attribute. rewrite K. rewrite option_empty_refuted by discriminate. reflexivity. Qed.
(** the names of the handlers in a mask *)
Definition in_mask (mask : N) : list (list N) := map (fun h => b (fst h)) (filter (fun h => negb (snd h =? 0)%N && (N.land mask (snd h) =? snd h)%N) LogHandlers).
(** the listing names the handlers of a log only if it has neither stdout nor debug, and stderr and event together or none of them *)
Theorem log_handlers_refuted : forall mask, (mask < 64)%N -> (handler_names 0 LogHandlers mask = in_mask mask <-> N.land mask 18 = 0%N /\ N.testbit mask 2 = N.testbit mask 5).
Proof.
  intros mask M. assert (T : forallb (fun m => Bool.eqb (if list_eq_dec (list_eq_dec N.eq_dec) (handler_names 0 LogHandlers m) (in_mask m) then true else false) ((N.land m 18 =? 0)%N && Bool.eqb (N.testbit m 2) (N.testbit m 5))) (map N.of_nat (seq 0 64)) = true) by (vm_compute; reflexivity).
  assert (X : In mask (map N.of_nat (seq 0 64))) by (apply in_map_iff; exists (N.to_nat mask); split; [apply N2Nat.id|apply in_seq; lia]).
  apply (proj1 (forallb_forall _ _) T) in X. apply eqb_prop in X. destruct (list_eq_dec _ _ _) as [Q|Q]; split; intros H; try assumption; try contradiction.
  - symmetry in X. apply andb_true_iff in X as (X1 & X2). split; [now apply N.eqb_eq|now apply eqb_prop].
  - destruct H as (H1 & H2). rewrite H1, H2, eqb_reflx in X. discriminate X.
Qed.
Example handlers_wrong : handler_names 0 LogHandlers 2 = [b "debug"] /\ in_mask 2 = [b "stdout"].
Proof. split; reflexivity. Qed.
(** and the handlers of the second log of a file are not listed at all *)
Theorem log_second_refuted : forall g9 g8 i j h last, stealth j = false -> like (path i) (path j) = true ->
  list_logs g9 g8 (Some (path i)) (j :: last) = list_logs g9 g8 (Some (path i)) (set_handlers j h :: last).
Proof. intros g9 g8 i j h last Sj P. cbn [list_logs stealth set_handlers path]. rewrite Sj, P. reflexivity. Qed.

(** ** Examples *)
Definition no_numbers : list N -> nat := fun _ => 0.
Definition attr_events : attr := (b "events", Events ([], b "Blob", 4%Z) [(b ",", b "trace", 1%Z)]).
Definition attr_output : attr := (b "OUTPUT", Output [{| LogProps.blanks := []; LogProps.spelled := b "File"; LogProps.name := "file"; LogProps.mask := 8 |}]).
Definition example_maps : list (list (list attr)) :=
  [[[attr_events]; [attr_output; (b "limit", Limit 2000)]; [(b "filename", Filename (b "a-%g.log")); (b "color", Other (b "red"))]; [(b "generations", AllGenerations)]]].
Example good_example : good_file 40 example_maps.
Proof.
  assert (K : forall k, In k [b "events"; b "OUTPUT"; b "limit"; b "filename"; b "color"; b "generations"] -> is_key k).
  { intros k H. cbn [In] in H. repeat (destruct H as [<-|H]; [split; [do 2 eexists; split; reflexivity|]; split; [repeat (apply Forall_cons; [unfold word_char; cbn; lia|]); apply Forall_nil|]; split; [cbn; lia|]; split; reflexivity|]). contradiction. }
  assert (I4 : is_item WizardLogEventOptions false ([], b "Blob", 4%Z)).
  { split; [reflexivity|]. split; [discriminate|]. exists (b "Blob"). split; [right; left; reflexivity|split; [vm_compute; repeat (apply Forall_cons; [split; discriminate || reflexivity|]); apply Forall_nil|reflexivity]]. }
  assert (I1 : is_item WizardLogEventOptions true (b ",", b "trace", 1%Z)).
  { split; [reflexivity|]. split; [now left|]. exists (b "Trace"). split; [do 8 right; left; reflexivity|split; [vm_compute; repeat (apply Forall_cons; [split; discriminate || reflexivity|]); apply Forall_nil|reflexivity]]. }
  unfold example_maps. repeat (apply Forall_cons || apply Forall_nil); cbn [good_attr attr_events attr_output];
    (split; [apply K; cbn; tauto|]); (split; [cbn; lia|]); (split; [vm_compute; lia|]); (split; [reflexivity|]); (split; [|try reflexivity]); try exact Logic.I; try (cbn; lia).
  - split; [exact I4|apply Forall_cons; [exact I1|apply Forall_nil]].
  - split; [discriminate|]. apply Forall_cons; [split; [apply Forall_nil|split; [do 3 right; left; reflexivity|reflexivity]]|apply Forall_nil].
  - intros x Hx. cbn in Hx. repeat (destruct Hx as [<-|Hx]; [reflexivity|]). contradiction.
Qed.
Example loaded_example : LoadLogCache 40 no_numbers (fun _ => None) (fun _ t => Ok t) 201 (b "log.xml") (log_file [10%N] example_maps) [] =
  Ok [mkLog 5 8 (b "log.xml") None (Some (b "a-%g.log")) None (2 ^ 64 - 1) 2000 false].
Proof. vm_compute. reflexivity. Qed.
(** config/log.xml without its comment and document type *)
Example shipped_example : LoadLogCache 60 no_numbers (fun _ => None) (fun _ t => Ok t) 201 (b "log.xml")
  (b "<?xml version=""1.0"" encoding=""UTF-8""?><!DOCTYPE logmap [ <!ELEMENT logmap (log+)> <!ATTLIST log limit CDATA #IMPLIED> ]> <!-- %c   client --> <logmap>
  <log events=""None"" />
  <log output=""console"" />
  <log filename=""Magick-%g.log"" />
  <log generations=""3"" />
  <log limit=""2000"" />
  <log format=""%t %r %u %v %d %c[%p]: %m/%f/%l/%d\n  %e""  />
</logmap>") [] = Ok [mkLog 0 1 (b "log.xml") None (Some (b "Magick-%g.log")) (Some (b "%t %r %u %v %d %c[%p]: %m/%f/%l/%d\n  %e")) 3 2000 false].
Proof. vm_compute. reflexivity. Qed.
Example misspelled_example : ParseWizardOption WizardLogEventOptions true (b "Trase") = Ok (-1)%Z /\
  match AcquireLogCache 60 no_numbers (fun _ => None) (fun _ t => Ok t) [(b "log.xml", b "<logmap><log events=""Trase"" name=""x"" /></logmap>")] with
  | Ok cache => logs cache 4 = true /\ logs cache 8192 = true /\ GetLogInfo (Some (b "x")) cache = (None, cache)
  | _ => False
  end.
Proof. vm_compute. repeat split. Qed.
Print Assumptions log_loaded.
Print Assumptions log_acquired.
Print Assumptions log_in_effect.
Print Assumptions log_filters.
Print Assumptions log_mask_set.
Print Assumptions log_named_refuted.
Print Assumptions log_pattern_refuted.
Print Assumptions log_list_refuted.
Print Assumptions log_mask_refuted.
Print Assumptions log_unknown_refuted.
Print Assumptions log_no_events_refuted.
Print Assumptions log_handlers_refuted.
Print Assumptions log_second_refuted.
