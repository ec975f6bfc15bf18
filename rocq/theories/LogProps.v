(** C126-C129: the texts of the log, its files and its handlers. *)
From Coq Require Import NArith ZArith Lia ZifyBool ZifyNat ZifyN Bool String Arith List.
From Verif Require Import Base Outcome CStringModel OptionModel ArgvModel TokenModel LogModel.
Import ListNotations.

(** ** Specification of formats *)
Inductive piece := Plain (c : N) | Slash (c : N) | Newline | Return | Percent | Field (d : N) | Unknown (d : N).
Definition piece_text (p : piece) : list N :=
  match p with
  | Plain c => [c] | Slash c => [92; c]%N | Newline => b "\n" | Return => b "\r" | Percent => b "%%" | Field d => [37%N; d] | Unknown d => [37%N; d]
  end.
Definition piece_value (item : N -> option (list N)) (p : piece) : list N :=
  match p with
  | Plain c => [c] | Slash c => [92; c]%N | Newline => [10%N] | Return => [13%N] | Percent => [37%N] | Unknown d => [37%N; d]
  | Field d => match item d with Some t => t | None => [] end
  end.
(** the pieces of the format of events, and those of file names *)
Definition piece_ok (item : N -> option (list N)) (escapes : bool) (p : piece) : Prop :=
  match p with
  | Plain c => c <> 37%N /\ (escapes = true -> c <> 92%N)
  | Slash c => escapes = true /\ ~ In c [37; 92; 110; 114]%N
  | Newline | Return => escapes = true
  | Percent => True
  | Field d => item d <> None
  | Unknown d => item d = None /\ d <> 37%N
  end.

(** ** Proofs *)
Section Translate.
Variable P : nat.
Variable item : N -> option (list N).
Hypothesis P_big : 3 <= P.
Hypothesis item_short : forall d t, item d = Some t -> length t < P.

Definition room (out : list N) (extent alloc : nat) : Prop := length out < extent /\ extent <= alloc.

Lemma grow_room out extent alloc : room out extent alloc ->
  let grow := extent <=? length out + P in
  let extent' := if grow then extent + P else extent in
  let alloc' := if grow then extent' + P else alloc in
  length out + P < extent' /\ extent' <= alloc' /\ P + 1 <= extent'.
Proof. intros (A & B). cbv zeta. destruct (Nat.leb_spec extent (length out + P)); lia. Qed.
Lemma put_char_room out extent alloc c : length out + P < extent -> extent <= alloc -> put_char alloc out c = Ok (out ++ [c]) /\ room (out ++ [c]) extent alloc.
Proof.
  intros A B. unfold put_char, room. destruct (Nat.ltb_spec (length out) alloc); [|lia]. rewrite app_length. cbn. split; [reflexivity|lia].
Qed.
Lemma put_two_room out extent alloc c d : length out + P < extent -> extent <= alloc ->
  bind (put_char alloc out c) (fun out => put_char alloc out d) = Ok (out ++ [c; d]) /\ room (out ++ [c; d]) extent alloc.
Proof.
  intros A B. unfold put_char, room. destruct (Nat.ltb_spec (length out) alloc); [|lia]. cbn [bind]. rewrite app_length. cbn [length].
  destruct (Nat.ltb_spec (length out + 1) alloc); [|lia]. rewrite <- app_assoc, app_length. cbn. split; [reflexivity|lia].
Qed.
Lemma put_text_room out extent alloc t : length out + P < extent -> extent <= alloc -> P + 1 <= extent -> length t < P ->
  put_text alloc extent out t = Ok (out ++ t) /\ room (out ++ t) extent alloc.
Proof.
  intros A B C D. unfold put_text, copied, room. destruct (Nat.ltb_spec (length out + Nat.min (length t) (extent - 1)) alloc); [|lia].
  destruct (Nat.ltb_spec (length t) (extent - 1)); [|lia]. rewrite app_length. split; [reflexivity|lia].
Qed.

(** one step, by the first byte *)
Lemma translate_plain escapes c f out extent alloc : room out extent alloc -> c <> 37%N ->
  (escapes = true -> c = 92%N -> match f with d :: _ => d <> 110%N /\ d <> 114%N | [] => True end) ->
  exists e a, room (out ++ [c]) e a /\ translate P item escapes (c :: f) out extent alloc = translate P item escapes f (out ++ [c]) e a.
Proof.
  intros R C37 C92. destruct (grow_room out extent alloc R) as (G1 & G2 & G3). destruct R as (R1 & R2).
  cbn [translate]. destruct (Nat.ltb_spec (length out) alloc); [|lia]. cbn [negb]. cbv zeta in *.
  remember (if extent <=? length out + P then extent + P else extent) as e eqn:Ee. remember (if extent <=? length out + P then e + P else alloc) as a eqn:Ea.
  destruct (put_char_room out e a c G1 G2) as (PC & R'). exists e, a. split; [exact R'|].
  assert (X37 : (c =? 37)%N = false) by (now apply N.eqb_neq).
  destruct f as [|d f].
  - rewrite X37, PC. reflexivity.
  - assert (X : escapes && (c =? 92)%N && (d =? 114)%N = false /\ escapes && (c =? 92)%N && (d =? 110)%N = false).
    { destruct escapes; [|now split]. destruct (N.eqb_spec c 92) as [->|]; [|now split]. destruct (C92 eq_refl eq_refl) as (Y1 & Y2).
      destruct (N.eqb_spec d 114), (N.eqb_spec d 110); try contradiction; now split. }
    destruct X as (-> & ->). rewrite X37, PC. reflexivity.
Qed.
Lemma translate_escape c f out extent alloc : room out extent alloc -> In c [110; 114]%N ->
  exists e a, room (out ++ [if (c =? 114)%N then 13 else 10]%N) e a /\
    translate P item true (92%N :: c :: f) out extent alloc = translate P item true f (out ++ [if (c =? 114)%N then 13 else 10]%N) e a.
Proof.
  intros R C. destruct (grow_room out extent alloc R) as (G1 & G2 & G3). destruct R as (R1 & R2).
  cbn [translate]. destruct (Nat.ltb_spec (length out) alloc); [|lia]. cbn [negb]. cbv zeta in *.
  remember (if extent <=? length out + P then extent + P else extent) as e eqn:Ee. remember (if extent <=? length out + P then e + P else alloc) as a eqn:Ea.
  destruct (put_char_room out e a (if (c =? 114)%N then 13 else 10)%N G1 G2) as (PC & R'). exists e, a. split; [exact R'|].
  cbn in C. destruct C as [<-|[<-|[]]]; cbn in PC |- *; rewrite PC; reflexivity.
Qed.
Lemma translate_percent escapes d f out extent alloc : room out extent alloc ->
  exists e a v, v = match item d with Some t => t | None => if (d =? 37)%N then [37%N] else [37%N; d] end /\ room (out ++ v) e a /\
    translate P item escapes (37%N :: d :: f) out extent alloc = translate P item escapes f (out ++ v) e a.
Proof.
  intros R. destruct (grow_room out extent alloc R) as (G1 & G2 & G3). destruct R as (R1 & R2).
  cbn [translate]. destruct (Nat.ltb_spec (length out) alloc); [|lia]. cbn [negb]. cbv zeta in *.
  remember (if extent <=? length out + P then extent + P else extent) as e eqn:Ee. remember (if extent <=? length out + P then e + P else alloc) as a eqn:Ea.
  change (37 =? 92)%N with false. rewrite andb_false_r. cbn [andb]. change (37 =? 37)%N with true. cbv iota.
  exists e, a. destruct (item d) as [t|] eqn:It.
  - destruct (put_text_room out e a t G1 G2 G3 (item_short d t It)) as (PT & R'). exists t. rewrite PT. split; [reflexivity|split; [exact R'|reflexivity]].
  - destruct (d =? 37)%N.
    + destruct (put_char_room out e a 37%N G1 G2) as (PC & R'). exists [37%N]. rewrite PC. split; [reflexivity|split; [exact R'|reflexivity]].
    + destruct (put_two_room out e a 37%N d G1 G2) as (PC & R'). exists [37%N; d]. split; [reflexivity|split; [exact R'|]].
      destruct (put_char a out 37) as [out'| |]; cbn [bind] in *; try discriminate PC. now rewrite PC.
Qed.

Lemma translate_pieces escapes ps : item 37%N = None -> Forall (piece_ok item escapes) ps -> forall out extent alloc, room out extent alloc ->
  translate P item escapes (flat_map piece_text ps) out extent alloc = Ok (out ++ flat_map (piece_value item) ps).
Proof.
  intros I37. induction ps as [|p ps IH]; intros F out extent alloc R.
  - cbn [flat_map translate]. destruct R as (R1 & R2). destruct (Nat.ltb_spec (length out) alloc); [|lia]. now rewrite app_nil_r.
  - inversion F as [|? ? Ok F']; subst. specialize (IH F'). cbn [flat_map]. destruct p; cbn [piece_text piece_value piece_ok] in *.
    + destruct Ok as (C37 & C92). destruct (translate_plain escapes c (flat_map piece_text ps) out extent alloc R C37) as (e & a & R' & E);
        [intros T T'; exfalso; exact (C92 T T')|]. cbn [app]. rewrite E, IH by exact R'. now rewrite <- app_assoc.
    + destruct Ok as (-> & C). cbn in C. cbn [app].
      destruct (translate_plain true 92 (c :: flat_map piece_text ps) out extent alloc R ltac:(lia)) as (e & a & R' & E); [intros _ _; lia|].
      destruct (translate_plain true c (flat_map piece_text ps) (out ++ [92%N]) e a R' ltac:(lia)) as (e' & a' & R'' & E'); [intros _ ?; lia|].
      rewrite E, E', IH by exact R''. now rewrite <- !app_assoc.
    + subst escapes. destruct (translate_escape 110 (flat_map piece_text ps) out extent alloc R ltac:(now left)) as (e & a & R' & E).
      change (if (110 =? 114)%N then 13%N else 10%N) with 10%N in R', E. change (b "\n" ++ flat_map piece_text ps) with (92 :: 110 :: flat_map piece_text ps)%N. rewrite E, IH by exact R'. now rewrite <- app_assoc.
    + subst escapes. destruct (translate_escape 114 (flat_map piece_text ps) out extent alloc R ltac:(right; now left)) as (e & a & R' & E).
      change (if (114 =? 114)%N then 13%N else 10%N) with 13%N in R', E. change (b "\r" ++ flat_map piece_text ps) with (92 :: 114 :: flat_map piece_text ps)%N. rewrite E, IH by exact R'. now rewrite <- app_assoc.
    + destruct (translate_percent escapes 37 (flat_map piece_text ps) out extent alloc R) as (e & a & v & Ev & R' & E). rewrite I37 in Ev. cbn in Ev. subst v.
      change (b "%%" ++ flat_map piece_text ps) with (37 :: 37 :: flat_map piece_text ps)%N. rewrite E, IH by exact R'. now rewrite <- app_assoc.
    + destruct (translate_percent escapes d (flat_map piece_text ps) out extent alloc R) as (e & a & v & Ev & R' & E). cbn [app].
      destruct (item d) as [t|]; [|contradiction]. subst v. rewrite E, IH by exact R'. now rewrite <- app_assoc.
    + destruct Ok as (In & Nd). destruct (translate_percent escapes d (flat_map piece_text ps) out extent alloc R) as (e & a & v & Ev & R' & E). cbn [app].
      rewrite In in Ev. apply N.eqb_neq in Nd. rewrite Nd in Ev. subst v. rewrite E, IH by exact R'. now rewrite <- app_assoc.
Qed.
Lemma translate_safe escapes n : forall format out extent alloc, length format <= n -> room out extent alloc ->
  exists text, translate P item escapes format out extent alloc = Ok text.
Proof.
  induction n as [|n IH]; intros format out extent alloc L R.
  - destruct format; [|cbn in L; lia]. exists out. cbn [translate]. destruct R as (R1 & R2). destruct (Nat.ltb_spec (length out) alloc); [reflexivity|lia].
  - destruct format as [|c f].
    { exists out. cbn [translate]. destruct R as (R1 & R2). destruct (Nat.ltb_spec (length out) alloc); [reflexivity|lia]. }
    cbn in L. destruct (N.eqb_spec c 37) as [->|C37].
    + destruct f as [|d f].
      * exists out. destruct (grow_room out extent alloc R) as (G1 & G2 & G3). destruct R as (R1 & R2). cbn [translate].
        destruct (Nat.ltb_spec (length out) alloc); [|lia]. cbn [negb]. cbv zeta in *. change (37 =? 37)%N with true. cbv iota.
        match goal with |- (if ?x <? ?y then _ else _) = _ => destruct (Nat.ltb_spec x y); [reflexivity|lia] end.
      * destruct (translate_percent escapes d f out extent alloc R) as (e & a & v & _ & R' & E). rewrite E. apply IH; [cbn in L; lia|exact R'].
    + destruct escapes.
      * destruct (N.eqb_spec c 92) as [->|C92].
        { destruct f as [|d f].
          - destruct (translate_plain true 92 [] out extent alloc R C37) as (e & a & R' & E); [tauto|]. rewrite E. apply IH; [cbn; lia|exact R'].
          - destruct (in_dec N.eq_dec d [110; 114]%N) as [D|D].
            + destruct (translate_escape d f out extent alloc R D) as (e & a & R' & E). rewrite E. apply IH; [cbn in L; lia|exact R'].
            + destruct (translate_plain true 92 (d :: f) out extent alloc R C37) as (e & a & R' & E); [intros _ _; cbn in D; split; intros ->; tauto|].
              rewrite E. apply IH; [cbn in *; lia|exact R']. }
        { destruct (translate_plain true c f out extent alloc R C37) as (e & a & R' & E); [intros _ ?; contradiction|]. rewrite E. apply IH; [lia|exact R']. }
      * destruct (translate_plain false c f out extent alloc R C37) as (e & a & R' & E); [discriminate|]. rewrite E. apply IH; [lia|exact R'].
Qed.
End Translate.

(** ** C126: an event is written as its format says, within the buffer *)
Theorem event_text : forall P item ps event, 3 <= P -> (forall d t, item d = Some t -> length t < P) -> item 37%N = None ->
  Forall (piece_ok item true) ps -> TranslateEvent P item (flat_map piece_text ps) event = Ok (flat_map (piece_value item) ps).
Proof. intros P item ps event HP Hi I37 F. unfold TranslateEvent. rewrite (translate_pieces P item HP Hi true ps I37 F); [reflexivity|]. unfold room. cbn. lia. Qed.
Print Assumptions event_text.
Theorem filename_text : forall P item ps, 3 <= P -> (forall d t, item d = Some t -> length t < P) -> item 37%N = None ->
  Forall (piece_ok item false) ps -> TranslateFilename P item (flat_map piece_text ps) = Ok (flat_map (piece_value item) ps).
Proof. intros P item ps HP Hi I37 F. unfold TranslateFilename. rewrite (translate_pieces P item HP Hi false ps I37 F); [reflexivity|]. unfold room. cbn. lia. Qed.
Print Assumptions filename_text.
(** no format and no event leads outside of the buffer *)
Theorem event_safe : forall P item format event, 3 <= P -> (forall d t, item d = Some t -> length t < P) ->
  (exists text, TranslateEvent P item format event = Ok text) /\ (exists text, TranslateFilename P item format = Ok text).
Proof.
  intros P item format event HP Hi. unfold TranslateEvent, TranslateFilename.
  split; apply (translate_safe P item HP Hi) with (n := length format); try lia; unfold room; cbn; lia.
Qed.
Print Assumptions event_safe.
Definition an_item (d : N) : option (list N) := if (d =? 101)%N then Some (b "opened") else if (d =? 112)%N then Some (b "42") else None.
Example event_example : TranslateEvent 4096 an_item (b "%p: %e\n100%% %x") (b "opened") = Ok (b "42: opened" ++ [10%N] ++ b "100% %x").
Proof. vm_compute. reflexivity. Qed.
(** the bound on the items is needed: longer ones are written outside *)
Theorem event_bound_needed : exists item format event, TranslateEvent 4 item format event = UB.
Proof. exists (fun d => if (d =? 101)%N then Some (repeat 97%N 40) else None), (b "%e%e"), []. vm_compute. reflexivity. Qed.
Print Assumptions event_bound_needed.

(** ** C127: the time of an event *)
(** up to half a thousandth, if the thousandths are less than a thousand *)
Theorem time_rounded : forall us m s t, real_time us = (m, s, t) -> (us mod 1000000 < 999500)%N ->
  (s < 60)%N /\ (t < 1000)%N /\ (1000 * (60000 * m + 1000 * s + t) <= us + 500)%N /\ (us < 1000 * (60000 * m + 1000 * s + t) + 500)%N.
Proof.
  intros us m s t H L. unfold real_time in H. remember ((1000 * (us mod 1000000) + 500000) / 1000000)%N as t' eqn:Et. injection H as <- <- <-. subst t'.
  assert (A := N.div_mod us 1000000 ltac:(discriminate)). assert (B := N.div_mod (us / 1000000) 60 ltac:(discriminate)).
  assert (C : (us / 60000000 = us / 1000000 / 60)%N) by (now rewrite N.div_div). rewrite C.
  assert (D := N.mod_lt (us / 1000000) 60 ltac:(discriminate)).
  set (f := (us mod 1000000)%N) in *. set (w := (us / 1000000)%N) in *.
  assert (X := N.div_mod (1000 * f + 500000) 1000000 ltac:(discriminate)). assert (Y := N.mod_lt (1000 * f + 500000) 1000000 ltac:(discriminate)).
  set (t := ((1000 * f + 500000) / 1000000)%N) in *. set (m := (w / 60)%N) in *. set (s := (w mod 60)%N) in *.
  clearbody t m s. clearbody w f. set (r := ((1000 * f + 500000) mod 1000000)%N) in *. clearbody r. clear C. repeat split; lia.
Qed.
Print Assumptions time_rounded.
Example time_example : real_time 65123600 = (1, 5, 124)%N. Proof. reflexivity. Qed.
(** else a thousand thousandths are printed *)
Theorem time_carry_refuted : forall us, (999500 <= us mod 1000000)%N -> snd (real_time us) = 1000%N.
Proof.
  intros us L. unfold real_time. cbn [snd]. assert (D := N.mod_lt us 1000000 ltac:(discriminate)). set (f := (us mod 1000000)%N) in *. clearbody f.
  symmetry. apply N.div_unique with (r := (1000 * f + 500000 - 1000000000)%N); lia.
Qed.
Print Assumptions time_carry_refuted.

(** ** C128: the file of events *)
Lemma cut_unique (x : N) : forall s t r u, ~ In x s -> ~ In x t -> s ++ x :: r = t ++ x :: u -> s = t /\ r = u.
Proof.
  induction s as [|c s IH]; intros [|d t] r u Hs Ht E; cbn in E.
  - injection E as E. now split.
  - injection E as -> E. exfalso. apply Ht. now left.
  - injection E as -> E. exfalso. apply Hs. now left.
  - injection E as -> E. destruct (IH t r u) as (-> & ->); [intros I; apply Hs; now right|intros I; apply Ht; now right|exact E|now split].
Qed.
(** events without '<' are told apart by what the file says *)
Theorem records_injective : forall es fs, Forall (fun t => ~ In 60%N t) es -> Forall (fun t => ~ In 60%N t) fs ->
  flat_map record es = flat_map record fs -> es = fs.
Proof.
  induction es as [|e es IH]; intros [|f fs] He Hf E; cbn [flat_map] in E.
  - reflexivity.
  - discriminate E.
  - discriminate E.
  - inversion He as [|? ? He1 He2]; inversion Hf as [|? ? Hf1 Hf2]; subst. unfold record in E. rewrite <- !app_assoc in E. apply app_inv_head in E.
    change (b "</event>") with (60%N :: b "/event>") in E. cbn [app] in E. apply (cut_unique 60) in E as (-> & E); [|exact He1|exact Hf1].
    f_equal. apply IH; [exact He2|exact Hf2|]. apply app_inv_head in E. injection E as E. exact E.
Qed.
Print Assumptions records_injective.
Example records_example : Forall (fun t => ~ In 60%N t) [b "opened & closed"; []].
Proof. repeat (apply Forall_cons; [cbn; intuition discriminate|]). apply Forall_nil. Qed.
(** with '<' one event is two *)
Theorem records_injection_refuted : forall a c : list N, record (a ++ b "</event>" ++ [10%N] ++ b "  <event>" ++ c) = flat_map record [a; c].
Proof. intros a c. unfold record. cbn [flat_map]. rewrite app_nil_r. now rewrite <- !app_assoc. Qed.
Print Assumptions records_injection_refuted.

(** the number of bytes of the files below g *)
Definition total (c : N -> option (list N)) (g : nat) : nat := list_sum (map (fun k => length (content_of c (N.of_nat k))) (seq 0 g)).
(** no byte of a file is lost: c is before, c' after *)
Definition kept (c c' : N -> option (list N)) : Prop := forall k v, c k = Some v -> exists w, c' k = Some (v ++ w).
Definition in_range (generations : N) (st : files) : Prop :=
  (forall k, opened st = Some k -> (k < generations)%N /\ exists v, content st k = Some v) /\ (forall k v, content st k = Some v -> (k < generations)%N).

Lemma kept_refl c : kept c c. Proof. intros k v H. exists []. now rewrite app_nil_r. Qed.
Lemma kept_trans c1 c2 c3 : kept c1 c2 -> kept c2 c3 -> kept c1 c3.
Proof. intros A B k v H. destruct (A k v H) as (w & H'). destruct (B _ _ H') as (w' & H''). exists (w ++ w'). now rewrite app_assoc. Qed.
Lemma kept_set c k x : kept c (set_content c k (content_of c k ++ x)).
Proof.
  intros j v H. unfold set_content. destruct (N.eqb_spec j k) as [->|]; [|exists []; now rewrite app_nil_r]. exists x. unfold content_of. now rewrite H.
Qed.
Lemma kept_start c k : kept c (set_content c k match c k with Some v => v ++ header | None => declaration ++ header end).
Proof.
  intros j v H. unfold set_content. destruct (N.eqb_spec j k) as [->|]; [|exists []; now rewrite app_nil_r]. rewrite H. now exists header.
Qed.

Lemma offset_limit_small limit : (0 <= limit < 2 ^ 43)%Z -> (0 <= offset_limit limit)%Z.
Proof.
  intros L. unfold offset_limit. rewrite Z.mod_small by lia. destruct (Z.ltb_spec (1048576 * limit) (2 ^ 63)); lia.
Qed.
Lemma log_event_ok limit generations st text : (0 <= limit < 2 ^ 43)%Z -> (1 <= generations)%N -> in_range generations st ->
  exists st' k v, log_event limit generations st text = Ok st' /\ in_range generations st' /\ kept (content st) (content st') /\
    opened st' = Some k /\ content st' k = Some (v ++ record text) /\ kept (content st) (fun j => if (j =? k)%N then Some v else content st' j).
Proof.
  intros L G (R1 & R2). assert (O := offset_limit_small limit L).
  set (write := fun (k : N) (st : files) => {| opened := opened st; generation := generation st; content := set_content (content st) k (content_of (content st) k ++ record text) |}).
  assert (W : forall k st0, opened st0 = Some k -> in_range generations st0 -> kept (content st) (content st0) ->
    exists st' k' v, Ok (write k st0) = Ok st' /\ in_range generations st' /\ kept (content st) (content st') /\
      opened st' = Some k' /\ content st' k' = Some (v ++ record text) /\ kept (content st) (fun j => if (j =? k')%N then Some v else content st' j)).
  { intros k st0 E (A1 & A2) K. destruct (A1 k E) as (Rk & v & V). exists (write k st0), k, v. unfold write. cbn [opened content]. split; [reflexivity|]. split; [|split; [|split; [exact E|split]]].
    - split; cbn [opened content].
      + intros j X. rewrite E in X. injection X as <-. split; [exact Rk|]. unfold set_content. rewrite N.eqb_refl. now eexists.
      + intros j w. unfold set_content. destruct (N.eqb_spec j k) as [->|]; [intros _; exact Rk|apply A2].
    - eapply kept_trans; [exact K|apply kept_set].
    - unfold set_content, content_of. now rewrite N.eqb_refl, V.
    - intros j w H. destruct (K j w H) as (x & X). destruct (N.eqb_spec j k) as [->|Nk]; [rewrite V in X; injection X as ->; now exists x|].
      exists x. unfold set_content. apply N.eqb_neq in Nk. now rewrite Nk. }
  assert (S : forall st0, opened st0 = None -> in_range generations st0 -> kept (content st) (content st0) ->
    exists st' k v, Ok (write (generation st0 mod generations)%N {| opened := Some (generation st0 mod generations)%N; generation := generation st0 + 1;
        content := set_content (content st0) (generation st0 mod generations) match content st0 (generation st0 mod generations)%N with Some v => v ++ header | None => declaration ++ header end |}) = Ok st' /\
      in_range generations st' /\ kept (content st) (content st') /\
      opened st' = Some k /\ content st' k = Some (v ++ record text) /\ kept (content st) (fun j => if (j =? k)%N then Some v else content st' j)).
  { intros st0 E (A1 & A2) K. assert (M : (generation st0 mod generations < generations)%N) by (apply N.mod_lt; lia). apply W.
    - reflexivity.
    - split; cbn [opened content]; [intros k X; injection X as <-; split; [exact M|unfold set_content; rewrite N.eqb_refl; now eexists]|]. intros j w. unfold set_content.
      destruct (N.eqb_spec j (generation st0 mod generations)) as [->|]; [now intros _|apply A2].
    - cbn [content]. eapply kept_trans; [exact K|apply kept_start]. }
  unfold log_event. destruct (opened st) as [k|] eqn:E.
  - destruct (Z.ltb_spec (offset_limit limit) (Z.of_nat (length (content_of (content st) k)))); cbn [bind].
    + cbn [opened content generation]. apply (S {| opened := None; generation := generation st; content := set_content (content st) k (content_of (content st) k ++ trailer) |}).
      * reflexivity.
      * split; cbn [opened content]; [discriminate|]. intros j w. unfold set_content. destruct (N.eqb_spec j k) as [->|]; [intros _; now apply R1|apply R2].
      * apply kept_set.
    + rewrite E. apply (W k st E); [split; [now rewrite E|exact R2]|apply kept_refl].
  - destruct (Z.ltb_spec (offset_limit limit) 0); [lia|]. cbn [bind]. rewrite E. apply (S st E); [split; [now rewrite E|exact R2]|apply kept_refl].
Qed.

(** every event is in one of the files, no byte of a file is lost and the files are those below
    the number of generations *)
Theorem events_written : forall limit generations texts st, (0 <= limit < 2 ^ 43)%Z -> (1 <= generations)%N -> in_range generations st ->
  exists st', log_events limit generations st texts = Ok st' /\ in_range generations st' /\ kept (content st) (content st') /\
    forall t, In t texts -> exists k x y, (k < generations)%N /\ content st' k = Some (x ++ record t ++ y).
Proof.
  intros limit generations texts. induction texts as [|t texts IH]; intros st L G R.
  - exists st. split; [reflexivity|split; [exact R|split; [apply kept_refl|intros t []]]].
  - destruct (log_event_ok limit generations st t L G R) as (st1 & k & v & E1 & R1 & K1 & O1 & C1 & _).
    destruct (IH st1 L G R1) as (st2 & E2 & R2 & K2 & W). exists st2. cbn [log_events]. rewrite E1. cbn [bind].
    split; [exact E2|split; [exact R2|split; [now apply kept_trans with (content st1)|]]].
    intros u [<-|I]; [|now apply W]. destruct (K2 k _ C1) as (w & C2). exists k, v, w. split; [exact (proj1 (proj1 R1 k O1))|]. now rewrite C2, <- app_assoc.
Qed.
Print Assumptions events_written.
Example events_example : match log_events 0 2 no_files [b "a"; b "b"; b "c"] with Ok st => Some (content st 0%N, content st 1%N) | _ => None end =
  Some (Some (declaration ++ header ++ record (b "a") ++ trailer ++ header ++ record (b "c")), Some (declaration ++ header ++ record (b "b") ++ trailer)) /\
  in_range 2 no_files.
Proof. split; [vm_compute; reflexivity|split; discriminate]. Qed.

(** the files below g grow with each event: their sizes have no bound *)
Lemma sum_grows (f g : nat -> nat) k d l : (forall j, In j l -> f j <= g j) -> In k l -> f k + d <= g k -> list_sum (map f l) + d <= list_sum (map g l).
Proof.
  induction l as [|j l IH]; intros A I B; [easy|]. cbn [map]. unfold list_sum in *. cbn [fold_right].
  assert (M : forall m, (forall j, In j m -> f j <= g j) -> fold_right Nat.add 0 (map f m) <= fold_right Nat.add 0 (map g m)).
  { clear. induction m as [|j m IHm]; intros A; [easy|]. cbn. assert (X := A j ltac:(now left)). assert (Y := IHm ltac:(intros i Hi; apply A; now right)). lia. }
  destruct I as [->|I].
  - assert (Y := M l ltac:(intros i Hi; apply A; now right)). lia.
  - assert (X := A j ltac:(now left)). assert (Y := IH ltac:(intros i Hi; apply A; now right) I B). lia.
Qed.
Lemma kept_length c c' k : kept c c' -> length (content_of c k) <= length (content_of c' k).
Proof.
  intros K. unfold content_of. destruct (c k) as [v|] eqn:V; [|cbn; lia]. destruct (K k v V) as (w & ->). rewrite app_length. lia.
Qed.
Lemma total_grows limit generations st text st' : (0 <= limit < 2 ^ 43)%Z -> (1 <= generations)%N -> in_range generations st ->
  log_event limit generations st text = Ok st' -> total (content st) (N.to_nat generations) + 1 <= total (content st') (N.to_nat generations).
Proof.
  intros L G R E. destruct (log_event_ok limit generations st text L G R) as (st1 & k & v & E1 & R1 & K1 & O1 & C1 & K2). rewrite E in E1. injection E1 as <-.
  unfold total. apply sum_grows with (k := N.to_nat k).
  - intros j _. now apply kept_length.
  - apply in_seq. assert (X := proj1 (proj1 R1 k O1)). lia.
  - rewrite N2Nat.id. assert (X := kept_length _ _ k K2). unfold content_of at 2 in X. rewrite N.eqb_refl in X. unfold content_of at 2. rewrite C1, app_length.
    unfold record. rewrite app_length. cbn [length b map String.list_ascii_of_string] in *. lia.
Qed.
Theorem size_refuted : forall limit generations B, (0 <= limit < 2 ^ 43)%Z -> (1 <= generations)%N ->
  exists texts st, log_events limit generations no_files texts = Ok st /\ B < total (content st) (N.to_nat generations).
Proof.
  intros limit generations B L G.
  assert (X : forall n st, in_range generations st -> exists st', log_events limit generations st (repeat [] n) = Ok st' /\
    total (content st) (N.to_nat generations) + n <= total (content st') (N.to_nat generations)).
  { induction n as [|n IH]; intros st R; [exists st; split; [reflexivity|lia]|].
    destruct (log_event_ok limit generations st [] L G R) as (st1 & k & v & E1 & R1 & _). destruct (IH st1 R1) as (st2 & E2 & T). exists st2.
    cbn [repeat log_events]. rewrite E1. cbn [bind]. split; [exact E2|]. assert (Y := total_grows limit generations st [] st1 L G R E1). lia. }
  destruct (X (S B) no_files ltac:(split; discriminate)) as (st & E & T). exists (repeat [] (S B)), st. split; [exact E|lia].
Qed.
Print Assumptions size_refuted.
(** limit="unlimited" (log.c:1618-1622) is 2^64-1: the first event is written to a closed file *)
Theorem unlimited_refuted : forall generations text, log_event (2 ^ 64 - 1) generations no_files text = UB.
Proof. reflexivity. Qed.
Print Assumptions unlimited_refuted.

(** ** C129: the handlers *)
Lemma like_refl s : like s s = true.
Proof. induction s as [|c s IH]; [reflexivity|]. cbn. now rewrite Z.eqb_refl, IH. Qed.
Lemma like_firstn s t r x : like s t = true -> forall n, like (firstn n (s ++ r)) x = like (firstn n (t ++ r)) x.
Proof.
  revert t x. induction s as [|c s IH]; intros [|d t] x H n; cbn in H; try discriminate H; [reflexivity|].
  apply andb_true_iff in H as (H1 & H2). apply Z.eqb_eq in H1. destruct n as [|n]; [reflexivity|]. cbn. destruct x as [|y x]; [reflexivity|].
  rewrite H1. f_equal. now apply IH.
Qed.
Lemma handler_like s t r l : like s t = true -> handler_of (s ++ r) l = handler_of (t ++ r) l.
Proof. intros H. induction l as [|(name, mask) l IH]; [reflexivity|]. cbn. now rewrite (like_firstn s t r (b name) H), IH. Qed.
Lemma handler_table name mask r : In (name, mask) LogHandlers -> handler_of (b name ++ r) LogHandlers = Some mask.
Proof. intros I. cbn in I. repeat (destruct I as [I|I]; [injection I as <- <-; reflexivity|]). contradiction. Qed.
Lemma table_solid name mask c d : In (name, mask) LogHandlers -> In d (b name) -> ascii_map c = ascii_map d -> c <> 44%N /\ is_space c = false.
Proof.
  intros I J E. assert (X : existsb (Z.eqb (ascii_map d)) (map ascii_map [44; 32; 9; 10; 11; 12; 13]%N) = false).
  { assert (T : forallb (fun p : string * N => forallb (fun d => negb (existsb (Z.eqb (ascii_map d)) (map ascii_map [44; 32; 9; 10; 11; 12; 13]%N))) (b (fst p))) LogHandlers = true) by (vm_compute; reflexivity).
    apply (proj1 (forallb_forall _ _) T) in I. cbn [fst] in I. apply (proj1 (forallb_forall _ _) I) in J. now apply negb_true_iff in J. }
  assert (Y : forall k, In k [44; 32; 9; 10; 11; 12; 13]%N -> c <> k).
  { intros k Hk ->. assert (Z := existsb_exists (Z.eqb (ascii_map d)) (map ascii_map [44; 32; 9; 10; 11; 12; 13]%N)). rewrite X in Z.
    assert (false = true); [|discriminate]. apply Z. exists (ascii_map k). split; [now apply in_map|]. now rewrite E, Z.eqb_refl. }
  split; [apply Y; now left|]. unfold is_space. destruct (N.eqb_spec c 32) as [->|]; [exfalso; apply (Y 32%N); cbn; tauto|]. cbn [orb].
  destruct (N.leb_spec 9 c), (N.leb_spec c 13); try reflexivity. exfalso.
  assert (Z : c = 9%N \/ c = 10%N \/ c = 11%N \/ c = 12%N \/ c = 13%N) by lia. apply (Y c); [|reflexivity]. cbn. intuition.
Qed.
Lemma like_solid s name mask c : In (name, mask) LogHandlers -> like s (b name) = true -> In c s -> c <> 44%N /\ is_space c = false.
Proof.
  intros I. assert (X : forall s t, like s t = true -> In c s -> exists d, In d t /\ ascii_map c = ascii_map d).
  { clear. induction s as [|x s IH]; intros [|d t] H J; cbn in H; try discriminate H; [easy|]. apply andb_true_iff in H as (H1 & H2). apply Z.eqb_eq in H1.
    destruct J as [->|J]; [exists d; split; [now left|exact H1]|]. destruct (IH t H2 J) as (e & He & E). exists e. split; [now right|exact E]. }
  intros H J. destruct (X s (b name) H J) as (d & Hd & E). now apply (table_solid name mask c d).
Qed.
Lemma to_comma_solid s r : (forall c, In c s -> c <> 44%N) -> to_comma (s ++ r) = to_comma r.
Proof.
  induction s as [|c s IH]; intros H; [reflexivity|]. cbn. assert (X := H c ltac:(now left)). apply N.eqb_neq in X. rewrite X. apply IH. intros d Hd. apply H. now right.
Qed.
Lemma skip_blank bs r : Forall (fun c => is_space c = true) bs -> skip_separators (bs ++ r) = skip_separators r.
Proof. induction 1 as [|c bs H _ IH]; [reflexivity|]. cbn. now rewrite H. Qed.

(** blanks and a name in letters of any case *)
Record entry := { blanks : list N; spelled : list N; name : string; mask : N }.
Definition entry_ok (e : entry) : Prop :=
  Forall (fun c => is_space c = true) (blanks e) /\ In (name e, mask e) LogHandlers /\ like (spelled e) (b (name e)) = true.
Fixpoint listed (es : list entry) : list N :=
  match es with [] => [] | [e] => blanks e ++ spelled e | e :: es => blanks e ++ spelled e ++ 44%N :: listed es end.
Definition masks (es : list entry) : N := fold_left N.lor (map mask es) 0%N.

Lemma entry_step e r m fuel : entry_ok e ->
  parse_handlers (S fuel) (blanks e ++ spelled e ++ r) m = match to_comma r with Some p => parse_handlers fuel p (N.lor m (mask e)) | None => N.lor m (mask e) end.
Proof.
  intros (B & I & K). cbn [parse_handlers]. rewrite skip_blank by exact B.
  assert (S : skip_separators (spelled e ++ r) = spelled e ++ r).
  { destruct (spelled e) as [|c s] eqn:Es.
    - exfalso. cbn in I. repeat (destruct I as [I|I]; [injection I as I _; rewrite <- I in K; discriminate K|]). exact I.
    - destruct (like_solid (c :: s) (name e) (mask e) c I K ltac:(now left)) as (C1 & C2). cbn. rewrite C2. apply N.eqb_neq in C1. now rewrite C1. }
  rewrite S, (handler_like (spelled e) (b (name e)) r LogHandlers K), (handler_table (name e) (mask e) r I).
  rewrite to_comma_solid; [reflexivity|]. intros c Hc. exact (proj1 (like_solid (spelled e) (name e) (mask e) c I K Hc)).
Qed.
Lemma parse_comma fuel r m : parse_handlers fuel (44%N :: r) m = parse_handlers fuel r m.
Proof. destruct fuel; reflexivity. Qed.
Lemma listed_cons e f es : listed (e :: f :: es) = blanks e ++ spelled e ++ 44%N :: listed (f :: es). Proof. reflexivity. Qed.
Lemma parse_listed es : es <> [] -> Forall entry_ok es -> forall fuel m, length es <= fuel -> parse_handlers fuel (listed es) m = fold_left N.lor (map mask es) m.
Proof.
  induction es as [|e es IH]; intros NE F fuel m L; [contradiction|]. inversion F as [|? ? E F']; subst. destruct fuel as [|fuel]; [cbn in L; lia|].
  destruct es as [|f es].
  - cbn [listed map fold_left]. rewrite <- (app_nil_r (spelled e)), entry_step by exact E. reflexivity.
  - rewrite listed_cons, entry_step by exact E. cbn [to_comma]. change (44 =? 44)%N with true. cbv iota. rewrite parse_comma.
    cbn [map fold_left]. apply IH; [discriminate|exact F'|cbn in L |- *; lia].
Qed.
Lemma parse_more es r : es <> [] -> Forall entry_ok es -> forall fuel m, length es <= fuel ->
  parse_handlers fuel (listed es ++ 44%N :: r) m = parse_handlers (fuel - length es) r (fold_left N.lor (map mask es) m).
Proof.
  induction es as [|e es IH]; intros NE F fuel m L; [contradiction|]. inversion F as [|? ? E F']; subst. destruct fuel as [|fuel]; [cbn in L; lia|].
  destruct es as [|f es].
  - cbn [listed map fold_left]. rewrite <- app_assoc, entry_step by exact E. cbn [to_comma]. change (44 =? 44)%N with true. cbv iota. rewrite parse_comma.
    now replace (S fuel - length [e]) with fuel by (cbn; lia).
  - rewrite listed_cons, <- !app_assoc, <- app_comm_cons, entry_step by exact E. cbn [to_comma]. change (44 =? 44)%N with true. cbv iota. rewrite parse_comma.
    cbn [map fold_left]. rewrite IH; [reflexivity|discriminate|exact F'|cbn in L |- *; lia].
Qed.
Lemma entry_nonempty e : entry_ok e -> 1 <= length (spelled e).
Proof.
  intros (_ & I & K). destruct (spelled e); [|cbn; lia]. exfalso. cbn in I. repeat (destruct I as [I|I]; [injection I as I _; rewrite <- I in K; discriminate K|]). exact I.
Qed.
Lemma listed_length es : Forall entry_ok es -> length es <= length (listed es).
Proof.
  induction 1 as [|e es E F IH]; [easy|]. assert (X := entry_nonempty e E). destruct es as [|f es].
  - cbn. rewrite app_length. lia.
  - rewrite listed_cons, !app_length. cbn [length] in *. lia.
Qed.

(** names of handlers with commas between them are all of these handlers *)
Theorem handlers_parsed : forall es, es <> [] -> Forall entry_ok es -> ParseLogHandlers (listed es) = masks es.
Proof. intros es NE F. unfold ParseLogHandlers, masks. apply parse_listed; [exact NE|exact F|]. assert (X := listed_length es F). lia. Qed.
Print Assumptions handlers_parsed.
Example handlers_example : Forall entry_ok [{| blanks := []; spelled := b "File"; name := "file"; mask := 8 |}; {| blanks := b " "; spelled := b "STDERR"; name := "stderr"; mask := 4 |}] /\
  ParseLogHandlers (b "File, STDERR") = 12%N.
Proof.
  split; [|vm_compute; reflexivity]. repeat (apply Forall_cons; [split; [|split]|]); try apply Forall_nil; try (cbn; tauto); try (vm_compute; reflexivity).
  apply Forall_cons; [reflexivity|apply Forall_nil].
Qed.
(** with a comma at the end there are none *)
Theorem handlers_comma_refuted : forall es bs, es <> [] -> Forall entry_ok es -> Forall (fun c => is_space c = true) bs ->
  ParseLogHandlers (listed es ++ 44%N :: bs) = 0%N.
Proof.
  intros es bs NE F B. unfold ParseLogHandlers. assert (X := listed_length es F). rewrite app_length. cbn [length].
  rewrite parse_more; [|exact NE|exact F|lia]. replace (S (length (listed es) + S (length bs)) - length es) with (S (S (length (listed es) + length bs - length es))) by lia.
  cbn [parse_handlers]. rewrite <- (app_nil_r bs), skip_blank by exact B. reflexivity.
Qed.
Print Assumptions handlers_comma_refuted.
(** one name that is not known takes all the others away *)
Theorem handlers_unknown_refuted : forall es t, es <> [] -> Forall entry_ok es -> handler_of (skip_separators t) LogHandlers = None ->
  ParseLogHandlers (listed es ++ 44%N :: t) = 0%N.
Proof.
  intros es t NE F H. unfold ParseLogHandlers. assert (X := listed_length es F). rewrite app_length. cbn [length].
  rewrite parse_more; [|exact NE|exact F|lia]. replace (S (length (listed es) + S (length t)) - length es) with (S (S (length (listed es) + length t - length es))) by lia.
  cbn [parse_handlers]. now rewrite H.
Qed.
Print Assumptions handlers_unknown_refuted.
Example unknown_example : handler_of (skip_separators (b " syslog")) LogHandlers = None. Proof. vm_compute. reflexivity. Qed.
(** and names need only begin like one that is known *)
Theorem handlers_prefix_refuted : ParseLogHandlers (b "filesystem,stdoutput") = 10%N.
Proof. vm_compute. reflexivity. Qed.
Print Assumptions handlers_prefix_refuted.
