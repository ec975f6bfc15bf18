(** Arguments from a text (C111). *)
From Coq Require Import NArith Bool String Lia ZifyBool ZifyNat ZifyN Arith List.
From Verif Require Import Base CStringModel OptionModel ArgvModel.
Import ListNotations.

(** ** Specification: how an argument is written *)
Definition blank (c : N) : Prop := In c [9; 10; 11; 12; 13; 32]%N.
Definition blanks (s : list N) : Prop := Forall blank s.
Definition no_blank (s : list N) : Prop := Forall (fun c => ~ blank c) s.

(** a word as it stands, or a text in quotes of either kind.  What follows the
    closing quote up to the next blank is dropped. *)
Inductive Writes : list N -> list N -> Prop :=
| bare c w : c <> 34%N -> c <> 39%N -> no_blank (c :: w) -> Writes (c :: w) (c :: w)
| quoted q s junk : (q = 34 \/ q = 39)%N -> ~ In q s -> no_blank junk -> Writes (q :: s ++ q :: junk) s.
(** quotes that are still open at the end of the text *)
Inductive Open : list N -> list N -> Prop :=
| unclosed q s : (q = 34 \/ q = 39)%N -> ~ In q s -> Open (q :: s) s.

(** a line of arguments; blanks separate them *)
Inductive Line : list N -> list (list N) -> Prop :=
| line_end s : blanks s -> Line s []
| line_last s t a : blanks s -> Writes t a -> Line (s ++ t) [a]
| line_open s t a : blanks s -> Open t a -> Line (s ++ t) [a]
| line_cons s t a x rest l : blanks s -> Writes t a -> blank x -> Line (x :: rest) l -> Line (s ++ t ++ x :: rest) (a :: l).

(** ** Proof *)
Lemma isspace_blank c : isspace c = true <-> blank c.
Proof. unfold isspace, blank. cbn. lia. Qed.
Lemma isspace_not c : isspace c = false <-> ~ blank c.
Proof. rewrite <- isspace_blank. destruct (isspace c); intuition congruence. Qed.
Lemma spaces_off_blanks s p : blanks s -> spaces_off (s ++ p) = spaces_off p.
Proof. induction 1 as [|c s C _ IH]; [reflexivity|]. cbn. now rewrite (proj2 (isspace_blank c) C). Qed.
Lemma spaces_off_stop c p : ~ blank c -> spaces_off (c :: p) = c :: p.
Proof. intros C. cbn. now rewrite (proj2 (isspace_not c) C). Qed.
Lemma until_app x s p : ~ In x s -> (p = [] \/ exists r, p = x :: r) -> until x (s ++ p) = (s, p).
Proof.
  induction s as [|c s IH]; intros F P; cbn [app until].
  - destruct P as [->|(r & ->)]; [reflexivity|]. cbn. now rewrite N.eqb_refl.
  - destruct (N.eqb_spec c x) as [->|N]; [exfalso; apply F; now left|]. rewrite IH; [reflexivity|intros I; apply F; now right|exact P].
Qed.
Lemma word_off_app s p : no_blank s -> (p = [] \/ exists c r, p = c :: r /\ blank c) -> word_off (s ++ p) = (s, p).
Proof.
  intros F P. induction F as [|c s C _ IH]; cbn [app word_off].
  - destruct P as [->|(c & r & -> & B)]; [reflexivity|]. cbn. now rewrite (proj2 (isspace_blank c) B).
  - rewrite (proj2 (isspace_not c) C), IH. reflexivity.
Qed.
Lemma quote_not_blank q : (q = 34 \/ q = 39)%N -> ~ blank q.
Proof. unfold blank. cbn. lia. Qed.

(** One argument read, by either loop. *)
Definition count_step (p : list N) : list N :=
  let p := if at_char 34 p then snd (until 34 (tl p)) else p in
  let p := if at_char 39 p then snd (until 39 (tl p)) else p in
  snd (word_off p).
Lemma read_word s t a p : blanks s -> Writes t a -> (p = [] \/ exists c r, p = c :: r /\ blank c) ->
  spaces_off (s ++ t ++ p) = t ++ p /\ count_step (t ++ p) = p /\ one_arg (s ++ t ++ p) = (a, p) /\ t <> [].
Proof.
  intros S W P. unfold one_arg. rewrite spaces_off_blanks by exact S. destruct W as [c w D Q F|q u junk Q F J].
  - assert (C : ~ blank c) by now inversion F. cbn [app]. rewrite spaces_off_stop by exact C. split; [reflexivity|].
    unfold count_step. cbn [at_char]. rewrite (proj2 (N.eqb_neq _ _) D). cbn [at_char]. rewrite (proj2 (N.eqb_neq _ _) Q).
    change (c :: w ++ p) with ((c :: w) ++ p). rewrite word_off_app by assumption. cbn [snd].
    split; [reflexivity|]. split; [|discriminate]. destruct P as [->|(x & r & -> & B)]; [reflexivity|].
    cbn. now rewrite (proj2 (isspace_blank x) B).
  - pose proof (quote_not_blank q Q) as C. cbn [app]. rewrite spaces_off_stop by exact C. split; [reflexivity|].
    rewrite <- app_assoc. cbn [app]. unfold count_step. cbn [at_char tl].
    assert (U : until q (u ++ q :: junk ++ p) = (u, q :: junk ++ p)) by (apply until_app; eauto).
    assert (Wq : word_off (q :: junk ++ p) = (q :: junk, p)).
    { change (q :: junk ++ p) with ((q :: junk) ++ p). apply word_off_app; [now constructor|exact P]. }
    destruct Q as [-> | ->]; cbn [N.eqb Pos.eqb at_char tl]; rewrite U; cbn [snd at_char N.eqb Pos.eqb]; rewrite Wq; cbn [snd]; (split; [reflexivity|]; split; [reflexivity|]; discriminate).
Qed.
Lemma read_open s t a : blanks s -> Open t a ->
  spaces_off (s ++ t) = t /\ count_step t = [] /\ one_arg (s ++ t) = (a, []) /\ t <> [].
Proof.
  intros S [q u Q F]. unfold one_arg. rewrite spaces_off_blanks by exact S. pose proof (quote_not_blank q Q) as C.
  rewrite spaces_off_stop by exact C. split; [reflexivity|]. unfold count_step. cbn [at_char tl].
  assert (U : until q u = (u, [])) by (rewrite <- (app_nil_r u) at 1; apply until_app; auto).
  destruct Q as [-> | ->]; cbn [N.eqb Pos.eqb at_char tl]; rewrite U; cbn; (split; [reflexivity|]; split; [reflexivity|]; discriminate).
Qed.
Lemma count_args_S fuel p : count_args (S fuel) p =
  match spaces_off p with [] => 0 | p => S (count_args fuel (count_step p)) end.
Proof. cbn [count_args]. destruct p as [|c p]; [reflexivity|]. now destruct (spaces_off (c :: p)). Qed.

Lemma line_ok text l : Line text l -> forall fuel, length text < fuel ->
  count_args fuel text = length l /\ make_args (length l) text = l.
Proof.
  induction 1 as [s S|s t a S W|s t a S W|s t a x rest l S W B _ IH]; intros fuel L; (destruct fuel as [|fuel]; [lia|]); rewrite count_args_S.
  - rewrite <- (app_nil_r s) at 1. rewrite spaces_off_blanks by exact S. now split.
  - destruct (read_word s t a [] S W (or_introl eq_refl)) as (Sp & C & O & Ne). rewrite app_nil_r in *. rewrite Sp.
    destruct t as [|c t]; [contradiction|]. rewrite C. cbn [length make_args]. rewrite O. split; [|reflexivity]. destruct fuel; reflexivity.
  - destruct (read_open s t a S W) as (Sp & C & O & Ne). rewrite Sp. destruct t as [|c t]; [contradiction|]. rewrite C.
    cbn [length make_args]. rewrite O. split; [|reflexivity]. destruct fuel; reflexivity.
  - destruct (read_word s t a (x :: rest) S W) as (Sp & C & O & Ne); [right; eauto|]. rewrite Sp.
    destruct t as [|c t]; [contradiction|]. cbn [app]. change (c :: t ++ x :: rest) with ((c :: t) ++ x :: rest). rewrite C.
    rewrite !app_length in L. cbn [length] in L. destruct (IH fuel ltac:(cbn [length]; lia)) as (I1 & I2).
    cbn [length make_args]. rewrite O, I1, I2. now split.
Qed.

(** C111: StringToArgv returns the arguments written on the line, *)
Theorem argv_of_line : forall text args, Line text args -> StringToArgv text = args.
Proof.
  intros text args H. unfold StringToArgv. destruct (line_ok text args H (S (length text)) ltac:(lia)) as (C & M).
  now rewrite C.
Qed.
Print Assumptions argv_of_line.

(** and every text is such a line. *)
Lemma split_quote (q : N) (s : list N) : In q s -> exists u r, s = u ++ q :: r /\ ~ In q u.
Proof.
  induction s as [|c s IH]; [intros []|]. intros I. destruct (N.eq_dec c q) as [->|N].
  - exists [], s. split; [reflexivity|intros []].
  - destruct I as [->|I]; [now destruct N|]. destruct (IH I) as (u & r & -> & F). exists (c :: u), r. split; [reflexivity|].
    intros [->|X]; [now apply N|now apply F].
Qed.
Lemma split_blank s : (exists w x r, s = w ++ x :: r /\ no_blank w /\ blank x) \/ no_blank s.
Proof.
  induction s as [|c s IH]; [right; constructor|]. destruct (isspace c) eqn:C.
  - left. exists [], c, s. split; [reflexivity|]. split; [constructor|now apply isspace_blank].
  - apply isspace_not in C. destruct IH as [(w & x & r & -> & F & B)|F].
    + left. exists (c :: w), x, r. split; [reflexivity|]. split; [now constructor|exact B].
    + right. now constructor.
Qed.
Lemma split_spaces s : exists a p, s = a ++ p /\ blanks a /\ match p with [] => True | c :: _ => ~ blank c end.
Proof.
  induction s as [|c s IH]; [exists [], []; repeat split; constructor|]. destruct (isspace c) eqn:C.
  - apply isspace_blank in C. destruct IH as (a & p & -> & B & P). exists (c :: a), p. repeat split; [now constructor|exact P].
  - apply isspace_not in C. exists [], (c :: s). repeat split; [constructor|exact C].
Qed.
Theorem every_text_is_a_line : forall text, exists args, Line text args.
Proof.
  intros text. remember (length text) as n eqn:Hn. revert text Hn. induction n as [n IH] using lt_wf_ind. intros text ->.
  destruct (split_spaces text) as (s & p & -> & S & P). destruct p as [|c p].
  - exists []. rewrite app_nil_r. now constructor.
  - assert (W : (exists t a, c :: p = t /\ (Writes t a \/ Open t a)) \/
      (exists t a x rest, c :: p = t ++ x :: rest /\ Writes t a /\ blank x)).
    { assert (Q : (c = 34 \/ c = 39)%N \/ (c <> 34 /\ c <> 39)%N) by lia. destruct Q as [Q|(Q & Q')].
      - destruct (in_dec N.eq_dec c p) as [I|I].
        + destruct (split_quote c p I) as (u & r & -> & F). destruct (split_blank r) as [(w & x & r' & -> & Nb & B)|Nb].
          * right. exists (c :: u ++ c :: w), u, x, r'. split; [cbn; now rewrite <- app_assoc|]. split; [now constructor|exact B].
          * left. exists (c :: u ++ c :: r), u. split; [reflexivity|]. left. now constructor.
        + left. exists (c :: p), p. split; [reflexivity|]. right. now constructor.
      - destruct (split_blank p) as [(w & x & r' & -> & Nb & B)|Nb].
        + right. exists (c :: w), (c :: w), x, r'. split; [reflexivity|]. split; [|exact B]. constructor; [exact Q|exact Q'|now constructor].
        + left. exists (c :: p), (c :: p). split; [reflexivity|]. left. constructor; [exact Q|exact Q'|now constructor]. }
    destruct W as [(t & a & -> & [W|W])|(t & a & x & rest & Eq & W & B)]; [| |rewrite Eq in *].
    + exists [a]. now constructor.
    + exists [a]. now apply line_open.
    + destruct (IH (length (x :: rest)) ) with (text := x :: rest) as (l & L); [|reflexivity|].
      { rewrite !app_length. destruct W; cbn [length app]; rewrite ?app_length; cbn [length]; lia. }
      exists (a :: l). now apply line_cons.
Qed.
Print Assumptions every_text_is_a_line.

(** Arguments without double quotes come back when put in double quotes. *)
Fixpoint quoted_line (args : list (list N)) : list N :=
  match args with
  | [] => []
  | [a] => 34%N :: a ++ [34%N]
  | a :: args => (34%N :: a ++ [34%N]) ++ 32%N :: quoted_line args
  end.
Lemma line_blank x rest l : blank x -> Line rest l -> Line (x :: rest) l.
Proof.
  intros B L. destruct L as [s S|s t a S W|s t a S W|s t a y rest l S W By L].
  - apply line_end. now constructor.
  - change (x :: s ++ t) with ((x :: s) ++ t). apply line_last; [now constructor|exact W].
  - change (x :: s ++ t) with ((x :: s) ++ t). apply line_open; [now constructor|exact W].
  - change (x :: s ++ t ++ y :: rest) with ((x :: s) ++ t ++ y :: rest). apply line_cons; [now constructor|exact W|exact By|exact L].
Qed.
Theorem argv_quoted : forall args, Forall (fun a => ~ In 34%N a) args -> StringToArgv (quoted_line args) = args.
Proof.
  intros args F. apply argv_of_line.
  assert (W : forall a, ~ In 34%N a -> Writes (34%N :: a ++ [34%N]) a) by (intros a A; apply quoted; [now left|exact A|constructor]).
  induction F as [|a args A F IH]; [constructor; constructor|]. destruct args as [|y args].
  - apply (line_last []); [constructor|now apply W].
  - change (quoted_line (a :: y :: args)) with ([] ++ (34%N :: a ++ [34%N]) ++ 32%N :: quoted_line (y :: args)).
    apply line_cons; [constructor|now apply W|cbn; tauto|]. apply line_blank; [cbn; tauto|exact IH].
Qed.
Print Assumptions argv_quoted.

(** Examples *)
Example argv_command : StringToArgv (b " decipher -key 'my key' file.txt") = [b "decipher"; b "-key"; b "my key"; b "file.txt"].
Proof. reflexivity. Qed.
Example argv_command_line : Line (b " decipher -key 'my key' file.txt") [b "decipher"; b "-key"; b "my key"; b "file.txt"].
Proof.
  destruct (every_text_is_a_line (b " decipher -key 'my key' file.txt")) as (l & L).
  pose proof (argv_of_line _ _ L) as Q. rewrite argv_command in Q. now rewrite <- Q in L.
Qed.
(** A quote inside a word does not quote, and what follows a closing quote is lost. *)
Example argv_inner_quote : StringToArgv (b "--key='my key' 'a'b") = [b "--key='my"; b "key'"; b "a"].
Proof. reflexivity. Qed.
Example argv_quoted_two : StringToArgv (quoted_line [b "a b"; []; b "it's"]) = [b "a b"; []; b "it's"].
Proof. reflexivity. Qed.
