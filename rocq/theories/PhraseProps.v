(** C123: the pass-phrase is what was typed twice. *)
From Coq Require Import Arith NArith ZArith Lia ZifyBool ZifyNat List Bool.
From Verif Require Import PhraseModel.
Import ListNotations.

(** ** Specification: lines and the answers to a prompt *)
Definition line (w : list N) : Prop := ~ In 10%N w /\ ~ In 13%N w.
Definition typed (w : list N) (ending : N) : list reading := map Byte w ++ [Byte ending].
(** attempts: pairs of lines whose beginnings differ *)
Definition attempt (extent : nat) (ab : list N * list N) : Prop :=
  line (fst ab) /\ line (snd ab) /\ firstn (extent - 1) (fst ab) <> firstn (extent - 1) (snd ab).
Definition attempts (l : list (list N * list N)) : list reading := flat_map (fun ab => typed (fst ab) 10 ++ typed (snd ab) 10) l.

(** ** Proofs *)
Lemma convert_off c : convert EchoOffMode c = c.
Proof. unfold convert. cbn. now destruct (isalpha c). Qed.
Lemma firstn_room {A} (a w : list A) n : length a <= n -> firstn n (a ++ w) = a ++ firstn (n - length a) w.
Proof. intros H. rewrite firstn_app. now rewrite firstn_all2 by exact H. Qed.
Lemma read_line extent w e rest : line w -> In e [10%N; 13%N] -> forall phrase, length phrase <= extent - 1 ->
  read_loop extent EchoOffMode (typed w e ++ rest) phrase = (1%Z, firstn (extent - 1) (phrase ++ w), rest).
Proof.
  intros (L10 & L13) E. unfold typed. induction w as [|c w IH]; intros phrase P.
  - cbn [map app read_loop]. assert (X : ((e =? 10)%N || (e =? 13)%N) = true) by (cbn in E; lia). rewrite X. now rewrite app_nil_r, firstn_all2 by exact P.
  - cbn [map app read_loop]. assert (X : ((c =? 10)%N || (c =? 13)%N) = false) by (cbn in L10, L13; lia). rewrite X.
    assert (IHw := IH ltac:(intros H; apply L10; now right) ltac:(intros H; apply L13; now right)).
    destruct (Nat.ltb_spec (length phrase) (extent - 1)) as [G|G].
    + rewrite IHw by (rewrite app_length; cbn; lia). now rewrite convert_off, <- app_assoc.
    + rewrite IHw by lia. now rewrite !firstn_room, (proj2 (Nat.sub_0_le _ _) G), !firstn_O by exact P.
Qed.
Lemma phrase_line extent terminal written w e rest : written <> (-1)%Z -> line w -> In e [10%N; 13%N] ->
  GetPhrase extent terminal written EchoOffMode (typed w e ++ rest) = (true, firstn (extent - 1) w, rest).
Proof.
  intros Wr L E. unfold GetPhrase. rewrite read_line; [|exact L|exact E|cbn; lia]. cbn [app]. cbn. rewrite andb_true_r.
  destruct terminal; [|reflexivity]. destruct (Z.eqb_spec written (-1)); [contradiction|reflexivity].
Qed.

(** ** C123 *)
(** a line is taken as it is, up to the length of the buffer *)
Theorem phrase_read : forall extent terminal written w e rest, written <> (-1)%Z -> line w -> In e [10%N; 13%N] -> length w < extent ->
  GetPhrase extent terminal written EchoOffMode (typed w e ++ rest) = (true, w, rest).
Proof. intros. rewrite phrase_line by assumption. now rewrite firstn_all2 by lia. Qed.
Print Assumptions phrase_read.
(** and in every mode letters change as the mode says and nothing else does *)
Definition small (c : N) : Prop := (97 <= c <= 122)%N.
Definition capital (c : N) : Prop := (65 <= c <= 90)%N.
Definition mode_char (f : flags) (c d : N) : Prop :=
  let c := if seven_bit f then (c mod 128)%N else c in
  (~ small c -> ~ capital c -> d = c) /\
  (small c -> d = if force_upper f then (c - 32)%N else c) /\
  (capital c -> d = if force_lower f && negb (force_upper f) then (c + 32)%N else c).
Lemma convert_mode f c : mode_char f c (convert f c).
Proof.
  unfold mode_char, convert. change 127%N with (N.ones 7). rewrite N.land_ones. change (2 ^ 7)%N with 128%N. set (x := if seven_bit f then (c mod 128)%N else c).
  unfold small, capital, isalpha, tolower, toupper. destruct (force_lower f), (force_upper f); cbn [andb negb];
    repeat match goal with |- context [if ?e then _ else _] => destruct e eqn:? end; lia.
Qed.
Theorem phrase_modes : forall extent terminal written f w e rest, written <> (-1)%Z -> line w -> In e [10%N; 13%N] -> length w < extent ->
  exists w', GetPhrase extent terminal written f (typed w e ++ rest) = (true, w', rest) /\ Forall2 (mode_char f) w w'.
Proof.
  intros extent terminal written f w e rest Wr (L10 & L13) E Lw. exists (map (convert f) w). split.
  - assert (R : forall phrase, length phrase + length w < extent -> read_loop extent f (typed w e ++ rest) phrase = (1%Z, phrase ++ map (convert f) w, rest)).
    { clear Lw. unfold typed. induction w as [|c w IH]; intros phrase P; cbn [map app read_loop length] in *.
      - assert (X : ((e =? 10)%N || (e =? 13)%N) = true) by (cbn in E; lia). now rewrite X, app_nil_r.
      - assert (X : ((c =? 10)%N || (c =? 13)%N) = false) by (cbn in L10, L13; lia). rewrite X.
        destruct (Nat.ltb_spec (length phrase) (extent - 1)); [|lia].
        rewrite IH; [now rewrite <- app_assoc|intros H'; apply L10; now right|intros H'; apply L13; now right|rewrite app_length; cbn; lia]. }
    unfold GetPhrase. rewrite R by (cbn; lia). cbn [app]. destruct (terminal && negb (echo_on f)); [|reflexivity]. destruct (Z.eqb_spec written (-1)); [contradiction|reflexivity].
  - clear. induction w as [|c w IH]; cbn; constructor; [apply convert_mode|exact IH].
Qed.
Print Assumptions phrase_modes.
(** the result fits the buffer with its NUL, whatever is read *)
Theorem phrase_fits : forall extent terminal written f input, 1 <= extent -> length (snd (fst (GetPhrase extent terminal written f input))) + 1 <= extent.
Proof.
  intros extent terminal written f input E.
  assert (H : forall input phrase, length phrase <= extent - 1 -> length (snd (fst (read_loop extent f input phrase))) <= extent - 1).
  { induction input0 as [|[c| |] input0 IH]; intros phrase P; cbn [read_loop]; try exact P. destruct (_ || _); [exact P|].
    destruct (Nat.ltb_spec (length phrase) (extent - 1)); apply IH; rewrite ?app_length; cbn; lia. }
  specialize (H input [] ltac:(cbn; lia)). unfold GetPhrase. destruct (read_loop extent f input []) as ((count, phrase), rest). cbn in *. lia.
Qed.
Print Assumptions phrase_fits.
(** after attempts that differ, the line that is typed twice is the pass-phrase *)
Theorem passphrase_agreed : forall extent terminal written l w rest fuel, written <> (-1)%Z -> Forall (attempt extent) l ->
  line w -> length w < extent -> length l < fuel ->
  GetPassphrase extent terminal written fuel (attempts l ++ typed w 10 ++ typed w 10 ++ rest) = Some (Some w, rest).
Proof.
  intros extent terminal written l w rest fuel Wr F L Lw. revert fuel. induction l as [|(a, c) l IH]; intros [|fuel] Lf; try (cbn in Lf; lia).
  - cbn [attempts flat_map app GetPassphrase]. rewrite phrase_read by (try assumption; now left). cbv beta iota. cbn [negb].
    rewrite phrase_read by (try assumption; now left). cbv beta iota. cbn [negb]. destruct (list_eq_dec N.eq_dec w w); [reflexivity|contradiction].
  - inversion F as [|? ? (La & Lc & D) F']; subst. cbn [fst snd] in *. cbn [attempts flat_map GetPassphrase]. rewrite <- !app_assoc. cbn [fst snd].
    rewrite phrase_line by (try assumption; now left). cbv beta iota. cbn [negb]. rewrite phrase_line by (try assumption; now left). cbv beta iota. cbn [negb].
    destruct (list_eq_dec N.eq_dec (firstn (extent - 1) a) (firstn (extent - 1) c)); [contradiction|]. apply IH; [exact F'|cbn in Lf; lia].
Qed.
Print Assumptions passphrase_agreed.
Example passphrase_example : GetPassphrase 4096 true 1 3 (attempts [([97; 98], [97])] ++ typed [99] 10 ++ typed [99] 10)%N = Some (Some [99%N], []).
Proof. apply (passphrase_agreed 4096 true 1 [([97; 98], [97])]%N [99%N] [] 3).
  - discriminate.
  - apply Forall_cons; [|apply Forall_nil]. split; [|split]; [split; intros [H|[H|[]]]; discriminate H|split; intros [H|[]]; discriminate H|].
    cbn [fst snd]. rewrite !firstn_all2 by (apply Nat.leb_le; vm_compute; reflexivity). discriminate.
  - split; intros [H|[]]; discriminate H.
  - apply Nat.ltb_lt. vm_compute. reflexivity.
  - cbn. lia.
Qed.
(** conversely what is returned was read twice in the same way *)
Theorem passphrase_twice : forall extent terminal written fuel input p rest,
  GetPassphrase extent terminal written fuel input = Some (Some p, rest) ->
  exists before middle, GetPhrase extent terminal written EchoOffMode before = (true, p, middle) /\ GetPhrase extent terminal written EchoOffMode middle = (true, p, rest).
Proof.
  intros extent terminal written fuel. induction fuel as [|fuel IH]; intros input p rest H; [discriminate H|]. cbn [GetPassphrase] in H.
  destruct (GetPhrase extent terminal written EchoOffMode input) as (([], q), mid) eqn:E1; cbn [negb] in H; [|discriminate H].
  destruct (GetPhrase extent terminal written EchoOffMode mid) as (([], q'), r') eqn:E2; cbn [negb] in H; [|discriminate H].
  destruct (list_eq_dec N.eq_dec q q') as [<-|_].
  - injection H as <- <-. exists input, mid. now split.
  - exact (IH _ _ _ H).
Qed.
Print Assumptions passphrase_twice.

(** *** refuted *)
(** a terminal that fails, or ends, gives a pass-phrase: what was typed so far, or none *)
Theorem phrase_failure_refuted : forall extent w rest, line w -> length w < extent ->
  GetPhrase extent true 1 EchoOffMode (map Byte w ++ Fail :: rest) = (true, w, rest).
Proof.
  intros extent w rest (L10 & L13) Lw.
  assert (H : forall phrase, length phrase + length w <= extent - 1 -> read_loop extent EchoOffMode (map Byte w ++ Fail :: rest) phrase = ((-1)%Z, phrase ++ w, rest)).
  { clear Lw. induction w as [|c w IH]; intros phrase P; cbn [map app read_loop]; [now rewrite app_nil_r|].
    assert (X : ((c =? 10)%N || (c =? 13)%N) = false) by (cbn in L10, L13; lia). rewrite X. cbn in P. destruct (Nat.ltb_spec (length phrase) (extent - 1)); [|lia].
    rewrite IH; [now rewrite convert_off, <- app_assoc|intros Y; apply L10; now right|intros Y; apply L13; now right|rewrite app_length; cbn; lia]. }
  unfold GetPhrase. rewrite H by (cbn; lia). reflexivity.
Qed.
Print Assumptions phrase_failure_refuted.
Theorem passphrase_failure_refuted : forall extent rest, GetPassphrase extent true 1 1 (Fail :: Fail :: rest) = Some (Some [], rest).
Proof. reflexivity. Qed.
Print Assumptions passphrase_failure_refuted.
Theorem passphrase_end_refuted : forall extent terminal, GetPassphrase extent terminal 1 1 [] = Some (Some [], []).
Proof. intros extent []; reflexivity. Qed.
Print Assumptions passphrase_end_refuted.
(** long lines that differ are taken as the same *)
Theorem passphrase_long_refuted : forall extent written w a c rest, written <> (-1)%Z -> line (w ++ a) -> line (w ++ c) -> length w + 1 = extent ->
  GetPassphrase extent true written 1 (typed (w ++ a) 10 ++ typed (w ++ c) 10 ++ rest) = Some (Some w, rest).
Proof.
  intros extent written w a c rest Wr La Lc E. cbn [GetPassphrase].
  assert (F : forall z, firstn (extent - 1) (w ++ z) = w) by (intros z; rewrite firstn_room by lia; replace (extent - 1 - length w) with 0 by lia; apply app_nil_r).
  rewrite phrase_line by (try assumption; now left). cbv beta iota. cbn [negb]. rewrite phrase_line by (try assumption; now left). cbv beta iota. cbn [negb].
  rewrite !F. destruct (list_eq_dec N.eq_dec w w); [reflexivity|contradiction].
Qed.
Print Assumptions passphrase_long_refuted.
