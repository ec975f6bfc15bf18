(** C167, C168: the command line of the utility digest. *)
From Coq Require Import NArith ZArith Bool String Arith Lia ZifyBool ZifyNat ZifyN List.
From Verif Require Import Base Outcome CStringModel CStringSpec CStringProps OptionModel CommandModel CommandProps ScanModel DigestCommandModel.
Import ListNotations.
Local Open Scope nat_scope.

Ltac letters := cbn; repeat (apply Forall_cons; [lia|]); apply Forall_nil.

Section Digest.
Variable expand : list (list N) -> outcome (list (list N)).
Variable can_write : list N -> bool.
Variable describe : Z -> list N -> option (list N).
Variable check : list N -> outcome (option (list N * bool)).
Notation Command := (DigestCommand expand can_write describe check).

(** an argument that does not ask for authentication *)
Definition quiet (a : list N) : Prop := exists c r, a = c :: r /\ ascii r /\ map lower r <> b "authenticate".
(** what can be said: the hash of the files behind it, or a file *)
Inductive word := Hash (mnemonic : list N) (type : Z) | File (name : list N).
Definition said (w : word) : list (list N) := match w with Hash m _ => [b "-hash"; m] | File n => [n] end.
Definition word_ok (w : word) : Prop :=
  match w with
  | Hash m t => ParseWizardOption WizardHashOptions false m = Ok t /\ (0 <= t)%Z /\ quiet m
  | File n => List.hd 0%N n <> 45%N /\ quiet n
  end.
(** each file with the hash that was last named before it *)
Fixpoint with_hashes (h : Z) (ws : list word) : list (Z * list N) :=
  match ws with [] => [] | Hash _ t :: ws => with_hashes t ws | File n :: ws => (h, n) :: with_hashes h ws end.
Definition texts (l : list (Z * list N)) : list N := concat (map (fun p => match describe (fst p) (snd p) with Some t => t | None => [] end) l).
Definition missed (l : list (Z * list N)) : bool := existsb (fun p => match describe (fst p) (snd p) with Some _ => false | None => true end) l.

Lemma quiet_name r : ascii r -> map lower r <> b "authenticate" -> is_name r (b "authenticate") = false.
Proof. intros A N1. apply is_name_false; [assumption|letters|]. exact N1. Qed.
Lemma scan_quiet l rest : Forall quiet l -> rest <> [] -> authenticates (l ++ rest) = authenticates rest.
Proof.
  intros F N1. induction F as [|a l (c & r & -> & A & L) F IH]; [reflexivity|]. cbn [app].
  assert (exists x y, l ++ rest = x :: y) as (x & y & E) by (destruct l; [destruct rest; [contradiction|cbn; eauto]|cbn; eauto]).
  rewrite E in *. change (authenticates ((c :: r) :: x :: y)) with (if is_name r (b "authenticate") then Ok true else authenticates (x :: y)).
  now rewrite quiet_name.
Qed.
Lemma said_quiet w : word_ok w -> Forall quiet (said w).
Proof.
  destruct w as [m t|n]; cbn [word_ok said].
  - intros (_ & _ & Q). repeat constructor; [|exact Q]. exists 45%N, (b "hash"). split; [reflexivity|]. split; [letters|discriminate].
  - intros (_ & Q). now repeat constructor.
Qed.
Lemma saids_quiet ws : Forall word_ok ws -> Forall quiet (flat_map said ws).
Proof. induction 1 as [|w ws W F IH]; [constructor|]. cbn [flat_map]. apply Forall_app. split; [now apply said_quiet|exact IH]. Qed.
Lemma hash_turn h m rest : digest_turn h (b "-hash") (m :: rest) =
  let* t := ParseWizardOption WizardHashOptions false m in Ok (if (t <? 0)%Z then Refuse else Take t rest).
Proof. reflexivity. Qed.
Lemma file_turn h n rest : List.hd 0%N n <> 45%N -> digest_turn h n rest = Ok (Open_ n rest).
Proof. intros Q. unfold digest_turn, starts. destruct n as [|c n]; [reflexivity|]. cbn in Q. destruct (N.eqb_spec c 45); [contradiction|reflexivity]. Qed.
(** the loop reads words, then goes on *)
Definition merge (l : list (Z * list N)) (r : outcome (list N * stop * bool)) : outcome (list N * stop * bool) :=
  let* (text, how, error) := r in Ok (texts l ++ text, how, missed l || error).
Lemma merge_nil r : merge [] r = r.
Proof. destruct r as [[[t h] e]| |]; reflexivity. Qed.
Fixpoint final (h : Z) (ws : list word) : Z := match ws with [] => h | Hash _ t :: ws => final t ws | File _ :: ws => final h ws end.
Lemma loop_words ws h rest f : Forall word_ok ws -> rest <> [] ->
  digest_loop describe (length ws + f) h (flat_map said ws ++ rest) = merge (with_hashes h ws) (digest_loop describe f (final h ws) rest).
Proof.
  intros F N1. revert h. induction F as [|w ws W F IH]; intros h; [now rewrite merge_nil|].
  assert (exists x y, flat_map said ws ++ rest = x :: y) as (x & y & E) by (destruct (flat_map said ws); [destruct rest; [contradiction|cbn; eauto]|cbn; eauto]).
  destruct w as [m t|n]; cbn [flat_map said app length Nat.add with_hashes final word_ok] in *.
  - cbn [digest_loop]. rewrite hash_turn. destruct W as (-> & T & _). cbn [bind]. destruct (Z.ltb_spec t 0); [lia|]. apply IH.
  - rewrite E. cbn [digest_loop]. rewrite file_turn by tauto. rewrite <- E. cbn [bind]. rewrite IH. unfold merge.
    destruct (digest_loop describe f (final h ws) rest) as [[[te ho] er]| |]; cbn [bind]; try reflexivity.
    unfold texts, missed. cbn [map concat existsb fst snd]. destruct (describe h n); cbn [app orb]; [now rewrite <- app_assoc|reflexivity].
Qed.
Lemma command_run args args' : 2 <= length args -> expand args = Ok args' -> authenticates args' = Ok false ->
  Command args = if can_write (last args' []) then
      let* (text, how, error) := digest_loop describe (length args') 7 args' in
      Ok (match how with
          | Through _ => Returned true error (Some (last args' [], head_text ++ text ++ tail_text))
          | Refused | Unreadable => Returned false true (Some (last args' [], head_text ++ text))
          | Left_ => Exited (Some (last args' [], head_text ++ text))
          end)
    else Ok (Returned false true None).
Proof.
  intros L E A. unfold DigestCommand. destruct args as [|a [|a2 args]]; cbn [length] in L; [lia..|].
  destruct a; rewrite E; cbn [bind]; rewrite A; cbn [bind]; destruct (can_write _); reflexivity.
Qed.
Lemma said_length ws : length ws <= length (flat_map said ws).
Proof. induction ws as [|[m t|n] ws IH]; cbn [flat_map said app length]; lia. Qed.

(** ** C167: each file is described once, in order, with the hash that was last named before it (SHA2-256 if none was) *)
Theorem digest_describes : forall args ws output, 2 <= length args -> expand args = Ok (flat_map said ws ++ [output]) -> Forall word_ok ws -> can_write output = true ->
  Command args = Ok (Returned true (missed (with_hashes 7 ws)) (Some (output, head_text ++ texts (with_hashes 7 ws) ++ tail_text))).
Proof.
  intros args ws output L E F W. assert (LA : last (flat_map said ws ++ [output]) [] = output) by apply last_last.
  rewrite (command_run args _ L E); [|rewrite scan_quiet; [reflexivity|now apply saids_quiet|discriminate]]. rewrite LA, W.
  rewrite app_length. cbn [length]. pose proof (said_length ws). replace (length (flat_map said ws) + 1) with (length ws + (length (flat_map said ws) - length ws + 1)) by lia.
  rewrite loop_words by (assumption || discriminate).
  rewrite Nat.add_1_r. cbn [digest_loop merge bind]. now rewrite orb_false_r, app_nil_r.
Qed.
(** the files behind the last -hash have this hash *)
Theorem digest_hash : forall h pre m t names, with_hashes h (pre ++ Hash m t :: map File names) = with_hashes h pre ++ map (fun n => (t, n)) names.
Proof.
  intros h pre m t names. revert h. induction pre as [|[m' t'|n] pre IH]; intros h; cbn [app with_hashes]; [|apply IH|now rewrite IH].
  induction names as [|n names IH]; [reflexivity|]. cbn [map with_hashes]. now rewrite IH.
Qed.
(** what is written is the digest file that is authenticated (C59) *)
Theorem digest_written : forall canonical (e : Z -> list N -> entry) args ws output, 2 <= length args -> expand args = Ok (flat_map said ws ++ [output]) -> Forall word_ok ws -> can_write output = true ->
  (forall h n, In (h, n) (with_hashes 7 ws) -> describe h n = Some (write_entry canonical (e h n))) ->
  Command args = Ok (Returned true false (Some (output, write_digest canonical (map (fun p => e (fst p) (snd p)) (with_hashes 7 ws))))).
Proof.
  intros canonical e args ws output L E F W D. rewrite (digest_describes args ws output L E F W).
  assert (missed (with_hashes 7 ws) = false /\ texts (with_hashes 7 ws) = concat (map (write_entry canonical) (map (fun p => e (fst p) (snd p)) (with_hashes 7 ws)))) as (-> & ->).
  { revert D. unfold missed, texts. generalize (with_hashes 7 ws). induction l as [|[h n] l IH]; intros D; [split; reflexivity|]. cbn [map concat existsb fst snd].
    rewrite D by now left. destruct IH as (-> & ->); [intros; apply D; now right|]. split; reflexivity. }
  do 4 f_equal.
Qed.
(** what is no option is refused, behind the texts of the files before it *)
Definition options : list (list N) := map b ["authenticate"; "debug"; "hash"; "help"; "-help"; "list"; "log"; "version"]%string.
Theorem digest_unknown : forall args ws o rest output, 2 <= length args -> expand args = Ok (flat_map said ws ++ (45%N :: o) :: rest ++ [output]) -> Forall word_ok ws ->
  Forall quiet rest -> ascii o -> ~ In (map lower o) options -> can_write output = true ->
  Command args = Ok (Returned false true (Some (output, head_text ++ texts (with_hashes 7 ws)))).
Proof.
  intros args ws o rest output L E F Q A U W.
  assert (LA : last (flat_map said ws ++ (45%N :: o) :: rest ++ [output]) [] = output) by (rewrite app_comm_cons, app_assoc; apply last_last).
  assert (K : forall n, In n options -> is_name n o = false /\ is_name o n = false /\ is_name (45%N :: o) (45%N :: n) = false).
  { intros n J. assert (ascii n /\ map lower n = n) as (An & Ln). { repeat (destruct J as [<-|J]; [split; [letters|reflexivity]|]). contradiction. }
    repeat split; apply is_name_false; try assumption; try (constructor; [lia|assumption]); cbn [map]; rewrite Ln.
    - intros ->. contradiction.
    - intros Z. now rewrite Z in U.
    - intros Z. apply (f_equal (@List.tl N)) in Z. cbn [List.tl] in Z. now rewrite Z in U. }
  assert (exists r0 rs, rest ++ [output] = r0 :: rs) as (r0 & rs & R) by (destruct rest; cbn; eauto).
  rewrite (command_run args _ L E).
  2:{ rewrite scan_quiet; [|now apply saids_quiet|discriminate]. rewrite R.
      change (authenticates ((45%N :: o) :: r0 :: rs)) with (if is_name o (b "authenticate") then Ok true else authenticates (r0 :: rs)).
      rewrite (proj1 (proj2 (K (b "authenticate") ltac:(cbn; tauto)))), <- R. rewrite scan_quiet; [reflexivity|assumption|discriminate]. }
  rewrite LA, W, app_length. cbn [length]. pose proof (said_length ws).
  replace (length (flat_map said ws) + S (length (rest ++ [output]))) with (length ws + S (length (flat_map said ws) - length ws + length (rest ++ [output]))) by lia.
  rewrite loop_words by (assumption || discriminate). rewrite R. cbn [digest_loop].
  assert (digest_turn (final 7 ws) (45%N :: o) (r0 :: rs) = Ok Refuse) as ->.
  { unfold digest_turn, debug_option, log_option, version_option. cbn [starts N.eqb Pos.eqb negb List.tl].
    change (b "-debug") with (45%N :: b "debug"). change (b "-version") with (45%N :: b "version").
    rewrite (proj2 (proj2 (K (b "debug") ltac:(cbn; tauto)))), (proj2 (proj2 (K (b "version") ltac:(cbn; tauto)))).
    rewrite (proj1 (K (b "hash") ltac:(cbn; tauto))), (proj1 (K (b "help") ltac:(cbn; tauto))), (proj1 (K (b "-help") ltac:(cbn; tauto))), (proj1 (K (b "list") ltac:(cbn; tauto))), (proj1 (K (b "log") ltac:(cbn; tauto))). cbn [orb].
    repeat match goal with |- (if ?x then _ else _) = _ => destruct x end; reflexivity. }
  cbn [bind merge]. now rewrite app_nil_r.
Qed.

(** the digest files that are read *)
Definition digest_name (a : list N) : Prop := List.hd 0%N a <> 45%N /\ quiet a.
Lemma check_names names rest f k text error : Forall digest_name names -> rest <> [] ->
  (forall a, In a names -> check a = Ok (Some (text a, error a))) ->
  check_loop check (length names + f) (names ++ rest) k =
  let* (more, how, e) := check_loop check f rest (length names + k) in Ok (concat (map text names) ++ more, how, existsb error names || e).
Proof.
  intros F N1. revert k. induction F as [|a names (A1 & A2) F IH]; intros k C.
  - cbn. destruct (check_loop _ _ _ _) as [[[? ?] ?]| |]; reflexivity.
  - assert (exists x y, names ++ rest = x :: y) as (x & y & E) by (destruct names; [destruct rest; [contradiction|cbn; eauto]|cbn; eauto]).
    cbn [app length Nat.add]. rewrite E. cbn [check_loop]. rewrite <- E.
    assert (check_turn a (names ++ rest) = Ok (Open_ a (names ++ rest))) as ->.
    { unfold check_turn, starts. destruct a as [|c n]; [reflexivity|]. cbn in A1. destruct (N.eqb_spec c 45); [contradiction|reflexivity]. }
    cbn [bind]. rewrite C by now left. cbn [bind]. rewrite IH by (intros; apply C; now right).
    replace (length names + S k) with (S (length names + k)) by lia.
    destruct (check_loop _ f rest _) as [[[? ?] ?]| |]; cbn [bind map concat existsb]; try reflexivity. now rewrite app_assoc, orb_assoc.
Qed.
(** ** with -authenticate the reports on all digest files but the last name are in the file of the last name *)
Theorem digest_authenticates : forall args before behind output text error, 2 <= length args -> expand args = Ok (before ++ b "-authenticate" :: behind ++ [output]) ->
  Forall digest_name (before ++ behind) -> before ++ behind <> [] -> can_write output = true ->
  (forall a, In a (before ++ behind) -> check a = Ok (Some (text a, error a))) ->
  Command args = Ok (Returned false (existsb error (before ++ behind)) (Some (output, concat (map text (before ++ behind))))).
Proof.
  intros args before behind output text error L E F N1 W C. apply Forall_app in F as [F1 F2].
  assert (A : authenticates (before ++ b "-authenticate" :: behind ++ [output]) = Ok true).
  { rewrite scan_quiet; [|eapply Forall_impl; [|exact F1]; intros a D; apply D|discriminate]. destruct (behind ++ [output]) eqn:Q; [destruct behind; discriminate|].
    change (b "-authenticate") with (45%N :: b "authenticate"). reflexivity. }
  assert (LA : last (before ++ b "-authenticate" :: behind ++ [output]) [] = output) by (rewrite app_comm_cons, app_assoc; apply last_last).
  unfold DigestCommand. destruct args as [|a [|a2 args]]; cbn [length] in L; [lia..|].
  assert (K : AuthenticateDigest can_write check (before ++ b "-authenticate" :: behind ++ [output]) =
    Ok (Returned false (existsb error (before ++ behind)) (Some (output, concat (map text (before ++ behind)))))).
  2:{ destruct a; rewrite E; cbn [bind]; rewrite A; cbn [bind]; exact K. }
  unfold AuthenticateDigest. rewrite LA, W. cbn [negb]. rewrite app_length.
  rewrite (check_names before _ _ 0 text error) by (try assumption; try discriminate; intros; apply C, in_or_app; now left).
  cbn [length]. assert (exists r0 rs, behind ++ [output] = r0 :: rs) as (r0 & rs & R) by (destruct behind; cbn; eauto).
  rewrite R at 2. cbn [check_loop]. change (check_turn (b "-authenticate") (r0 :: rs)) with (Ok (Take 0 (r0 :: rs))). cbn [bind]. rewrite <- R.
  rewrite app_length. rewrite (check_names behind [output] _ _ text error) by (try assumption; try discriminate; intros; apply C, in_or_app; now right).
  cbn [length check_loop bind]. rewrite !app_nil_r, !orb_false_r, map_app, concat_app, existsb_app.
  destruct (length behind + (length before + 0)) eqn:Z; [|reflexivity].
  destruct before, behind; cbn in Z; try lia. contradiction.
Qed.

(** ** What does not work *)
(** the usage: -authenticate and one digest file; it is emptied and not read *)
Theorem authenticate_usage_refuted : forall file, expand [b "-authenticate"; file] = Ok [b "-authenticate"; file] -> can_write file = true ->
  Command [b "-authenticate"; file] = Ok (Returned false true (Some (file, []))).
Proof.
  intros file E W. unfold DigestCommand. change (b "-authenticate") with (45%N :: b "authenticate") in *. rewrite E. cbn [bind]. change (authenticates [45%N :: b "authenticate"; file]) with (Ok true : outcome bool). cbn [bind].
  unfold AuthenticateDigest. cbn [last]. rewrite W. reflexivity.
Qed.
(** that files have changed is not told by the exit code *)
Theorem authenticate_exit_refuted : forall args before behind output text, 2 <= length args -> expand args = Ok (before ++ b "-authenticate" :: behind ++ [output]) ->
  Forall digest_name (before ++ behind) -> before ++ behind <> [] -> can_write output = true ->
  (forall a, In a (before ++ behind) -> check a = Ok (Some (text a, false))) ->
  exists e, Command args = Ok e /\ exit_code e false = 0.
Proof.
  intros args before behind output text L E F N1 W C. eexists. split; [eapply (digest_authenticates args before behind output text (fun _ => false)); eassumption|].
  assert (existsb (fun _ => false) (before ++ behind) = false) as ->; [|reflexivity]. clear. induction (before ++ behind); [reflexivity|assumption].
Qed.
(** nor is that files could not be read *)
Theorem digest_exit_refuted : forall args ws output, 2 <= length args -> expand args = Ok (flat_map said ws ++ [output]) -> Forall word_ok ws -> can_write output = true ->
  (exists n, In (File n) ws) -> (forall h n, describe h n = None) ->
  exists e, Command args = Ok e /\ e = Returned true true (Some (output, head_text ++ tail_text)) /\ exit_code e false = 0 /\ exit_code e true = 0.
Proof.
  intros args ws output L E F W (n & I) D. eexists. split; [exact (digest_describes args ws output L E F W)|].
  assert (texts (with_hashes 7 ws) = []) as ->. { unfold texts. induction (with_hashes 7 ws) as [|p l IH]; [reflexivity|]. cbn. rewrite D. exact IH. }
  assert (missed (with_hashes 7 ws) = true) as ->; [|repeat split]. clear - I D. generalize 7%Z. induction ws as [|[m t|x] ws IH]; intros h; [destruct I| |].
  - destruct I as [I|I]; [discriminate|]. now apply IH.
  - cbn. now rewrite D.
Qed.
(** a file whose name ends with authenticate behind one character is not described but read as a digest file *)
Theorem authenticate_name_refuted : forall c output text error, c <> 45%N -> expand [c :: b "authenticate"; output] = Ok [c :: b "authenticate"; output] -> can_write output = true ->
  check (c :: b "authenticate") = Ok (Some (text, error)) ->
  Command [c :: b "authenticate"; output] = Ok (Returned false error (Some (output, text))).
Proof.
  intros c output text error N1 E W C. unfold DigestCommand. rewrite E. cbn [bind]. change (authenticates [c :: b "authenticate"; output]) with (Ok true : outcome bool). cbn [bind].
  unfold AuthenticateDigest. cbn [last length]. rewrite W. cbn [negb check_loop]. unfold check_turn, starts. destruct (N.eqb_spec c 45); [contradiction|]. cbn [negb bind]. rewrite C. cbn [bind]. now rewrite app_nil_r, orb_false_r.
Qed.
(** -list writes the head of a digest file into the file that is named as what to list *)
Theorem digest_list_refuted : expand [b "-list"; b "cipher"] = Ok [b "-list"; b "cipher"] -> can_write (b "cipher") = true ->
  Command [b "-list"; b "cipher"] = Ok (Exited (Some (b "cipher", head_text))).
Proof. intros E W. erewrite command_run; [|cbn; lia|exact E|reflexivity]. cbn [last]. rewrite W. vm_compute. reflexivity. Qed.
(** the standard input is no file, although its name is documented for files and can be the output *)
Theorem digest_dash_refuted : forall output, expand [b "-"; output] = Ok [b "-"; output] -> can_write output = true ->
  Command [b "-"; output] = Ok (Returned false true (Some (output, head_text))).
Proof. intros output E W. erewrite command_run; [|cbn; lia|exact E|reflexivity]. cbn [last length]. rewrite W. cbn [digest_loop]. change (digest_turn 7 (b "-") [output]) with (Ok Refuse). cbn [bind]. now rewrite app_nil_r. Qed.
End Digest.

(** ** Examples *)
Definition a_describe (h : Z) (n : list N) : option (list N) :=
  if list_eq_dec N.eq_dec n (b "missing") then None else Some (b "<" ++ [Z.to_N (48 + h)] ++ n ++ b ">").
Definition a_check (n : list N) : outcome (option (list N * bool)) :=
  Ok (if list_eq_dec N.eq_dec n (b "missing") then None else Some (b "changed in " ++ n ++ [10%N], false)).
Definition some_words : list word := [File (b "x"); Hash (b "MD5") 3; File (b "y"); File (b "missing")].
Example words_example : Forall word_ok some_words.
Proof.
  repeat constructor; cbn; try (vm_compute; reflexivity); try discriminate; try lia; (do 2 eexists; split; [reflexivity|]; split; [letters|discriminate]).
Qed.
Example describes_example : DigestCommand Ok (fun _ => true) a_describe a_check [b "x"; b "-hash"; b "MD5"; b "y"; b "missing"; b "out.rdf"] =
  Ok (Returned true true (Some (b "out.rdf", head_text ++ b "<7x><3y>" ++ tail_text))).
Proof. apply (digest_describes Ok (fun _ => true) a_describe a_check _ some_words (b "out.rdf")); [cbn; lia|reflexivity|exact words_example|reflexivity]. Qed.
Example unknown_example : DigestCommand Ok (fun _ => true) a_describe a_check [b "x"; b "-sha"; b "y"; b "out.rdf"] = Ok (Returned false true (Some (b "out.rdf", head_text ++ b "<7x>"))).
Proof. vm_compute. reflexivity. Qed.
Example authenticates_example : DigestCommand Ok (fun _ => true) a_describe a_check [b "-authenticate"; b "d.rdf"; b "e.rdf"; b "out"] =
  Ok (Returned false false (Some (b "out", b "changed in d.rdf" ++ [10%N] ++ b "changed in e.rdf" ++ [10%N]))).
Proof.
  apply (digest_authenticates Ok (fun _ => true) a_describe a_check _ [] [b "d.rdf"; b "e.rdf"] (b "out") (fun n => b "changed in " ++ n ++ [10%N]) (fun _ => false)); try reflexivity; try discriminate; [cbn; lia| |].
  - repeat constructor; cbn; try discriminate; (do 2 eexists; split; [reflexivity|]; split; [letters|discriminate]).
  - intros a [<-|[<-|[]]]; reflexivity.
Qed.
Print Assumptions digest_describes.
Print Assumptions digest_hash.
Print Assumptions digest_written.
Print Assumptions digest_unknown.
Print Assumptions digest_authenticates.
Print Assumptions authenticate_usage_refuted.
Print Assumptions authenticate_exit_refuted.
Print Assumptions digest_exit_refuted.
Print Assumptions authenticate_name_refuted.
Print Assumptions digest_list_refuted.
Print Assumptions digest_dash_refuted.
