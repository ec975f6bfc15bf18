(** C301: the name of the log. *)
From Coq Require Import NArith ZArith Arith Lia List.
From Verif Require Import Base Outcome CStringModel CStringSpec CStringProps ClientModel ClientProps LogNameModel.
Import ListNotations.

(** the last of the texts that is not empty, as far as it fits *)
Fixpoint last_name (E : nat) (names : list (option (list N))) (n : list N) : list N :=
  match names with
  | [] => n
  | Some (c :: t) :: names => last_name E names (firstn (E - 1) (c :: t))
  | _ :: names => last_name E names n
  end.
Definition given (o : option (list N)) : source := match o with Some t => Text t | None => Null end.

Lemma set_log_name E b s : SetLogName E b s = set_client E b s.
Proof. reflexivity. Qed.
Lemma start_has E : 6 < E -> has E (log_name_at_start E) wizard.
Proof.
  intros H. unfold log_name_at_start. split; [rewrite app_length, repeat_length; cbn [length]; lia|]. split; [repeat constructor|]. split; [exact H|].
  destruct (E - 6) as [|k] eqn:K; [lia|]. exists (repeat 0%N k). reflexivity.
Qed.
Lemma names_has E : 6 < E -> forall names b n, has E b n -> (forall t, In (Some t) names -> text t) ->
  exists b', fold_outcome (SetLogName E) (map given names) b = Ok b' /\ has E b' (last_name E names n).
Proof.
  intros X. induction names as [|o names IH]; intros b n H T; [exists b; split; [reflexivity|exact H]|].
  cbn [map fold_outcome]. rewrite set_log_name. destruct (set_client_ok E (fun _ => 0%Z) (fun _ => false) X b n (given o) H) as (b' & -> & H').
  { destruct o as [t|]; cbn [given sensible]; [apply T; left; reflexivity|exact I]. }
  cbn [bind]. destruct (IH b' _ H' ltac:(intros t It; apply T; right; exact It)) as (b2 & R). exists b2. destruct o as [[|c t]|]; exact R.
Qed.
(** The name of the log is the last one given that is not empty, cut to what fits, and Wizard before; the buffer keeps its size. *)
Theorem log_name_last : forall E names, 6 < E -> (forall t, In (Some t) names -> text t) ->
  exists b, set_names E (map given names) = Ok b /\ GetLogName b = Ok (last_name E names [87; 105; 122; 97; 114; 100]%N) /\ length b = E /\
    length (last_name E names [87; 105; 122; 97; 114; 100]%N) < E.
Proof.
  intros E names X T. destruct (names_has E X names _ _ (start_has E X) T) as (b & R & L & Tn & B & rest & Eb). exists b.
  split; [exact R|]. split; [subst b; apply c_string_ok, Tn|]. split; [exact L|exact B].
Qed.
(** Giving back a place in the returned name leaves what is there from that place on, or the name if that is nothing. *)
Theorem log_name_own : forall E names k, 6 < E -> (forall t, In (Some t) names -> text t) ->
  let n := last_name E names [87; 105; 122; 97; 114; 100]%N in k <= length n ->
  exists b, set_names E (map given names ++ [Own k]) = Ok b /\ length b = E /\ GetLogName b = Ok (match skipn k n with [] => n | r => r end).
Proof.
  intros E names k X T n K. destruct (names_has E X names _ _ (start_has E X) T) as (b & R & H).
  destruct (set_client_ok E (fun _ => 0%Z) (fun _ => false) X b n (Own k) H K) as (b' & R' & L & Tn & B & rest & Eb). exists b'. unfold set_names. rewrite fold_outcome_app, R. cbn [bind fold_outcome].
  rewrite set_log_name, R'. split; [reflexivity|]. split; [exact L|]. subst b'. apply c_string_ok, Tn.
Qed.
Example log_name_ex : let names := [Some [97; 98]; None; Some [99; 100; 101; 102; 103; 104; 105; 106; 107]; Some []]%N in
  (forall t, In (Some t) names -> text t) /\ last_name 8 names wizard = [99; 100; 101; 102; 103; 104; 105]%N /\
  (let* b := set_names 8 (map given names) in GetLogName b) = Ok [99; 100; 101; 102; 103; 104; 105]%N /\
  (let* b := set_names 8 (map given names ++ [Own 4]) in GetLogName b) = Ok [103; 104; 105]%N.
Proof. split; [|repeat split; reflexivity]. intros t [[= <-]|[[=]|[[= <-]|[[= <-]|[]]]]]; repeat constructor. Qed.

Print Assumptions log_name_last.
Print Assumptions log_name_own.
