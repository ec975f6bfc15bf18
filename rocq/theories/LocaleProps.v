(** Messages of a locale (C116). *)
From Coq Require Import NArith ZArith Bool String Lia ZifyBool ZifyNat ZifyN Arith List.
From Verif Require Import Base Outcome CStringModel CStringProps OptionModel ArgvModel ArgvProps TokenModel TokenProps LocaleModel.
Import ListNotations.

(** ** Specification: a locale file and the messages in it *)
Inductive forest :=
| Nil
| Message (name text : list N) (rest : forest)
| Group (name : list N) (body rest : forest).
(** as XML, with white space [sp] between the tags *)
Fixpoint print (sp : list N) (f : forest) : list N :=
  match f with
  | Nil => []
  | Message n m r => b "<message name=" ++ [34%N] ++ escaped 34 n ++ [34%N] ++ b ">" ++ sp ++ m ++ sp ++ b "</message>" ++ sp ++ print sp r
  | Group n body r => b "<" ++ n ++ b ">" ++ sp ++ print sp body ++ b "</" ++ n ++ b ">" ++ sp ++ print sp r
  end.
Definition document (sp name : list N) (f : forest) : list N :=
  b "<?xml version=" ++ [34%N] ++ b "1.0" ++ [34%N] ++ b "?>" ++ sp ++ b "<localemap>" ++ sp ++ b "<locale name=" ++ [34%N] ++ escaped 34 name ++ [34%N] ++ b ">" ++ sp ++ print sp f ++
  b "</locale>" ++ sp ++ b "</localemap>" ++ sp.
(** the messages by the names of the groups they are in *)
Fixpoint entries (path : list N) (f : forest) : list (list N * list N) :=
  match f with
  | Nil => []
  | Message n m r => (path ++ n ++ [47%N], m) :: entries path r
  | Group n body r => entries (path ++ n ++ [47%N]) body ++ entries path r
  end.

Definition trimmed (m : list N) : Prop :=
  match m with [] => True | c :: _ => ~ blank c /\ ~ blank (last m 0%N) end.
Definition group_name (n : list N) : Prop :=
  (exists c w, n = c :: w /\ isalpha c = true) /\ Forall word_char n /\ ~ In 92%N n /\ ~ In 47%N n /\
  like n (b "message") = false /\ like n (b "locale") = false /\ like n (b "localemap") = false.
(** what a file must look like: messages are inside of groups, names and texts have no
    slash, and the texts no '<'; all fits the buffers *)
Fixpoint good (L : nat) (path : list N) (f : forest) : Prop :=
  match f with
  | Nil => True
  | Message n m r =>
      path <> [] /\ ~ In 47%N n /\ ~ In 47%N m /\ ~ In 60%N m /\ trimmed m /\ like (firstn 4 n) (b "url(") = false /\
      ~ (exists w, n = 62%N :: w) /\
      length path + length n + length m + 2 < L /\ good L path r
  | Group n body r => group_name n /\ length path + length n + 4 < L /\ good L (path ++ n ++ [47%N]) body /\ good L path r
  end.

(** ** Chopping *)
Lemma nth_app_in (a w : list N) c : nth (length a) (a ++ c :: w) 0%N = c.
Proof. rewrite app_nth2, Nat.sub_diag by lia. reflexivity. Qed.
Lemma chop_back_0 p a : chop_back 0 p a = a.
Proof. now destruct p. Qed.
Lemma chop_to_slash a w count : ~ In 47%N w -> a <> [] -> forall k, k <= length w + 1 ->
  chop_back (S count) (length a + k) (a ++ 47%N :: w) = chop_back count (length a - 1) a.
Proof.
  intros W A. destruct a as [|a0 a]; [contradiction|]. induction k as [|k IH]; intros K.
  - rewrite Nat.add_0_r. cbn [length chop_back]. change (S (length a)) with (length (a0 :: a)). rewrite nth_app_in. change (47 =? 47)%N with true. cbv iota.
    rewrite firstn_app, Nat.sub_diag, firstn_all. cbn [firstn]. rewrite app_nil_r. f_equal. cbn. lia.
  - rewrite Nat.add_succ_r. cbn [chop_back]. rewrite app_nth2 by lia. replace (S (length (a0 :: a) + k) - length (a0 :: a)) with (S k) by lia.
    cbn [nth]. destruct (N.eqb_spec (nth k w 0%N) 47) as [H|_]; [|apply IH; lia]. exfalso. apply W. rewrite <- H.
    destruct (Nat.lt_ge_cases k (length w)) as [G|G]; [now apply nth_In|]. rewrite nth_overflow in H by lia. discriminate.
Qed.
Lemma chop_no_slash w count : ~ In 47%N w -> forall k, chop_back (S count) k w = [].
Proof.
  intros W. induction k as [|k IH]; [reflexivity|]. cbn [chop_back]. destruct (N.eqb_spec (nth (S k) w 0%N) 47) as [H|_]; [|exact IH].
  exfalso. apply W. rewrite <- H. destruct (Nat.lt_ge_cases (S k) (length w)) as [G|G]; [now apply nth_In|]. rewrite nth_overflow in H by lia. discriminate.
Qed.
(** a path is empty or ends with a slash that is not its first byte *)
Definition path_ok (path : list N) : Prop := path = [] \/ exists a, a <> [] /\ path = a ++ [47%N].
Lemma chop_group path n : path_ok path -> n <> [] -> ~ In 47%N n ->
  ChopLocaleComponents (path ++ n ++ [47%N]) 1 = removelast path.
Proof.
  intros P Nn Sn. unfold ChopLocaleComponents. destruct (path ++ n ++ [47%N]) as [|x y] eqn:Ex; [destruct path, n; discriminate|]. rewrite <- Ex. clear x y Ex.
  replace (length (path ++ n ++ [47%N]) - 1) with (length (path ++ n)) by (rewrite !app_length; cbn; lia).
  rewrite (app_assoc path n). rewrite nth_app_in. change (47 =? 47)%N with true. cbv iota.
  rewrite firstn_app, Nat.sub_diag, firstn_all. cbn [firstn]. rewrite app_nil_r. destruct P as [->|(a & A & ->)].
  - cbn [app removelast]. now apply chop_no_slash.
  - rewrite <- app_assoc. cbn [app]. rewrite app_length. cbn [length].
    rewrite chop_to_slash by (try assumption; lia). rewrite chop_back_0. now rewrite removelast_last.
Qed.
Lemma chop_message a n m : a <> [] -> ~ In 47%N n -> ~ In 47%N m ->
  ChopLocaleComponents (a ++ [47%N] ++ n ++ [47%N] ++ m ++ [10%N]) 2 = a.
Proof.
  intros A Sn T. unfold ChopLocaleComponents. destruct (a ++ [47%N] ++ n ++ [47%N] ++ m ++ [10%N]) as [|x y] eqn:Ex; [destruct a; discriminate|]. rewrite <- Ex. clear x y Ex.
  replace (length (a ++ [47%N] ++ n ++ [47%N] ++ m ++ [10%N]) - 1) with (length (a ++ [47%N] ++ n ++ [47%N] ++ m)) by (rewrite !app_length; cbn; lia).
  replace (a ++ [47%N] ++ n ++ [47%N] ++ m ++ [10%N]) with ((a ++ [47%N] ++ n ++ [47%N] ++ m) ++ 10%N :: []) at 1 by now rewrite <- !app_assoc.
  rewrite nth_app_in. change (10 =? 47)%N with false. cbv iota.
  replace (a ++ [47%N] ++ n ++ [47%N] ++ m ++ [10%N]) with ((a ++ 47%N :: n) ++ 47%N :: (m ++ [10%N])) by now rewrite <- !app_assoc.
  replace (length (a ++ [47%N] ++ n ++ [47%N] ++ m)) with (length (a ++ 47%N :: n) + S (length m)) by (rewrite !app_length; cbn; lia).
  rewrite chop_to_slash; [| |now destruct a|rewrite app_length; cbn; lia].
  - replace (length (a ++ 47%N :: n) - 1) with (length a + length n) by (rewrite app_length; cbn; lia).
    rewrite chop_to_slash by (try assumption; lia). apply chop_back_0.
  - rewrite in_app_iff. intros [I|[I|[]]]; [now apply T|discriminate].
Qed.

(** ** Tokens of tags *)
(** what StringToDouble may take for a number *)
Definition may_be_number (s : list N) : bool :=
  match s with
  | c :: _ => ((48 <=? c) && (c <=? 57))%N || (c =? 43)%N || (c =? 45)%N || (c =? 46)%N || like (firstn 3 s) (b "inf") || like (firstn 3 s) (b "nan")
  | [] => false
  end.
Definition starts_solid (r : list N) : Prop := match r with [] => True | c :: _ => ~ blank c end.
Lemma blanks_32 : blanks [32%N].
Proof. apply Forall_cons; [unfold blank; cbn; lia|apply Forall_nil]. Qed.
Section Tokens.
Variable E : nat.
Variable strtod : list N -> nat.
Variable extent : nat.
Hypothesis numbers : forall s, may_be_number s = false -> strtod s = 0.
Notation next := (GetNextToken E strtod extent).
Notation put := (TokenModel.put extent).

Lemma word_first w r : Forall word_char w -> ~ In 92%N w -> length w + 2 < extent ->
  word_token extent false 0 (60%N :: w ++ 62%N :: r) [] = Ok (60%N :: w ++ [62%N], 62%N :: r).
Proof.
  intros W B Le. cbn [word_token]. change (ends_word 60) with false. cbn [andb length Nat.ltb Nat.leb N.eqb Pos.eqb].
  rewrite put_room by (cbn; lia). cbn [app]. rewrite word_token_gt by (try assumption; cbn; lia). reflexivity.
Qed.
Lemma token_tag w r : Forall word_char w -> ~ In 92%N w -> length w + 2 < extent ->
  next (60%N :: w ++ 62%N :: r) = Ok (60%N :: w ++ [62%N], 62%N :: r).
Proof.
  intros W B Le. unfold GetNextToken. rewrite spaces_off_stop by (unfold blank; cbn; lia). change (closing 60) with (@None N). cbv iota.
  change (60 =? 47)%N with false. cbv iota. rewrite numbers by reflexivity. cbn [Nat.ltb Nat.leb andb].
  change (negb (isalpha 60) && negb (60 =? 35)%N && negb (60 =? 60)%N) with false. cbv iota.
  rewrite word_first by assumption. cbn [bind]. rewrite strip_url_not by reflexivity. reflexivity.
Qed.
Lemma token_open w r : w <> [] -> Forall word_char w -> ~ In 92%N w -> length w + 2 < extent -> starts_solid r ->
  next (60%N :: w ++ 32%N :: r) = Ok (60%N :: w, r).
Proof.
  intros Nw W B Le R. unfold GetNextToken. rewrite spaces_off_stop by (unfold blank; cbn; lia). change (closing 60) with (@None N). cbv iota.
  change (60 =? 47)%N with false. cbv iota. rewrite numbers by reflexivity. cbn [Nat.ltb Nat.leb andb].
  change (negb (isalpha 60) && negb (60 =? 35)%N && negb (60 =? 60)%N) with false. cbv iota.
  cbn [word_token]. change (ends_word 60) with false. cbn [andb length Nat.ltb Nat.leb N.eqb Pos.eqb].
  rewrite put_room by (cbn; lia). cbn [app]. rewrite word_token_ok; try assumption; try (now left); try (cbn; lia).
  cbn [bind app]. rewrite strip_url_not by reflexivity. cbn [bind]. change (32%N :: r) with ([32%N] ++ r).
  rewrite spaces_off_app by (try exact R; exact blanks_32). reflexivity.
Qed.
Lemma token_symbol c s r : In c [61; 62; 63]%N -> 2 <= extent -> blanks s -> starts_solid r -> next (c :: s ++ r) = Ok ([c], r).
Proof.
  intros C Le S0 R. unfold GetNextToken. assert (X : ~ blank c) by (unfold blank; cbn in *; lia). rewrite spaces_off_stop by exact X.
  assert (Y : closing c = None /\ (c =? 47)%N = false /\ may_be_number (c :: s ++ r) = false /\ (negb (isalpha c) && negb (c =? 35)%N && negb (c =? 60)%N) = true /\
    like (firstn 4 [c]) (b "url(") = false).
  { cbn in C. destruct C as [<-|[<-|[<-|[]]]]; repeat split. }
  destruct Y as (-> & -> & M & -> & U). rewrite numbers by exact M. cbn [Nat.ltb Nat.leb andb].
  destruct (extent - 1) eqn:Ee; [lia|]. cbv iota. cbn [bind]. rewrite strip_url_not by exact U. cbn [bind]. now rewrite spaces_off_app.
Qed.
Lemma token_name r : 5 <= extent -> next (b "name" ++ 61%N :: r) = Ok (b "name", 61%N :: r).
Proof.
  intros Le. apply (token_word E strtod extent [] 110%N (b "ame") [] 61%N r); try (cbn; lia); try reflexivity; try apply Forall_nil.
  - repeat (apply Forall_cons; [unfold word_char; cbn; lia|]); apply Forall_nil.
  - now apply numbers.
Qed.
Lemma token_value n r : length n < extent -> like (firstn 4 n) (b "url(") = false -> starts_solid r ->
  next (34%N :: escaped 34 n ++ 34%N :: r) = Ok (n, r).
Proof.
  intros Le U R. apply (token_quoted E strtod extent [] 34%N 34%N n [] r); try assumption; try apply Forall_nil; first [reflexivity | now left].
Qed.
End Tokens.

(** ** Comparisons *)
Lemma like_snoc s t x : like (s ++ [x]) (t ++ [x]) = like s t.
Proof.
  revert t. induction s as [|c s IH]; intros [|d t]; cbn [app like].
  - now rewrite Z.eqb_refl.
  - destruct (t ++ [x]) eqn:Q; [now destruct t|]. cbn. apply andb_false_r.
  - destruct (s ++ [x]) eqn:Q; [now destruct s|]. cbn. apply andb_false_r.
  - now rewrite IH.
Qed.
Lemma like_snoc_not s t x y : ascii_map x <> ascii_map y -> like (s ++ [x]) (t ++ [y]) = false.
Proof.
  intros H. revert t. induction s as [|c s IH]; intros [|d t]; cbn [app like].
  - destruct (Z.eqb_spec (ascii_map x) (ascii_map y)); [contradiction|reflexivity].
  - destruct (t ++ [y]) eqn:Q; [now destruct t|]. cbn. apply andb_false_r.
  - destruct (s ++ [x]) eqn:Q; [now destruct s|]. cbn. apply andb_false_r.
  - rewrite IH. apply andb_false_r.
Qed.
Lemma alpha_map c : isalpha c = true -> (97 <= ascii_map c <= 122)%Z.
Proof.
  intros H. assert (C : (c < 128)%N) by (unfold isalpha in H; lia). rewrite ascii_map_ascii by exact C.
  unfold isalpha in H. unfold CStringSpec.lower. destruct ((65 <=? c)%N && (c <=? 90)%N) eqn:U; lia.
Qed.

Section Turns.
Variable L E : nat.
Variable strtod : list N -> nat.
Variable locale : list N.
Variable extent : nat.
Variable include : list N -> list (list N * list N) -> outcome (list (list N * list N)).
Hypothesis numbers : forall s, may_be_number s = false -> strtod s = 0.
Hypothesis L_big : 20 <= L.
Notation next := (GetNextToken E strtod extent).
Notation turn := (LocaleModel.turn L E strtod locale extent include).

Lemma next_blanks s q : blanks s -> next (s ++ q) = next q.
Proof. intros S0. unfold GetNextToken. now rewrite spaces_off_blanks. Qed.
Lemma copy_short s : length s < L -> copy L s = s.
Proof. intros H. apply firstn_all2. lia. Qed.
Lemma cat_short s t : length s + length t < L -> cat L s t = s ++ t.
Proof. intros H. apply firstn_all2. rewrite app_length. lia. Qed.

Lemma turn_group n r path cache : group_name n -> length (60%N :: n ++ 62%N :: r) < extent -> length path + length n + 4 < L ->
  turn (60%N :: n ++ 62%N :: r) (path, cache) = Ok (Some (62%N :: r, (path ++ n ++ [47%N], cache))).
Proof.
  intros ((c & w & -> & C) & W & B & S47 & M1 & M2 & M3) Le Ll. cbn [length] in Le, Ll. rewrite app_length in Le. cbn [length] in Le.
  unfold LocaleModel.turn. rewrite token_tag by (try assumption; cbn [length]; lia). cbn [bind].
  rewrite copy_short by (cbn [length]; rewrite app_length; cbn [length]; lia). pose proof (alpha_map c C) as Am.
  set (kw := 60%N :: (c :: w) ++ [62%N]).
  assert (K2 : forall d t, (ascii_map d < 97)%Z -> like kw (60%N :: d :: t) = false).
  { intros d t D. unfold kw. cbn [app like]. replace (ascii_map c =? ascii_map d)%Z with false by lia. cbn [andb]. apply andb_false_r. }
  assert (K1 : forall k d t, (ascii_map d < 97)%Z -> like (firstn (S (S k)) kw) (60%N :: d :: t) = false).
  { intros k d t D. unfold kw. cbn [app firstn like]. replace (ascii_map c =? ascii_map d)%Z with false by lia. cbn [andb]. apply andb_false_r. }
  assert (K3 : forall t d, ascii_map d <> 62%Z -> like kw (t ++ [d]) = false).
  { intros t d D. unfold kw. change (60%N :: (c :: w) ++ [62%N]) with ((60%N :: c :: w) ++ [62%N]). apply like_snoc_not. change (ascii_map 62) with 62%Z. congruence. }
  change (b "<!DOCTYPE") with (60 :: 33 :: b "DOCTYPE")%N. rewrite K1 by (vm_compute; reflexivity).
  change (b "<!--") with (60 :: 33 :: b "--")%N. rewrite K1 by (vm_compute; reflexivity).
  change (b "<include") with (b "<includ" ++ [101%N]). rewrite K3 by (vm_compute; discriminate).
  change (b "<locale") with (b "<local" ++ [101%N]). rewrite K3 by (vm_compute; discriminate).
  change (b "</locale>") with (60 :: 47 :: b "locale>")%N. rewrite K2 by (vm_compute; reflexivity).
  assert (K4 : forall t, like kw (60%N :: t ++ [62%N]) = like (c :: w) t).
  { intros t. unfold kw. cbn [like]. rewrite Z.eqb_refl. cbn [andb]. apply like_snoc. }
  change (b "<localemap>") with (60%N :: b "localemap" ++ [62%N]). rewrite K4, M3.
  change (b "</localemap>") with (60 :: 47 :: b "localemap>")%N. rewrite K2 by (vm_compute; reflexivity).
  change (b "<message") with (b "<messag" ++ [101%N]). rewrite K3 by (vm_compute; discriminate).
  change (b "</message>") with (60 :: 47 :: b "message>")%N. rewrite K2 by (vm_compute; reflexivity).
  unfold isalpha in C. unfold kw. cbn [app starts tl]. change (60 =? 60)%N with true. cbv iota.
  replace (c =? 63)%N with false by lia. replace (c =? 47)%N with false by lia.
  replace (length (60%N :: c :: w ++ [62%N]) - 1) with (length (60%N :: c :: w) + 0) by (cbn [length]; rewrite app_length; cbn [length]; lia).
  change (60%N :: c :: w ++ [62%N]) with ((60%N :: c :: w) ++ [62%N]). rewrite firstn_app_2. cbn [firstn]. rewrite app_nil_r. cbn [tl].
  rewrite copy_short by (cbn [length]; lia). rewrite (cat_short path (c :: w)) by (cbn [length]; lia). rewrite cat_short by (rewrite app_length; cbn [length]; change (length (b "/")) with 1; lia).
  rewrite <- app_assoc. reflexivity.
Qed.
Lemma turn_close n r path cache : group_name n -> length (60%N :: 47%N :: n ++ 62%N :: r) < extent -> length path + length n + 4 < L -> path_ok path ->
  turn (60%N :: 47%N :: n ++ 62%N :: r) (path ++ n ++ [47%N], cache) = Ok (Some (62%N :: r, (path, cache))).
Proof.
  intros ((c & w & -> & C) & W & B & S47 & M1 & M2 & M3) Le Ll P. cbn [length] in Le, Ll. rewrite app_length in Le. cbn [length] in Le.
  unfold LocaleModel.turn. change (60%N :: 47%N :: (c :: w) ++ 62%N :: r) with (60%N :: (47%N :: c :: w) ++ 62%N :: r).
  rewrite token_tag; [|exact numbers|constructor; [unfold word_char; cbn; lia|assumption]|intros [X|X]; [discriminate|now apply B]|cbn [length]; lia]. cbn [bind].
  rewrite copy_short by (cbn [length]; rewrite app_length; cbn [length]; lia).
  set (kw := 60%N :: (47%N :: c :: w) ++ [62%N]).
  assert (K2 : forall d t, (ascii_map d =? 47)%Z = false -> like kw (60%N :: d :: t) = false).
  { intros d t D. unfold kw. cbn [app like]. change (ascii_map 47) with 47%Z. rewrite Z.eqb_sym in D. rewrite D. cbn [andb]. apply andb_false_r. }
  assert (K1 : forall k d t, (ascii_map d =? 47)%Z = false -> like (firstn (S (S k)) kw) (60%N :: d :: t) = false).
  { intros k d t D. unfold kw. cbn [app firstn like]. change (ascii_map 47) with 47%Z. rewrite Z.eqb_sym in D. rewrite D. cbn [andb]. apply andb_false_r. }
  assert (K4 : forall t, like kw (60%N :: 47%N :: t ++ [62%N]) = like (c :: w) t).
  { intros t. unfold kw. cbn [app like]. rewrite !Z.eqb_refl. cbn [andb]. change (like ((c :: w) ++ [62%N]) (t ++ [62%N]) = like (c :: w) t). apply like_snoc. }
  change (b "<!DOCTYPE") with (60 :: 33 :: b "DOCTYPE")%N. rewrite K1 by (vm_compute; reflexivity).
  change (b "<!--") with (60 :: 33 :: b "--")%N. rewrite K1 by (vm_compute; reflexivity).
  change (b "<include") with (60 :: 105 :: b "nclude")%N. rewrite K2 by (vm_compute; reflexivity).
  change (b "<locale") with (60 :: 108 :: b "ocale")%N. rewrite K2 by (vm_compute; reflexivity).
  change (b "</locale>") with (60%N :: 47%N :: b "locale" ++ [62%N]). rewrite K4, M2.
  change (b "<localemap>") with (60 :: 108 :: b "ocalemap>")%N. rewrite K2 by (vm_compute; reflexivity).
  change (b "</localemap>") with (60%N :: 47%N :: b "localemap" ++ [62%N]). rewrite K4, M3.
  change (b "<message") with (60 :: 109 :: b "essage")%N. rewrite K2 by (vm_compute; reflexivity).
  change (b "</message>") with (60%N :: 47%N :: b "message" ++ [62%N]). rewrite K4, M1.
  unfold kw. cbn [app starts tl]. change (60 =? 60)%N with true. change (47 =? 63)%N with false. change (47 =? 47)%N with true. cbv iota.
  change (c :: w ++ [47%N]) with ((c :: w) ++ [47%N]). rewrite chop_group by (try assumption; discriminate). destruct P as [->|(a & A & ->)]; [reflexivity|].
  rewrite removelast_last. rewrite cat_short by (rewrite app_length in Ll; cbn [length] in *; change (length (b "/")) with 1; lia). now destruct a.
Qed.
Lemma turn_gt s r st t q : 2 <= extent -> blanks s -> starts_solid r -> next r = Ok (t, q) ->
  turn (62%N :: s ++ r) st = Ok (Some (r, st)).
Proof.
  intros Le S0 R N. destruct st as (tag, cache). unfold LocaleModel.turn. rewrite token_symbol by (try assumption; cbn; tauto). cbn [bind].
  rewrite copy_short by (cbn; lia).
  repeat match goal with |- context [like ?a (b ?l)] => change (like a (b l)) with false; cbv iota end.
  change (starts 60 [62%N]) with false. cbv iota. rewrite N. reflexivity.
Qed.

Lemma attributes_name named open n s r tag :
  length (b "name=" ++ 34%N :: escaped 34 n ++ 34%N :: 62%N :: s ++ r) < extent -> length open < L -> starts 62 open = false ->
  like (firstn 4 n) (b "url(") = false -> ~ (exists w, n = 62%N :: w) -> blanks s -> starts_solid r ->
  forall fuel, 4 <= fuel ->
  attributes L E strtod extent fuel named open (b "name=" ++ 34%N :: escaped 34 n ++ 34%N :: 62%N :: s ++ r) tag =
  Ok (r, if named then cat L (cat L tag n) (b "/") else tag).
Proof.
  intros Le Lo O U N62 S0 R fuel Hf. destruct fuel as [|[|[|[|fuel]]]]; try lia. clear Hf.
  assert (Ln : length n < extent).
  { assert (length n <= length (escaped 34 n)); [|rewrite !app_length in Le; cbn [length] in Le; rewrite app_length in Le; cbn [length] in Le; lia].
    clear. induction n as [|c n IH]; [cbn; lia|]. cbn [escaped flat_map]. fold (escaped 34 n). rewrite app_length. cbn [length]. destruct ((c =? 34)%N || (c =? 92)%N); cbn [length]; lia. }
  assert (Lx : 20 <= extent \/ True) by now right. clear Lx.
  assert (L5 : 5 <= extent) by (cbn [b app length] in Le; lia).
  change (b "name=" ++ 34%N :: escaped 34 n ++ 34%N :: 62%N :: s ++ r) with (b "name" ++ 61%N :: 34%N :: escaped 34 n ++ 34%N :: 62%N :: s ++ r).
  set (q0 := 34%N :: escaped 34 n ++ 34%N :: 62%N :: s ++ r).
  assert (S62 : forall x, starts_solid (62%N :: x)) by (intros x; cbn; unfold blank; cbn; lia).
  assert (S34 : forall x, starts_solid (34%N :: x)) by (intros x; cbn; unfold blank; cbn; lia).
  assert (Q0 : next (61%N :: q0) = Ok ([61%N], q0)).
  { change (61%N :: q0) with (61%N :: [] ++ q0). apply token_symbol; [exact numbers|cbn; tauto|lia|apply Forall_nil|apply S34]. }
  assert (Q1 : next q0 = Ok (n, 62%N :: s ++ r)) by (apply token_value; [exact Ln|exact U|apply S62]).
  cbn [attributes]. rewrite O. change (at_nul (b "name" ++ 61%N :: q0)) with false. cbn [orb].
  rewrite token_name by (try exact numbers; lia). cbn [bind]. change (starts 61 (b "name")) with false. cbn [negb].
  change (starts 62 (b "name") || at_nul (61%N :: q0)) with false. cbv iota. rewrite Q0. cbn [bind]. change (starts 61 [61%N]) with true. cbn [negb].
  rewrite Q1. cbn [bind]. rewrite (copy_short (b "name")) by (cbn; lia). change (like (b "name") (b "name")) with true. rewrite andb_true_r.
  assert (N62' : starts 62 n = false) by (destruct n as [|c n]; [reflexivity|cbn; apply N.eqb_neq; intros ->; apply N62; now exists n]).
  rewrite N62'. change (at_nul (62%N :: s ++ r)) with false. cbn [orb]. rewrite token_symbol by (try assumption; try lia; cbn; tauto). cbn [bind].
  change (starts 61 [62%N]) with false. cbn [negb]. change (starts 62 [62%N]) with true. cbn [orb]. reflexivity.
Qed.

(** ** Messages *)
Lemma to_lt_app w r : ~ In 60%N w -> to_lt (w ++ 60%N :: r) = (w, 60%N :: r).
Proof.
  induction w as [|c w IH]; intros N; [reflexivity|]. cbn [app to_lt]. replace (c =? 60)%N with false.
  - rewrite IH; [reflexivity|]. intros I. apply N. now right.
  - symmetry. apply N.eqb_neq. intros ->. apply N. now left.
Qed.
Lemma spaces_at_end_blanks z : blanks z -> spaces_at_end z = ([], z).
Proof. induction 1 as [|c z C _ IH]; [reflexivity|]. cbn [spaces_at_end]. rewrite IH. now rewrite (proj2 (isspace_blank c) C). Qed.
Lemma spaces_at_end_app m z : blanks z -> m <> [] -> ~ blank (last m 0%N) -> spaces_at_end (m ++ z) = (m, z).
Proof.
  intros Z. induction m as [|c m IH]; intros N0 B; [contradiction|]. cbn [app spaces_at_end]. destruct m as [|d m].
  - cbn [app]. rewrite spaces_at_end_blanks by exact Z. cbn [last] in B. now rewrite (proj2 (isspace_not c) B).
  - rewrite IH; [reflexivity|discriminate|exact B].
Qed.
Lemma blanks_no_lt z : blanks z -> ~ In 60%N z.
Proof. intros Z I. unfold blanks in Z. rewrite Forall_forall in Z. apply Z in I. unfold blank in I. cbn in I. lia. Qed.
Lemma message_text_ok m z r : ~ In 60%N m -> trimmed m -> blanks z -> (m = [] -> z = []) ->
  message_text (m ++ z ++ 60%N :: r) = (m, z ++ 60%N :: r).
Proof.
  intros N T Z Em. unfold message_text. rewrite app_assoc. rewrite to_lt_app by (rewrite in_app_iff; intros [I|I]; [now apply N|now apply (blanks_no_lt z Z)]).
  destruct m as [|c m].
  - rewrite (Em eq_refl). reflexivity.
  - destruct T as (T1 & T2). cbn [app]. rewrite spaces_off_stop by exact T1. change (c :: m ++ z) with ((c :: m) ++ z).
    rewrite spaces_at_end_app by (try assumption; discriminate). reflexivity.
Qed.
(** the white space left in front of the closing tag *)
Definition left_over (sp m : list N) : list N := match m with [] => [] | _ => sp end.
Lemma solid_60 r : starts_solid (60%N :: r).
Proof. cbn. unfold blank. cbn. lia. Qed.
Lemma escaped_le n : length n <= length (escaped 34 n).
Proof.
  induction n as [|c n IH]; [cbn; lia|]. cbn [escaped flat_map]. fold (escaped 34 n). rewrite app_length. cbn [length].
  destruct ((c =? 34)%N || (c =? 92)%N); cbn [length]; lia.
Qed.
Lemma turn_message n m sp r path cache :
  length (b "<message name=" ++ [34%N] ++ escaped 34 n ++ [34%N] ++ b ">" ++ sp ++ m ++ sp ++ 60%N :: r) < extent ->
  ~ In 60%N m -> trimmed m -> like (firstn 4 n) (b "url(") = false -> ~ (exists w, n = 62%N :: w) ->
  length path + length n + length m + 2 < L -> blanks sp ->
  turn (b "<message name=" ++ [34%N] ++ escaped 34 n ++ [34%N] ++ b ">" ++ sp ++ m ++ sp ++ 60%N :: r) (path, cache) =
  Ok (Some (left_over sp m ++ 60%N :: r, (path ++ n ++ [47%N] ++ m ++ [10%N], (path ++ n ++ [47%N], m) :: cache))).
Proof.
  intros Le N T U N62 Ll Sp. unfold LocaleModel.turn.
  change (b "<message name=" ++ [34%N] ++ escaped 34 n ++ [34%N] ++ b ">" ++ sp ++ m ++ sp ++ 60%N :: r)
    with (60%N :: b "message" ++ 32%N :: b "name=" ++ 34%N :: escaped 34 n ++ 34%N :: 62%N :: sp ++ m ++ sp ++ 60%N :: r) in *.
  set (q1 := b "name=" ++ 34%N :: escaped 34 n ++ 34%N :: 62%N :: sp ++ m ++ sp ++ 60%N :: r) in *.
  assert (Lq : length q1 < extent /\ 30 <= extent + 20) by (cbn [b app length] in Le; cbn [b app length]; lia).
  rewrite token_open; [|exact numbers|discriminate|repeat (apply Forall_cons; [unfold word_char; cbn; lia|]); apply Forall_nil|cbn; lia|cbn [b app length] in Le |- *; lia|cbn; unfold blank; cbn; lia].
  cbn [bind]. rewrite copy_short by (cbn; lia).
  repeat match goal with |- context [like ?x (b ?l)] => change (like x (b l)) with false; cbv iota end.
  change (like (60%N :: b "message") (b "<message")) with true. cbv iota.
  assert (Ex : exists s r', sp ++ m ++ sp ++ 60%N :: r = s ++ r' /\ blanks s /\ starts_solid r' /\ r' = m ++ left_over sp m ++ 60%N :: r).
  { destruct m as [|c m].
    - exists (sp ++ sp), (60%N :: r). split; [cbn [app]; now rewrite app_assoc|]. split; [now apply Forall_app|]. split; [apply solid_60|reflexivity].
    - exists sp, ((c :: m) ++ sp ++ 60%N :: r). split; [reflexivity|]. split; [exact Sp|]. split; [cbn; apply T|reflexivity]. }
  destruct Ex as (s & r' & Es & Bs & Sr & Er').
  unfold q1 in *. rewrite Es in *.
  rewrite attributes_name; try assumption; [|lia|cbn; lia|reflexivity|cbn [b app length]; rewrite app_length; cbn [length]; lia].
  cbn [bind]. rewrite Er'. rewrite message_text_ok; [|exact N|exact T| |intros ->; reflexivity].
  2: { destruct m; [apply Forall_nil|exact Sp]. }
  rewrite (firstn_all2 m) by lia.
  rewrite (cat_short path n) by lia. rewrite (cat_short (path ++ n)) by (rewrite app_length; change (length (b "/")) with 1; lia).
  rewrite (cat_short _ m) by (rewrite !app_length; change (length (b "/")) with 1; lia).
  rewrite (cat_short _ [10%N]) by (rewrite !app_length; change (length (b "/")) with 1; cbn [length]; lia).
  rewrite <- !app_assoc. reflexivity.
Qed.
Lemma turn_close_message n m z r a cache : length (b "</message>" ++ r) < extent -> blanks z -> a <> [] -> ~ In 47%N n -> ~ In 47%N m ->
  length a + 1 < L ->
  turn (z ++ b "</message>" ++ r) ((a ++ [47%N]) ++ n ++ [47%N] ++ m ++ [10%N], cache) = Ok (Some (62%N :: r, (a ++ [47%N], cache))).
Proof.
  intros Le Z A Sn Sm Ll. unfold LocaleModel.turn. rewrite next_blanks by exact Z.
  change (b "</message>" ++ r) with (60%N :: b "/message" ++ 62%N :: r) in *.
  rewrite token_tag; [|exact numbers|repeat (apply Forall_cons; [unfold word_char; cbn; lia|]); apply Forall_nil|cbn; lia|cbn [b app length] in Le |- *; lia].
  cbn [bind]. rewrite copy_short by (cbn; lia).
  repeat match goal with |- context [like ?x (b ?l)] => change (like x (b l)) with false; cbv iota end.
  change (like (60%N :: b "/message" ++ [62%N]) (b "</message>")) with true. cbv iota.
  rewrite <- app_assoc. rewrite chop_message by assumption. rewrite cat_short by (change (length (b "/")) with 1; lia). reflexivity.
Qed.
Lemma turn_locale n s r st : length (b "<locale name=" ++ 34%N :: escaped 34 n ++ 34%N :: 62%N :: s ++ r) < extent ->
  like (firstn 4 n) (b "url(") = false -> ~ (exists w, n = 62%N :: w) -> blanks s -> starts_solid r ->
  turn (b "<locale name=" ++ 34%N :: escaped 34 n ++ 34%N :: 62%N :: s ++ r) st = Ok (Some (r, st)).
Proof.
  intros Le U N62 Bs R. destruct st as (tag, cache). unfold LocaleModel.turn.
  change (b "<locale name=" ++ 34%N :: escaped 34 n ++ 34%N :: 62%N :: s ++ r)
    with (60%N :: b "locale" ++ 32%N :: b "name=" ++ 34%N :: escaped 34 n ++ 34%N :: 62%N :: s ++ r) in *.
  set (q1 := b "name=" ++ 34%N :: escaped 34 n ++ 34%N :: 62%N :: s ++ r) in *.
  assert (Lq : length q1 < extent) by (cbn [b app length] in Le; cbn [b app length]; lia).
  rewrite token_open; [|exact numbers|discriminate|repeat (apply Forall_cons; [unfold word_char; cbn; lia|]); apply Forall_nil|cbn; lia|cbn [b app length] in Le |- *; lia|cbn; unfold blank; cbn; lia].
  cbn [bind]. rewrite copy_short by (cbn; lia).
  repeat match goal with |- context [like ?x (b ?l)] => change (like x (b l)) with false; cbv iota end.
  change (like (60%N :: b "locale") (b "<locale")) with true. cbv iota. unfold q1 in *.
  rewrite attributes_name; try assumption; [|cbn; lia|reflexivity|cbn [b app length]; rewrite app_length; cbn [length]; lia].
  reflexivity.
Qed.
Lemma turn_end_locale r tag cache : length (b "</locale>" ++ r) < extent -> 
  turn (b "</locale>" ++ r) (tag, cache) = Ok (Some (62%N :: r, (cat L (ChopLocaleComponents tag 1) (b "/"), cache))).
Proof.
  intros Le. unfold LocaleModel.turn. change (b "</locale>" ++ r) with (60%N :: b "/locale" ++ 62%N :: r) in *.
  rewrite token_tag; [|exact numbers|repeat (apply Forall_cons; [unfold word_char; cbn; lia|]); apply Forall_nil|cbn; lia|cbn [b app length] in Le |- *; lia].
  cbn [bind]. rewrite copy_short by (cbn; lia).
  repeat match goal with |- context [like ?x (b ?l)] => change (like x (b l)) with false; cbv iota end.
  change (like (60%N :: b "/locale" ++ [62%N]) (b "</locale>")) with true. cbv iota. reflexivity.
Qed.
Lemma turn_map r st : length (b "<localemap>" ++ r) < extent -> turn (b "<localemap>" ++ r) st = Ok (Some (62%N :: r, st)).
Proof.
  intros Le. destruct st as (tag, cache). unfold LocaleModel.turn. change (b "<localemap>" ++ r) with (60%N :: b "localemap" ++ 62%N :: r) in *.
  rewrite token_tag; [|exact numbers|repeat (apply Forall_cons; [unfold word_char; cbn; lia|]); apply Forall_nil|cbn; lia|cbn [b app length] in Le |- *; lia].
  cbn [bind]. rewrite copy_short by (cbn; lia).
  repeat match goal with |- context [like ?x (b ?l)] => change (like x (b l)) with false; cbv iota end.
  change (like (60%N :: b "localemap" ++ [62%N]) (b "<localemap>")) with true. cbv iota. reflexivity.
Qed.
Lemma turn_end_map r st : length (b "</localemap>" ++ r) < extent -> turn (b "</localemap>" ++ r) st = Ok (Some (62%N :: r, st)).
Proof.
  intros Le. destruct st as (tag, cache). unfold LocaleModel.turn. change (b "</localemap>" ++ r) with (60%N :: b "/localemap" ++ 62%N :: r) in *.
  rewrite token_tag; [|exact numbers|repeat (apply Forall_cons; [unfold word_char; cbn; lia|]); apply Forall_nil|cbn; lia|cbn [b app length] in Le |- *; lia].
  cbn [bind]. rewrite copy_short by (cbn; lia).
  repeat match goal with |- context [like ?x (b ?l)] => change (like x (b l)) with false; cbv iota end.
  change (like (60%N :: b "/localemap" ++ [62%N]) (b "</localemap>")) with true. cbv iota. reflexivity.
Qed.

(** ** The loop *)
Notation loop := (load_loop L E strtod locale extent include).
Lemma loop_turn q r st st' fuel : turn q st = Ok (Some (r, st')) -> q <> [] -> length q <= fuel -> length r < length q ->
  exists fuel', length r <= fuel' /\ loop fuel q st = loop fuel' r st'.
Proof.
  intros T N Lf Lr. destruct fuel as [|fuel]; [destruct q; [contradiction|cbn in Lf; lia]|]. exists fuel. split; [lia|].
  destruct q as [|c q]; [contradiction|]. cbn [load_loop]. rewrite T. reflexivity.
Qed.
Lemma print_group sp n body f r : print sp (Group n body f) ++ r =
  60%N :: n ++ 62%N :: sp ++ print sp body ++ 60%N :: 47%N :: n ++ 62%N :: sp ++ print sp f ++ r.
Proof.
  cbn [print]. change (b "<") with [60%N]. change (b ">") with [62%N]. change (b "</") with [60%N; 47%N]. rewrite <- !app_assoc. reflexivity.
Qed.
Lemma print_message sp n m f r : print sp (Message n m f) ++ r =
  b "<message name=" ++ [34%N] ++ escaped 34 n ++ [34%N] ++ b ">" ++ sp ++ m ++ sp ++ 60%N :: b "/message>" ++ sp ++ print sp f ++ r.
Proof. cbn [print]. rewrite <- !app_assoc. reflexivity. Qed.
(** the first token of a forest can be read *)
Lemma print_token sp f : forall path r, good L path f -> blanks sp -> length (print sp f ++ r) < extent ->
  (exists t q, next r = Ok (t, q)) -> starts_solid r ->
  (exists t q, next (print sp f ++ r) = Ok (t, q)) /\ starts_solid (print sp f ++ r).
Proof.
  intros path r G Sp Le R S0. destruct f as [|n m f|n body f]; cbn [print].
  - split; [exact R|exact S0].
  - split; [|apply solid_60]. eexists _, _. 
    change ((b "<message name=" ++ [34%N] ++ escaped 34 n ++ [34%N] ++ b ">" ++ sp ++ m ++ sp ++ b "</message>" ++ sp ++ print sp f) ++ r)
      with (60%N :: b "message" ++ 32%N :: b "name=" ++ ([34%N] ++ escaped 34 n ++ [34%N] ++ b ">" ++ sp ++ m ++ sp ++ b "</message>" ++ sp ++ print sp f) ++ r).
    apply token_open.
    + exact numbers.
    + discriminate.
    + repeat (apply Forall_cons; [unfold word_char; cbn; lia|]); apply Forall_nil.
    + cbn; lia.
    + cbn [print b app length] in Le |- *; lia.
    + cbn; unfold blank; cbn; lia.
  - split; [|apply solid_60]. cbn [good] in G. destruct G as ((_ & W & B & _) & _). eexists _, _.
    change (b "<" ++ n ++ b ">" ++ sp ++ print sp body ++ b "</" ++ n ++ b ">" ++ sp ++ print sp f) with (print sp (Group n body f)).
    rewrite print_group in *. apply token_tag; [exact numbers|exact W|exact B|]. cbn [length] in Le. rewrite !app_length in Le. cbn [length] in Le. lia.
Qed.
Lemma length_eq {A} (x y : list A) : x = y -> length x = length y.
Proof. now intros ->. Qed.
Lemma path_ok_group path n : path_ok path -> n <> [] -> path_ok (path ++ n ++ [47%N]).
Proof. intros _ Nn. right. exists (path ++ n). split; [now destruct path, n|]. now rewrite app_assoc. Qed.
Lemma loop_forest sp f : blanks sp -> forall path r cache fuel, good L path f -> path_ok path ->
  (exists t q, next r = Ok (t, q)) -> starts_solid r ->
  length (print sp f ++ r) < extent -> length (print sp f ++ r) <= fuel ->
  exists fuel', length r <= fuel' /\
    loop fuel (print sp f ++ r) (path, cache) = loop fuel' r (path, rev (entries path f) ++ cache).
Proof.
  intros Sp. induction f as [|n m f IH|n body IHb f IHf]; intros path r cache fuel G P R S0 Le Lf.
  - exists fuel. now split.
  - cbn [good] in G. destruct G as (Np & Sn & Sm & Lt & T & U & N62 & Ll & G). rewrite print_message in *.
    destruct P as [->|(a & A & ->)]; [contradiction|].
    assert (Lg : length (b "<message name=" ++ [34%N] ++ escaped 34 n ++ [34%N] ++ b ">" ++ sp ++ m ++ sp ++ 60%N :: b "/message>" ++ sp ++ print sp f ++ r) =
      length (escaped 34 n) + length m + 2 * length sp + length (print sp f ++ r) + length sp + 27).
    { rewrite !app_length. cbn [length]. rewrite !app_length. change (length (b "<message name=")) with 14. change (length (b ">")) with 1.
      change (length (b "/message>")) with 9. cbn [length]. lia. }
    pose proof Le as Le'. rewrite Lg in Le'. pose proof Lf as Lf'. rewrite Lg in Lf'. pose proof (escaped_le n) as Esc.
    edestruct (loop_turn _ _ (a ++ [47%N], cache) _ fuel (turn_message n m sp (b "/message>" ++ sp ++ print sp f ++ r) (a ++ [47%N]) cache Le Lt T U N62 Ll Sp)) as (f1 & L1 & E1);
      [discriminate|exact Lf| |].
    { rewrite Lg. rewrite app_length. cbn [length]. rewrite app_length, (app_length sp). change (length (b "/message>")) with 9. destruct m; cbn [left_over length]; lia. }
    rewrite E1. clear E1.
    change (60%N :: b "/message>" ++ sp ++ print sp f ++ r) with (b "</message>" ++ sp ++ print sp f ++ r) in *.
    assert (Lo : blanks (left_over sp m)) by (destruct m; [apply Forall_nil|exact Sp]).
    edestruct (loop_turn _ _ ((a ++ [47%N]) ++ n ++ [47%N] ++ m ++ [10%N], (((a ++ [47%N]) ++ n ++ [47%N], m) :: cache)) _ f1
      (turn_close_message n m (left_over sp m) (sp ++ print sp f ++ r) a _ ltac:(rewrite app_length, (app_length sp); change (length (b "</message>")) with 10; lia)
        Lo A Sn Sm ltac:(rewrite app_length in Ll; cbn [length] in Ll; lia))) as (f2 & L2 & E2);
      [destruct (left_over sp m); discriminate|exact L1|rewrite !app_length; cbn [length]; rewrite !app_length; change (length (b "</message>")) with 10; lia|].
    rewrite E2. clear E2.
    destruct (print_token sp f (a ++ [47%N]) r G Sp ltac:(lia) R S0) as ((t & q & Nx) & Sx).
    edestruct (loop_turn _ _ (a ++ [47%N], (((a ++ [47%N]) ++ n ++ [47%N], m) :: cache)) _ f2
      (turn_gt sp (print sp f ++ r) _ t q ltac:(lia) Sp Sx Nx)) as (f3 & L3 & E3);
      [discriminate|exact L2|cbn [length]; rewrite !app_length; lia|].
    rewrite E3. clear E3.
    destruct (IH (a ++ [47%N]) r (((a ++ [47%N]) ++ n ++ [47%N], m) :: cache) f3 G ltac:(right; eauto) R S0 ltac:(lia) L3) as (f4 & L4 & E4).
    exists f4. split; [exact L4|]. rewrite E4. cbn [entries rev]. rewrite <- (app_assoc (rev _)). reflexivity.
  - cbn [good] in G. destruct G as (Gn & Ll & Gb & Gf). rewrite print_group in *.
    assert (Nn : n <> [] /\ ~ In 47%N n) by (destruct Gn as ((c & w & -> & _) & _ & _ & X & _); split; [discriminate|exact X]). destruct Nn as (Nn & N47).
    set (r2 := sp ++ print sp f ++ r) in *. set (r1 := 60%N :: 47%N :: n ++ 62%N :: r2) in *.
    assert (L0 : length (60%N :: n ++ 62%N :: sp ++ print sp body ++ r1) = 2 + length n + length sp + length (print sp body ++ r1)).
    { cbn [length]. rewrite app_length. cbn [length]. rewrite app_length. lia. }
    pose proof Le as Le'. rewrite L0 in Le'. pose proof Lf as Lf'. rewrite L0 in Lf'.
    assert (Lr1 : length r1 = 3 + length n + length r2) by (unfold r1; cbn [length]; rewrite app_length; cbn [length]; lia).
    assert (Lr2 : length r2 = length sp + length (print sp f ++ r)) by (unfold r2; now rewrite app_length).
    assert (Lb : length r1 <= length (print sp body ++ r1)) by (rewrite (app_length (print sp body)); lia).
    edestruct (loop_turn _ _ (path, cache) _ fuel (turn_group n (sp ++ print sp body ++ r1) path cache Gn Le ltac:(lia))) as (f1 & L1 & E1);
      [discriminate|exact Lf|rewrite L0; cbn [length]; rewrite !app_length; lia|].
    rewrite E1. clear E1.
    assert (R1 : exists t q, next r1 = Ok (t, q)).
    { eexists _, _. unfold r1. change (60%N :: 47%N :: n ++ 62%N :: r2) with (60%N :: (47%N :: n) ++ 62%N :: r2). destruct Gn as (_ & W & B & _).
      apply token_tag; [exact numbers|apply Forall_cons; [unfold word_char; cbn; lia|exact W]|intros [X|X]; [discriminate|now apply B]|cbn [length]; lia]. }
    assert (S1 : starts_solid r1) by (hnf; unfold blank; cbn; lia).
    destruct (print_token sp body (path ++ n ++ [47%N]) r1 Gb Sp ltac:(lia) R1 S1) as ((t & q & Nx) & Sx).
    edestruct (loop_turn _ _ (path ++ n ++ [47%N], cache) _ f1 (turn_gt sp (print sp body ++ r1) _ t q ltac:(lia) Sp Sx Nx)) as (f2 & L2 & E2);
      [discriminate|exact L1|cbn [length]; rewrite !app_length; lia|].
    rewrite E2. clear E2.
    destruct (IHb (path ++ n ++ [47%N]) r1 cache f2 Gb (path_ok_group path n P Nn) R1 S1 ltac:(lia) L2) as (f3 & L3 & E3). rewrite E3. clear E3.
    edestruct (loop_turn _ _ (path ++ n ++ [47%N], rev (entries (path ++ n ++ [47%N]) body) ++ cache) _ f3
      (turn_close n r2 path _ Gn ltac:(fold r1; lia) ltac:(lia) P)) as (f4 & L4 & E4);
      [discriminate|exact L3|fold r1; cbn [length]; lia|]. fold r1 in E4. rewrite E4. clear E4.
    destruct (print_token sp f path r Gf Sp ltac:(lia) R S0) as ((t' & q' & Nx') & Sx').
    edestruct (loop_turn _ _ (path, rev (entries (path ++ n ++ [47%N]) body) ++ cache) _ f4 (turn_gt sp (print sp f ++ r) _ t' q' ltac:(lia) Sp Sx' Nx')) as (f5 & L5 & E5);
      [discriminate|exact L4|cbn [length]; rewrite !app_length; lia|].
    fold r2 in E5. rewrite E5. clear E5.
    destruct (IHf path r (rev (entries (path ++ n ++ [47%N]) body) ++ cache) f5 Gf P R S0 ltac:(lia) L5) as (f6 & L6 & E6).
    exists f6. split; [exact L6|]. rewrite E6. cbn [entries]. rewrite rev_app_distr, <- (app_assoc (rev _)). reflexivity.
Qed.

(** tokens that are no tags are passed over *)
Definition no_tag (t : list N) : Prop := t <> [] /\ starts 60 t = false /\ length t < L.
Lemma turn_other q r st t t' q' : next q = Ok (t, r) -> no_tag t -> next r = Ok (t', q') -> turn q st = Ok (Some (r, st)).
Proof.
  intros Nq (Nt & S60 & Lt) Nr. destruct st as (tag, cache). unfold LocaleModel.turn. rewrite Nq. cbn [bind]. rewrite copy_short by exact Lt.
  destruct t as [|c t]; [contradiction|]. cbn [starts] in S60.
  assert (K : forall w, like (c :: t) (60%N :: w) = false \/ ascii_map c = 60%Z).
  { intros w. cbn [like]. change (ascii_map 60) with 60%Z. destruct (Z.eqb_spec (ascii_map c) 60); [now right|now left]. }
  assert (C60 : ascii_map c <> 60%Z).
  { intros H. assert (C : (c < 256)%N).
    { destruct (N.ltb_spec c 256) as [|G]; [assumption|]. unfold ascii_map in H. rewrite nth_overflow in H by (change (length AsciiMap) with 256; lia). discriminate. }
    assert (T : forallb (fun c => negb (ascii_map c =? 60)%Z || (c =? 60)%N) (map N.of_nat (seq 0 256)) = true) by (vm_compute; reflexivity).
    assert (I : In c (map N.of_nat (seq 0 256))) by (apply in_map_iff; exists (N.to_nat c); split; [lia|apply in_seq; lia]).
    apply (proj1 (forallb_forall _ _) T) in I. rewrite H, S60 in I. discriminate I. }
  assert (K1 : forall w, like (c :: t) (60%N :: w) = false) by (intros w; destruct (K w); [assumption|contradiction]).
  assert (K2 : forall k w, like (firstn (S k) (c :: t)) (60%N :: w) = false).
  { intros k w. cbn [firstn like]. change (ascii_map 60) with 60%Z. destruct (Z.eqb_spec (ascii_map c) 60); [contradiction|reflexivity]. }
  change (b "<!DOCTYPE") with (60%N :: b "!DOCTYPE"). rewrite K2. change (b "<!--") with (60%N :: b "!--"). rewrite K2.
  change (b "<include") with (60%N :: b "include"). rewrite K1. change (b "<locale") with (60%N :: b "locale"). rewrite K1.
  change (b "</locale>") with (60%N :: b "/locale>"). rewrite K1. change (b "<localemap>") with (60%N :: b "localemap>"). rewrite K1.
  change (b "</localemap>") with (60%N :: b "/localemap>"). rewrite K1. change (b "<message") with (60%N :: b "message"). rewrite K1.
  change (b "</message>") with (60%N :: b "/message>"). rewrite K1. cbn [starts]. rewrite S60. rewrite Nr. reflexivity.
Qed.
Lemma token_version r : extent > 20 -> starts_solid r -> next (b "version=" ++ r) = Ok (b "version", 61%N :: r).
Proof.
  intros Le R. apply (token_word E strtod extent [] 118%N (b "ersion") [] 61%N r); try (cbn; lia); try reflexivity; try apply Forall_nil.
  - repeat (apply Forall_cons; [unfold word_char; cbn; lia|]); apply Forall_nil.
  - now apply numbers.
Qed.
Lemma turn_xml r st : length (b "<?xml " ++ r) < extent -> starts_solid r -> turn (b "<?xml " ++ r) st = Ok (Some (r, st)).
Proof.
  intros Le R. destruct st as (tag, cache). unfold LocaleModel.turn. change (b "<?xml " ++ r) with (60%N :: b "?xml" ++ 32%N :: r) in *.
  rewrite token_open; [|exact numbers|discriminate|repeat (apply Forall_cons; [unfold word_char; cbn; lia|]); apply Forall_nil|cbn; lia|cbn in *; lia|exact R].
  cbn [bind]. rewrite copy_short by (cbn; lia).
  repeat match goal with |- context [like ?x (b ?l)] => change (like x (b l)) with false; cbv iota end. reflexivity.
Qed.
Lemma loop_declaration sp r st t q fuel : next r = Ok (t, q) -> starts_solid r -> blanks sp ->
  length (b "<?xml version=" ++ [34%N] ++ b "1.0" ++ [34%N] ++ b "?>" ++ sp ++ r) < extent ->
  length (b "<?xml version=" ++ [34%N] ++ b "1.0" ++ [34%N] ++ b "?>" ++ sp ++ r) <= fuel ->
  exists fuel', length r <= fuel' /\
    loop fuel (b "<?xml version=" ++ [34%N] ++ b "1.0" ++ [34%N] ++ b "?>" ++ sp ++ r) st = loop fuel' r st.
Proof.
  intros Nr Sr Sp Le Lf.
  remember (62%N :: sp ++ r) as q5 eqn:E5. remember (63%N :: [] ++ q5) as q4 eqn:E4. remember (34%N :: escaped 34 (b "1.0") ++ 34%N :: q4) as q3 eqn:E3.
  remember (61%N :: [] ++ q3) as q2 eqn:E2. remember (b "version" ++ q2) as q1 eqn:E1.
  assert (Ex : b "<?xml version=" ++ [34%N] ++ b "1.0" ++ [34%N] ++ b "?>" ++ sp ++ r = b "<?xml " ++ q1) by (rewrite E1, E2, E3, E4, E5; reflexivity).
  rewrite Ex in *.
  assert (Ln5 : length q5 = 1 + length sp + length r) by (rewrite E5; cbn [length]; rewrite app_length; lia).
  assert (Ln4 : length q4 = 1 + length q5) by (now rewrite E4).
  assert (Ln3 : length q3 = 5 + length q4) by (now rewrite E3).
  assert (Ln2 : length q2 = 1 + length q3) by (now rewrite E2).
  assert (Ln1 : length q1 = 7 + length q2) by (now rewrite E1).
  assert (Ln0 : length (b "<?xml " ++ q1) = 6 + length q1) by reflexivity.
  assert (S5 : starts_solid q5) by (rewrite E5; cbn; unfold blank; cbn; lia).
  assert (S4 : starts_solid q4) by (rewrite E4; cbn; unfold blank; cbn; lia).
  assert (S3 : starts_solid q3) by (rewrite E3; cbn; unfold blank; cbn; lia).
  assert (S1 : starts_solid q1) by (rewrite E1; cbn; unfold blank; cbn; lia).
  assert (N5 : next q5 = Ok ([62%N], r)) by (rewrite E5; apply token_symbol; try assumption; [cbn; tauto|lia]).
  assert (N4 : next q4 = Ok ([63%N], q5)) by (rewrite E4; apply token_symbol; try assumption; [cbn; tauto|lia|apply Forall_nil]).
  assert (N3 : next q3 = Ok (b "1.0", q4)) by (rewrite E3; apply token_value; [cbn; lia|reflexivity|exact S4]).
  assert (N2 : next q2 = Ok ([61%N], q3)) by (rewrite E2; apply token_symbol; try assumption; [cbn; tauto|lia|apply Forall_nil]).
  assert (N1 : next q1 = Ok (b "version", q2)).
  { rewrite E1, E2. apply (token_version q3); [lia|exact S3]. }
  assert (T0 : turn (b "<?xml " ++ q1) st = Ok (Some (q1, st))) by (apply turn_xml; [lia|exact S1]).
  assert (NT1 : no_tag (b "version")) by (unfold no_tag; repeat split; try discriminate; cbn; lia).
  assert (NT2 : no_tag [61%N]) by (unfold no_tag; repeat split; try discriminate; cbn; lia).
  assert (NT3 : no_tag (b "1.0")) by (unfold no_tag; repeat split; try discriminate; cbn; lia).
  assert (NT4 : no_tag [63%N]) by (unfold no_tag; repeat split; try discriminate; cbn; lia).
  assert (NT5 : no_tag [62%N]) by (unfold no_tag; repeat split; try discriminate; cbn; lia).
  assert (T1 := turn_other q1 q2 st _ _ _ N1 NT1 N2). assert (T2 := turn_other q2 q3 st _ _ _ N2 NT2 N3).
  assert (T3 := turn_other q3 q4 st _ _ _ N3 NT3 N4). assert (T4 := turn_other q4 q5 st _ _ _ N4 NT4 N5). assert (T5 := turn_other q5 r st _ _ _ N5 NT5 Nr).
  clear N1 N2 N3 N4 N5 NT1 NT2 NT3 NT4 NT5.
  assert (X : forall q : list N, 1 <= length q -> q <> []) by (intros [|] H; [cbn in H; lia|discriminate]).
  destruct (loop_turn _ _ _ _ fuel T0 ltac:(apply X; lia) Lf ltac:(lia)) as (f0 & L0 & ->).
  destruct (loop_turn _ _ _ _ f0 T1 ltac:(apply X; lia) L0 ltac:(lia)) as (f1 & L1 & ->).
  destruct (loop_turn _ _ _ _ f1 T2 ltac:(apply X; lia) L1 ltac:(lia)) as (f2 & L2 & ->).
  destruct (loop_turn _ _ _ _ f2 T3 ltac:(apply X; lia) L2 ltac:(lia)) as (f3 & L3 & ->).
  destruct (loop_turn _ _ _ _ f3 T4 ltac:(apply X; lia) L3 ltac:(lia)) as (f4 & L4 & ->).
  destruct (loop_turn _ _ _ _ f4 T5 ltac:(apply X; lia) L4 ltac:(lia)) as (f5 & L5 & ->).
  exists f5. now split.
Qed.
Lemma tag_token w r : Forall word_char w -> ~ In 92%N w -> length (60%N :: w ++ 62%N :: r) < extent -> exists t q, next (60%N :: w ++ 62%N :: r) = Ok (t, q).
Proof. intros W B X. eexists _, _. apply token_tag; try assumption. cbn [length] in X. rewrite app_length in X. cbn [length] in X. lia. Qed.
Lemma turn_map' r q st : q = b "<localemap>" ++ r -> length q < extent -> turn q st = Ok (Some (62%N :: r, st)).
Proof. intros ->. apply turn_map. Qed.
Lemma turn_gt' s r q st : q = 62%N :: s ++ r -> 2 <= extent -> blanks s -> starts_solid r -> (exists t q', next r = Ok (t, q')) -> turn q st = Ok (Some (r, st)).
Proof. intros -> A B C (t & q' & D). now apply turn_gt with (t := t) (q := q'). Qed.
Lemma loop_document sp name f cache fuel : 1 <= extent -> blanks sp ->
  like (firstn 4 name) (b "url(") = false -> ~ (exists w, name = 62%N :: w) -> good L [] f ->
  length (document sp name f) < extent -> length (document sp name f) <= fuel ->
  exists tag, loop fuel (document sp name f) ([], cache) = Ok (tag, rev (entries [] f) ++ cache).
Proof.
  intros HE Sp U N62 G Le Lf.
  remember (b "</localemap>" ++ sp) as q6 eqn:E6. remember (b "</locale>" ++ sp ++ q6) as q5 eqn:E5. remember (print sp f ++ q5) as q4 eqn:E4.
  remember (b "<locale name=" ++ 34%N :: escaped 34 name ++ 34%N :: 62%N :: sp ++ q4) as q3 eqn:E3. remember (b "<localemap>" ++ sp ++ q3) as q2 eqn:E2.
  assert (Ex : document sp name f = b "<?xml version=" ++ [34%N] ++ b "1.0" ++ [34%N] ++ b "?>" ++ sp ++ q2) by (rewrite E2, E3, E4, E5, E6; reflexivity).
  assert (Lq6 : length q6 = 12 + length sp) by (rewrite E6; reflexivity).
  assert (Lq5 : length q5 = 9 + length sp + length q6) by (rewrite E5, !app_length; reflexivity).
  assert (Lq4 : length q4 = length (print sp f) + length q5) by (now rewrite E4, !app_length).
  assert (Lq3 : length q3 = 16 + length (escaped 34 name) + length sp + length q4).
  { rewrite E3. rewrite app_length. cbn [length]. rewrite app_length. cbn [length]. rewrite app_length. change (length (b "<locale name=")) with 13. lia. }
  assert (Lq2 : length q2 = 11 + length sp + length q3) by (rewrite E2, !app_length; reflexivity).
  assert (Lx : length (document sp name f) = 21 + length sp + length q2).
  { rewrite Ex. rewrite !app_length. change (length (b "<?xml version=")) with 14. change (length (b "1.0")) with 3. change (length (b "?>")) with 2. cbn [length]. lia. }
  assert (S6 : starts_solid q6) by (rewrite E6; hnf; unfold blank; cbn; lia).
  assert (S5 : starts_solid q5) by (rewrite E5; hnf; unfold blank; cbn; lia).
  assert (S3 : starts_solid q3) by (rewrite E3; hnf; unfold blank; cbn; lia).
  assert (S2 : starts_solid q2) by (rewrite E2; hnf; unfold blank; cbn; lia).
  assert (N6 : exists t q, next q6 = Ok (t, q)).
  { assert (H : length q6 < extent) by lia. rewrite E6 in H |- *. apply (tag_token (b "/localemap") sp); [repeat (apply Forall_cons; [unfold word_char; cbn; lia|]); apply Forall_nil|cbn; lia|exact H]. }
  assert (N5 : exists t q, next q5 = Ok (t, q)).
  { assert (H : length q5 < extent) by lia. rewrite E5 in H |- *. apply (tag_token (b "/locale") (sp ++ q6)); [repeat (apply Forall_cons; [unfold word_char; cbn; lia|]); apply Forall_nil|cbn; lia|exact H]. }
  assert (N2 : exists t q, next q2 = Ok (t, q)).
  { assert (H : length q2 < extent) by lia. rewrite E2 in H |- *. apply (tag_token (b "localemap") (sp ++ q3)); [repeat (apply Forall_cons; [unfold word_char; cbn; lia|]); apply Forall_nil|cbn; lia|exact H]. }
  assert (N3 : exists t q, next q3 = Ok (t, q)).
  { eexists _, _. rewrite E3. apply (token_open E strtod extent numbers (b "locale") (b "name=" ++ 34%N :: escaped 34 name ++ 34%N :: 62%N :: sp ++ q4));
      [discriminate|repeat (apply Forall_cons; [unfold word_char; cbn; lia|]); apply Forall_nil|cbn; lia|cbn; lia|cbn; unfold blank; cbn; lia]. }
  destruct (print_token sp f [] q5 G Sp ltac:(rewrite <- E4; lia) N5 S5) as (N4 & S4). rewrite <- E4 in N4, S4.
  remember (rev (entries [] f) ++ cache) as cache' eqn:Ec.
  remember (cat L (ChopLocaleComponents [] 1) (b "/")) as tag' eqn:Et.
  assert (T2 := turn_map' (sp ++ q3) q2 ([], cache) E2 ltac:(lia)).
  assert (T2' := turn_gt' sp q3 _ ([], cache) eq_refl ltac:(lia) Sp S3 N3).
  assert (T3 : turn q3 ([], cache) = Ok (Some (q4, ([], cache)))).
  { assert (H : length q3 < extent) by lia. rewrite E3 in H |- *. now apply turn_locale. }
  assert (T5 : turn q5 ([], cache') = Ok (Some (62%N :: sp ++ q6, (tag', cache')))).
  { assert (H : length q5 < extent) by lia. rewrite E5 in H |- *. rewrite Et. now apply turn_end_locale. }
  assert (T5' := turn_gt' sp q6 _ (tag', cache') eq_refl ltac:(lia) Sp S6 N6).
  assert (T6 : turn q6 (tag', cache') = Ok (Some (62%N :: sp, (tag', cache')))).
  { assert (H : length q6 < extent) by lia. rewrite E6 in H |- *. now apply turn_end_map. }
  assert (T6' := turn_gt' sp [] (62%N :: sp) (tag', cache') ltac:(now rewrite app_nil_r) ltac:(lia) Sp I ltac:(eexists _, _; reflexivity)).
  assert (X : forall q : list N, 1 <= length q -> q <> []) by (intros [|] H; [cbn in H; lia|discriminate]).
  assert (Lg : forall q : list N, length (62%N :: sp ++ q) = 1 + length sp + length q) by (intros; cbn [length]; now rewrite app_length).
  destruct N2 as (t2 & r2 & N2).
  destruct (loop_declaration sp q2 ([], cache) t2 r2 fuel N2 S2 Sp ltac:(rewrite <- Ex; exact Le) ltac:(rewrite <- Ex; lia)) as (f0 & L0 & E0).
  rewrite <- Ex in E0. rewrite E0. clear E0 Ex Lf.
  destruct (loop_turn _ _ _ _ f0 T2 ltac:(apply X; lia) L0 ltac:(rewrite Lg; lia)) as (f1 & L1 & ->).
  destruct (loop_turn _ _ _ _ f1 T2' ltac:(discriminate) L1 ltac:(rewrite Lg; lia)) as (f2 & L2 & ->).
  destruct (loop_turn _ _ _ _ f2 T3 ltac:(apply X; lia) L2 ltac:(lia)) as (f3 & L3 & ->).
  destruct (loop_forest sp f Sp [] q5 cache f3 G ltac:(now left) N5 S5 ltac:(rewrite <- E4; lia) ltac:(rewrite <- E4; exact L3)) as (f4 & L4 & F4).
  rewrite <- E4, <- Ec in F4. rewrite F4. clear F4.
  destruct (loop_turn _ _ _ _ f4 T5 ltac:(apply X; lia) L4 ltac:(rewrite Lg; lia)) as (f5 & L5 & ->).
  destruct (loop_turn _ _ _ _ f5 T5' ltac:(discriminate) L5 ltac:(rewrite Lg; lia)) as (f6 & L6 & ->).
  destruct (loop_turn _ _ _ _ f6 T6 ltac:(apply X; lia) L6 ltac:(cbn [length]; lia)) as (f7 & L7 & ->).
  destruct (loop_turn _ _ _ _ f7 T6' ltac:(discriminate) L7 ltac:(cbn [length]; lia)) as (f8 & L8 & ->).
  exists tag'. destruct f8; reflexivity.
Qed.
End Turns.

(** ** C116: the cache holds the messages of the file under the names of their groups *)
Theorem locale_loaded : forall L E strtod file locale sp name f cache,
  (forall s, may_be_number s = false -> strtod s = 0) -> 20 <= L -> 1 <= E -> blanks sp ->
  like (firstn 4 name) (b "url(") = false -> ~ (exists w, name = 62%N :: w) -> good L [] f ->
  LoadLocaleCache L E strtod file locale (document sp name f) cache = Ok (rev (entries [] f) ++ cache).
Proof.
  intros L E strtod file locale sp name f cache Num HL HE Sp U N62 G. unfold LoadLocaleCache. cbn [load_cache].
  match goal with |- bind (load_loop _ _ _ _ ?x ?i ?fu _ _) _ = _ =>
    destruct (loop_document L E strtod locale x i Num HL sp name f cache fu ltac:(lia) Sp U N62 G ltac:(lia) ltac:(lia)) as (tag & ->) end.
  reflexivity.
Qed.
Print Assumptions locale_loaded.

(** a message is found by the names of its groups and its own *)
Lemma find_tag_in cache t m : NoDup (map fst cache) -> In (t, m) cache -> find_tag t cache = Some m.
Proof.
  induction cache as [|(t', m') cache IH]; cbn; [tauto|]. intros D [H|H].
  - injection H as -> ->. destruct (list_eq_dec N.eq_dec t t); [reflexivity|contradiction].
  - inversion D as [|? ? X Y]; subst. destruct (list_eq_dec N.eq_dec t' t) as [->|_]; [|now apply IH].
    exfalso. apply X. change t with (fst (t, m)). now apply in_map.
Qed.
Lemma find_tag_out cache t : ~ In t (map fst cache) -> find_tag t cache = None.
Proof.
  induction cache as [|(t', m') cache IH]; cbn; intros H; [reflexivity|].
  destruct (list_eq_dec N.eq_dec t' t) as [->|_]; [exfalso; apply H; now left|apply IH; tauto].
Qed.
Theorem locale_message : forall L E strtod file locale sp name f,
  (forall s, may_be_number s = false -> strtod s = 0) -> 20 <= L -> 1 <= E -> blanks sp ->
  like (firstn 4 name) (b "url(") = false -> ~ (exists w, name = 62%N :: w) -> good L [] f ->
  NoDup (map fst (entries [] f)) ->
  exists cache, LoadLocaleCache L E strtod file locale (document sp name f) [] = Ok cache /\
    (forall tag m, In (tag ++ [47%N], m) (entries [] f) -> tag <> [] -> length tag + 1 < L -> GetLocaleMessage L cache tag = m) /\
    (forall tag, (forall m, ~ In (tag ++ [47%N], m) (entries [] f)) -> length tag + 1 < L -> GetLocaleMessage L cache tag = tag).
Proof.
  intros L E strtod file locale sp name f Num HL HE Sp U N62 G D. exists (rev (entries [] f) ++ []). split; [now apply locale_loaded|].
  rewrite app_nil_r.
  assert (Fi : forall tag, length tag + 1 < L -> firstn (L - 1) (tag ++ b "/") = tag ++ [47%N]).
  { intros tag H. apply firstn_all2. rewrite app_length. cbn. lia. }
  split.
  - intros tag m H Nt Lt. unfold GetLocaleMessage. rewrite Fi by exact Lt. rewrite (find_tag_in _ _ m).
    + now destruct tag.
    + rewrite map_rev. now apply NoDup_rev.
    + now apply in_rev in H.
  - intros tag H Lt. unfold GetLocaleMessage. rewrite Fi by exact Lt. rewrite find_tag_out; [now destruct tag|].
    rewrite map_rev, <- in_rev. intros X. apply in_map_iff in X. destruct X as ((t, m) & X & Y). cbn in X. subst t. exact (H m Y).
Qed.
Print Assumptions locale_message.

(** when a name is given twice the last one is found *)
Theorem locale_last : forall L E strtod file locale sp name f tag m before after,
  (forall s, may_be_number s = false -> strtod s = 0) -> 20 <= L -> 1 <= E -> blanks sp ->
  like (firstn 4 name) (b "url(") = false -> ~ (exists w, name = 62%N :: w) -> good L [] f ->
  entries [] f = before ++ (tag ++ [47%N], m) :: after -> ~ In (tag ++ [47%N]) (map fst after) -> tag <> [] -> length tag + 1 < L ->
  forall cache, exists cache', LoadLocaleCache L E strtod file locale (document sp name f) cache = Ok cache' /\ GetLocaleMessage L cache' tag = m.
Proof.
  intros L E strtod file locale sp name f tag m before after Num HL HE Sp U N62 G Ef Na Nt Lt cache.
  exists (rev (entries [] f) ++ cache). split; [now apply locale_loaded|]. rewrite Ef, rev_app_distr. cbn [rev]. rewrite <- !app_assoc.
  unfold GetLocaleMessage. rewrite firstn_all2 by (rewrite app_length; cbn; lia).
  assert (H : forall a c, ~ In (tag ++ [47%N]) (map fst a) -> find_tag (tag ++ b "/") (a ++ [(tag ++ [47%N], m)] ++ c) = Some m).
  { induction a as [|(t', m') a IH]; intros c H.
    - cbn [app find_tag]. change (b "/") with [47%N]. destruct (list_eq_dec N.eq_dec (tag ++ [47%N]) (tag ++ [47%N])); [reflexivity|contradiction].
    - cbn [app find_tag]. change (b "/") with [47%N] in *. cbn in H. destruct (list_eq_dec N.eq_dec t' (tag ++ [47%N])) as [->|_]; [exfalso; apply H; now left|].
      apply IH. tauto. }
  rewrite H by (rewrite map_rev, <- in_rev; exact Na). now destruct tag.
Qed.
Print Assumptions locale_last.

(** a file with two messages in nested groups meets the hypotheses *)
Example locale_example : exists cache,
  LoadLocaleCache 4096 4096 (fun _ => 0) (fun _ => None) (b "C")
    (document [10%N; 32%N] (b "english") (Group (b "blob") (Group (b "error") (Message (b "NoSuch") (b "no such blob") (Message (b "Full") (b "disk full") Nil)) Nil) Nil)) [] = Ok cache /\
  GetLocaleMessage 4096 cache (b "blob/error/NoSuch") = b "no such blob" /\ GetLocaleMessage 4096 cache (b "blob/error/Full") = b "disk full" /\
  GetLocaleMessage 4096 cache (b "blob/error/Other") = b "blob/error/Other".
Proof. eexists. split; [vm_compute; reflexivity|]. repeat split; vm_compute; reflexivity. Qed.
Example good_example : good 4096 [] (Group (b "blob") (Group (b "error") (Message (b "NoSuch") (b "no such blob") (Message (b "Full") (b "disk full") Nil)) Nil) Nil).
Proof.
  assert (S1 : forall m n : nat, (m <=? n) = true -> m <= n) by (intros; now apply Nat.leb_le).
  cbn [good]. unfold group_name, trimmed, blank.
  repeat split; try discriminate; try reflexivity; try (eexists _, _; split; reflexivity); try (intros (w & H); discriminate H);
    try (repeat (apply Forall_cons; [unfold word_char; cbn; lia|]); apply Forall_nil);
    try (apply S1; vm_compute; reflexivity); try (cbn; lia); try (cbn; intros H; repeat destruct H as [H|H]; try discriminate H; contradiction).
Qed.

(** *** what the texts may not hold *)
(** a '/' in a message moves the messages after it under a wrong name *)
Theorem locale_slash_refuted : exists cache,
  LoadLocaleCache 4096 4096 (fun _ => 0) (fun _ => None) (b "C")
    (document [10%N] (b "english") (Group (b "blob") (Message (b "Open") (b "read/write") (Message (b "Full") (b "disk full") Nil)) Nil)) [] = Ok cache /\
  GetLocaleMessage 4096 cache (b "blob/Full") = b "blob/Full" /\ GetLocaleMessage 4096 cache (b "blob/Open/Full") = b "disk full".
Proof. eexists. split; [vm_compute; reflexivity|]. split; vm_compute; reflexivity. Qed.
Print Assumptions locale_slash_refuted.
(** the messages of a second <locale> are stored under names that begin with '/' *)
Theorem locale_second_refuted : exists cache,
  LoadLocaleCache 4096 4096 (fun _ => 0) (fun _ => None) (b "C")
    (b "<localemap><locale name='a'><blob><message name='One'>one</message></blob></locale><locale name='a'><blob><message name='Two'>two</message></blob></locale></localemap>") []
    = Ok cache /\
  GetLocaleMessage 4096 cache (b "blob/One") = b "one" /\ GetLocaleMessage 4096 cache (b "blob/Two") = b "blob/Two" /\
  GetLocaleMessage 4096 cache (b "/blob/Two") = b "two".
Proof. eexists. split; [vm_compute; reflexivity|]. repeat split; vm_compute; reflexivity. Qed.
Print Assumptions locale_second_refuted.
(** so are the messages after one that is in no group *)
Theorem locale_top_refuted : exists cache,
  LoadLocaleCache 4096 4096 (fun _ => 0) (fun _ => None) (b "C")
    (document [] (b "english") (Message (b "Top") (b "top") (Group (b "blob") (Message (b "Full") (b "disk full") Nil) Nil))) [] = Ok cache /\
  GetLocaleMessage 4096 cache (b "blob/Full") = b "blob/Full".
Proof. eexists. split; [vm_compute; reflexivity|]. vm_compute. reflexivity. Qed.
Print Assumptions locale_top_refuted.
(** a comment with a word before an unclosed parenthesis is read past the end of the file *)
Theorem locale_comment_refuted :
  LoadLocaleCache 4096 4096 (fun _ => 0) (fun _ => None) (b "C") (b "<localemap><!-- see f(x --></localemap>") [] = UB.
Proof. vm_compute. reflexivity. Qed.
Print Assumptions locale_comment_refuted.
