(** C159-C161: the command line of encipher and decipher. *)
From Coq Require Import Arith NArith ZArith Bool Lia String List ZifyBool ZifyNat ZifyN.
From Verif Require Import Base Outcome CStringModel CStringSpec CStringProps OptionModel OptionProps CommandModel.
Import ListNotations.

(** ** Names in any letter case *)
Definition ascii (s : list N) : Prop := Forall (fun c => 0 < c < 128)%N s.
Lemma ascii_text s : ascii s -> text s.
Proof. apply Forall_impl. intros c. lia. Qed.
Lemma ascii_map_lower s : ascii s -> map ascii_map s = map Z.of_N (map lower s).
Proof.
  induction 1 as [|c s C S IH]; [reflexivity|]. cbn [map]. rewrite IH. f_equal.
  assert (K : forallb (fun c => (128 <=? c)%N || (ascii_map c =? Z.of_N (lower c))%Z) (map N.of_nat (seq 0 256)) = true) by (vm_compute; reflexivity).
  apply (sweep _ _ c) in K; [|lia]. cbv beta in K. lia.
Qed.
Lemma is_name_iff n o : ascii n -> ascii o -> is_name n o = true <-> map lower n = map lower o.
Proof.
  intros A B. unfold is_name. rewrite locale_compare_eq by now apply ascii_text.
  assert (first_difference n o = 0%Z <-> map lower n = map lower o) as K.
  { rewrite first_difference_zero by now apply ascii_text. rewrite !ascii_map_lower by assumption. split; [|now intros ->].
    generalize (map lower n) as x, (map lower o) as y. induction x as [|c x IH]; intros [|d y] H; [reflexivity|discriminate|discriminate|].
    injection H as H1 H2. rewrite (N2Z.inj _ _ H1). f_equal. now apply IH. }
  destruct (first_difference n o); split; intros H; try discriminate; try reflexivity; try (apply K in H; discriminate). now apply K.
Qed.
Lemma is_name_false n o : ascii n -> ascii o -> map lower n <> map lower o -> is_name n o = false.
Proof. intros A B H. apply not_true_iff_false. now rewrite is_name_iff. Qed.

(** ** What can be said on the command line *)
Inductive field := Authenticate | Cipher | Entropy | Hmac | Key | Level | Mode.
Inductive place := Keyring | Passphrase | Properties.
Inductive word :=
| Value (f : field) (t : Z) (text : list N)       (* -cipher AES *)
| Place (p : place) (name : list N)               (* -keyring name *)
| Verbose (yes : bool)                            (* -verbose, +verbose *)
| TrueRandom (yes : bool)
| Name (name : list N).
Definition field_name (f : field) : list N :=
  match f with
  | Authenticate => b "-authenticate" | Cipher => b "-cipher" | Entropy => b "-entropy" | Hmac => b "-hmac" | Key => b "-key"
  | Level => b "-level" | Mode => b "-mode"
  end.
Definition field_table (f : field) : WizardOption :=
  match f with
  | Authenticate => WizardAuthenticateOptions | Cipher => WizardCipherOptions | Entropy => WizardEntropyOptions | Hmac => WizardHashOptions
  | Key => WizardHashOptions | Level => WizardEntropyLevelOptions | Mode => WizardModeOptions
  end.
Definition place_name (p : place) : list N := match p with Keyring => b "-keyring" | Passphrase => b "-passphrase" | Properties => b "-properties" end.
(** the arguments of a word *)
Definition arguments (w : word) : list (list N) :=
  match w with
  | Value f _ text => [field_name f; text]
  | Place p name => [place_name p; name]
  | Verbose yes => [if yes then b "-verbose" else b "+verbose"]
  | TrueRandom yes => [if yes then b "-true-random" else b "+true-random"]
  | Name name => [name]
  end.
(** the value is in the table, and written with its name in any letter case; a name does not look like an option *)
Definition word_ok (w : word) : Prop :=
  match w with
  | Value f t text => In t (map snd (GetOptionInfo (field_table f))) /\ recased (WizardOptionToMnemonic (field_table f) t) text /\ (f = Authenticate -> t <> 2%Z)
  | Name name => IsWizardOption name = false
  | _ => True
  end.
(** what is meant: the last of several wins *)
Definition field_eqb (f g : field) : bool :=
  match f, g with
  | Authenticate, Authenticate | Cipher, Cipher | Entropy, Entropy | Hmac, Hmac | Key, Key | Level, Level | Mode, Mode => true
  | _, _ => false
  end.
Definition place_eqb (p q : place) : bool := match p, q with Keyring, Keyring | Passphrase, Passphrase | Properties, Properties => true | _, _ => false end.
Definition values (f : field) (l : list word) : list Z := flat_map (fun w => match w with Value g t _ => if field_eqb f g then [t] else [] | _ => [] end) l.
Definition places (p : place) (l : list word) : list (list N) := flat_map (fun w => match w with Place q n => if place_eqb p q then [n] else [] | _ => [] end) l.
Definition names (l : list word) : list (list N) := flat_map (fun w => match w with Name n => [n] | _ => [] end) l.
Definition verbosities (l : list word) : list bool := flat_map (fun w => match w with Verbose y => [y] | _ => [] end) l.
Definition get (f : field) (s : settings) : Z :=
  match f with
  | Authenticate => authenticate s | Cipher => cipher s | Entropy => entropy s | Hmac => hmac s | Key => key_hash s | Level => level s | Mode => mode s
  end.
Definition get_place (p : place) (s : settings) : option (list N) := match p with Keyring => keyring s | Passphrase => passphrase s | Properties => properties s end.

(** ** The parser *)
Section CommandProps.
Variable expand : list (list N) -> outcome (list (list N)).
Variable number : list N -> Z * bool.
Variable size : list N -> Z.
Notation parse := (parse number size).
Notation parse_option := (parse_option number size).
Notation command := (CipherCommand expand number size).

Lemma types_positive o t : o <> WizardLogEventOptions -> In t (map snd (GetOptionInfo o)) -> (0 <= t)%Z.
Proof.
  intros _ I. assert (K : forallb (fun t => 0 <=? t)%Z (map snd (GetOptionInfo o)) = true) by (destruct o; reflexivity).
  rewrite forallb_forall in K. apply K in I. lia.
Qed.
Definition after (w : word) (s : settings) : settings :=
  let '(mkSettings au ci en hm kh le mo kl cs kr pa pr co ve) := s in
  match w with
  | Value Authenticate t _ => mkSettings t ci en hm kh le mo kl cs kr pa pr co ve
  | Value Cipher t _ => mkSettings au t en hm kh le mo kl cs kr pa pr co ve
  | Value Entropy t _ => mkSettings au ci t hm kh le mo kl cs kr pa pr co ve
  | Value Hmac t _ => mkSettings au ci en t kh le mo kl cs kr pa pr co ve
  | Value Key t _ => mkSettings au ci en hm t le mo kl cs kr pa pr co ve
  | Value Level t _ => mkSettings au ci en hm kh t mo kl cs kr pa pr co ve
  | Value Mode t _ => mkSettings au ci en hm kh le t kl cs kr pa pr co ve
  | Place Keyring n => mkSettings au ci en hm kh le mo kl cs (Some n) pa pr co ve
  | Place Passphrase n => mkSettings au ci en hm kh le mo kl cs kr (Some n) pr co ve
  | Place Properties n => mkSettings au ci en hm kh le mo kl cs kr pa (Some n) co ve
  | Verbose y => mkSettings au ci en hm kh le mo kl cs kr pa pr co y
  | _ => s
  end.
Lemma parse_word w rest s : word_ok w -> match w with Name _ => True | _ =>
  exists o more, arguments w = o :: more /\ IsWizardOption o = true /\ parse_option o (more ++ rest) s = Ok (Next (after w s) rest) end.
Proof.
  intros W. destruct w as [f t x|p n|y|y|n]; cbn [word_ok arguments] in *.
  - destruct W as (I & R & A).
    assert (ParseWizardOption (field_table f) false x = Ok t) as P by (apply option_round_trip_partial; [destruct f; discriminate|exact I|exact R]).
    assert ((t <? 0)%Z = false) as L by (assert (0 <= t)%Z by (apply (types_positive (field_table f)); [destruct f; discriminate|exact I]); lia).
    eexists _, _. split; [reflexivity|]. split; [destruct f; reflexivity|]. destruct s.
    destruct f; cbn [field_table] in P; (match goal with |- CommandModel.parse_option _ _ ?o _ _ = _ => let o' := eval vm_compute in o in change o with o' end);
      cbn -[ParseWizardOption is_name]; repeat match goal with |- context [is_name ?x ?y] => let v := eval vm_compute in (is_name x y) in change (is_name x y) with v end;
      cbn -[ParseWizardOption]; unfold typed, with_parameter; cbn -[ParseWizardOption]; rewrite P; cbn [bind]; rewrite L; try reflexivity.
    replace (t =? 2)%Z with false by (specialize (A eq_refl); lia). reflexivity.
  - eexists _, _. split; [reflexivity|]. split; [destruct p; reflexivity|]. destruct s, p; reflexivity.
  - eexists _, _. split; [reflexivity|]. split; [destruct y; reflexivity|]. destruct s, y; reflexivity.
  - eexists _, _. split; [reflexivity|]. split; [destruct y; reflexivity|]. destruct s, y; reflexivity.
  - exact I.
Qed.
Definition afters (l : list word) (s : settings) : settings := fold_left (fun s w => after w s) l s.
Lemma parse_words : forall l fuel rest s got, Forall word_ok l -> length (flat_map arguments l ++ rest) <= fuel -> length (got ++ names l) <= 2 ->
  exists fuel', length rest <= fuel' /\
    parse fuel (flat_map arguments l ++ rest) s (nth_error got 0) (nth_error got 1) =
    parse fuel' rest (afters l s) (nth_error (got ++ names l) 0) (nth_error (got ++ names l) 1).
Proof.
  induction l as [|w l IH]; intros fuel rest s got W F G.
  - exists fuel. cbn [names flat_map] in *. rewrite app_nil_r. split; [exact F|reflexivity].
  - inversion W as [|? ? Ww Wl]; subst. cbn [flat_map] in *. rewrite <- app_assoc in *.
    destruct w as [f t x|p n|y|y|n]; [| | | |].
    5: { cbn [word_ok arguments app names flat_map length] in *. destruct fuel as [|fuel]; [cbn in F; lia|]. cbn [length] in F. cbn [CommandModel.parse]. rewrite Ww. cbn [negb].
      rewrite app_length in G. cbn [app length] in G. fold (names l) in *.
      assert (afters (Name n :: l) s = afters l s) as -> by (unfold afters; cbn [fold_left]; now destruct s).
      destruct got as [|g [|h got]]; cbn [length] in G.
      - cbn [nth_error]. apply (IH fuel rest s [n]); [exact Wl|lia|cbn [app length]; lia].
      - cbn [nth_error]. apply (IH fuel rest s [g; n]); [exact Wl|lia|cbn [app length]; lia].
      - lia. }
    all: match goal with |- context [arguments ?w] => destruct (parse_word w (flat_map arguments l ++ rest) s Ww) as (o & more & Q & Is & P) end;
      rewrite Q in *; cbn [app length] in *; (destruct fuel as [|fuel]; [lia|]); cbn [CommandModel.parse]; rewrite Is; cbn [negb]; rewrite P; cbn [bind];
      rewrite app_length in F; apply (IH fuel rest _ got); [exact Wl|lia|exact G].
Qed.
Lemma command_parse args : 2 <= length args -> expand args = Ok args -> command args = parse (length args) args default None None.
Proof. intros L Ex. destruct args as [|x [|y args]]; cbn [length] in L; try lia. cbn [CipherCommand]. rewrite Ex. reflexivity. Qed.
Lemma words_then l rest : Forall word_ok l -> length (names l) <= 2 -> 2 <= length (flat_map arguments l ++ rest) ->
  expand (flat_map arguments l ++ rest) = Ok (flat_map arguments l ++ rest) ->
  exists fuel, length rest <= fuel /\ command (flat_map arguments l ++ rest) = parse fuel rest (afters l default) (nth_error (names l) 0) (nth_error (names l) 1).
Proof.
  intros W G L Ex. rewrite command_parse by assumption. destruct (parse_words l _ rest default [] W (le_n _) G) as (fuel & F & Q).
  exists fuel. split; [exact F|exact Q].
Qed.
Lemma last_app_one {A} (l : list A) x d : last (l ++ [x]) d = x.
Proof. apply last_last. Qed.
Lemma get_afters l : forall s,
  (forall f, get f (afters l s) = last (values f l) (get f s)) /\
  (forall p, get_place p (afters l s) = last (map Some (places p l)) (get_place p s)) /\
  verbose (afters l s) = last (verbosities l) (verbose s) /\
  compress (afters l s) = compress s /\ key_length (afters l s) = key_length s /\ chunksize (afters l s) = chunksize s.
Proof.
  induction l as [|w l IH] using rev_ind; intros s; [repeat split; now intros []|].
  destruct (IH s) as (A & B & C & D & F & G). unfold afters in *. rewrite fold_left_app. cbn [fold_left]. set (t := fold_left _ l s) in *.
  unfold values, places, verbosities in *. repeat split.
  - intros f. rewrite flat_map_app. cbn [flat_map]. rewrite app_nil_r. specialize (A f).
    destruct w as [g z x|p n|y|y|n]; try (rewrite app_nil_r, <- A; destruct t, f; try reflexivity; destruct p; reflexivity).
    destruct (field_eqb f g) eqn:Q; [rewrite last_last; destruct t, f, g; try discriminate; reflexivity|].
    rewrite app_nil_r, <- A. destruct t, f, g; try discriminate; reflexivity.
  - intros p. rewrite flat_map_app. cbn [flat_map]. rewrite app_nil_r, map_app. specialize (B p).
    destruct w as [g z x|q n|y|y|n]; cbn [map]; try (rewrite app_nil_r, <- B; destruct t, p; try reflexivity; destruct g; reflexivity).
    destruct (place_eqb p q) eqn:Q; [cbn [map]; rewrite last_last; destruct t, p, q; try discriminate; reflexivity|].
    cbn [map]. rewrite app_nil_r, <- B. destruct t, p, q; try discriminate; reflexivity.
  - rewrite flat_map_app. cbn [flat_map]. rewrite app_nil_r. destruct w as [g z x|q n|y|y|n]; try (rewrite app_nil_r, <- C; destruct t; try reflexivity; try destruct g; try destruct q; reflexivity).
    rewrite last_last. destruct t. reflexivity.
  - rewrite <- D. destruct t, w as [[] | [] | | |]; reflexivity.
  - rewrite <- F. destruct t, w as [[] | [] | | |]; reflexivity.
  - rewrite <- G. destruct t, w as [[] | [] | | |]; reflexivity.
Qed.

(** C159: options in any order between two names mean what the last of each says; what is not said has its default. *)
Theorem command_settings : forall l p c, Forall word_ok l -> names l = [p; c] ->
  expand (flat_map arguments l) = Ok (flat_map arguments l) ->
  exists s, command (flat_map arguments l) = Ok (Run s p c) /\
    (forall f, get f s = last (values f l) (get f default)) /\
    (forall q, get_place q s = last (map Some (places q l)) None) /\
    verbose s = last (verbosities l) false /\ compress s = true /\ key_length s = 512%Z /\ chunksize s = 262144%Z.
Proof.
  intros l p c W Q Ex. assert (2 <= length (flat_map arguments l)) as L.
  { assert (length (names l) <= length (flat_map arguments l)) as K; [|rewrite Q in K; exact K]. clear. induction l as [|w l IH]; [apply le_n|]. cbn [names flat_map]. fold (names l). rewrite !app_length. destruct w; cbn [arguments length]; lia. }
  rewrite <- (app_nil_r (flat_map arguments l)) in *. destruct (words_then l [] W) as (fuel & _ & R); [now rewrite Q|exact L|exact Ex|].
  rewrite R, Q. cbn [nth_error]. exists (afters l default). split; [now destruct fuel|]. destruct (get_afters l default) as (A & B & C & D & F & G).
  repeat split; try assumption. intros q. rewrite B. now destruct q.
Qed.

(** ** What is refused *)
Definition known : list (list N) :=
  [b "authenticate"; b "chunksize"; b "cipher"; b "debug"; b "entropy"; b "help"; b "hmac"; b "key"; b "key-length"; b "keyring"; b "level";
   b "list"; b "log"; b "mode"; b "passphrase"; b "properties"; b "true-random"; b "verbose"; b "version"].
Lemma known_ascii n : In n known -> ascii n /\ map lower n = n.
Proof.
  intros I. assert (K : forallb (fun n => forallb (fun c => (0 <? c)%N && (c <? 128)%N && (lower c =? c)%N) n) known = true) by reflexivity.
  rewrite forallb_forall in K. specialize (K n I). rewrite forallb_forall in K. split.
  - apply Forall_forall. intros c C. apply K in C. lia.
  - rewrite <- (map_id n) at 2. apply map_ext_in. intros c C. apply K in C. lia.
Qed.
Lemma unknown_option o rest s : IsWizardOption o = true -> ascii o -> ~ In (map lower (List.tl o)) known -> parse_option o rest s = Ok (Stop Failed).
Proof.
  intros Is As U. destruct o as [|x [|d t]]; try discriminate. cbn [IsWizardOption List.tl] in *. apply andb_prop in Is. destruct Is as (Sg & Al).
  assert (A : ascii (d :: t)) by (inversion As; assumption).
  assert (K1 : forall n, In n known -> is_name n (d :: t) = false).
  { intros n I. destruct (known_ascii n I) as (An & Ln). apply is_name_false; try assumption. rewrite Ln. intros ->. contradiction. }
  assert (K2 : forall n, In n known -> is_name (d :: t) n = false).
  { intros n I. destruct (known_ascii n I) as (An & Ln). apply is_name_false; try assumption. rewrite Ln. intros Q. rewrite Q in U. contradiction. }
  assert (K3 : forall n, In n known -> is_name (x :: d :: t) (45%N :: n) = false).
  { intros n I. destruct (known_ascii n I) as (An & Ln). apply is_name_false; [assumption|constructor; [lia|assumption]|].
    cbn [map]. change (lower 45) with 45%N. rewrite Ln. intros Q. injection Q as _ Q. cbn [map] in U. rewrite Q in U. contradiction. }
  assert (K4 : is_name (b "-help") (d :: t) = false).
  { apply is_name_false; [cbn; repeat (apply Forall_cons; [lia|]); apply Forall_nil|assumption|]. cbn. unfold isalpha in Al. intros Q. injection Q as Q _. unfold lower in Q. destruct ((65 <=? d)%N && (d <=? 90)%N) eqn:Z; lia. }
  unfold CommandModel.parse_option. destruct s. cbn [List.tl List.hd].
  assert ((d =? 40)%N = false) as -> by (unfold isalpha in Al; lia).
  change (b "-chunksize") with (45%N :: b "chunksize"). change (b "-debug") with (45%N :: b "debug"). change (b "-level") with (45%N :: b "level").
  change (b "-list") with (45%N :: b "list"). change (b "-version") with (45%N :: b "version"). rewrite K4.
  rewrite (K1 (b "authenticate")), (K1 (b "cipher")), (K1 (b "entropy")), (K1 (b "hmac")), (K1 (b "help")), (K1 (b "key")), (K1 (b "key-length")), (K1 (b "keyring")), (K1 (b "log")), (K1 (b "mode")), (K1 (b "passphrase")), (K1 (b "properties")) by (cbn; tauto).
  rewrite (K2 (b "true-random")), (K2 (b "verbose")) by (cbn; tauto).
  rewrite (K3 (b "chunksize")), (K3 (b "debug")), (K3 (b "level")), (K3 (b "list")), (K3 (b "version")) by (cbn; tauto).
  cbn [orb]. repeat match goal with |- context [if ?c then _ else _] => destruct c end; reflexivity.
Qed.
(** C160: an option that is not known fails, whatever follows. *)
Theorem command_unknown : forall l o rest, Forall word_ok l -> length (names l) <= 2 -> IsWizardOption o = true -> ascii o -> ~ In (map lower (List.tl o)) known ->
  2 <= length (flat_map arguments l ++ o :: rest) -> expand (flat_map arguments l ++ o :: rest) = Ok (flat_map arguments l ++ o :: rest) ->
  command (flat_map arguments l ++ o :: rest) = Ok Failed.
Proof.
  intros l o rest W G Is A U L Ex. destruct (words_then l (o :: rest) W G L Ex) as (fuel & F & ->). destruct fuel as [|fuel]; [cbn in F; lia|].
  cbn [CommandModel.parse]. rewrite Is. cbn [negb]. now rewrite unknown_option.
Qed.
(** A missing value or a value that is not in the table fails. *)
Theorem command_missing : forall l f, Forall word_ok l -> length (names l) <= 2 -> l <> [] ->
  expand (flat_map arguments l ++ [field_name f]) = Ok (flat_map arguments l ++ [field_name f]) ->
  command (flat_map arguments l ++ [field_name f]) = Ok Failed.
Proof.
  intros l f W G Ne Ex. destruct (words_then l [field_name f] W G) as (fuel & F & ->); [|exact Ex|].
  - rewrite app_length. cbn [length]. destruct l as [|w l]; [contradiction|]. cbn [flat_map]. rewrite app_length. destruct w; cbn [arguments length]; lia.
  - destruct fuel as [|fuel]; [cbn in F; lia|]. destruct (afters l default). destruct f; reflexivity.
Qed.
Theorem command_bad_value : forall l f x z rest, Forall word_ok l -> length (names l) <= 2 ->
  ParseWizardOption (field_table f) false x = Ok z -> (z < 0 \/ f = Authenticate /\ z = 2)%Z ->
  expand (flat_map arguments l ++ field_name f :: x :: rest) = Ok (flat_map arguments l ++ field_name f :: x :: rest) ->
  command (flat_map arguments l ++ field_name f :: x :: rest) = Ok Failed.
Proof.
  intros l f x z rest W G P Z Ex. destruct (words_then l (field_name f :: x :: rest) W G) as (fuel & F & ->); [|exact Ex|].
  - rewrite app_length. cbn [length]. lia.
  - destruct fuel as [|fuel]; [cbn in F; lia|]. destruct (afters l default). cbn [CommandModel.parse].
    assert (IsWizardOption (field_name f) = true) as -> by now destruct f. cbn [negb].
    assert (forall s, parse_option (field_name f) (x :: rest) s = Ok (Stop Failed)) as ->; [|reflexivity]. intros [].
    destruct f; cbn [field_table] in P; (match goal with |- CommandModel.parse_option _ _ ?o _ _ = _ => let o' := eval vm_compute in o in change o with o' end);
      cbn -[ParseWizardOption is_name]; repeat match goal with |- context [is_name ?x ?y] => let v := eval vm_compute in (is_name x y) in change (is_name x y) with v end;
      cbn -[ParseWizardOption]; unfold typed, with_parameter; cbn -[ParseWizardOption]; rewrite P; cbn [bind];
      (destruct (Z.ltb_spec z 0); [reflexivity|]); destruct Z as [Z|(Z & Z')]; try lia; try discriminate. now subst.
Qed.
(** One or three names: the usage is printed. *)
Theorem command_names : forall l n rest, Forall word_ok l -> Forall word_ok rest -> IsWizardOption n = false ->
  expand (flat_map arguments (l ++ Name n :: rest)) = Ok (flat_map arguments (l ++ Name n :: rest)) ->
  length (names l) = 2 \/ (length (names l) = 0 /\ names rest = []) /\ l ++ rest <> [] -> command (flat_map arguments (l ++ Name n :: rest)) = Ok Printed.
Proof.
  intros l n rest W W' Is Ex [G|((G & G') & Ne)].
  - rewrite flat_map_app in *. cbn [flat_map arguments app] in *. destruct (words_then l (n :: flat_map arguments rest) W) as (fuel & F & ->); [lia| |exact Ex|].
    + assert (K : length (names l) <= length (flat_map arguments l)) by (clear; induction l as [|w l IH]; [apply le_n|]; cbn [names flat_map]; fold (names l); rewrite !app_length; destruct w; cbn [arguments length]; lia).
      rewrite app_length. cbn [length]. lia.
    + destruct fuel as [|fuel]; [cbn in F; lia|]. cbn [CommandModel.parse]. rewrite Is. cbn [negb]. destruct (names l) as [|x [|y [|z k]]]; try discriminate. reflexivity.
  - assert (names (l ++ Name n :: rest) = [n]) as Q.
    { unfold names in *. rewrite flat_map_app. cbn [flat_map]. rewrite G'. destruct (flat_map _ l); [reflexivity|discriminate]. }
    rewrite <- (app_nil_r (flat_map arguments (l ++ Name n :: rest))) in *. destruct (words_then (l ++ Name n :: rest) []) as (fuel & F & ->).
    + apply Forall_app. split; [exact W|]. constructor; assumption.
    + rewrite Q. cbn. lia.
    + rewrite app_nil_r, flat_map_app, app_length. cbn [flat_map arguments app length]. rewrite app_nil_r in *.
      destruct l as [|w l]; [destruct rest as [|w rest]; [contradiction|]|]; cbn [flat_map]; rewrite app_length; destruct w; cbn [arguments length]; lia.
    + exact Ex.
    + rewrite Q. now destruct fuel.
Qed.

(** The options with values that are not in a table: -chunksize, -log and -list. *)
Lemma chunksize_option n r au ci en hm kh le mo kl cs kr pa pr co ve :
  parse_option (b "-chunksize") (n :: r) (mkSettings au ci en hm kh le mo kl cs kr pa pr co ve) =
  Ok (if snd (number n) then Next (mkSettings au ci en hm kh le mo kl (size n) kr pa pr co ve) r else Stop Failed).
Proof. transitivity (Ok (if negb (snd (number n)) then Stop Failed else Next (mkSettings au ci en hm kh le mo kl (size n) kr pa pr co ve) r)); [vm_compute; reflexivity|]. now destruct (snd (number n)). Qed.
Lemma log_option n r s : parse_option (b "-log") (n :: r) s = Ok (if existsb (N.eqb 37) n then Next s r else Stop Failed).
Proof. destruct s. vm_compute. reflexivity. Qed.
Lemma list_option n r s : parse_option (b "-list") (n :: r) s =
  if is_name n (b "configure") then Ok (Stop Printed)
  else let* t := ParseWizardOption WizardListOptions false n in Ok (if (t <? 0)%Z then Stop Failed else Stop Printed).
Proof.
  destruct s. change (b "-list") with (45%N :: 108%N :: b "ist"). unfold CommandModel.parse_option.
  match goal with |- context [List.tl ?o] => change (List.tl o) with (108%N :: b "ist") end.
  match goal with |- context [List.hd 0%N ?o] => change (List.hd 0%N o) with 108%N end.
  cbn [N.eqb Pos.eqb]. change (is_name (45%N :: 108%N :: b "ist") (b "-level")) with false. change (is_name (45%N :: 108%N :: b "ist") (b "-list")) with true. cbv iota.
  reflexivity.
Qed.
Theorem command_chunksize : forall l1 n l2 p c, Forall word_ok l1 -> Forall word_ok l2 -> names (l1 ++ l2) = [p; c] ->
  let args := flat_map arguments l1 ++ b "-chunksize" :: n :: flat_map arguments l2 in
  expand args = Ok args ->
  if snd (number n) then exists s, command args = Ok (Run s p c) /\ chunksize s = size n /\ key_length s = 512%Z
  else command args = Ok Failed.
Proof.
  intros l1 n l2 p c W1 W2 Q args Ex. unfold names in Q. rewrite flat_map_app in Q. fold (names l1) in Q. fold (names l2) in Q.
  assert (length (names l1 ++ names l2) = 2) as G by now rewrite Q. rewrite app_length in G.
  destruct (words_then l1 (b "-chunksize" :: n :: flat_map arguments l2) W1) as (fuel & F & R); [lia|rewrite app_length; cbn [length]; lia|exact Ex|].
  fold args in R. rewrite R. destruct fuel as [|fuel]; [cbn in F; lia|]. cbn [CommandModel.parse]. change (IsWizardOption (b "-chunksize")) with true. cbn [negb].
  destruct (get_afters l1 default) as (_ & _ & _ & _ & K1 & _). change (key_length default) with 512%Z in K1.
  set (s1 := afters l1 default) in *. destruct s1 as [au ci en hm kh le mo kl cs kr pa pr co ve]. cbn [key_length] in K1. subst kl.
  rewrite chunksize_option. destruct (snd (number n)); [|reflexivity].
  cbn [bind]. cbn [length] in F. rewrite <- (app_nil_r (flat_map arguments l2)).
  destruct (parse_words l2 fuel [] (mkSettings au ci en hm kh le mo 512 (size n) kr pa pr co ve) (names l1) W2) as (fuel' & _ & ->).
  - rewrite app_nil_r. lia.
  - rewrite app_length. lia.
  - rewrite Q. cbn [nth_error]. eexists. split; [now destruct fuel'|].
    destruct (get_afters l2 (mkSettings au ci en hm kh le mo 512 (size n) kr pa pr co ve)) as (_ & _ & _ & _ & K & K'). split; [exact K'|exact K].
Qed.
Theorem command_log : forall l1 n l2 p c, Forall word_ok l1 -> Forall word_ok l2 -> names (l1 ++ l2) = [p; c] -> (forall a, expand a = Ok a) ->
  let args := flat_map arguments l1 ++ b "-log" :: n :: flat_map arguments l2 in
  (In 37%N n -> command args = command (flat_map arguments (l1 ++ l2))) /\ (~ In 37%N n -> command args = Ok Failed).
Proof.
  intros l1 n l2 p c W1 W2 Q Ex args. pose proof Q as Q0. unfold names in Q. rewrite flat_map_app in Q. fold (names l1) in Q. fold (names l2) in Q.
  assert (length (names l1 ++ names l2) = 2) as G by now rewrite Q. rewrite app_length in G.
  destruct (words_then l1 (b "-log" :: n :: flat_map arguments l2) W1) as (fuel & F & R); [lia|rewrite app_length; cbn [length]; lia|apply Ex|].
  fold args in R. rewrite R. destruct fuel as [|fuel]; [cbn in F; lia|]. cbn [CommandModel.parse]. change (IsWizardOption (b "-log")) with true. cbn [negb].
  rewrite log_option. split; intros H.
  - assert (existsb (N.eqb 37) n = true) as -> by (apply existsb_exists; exists 37%N; split; [exact H|apply N.eqb_refl]).
    cbn [bind]. cbn [length] in F. rewrite <- (app_nil_r (flat_map arguments l2)).
    destruct (parse_words l2 fuel [] (afters l1 default) (names l1) W2) as (fuel' & _ & ->); [rewrite app_nil_r; lia|rewrite app_length; lia|].
    rewrite <- (app_nil_r (flat_map arguments (l1 ++ l2))).
    destruct (words_then (l1 ++ l2) []) as (f2 & _ & ->); [apply Forall_app; now split|rewrite Q0; cbn; lia| |apply Ex|].
    + rewrite app_nil_r, flat_map_app, app_length.
      assert (K : forall l, length (names l) <= length (flat_map arguments l)) by (clear; induction l as [|w l IH]; [apply le_n|]; cbn [names flat_map]; fold (names l); rewrite !app_length; destruct w; cbn [arguments length]; lia).
      pose proof (K l1). pose proof (K l2). lia.
    + rewrite Q0, Q. cbn [nth_error]. unfold afters. rewrite fold_left_app. now destruct fuel', f2.
  - assert (existsb (N.eqb 37) n = false) as ->; [|reflexivity]. destruct (existsb (N.eqb 37) n) eqn:E; [|reflexivity].
    apply existsb_exists in E. destruct E as (x & I & E). apply N.eqb_eq in E. subst x. contradiction.
Qed.
Theorem command_list : forall l n rest, Forall word_ok l -> length (names l) <= 2 -> (forall a, expand a = Ok a) ->
  let args := flat_map arguments l ++ b "-list" :: n :: rest in
  (n = b "configure" \/ (exists z, 0 <= z /\ ParseWizardOption WizardListOptions false n = Ok z)%Z -> command args = Ok Printed) /\
  (is_name n (b "configure") = false -> (exists z, z < 0 /\ ParseWizardOption WizardListOptions false n = Ok z)%Z -> command args = Ok Failed).
Proof.
  intros l n rest W G Ex args.
  destruct (words_then l (b "-list" :: n :: rest) W G) as (fuel & F & R); [rewrite app_length; cbn [length]; lia|apply Ex|].
  fold args in R. rewrite R. destruct fuel as [|fuel]; [cbn in F; lia|]. cbn [CommandModel.parse]. change (IsWizardOption (b "-list")) with true. cbn [negb].
  rewrite list_option. split.
  - intros [->|(z & Z & P)]; [reflexivity|]. destruct (is_name n (b "configure")); [reflexivity|]. rewrite P. cbn [bind]. destruct (Z.ltb_spec z 0); [lia|reflexivity].
  - intros I (z & Z & P). rewrite I, P. cbn [bind]. destruct (Z.ltb_spec z 0); [reflexivity|lia].
Qed.

(** ** What is false *)
Lemma key_length_option n r au ci en hm kh le mo kl cs kr pa pr co ve :
  parse_option (b "-key-length") (n :: r) (mkSettings au ci en hm kh le mo kl cs kr pa pr co ve) =
  Ok (Next (mkSettings au ci en hm kh le mo (fst (number (b "-key-length"))) cs kr pa pr co ve) r).
Proof. vm_compute. reflexivity. Qed.
(** The length of the key is read from the name of the option: it is 0. *)
Theorem key_length_refuted : forall l1 n l2 p c, Forall word_ok l1 -> Forall word_ok l2 -> names (l1 ++ l2) = [p; c] ->
  (forall s, number (45%N :: 107%N :: s) = (0%Z, false)) ->
  let args := flat_map arguments l1 ++ b "-key-length" :: n :: flat_map arguments l2 in
  expand args = Ok args -> exists s, command args = Ok (Run s p c) /\ key_length s = 0%Z.
Proof.
  intros l1 n l2 p c W1 W2 Q N args Ex. unfold names in Q. rewrite flat_map_app in Q. fold (names l1) in Q. fold (names l2) in Q.
  assert (length (names l1 ++ names l2) = 2) as G by now rewrite Q. rewrite app_length in G.
  destruct (words_then l1 (b "-key-length" :: n :: flat_map arguments l2) W1) as (fuel & F & R); [lia|rewrite app_length; cbn [length]; lia|exact Ex|].
  fold args in R. rewrite R. destruct fuel as [|fuel]; [cbn in F; lia|]. cbn [CommandModel.parse]. change (IsWizardOption (b "-key-length")) with true. cbn [negb].
  set (s1 := afters l1 default). destruct s1 as [au ci en hm kh le mo kl cs kr pa pr co ve].
  assert (parse_option (b "-key-length") (n :: flat_map arguments l2) (mkSettings au ci en hm kh le mo kl cs kr pa pr co ve) =
    Ok (Next (mkSettings au ci en hm kh le mo 0 cs kr pa pr co ve) (flat_map arguments l2))) as ->.
  { generalize (flat_map arguments l2) as r. intros r. rewrite key_length_option. change (b "-key-length") with (45%N :: 107%N :: b "ey-length"). now rewrite N. }
  cbn [bind]. cbn [length] in F. rewrite <- (app_nil_r (flat_map arguments l2)).
  destruct (parse_words l2 fuel [] (mkSettings au ci en hm kh le mo 0 cs kr pa pr co ve) (names l1) W2) as (fuel' & _ & ->).
  - rewrite app_nil_r. lia.
  - rewrite app_length. lia.
  - rewrite Q. cbn [nth_error]. eexists. split; [now destruct fuel'|].
    destruct (get_afters l2 (mkSettings au ci en hm kh le mo 0 cs kr pa pr co ve)) as (_ & _ & _ & _ & K & _). exact K.
Qed.
Ltac steps := repeat match goal with
  | |- (if ?c then _ else _) = _ -> _ => destruct c
  | |- (match ?r with [] => _ | _ :: _ => _ end) = _ -> _ => destruct r
  | |- bind (ParseWizardOption ?o ?m ?a) _ = _ -> _ => destruct (ParseWizardOption o m a); cbn [bind]
  | |- Ok (if ?c then _ else _) = _ -> _ => destruct c
  end.
(** (De)compression cannot be switched off; the option of that name is taken for a name. *)
Lemma option_compress o rest s s' rest' : IsWizardOption o = true -> parse_option o rest s = Ok (Next s' rest') -> compress s' = compress s.
Proof.
  intros Is. destruct o as [|x [|d t]]; try discriminate. cbn [IsWizardOption] in Is. apply andb_prop in Is. destruct Is as (_ & Al).
  unfold CommandModel.parse_option. destruct s. cbn [List.tl List.hd]. assert ((d =? 40)%N = false) as -> by (unfold isalpha in Al; lia).
  unfold typed, named_file, with_parameter. steps; intros [= <- <-] || discriminate; reflexivity.
Qed.
Theorem compress_refuted : 
  (forall args s p c, command args = Ok (Run s p c) -> compress s = true) /\
  forall c, IsWizardOption c = false -> expand [b "-(de)compress"; c] = Ok [b "-(de)compress"; c] ->
    command [b "-(de)compress"; c] = Ok (Run default (b "-(de)compress") c).
Proof.
  split.
  - assert (K : forall fuel args s f g s' p c, parse fuel args s f g = Ok (Run s' p c) -> compress s' = compress s).
    { induction fuel as [|fuel IH]; intros args s f g s' p c.
      - cbn [CommandModel.parse]. destruct f, g; intros [= <- <- <-] || discriminate. reflexivity.
      - destruct args as [|o rest]; cbn [CommandModel.parse].
        + destruct f, g; intros [= <- <- <-] || discriminate. reflexivity.
        + destruct (IsWizardOption o) eqn:Is; cbn [negb].
          * destruct (parse_option o rest s) as [[t r|r]| |] eqn:P; cbn [bind]; try discriminate.
            -- intros H. apply IH in H. rewrite H. eapply option_compress; eassumption.
            -- intros [= ->]. exfalso. clear IH. revert P. unfold CommandModel.parse_option. destruct s. unfold typed, named_file, with_parameter.
               steps; discriminate.
          * destruct f, g; try discriminate; apply IH. }
    intros args s p c. unfold CipherCommand. destruct args as [|x [|y args]]; [discriminate|destruct x; discriminate|].
    destruct (expand (x :: y :: args)) as [a| |]; cbn [bind]; try discriminate. intros H. now rewrite (K _ _ _ _ _ _ _ _ H).
  - intros c I Ex. cbn [CipherCommand]. rewrite Ex. cbn [bind length CommandModel.parse]. rewrite I. reflexivity.
Qed.
(** -random is in the usage and unknown; -Cipher is unknown although -cIPHER is not; + takes no value, so that the value is a name;
    -debug None fails. *)
Theorem options_refuted : forall p c,
  (forall args, expand args = Ok args) -> IsWizardOption p = false -> IsWizardOption c = false ->
  command [b "-random"; b "SHA2"; p; c] = Ok Failed /\
  command [b "-Cipher"; b "AES"; p; c] = Ok Failed /\
  (exists s, command [b "-cIPHER"; b "Twofish"; p; c] = Ok (Run s p c) /\ cipher s = 5%Z) /\
  command [b "+cipher"; b "AES"; p; c] = Ok Printed /\
  command [b "-debug"; b "None"; p; c] = Ok Failed.
Proof.
  intros p c Ex P C. unfold CipherCommand. rewrite !Ex. cbn [bind length].
  assert (forall o x fuel s', IsWizardOption o = true -> parse_option o [x; p; c] default = Ok (Next s' [p; c]) ->
    parse (S (S (S fuel))) [o; x; p; c] default None None = parse fuel [] s' (Some p) (Some c)) as Next_.
  { intros o x fuel s' I H. cbn [CommandModel.parse]. rewrite I, H. cbn [negb bind CommandModel.parse]. rewrite P, C. reflexivity. }
  assert (forall o x fuel r, IsWizardOption o = true -> parse_option o [x; p; c] default = Ok (Stop r) ->
    parse (S fuel) [o; x; p; c] default None None = Ok r) as Stop_.
  { intros o x fuel r I H. cbn [CommandModel.parse]. rewrite I, H. reflexivity. }
  split; [apply Stop_; vm_compute; reflexivity|]. split; [apply Stop_; vm_compute; reflexivity|]. split; [|split].
  - exists (mkSettings 1 5 3 7 7 6 3 512 262144 None None None true false). split; [|reflexivity].
    erewrite Next_; [|reflexivity|vm_compute; reflexivity]. reflexivity.
  - cbn [CommandModel.parse]. change (IsWizardOption (b "+cipher")) with true. cbn [negb].
    assert (parse_option (b "+cipher") [b "AES"; p; c] default = Ok (Next default [b "AES"; p; c])) as -> by (vm_compute; reflexivity).
    cbn [bind CommandModel.parse]. change (IsWizardOption (b "AES")) with false. cbn [negb]. rewrite P, C. reflexivity.
  - apply Stop_; vm_compute; reflexivity.
Qed.
End CommandProps.

(** ** Cases of the hypotheses *)
Section CommandExamples.
Let expand (a : list (list N)) : outcome (list (list N)) := Ok a.
Let number (_ : list N) : Z * bool := (0%Z, true).
Let size (_ : list N) : Z := 4096%Z.
Example command_case :
  CipherCommand expand number size [b "-cipher"; b "twofish"; b "plain"; b "-verbose"; b "-chunksize"; b "4k"; b "cipher"]
  = Ok (Run (mkSettings 1 5 3 7 7 6 3 512 4096 None None None true true) (b "plain") (b "cipher")).
Proof. vm_compute. reflexivity. Qed.
Example command_case_unknown : CipherCommand expand number size [b "plain"; b "-bogus"; b "cipher"] = Ok Failed.
Proof. vm_compute. reflexivity. Qed.
Example command_case_missing : CipherCommand expand number size [b "plain"; b "cipher"; b "-keyring"] = Ok Failed.
Proof. vm_compute. reflexivity. Qed.
Example command_case_value : CipherCommand expand number size [b "-cipher"; b "rot13"; b "plain"; b "cipher"] = Ok Failed.
Proof. vm_compute. reflexivity. Qed.
Example command_case_others :
  CipherCommand expand number size [b "plain"; b "-log"; b "%e"; b "cipher"] = CipherCommand expand number size [b "plain"; b "cipher"] /\
  CipherCommand expand number size [b "plain"; b "-log"; b "e"; b "cipher"] = Ok Failed /\
  CipherCommand expand number size [b "plain"; b "-list"; b "Configure"; b "cipher"] = Ok Printed /\
  CipherCommand expand number size [b "plain"; b "-list"; b "bogus"; b "cipher"] = Ok Failed.
Proof. vm_compute. repeat split. Qed.
End CommandExamples.

Print Assumptions command_settings.
Print Assumptions command_unknown.
Print Assumptions command_missing.
Print Assumptions command_bad_value.
Print Assumptions command_names.
Print Assumptions command_chunksize.
Print Assumptions command_log.
Print Assumptions command_list.
Print Assumptions key_length_refuted.
Print Assumptions compress_refuted.
Print Assumptions options_refuted.
