(** Lemmas on the text level of XmlModel. *)
From Coq Require Import Arith NArith ZArith Bool String Lia ZifyBool ZifyNat ZifyN List.
From Verif Require Import Base Outcome CStringModel OptionModel Base64Model ScanModel XmlModel XmlSpec.
Import ListNotations.
Ltac Zify.zify_post_hook ::= Z.div_mod_to_equations.

(** * One step *)
Lemma decode_amp t st m fuel out s x :
  st <> Cdata -> starts_with (b "&#") (38%N :: s) = false ->
  find_entity t s = Some x ->
  decode (S fuel) t st m out (38%N :: s) =
  match after_semicolon (38%N :: s) with
  | None => UB
  | Some r =>
      let '(moved, s) := extend m (length x) (length (38%N :: s) - length r - 1) (38%N :: s) in
      match after_semicolon s, x with
      | Some r, _ => decode fuel t st moved out (x ++ r)
      | None, [] => decode fuel t st moved out s
      | None, _ => UB
      end
  end.
Proof.
  intros Hs Hr Hf. cbn [decode]. change (38 =? 38)%N with true. cbn [negb andb].
  rewrite Hr. destruct st; try congruence; cbn [andb]; rewrite Hf; reflexivity.
Qed.

Definition raw (st : state) (c : N) : Prop :=
  c <> 38%N /\ (isspace c = false \/ st <> Attribute \/ c = 32%N).
Lemma decode_raw t st m fuel out c s :
  raw st c -> decode (S fuel) t st m out (c :: s) = decode fuel t st m (out ++ [c]) s.
Proof.
  intros [H1 H2]. cbn [decode]. destruct (N.eqb_spec c 38); [congruence|].
  cbn [negb andb]. destruct (isspace c) eqn:E; cbn [negb]; [|reflexivity].
  assert (starts_with (b "&#") (c :: s) = false) as ->.
  { change (starts_with (b "&#") (c :: s)) with ((38 =? c)%N && starts_with (b "#") s).
    destruct (N.eqb_spec 38 c); [congruence|reflexivity]. }
  destruct st; try reflexivity.
  destruct H2 as [H2|[H2|H2]]; [congruence|congruence|now subst].
Qed.

(** * References *)
Lemma extend_keeps m n dist s : dist < length s -> n <> 0 -> exists m', extend m n dist s = (m', s).
Proof.
  intros H Hn. unfold extend. destruct (Nat.eqb_spec n 0); [lia|]. cbn [orb].
  destruct (Nat.ltb_spec dist n); [|now exists m].
  exists true. rewrite firstn_all2; [reflexivity|]. destruct m; lia.
Qed.

(** an entity of a table whose value is not empty *)
Lemma decode_entity t st m out name x s :
  st <> Cdata -> starts_with (b "&#") (38%N :: name ++ s) = false ->
  find_entity t (name ++ s) = Some x -> x <> [] -> after_semicolon (38%N :: name ++ s) = Some s ->
  name <> [] ->
  exists m', forall fuel, decode (S fuel) t st m out (38%N :: name ++ s) = decode fuel t st m' out (x ++ s).
Proof.
  intros Hs Hr Hf Hx Ha Hn.
  destruct (extend_keeps m (length x) (length (38%N :: name ++ s) - length s - 1) (38%N :: name ++ s)) as [m' E].
  - cbn [length]. rewrite app_length. lia.
  - destruct x; cbn; [congruence|lia].
  - exists m'. intros fuel. rewrite (decode_amp t st m fuel out (name ++ s) x) by assumption.
    rewrite Ha, E, Ha. now destruct x.
Qed.

Definition references (st : state) : Prop := st <> Cdata.
(** a character reference *)
Lemma decode_reference t st m fuel out s v e r :
  references st ->
  match s with
  | x :: r => if (x =? 120)%N then strtol_end 16 r else strtol_end 10 s
  | [] => (0%Z, [])
  end = (v, 59%N :: e) -> to_int v <> 0%Z ->
  after_semicolon (skipn (length (char_bytes (to_int v))) (b "&#" ++ s)) = Some r ->
  decode (S fuel) t st m out (b "&#" ++ s) = decode fuel t st m (out ++ char_bytes (to_int v)) r.
Proof.
  intros Hs Hv Hz Ha. change (b "&#" ++ s) with (38%N :: 35%N :: s) in *.
  cbn [decode]. change (38 =? 38)%N with true. cbn [negb andb tl].
  change (starts_with (b "&#") (38%N :: 35%N :: s)) with true.
  rewrite Hv. cbn [next fst is]. change (59 =? 59)%N with true.
  destruct (Z.eqb_spec (to_int v) 0); [congruence|]. cbn [negb orb].
  rewrite Ha. destruct st; try reflexivity. now destruct Hs.
Qed.

Lemma decode_named st m out name d c s :
  references st -> In (name, d, c) [(b "lt;", b "60", 60); (b "gt;", b "62", 62); (b "quot;", b "34", 34); (b "apos;", b "39", 39); (b "amp;", b "38", 38)]%N ->
  exists m', forall fuel, decode (S (S fuel)) predefined st m out (38%N :: name ++ s) = decode fuel predefined st m' (out ++ [c]) s.
Proof.
  intros Hs Hi.
  destruct (decode_entity predefined st m out name (b "&#" ++ d ++ b ";") s) as [m' E];
    [assumption|destruct Hi as [Hi|[Hi|[Hi|[Hi|[Hi|[]]]]]]; injection Hi as <- <- <-; first [reflexivity | discriminate]..|].
  exists m'. intros fuel. rewrite E. clear E. rewrite <- app_assoc.
  destruct Hi as [Hi|[Hi|[Hi|[Hi|[Hi|[]]]]]]; injection Hi as <- <- <-;
    match goal with |- decode _ _ _ _ _ (b "&#" ++ (?d ++ b ";") ++ s) = decode _ _ _ _ (_ ++ [?c]) _ =>
      exact (decode_reference predefined st m' fuel out ((d ++ b ";") ++ s) (Z.of_N c) s s Hs eq_refl ltac:(discriminate) eq_refl) end.
Qed.

(** * The output of CanonicalXMLContent *)
Definition inverse (st : state) (pedantic : bool) : Prop := st = General \/ st = Attribute /\ pedantic = true.

Lemma decode_escape st pedantic m out c s :
  inverse st pedantic -> binary c = false ->
  exists k m', k <= 1 /\ forall fuel,
    decode (S k + fuel) predefined st m out (escape pedantic c ++ s) = decode fuel predefined st m' (out ++ [c]) s.
Proof.
  intros I B. assert (references st) as R by (destruct I as [->|[-> _]]; discriminate).
  assert (forall name d, In (name, d, c) [(b "lt;", b "60", 60); (b "gt;", b "62", 62); (b "quot;", b "34", 34); (b "apos;", b "39", 39); (b "amp;", b "38", 38)]%N ->
    exists k m', k <= 1 /\ forall fuel, decode (S k + fuel) predefined st m out ((38%N :: name) ++ s) = decode fuel predefined st m' (out ++ [c]) s) as Named.
  { intros name d Hi. destruct (decode_named st m out name d c s R Hi) as [m' E].
    exists 1, m'. split; [lia|exact E]. }
  assert (forall d v, char_bytes (to_int v) = [c] -> to_int v <> 0%Z ->
    (match d ++ b ";" ++ s with x :: r => if (x =? 120)%N then strtol_end 16 r else strtol_end 10 (d ++ b ";" ++ s) | [] => (0%Z, []) end)
      = (v, 59%N :: s) ->
    after_semicolon (skipn 1 (b "&#" ++ d ++ b ";" ++ s)) = Some s ->
    exists k m', k <= 1 /\ forall fuel, decode (S k + fuel) predefined st m out ((b "&#" ++ d ++ b ";") ++ s) = decode fuel predefined st m' (out ++ [c]) s) as Ref.
  { intros d v Hb Hz Hv Ha. exists 0, m. split; [lia|]. intros fuel. repeat rewrite <- app_assoc.
    change (S 0 + fuel) with (S fuel).
    rewrite (decode_reference predefined st m fuel out (d ++ b ";" ++ s) v s s); rewrite ?Hb; auto. }
  unfold escape.
  destruct (N.eqb_spec c 38) as [->|N1]; [apply (Named (b "amp;") (b "38")); cbn; tauto|].
  destruct (N.eqb_spec c 60) as [->|N2]; [apply (Named (b "lt;") (b "60")); cbn; tauto|].
  destruct (N.eqb_spec c 62) as [->|N3]; [apply (Named (b "gt;") (b "62")); cbn; tauto|].
  destruct (N.eqb_spec c 34) as [->|N4]; [apply (Named (b "quot;") (b "34")); cbn; tauto|].
  assert (raw st c -> exists k m', k <= 1 /\ forall fuel, decode (S k + fuel) predefined st m out ([c] ++ s) = decode fuel predefined st m' (out ++ [c]) s) as Raw.
  { intros H. exists 0, m. split; [lia|]. intros fuel. now apply decode_raw. }
  assert (pedantic = false -> raw st c) as RawF.
  { intros ->. destruct I as [->|[_ I]]; [|discriminate]. split; [assumption|]. right. left. discriminate. }
  destruct (N.eqb_spec c 10) as [->|N5];
    [destruct pedantic; [apply (Ref (b "xA") 10%Z); first [reflexivity | vm_compute; discriminate]|apply Raw, RawF; reflexivity]|].
  destruct (N.eqb_spec c 9) as [->|N6];
    [destruct pedantic; [apply (Ref (b "x9") 9%Z); first [reflexivity | vm_compute; discriminate]|apply Raw, RawF; reflexivity]|].
  destruct (N.eqb_spec c 13) as [->|N7]; [apply (Ref (b "xD") 13%Z); first [reflexivity | vm_compute; discriminate]|].
  apply Raw. split; [assumption|].
  destruct (N.eq_dec c 32) as [->|]; [tauto|]. left. unfold binary in B. unfold isspace. lia.
Qed.

Lemma decode_escapes st pedantic l : inverse st pedantic -> Forall (fun c => binary c = false) l ->
  forall m fuel out, 2 * length l < fuel ->
  decode fuel predefined st m out (flat_map (escape pedantic) l) = Ok (Some (out ++ l)).
Proof.
  intros I. induction l as [|c l IH]; intros F m fuel out H.
  - destruct fuel; [lia|]. cbn. now rewrite app_nil_r.
  - inversion F; subst. cbn [flat_map length] in *.
    destruct (decode_escape st pedantic m out c (flat_map (escape pedantic) l) I) as (k & m' & Hk & E); [assumption|].
    replace fuel with (S k + (fuel - S k)) by lia. rewrite E, IH by (assumption || lia). now rewrite <- app_assoc.
Qed.

(** * Line ends, NULs and Latin-1 *)
Lemma normalize_none s : Forall (fun c => c <> 13%N) s -> normalize s = s.
Proof.
  induction s as [|c s IH]; intros H; [reflexivity|]. inversion H; subst. cbn [normalize].
  destruct (N.eqb_spec c 13); [congruence|]. now rewrite IH.
Qed.
Lemma cstr_none s : Forall (fun c => c <> 0%N) s -> cstr s = s.
Proof.
  induction s as [|c s IH]; intros H; [reflexivity|]. inversion H; subst. cbn [cstr].
  destruct (N.eqb_spec c 0); [congruence|]. now rewrite IH.
Qed.
Lemma escape_no_cr pedantic c : Forall (fun x => x <> 13%N) (escape pedantic c).
Proof.
  unfold escape. repeat match goal with |- Forall _ (if (c =? ?k)%N then _ else _) => destruct (N.eqb_spec c k) end;
    try destruct pedantic; repeat constructor; try discriminate; congruence.
Qed.
Lemma escapes_no_cr pedantic l : Forall (fun x => x <> 13%N) (flat_map (escape pedantic) l).
Proof. induction l; [constructor|]. cbn. apply Forall_app. split; [apply escape_no_cr|assumption]. Qed.

Lemma latin1_bytes s : Forall xml_char s -> Forall (fun c => binary c = false /\ c <> 0%N) (ConvertLatin1ToUTF8 s).
Proof.
  induction 1 as [|c s H _ IH]; [constructor|]. cbn [ConvertLatin1ToUTF8 flat_map]. apply Forall_app. split; [|exact IH].
  unfold xml_char in H. destruct (N.ltb_spec c 128); repeat constructor; unfold binary; lia.
Qed.
Lemma latin1_length s : length (ConvertLatin1ToUTF8 s) <= 2 * length s.
Proof.
  unfold ConvertLatin1ToUTF8. induction s as [|c s IH]; cbn [flat_map length]; [lia|]. rewrite app_length.
  destruct (c <? 128)%N; cbn [length]; lia.
Qed.
Lemma not_binary l : Forall (fun c => binary c = false) l -> existsb binary l = false.
Proof. induction 1 as [|c l H _ IH]; [reflexivity|]. cbn. now rewrite H. Qed.

Lemma canonical_text base64 s pedantic : Forall xml_char s ->
  CanonicalXMLContent base64 s pedantic = flat_map (escape pedantic) (ConvertLatin1ToUTF8 s).
Proof.
  intros H. unfold CanonicalXMLContent. rewrite not_binary; [reflexivity|].
  eapply Forall_impl; [|apply latin1_bytes, H]. intros c []; assumption.
Qed.

Lemma parse_canonical base64 st pedantic s fuel :
  inverse st pedantic -> Forall xml_char s -> 4 * length s < fuel ->
  ParseEntities fuel predefined st (CanonicalXMLContent base64 s pedantic) = Ok (Some (ConvertLatin1ToUTF8 s)).
Proof.
  intros I H F. rewrite canonical_text by assumption. unfold ParseEntities.
  rewrite normalize_none by apply escapes_no_cr. pose proof (latin1_length s).
  rewrite decode_escapes; [|assumption| |lia].
  - cbn [bind option_map app]. rewrite cstr_none; [reflexivity|].
    eapply Forall_impl; [|apply latin1_bytes, H]. intros c []; assumption.
  - eapply Forall_impl; [|apply latin1_bytes, H]. intros c []; assumption.
Qed.

Lemma code_points_low fuel c s : (c < 128)%N ->
  code_points (S fuel) (c :: s) = option_map (cons c) (code_points fuel s).
Proof. intros H. cbn [code_points]. destruct (N.ltb_spec c 128); [|lia]. destruct s as [|x [|y [|z s]]]; reflexivity. Qed.
Lemma code_points_two fuel c x s : (194 <= c < 224)%N -> (128 <= x < 192)%N ->
  code_points (S fuel) (c :: x :: s) = option_map (cons ((c - 192) * 64 + (x - 128))%N) (code_points fuel s).
Proof.
  intros H K. cbn [code_points]. destruct (N.ltb_spec c 128); [lia|].
  replace ((194 <=? c) && (c <? 224) && cont x)%N with true by (unfold cont; lia).
  destruct s as [|y [|z s]]; reflexivity.
Qed.
Lemma code_points_more fuel : forall s l fuel', code_points fuel s = Some l -> fuel <= fuel' -> code_points fuel' s = Some l.
Proof.
  induction fuel as [|fuel IH]; intros s l [|fuel'] H K; try lia; destruct s as [|c s]; try exact H; try discriminate.
  assert (forall n v, option_map (cons v) (code_points fuel (skipn n s)) = Some l ->
                      option_map (cons v) (code_points fuel' (skipn n s)) = Some l) as G.
  { intros n v. destruct (code_points fuel (skipn n s)) eqn:E; [|discriminate].
    rewrite (IH _ _ fuel' E) by lia. auto. }
  cbn [code_points] in *. destruct (c <? 128)%N; [now apply (G 0)|].
  destruct s as [|x [|y [|z s]]]; [discriminate| | |];
    repeat match goal with |- context [if ?q then _ else _] => destruct q end; try discriminate;
    first [now apply (G 1) | now apply (G 2) | now apply (G 3)].
Qed.
Lemma latin1_utf8 s : Forall (fun c => c < 256)%N s -> utf8_text (ConvertLatin1ToUTF8 s) s.
Proof.
  unfold utf8_text. induction 1 as [|c s H _ IH]; [reflexivity|].
  cbn [ConvertLatin1ToUTF8 flat_map]. fold (ConvertLatin1ToUTF8 s).
  destruct (N.ltb_spec c 128); cbn [app length].
  - rewrite code_points_low by assumption. now rewrite IH.
  - rewrite code_points_two by lia. rewrite (code_points_more _ _ _ _ IH) by apply Nat.le_succ_diag_r. cbn [option_map]. do 2 f_equal. lia.
Qed.
