(** C82-C86: the attributes before enciphered content, and digest files. *)
From Coq Require Import Arith NArith ZArith Bool Lia ZifyBool ZifyNat ZifyN String List.
From Verif Require Import Base BaseLemmas Outcome StringInfoModel CStringModel CStringSpec CStringProps CStringProps2 OptionModel OptionProps
  ScanModel ScanProof ScanProof2 ScanProof3.
Import ListNotations.
Ltac Zify.zify_post_hook ::= Z.div_mod_to_equations.

(** ** C82 *)
(** a hexadecimal digit *)
Definition hexdigit (c : N) : Prop := (48 <= c <= 57 \/ 97 <= c <= 102 \/ 65 <= c <= 70)%N.
Lemma hexdigit_plain w : Forall hexdigit w -> Forall plain w.
Proof. apply Forall_impl. intros c. unfold hexdigit, plain. lia. Qed.

(** the elements of the content node, as EncipherContent writes them *)
Definition elements (fields : list (list N * list N)) : list (list N * list N) :=
  map (fun f => (b "cipher:" ++ fst f, snd f)) fields.

Theorem header_round_trip : forall E hex parse rdf fields rest fuel,
  (forall x, Forall hexdigit (hex x) /\ 0 < length (hex x) <= 128) -> 132 <= E ->
  rdf <> [] -> Forall (fun c => c <> 0%N) rdf -> (N.of_nat (length rdf) < 2 ^ 32)%N ->
  parse rdf = Some (elements fields) -> length fields + 8 < fuel ->
  GetContentInfo E hex parse fuel (cipher_packet hex rdf ++ rest) = Ok (Accepted fields rest).
Proof.
  intros E hex parse rdf fields rest fuel H E1 N1 N2 L P F. destruct (H rdf) as [H1 H2].
  replace fuel with (8 + (fuel - 8)) by lia. apply header_read; try assumption; try lia.
  - now apply hexdigit_plain.
  - intros X. rewrite X in H2. cbn [length] in H2. lia.
Qed.
Print Assumptions header_round_trip.

(** a toy digest (one digit of the length) and an element in the attributes *)
Definition toy_hex (x : list N) : list N := [97; 48 + N.of_nat (length x) mod 10]%N.
Lemma toy_hex_ok x : Forall hexdigit (toy_hex x) /\ 0 < length (toy_hex x) <= 128.
Proof.
  unfold toy_hex. split; [|cbn [length]; lia]. set (n := N.of_nat (length x)).
  constructor; [unfold hexdigit; lia|]. constructor; [unfold hexdigit; lia | constructor].
Qed.
Example header_round_trip_ex : exists parse rdf fields,
  (forall x, Forall hexdigit (toy_hex x) /\ 0 < length (toy_hex x) <= 128) /\
  rdf <> [] /\ Forall (fun c => c <> 0%N) rdf /\ (N.of_nat (length rdf) < 2 ^ 32)%N /\
  parse rdf = Some (elements fields) /\ fields <> [] /\
  GetContentInfo 4096 toy_hex parse 20 (cipher_packet toy_hex rdf ++ [1; 2; 3]%N) = Ok (Accepted fields [1; 2; 3]%N).
Proof.
  exists (fun _ => Some [(b "cipher:mode", b "CTR")]), (b "<cipher:mode>CTR</cipher:mode>"), [(b "mode", b "CTR")].
  split; [exact toy_hex_ok|]. split; [discriminate|]. split; [repeat constructor; discriminate|]. split; [reflexivity|].
  split; [reflexivity|]. split; [discriminate|]. vm_compute. reflexivity.
Qed.

(** ** C85 *)
(** a packet that announces the digest [h] and has the attributes [body] *)
Definition packet (h body : list N) : list N :=
  b "<?cipherpacket digest=" ++ dquote ++ h ++ dquote ++ b " bytes=" ++ dquote
  ++ decimal (N.of_nat (length body)) ++ dquote ++ b "?>" ++ newline ++ body ++ b "<?cipherpacket?>" ++ [12%N] ++ newline.

(** attributes that do not have the announced digest are rejected *)
Theorem header_damage_partial : forall E hex parse h body rest fuel,
  Forall hexdigit h -> 0 < length h <= 128 -> 132 <= E -> (N.of_nat (length body) < 2 ^ 32)%N -> 8 < fuel ->
  hex body <> h ->
  GetContentInfo E hex parse fuel (packet h body ++ rest) = Ok Rejected.
Proof.
  intros E hex parse h body rest fuel Hh Lh E1 L F Ne. replace fuel with (8 + (fuel - 8)) by lia.
  unfold GetContentInfo, packet. set (n := N.of_nat (length body)) in *. destruct (decimal_spec n) as (D & Dn & _ & Dl).
  assert (Dl' : length (decimal n) <= 33).
  { assert (N.log2 n <= 32)%N; [|lia]. destruct (N.eq_dec n 0) as [->|Z]; [discriminate|].
    apply N.lt_succ_r, N.log2_lt_pow2; [lia|]. change (N.succ 32) with 33%N. lia. }
  assert (Pd : Forall plain (decimal n)) by (eapply Forall_impl; [|exact D]; exact digit_plain).
  assert (Ph : Forall plain h) by now apply hexdigit_plain.
  assert (Nh : h <> []) by (intros ->; cbn [length] in Lh; lia).
  rewrite <- !app_assoc. rewrite scan_header by (first [assumption | lia]). cbn [bind].
  rewrite header_fold by assumption. cbn [bind]. rewrite strtol_decimal by lia.
  destruct (N.eqb_spec n 0); [reflexivity|]. destruct (N.leb_spec (2 ^ 63) n); [lia|]. cbn [next].
  replace (N.to_nat n) with (length body) by lia. rewrite firstn_app, Nat.sub_diag, firstn_all. cbn [firstn].
  rewrite app_nil_r, Nat.sub_diag. cbn [repeat]. rewrite app_nil_r.
  destruct (list_eq_dec N.eq_dec (hex body) h); [contradiction|reflexivity].
Qed.
Example header_damage_ex : toy_hex (b "<a/>") <> b "a5" /\ Forall hexdigit (b "a5").
Proof. split; [discriminate|]. change (b "a5") with [97; 53]%N. constructor; [unfold hexdigit; lia|]. constructor; [unfold hexdigit; lia|constructor]. Qed.

(** C85 fails: no key is involved.  Whoever has a file can put other
    attributes (another mode, another authentication method, another nonce)
    before the same chunks, and they are accepted. *)
Theorem header_authentic_refuted : forall E hex parse rdf rdf' fields fields' chunks fuel,
  (forall x, Forall hexdigit (hex x) /\ 0 < length (hex x) <= 128) -> 132 <= E ->
  rdf <> [] -> Forall (fun c => c <> 0%N) rdf -> (N.of_nat (length rdf) < 2 ^ 32)%N -> parse rdf = Some (elements fields) ->
  rdf' <> [] -> Forall (fun c => c <> 0%N) rdf' -> (N.of_nat (length rdf') < 2 ^ 32)%N -> parse rdf' = Some (elements fields') ->
  length fields + 8 < fuel -> length fields' + 8 < fuel ->
  GetContentInfo E hex parse fuel (cipher_packet hex rdf ++ chunks) = Ok (Accepted fields chunks) /\
  GetContentInfo E hex parse fuel (cipher_packet hex rdf' ++ chunks) = Ok (Accepted fields' chunks).
Proof. intros. split; apply header_round_trip; assumption. Qed.
Print Assumptions header_authentic_refuted.

(** ** C83 *)
(** reading ends on text that begins with a visible character, for both formats *)
Theorem scan_returns_partial : forall E s file fuel,
  (s = content_scanner \/ s = digest_scanner) -> 1 <= E ->
  keys_fit E s file ->
  Forall (fun c => 33 <= c <= 126 \/ c = 32 \/ 9 <= c <= 13)%N file -> (33 <= hd 0 file)%N ->
  length file < fuel ->
  exists toks c rest, scan E s fuel file = Ok (Some (toks, c, rest)).
Proof.
  intros E s file fuel _ E1 K F H L. destruct file as [|x l]; [cbn [hd] in H; lia|].
  destruct fuel as [|fuel]; [lia|]. cbn [length] in L. apply scan_ends; try assumption; try (cbn [length]; lia).
  - eapply Forall_impl; [|exact F]. intros c. cbv beta. unfold isgraph, isspace. lia.
  - cbn [hd] in *. unfold isspace. lia.
Qed.
Print Assumptions scan_returns_partial.
Example scan_returns_ex : exists file, Forall (fun c => 33 <= c <= 126 \/ c = 32 \/ 9 <= c <= 13)%N file /\
  (33 <= hd 0 file)%N /\ keys_fit 4096 content_scanner file /\ 10 < length file.
Proof.
  exists (b "<?cipherpacket digest=x?>").
  split; [apply Forall_forall; intros c I; vm_compute in I; repeat (destruct I as [<-|I]; [lia|]); destruct I|]. split; [cbn; lia|]. split; [|cbn; lia].
  intros p k q Eq _. apply (f_equal (@length N)) in Eq. rewrite !app_length in Eq.
  change (length (b "<?cipherpacket digest=x?>")) with 25 in Eq. change 4096 with (4000 + 96). lia.
Qed.

(** C83 fails: the loops stay for ever on a first byte that is not visible
    (white space, a control character, a byte of another alphabet), and on an
    element of another name space *)
Theorem scan_returns_refuted : forall E x file, (x < 33 \/ 126 < x)%N ->
  (forall fuel, scan E content_scanner fuel (x :: file) = Ok None) /\
  (forall fuel, scan E digest_scanner fuel (x :: file) = Ok None) /\
  (forall hex parse fuel, GetContentInfo E hex parse fuel (x :: file) = Ok Running) /\
  (forall fs hexof fuel, AuthenticateDigest E fs hexof fuel (x :: file) = Ok None).
Proof.
  intros E x file H. assert (G : isgraph x = false) by (unfold isgraph; lia).
  split; [now apply scan_stuck|]. split; [now apply scan_stuck|].
  split; intros; unfold GetContentInfo, AuthenticateDigest; now rewrite scan_stuck.
Qed.
Theorem nodes_returns_refuted : forall tag content others fuel done,
  (forall name, tag <> b "cipher:" ++ name) -> nodes_loop fuel ((tag, content) :: others) done = None.
Proof.
  intros tag content others fuel done H. apply nodes_loop_stuck. destruct (starts_with (b "cipher:") tag) eqn:S; [|reflexivity].
  exfalso. assert (P : forall p s, starts_with p s = true -> exists r, s = p ++ r).
  { clear. induction p as [|c p IH]; intros s H; [now exists s|]. destruct s as [|d s]; [discriminate|]. cbn [starts_with] in H.
    apply andb_prop in H as [H1 H2]. apply N.eqb_eq in H1. subst d. destruct (IH s H2) as [r ->]. now exists r. }
  destruct (P _ _ S) as [r Er]. now apply (H r).
Qed.
Print Assumptions scan_returns_refuted.
Example nodes_returns_ex : forall name, b "rdf:type" <> b "cipher:" ++ name.
Proof. intros name X. discriminate X. Qed.

(** ** C84 *)
(** when every run of key characters is shorter than the buffer, no file makes
    the reader leave its buffers: the outcome is never UB *)
Theorem scan_in_bounds_partial : forall E s file fuel, 1 <= E ->
  (forall p k q, file = p ++ k ++ q -> Forall (fun c => isspace c = false /\ c <> kt s) k -> length k < E) ->
  exists r, scan E s fuel file = Ok r.
Proof.
  intros E s file fuel E1 H. apply scan_total; [exact E1|]. intros p k q Eq F. apply (H p k q Eq).
  eapply Forall_impl; [|exact F]. intros c Hc. unfold keychar in Hc. split; [now destruct (isspace c)|]. destruct (isspace c); [discriminate|]. lia.
Qed.
Print Assumptions scan_in_bounds_partial.
Example scan_in_bounds_ex : exists file, 5 < length file /\
  forall p k q, file = p ++ k ++ q -> Forall (fun c => isspace c = false /\ c <> 61%N) k -> length k < 100.
Proof.
  exists (b "digest=x y"). split; [cbn; lia|]. intros p k q Eq _. apply (f_equal (@length N)) in Eq. rewrite !app_length in Eq.
  change (length (b "digest=x y")) with 10 in Eq. lia.
Qed.
(** C84 fails: a word as long as the buffer is stored up to its end and the
    NUL is written behind it *)
Theorem scan_in_bounds_refuted : forall E fuel word rest, Forall (fun c => 97 <= c <= 122)%N word -> 1 <= E <= length word ->
  scan E content_scanner (S fuel) (word ++ rest) = UB /\ scan E digest_scanner (S fuel) (word ++ rest) = UB.
Proof.
  intros E fuel word rest F L. destruct word as [|x word]; [cbn [length] in L; lia|].
  inversion F as [|? ? Fx Fw]; subst. assert (A : isalnum x = true) by (unfold isalnum, isalpha, isdigit; lia).
  split; apply scan_long_key; try lia.
  1,3: split; [unfold isgraph; lia | cbn [starts content_scanner digest_scanner]; now rewrite A].
  1,2: eapply Forall_impl; [|exact F]; intros c Hc; cbv beta in Hc; unfold keychar, isspace; cbn [kt content_scanner digest_scanner]; lia.
Qed.
Print Assumptions scan_in_bounds_refuted.
Example scan_in_bounds_refuted_ex : Forall (fun c => 97 <= c <= 122)%N (repeat 97%N 4096) /\ 1 <= 4096 <= length (repeat 97%N 4096).
Proof. split; [apply Forall_forall; intros x H; apply repeat_spec in H; lia|]. rewrite repeat_length. split; [|apply le_n]. apply le_n_S, Nat.le_0_l. Qed.

(** ** C86 *)
(** a name the writer uses for the hash [t] *)
Definition names_hash (alg : list N) (t : Z) : Prop :=
  exists m, In (m, t) (GetOptionInfo WizardHashOptions) /\ alg = map lower m.

Lemma alg_plain m t : In (m, t) (GetOptionInfo WizardHashOptions) -> Forall plain (map lower m) /\ map lower m <> [] /\ length (map lower m) < 20.
Proof.
  assert (H : forallb (fun e => forallb (fun c => (33 <=? c) && (c <? 256) && negb (c =? 34) && negb (c =? 39) && negb (c =? 60) && negb (c =? 62) && negb (c =? 63))%N (map lower (fst e))
      && negb (match fst e with [] => true | _ => false end) && (length (fst e) <? 20)) (GetOptionInfo WizardHashOptions) = true) by (vm_compute; reflexivity).
  intros I. rewrite forallb_forall in H. specialize (H _ I). cbn [fst] in H. apply andb_prop in H as [H H3]. apply andb_prop in H as [H1 H2].
  split; [now apply b_plain|]. rewrite map_length. split; [now destruct m|]. lia.
Qed.
Lemma alg_token m t : In (m, t) (GetOptionInfo WizardHashOptions) -> forall st v,
  digest_token st (b "digest:" ++ map lower m, v) = (let* v := strip_value v in Ok (mkD (p_path st) t v (p_checks st))) /\
  digest_token st (b "/digest:" ++ map lower m, v) = Ok st.
Proof.
  intros I st v. cbn [GetOptionInfo HashOptions In] in I.
  repeat (destruct I as [I|I]; [injection I as <- <-; split; reflexivity|]). destruct I.
Qed.

Lemma strip_about p : Forall plain p -> p <> [] -> forall st v,
  digest_token st (about p, v) = Ok (mkD p (p_hash st) unknown (p_checks st)).
Proof.
  intros P Np st v.
  assert (T : digest_token st (about p, v) = let* z := strip_value (34%N :: p ++ [34%N]) in Ok (mkD z (p_hash st) unknown (p_checks st))).
  { unfold digest_token, about.
    change (b "rdf:about=" ++ 34%N :: p ++ [34%N]) with (114%N :: 100%N :: 102%N :: 58%N :: 97%N :: 98%N :: 111%N :: 117%N :: 116%N :: 61%N :: 34%N :: p ++ [34%N]).
    cbv iota beta. 
    match goal with |- context [LocaleNCompare ?x ?y ?n] => assert (Z : LocaleNCompare x y n = Ok 0%Z) by reflexivity; rewrite Z end.
    reflexivity. }
  rewrite T, strip_value_quoted by assumption. reflexivity.
Qed.

(** tokens that change nothing *)
Lemma date_token n v st : In n [b "timestamp"; b "modify-date"; b "create-date"] -> Forall plain v -> v <> [] ->
  digest_token st (b "digest:" ++ n, v) = Ok st /\ forall w, digest_token st (b "/digest:" ++ n, w) = Ok st.
Proof.
  intros I P Nv. pose proof (strip_value_word v P Nv) as S.
  assert (T : digest_token st (b "digest:" ++ n, v) = let* _ := strip_value v in Ok st).
  { repeat (destruct I as [<-|I]; [reflexivity|]). destruct I. }
  split; [now rewrite T, S|]. intros w. clear T. repeat (destruct I as [<-|I]; [reflexivity|]). destruct I.
Qed.

Lemma entry_fold E canonical e t st : entry_words E canonical e -> names_hash (d_alg e) t ->
  fold_outcome digest_token (entry_tokens e) st = Ok (mkD (d_path e) t (d_hex e) (p_checks st ++ [(d_path e, t, d_hex e)])).
Proof.
  intros ((Pp & Np & _) & _ & (Ps & Ns & _) & (Pm & Nm & _) & (Px & Nx & _) & _ & (Ph & Nh & _)) (m & I & Ea).
  unfold entry_tokens, element_tokens. cbn [app fold_outcome].
  assert (T1 : forall st, digest_token st (b "digest:Content", []) = Ok st) by reflexivity. rewrite T1. cbn [bind]. clear T1.
  rewrite strip_about by assumption. cbn [bind p_hash p_checks].
  set (st1 := mkD (d_path e) (p_hash st) unknown (p_checks st)).
  destruct (date_token (b "timestamp") (d_stamp e) st1 ltac:(cbn; tauto) Ps Ns) as [T1 T2]. rewrite T1. cbn [bind]. rewrite T2. cbn [bind]. clear T1 T2.
  destruct (date_token (b "modify-date") (d_modify e) st1 ltac:(cbn; tauto) Pm Nm) as [T1 T2]. rewrite T1. cbn [bind]. rewrite T2. cbn [bind]. clear T1 T2.
  destruct (date_token (b "create-date") (d_modify e) st1 ltac:(cbn; tauto) Pm Nm) as [T1 T2]. rewrite T1. cbn [bind]. rewrite T2. cbn [bind]. clear T1 T2.
  assert (T1 : forall v, digest_token st1 (b "digest:" ++ b "extent", v) = Ok st1) by reflexivity. rewrite T1. cbn [bind]. clear T1.
  assert (T1 : forall v, digest_token st1 (b "/digest:" ++ b "extent", v) = Ok st1) by reflexivity. rewrite T1. cbn [bind]. clear T1.
  rewrite Ea. destruct (alg_token m t I st1 (d_hex e)) as [T1 _]. rewrite T1, strip_value_word by assumption. cbn [bind p_path p_checks st1]. clear T1.
  set (st2 := mkD (d_path e) t (d_hex e) (p_checks st)).
  destruct (alg_token m t I st2 [10%N]) as [_ T1]. rewrite T1. cbn [bind]. clear T1.
  assert (T1 : forall v, digest_token st2 (b "/digest:Content", v) = Ok (mkD (p_path st2) (p_hash st2) (p_digest st2) (p_checks st2 ++ [(p_path st2, p_hash st2, p_digest st2)]))) by reflexivity.
  rewrite T1. reflexivity.
Qed.

Lemma entries_fold E canonical typ : forall l st, Forall (entry_words E canonical) l -> (forall e, In e l -> names_hash (d_alg e) (typ e)) ->
  exists st', fold_outcome digest_token (concat (map entry_tokens l)) st = Ok st' /\
    p_checks st' = p_checks st ++ map (fun e => (d_path e, typ e, d_hex e)) l.
Proof.
  induction l as [|e l IH]; intros st F Ty.
  - exists st. cbn [map concat fold_outcome]. now rewrite app_nil_r.
  - inversion F as [|? ? Fe Fl]; subst. cbn [map concat]. rewrite fold_outcome_app, (entry_fold E canonical e (typ e)) by (first [assumption | apply Ty; now left]).
    cbn [bind]. destruct (IH (mkD (d_path e) (typ e) (d_hex e) (p_checks st ++ [(d_path e, typ e, d_hex e)])) Fl) as (st' & H1 & H2).
    { intros e' I. apply Ty. now right. }
    exists st'. split; [exact H1|]. rewrite H2. cbn [p_checks]. now rewrite <- app_assoc.
Qed.

(** an entry whose fields are words: visible ASCII or bytes of another alphabet, no quotes,
    no '<', '>' or '?', at least one character and well below the buffer's size *)
Definition simple (E : nat) (w : list N) : Prop :=
  Forall (fun c => 33 <= c < 256 /\ c <> 34 /\ c <> 39 /\ c <> 60 /\ c <> 62 /\ c <> 63)%N w /\ w <> [] /\ length w + 13 < E.
Definition simple_entry (E : nat) (e : entry) : Prop :=
  simple E (d_path e) /\ simple E (d_stamp e) /\ simple E (d_modify e) /\ simple E (d_extent e) /\ simple E (d_hex e).

(** the reports name exactly the files that can be opened and have another digest *)
Theorem digest_verified_partial : forall E canonical fs hexof l fuel typ, 80 < E ->
  (forall e, In e l -> simple_entry E e /\ canonical (d_path e) = d_path e /\ names_hash (d_alg e) (typ e)) ->
  12 + 25 * length l < fuel ->
  exists reports status, AuthenticateDigest E fs hexof fuel (write_digest canonical l) = Ok (Some (reports, status)) /\
    forall path, In path reports <->
      exists e content, In e l /\ d_path e = path /\ fs path = Some content /\ d_hex e <> hexof (typ e) content.
Proof.
  intros E canonical fs hexof l fuel typ E80 H F.
  assert (W : Forall (entry_words E canonical) l).
  { apply Forall_forall. intros e I. destruct (H e I) as ((H1 & H2 & H3 & H4 & H5) & Can & m & Im & Ea).
    destruct (alg_plain m (typ e) Im) as (A1 & A2 & A3). unfold entry_words. repeat (split; [assumption|]). split; [|assumption].
    rewrite Ea. split; [exact A1|]. split; [exact A2|]. lia. }
  exists (reported fs hexof (map (fun e => (d_path e, typ e, d_hex e)) l)), false. split.
  - unfold AuthenticateDigest. replace fuel with (8 + (length l * 25 + (3 + (fuel - 11 - length l * 25)))) by lia.
    rewrite scan_digest by assumption. cbn [bind]. rewrite fold_outcome_app.
    assert (S : fold_outcome digest_token start_tokens dstart = Ok dstart) by (vm_compute; reflexivity). rewrite S. cbn [bind].
    rewrite fold_outcome_app. destruct (entries_fold E canonical typ l dstart W) as (st' & -> & C); [intros e I; now destruct (H e I) as (_ & _ & ?)|].
    cbn [bind fold_outcome].
    assert (T : forall st v, digest_token st (b "/rdf:RDF", v) = Ok st) by reflexivity. rewrite T. cbn [bind].
    rewrite C. reflexivity.
  - intros path. unfold reported. rewrite in_flat_map. split.
    + intros (c & Ic & Ip). apply in_map_iff in Ic as (e & <- & Ie). destruct (fs (d_path e)) as [content|] eqn:Fs; [|contradiction].
      destruct (list_eq_dec N.eq_dec (d_hex e) (hexof (typ e) content)) as [|Ne]; [contradiction|].
      destruct Ip as [<-|[]]. now exists e, content.
    + intros (e & content & Ie & <- & Fs & Ne). exists (d_path e, typ e, d_hex e). split; [apply in_map_iff; now exists e|].
      rewrite Fs. destruct (list_eq_dec N.eq_dec (d_hex e) (hexof (typ e) content)); [contradiction|now left].
Qed.
Print Assumptions digest_verified_partial.

(** a digest file of two files, one of which has changed *)
Definition sample_entry (path hex : list N) : entry :=
  mkEntry path (b "2026-11-15T08:00:00Z") (b "2026-11-14T08:00:00Z") (b "17") (map lower (b "SHA2-256")) hex.
Example digest_verified_ex : forall e, In e [sample_entry (b "a.txt") (b "0a"); sample_entry (b "dir/b") (b "0b")] ->
  simple_entry 4096 e /\ names_hash (d_alg e) 7.
Proof.
  assert (S : forall w, forallb (fun c => (33 <=? c) && (c <? 256) && negb (c =? 34) && negb (c =? 39) && negb (c =? 60) && negb (c =? 62) && negb (c =? 63))%N w = true ->
    w <> [] -> length w <= 30 -> simple 4096 w).
  { intros w H1 H2 H3. split; [exact (b_plain w H1)|]. split; [exact H2|]. change 4096 with (44 + 4052). lia. }
  intros e I. repeat destruct I as [<-|I]; [| |destruct I];
    (split; [repeat split; apply S; try reflexivity; try discriminate; vm_compute; lia|]);
    (exists (b "SHA2-256"); split; [vm_compute; tauto | reflexivity]).
Qed.

(** ** C86 fails *)
(** an entry written for a file whose content has another digest now *)
Definition changed (fs : list N -> option (list N)) (hexof : Z -> list N -> list N) (t : Z) (e : entry) : Prop :=
  exists content, fs (d_path e) = Some content /\ hexof t content <> d_hex e.
Definition one_file (path content : list N) (p : list N) : option (list N) :=
  if list_eq_dec N.eq_dec p path then Some content else None.
(** - the name has white space in it;
    - the name ends with white space: the files listed behind it are not checked
      either;
    - the name is written in its canonical form (& as &amp;), which is taken for
      the name *)
Theorem digest_verified_refuted :
  (exists fs hexof e, changed fs hexof 7 e /\ AuthenticateDigest 4096 fs hexof 100 (write_digest (fun p => p) [e]) = Ok (Some ([], false))) /\
  (exists fs hexof e1 e2, changed fs hexof 7 e2 /\ simple_entry 4096 e2 /\
     AuthenticateDigest 4096 fs hexof 100 (write_digest (fun p => p) [e1; e2]) = Ok (Some ([], false))) /\
  (exists fs hexof e canonical, changed fs hexof 7 e /\
     AuthenticateDigest 4096 fs hexof 100 (write_digest canonical [e]) = Ok (Some ([], false))).
Proof.
  split; [|split].
  - exists (one_file (b "a b") (b "new")), (fun _ c => c), (sample_entry (b "a b") (b "old")).
    split; [exists (b "new"); split; [reflexivity|discriminate]|]. vm_compute. reflexivity.
  - exists (one_file (b "a.txt") (b "new")), (fun _ c => c), (sample_entry (b "x ") (b "old")), (sample_entry (b "a.txt") (b "old")).
    split; [exists (b "new"); split; [reflexivity|discriminate]|]. split; [|vm_compute; reflexivity].
    assert (S : forall w, forallb (fun c => (33 <=? c) && (c <? 256) && negb (c =? 34) && negb (c =? 39) && negb (c =? 60) && negb (c =? 62) && negb (c =? 63))%N w = true ->
      w <> [] -> length w <= 30 -> simple 4096 w).
    { intros w H1 H2 H3. split; [exact (b_plain w H1)|]. split; [exact H2|]. change 4096 with (44 + 4052). lia. }
    repeat split; apply S; try reflexivity; try discriminate; vm_compute; lia.
  - exists (one_file (b "a&b") (b "new")), (fun _ c => c), (sample_entry (b "a&b") (b "old")),
      (flat_map (fun c => if (c =? 38)%N then b "&amp;" else [c])).
    split; [exists (b "new"); split; [reflexivity|discriminate]|]. vm_compute. reflexivity.
Qed.
(** - files that are gone are not reported;
    - the status says nothing *)
Theorem digest_missing_refuted : forall E canonical hexof l fuel typ, 80 < E ->
  (forall e, In e l -> simple_entry E e /\ canonical (d_path e) = d_path e /\ names_hash (d_alg e) (typ e)) ->
  12 + 25 * length l < fuel ->
  exists status, AuthenticateDigest E (fun _ => None) hexof fuel (write_digest canonical l) = Ok (Some ([], status)).
Proof.
  intros E canonical hexof l fuel typ E80 H F.
  destruct (digest_verified_partial E canonical (fun _ => None) hexof l fuel typ E80 H F) as (r & st & -> & R).
  exists st. destruct r as [|p r]; [reflexivity|]. destruct (proj1 (R p) (or_introl eq_refl)) as (? & ? & _ & _ & X & _). discriminate X.
Qed.
Theorem digest_status_refuted : forall E fs hexof fuel file reports status,
  AuthenticateDigest E fs hexof fuel file = Ok (Some (reports, status)) -> status = false.
Proof.
  intros E fs hexof fuel file reports status. unfold AuthenticateDigest.
  destruct (scan _ _ _ _) as [[[[toks c] rest]|]| |]; cbn [bind]; try discriminate.
  destruct (fold_outcome _ _ _); cbn [bind]; try discriminate. intros X. now injection X.
Qed.
Print Assumptions digest_verified_refuted.
Print Assumptions digest_missing_refuted.
Print Assumptions digest_status_refuted.
