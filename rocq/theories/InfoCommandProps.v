(** C169, C170: what the utility cipher-info prints. *)
From Coq Require Import NArith ZArith Bool String Arith Lia ZifyBool ZifyNat ZifyN List.
From Verif Require Import Base Outcome CStringModel CStringSpec CStringProps OptionModel OptionProps CommandModel CommandProps ScanModel ScanProof ScanProof2 ScanProps
  XmlModel RdfModel RdfProof RdfProof2 RdfProps DigestCommandModel DigestCommandProps InfoCommandModel.
Import ListNotations.
Local Open Scope nat_scope.
Notation settings := RdfModel.settings.

(** what is to be seen of a file, line by line *)
Definition lines (name : list N) (s : settings) (chunk : list N) : list (string * list N) :=
  [("Filename: ", name);
   ("  Cipher:", []);
   ("    type: ", WizardOptionToMnemonic WizardCipherOptions (RdfModel.cipher s));
   ("    mode: ", WizardOptionToMnemonic WizardModeOptions (RdfModel.mode s));
   ("    nonce: ", nonce s);
   ("  Authenticate:", []);
   ("    method: ", WizardOptionToMnemonic WizardAuthenticateOptions (method s));
   ("  Key:", []);
   ("    hash: ", WizardOptionToMnemonic WizardHashOptions (RdfModel.key_hash s));
   ("    length: ", decimal (RdfModel.key_length s));
   ("    id: ", id s);
   ("  Entropy Generator:", []);
   ("    type: ", WizardOptionToMnemonic WizardEntropyOptions (RdfModel.entropy s));
   ("    level: ", decimal (RdfModel.level s));
   ("  Keyed-Hashed Message Authentication Code:", []);
   ("    hash: ", WizardOptionToMnemonic WizardHashOptions (RdfModel.hmac s));
   ("  Random Generator:", []);
   ("    hash: ", b "SHA256");
   ("  Chunksize: ", chunk);
   ("  Dates:", []);
   ("    modify: ", modified s);
   ("    create: ", created s);
   ("    timestamp: ", stamp s);
   ("  Protocol: ", b "1.0");
   ("  Version: ", version s)]%string.
Definition shown (l : list (string * list N)) : list N := concat (map (fun p => b (fst p) ++ snd p ++ [10%N]) l).
Definition report (size : N -> list N) (name : list N) (s : settings) : list N := shown (lines name s (size (RdfModel.chunksize s) ++ b "BB")).

(** ** the lines tell the settings *)
Definition one_line (s : list N) : Prop := ~ In 10%N s.
Lemma line_inj a a' r r' : one_line a -> one_line a' -> a ++ 10%N :: r = a' ++ 10%N :: r' -> a = a' /\ r = r'.
Proof.
  revert a'. induction a as [|x a IH]; intros [|y a'] A B Q; cbn [app] in Q.
  - injection Q as Q. now split.
  - injection Q as <- Q. destruct B. now left.
  - injection Q as -> Q. destruct A. now left.
  - injection Q as -> Q. destruct (IH a') as (-> & ->); [intros I; apply A; now right|intros I; apply B; now right|assumption|now split].
Qed.
Lemma shown_inj l l' : map fst l = map fst l' -> Forall (fun p => one_line (snd p)) l -> Forall (fun p => one_line (snd p)) l' -> shown l = shown l' -> l = l'.
Proof.
  revert l'. induction l as [|[k v] l IH]; intros [|[k' v'] l'] M F F' Q; try discriminate M; [reflexivity|]. cbn [map fst] in M. injection M as <- M.
  inversion F; inversion F'; subst. unfold shown in Q. cbn [map concat fst snd] in *. rewrite <- !app_assoc in Q. apply app_inv_head in Q. cbn [app] in Q.
  apply line_inj in Q as (-> & Q); try assumption. now rewrite (IH l').
Qed.
Definition readable (s : settings) : Prop := Forall one_line [nonce s; id s; modified s; created s; stamp s; version s].
Lemma mnemonic_line o z : one_line (WizardOptionToMnemonic o z).
Proof.
  unfold one_line, WizardOptionToMnemonic. intros I.
  assert (H : forallb (fun e => forallb (fun c => negb (c =? 10))%N (fst e)) (GetOptionInfo o) = true) by (destruct o; vm_compute; reflexivity).
  revert H I. induction (GetOptionInfo o) as [|[m t] info IH]; cbn [mnemonic_of forallb fst]; intros H I; [cbn in I; repeat (destruct I as [I|I]; [discriminate I|]); exact I|].
  apply andb_prop in H as [H1 H2]. destruct (z =? t)%Z; [|now apply IH]. rewrite forallb_forall in H1. specialize (H1 _ I). discriminate H1.
Qed.
Lemma decimal_line n : one_line (decimal n).
Proof. intros I. destruct (decimal_spec n) as (D & _). rewrite Forall_forall in D. specialize (D _ I). discriminate D. Qed.
Lemma decimal_inj n m : decimal n = decimal m -> n = m.
Proof. intros Q. destruct (decimal_spec n) as (_ & _ & X & _), (decimal_spec m) as (_ & _ & Y & _). rewrite Q, Y in X. lia. Qed.
Lemma mnemonic_inj o z z' : o <> WizardCommandOptions -> option_value o z -> option_value o z' -> WizardOptionToMnemonic o z = WizardOptionToMnemonic o z' -> z = z'.
Proof. intros O V V' Q. destruct (mnemonic_text o z V O) as (X & _), (mnemonic_text o z' V' O) as (Y & _). rewrite Q in X. congruence. Qed.
Lemma lines_ok name s c : one_line name -> readable s -> one_line c -> Forall (fun p => one_line (snd p)) (lines name s c).
Proof.
  intros A R C. unfold readable in R. repeat match goal with H : Forall one_line (_ :: _) |- _ => inversion H; clear H; subst end.
  unfold lines. repeat (apply Forall_cons; [first [assumption | apply mnemonic_line | apply decimal_line | cbn; intros I; repeat (destruct I as [I|I]; [discriminate I|]); exact I]|]). apply Forall_nil.
Qed.
(** two reports are the same only if name and settings are, but for the chunk size, which is rounded *)
Theorem report_faithful : forall size name name' s s', (forall n, one_line (size n)) -> one_line name -> one_line name' -> valid s -> valid s' -> readable s -> readable s' ->
  report size name s = report size name' s' -> name = name' /\ with_chunksize s 0 = with_chunksize s' 0 /\ size (RdfModel.chunksize s) = size (RdfModel.chunksize s').
Proof.
  intros size name name' s s' Z A A' V V' R R' Q.
  assert (C : forall n, one_line (size n ++ b "BB")). { intros n I. apply in_app_or in I as [I|I]; [now apply (Z n)|]. cbn in I. destruct I as [I|[I|I]]; try discriminate I. exact I. }
  apply shown_inj in Q; [|reflexivity|now apply lines_ok..].
  destruct V as (V1 & V2 & V3 & V4 & V5 & V6 & _), V' as (W1 & W2 & W3 & W4 & W5 & W6 & _).
  destruct s, s'. cbn [RdfModel.cipher RdfModel.mode RdfModel.nonce RdfModel.method RdfModel.id RdfModel.key_hash RdfModel.key_length RdfModel.entropy RdfModel.level RdfModel.hmac RdfModel.chunksize RdfModel.modified RdfModel.created RdfModel.stamp RdfModel.version with_chunksize lines] in *.
  injection Q. intros. subst.
  repeat match goal with
  | H : decimal _ = decimal _ |- _ => apply decimal_inj in H; subst
  | H : WizardOptionToMnemonic _ _ = WizardOptionToMnemonic _ _ |- _ => apply mnemonic_inj in H; [subst|discriminate|assumption|assumption]
  | H : _ ++ [66%N; 66%N] = _ ++ [66%N; 66%N] |- _ => apply app_inv_tail in H
  end. auto.
Qed.

(** ** what is learnt of the packet *)
Definition has (t : list N) (fields : list (list N * list N)) : bool := existsb (fun f => same_name (fst f) t) fields.
Lemma learn_all fields s r n i : has (b "random-hash") fields = false -> fold_outcome learn fields (mkKnown s r n i) =
  let* s := fold_outcome set_field fields s in Ok (mkKnown s r (n || has (b "nonce") fields) (i || has (b "id") fields || has (b "session") fields)).
Proof.
  revert s n i. induction fields as [|f fields IH]; intros s n i H; [cbn; now rewrite !orb_false_r|]. unfold has in H. cbn [existsb] in H. apply orb_false_elim in H as [H1 H2].
  cbn [fold_outcome]. unfold learn at 1. destruct (set_field s f) as [s'| |]; cbn [bind]; try reflexivity. rewrite H1. cbn [bind]. rewrite IH by exact H2.
  destruct (fold_outcome set_field fields s') as [s2| |]; cbn [bind]; try reflexivity. unfold has. cbn [existsb].
  now destruct n, i, (same_name (fst f) (b "nonce")), (same_name (fst f) (b "id")), (same_name (fst f) (b "session")); cbn [orb]; rewrite ?orb_true_r.
Qed.
Lemma print_report size name s : PrintCipherProperties size name (mkKnown s 7 true true) = Ok (report size name s).
Proof.
  unfold PrintCipherProperties. cbn [has_nonce has_id andb negb settings_ random_hash]. f_equal. unfold report, shown, lines. cbn [map concat fst snd].
  unfold row, title, newline. rewrite <- !app_assoc. reflexivity.
Qed.

Section Info.
Variable expand : list (list N) -> outcome (list (list N)).
Variable open_ : list N -> option (list N).
Variable size : N -> list N.
Variable hex : list N -> list N.
Variables E fuel : nat.
Hypothesis hex_ok : forall x, Forall hexdigit (hex x) /\ 0 < length (hex x) <= 128.
Hypothesis E_ok : 132 <= E.
Hypothesis fuel_ok : 24 < fuel.
Notation Command := (CipherInfoCommand expand open_ size hex E fuel).
(** a file as encipher leaves it *)
Definition enciphered (name : list N) (s : settings) : Prop := exists original chunks,
  open_ name = Some (cipher_packet hex (cipher_rdf E original s) ++ chunks) /\ Forall (fun c => c <> 0 /\ c <> 34)%N original /\ valid s /\ (RdfModel.chunksize s < 2 ^ 32)%N /\ fits E original s.
Lemma file_shown k name s : enciphered name s -> random_hash k = 7%Z ->
  one_file open_ size hex E fuel k name = Ok (Some (Shown (mkKnown s 7 true true) (report size name s))).
Proof.
  intros (original & chunks & O & F & V & C & [L1 L2]) R. unfold one_file. rewrite O. rewrite (rdf_whole _ _ _ L1) in *.
  assert (F0 : Forall (fun c => c <> 0%N) original) by (eapply Forall_impl; [|exact F]; cbv beta; intros; tauto).
  assert (F34 : Forall (fun c => c <> 34%N) original) by (eapply Forall_impl; [|exact F]; cbv beta; intros; tauto).
  rewrite (header_round_trip E hex content_nodes (rdf_of original (fields_of s)) (fields_of s)).
  2: exact hex_ok. 2: exact E_ok. 2: discriminate. 3: exact L2. 4: cbn [fields_of length]; lia.
  2: apply rdf_no_nul; [assumption|now apply fields_nice].
  2: apply nodes_read; [assumption|now apply fields_nice|apply fields_distinct].
  cbn [bind]. destruct k as [s0 r0 n0 i0]. cbn in R. subst r0. rewrite learn_all by reflexivity.
  rewrite fields_set by (assumption || lia). cbn [bind].
  change (has (b "nonce") (fields_of s)) with true. change (has (b "id") (fields_of s)) with true. rewrite !orb_true_r. cbn [orb].
  rewrite N.mod_small by assumption. replace (with_chunksize s (RdfModel.chunksize s)) with s by now destruct s. now rewrite print_report.
Qed.
Lemma info_files names rest (s : list N -> settings) k n status : Forall (fun a => List.hd 0%N a <> 45%N) names -> (forall a, In a names -> enciphered a (s a)) -> random_hash k = 7%Z -> names <> [] ->
  exists k', random_hash k' = 7%Z /\
  info_loop open_ size hex E fuel (length names + n) k status (names ++ rest) = put (concat (map (fun a => report size a (s a)) names)) (info_loop open_ size hex E fuel n k' true rest) false.
Proof.
  intros F G R N1. revert k status R. induction F as [|a names A F IH]; intros k status R; [contradiction|]. clear N1.
  cbn [app length Nat.add info_loop].
  assert (info_turn a (names ++ rest) = Ok (Open_ a (names ++ rest))) as ->.
  { unfold info_turn, starts. destruct a as [|c r]; [reflexivity|]. cbn in A. destruct (N.eqb_spec c 45); [contradiction|reflexivity]. }
  cbn [bind]. rewrite (file_shown k a (s a)) by (try assumption; apply G; now left). cbn [bind].
  destruct names as [|a2 names].
  - exists (mkKnown (s a) 7 true true). split; [reflexivity|]. cbn [map concat app length Nat.add]. now rewrite app_nil_r.
  - destruct (IH ltac:(intros; apply G; now right) ltac:(discriminate) (mkKnown (s a) 7 true true) true eq_refl) as (k' & R' & Q). exists k'. split; [exact R'|].
    rewrite Q. cbn [map concat]. unfold put. destruct (info_loop _ _ _ _ _ n k' true rest) as [[? ? ?|?|?]| |]; cbn [bind orb]; now rewrite ?app_assoc.
Qed.
(** ** C169: of each enciphered file its settings are printed, in order, whatever the defaults *)
Theorem info_shows : forall init args names s, args <> [] -> expand args = Ok names -> names <> [] -> Forall (fun a => List.hd 0%N a <> 45%N) names ->
  (forall a, In a names -> enciphered a (s a)) ->
  Command init args = Ok (Told true false (concat (map (fun a => report size a (s a)) names))).
Proof.
  intros init args names s A X N1 F G. unfold CipherInfoCommand. destruct args; [contradiction|]. rewrite X. cbn [bind].
  destruct (info_files names [] s (mkKnown init 7 false false) 0 true F G eq_refl N1) as (k' & _ & Q). rewrite app_nil_r, Nat.add_0_r in Q. rewrite Q. cbn [info_loop put bind orb]. now rewrite app_nil_r.
Qed.
(** what is no option is refused, behind what was printed before *)
Definition options : list (list N) := map b ["debug"; "help"; "-help"; "list"; "log"; "version"]%string.
Theorem info_unknown : forall init args names s o rest, args <> [] -> expand args = Ok (names ++ (45%N :: o) :: rest) -> Forall (fun a => List.hd 0%N a <> 45%N) names ->
  (forall a, In a names -> enciphered a (s a)) -> ascii o -> ~ In (map lower o) options ->
  Command init args = Ok (Told false true (concat (map (fun a => report size a (s a)) names))).
Proof.
  intros init args names s o rest A X F G O U. unfold CipherInfoCommand. destruct args; [contradiction|]. rewrite X. cbn [bind].
  assert (T : info_turn (45%N :: o) rest = Ok Refuse).
  { assert (K : forall n, In n options -> is_name n o = false /\ is_name (45%N :: o) (45%N :: n) = false).
    { intros n J. assert (ascii n /\ map lower n = n) as (An & Ln). { repeat (destruct J as [<-|J]; [split; [letters|reflexivity]|]). contradiction. }
      split; apply is_name_false; try assumption; try (constructor; [lia|assumption]); cbn [map]; rewrite Ln.
      - intros ->. contradiction.
      - intros Z. apply (f_equal (@List.tl N)) in Z. cbn [List.tl] in Z. now rewrite Z in U. }
    unfold info_turn, version_option. cbn [starts N.eqb Pos.eqb negb List.tl].
    change (b "-debug") with (45%N :: b "debug"). change (b "-version") with (45%N :: b "version"). change (b "-list") with (45%N :: b "list").
    rewrite (proj2 (K (b "debug") ltac:(cbn; tauto))), (proj2 (K (b "version") ltac:(cbn; tauto))), (proj2 (K (b "list") ltac:(cbn; tauto))).
    rewrite (proj1 (K (b "help") ltac:(cbn; tauto))), (proj1 (K (b "-help") ltac:(cbn; tauto))), (proj1 (K (b "log") ltac:(cbn; tauto))). cbn [orb].
    repeat match goal with |- (if ?x then _ else _) = _ => destruct x end; reflexivity. }
  rewrite app_length. cbn [length]. destruct names as [|a names].
  - cbn [app length Nat.add info_loop map concat]. now rewrite T.
  - destruct (info_files (a :: names) ((45%N :: o) :: rest) s (mkKnown init 7 false false) (S (length rest)) true F G eq_refl ltac:(discriminate)) as (k' & _ & Q). rewrite Q.
    cbn [info_loop]. rewrite T. cbn [bind put orb]. now rewrite app_nil_r.
Qed.

(** ** What does not hold *)
(** a packet that is accepted and says nothing *)
Definition nothing : list N := b "<rdf:RDF><cipher:Content rdf:about=""a""></cipher:Content></rdf:RDF>".
Definition empty_packet (name : list N) : Prop := open_ name = Some (cipher_packet hex nothing).
Lemma nothing_read rest : GetContentInfo E hex content_nodes fuel (cipher_packet hex nothing ++ rest) = Ok (Accepted [] rest).
Proof.
  apply (header_round_trip E hex content_nodes nothing []); try assumption; try (vm_compute; reflexivity); try discriminate; [|cbn; lia].
  unfold nothing. letters.
Qed.
(** it is printed with the settings of the file before it *)
Theorem info_stale_refuted : forall init a c s, expand [a; c] = Ok [a; c] -> List.hd 0%N a <> 45%N -> List.hd 0%N c <> 45%N -> enciphered a s -> empty_packet c ->
  Command init [a; c] = Ok (Told true false (report size a s ++ report size c s)).
Proof.
  intros init a c s X A C G O. unfold CipherInfoCommand. rewrite X. cbn [bind].
  destruct (info_files [a] [c] (fun _ => s) (mkKnown init 7 false false) 1 true) as (k' & _ & Q); try reflexivity; try discriminate; [now repeat constructor|intros ? [<-|[]]; exact G|].
  assert (T : forall n r, List.hd 0%N n <> 45%N -> info_turn n r = Ok (Open_ n r)).
  { intros n r H. unfold info_turn, starts. destruct n as [|x n]; [reflexivity|]. cbn in H. destruct (N.eqb_spec x 45); [contradiction|reflexivity]. }
  cbn [length info_loop]. rewrite T by exact A. cbn [bind]. rewrite (file_shown _ a s) by (assumption || reflexivity). cbn [bind].
  rewrite T by exact C. cbn [bind]. unfold one_file. rewrite O. rewrite <- (app_nil_r (cipher_packet hex nothing)), nothing_read. cbn [bind fold_outcome]. rewrite print_report. cbn [bind put orb]. now rewrite app_nil_r.
Qed.
(** alone, NULL is printed for nonce and id *)
Theorem info_null_refuted : forall init c, expand [c] = Ok [c] -> List.hd 0%N c <> 45%N -> empty_packet c -> Command init [c] = UB.
Proof.
  intros init c X C O. unfold CipherInfoCommand. rewrite X. cbn [bind length info_loop].
  assert (info_turn c [] = Ok (Open_ c [])) as ->. { unfold info_turn, starts. destruct c as [|x n]; [reflexivity|]. cbn in C. destruct (N.eqb_spec x 45); [contradiction|reflexivity]. }
  cbn [bind]. unfold one_file. rewrite O, <- (app_nil_r (cipher_packet hex nothing)), nothing_read. reflexivity.
Qed.
(** what cannot be opened, and what is no packet in front of one that is, is not told by the exit code *)
Definition code (t : told) : nat := match t with Told s e _ => exit_code (Returned s e None) false | _ => 0 end.
Theorem info_exit_refuted : forall init a c s, List.hd 0%N a <> 45%N -> List.hd 0%N c <> 45%N ->
  (expand [a] = Ok [a] -> open_ a = None -> exists t, Command init [a] = Ok t /\ t = Told true true [] /\ code t = 0) /\
  (expand [a; c] = Ok [a; c] -> one_file open_ size hex E fuel (mkKnown init 7 false false) a = Ok (Some Rejected_) -> enciphered c s ->
     exists t, Command init [a; c] = Ok t /\ t = Told true true (report size c s) /\ code t = 0).
Proof.
  intros init a c s A C.
  assert (T : forall n r, List.hd 0%N n <> 45%N -> info_turn n r = Ok (Open_ n r)).
  { intros n r H. unfold info_turn, starts. destruct n as [|x n]; [reflexivity|]. cbn in H. destruct (N.eqb_spec x 45); [contradiction|reflexivity]. }
  split.
  - intros X O. eexists. split; [unfold CipherInfoCommand; rewrite X; cbn [bind length info_loop]; rewrite T by exact A; cbn [bind]; unfold one_file; rewrite O; cbn; reflexivity|]. split; reflexivity.
  - intros X J G. eexists. split; [unfold CipherInfoCommand; rewrite X; cbn [bind length info_loop]; rewrite T by exact A; cbn [bind]; rewrite J; cbn [bind]; rewrite T by exact C; cbn [bind];
      rewrite (file_shown _ c s) by (assumption || reflexivity); cbn [bind put orb app]; reflexivity|]. cbn. rewrite app_nil_r. split; reflexivity.
Qed.
(** the last file that can be opened decides *)
Theorem info_rejected : forall init a, List.hd 0%N a <> 45%N -> expand [a] = Ok [a] -> one_file open_ size hex E fuel (mkKnown init 7 false false) a = Ok (Some Rejected_) ->
  exists t, Command init [a] = Ok t /\ t = Told false true [] /\ code t = 1.
Proof.
  intros init a A X J. eexists. split; [|split; reflexivity]. unfold CipherInfoCommand. rewrite X. cbn [bind length info_loop].
  assert (info_turn a [] = Ok (Open_ a [])) as ->. { unfold info_turn, starts. destruct a as [|x n]; [reflexivity|]. cbn in A. destruct (N.eqb_spec x 45); [contradiction|reflexivity]. }
  cbn [bind]. rewrite J. reflexivity.
Qed.
End Info.
(** the unit of the chunk size is there twice *)
Definition within (x t : list N) : Prop := exists p q, t = p ++ x ++ q.
Lemma within_app x a t : within x t -> within x (a ++ t).
Proof. intros (p & q & ->). exists (a ++ p), q. now rewrite app_assoc. Qed.
Lemma ok_inj A (x y : A) : Ok x = Ok y -> x = y.
Proof. congruence. Qed.
Theorem chunk_unit_refuted : forall size name k text, PrintCipherProperties size name k = Ok text ->
  within (b "  Chunksize: " ++ size (RdfModel.chunksize (settings_ k)) ++ b "BB" ++ [10%N]) text.
Proof.
  intros size name [s r n i] text. unfold PrintCipherProperties. destruct (negb _); [discriminate|]. cbn [settings_ random_hash]. intros Q. apply ok_inj in Q. rewrite <- Q.
  do 18 apply within_app. eexists [], _. cbn [app]. unfold row at 1, newline. rewrite <- !app_assoc. cbn [app]. reflexivity.
Qed.

(** ** Examples *)
Definition packet_of (name : list N) : option (list N) :=
  if list_eq_dec N.eq_dec name (b "a.cip") then Some (cipher_packet toy_hex (cipher_rdf 4096 (b "plans.txt") default_settings) ++ [1; 2; 3]%N)
  else if list_eq_dec N.eq_dec name (b "b.cip") then Some (cipher_packet toy_hex nothing)
  else None.
Example enciphered_example : enciphered packet_of toy_hex 4096 (b "a.cip") default_settings.
Proof.
  exists (b "plans.txt"), [1; 2; 3]%N. split; [reflexivity|]. split; [letters|]. destruct settings_round_trip_ex as (V & _). split; [exact V|]. split; [vm_compute; reflexivity|].
  split; [|vm_compute; reflexivity]. apply Forall_forall. intros f I.
  assert (forallb (fun f => length (line' f) <? 128) (fields_of default_settings) = true) as G by (vm_compute; reflexivity).
  rewrite forallb_forall in G. specialize (G f I). cbv beta in G. apply Nat.ltb_lt in G. change 4096 with (128 + 3968). lia.
Qed.
Definition a_size (n : N) : list N := decimal (n / 1000) ++ b "K".
Example shows_example : CipherInfoCommand Ok packet_of a_size toy_hex 4096 30 default_settings [b "a.cip"; b "a.cip"] =
  Ok (Told true false (report a_size (b "a.cip") default_settings ++ report a_size (b "a.cip") default_settings)).
Proof. vm_compute. reflexivity. Qed.
Example stale_example : CipherInfoCommand Ok packet_of a_size toy_hex 4096 30 default_settings [b "b.cip"] = UB /\
  CipherInfoCommand Ok packet_of a_size toy_hex 4096 30 default_settings [b "a.cip"; b "b.cip"] =
  Ok (Told true false (report a_size (b "a.cip") default_settings ++ report a_size (b "b.cip") default_settings)).
Proof. vm_compute. split; reflexivity. Qed.
Example missing_example : CipherInfoCommand Ok packet_of a_size toy_hex 4096 30 default_settings [b "c.cip"] = Ok (Told true true []).
Proof. vm_compute. reflexivity. Qed.
Example chunk_example : within (b "  Chunksize: 262KBB" ++ [10%N]) (report a_size (b "a.cip") default_settings).
Proof. exact (chunk_unit_refuted a_size (b "a.cip") _ _ (print_report a_size (b "a.cip") default_settings)). Qed.
Example faithful_example : readable default_settings /\ valid default_settings /\ one_line (b "a.cip") /\ (forall n, one_line (a_size n)).
Proof.
  assert (H : forall s, forallb (fun c => negb (c =? 10)%N) s = true -> one_line s). { intros s F I. rewrite forallb_forall in F. specialize (F _ I). discriminate F. }
  split; [repeat (apply Forall_cons; [apply H; vm_compute; reflexivity|]); apply Forall_nil|]. split; [apply settings_round_trip_ex|]. split; [now apply H|].
  intros n I. apply in_app_or in I as [I|I]; [now apply (decimal_line _ I)|]. destruct I as [I|[]]. discriminate I.
Qed.
Print Assumptions report_faithful.
Print Assumptions info_shows.
Print Assumptions info_unknown.
Print Assumptions info_stale_refuted.
Print Assumptions info_null_refuted.
Print Assumptions info_exit_refuted.
Print Assumptions chunk_unit_refuted.
Print Assumptions info_rejected.
