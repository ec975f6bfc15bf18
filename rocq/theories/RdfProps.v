(** C96-C97: the settings written before enciphered content. *)
From Coq Require Import Arith NArith ZArith Bool String Lia ZifyBool ZifyNat ZifyN List.
From Verif Require Import Base Outcome CStringModel CStringSpec CStringProps OptionModel OptionProps ScanModel ScanProof ScanProof2 ScanProps
  XmlModel XmlSpec XmlTreeSpec XmlProof XmlProof2 XmlProof3 XmlProof4 XmlProof5 RdfModel RdfProof RdfProof2.
Import ListNotations.
Ltac Zify.zify_post_hook ::= Z.div_mod_to_equations.

Lemma lines_whole E l : Forall (fun f => length (line' f) < E) l -> flat_map (line E) l = flat_map line' l.
Proof.
  induction 1 as [|f l H _ IH]; [reflexivity|]. cbn [flat_map]. rewrite IH. f_equal. unfold line, line' in *. apply firstn_all2. lia.
Qed.
Lemma rdf_whole E filename s : Forall (fun f => length (line' f) < E) (fields_of s) -> cipher_rdf E filename s = rdf_of filename (fields_of s).
Proof. intros H. unfold cipher_rdf, rdf_of. now rewrite lines_whole. Qed.
Lemma rdf_no_nul filename l : Forall (fun c => c <> 0%N) filename -> Forall nice l -> Forall (fun c => c <> 0%N) (rdf_of filename l).
Proof.
  intros F H. assert (forall s, forallb (fun c => negb (c =? 0)%N) s = true -> Forall (fun c => c <> 0%N) s) as G.
  { intros s Q. rewrite forallb_forall in Q. apply Forall_forall. intros c C. specialize (Q c C). lia. }
  unfold rdf_of, rdf_head. repeat (apply Forall_app; split); try assumption; try (now apply G).
  induction H as [|f l [H1 H2] _ IH]; [constructor|]. cbn [flat_map]. apply Forall_app. split; [|exact IH].
  unfold line'. assert (Forall (fun c => c <> 0%N) (fst f)) by (eapply Forall_impl; [|exact H1]; unfold name_char, letter; intros; lia).
  assert (Forall (fun c => c <> 0%N) (snd f)) by (eapply Forall_impl; [|exact H2]; cbv beta; intros; tauto).
  repeat (apply Forall_app; split); try assumption; now apply G.
Qed.

(** what the file name and the settings have to satisfy for the texts to be whole:
    a line of the text fits the buffer [message], the text is announced with an unsigned int *)
Definition fits (E : nat) (filename : list N) (s : settings) : Prop :=
  Forall (fun f => length (line' f) < E) (fields_of s) /\ (N.of_nat (length (cipher_rdf E filename s)) < 2 ^ 32)%N.

Lemma settings_read : forall E hex filename s init chunks fuel,
  (forall x, Forall hexdigit (hex x) /\ 0 < length (hex x) <= 128) -> 132 <= E ->
  Forall (fun c => c <> 0 /\ c <> 34)%N filename -> valid s -> (chunksize s < 2 ^ 63)%N -> fits E filename s -> 24 < fuel ->
  ReadContentInfo E hex fuel init (cipher_packet hex (cipher_rdf E filename s) ++ chunks) =
  Ok (Some (with_chunksize s (chunksize s mod 2 ^ 32), chunks)).
Proof.
  intros E hex filename s init chunks fuel H E1 F V C [L1 L2] U. unfold ReadContentInfo.
  rewrite (rdf_whole _ _ _ L1) in *.
  assert (Forall (fun c => c <> 0%N) filename) as F0 by (eapply Forall_impl; [|exact F]; cbv beta; intros; tauto).
  assert (Forall (fun c => c <> 34%N) filename) as F34 by (eapply Forall_impl; [|exact F]; cbv beta; intros; tauto).
  rewrite (header_round_trip E hex content_nodes (rdf_of filename (fields_of s)) (fields_of s)).
  - cbn [bind]. rewrite fields_set by assumption. reflexivity.
  - assumption.
  - assumption.
  - discriminate.
  - apply rdf_no_nul; [assumption|now apply fields_nice].
  - assumption.
  - apply nodes_read; [assumption|now apply fields_nice|apply fields_distinct].
  - cbn [fields_of length]. lia.
Qed.

(** * C96 *)
(** the settings a file was enciphered with are the ones deciphering finds, whatever
    it was called with: for every file name without quotes *)
Theorem settings_round_trip_partial : forall E hex filename s init chunks fuel,
  (forall x, Forall hexdigit (hex x) /\ 0 < length (hex x) <= 128) -> 132 <= E ->
  Forall (fun c => c <> 0 /\ c <> 34)%N filename -> valid s -> (chunksize s < 2 ^ 32)%N -> fits E filename s -> 24 < fuel ->
  ReadContentInfo E hex fuel init (cipher_packet hex (cipher_rdf E filename s) ++ chunks) = Ok (Some (s, chunks)).
Proof.
  intros E hex filename s init chunks fuel H E1 F V C L U. rewrite settings_read by (assumption || lia).
  rewrite N.mod_small by assumption. now destruct s.
Qed.
Print Assumptions settings_round_trip_partial.
(** the defaults of AcquireContentInfo (content.c:70-96) *)
Definition default_settings : settings :=
  mkSettings 2 3 (b "00112233") 1 (b "a1b2c3") 7 512 3 6 7 262144 (b "2026-01-01T00:00:00Z") (b "2026-01-01T00:00:00Z") (b "2026-01-01T00:00:00Z") (b "WizardsToolkit 1.1.0").
Lemma decide_value s : forallb (fun c => negb (c =? 0) && negb (c =? 13) && negb (c =? 38) && negb (c =? 60))%N s = true -> value_text s.
Proof. intros H. rewrite forallb_forall in H. apply Forall_forall. intros c C. specialize (H c C). cbv beta in H. lia. Qed.
Example settings_round_trip_ex : valid default_settings /\ fits 4096 (b "secret & plans/tank's <1>.txt") default_settings /\
  exists init, init <> default_settings /\
    ReadContentInfo 4096 toy_hex 30 init (cipher_packet toy_hex (cipher_rdf 4096 (b "secret & plans/tank's <1>.txt") default_settings) ++ [1; 2; 3]%N)
    = Ok (Some (default_settings, [1; 2; 3]%N)).
Proof.
  split; [|split].
  - unfold valid, option_value. cbn [default_settings cipher mode method key_hash entropy hmac level key_length nonce id modified created stamp version].
    repeat split; try lia; try (cbn; tauto). repeat (constructor; [apply decide_value; reflexivity|]). constructor.
  - split; [|vm_compute; reflexivity]. apply Forall_forall. intros f I.
    assert (forallb (fun f => length (line' f) <? 128) (fields_of default_settings) = true) as G by (vm_compute; reflexivity).
    rewrite forallb_forall in G. specialize (G f I). cbv beta in G. apply Nat.ltb_lt in G. change 4096 with (128 + 3968). lia.
  - exists (mkSettings 5 4 [] 0 [] 0 0 0 0 0 0 [] [] [] []). split; [discriminate|]. vm_compute. reflexivity.
Qed.
(** a chunk size of 2^32 or more is cut to 32 bits when it is read: the chunks cannot be deciphered *)
Theorem chunksize_refuted : forall E hex filename s init chunks fuel,
  (forall x, Forall hexdigit (hex x) /\ 0 < length (hex x) <= 128) -> 132 <= E ->
  Forall (fun c => c <> 0 /\ c <> 34)%N filename -> valid s -> (2 ^ 32 <= chunksize s < 2 ^ 53)%N -> fits E filename s -> 24 < fuel ->
  exists s', ReadContentInfo E hex fuel init (cipher_packet hex (cipher_rdf E filename s) ++ chunks) = Ok (Some (s', chunks)) /\
    chunksize s' <> chunksize s.
Proof.
  intros E hex filename s init chunks fuel H E1 F V C L U. eexists. split; [apply settings_read; (assumption || lia)|].
  destruct s. cbn [with_chunksize RdfModel.chunksize] in *. lia.
Qed.
Print Assumptions chunksize_refuted.
Example chunksize_refuted_ex : let s := with_chunksize default_settings (2 ^ 32 + 65536) in
  ReadContentInfo 4096 toy_hex 30 s (cipher_packet toy_hex (cipher_rdf 4096 (b "a") s)) = Ok (Some (with_chunksize default_settings 65536, [])).
Proof. vm_compute. reflexivity. Qed.

(** * C97 *)
Lemma header_unparsed : forall E hex parse rdf rest fuel,
  (forall x, Forall hexdigit (hex x) /\ 0 < length (hex x) <= 128) -> 132 <= E ->
  rdf <> [] -> Forall (fun c => c <> 0%N) rdf -> (N.of_nat (length rdf) < 2 ^ 32)%N -> parse rdf = None -> 8 < fuel ->
  GetContentInfo E hex parse fuel (cipher_packet hex rdf ++ rest) = Ok Rejected.
Proof.
  intros E hex parse rdf rest fuel H E1 N1 N2 L P F. destruct (H rdf) as [Hh Lh]. replace fuel with (8 + (fuel - 8)) by lia.
  unfold GetContentInfo, cipher_packet. rewrite (N.mod_small _ _ L). set (n := N.of_nat (length rdf)) in *. destruct (decimal_spec n) as (D & Dn & _ & Dl).
  assert (Dl' : length (decimal n) <= 33).
  { assert (N.log2 n <= 32)%N; [|lia]. destruct (N.eq_dec n 0) as [->|Z]; [discriminate|].
    apply N.lt_succ_r, N.log2_lt_pow2; [lia|]. change (N.succ 32) with 33%N. lia. }
  assert (Pd : Forall plain (decimal n)) by (eapply Forall_impl; [|exact D]; exact digit_plain).
  assert (Ph : Forall plain (hex rdf)) by now apply hexdigit_plain.
  assert (Nh : hex rdf <> []) by (intros K; rewrite K in Lh; cbn [length] in Lh; lia).
  rewrite <- !app_assoc. rewrite scan_header by (first [assumption | lia]). cbn [bind].
  rewrite header_fold by assumption. cbn [bind]. rewrite strtol_decimal by lia.
  destruct (N.eqb_spec n 0); [reflexivity|]. destruct (N.leb_spec (2 ^ 63) n); [lia|]. cbn [next].
  replace (N.to_nat n) with (length rdf) by lia. rewrite firstn_app, Nat.sub_diag, firstn_all. cbn [firstn].
  rewrite app_nil_r, Nat.sub_diag. cbn [repeat]. rewrite app_nil_r.
  destruct (list_eq_dec N.eq_dec (hex rdf) (hex rdf)); [|congruence]. rewrite cstr_none by assumption. now rewrite P.
Qed.
(** a file in a directory whose name ends with a quote is enciphered, and its
    content can never be deciphered again *)
Theorem filename_quote_refuted : forall E hex dir file s init chunks fuel,
  (forall x, Forall hexdigit (hex x) /\ 0 < length (hex x) <= 128) -> 132 <= E ->
  Forall (fun c => c <> 0 /\ c <> 34)%N dir -> Forall (fun c => c <> 0 /\ c <> 62)%N file -> file <> [] ->
  valid s -> fits E (dir ++ dquote ++ b "/" ++ file) s -> 8 < fuel ->
  ReadContentInfo E hex fuel init (cipher_packet hex (cipher_rdf E (dir ++ dquote ++ b "/" ++ file) s) ++ chunks) = Ok None.
Proof.
  intros E hex dir file s init chunks fuel H E1 F1 F2 N0 V [L1 L2] U. unfold ReadContentInfo. rewrite (rdf_whole _ _ _ L1) in *.
  rewrite header_unparsed; [reflexivity|assumption|assumption|discriminate| |assumption| |assumption].
  - apply rdf_no_nul; [|now apply fields_nice]. apply Forall_app. split; [eapply Forall_impl; [|exact F1]; cbv beta; intros; tauto|].
    do 2 (constructor; [discriminate|]). eapply Forall_impl; [|exact F2]; cbv beta; intros; tauto.
  - unfold content_nodes, rdf_of. set (r1 := flat_map line' (fields_of s) ++ b "  </cipher:Content>" ++ newline ++ b "</rdf:RDF>").
    assert (flat_map line' (fields_of s) ++ b "  </cipher:Content>" ++ newline ++ b "</rdf:RDF>" ++ newline = r1 ++ newline) as ->
      by (unfold r1; rewrite <- !app_assoc; reflexivity).
    rewrite new_tree_rdf; [|discriminate|rewrite app_assoc; apply (removelast_text _ 10%N)|intros K; apply app_eq_nil in K as [_ K]; discriminate K].
    change (r1 ++ newline) with (r1 ++ [10%N]). rewrite (proj1 (removelast_text r1 10%N)).
    assert (exists k, length (rdf_head (dir ++ dquote ++ b "/" ++ file) ++ r1 ++ [10%N]) = S (S k)) as [k ->] by (eexists; reflexivity).
    destruct (root_read (newline ++ b "  <cipher:Content rdf:about=" ++ dquote ++ (dir ++ dquote ++ b "/" ++ file) ++ dquote ++ b ">" ++ newline ++ r1) Before I) as [a Ea].
    rewrite parse_step.
    match type of Ea with markup _ ?q _ _ = _ => assert (tl (rdf_head (dir ++ dquote ++ b "/" ++ file) ++ r1) = q) as -> end.
    { unfold rdf_head. rewrite <- !app_assoc. reflexivity. }
    rewrite Ea. cbn [bind open_tag].
    match goal with |- context [after_markup (S k) 10 (62%N :: newline ++ b "  <cipher:Content rdf:about=" ++ ?x)] =>
      change (newline ++ b "  <cipher:Content rdf:about=" ++ x) with ((newline ++ b "  ") ++ 60%N :: b "cipher:Content rdf:about=" ++ x) end.
    rewrite after_value; [|repeat (constructor; [repeat split; discriminate|]); constructor].
    rewrite parse_step. unfold more. cbn [f_tag f_attrs f_content f_kids].
    set (t := Inside _ []).
    assert (markup 10 (b "cipher:Content rdf:about=" ++ dquote ++ (dir ++ dquote ++ b "/" ++ file) ++ dquote ++ b ">" ++ newline ++ r1) 0 t =
      Ok (Some (inr (stop true t)))) as ->; [|reflexivity].
    destruct file as [|x file]; [congruence|]. inversion F2 as [|? ? X F2']; subst. rewrite <- !app_assoc.
    set (p := b "rdf:about" ++ [61; 34]%N ++ dir ++ 34%N :: 47%N :: (x :: file) ++ dquote ++ b ">" ++ newline ++ r1).
    assert (exists k, length p = S k) as [j Lj] by (eexists; reflexivity).
    destruct (attribute_read (b "rdf:about") dir (47%N :: (x :: file) ++ dquote ++ b ">" ++ newline ++ r1) [] (S j)) as [v E2];
      [now apply decide_tag|eapply Forall_impl; [|exact F1]; cbv beta; intros; tauto|].
    change (b "cipher:Content rdf:about=" ++ dquote ++ dir ++ dquote ++ b "/" ++ (x :: file) ++ dquote ++ b ">" ++ newline ++ r1) with (b "cipher:Content" ++ 32%N :: p).
    assert (span (fun c => xml_space c || one_of [47; 62]%N c) (b "cipher:Content" ++ 32%N :: p) = (b "cipher:Content", 32%N :: p)) as Sp by reflexivity.
    unfold markup. rewrite Sp. change (hd 0%N (b "cipher:Content" ++ 32%N :: p)) with 99%N.
    change (alpha 99 || (99 =? 95)%N || (99 =? 58)%N || (128 <=? 99)%N) with true. cbv iota beta zeta. unfold t at 1.
    change (drop_spaces (32%N :: p)) with p. change ((alpha (hd 0%N p) || (hd 0%N p =? 95)%N) && (0 =? 0)) with true. cbv iota.
    assert (get_attributes (S (length p)) p [] = Ok (Some (inl ([] ++ [(b "rdf:about", Some v)], 47%N :: (x :: file) ++ dquote ++ b ">" ++ newline ++ r1)))) as ->.
    { rewrite Lj. etransitivity; [exact E2|reflexivity]. }
    cbn [bind]. assert (skip_tag (b "cipher:Content") = Ok false) as -> by (vm_compute; reflexivity). cbn [bind app].
    replace (x =? 62)%N with false by lia. reflexivity.
Qed.
Print Assumptions filename_quote_refuted.
Example filename_quote_refuted_ex :
  ReadContentInfo 4096 toy_hex 30 default_settings
    (cipher_packet toy_hex (cipher_rdf 4096 (b "5" ++ dquote ++ b "/disk.img") default_settings)) = Ok None.
Proof. vm_compute. reflexivity. Qed.
