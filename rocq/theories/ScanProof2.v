(** Proofs about ScanModel: whole files, the content header. *)
From Coq Require Import Arith NArith ZArith Bool Lia ZifyBool ZifyNat ZifyN String List.
From Verif Require Import Base BaseLemmas Outcome StringInfoModel CStringModel CStringSpec CStringProps CStringProps2 OptionModel ScanModel ScanProof.
Import ListNotations.
Ltac Zify.zify_post_hook ::= Z.div_mod_to_equations.

Section Scan.
Variable E : nat.
Variable s : scanner.

Lemma outer_once fuel file toks c rest : 0 < fuel -> file <> [] -> hd 0%N file <> 62%N ->
  innerL E s (S fuel) file E E [] = Ok (Some (toks, c, rest)) -> c = None \/ c = Some 62%N ->
  scan E s (S fuel) file = Ok (Some (toks, c, rest)).
Proof.
  intros F Ne Nh I C. unfold scan. destruct file as [|x l]; [contradiction|]. cbn [next hd] in *.
  unfold innerL in I. cbn [next fst snd] in I.
  change (outer E s (S fuel) (Some x) l []) with
    (if is 62 (Some x) || false then Ok (Some ([], Some x, l))
     else let* r := inner E s (S fuel) (Some x) l E E [] in
          match r with None => Ok None | Some (toks, c, rest) => outer E s fuel c rest toks end).
  cbn [is]. destruct (N.eqb_spec x 62); [contradiction|]. cbn [orb]. rewrite I. cbn [bind].
  destruct fuel; [lia|]. cbn [outer]. destruct C as [->| ->]; reflexivity.
Qed.

Lemma outer_total file : 1 <= E -> keys_fit E s file -> forall fuel l toks, (exists p, file = p ++ l) ->
  exists r, outer E s fuel (fst (next l)) (snd (next l)) toks = Ok r.
Proof.
  intros E1 Fit. induction fuel as [|fuel IH]; intros l toks Suf; [now exists None|].
  change (exists r, (if is 62 (fst (next l)) || match fst (next l) with None => true | Some _ => false end
     then Ok (Some (toks, fst (next l), snd (next l)))
     else let* r := innerL E s (S fuel) l E E toks in
          match r with None => Ok None | Some (toks, c, rest) => outer E s fuel c rest toks end) = Ok r).
  destruct (_ || _); [eexists; reflexivity|].
  destruct (innerL_total E s file Fit (S fuel) l E E toks Suf E1 (le_n E)) as (r & -> & _ & R). cbn [bind].
  destruct r as [[[toks' c] rest]|]; [|now exists None].
  destruct (R toks' c rest eq_refl) as (q & Sq & Eq & _). destruct (IH q toks' Sq) as [r Er].
  exists r. rewrite <- Er, <- Eq. reflexivity.
Qed.

Lemma scan_total fuel file : 1 <= E -> keys_fit E s file -> exists r, scan E s fuel file = Ok r.
Proof.
  intros E1 Fit. destruct (outer_total file E1 Fit fuel file [] (ex_intro _ [] eq_refl)) as [r H].
  exists r. rewrite <- H. unfold scan. now rewrite (surjective_pairing (next file)).
Qed.

Lemma scan_ends fuel file : 1 <= E -> keys_fit E s file -> 0 < fuel -> length file <= fuel ->
  Forall (fun c => isgraph c || isspace c = true) file -> isspace (hd 0%N file) = false ->
  exists toks c rest, scan E s (S fuel) file = Ok (Some (toks, c, rest)).
Proof.
  intros E1 Fit F Len G H. destruct file as [|x l]; [now exists [], None, []|]. cbn [hd] in H.
  destruct (N.eq_dec x 62) as [->|Nx]; [now exists [], (Some 62%N), l|].
  destruct (innerL_total E s _ Fit (S fuel) (x :: l) E E [] (ex_intro _ [] eq_refl) E1 (le_n E)) as (r & I & Nn & R).
  destruct r as [[[toks c] rest]|]; [|exfalso; apply Nn; [cbn [length] in *; lia|reflexivity]].
  destruct (R toks c rest eq_refl) as (q & [p Sq] & Eq & _ & Hq).
  exists toks, c, rest. apply outer_once; [exact F | discriminate | exact Nx | exact I |].
  destruct q as [|y q]; [left; cbn [next] in Eq; congruence|]. right. cbn [next] in Eq. injection Eq as -> _.
  destruct Hq as [Hg Hs]. assert (Gy : isgraph y || isspace y = true).
  { rewrite Forall_forall in G. apply G. rewrite Sq. apply in_or_app. right. now left. }
  destruct Hs as [Hs|Hs].
  - rewrite Hs, orb_false_r in Gy. rewrite Gy in Hg. cbn [andb] in Hg. f_equal. lia.
  - injection Hs as -> ->. rewrite H, orb_false_r in Gy. rewrite Gy in Hg. cbn [andb] in Hg. f_equal. lia.
Qed.

(** the bytes the loops never get past *)
Lemma scan_stuck x l : isgraph x = false -> forall fuel, scan E s fuel (x :: l) = Ok None.
Proof.
  intros G fuel. unfold scan. cbn [next]. generalize (@nil token). induction fuel as [|fuel IH]; intros toks; [reflexivity|].
  change (outer E s (S fuel) (Some x) l toks) with
    (if is 62 (Some x) || false then Ok (Some (toks, Some x, l))
     else let* r := inner E s (S fuel) (Some x) l E E toks in
          match r with None => Ok None | Some (toks, c, rest) => outer E s fuel c rest toks end).
  cbn [is]. destruct (N.eqb_spec x 62) as [->|_]; [discriminate|]. cbn [orb inner]. rewrite G. cbn [andb bind]. apply IH.
Qed.

(** a key of [E] characters and more *)
Lemma scan_long_key k l fuel : startkey s k -> Forall (fun c => keychar s c = true) k -> E <= length k ->
  scan E s (S fuel) (k ++ l) = UB.
Proof.
  intros St K Len. destruct k as [|x k]; [contradiction|]. unfold scan. cbn [app next].
  change (outer E s (S fuel) (Some x) (k ++ l) []) with
    (if is 62 (Some x) || false then Ok (Some ([], Some x, k ++ l))
     else let* r := innerL E s (S fuel) ((x :: k) ++ l) E E [] in
          match r with None => Ok None | Some (toks, c, rest) => outer E s fuel c rest toks end).
  cbn [is]. assert (Nx : (x =? 62)%N = false) by (destruct St as [G _]; lia). rewrite Nx. cbn [orb].
  rewrite innerL_key by (apply startkey_app; exact St).
  assert (Run : forall k' key, Forall (fun c => keychar s c = true) k' -> length key <= E -> E <= length key + length k' ->
            exists key' c r, keyL E s key (k' ++ l) = (key', c, r) /\ E <= length key').
  { clear. induction k' as [|c k' IH]; intros key F L1 L2.
    - cbn [app length] in *. destruct (keyL_run E s l key L1) as (k & r & _ & _ & ->). do 3 eexists. split; [reflexivity|].
      rewrite firstn_length, app_length. lia.
    - inversion F as [|? ? Fc Fk]; subst. cbn [app length] in *. rewrite keyL_cons, Fc.
      destruct (Nat.ltb_spec (length key) E); apply IH; try exact Fk; rewrite ?app_length; cbn [length]; lia. }
  destruct (Run (x :: k) [] K ltac:(cbn [length]; lia) ltac:(cbn [length] in *; lia)) as (key' & c & r & -> & L).
  destruct (Nat.leb_spec E (length key')); [reflexivity|lia].
Qed.
End Scan.

(** * Words *)

(** a character that no reader takes for white space, a quote or the end *)
Definition plain (c : N) : Prop := (33 <= c < 256 /\ c <> 34 /\ c <> 39 /\ c <> 60 /\ c <> 62 /\ c <> 63)%N.
Lemma plain_space c : plain c -> isspace c = false. Proof. unfold plain, isspace. lia. Qed.
Lemma plain_text w : Forall plain w -> text w.
Proof. apply Forall_impl. intros c. unfold plain. lia. Qed.

Lemma ltrim_plain c w : space c = false -> ltrim (c :: w) = c :: w.
Proof. intros H. cbn [ltrim]. now rewrite H. Qed.
Lemma rtrim_snoc w c : space c = false -> rtrim (w ++ [c]) = w ++ [c].
Proof. intros H. unfold rtrim. rewrite rev_app_distr. cbn [rev app ltrim]. rewrite H. cbn [rev]. now rewrite rev_involutive. Qed.
Lemma map_newline w : Forall plain w -> map (fun c => if (c =? 10)%N then 32%N else c) w = w.
Proof.
  induction 1 as [|c w H _ IH]; [reflexivity|]. cbn [map]. rewrite IH. unfold plain in H. now destruct (N.eqb_spec c 10); [lia|].
Qed.
Lemma plain_facts c : plain c -> space c = false /\ quote c = false.
Proof. intros H. rewrite <- space_eq, <- quote_eq. split; [now apply plain_space|]. unfold plain in H. unfold isquote. lia. Qed.

Lemma cstr_app w r : nonzero w -> cstr (w ++ 0%N :: r) = w.
Proof.
  induction 1 as [|c w H _ IH]; [reflexivity|]. cbn [app cstr]. destruct (N.eqb_spec c 0); [contradiction|]. now rewrite IH.
Qed.
Lemma plain_nonzero w : Forall plain w -> nonzero w.
Proof. apply Forall_impl. intros c. unfold plain. lia. Qed.

Lemma strip_value_word w : Forall plain w -> w <> [] -> strip_value w = Ok w.
Proof.
  intros P Ne. destruct (exists_last Ne) as (w' & z & ->). pose proof P as P0. apply Forall_app in P as [P' Pz].
  inversion Pz as [|? ? Hz _]; subst. destruct (plain_facts z Hz) as [Sz Qz].
  assert (L : lquote (ltrim (w' ++ [z])) = w' ++ [z]).
  { destruct w' as [|x w']; [cbn [app]; rewrite ltrim_plain by assumption; cbn [lquote]; now rewrite Qz|].
    inversion P' as [|? ? Hx _]; subst. destruct (plain_facts x Hx) as [Sx Qx]. cbn [app].
    rewrite ltrim_plain by assumption. cbn [lquote]. now rewrite Qx. }
  unfold strip_value. destruct (strip_string_partial (w' ++ [z]) [] (plain_text _ P0)) as [r ->].
  { right. rewrite L, rtrim_snoc by assumption. split; [now destruct w'|]. intros c Hc.
    apply (f_equal (@rev N)) in Hc. rewrite rev_app_distr in Hc. cbn [rev app] in Hc. injection Hc as -> _. exact Qz. }
  cbn [bind]. unfold strip. rewrite L, rtrim_snoc by assumption. rewrite rquote_snoc, Qz, map_newline by exact P0.
  now rewrite cstr_app by now apply plain_nonzero.
Qed.

Lemma strip_value_quoted w : Forall plain w -> w <> [] -> strip_value (34%N :: w ++ [34%N]) = Ok w.
Proof.
  intros P Ne.
  assert (L : lquote (ltrim (34%N :: w ++ [34%N])) = w ++ [34%N]) by reflexivity.
  unfold strip_value. destruct (strip_string_partial (34%N :: w ++ [34%N]) []) as [r ->].
  { constructor; [lia|]. apply Forall_app. split; [now apply plain_text|]. constructor; [lia|constructor]. }
  { right. rewrite L, rtrim_snoc by reflexivity. split; [now destruct w|]. intros c Hc.
    destruct w as [|x [|y w]]; [contradiction| |]; discriminate Hc. }
  cbn [bind]. unfold strip. rewrite L, rtrim_snoc by reflexivity. rewrite rquote_snoc. change (quote 34) with true. cbn [orb].
  rewrite map_newline by exact P. now rewrite cstr_app by now apply plain_nonzero.
Qed.

(** * Decimal numbers *)
Lemma digits_app p q : Forall (fun c => isdigit c = true) p -> forall n, digits n (p ++ q) = digits (digits n p) q.
Proof. induction 1 as [|c p H _ IH]; intros n; [reflexivity|]. cbn [app digits]. now rewrite H, IH. Qed.
Lemma decimal_ok fuel : forall n, (n < 2 ^ N.of_nat fuel)%N -> 0 < fuel ->
  Forall (fun c => isdigit c = true) (decimal_ fuel n) /\ decimal_ fuel n <> [] /\ digits 0 (decimal_ fuel n) = Z.of_N n /\
  length (decimal_ fuel n) <= fuel.
Proof.
  induction fuel as [|fuel IH]; intros n Hn F; [lia|]. cbn [decimal_]. destruct (N.ltb_spec n 10).
  - split; [constructor; [unfold isdigit; lia|constructor]|]. split; [discriminate|]. split; [|cbn [length]; lia].
    cbn [digits]. replace (isdigit (48 + n)) with true by (unfold isdigit; lia). lia.
  - destruct fuel as [|fuel]; [cbn in Hn; lia|].
    destruct (IH (n / 10)%N) as (D & Ne & V & L); [|lia|].
    { rewrite Nat2N.inj_succ, N.pow_succ_r' in Hn. lia. }
    split; [apply Forall_app; split; [exact D|]; constructor; [|constructor]; unfold isdigit; lia|].
    split; [intros X; apply app_eq_nil in X; now destruct X|].
    split; [|rewrite app_length; cbn [length]; lia].
    rewrite digits_app by exact D. rewrite V. cbn [digits]. replace (isdigit (48 + n mod 10)) with true by (unfold isdigit; lia). lia.
Qed.
Lemma decimal_spec n : Forall (fun c => isdigit c = true) (decimal n) /\ decimal n <> [] /\ digits 0 (decimal n) = Z.of_N n /\
  length (decimal n) <= S (N.to_nat (N.log2 n)).
Proof.
  apply decimal_ok; [|lia]. rewrite Nat2N.inj_succ, N2Nat.id. destruct (N.eq_dec n 0) as [->|Z]; [reflexivity|].
  apply N.log2_spec. lia.
Qed.
Lemma strtol_decimal n : (n < 2 ^ 63)%N -> to_size (strtol (decimal n)) = n.
Proof.
  intros H. destruct (decimal_spec n) as (D & Ne & V & _). unfold strtol.
  destruct (decimal n) as [|c p] eqn:Eq; [contradiction|]. inversion D as [|? ? Hc _]; subst.
  rewrite drop_spaces_stop by (unfold isdigit in Hc; unfold isspace; lia).
  assert (M : (match c :: p with
               | 45%N :: p => Z.max (- 2 ^ 63) (- digits 0 p)
               | 43%N :: p => Z.min (2 ^ 63 - 1) (digits 0 p)
               | p => Z.min (2 ^ 63 - 1) (digits 0 p) end)%Z = Z.min (2 ^ 63 - 1) (digits 0 (c :: p))).
  { unfold isdigit in Hc. destruct (N.eq_dec c 45) as [->|N45]; [discriminate Hc|].
    destruct (N.eq_dec c 43) as [->|N43]; [discriminate Hc|]. clear - N45 N43.
    destruct c as [|q]; [reflexivity|]. do 6 (destruct q as [q|q|]; try reflexivity; try contradiction). }
  rewrite M, V. unfold to_size. rewrite Z.min_r by lia. rewrite Z.mod_small by lia. lia.
Qed.

(** * The header *)
Lemma digit_plain c : isdigit c = true -> plain c. Proof. unfold isdigit, plain. lia. Qed.
Lemma plain_value w t : Forall plain w -> t <> 63%N -> t <> 60%N -> isspace t = false ->
  Forall (fun c => isspace c = false /\ c <> 63%N) (w ++ [t]) /\ Forall (fun c => isspace c = false /\ c <> 60%N) (w ++ [t]).
Proof.
  intros P N1 N2 Sp. split; (apply Forall_app; split; [|constructor; [now split|constructor]]);
    (eapply Forall_impl; [|exact P]); intros c H; (split; [now apply plain_space | unfold plain in H; lia]).
Qed.

Definition header_tokens (h d : list N) : list token :=
  [(b "cipherpacket", []); (b "digest", 34%N :: h ++ [34%N]); (b "bytes", 34%N :: d ++ [34%N])].

Lemma scan_header E h d rest f : 16 < E -> Forall plain h -> Forall plain d -> length h + 3 < E -> length d + 3 < E ->
  scan E content_scanner (8 + f)
    (b "<?cipherpacket digest=" ++ dquote ++ h ++ dquote ++ b " bytes=" ++ dquote ++ d ++ dquote ++ b "?>" ++ newline ++ rest)
  = Ok (Some (header_tokens h d, Some 62%N, 10%N :: rest)).
Proof.
  intros E16 Ph Pd Lh Ld. change (8 + f) with (S (7 + f)).
  apply outer_once; [lia | discriminate | discriminate | | now right].
  change (S (7 + f)) with (S (S (S (S (S (S (S (S f)))))))).
  change (b "<?cipherpacket digest=" ++ ?x) with (60%N :: 63%N :: b "cipherpacket" ++ 32%N :: b "digest" ++ 61%N :: x).
  rewrite innerL_punct by reflexivity. rewrite drop_spaces_stop by reflexivity.
  rewrite innerL_punct by reflexivity. change (drop_spaces (b "cipherpacket" ++ ?x)) with (b "cipherpacket" ++ x).
  rewrite innerL_word; [| split; reflexivity | repeat constructor | repeat constructor; discriminate | change (12 < E); lia | reflexivity | | lia].
  2:{ discriminate. }
  change (drop_spaces (32%N :: b "digest" ++ ?x)) with (b "digest" ++ x).
  replace (61%N :: dquote ++ h ++ dquote ++ b " bytes=" ++ dquote ++ d ++ dquote ++ b "?>" ++ newline ++ rest)
    with (61%N :: 34%N :: (h ++ [34%N]) ++ b " bytes=" ++ dquote ++ d ++ dquote ++ b "?>" ++ newline ++ rest)
    by (cbn [dquote app]; now rewrite <- app_assoc).
  rewrite (innerL_pair E content_scanner); [| split; reflexivity | repeat constructor | repeat constructor; discriminate | change (6 < E); lia
    | reflexivity | discriminate | now apply plain_value | | lia | now right | rewrite app_length; cbn [length]; lia].
  2:{ constructor; [discriminate|]. apply Forall_app. split; [now apply plain_nonzero|]. constructor; [discriminate|constructor]. }
  change (drop_spaces (b " bytes=" ++ ?x)) with (b "bytes" ++ 61%N :: x).
  replace (61%N :: dquote ++ d ++ dquote ++ b "?>" ++ newline ++ rest)
    with (61%N :: 34%N :: (d ++ [34%N]) ++ b "?>" ++ newline ++ rest) by (cbn [dquote app]; now rewrite <- app_assoc).
  rewrite (innerL_pair E content_scanner); [| split; reflexivity | repeat constructor | repeat constructor; discriminate | change (5 < E); lia
    | reflexivity | discriminate | now apply plain_value | | lia | now left | rewrite app_length; cbn [length]; lia].
  2:{ constructor; [discriminate|]. apply Forall_app. split; [now apply plain_nonzero|]. constructor; [discriminate|constructor]. }
  change (b "?>" ++ newline ++ rest) with (63%N :: 62%N :: 10%N :: rest).
  rewrite drop_spaces_stop by reflexivity. rewrite innerL_punct by reflexivity. rewrite drop_spaces_stop by reflexivity.
  rewrite innerL_end by reflexivity. reflexivity.
Qed.

Lemma header_fold h d : Forall plain h -> h <> [] -> Forall plain d -> d <> [] ->
  fold_outcome content_token (header_tokens h d) (0%N, None) = Ok (to_size (strtol d), Some h).
Proof.
  intros Ph Nh Pd Nd. unfold header_tokens. cbn [fold_outcome].
  assert (T1 : content_token (0%N, None) (b "cipherpacket", []) = Ok (0%N, None)) by reflexivity. rewrite T1. cbn [bind].
  assert (T2 : content_token (0%N, None) (b "digest", 34%N :: h ++ [34%N]) =
               let* v := strip_value (34%N :: h ++ [34%N]) in Ok (0%N, Some v)) by reflexivity.
  rewrite T2, strip_value_quoted by assumption. cbn [bind].
  assert (T3 : content_token (0%N, Some h) (b "bytes", 34%N :: d ++ [34%N]) =
               let* v := strip_value (34%N :: d ++ [34%N]) in Ok (to_size (strtol v), Some h)) by reflexivity.
  rewrite T3, strip_value_quoted by assumption. reflexivity.
Qed.

Lemma starts_with_app p r : starts_with p (p ++ r) = true.
Proof. induction p as [|c p IH]; [reflexivity|]. cbn [app starts_with]. now rewrite N.eqb_refl. Qed.
Lemma nodes_loop_ok fields : forall fuel done, length fields < fuel ->
  nodes_loop fuel (map (fun f => (b "cipher:" ++ fst f, snd f)) fields) done = Some (done ++ fields).
Proof.
  induction fields as [|[n c] fields IH]; intros fuel done F; (destruct fuel as [|fuel]; [cbn [length] in F; lia|]).
  - cbn [map nodes_loop]. now rewrite app_nil_r.
  - cbn [map nodes_loop fst snd]. rewrite starts_with_app. change (skipn 7 (b "cipher:" ++ n)) with n.
    rewrite IH by (cbn [length] in F; lia). now rewrite <- app_assoc.
Qed.
Lemma nodes_loop_stuck tag content others : starts_with (b "cipher:") tag = false ->
  forall fuel done, nodes_loop fuel ((tag, content) :: others) done = None.
Proof. intros H. induction fuel as [|fuel IH]; intros done; [reflexivity|]. cbn [nodes_loop]. now rewrite H. Qed.

Lemma trailer_ok rest : trailer (Some 10%N) (b "<?cipherpacket?>" ++ [12%N] ++ newline ++ rest) = rest.
Proof. reflexivity. Qed.

Lemma header_read E hex parse f rdf fields rest : 36 < E -> length (hex rdf) + 3 < E -> Forall plain (hex rdf) -> hex rdf <> [] ->
  rdf <> [] -> nonzero rdf -> (N.of_nat (length rdf) < 2 ^ 32)%N ->
  parse rdf = Some (map (fun f => (b "cipher:" ++ fst f, snd f)) fields) -> length fields < 8 + f ->
  GetContentInfo E hex parse (8 + f) (cipher_packet hex rdf ++ rest) = Ok (Accepted fields rest).
Proof.
  intros E36 Lh Ph Nh Nr Nz L32 Ps Lf. unfold GetContentInfo, cipher_packet. rewrite N.mod_small by exact L32.
  set (n := N.of_nat (length rdf)) in *. destruct (decimal_spec n) as (D & Dn & _ & Dl).
  assert (Dl' : length (decimal n) <= 33).
  { assert (N.log2 n <= 32)%N; [|lia]. destruct (N.eq_dec n 0) as [->|Z]; [discriminate|].
    apply N.lt_succ_r, N.log2_lt_pow2; [lia|]. change (N.succ 32) with 33%N. lia. }
  assert (Pd : Forall plain (decimal n)) by (eapply Forall_impl; [|exact D]; exact digit_plain).
  rewrite <- !app_assoc. rewrite scan_header by (first [assumption | lia]). cbn [bind].
  rewrite header_fold by assumption. cbn [bind]. rewrite strtol_decimal by lia.
  assert (0 < n)%N by (destruct rdf; [contradiction|]; subst n; cbn [length]; lia).
  destruct (N.eqb_spec n 0); [lia|]. destruct (N.leb_spec (2 ^ 63) n); [lia|]. cbn [next].
  replace (N.to_nat n) with (length rdf) by lia. rewrite firstn_app, Nat.sub_diag, firstn_all. cbn [firstn].
  rewrite app_nil_r, Nat.sub_diag. cbn [repeat]. rewrite app_nil_r.
  destruct (list_eq_dec N.eq_dec (hex rdf) (hex rdf)); [|contradiction].
  rewrite cstr_nonzero by exact Nz. rewrite Ps, nodes_loop_ok by exact Lf. cbn [app].
  rewrite skipn_app, Nat.sub_diag, skipn_all. cbn [skipn app]. f_equal.
Qed.
