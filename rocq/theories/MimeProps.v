(** Content types (C114, C115). *)
From Coq Require Import NArith ZArith Bool String Lia ZifyBool ZifyNat ZifyN Arith List.
From Verif Require Import Base Outcome CStringSpec OptionModel GlobModel GlobSpec GlobProps MimeModel.
Import ListNotations.
Ltac Zify.zify_post_hook ::= Z.to_euclidean_division_equations.

(** ** Specification: when an entry describes a file *)
(** the file name has the form of the pattern *)
Definition named (f : list N) (pattern : list N) : Prop :=
  exists l, pattern = glob_text l /\ Forall piece_ok l /\ text pattern /\ (l = [] \/ matches false l f).
(** the bytes of the data at [o] are [w] *)
Definition bytes_at (data : list N) (o : nat) (w : list N) : Prop := exists a z, data = a ++ w ++ z /\ length a = o.
(** a string stands at the offset, or up to [m_extent] bytes behind it *)
Definition has_string (data : list N) (e : mime) : Prop :=
  exists i, (Z.of_nat i <= m_extent e)%Z /\ bytes_at data (Z.to_nat (m_offset e) + i) (m_magic e).
(** the value of bytes, the lowest first *)
Fixpoint little (w : list N) : Z := match w with [] => 0 | c :: w => Z.of_N c + 256 * little w end.
(** the number of [n] bytes at the offset is the one asked for; there must be four
    bytes in any case *)
Definition has_number (n : nat) (data : list N) (e : mime) : Prop :=
  exists w z, bytes_at data (Z.to_nat (m_offset e)) (w ++ z) /\ length w = n /\ 4 <= length w + length z /\
    (match m_endian e with MSBEndian => little (rev w) | _ => little w end) =
    (if (m_mask e =? 0)%Z then m_value e else Z.land (m_value e) (m_mask e)).
Definition describes (f : option (list N)) (data : list N) (e : mime) : Prop :=
  match m_pattern e, f with
  | Some pattern, Some f => named f pattern
  | _, _ => match m_type e with
            | ByteData => has_number 1 data e
            | ShortData => has_number 2 data e
            | LongData => has_number 4 data e
            | StringData => has_string data e
            end
  end.
(** entries that can be looked at *)
Definition readable (e : mime) : Prop :=
  (0 <= m_offset e)%Z /\ (forall pattern, m_pattern e = Some pattern -> exists l, pattern = glob_text l /\ Forall piece_ok l /\ text pattern).

(** ** Proof *)
Lemma low_first_little w : Forall (fun c => (c < 256)%N) w -> low_first w = little w.
Proof.
  induction 1 as [|c w C _ IH]; [reflexivity|]. cbn [low_first little]. rewrite IH. rewrite Z.shiftl_mul_pow2 by lia.
  rewrite <- Z.lxor_lor.
  - rewrite <- Z.add_nocarry_lxor; [lia|]. apply Z.bits_inj'. intros k K. rewrite Z.land_spec, Z.bits_0.
    destruct (Z.lt_ge_cases k 8) as [L|L].
    + rewrite Z.mul_pow2_bits_low by lia. apply andb_false_r.
    + rewrite Z.bits_above_log2; [reflexivity|lia|]. destruct (Z.eq_dec (Z.of_N c) 0) as [->|Nz]; [cbn; lia|].
      apply Z.log2_lt_pow2; [lia|]. assert (2 ^ 8 <= 2 ^ k)%Z by (apply Z.pow_le_mono_r; lia). lia.
  - apply Z.bits_inj'. intros k K. rewrite Z.land_spec, Z.bits_0.
    destruct (Z.lt_ge_cases k 8) as [L|L].
    + rewrite Z.mul_pow2_bits_low by lia. apply andb_false_r.
    + rewrite Z.bits_above_log2; [reflexivity|lia|]. destruct (Z.eq_dec (Z.of_N c) 0) as [->|Nz]; [cbn; lia|].
      apply Z.log2_lt_pow2; [lia|]. assert (2 ^ 8 <= 2 ^ k)%Z by (apply Z.pow_le_mono_r; lia). lia.
Qed.
Lemma skipn_skipn {A} n m (l : list A) : skipn n (skipn m l) = skipn (m + n) l.
Proof. revert l. induction m as [|m IH]; intros l; [reflexivity|]. destruct l; [now rewrite !skipn_nil|]. cbn. apply IH. Qed.
Lemma firstn_plus {A} n m (l : list A) : firstn (n + m) l = firstn n l ++ firstn m (skipn n l).
Proof. revert l. induction n as [|n IH]; intros l; [reflexivity|]. destruct l; [cbn; now rewrite firstn_nil|]. cbn. f_equal. apply IH. Qed.
Lemma bytes_at_firstn data o w : bytes_at data o w <-> firstn (length w) (skipn o data) = w /\ o + length w <= length data.
Proof.
  split.
  - intros (a & z & -> & <-). rewrite skipn_app, skipn_all, Nat.sub_diag. cbn [app skipn]. rewrite firstn_app, Nat.sub_diag, firstn_all.
    cbn [firstn]. rewrite app_nil_r. split; [reflexivity|]. rewrite !app_length. lia.
  - intros (F & L). exists (firstn o data), (skipn (o + length w) data). split.
    + rewrite <- F at 1. rewrite <- (firstn_skipn o data) at 1. f_equal. rewrite <- (firstn_skipn (length w) (skipn o data)) at 1. f_equal.
      apply skipn_skipn.
    + apply firstn_length_le. lia.
Qed.
Lemma search_ok e data : forall n i, search_string n i e data = true <->
  exists j, i <= j < i + n /\ bytes_at data (Z.to_nat (m_offset e) + j) (m_magic e).
Proof.
  induction n as [|n IH]; intros i; cbn [search_string]; [split; [discriminate|]; intros (j & J & _); lia|].
  destruct (Nat.ltb_spec (length data) (Z.to_nat (m_offset e) + i + length (m_magic e))) as [L|L].
  - split; [discriminate|]. intros (j & J & B). apply bytes_at_firstn in B. lia.
  - destruct (list_eq_dec _ _ _) as [Q|Q].
    + split; [|reflexivity]. intros _. exists i. split; [lia|]. apply bytes_at_firstn. split; [exact Q|lia].
    + rewrite IH. split; intros (j & J & B); exists j; (split; [|exact B]); [lia|].
      destruct (Nat.eq_dec i j) as [<-|]; [|lia]. exfalso. apply Q. now apply bytes_at_firstn in B.
Qed.
Lemma number_ok n e data : n <= 4 -> (0 <= m_offset e)%Z -> Forall (fun c => (c < 256)%N) data -> same_number n e data = true <-> has_number n data e.
Proof.
  intros Hn O By. unfold same_number, has_number. destruct (Z.ltb_spec (Z.of_nat (length data)) (m_offset e + 4)) as [L|L].
  - split; [discriminate|]. intros (w & z & B & _ & G & _). apply bytes_at_firstn in B. rewrite app_length in B. lia.
  - set (o := Z.to_nat (m_offset e)). assert (Lo : o + 4 <= length data) by lia.
    assert (F : forall w, Forall (fun c => (c < 256)%N) w -> number_at (m_endian e) w = match m_endian e with MSBEndian => little (rev w) | _ => little w end).
    { intros w W. unfold number_at. destruct (m_endian e); apply low_first_little; try exact W. now apply Forall_rev. }
    assert (W : Forall (fun c => (c < 256)%N) (firstn n (skipn o data))).
    { apply Forall_forall. intros x I. rewrite Forall_forall in By. apply By. rewrite <- (firstn_skipn o data). apply in_app_iff. right.
      rewrite <- (firstn_skipn n (skipn o data)). apply in_app_iff. now left. }
    rewrite F by exact W. split.
    + intros H. exists (firstn n (skipn o data)), (firstn (4 - n) (skipn n (skipn o data))).
      split.
      * apply bytes_at_firstn. rewrite app_length, !firstn_length, !skipn_length. replace (Nat.min _ _ + Nat.min _ _) with (n + (4 - n)) by lia.
        split; [apply firstn_plus|lia].
      * rewrite !firstn_length, !skipn_length. split; [lia|]. split; [lia|]. destruct (m_mask e =? 0)%Z; lia.
    + intros (w & z & B & Lw & G & V). apply bytes_at_firstn in B. destruct B as (B & _). rewrite app_length in B.
      assert (Ew : firstn n (skipn o data) = w).
      { assert (Q : firstn n (firstn (length w + length z) (skipn o data)) = firstn n (w ++ z)) by now rewrite B.
        rewrite firstn_firstn in Q. replace (Nat.min n (length w + length z)) with n in Q by lia. rewrite Q.
        rewrite firstn_app, <- Lw, Nat.sub_diag, firstn_all. cbn [firstn]. apply app_nil_r. }
      rewrite Ew, V. destruct (m_mask e =? 0)%Z; apply Z.eqb_refl.
Qed.
Lemma is_type_ok f data e : Forall (fun c => (c < 256)%N) data -> match f with Some f => text f | None => True end -> readable e ->
  exists y, is_type f data e = Ok y /\ (y = true <-> describes f data e).
Proof.
  intros By T (O & P). unfold is_type, describes. destruct (m_pattern e) as [pat|] eqn:Ep; [destruct f as [f|]|].
  - destruct (P pat eq_refl) as (l & -> & F & Tp). destruct (glob_matches false l f [] [] F Tp T) as (y & -> & Y). exists y. split; [reflexivity|].
    rewrite Y. unfold named. split; [intros H; now exists l|]. intros (l' & El & F' & Tp' & H). rewrite El in Tp.
    destruct (glob_matches false l' f [] [] F' Tp T) as (y' & G' & Y'). rewrite <- El in G'.
    destruct (glob_matches false l f [] [] F ltac:(now rewrite El) T) as (y2 & G2 & Y2). apply Y2. rewrite G2 in G'. injection G' as ->. now apply Y'.
  - eexists. split; [reflexivity|]. destruct (m_type e); try (apply number_ok; assumption || lia).
    rewrite search_ok. unfold has_string. split; intros (j & J & B); exists j; (split; [lia|exact B]).
  - eexists. split; [reflexivity|]. destruct (m_type e); try (apply number_ok; assumption || lia).
    rewrite search_ok. unfold has_string. split; intros (j & J & B); exists j; (split; [lia|exact B]).
Qed.

(** C114: of the entries that describe the file the one with the least priority is
    found, the last such if there are several. *)
Theorem mime_found : forall cache f data, data <> [] -> Forall (fun c => (c < 256)%N) data ->
  match f with Some f => text f | None => True end -> Forall readable cache ->
  exists r, GetMimeInfo cache f data = Ok r /\
    match r with
    | None => forall e, In e cache -> ~ describes f data e
    | Some e => exists before after, cache = before ++ e :: after /\ describes f data e /\
        (forall x, In x before -> describes f data x -> (m_priority e <= m_priority x)%Z) /\
        (forall x, In x after -> describes f data x -> (m_priority e < m_priority x)%Z)
    end.
Proof.
  intros cache f data Nd By T R.
  assert (Eq : GetMimeInfo cache f data = search_cache f data None cache) by (destruct data; [contradiction|reflexivity]). rewrite Eq. clear Eq.
  set (Best := fun l r => match r with
    | None => forall e, In e l -> ~ describes f data e
    | Some e => exists before after, l = before ++ e :: after /\ describes f data e /\
        (forall x, In x before -> describes f data x -> (m_priority e <= m_priority x)%Z) /\
        (forall x, In x after -> describes f data x -> (m_priority e < m_priority x)%Z) end).
  assert (H : forall l seen found, Forall readable l -> Best seen found -> exists r, search_cache f data found l = Ok r /\ Best (seen ++ l) r).
  { induction l as [|e l IH]; intros seen found F B; cbn [search_cache].
    - exists found. rewrite app_nil_r. now split.
    - inversion F as [|? ? F1 F2]; subst. replace (m_offset e <? 0)%Z with false by (destruct F1; lia).
      change (seen ++ e :: l) with (seen ++ [e] ++ l). rewrite app_assoc.
      destruct (match found with Some f0 => (m_priority f0 <? m_priority e)%Z | None => false end) eqn:Pr.
      + apply IH; [exact F2|]. destruct found as [g|]; [|discriminate]. destruct B as (b1 & a1 & -> & D & X & Y).
        exists b1, (a1 ++ [e]). split; [now rewrite <- app_assoc|]. split; [exact D|]. split; [exact X|].
        intros x I Dx. apply in_app_iff in I. destruct I as [I|[<-|[]]]; [now apply Y|lia].
      + destruct (is_type_ok f data e By T F1) as (y & -> & Y). cbn [bind]. apply IH; [exact F2|]. destruct y.
        * exists seen, []. split; [reflexivity|]. split; [now apply Y|]. split; [|intros x []].
          intros x I Dx. destruct found as [g|]; [|now apply B in Dx]. destruct B as (b1 & a1 & -> & D & X & Z).
          apply in_app_iff in I. destruct I as [I|[<-|I]]; [apply X in I; [lia|exact Dx]|lia|apply Z in I; [lia|exact Dx]].
        * assert (Ne : ~ describes f data e) by (intros X; apply Y in X; discriminate). destruct found as [g|].
          -- destruct B as (b1 & a1 & -> & D & X & Z). exists b1, (a1 ++ [e]). split; [now rewrite <- app_assoc|]. split; [exact D|].
             split; [exact X|]. intros x I Dx. apply in_app_iff in I. destruct I as [I|[<-|[]]]; [now apply Z|contradiction].
          -- intros x I. apply in_app_iff in I. destruct I as [I|[<-|[]]]; [now apply B|exact Ne]. }
  destruct (H cache [] None R ltac:(intros e [])) as (r & G & B). exists r. split; [exact G|exact B].
Qed.
Print Assumptions mime_found.

(** ** What it does not find, and what it should not find *)
(** A mask is applied to the value wanted, not to the data: bits the mask does not
    select must be zero in the data. *)
Theorem mime_mask_refuted : forall e c data, m_pattern e = None -> m_type e = ByteData -> (0 <= m_offset e)%Z ->
  nth_error data (Z.to_nat (m_offset e)) = Some c -> Forall (fun c => (c < 256)%N) data ->
  m_mask e <> 0%Z -> Z.land (Z.of_N c) (m_mask e) <> Z.of_N c -> GetMimeInfo [e] None data = Ok None.
Proof.
  intros e c data P T O Nt By M L. unfold GetMimeInfo. destruct data as [|d0 data0] eqn:Ed; [now destruct (Z.to_nat (m_offset e))|]. rewrite <- Ed in *. clear Ed.
  cbn [search_cache]. replace (m_offset e <? 0)%Z with false by lia. unfold is_type. rewrite P, T. cbn [bind].
  destruct (same_number 1 e data) eqn:S; [|reflexivity]. exfalso. apply number_ok in S; [|lia|exact O|exact By].
  destruct S as (w & z & B & Lw & _ & V). destruct w as [|x [|? ?]]; try (cbn in Lw; lia).
  destruct B as (a & z' & -> & La). rewrite <- La, nth_error_app2, Nat.sub_diag in Nt by lia. cbn in Nt. injection Nt as ->.
  replace (m_mask e =? 0)%Z with false in V by lia. cbn [rev app little] in V.
  assert (V' : Z.of_N c = Z.land (m_value e) (m_mask e)) by (destruct (m_endian e); lia). apply L. rewrite V'.
  rewrite <- Z.land_assoc, Z.land_diag. reflexivity.
Qed.
(** A byte at the end of the data is not looked at. *)
Theorem mime_last_bytes_refuted : forall e data, m_pattern e = None -> m_type e = ByteData \/ m_type e = ShortData -> (0 <= m_offset e)%Z ->
  data <> [] -> (Z.of_nat (length data) < m_offset e + 4)%Z -> GetMimeInfo [e] None data = Ok None.
Proof.
  intros e data P T O Nd L. unfold GetMimeInfo. destruct data as [|d0 data0] eqn:Ed; [contradiction|]. rewrite <- Ed in *. clear Ed.
  cbn [search_cache]. replace (m_offset e <? 0)%Z with false by lia. unfold is_type, same_number. rewrite P.
  replace (Z.of_nat (length data) <? m_offset e + 4)%Z with true by lia. destruct T as [->| ->]; reflexivity.
Qed.
(** An entry with a pattern and nothing else is found for every file without a name. *)
Theorem mime_pattern_only_refuted : forall e data, m_magic e = [] -> m_type e = StringData -> m_offset e = 0%Z -> (0 <= m_extent e)%Z -> data <> [] ->
  GetMimeInfo [e] None data = Ok (Some e).
Proof.
  intros e data M T O X Nd. unfold GetMimeInfo. destruct data as [|d0 data0] eqn:Ed; [contradiction|]. rewrite <- Ed in *. clear Ed.
  cbn [search_cache]. rewrite O. cbn [Z.ltb Z.compare]. assert (Y : is_type None data e = Ok true).
  { unfold is_type. rewrite T. replace (Z.to_nat (m_extent e + 1)) with (S (Z.to_nat (m_extent e))) by lia. cbn [search_string]. rewrite M, O. cbn [length Z.to_nat Nat.add firstn Nat.ltb Nat.leb]. destruct (m_pattern e); reflexivity. }
  rewrite Y. reflexivity.
Qed.
(** Without data the first entry is the answer, whatever the name. *)
Theorem mime_no_data_refuted : forall e cache f, GetMimeInfo (e :: cache) f [] = Ok (Some e).
Proof. reflexivity. Qed.
Print Assumptions mime_mask_refuted.
Print Assumptions mime_last_bytes_refuted.
Print Assumptions mime_pattern_only_refuted.

(** ** C115: magic texts *)
Definition octal (c : N) : Prop := (48 <= c <= 55)%N.
Definition octal_value (ds : list N) : Z := fold_left (fun v c => 8 * v + (Z.of_N c - 48))%Z ds 0%Z.
(** the escapes of C, except that an octal number must not be followed by a digit *)
Inductive Magic : list N -> list N -> Prop :=
| magic_end : Magic [] []
| magic_plain c t w : c <> 92%N -> Magic t w -> Magic (c :: t) (c :: w)
| magic_named d v t w : In (d, v) [(98, 8); (102, 12); (110, 10); (114, 13); (116, 9); (118, 11)]%N -> Magic t w -> Magic (92%N :: d :: t) (v :: w)
| magic_itself d t w : ~ In d [97; 98; 102; 110; 114; 116; 118; 48; 49; 50; 51; 52; 53; 54; 55; 56; 57]%N -> Magic t w -> Magic (92%N :: d :: t) (d :: w)
| magic_octal ds t w : 1 <= length ds <= 3 -> Forall octal ds -> (octal_value ds < 256)%Z ->
    match t with c :: _ => ~ octal c | [] => True end -> Magic t w -> Magic (92%N :: ds ++ t) (Z.to_N (octal_value ds) :: w).

Lemma isoctal_octal c : isoctal c = true <-> octal c.
Proof. unfold isoctal, octal. lia. Qed.
Lemma octal_digits_app ds t : Forall octal ds -> match t with c :: _ => ~ octal c | [] => True end ->
  forall v, octal_digits (ds ++ t) v = (fold_left (fun v c => 8 * v + (Z.of_N c - 48))%Z ds v, t).
Proof.
  intros F T. induction F as [|c ds C _ IH]; intros v; cbn [app octal_digits fold_left].
  - destruct t as [|c t]; [reflexivity|]. cbn. destruct (isoctal c) eqn:I; [|reflexivity]. now apply isoctal_octal in I.
  - rewrite (proj2 (isoctal_octal c) C). apply IH.
Qed.
Lemma octal_value_pos ds : Forall octal ds -> (0 <= octal_value ds)%Z.
Proof.
  intros F. unfold octal_value. assert (H : forall v, (0 <= v)%Z -> (0 <= fold_left (fun v c => 8 * v + (Z.of_N c - 48))%Z ds v)%Z); [|apply H; lia].
  induction F as [|c ds C _ IH]; intros v V; cbn [fold_left]; [exact V|]. apply IH. unfold octal in C. lia.
Qed.
Lemma read_magic_ok t w : Magic t w -> forall fuel m, length t <= fuel -> read_magic fuel t m = Ok (m ++ w).
Proof.
  induction 1 as [|c t w C _ IH|d v t w I _ IH|d t w I _ IH|ds t w L F V T _ IH]; intros fuel m Hf.
  - destruct fuel; cbn; now rewrite app_nil_r.
  - destruct fuel as [|fuel]; [cbn in Hf; lia|]. cbn [read_magic]. replace (c =? 92)%N with false by lia.
    rewrite IH by (cbn in Hf; lia). now rewrite <- app_assoc.
  - destruct fuel as [|fuel]; [cbn in Hf; lia|]. cbn [read_magic]. rewrite N.eqb_refl.
    assert (E : isdigit d = false /\ escape_value d = v).
    { cbn in I. destruct I as [[= <- <-]|[[= <- <-]|[[= <- <-]|[[= <- <-]|[[= <- <-]|[[= <- <-]|[]]]]]]]; split; reflexivity. }
    destruct E as (-> & ->). rewrite IH by (cbn in Hf; lia). now rewrite <- app_assoc.
  - destruct fuel as [|fuel]; [cbn in Hf; lia|]. cbn [read_magic]. rewrite N.eqb_refl. cbn in I.
    replace (isdigit d) with false by (unfold isdigit; lia).
    assert (E : escape_value d = d).
    { unfold escape_value. replace (d =? 98)%N with false by lia. replace (d =? 102)%N with false by lia. replace (d =? 110)%N with false by lia.
      replace (d =? 114)%N with false by lia. replace (d =? 116)%N with false by lia. replace (d =? 118)%N with false by lia. now destruct (N.eqb_spec d 97). }
    rewrite E. rewrite IH by (cbn in Hf; lia). now rewrite <- app_assoc.
  - destruct fuel as [|fuel]; [cbn in Hf; lia|]. cbn [read_magic]. rewrite N.eqb_refl. destruct ds as [|d ds]; [cbn in L; lia|]. cbn [app].
    assert (D : octal d) by now inversion F. replace (isdigit d) with true by (unfold isdigit, octal in *; lia).
    change (d :: ds ++ t) with ((d :: ds) ++ t). unfold strtol8. rewrite octal_digits_app by assumption. change (fold_left _ (d :: ds) 0%Z) with (octal_value (d :: ds)).
    pose proof (octal_value_pos _ F). rewrite Z.min_l by lia.
    rewrite IH by (cbn [length] in Hf; rewrite app_length in Hf; cbn [length] in Hf; lia). rewrite <- app_assoc. cbn [app].
    rewrite Z.mod_small by lia. reflexivity.
Qed.
Theorem magic_read : forall t w, Magic t w -> magic_of_text t = Ok w.
Proof. intros t w M. unfold magic_of_text. now rewrite (read_magic_ok t w M) by lia. Qed.

(** Every sequence of bytes can be written: digits, backslashes and what is no text
    as three octal digits, the rest as it is. *)
Definition octal3 (c : N) : list N := [92; 48 + c / 64; 48 + c / 8 mod 8; 48 + c mod 8]%N.
Definition magic_text (w : list N) : list N :=
  flat_map (fun c => if (c <? 32)%N || (126 <? c)%N || isoctal c || (c =? 92)%N then octal3 c else [c]) w.
Theorem magic_round_trip : forall w, Forall (fun c => (c < 256)%N) w -> magic_of_text (magic_text w) = Ok w.
Proof.
  intros w F. apply magic_read. induction F as [|c w C _ IH]; [constructor|]. cbn [magic_text flat_map]. fold (magic_text w).
  destruct ((c <? 32)%N || (126 <? c)%N || isoctal c || (c =? 92)%N) eqn:X.
  - replace c with (Z.to_N (octal_value [48 + c / 64; 48 + c / 8 mod 8; 48 + c mod 8]%N)) at 2 by (unfold octal_value; cbn [fold_left]; lia).
    change (octal3 c ++ magic_text w) with (92%N :: [48 + c / 64; 48 + c / 8 mod 8; 48 + c mod 8]%N ++ magic_text w).
    apply magic_octal; [cbn; lia| | | |exact IH].
    + repeat constructor; unfold octal; lia.
    + unfold octal_value; cbn [fold_left]. lia.
    + destruct w as [|d w]; [exact I|]. cbn [magic_text flat_map].
      destruct ((d <? 32)%N || (126 <? d)%N || isoctal d || (d =? 92)%N) eqn:Y; cbn [octal3 app]; [unfold octal; lia|].
      intros O. apply isoctal_octal in O. rewrite O, orb_true_r in Y. discriminate.
  - cbn [app]. constructor; [lia|exact IH].
Qed.

(** What is read fits the copy of the text, and only a text that ends in a backslash
    is read beyond its end. *)
Lemma octal_digits_le p : forall v, length (snd (octal_digits p v)) <= length p.
Proof. induction p as [|c p IH]; intros v; cbn [octal_digits length]; [cbn; lia|]. destruct (isoctal c); [specialize (IH (8 * v + (Z.of_N c - 48))%Z); lia|cbn; lia]. Qed.
Lemma octal_digits_suffix p : forall v, exists ds, p = ds ++ snd (octal_digits p v).
Proof.
  induction p as [|c p IH]; intros v; cbn [octal_digits]; [now exists []|]. destruct (isoctal c); [|now exists []].
  destruct (IH (8 * v + (Z.of_N c - 48))%Z) as (ds & E). exists (c :: ds). cbn. now f_equal.
Qed.
Theorem magic_fits : forall t, match magic_of_text t with
  | Ok w => length w <= length t
  | _ => exists t', t = t' ++ [92%N]
  end.
Proof.
  assert (H : forall fuel p m, length p <= fuel -> match read_magic fuel p m with
    | Ok w => length w <= length m + length p | _ => exists t', p = t' ++ [92%N] end).
  { induction fuel as [|fuel IH]; intros p m L.
    - destruct p; [cbn; lia|cbn in L; lia].
    - destruct p as [|c p]; [cbn; lia|]. cbn [read_magic]. cbn [length] in L. destruct (N.eqb_spec c 92) as [->|Nc].
      + destruct p as [|d p]; [now exists []|]. destruct (isdigit d).
        * unfold strtol8. pose proof (octal_digits_le (d :: p) 0) as Le. destruct (octal_digits_suffix (d :: p) 0) as (ds & Ed).
          destruct (octal_digits (d :: p) 0) as (v, q). cbn [snd] in *.
          specialize (IH q (m ++ [Z.to_N (Z.min v (2 ^ 63 - 1) mod 256)]) ltac:(lia)). rewrite app_length in IH.
          cbn [length] in *. destruct (read_magic fuel q _); [lia| |]; destruct IH as (t' & ->); exists (92%N :: ds ++ t'); rewrite Ed; cbn; now rewrite <- app_assoc.
        * specialize (IH p (m ++ [escape_value d]) ltac:(cbn in L; lia)). rewrite app_length in IH. cbn [length] in *.
          destruct (read_magic fuel p _); [lia| |]; destruct IH as (t' & ->); now exists (92%N :: d :: t').
      + specialize (IH p (m ++ [c]) ltac:(lia)). rewrite app_length in IH. cbn [length] in *.
        destruct (read_magic fuel p _); [lia| |]; destruct IH as (t' & ->); now exists (c :: t'). }
  intros t. specialize (H (S (length t)) t [] ltac:(lia)). exact H.
Qed.

(** An octal number takes all digits that follow, \a is the letter a, and a backslash
    at the end leads beyond the text. *)
Theorem magic_digit_refuted : forall c d t w, (c < 256)%N -> octal d -> match t with x :: _ => ~ octal x | [] => True end -> Magic t w ->
  magic_of_text (octal3 c ++ d :: t) = Ok ((8 * c + (d - 48)) mod 256 :: w)%N.
Proof.
  intros c d t w C D T M. unfold magic_of_text, octal3. cbn [app length].
  set (fuel := S (S (S (S (S (length t)))))). assert (Hf : length t <= fuel) by (unfold fuel; lia). clearbody fuel. cbn [read_magic]. change (92 =? 92)%N with true. cbv iota.
  replace (isdigit (48 + c / 64)) with true by (unfold isdigit; lia). unfold strtol8.
  change ((48 + c / 64)%N :: (48 + (c / 8) mod 8)%N :: (48 + c mod 8)%N :: d :: t) with ([48 + c / 64; 48 + c / 8 mod 8; 48 + c mod 8; d]%N ++ t).
  rewrite octal_digits_app; [|repeat constructor; unfold octal in *; lia|exact T]. cbn [fold_left]. cbv beta iota zeta. rewrite (read_magic_ok t w M) by lia.
  cbn [app]. unfold octal in D. f_equal. f_equal. 
  replace (8 * (8 * (8 * (8 * 0 + (Z.of_N (48 + c / 64) - 48)) + (Z.of_N (48 + c / 8 mod 8) - 48)) + (Z.of_N (48 + c mod 8) - 48)) + (Z.of_N d - 48))%Z
    with (Z.of_N (8 * c + (d - 48)))%Z by lia.
  rewrite Z.min_l by lia. change 256%Z with (Z.of_N 256). rewrite <- N2Z.inj_mod. apply N2Z.id.
Qed.
Theorem magic_alarm_refuted : magic_of_text (b "\a") = Ok (b "a").
Proof. reflexivity. Qed.
Lemma read_magic_app t w r : Magic t w -> (forall c, hd_error r = Some c -> ~ octal c) -> forall fuel m, length t <= fuel ->
  exists fuel', fuel - length t <= fuel' /\ read_magic fuel (t ++ r) m = read_magic fuel' r (m ++ w).
Proof.
  intros M R. induction M as [|c t w C _ IH|d v t w I _ IH|d t w I _ IH|ds t w L F V T _ IH]; intros fuel m Hf.
  - exists fuel. split; [lia|]. cbn. now rewrite app_nil_r.
  - destruct fuel as [|fuel]; [cbn in Hf; lia|]. cbn [read_magic app length] in *. replace (c =? 92)%N with false by lia.
    destruct (IH fuel (m ++ [c]) ltac:(lia)) as (f' & L' & ->). exists f'. split; [lia|]. now rewrite <- app_assoc.
  - destruct fuel as [|fuel]; [cbn in Hf; lia|]. cbn [read_magic app length] in *. rewrite N.eqb_refl.
    assert (E : isdigit d = false /\ escape_value d = v).
    { cbn in I. destruct I as [[= <- <-]|[[= <- <-]|[[= <- <-]|[[= <- <-]|[[= <- <-]|[[= <- <-]|[]]]]]]]; split; reflexivity. }
    destruct E as (-> & ->). destruct (IH fuel (m ++ [v]) ltac:(lia)) as (f' & L' & ->). exists f'. split; [lia|]. now rewrite <- app_assoc.
  - destruct fuel as [|fuel]; [cbn in Hf; lia|]. cbn [read_magic app length] in *. rewrite N.eqb_refl. cbn in I.
    replace (isdigit d) with false by (unfold isdigit; lia).
    assert (E : escape_value d = d).
    { unfold escape_value. replace (d =? 98)%N with false by lia. replace (d =? 102)%N with false by lia. replace (d =? 110)%N with false by lia.
      replace (d =? 114)%N with false by lia. replace (d =? 116)%N with false by lia. replace (d =? 118)%N with false by lia. now destruct (N.eqb_spec d 97). }
    rewrite E. destruct (IH fuel (m ++ [d]) ltac:(lia)) as (f' & L' & ->). exists f'. split; [lia|]. now rewrite <- app_assoc.
  - destruct fuel as [|fuel]; [cbn in Hf; lia|]. destruct ds as [|d ds]; [cbn in L; lia|]. cbn [app]. rewrite <- app_assoc.
    cbn [read_magic app]. rewrite N.eqb_refl.
    assert (D : octal d) by now inversion F. replace (isdigit d) with true by (unfold isdigit, octal in *; lia).
    change (d :: ds ++ t ++ r) with ((d :: ds) ++ t ++ r). unfold strtol8.
    rewrite octal_digits_app; [|assumption|destruct t as [|x t]; [destruct r as [|y r]; [exact Logic.I|now apply R]|exact T]].
    change (fold_left _ (d :: ds) 0%Z) with (octal_value (d :: ds)).
    pose proof (octal_value_pos _ F). rewrite Z.min_l by lia. rewrite Z.mod_small by lia.
    cbn [length] in Hf. rewrite app_length in Hf. cbn [length] in Hf.
    destruct (IH fuel (m ++ [Z.to_N (octal_value (d :: ds))]) ltac:(lia)) as (f' & L' & ->). exists f'. rewrite <- app_assoc.
    split; [cbn [length]; rewrite app_length; cbn [length]; lia|reflexivity].
Qed.
Theorem magic_backslash_refuted : forall t w, Magic t w -> magic_of_text (t ++ [92%N]) = UB.
Proof.
  intros t w M. unfold magic_of_text.
  destruct (read_magic_app t w [92%N] M ltac:(intros c [= <-]; unfold octal; lia) (S (length (t ++ [92%N]))) []) as (f' & L & ->); [rewrite app_length; lia|].
  rewrite app_length in L. cbn [length] in L. destruct f' as [|f']; [lia|]. reflexivity.
Qed.
Print Assumptions magic_read.
Print Assumptions magic_round_trip.
Print Assumptions magic_fits.
Print Assumptions magic_digit_refuted.
Print Assumptions magic_backslash_refuted.

(** ** Examples *)
Definition entry_pdf := mkMime None StringData UndefinedEndian 0 1024 0 0 (b "%PDF-") 50.
Definition entry_gif := mkMime (Some (b "*.gif")) StringData UndefinedEndian 0 0 0 0 (b "GIF8") 40.
Definition entry_num := mkMime None ShortData MSBEndian 1 0 0 0x5044 [] 40.
Example mime_pdf : GetMimeInfo [entry_pdf; entry_gif; entry_num] (Some (b "a.pdf")) (b " %PDF-1.4") = Ok (Some entry_pdf).
Proof. reflexivity. Qed.
Example mime_num : GetMimeInfo [entry_pdf; entry_gif; entry_num] (Some (b "a.gif")) (b "%PDF-1.4") = Ok (Some entry_num).
Proof. reflexivity. Qed.
Example mime_readable : Forall readable [entry_pdf; entry_gif; entry_num].
Proof.
  repeat constructor; try discriminate. intros p [= <-]. exists [Star; Lit 46; Lit 103; Lit 105; Lit 102]%N.
  split; [reflexivity|]. split; [repeat constructor; cbn; lia|]. repeat constructor; reflexivity.
Qed.
Example magic_png : magic_of_text (b "\211PNG\r\n\032\n") = Ok [137; 80; 78; 71; 13; 10; 26; 10]%N.
Proof. reflexivity. Qed.
Example magic_png_text : Magic (b "\211P\\\032\n") [137; 80; 92; 26; 10]%N.
Proof.
  apply (magic_octal (b "211")); [cbn; lia|repeat (apply Forall_cons; [unfold octal; cbn; lia|]); apply Forall_nil|reflexivity|cbn; unfold octal; lia|].
  apply magic_plain; [discriminate|]. apply magic_itself; [cbn; lia|].
  apply (magic_octal (b "032")); [cbn; lia|repeat (apply Forall_cons; [unfold octal; cbn; lia|]); apply Forall_nil|reflexivity|cbn; unfold octal; lia|].
  apply magic_named; [cbn; tauto|constructor].
Qed.
Example magic_digit : magic_of_text (b "\0011") = Ok [9%N].
Proof. reflexivity. Qed.
