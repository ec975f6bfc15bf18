(** What is written in mime.xml is what is looked for (C225-C229). *)
From Coq Require Import NArith ZArith Bool String Lia ZifyBool ZifyNat ZifyN Arith List.
From Verif Require Import Base Outcome CStringSpec OptionModel OptionProps GlobModel GlobSpec GlobProps CStringModel CStringProps2 MimeModel MimeProps MimeLoadModel.
From Verif Require ScanModel XmlModel ConfigureModel ConfigureProof ConfigureProps.
Import ListNotations.

(** ** Specification: numbers as C writes them *)
Definition digit_is (base c d : N) : Prop :=
  (d < base)%N /\ (d < 10 /\ c = 48 + d \/ 10 <= d < 16 /\ (c = 87 + d \/ c = 55 + d))%N.
Definition digits (base : N) (l : list N) (v : N) : Prop :=
  l <> [] /\ exists ds, Forall2 (digit_is base) l ds /\ v = fold_left (fun a d => base * a + d)%N ds 0%N.
Inductive unsigned_text : list N -> N -> Prop :=
| unsigned_decimal c l v : c <> 48%N -> digits 10 (c :: l) v -> unsigned_text (c :: l) v
| unsigned_hexadecimal x l v : In x [120; 88]%N -> digits 16 l v -> unsigned_text (48%N :: x :: l) v
| unsigned_octal l v : digits 8 (48%N :: l) v -> unsigned_text (48%N :: l) v.
Definition blank (c : N) : Prop := c = 32%N \/ (9 <= c <= 13)%N.
Definition number_text (t : list N) (z : Z) : Prop :=
  exists sp sg l v, t = sp ++ sg ++ l /\ Forall blank sp /\ unsigned_text l v /\
    (sg = [] /\ z = Z.of_N v \/ sg = [43]%N /\ z = Z.of_N v \/ sg = [45]%N /\ z = (- Z.of_N v)%Z) /\ (- 2 ^ 63 <= z < 2 ^ 63)%Z.

(** ** Reading them *)
Lemma digitval_is base c d : (base <= 16)%N -> digit_is base c d -> XmlModel.digitval base c = Some d.
Proof.
  intros B (L & H). unfold XmlModel.digitval.
  assert (XmlModel.hexval c = Some d) as ->; [|now replace (d <? base)%N with true by lia].
  unfold XmlModel.hexval. destruct H as [(D & ->)|(D & [-> | ->])].
  - replace (ScanModel.isdigit (48 + d)) with true by (unfold ScanModel.isdigit; lia). f_equal. lia.
  - replace (ScanModel.isdigit (87 + d)) with false by (unfold ScanModel.isdigit; lia).
    replace ((97 <=? 87 + d) && (87 + d <=? 102))%N with true by lia. f_equal. lia.
  - replace (ScanModel.isdigit (55 + d)) with false by (unfold ScanModel.isdigit; lia).
    replace ((97 <=? 55 + d) && (55 + d <=? 102))%N with false by lia. replace ((65 <=? 55 + d) && (55 + d <=? 70))%N with true by lia. f_equal. lia.
Qed.
Definition stop (r : list N) : Prop := match r with c :: _ => c = 58%N | [] => True end.
Lemma number_digits base : (base <= 16)%N -> forall l ds, Forall2 (digit_is base) l ds -> forall r, stop r -> forall n,
  XmlModel.number base n (l ++ r) = (fold_left (fun a d => base * a + d)%N ds n, r).
Proof.
  intros B l ds F r R. induction F as [|c d l ds D _ IH]; intros n.
  - destruct r as [|c r]; [reflexivity|]. cbn in R. subst c. cbn [app XmlModel.number fold_left]. unfold XmlModel.digitval. reflexivity.
  - cbn [app XmlModel.number fold_left]. rewrite (digitval_is base c d B D). apply IH.
Qed.
Lemma digit_range base c d : digit_is base c d -> (48 <= c <= 57 \/ 97 <= c <= 102 \/ 65 <= c <= 70)%N.
Proof. unfold digit_is. lia. Qed.
Lemma blank_space c : blank c -> CStringModel.isspace c = true.
Proof. unfold blank, CStringModel.isspace. lia. Qed.
Lemma drop_blanks sp c r : Forall blank sp -> ~ blank c -> ScanModel.drop_spaces (sp ++ c :: r) = c :: r.
Proof.
  induction 1 as [|x sp X _ IH]; intros C.
  - cbn. replace (CStringModel.isspace c) with false; [reflexivity|]. symmetry. apply not_true_is_false. intros I. apply C. unfold CStringModel.isspace in I. unfold blank. lia.
  - cbn [app ScanModel.drop_spaces]. rewrite (blank_space x X). now apply IH.
Qed.
Lemma base_unsigned l v r : unsigned_text l v -> stop r ->
  exists base p c p', base_of (l ++ r) = (base, p) /\ p = c :: p' /\ XmlModel.digitval base c <> None /\ XmlModel.number base 0 p = (v, r).
Proof.
  intros U R. destruct U as [c l v Nz (Ne & ds & F & ->)|x l v X (Ne & ds & F & ->)|l v (Ne & ds & F & ->)].
  - inversion F as [|? d ? ds' D F']; subst. exists 10%N, (c :: l ++ r), c, (l ++ r). split.
    + cbn [app base_of]. now replace (c =? 48)%N with false by lia.
    + split; [reflexivity|]. split; [rewrite (digitval_is 10 c d) by (assumption || lia); discriminate|]. now apply (number_digits 10 ltac:(lia) (c :: l)).
  - destruct l as [|c l]; [congruence|]. inversion F as [|? d ? ds' D F']; subst. exists 16%N, (c :: l ++ r), c, (l ++ r). split.
    + cbn [app base_of N.eqb Pos.eqb]. rewrite (digitval_is 16 c d) by (assumption || lia).
      replace ((x =? 120)%N || (x =? 88)%N) with true; [reflexivity|]. cbn in X. lia.
    + split; [reflexivity|]. split; [rewrite (digitval_is 16 c d) by (assumption || lia); discriminate|]. now apply (number_digits 16 ltac:(lia) (c :: l)).
  - exists 8%N, (48%N :: l ++ r), 48%N, (l ++ r). split.
    + cbn [app base_of N.eqb Pos.eqb]. destruct l as [|x l].
      * cbn [app]. destruct r as [|y [|z r]]; [reflexivity|reflexivity|]. cbn in R. subst y. reflexivity.
      * inversion F as [|? d ? ds' D F']; subst. inversion F' as [|? d' ? ds2 D' F2]; subst. cbn [app].
        pose proof (digit_range _ _ _ D'). replace ((x =? 120)%N || (x =? 88)%N) with false by lia. now destruct (l ++ r).
    + split; [reflexivity|]. inversion F as [|? d ? ds' D F']; subst. split; [rewrite (digitval_is 8 48 d) by (assumption || lia); discriminate|].
      now apply (number_digits 8 ltac:(lia) (48%N :: l)).
Qed.
Lemma unsigned_head l v : unsigned_text l v -> exists c l', l = c :: l' /\ (48 <= c <= 57)%N.
Proof.
  intros [c l' v' _ (_ & ds & F & _)|x l' v' _ _|l' v' _]; eauto; [|exists 48%N; eauto with zarith|exists 48%N].
  - inversion F as [|? d ? ds' D F']; subst. exists c, l'. split; [reflexivity|]. unfold digit_is in D. lia.
  - eexists. split; [reflexivity|lia].
  - eexists. split; [reflexivity|lia].
Qed.
Theorem number_read : forall t z r, number_text t z -> stop r -> strtol0 (t ++ r) = (z, r).
Proof.
  intros t z r (sp & sg & l & v & -> & Sp & U & S & Rg) R.
  destruct (unsigned_head l v U) as (c & l' & E & C). destruct (base_unsigned l v r U R) as (base & p & c' & p' & Eb & Ep & D & Nm).
  unfold strtol0. rewrite <- !app_assoc. destruct S as [(-> & ->)|[(-> & ->)|(-> & ->)]]; cbn [app].
  - rewrite E in *. cbn [app] in *. rewrite drop_blanks by (assumption || (unfold blank; lia)). cbv zeta.
    replace (c =? 45)%N with false by lia. replace (c =? 43)%N with false by lia. rewrite Eb, Ep. rewrite Ep in Nm. destruct (XmlModel.digitval base c'); [|congruence].
    rewrite Nm. f_equal. lia.
  - rewrite drop_blanks by (assumption || (unfold blank; lia)). cbv zeta. cbn [N.eqb Pos.eqb]. rewrite Eb, Ep. rewrite Ep in Nm. destruct (XmlModel.digitval base c'); [|congruence].
    rewrite Nm. f_equal. lia.
  - rewrite drop_blanks by (assumption || (unfold blank; lia)). cbv zeta. cbn [N.eqb Pos.eqb]. rewrite Eb, Ep. rewrite Ep in Nm. destruct (XmlModel.digitval base c'); [|congruence].
    rewrite Nm. f_equal. lia.
Qed.
Print Assumptions number_read.

(** ** Specification: the entry an element stands for *)
Definition like (s t : list N) : Prop := text s /\ map ConfigureModel.lower s = t.
Definition data_names : list (list N * data_type) := [(b "string", StringData); (b "byte", ByteData); (b "short", ShortData); (b "long", LongData); (b "undefined", StringData)].
Definition endian_names : list (list N * endian) := [(b "lsb", LSBEndian); (b "msb", MSBEndian); (b "undefined", UndefinedEndian)].
Definition named_value {A} (names : list (list N * A)) (default : A) (t : option (list N)) (v : A) : Prop :=
  match t with None => v = default | Some t => exists n, In (n, v) names /\ like t n end.
Definition number_value (t : option (list N)) (z : Z) : Prop := match t with None => z = 0%Z | Some t => number_text t z end.
(** one offset, or an offset and how many further places are tried *)
Definition offset_value (t : option (list N)) (o x : Z) : Prop :=
  match t with
  | None => o = 0%Z /\ x = 0%Z
  | Some t => number_text t o /\ x = 0%Z \/ exists t1 t2, t = t1 ++ 58%N :: t2 /\ number_text t1 o /\ number_text t2 x
  end.
(** the text of a magic: entities are replaced once more *)
Definition token_of (t token : list N) : Prop :=
  exists b1 b2 b3 t1 t2, replaced (b "&lt;") (b "<") b1 t t1 /\ replaced (b "&amp;") (b "&") b2 t1 t2 /\ replaced (b "&quot;") [34%N] b3 t2 token.
Definition magic_value (ty : data_type) (t : option (list N)) (w : list N) (v : Z) : Prop :=
  match t with
  | None => w = [] /\ v = 0%Z
  | Some t => exists token, token_of t token /\
      match ty with StringData => Magic token w | _ => number_text token v /\ w = token end
  end.
Record element_is (file : list N) (a : attributes) (e : mime_entry) : Prop := {
  is_path : e_path e = file; is_type_ : e_type e = a_type a; is_description : e_description e = a_description a;
  is_stealth : e_stealth e = true <-> exists s, a_stealth a = Some s /\ In (map ConfigureModel.lower s) [b "true"; b "on"; b "yes"; b "1"];
  is_pattern : m_pattern (e_mime e) = a_pattern a;
  is_data : named_value data_names StringData (a_data_type a) (m_type (e_mime e));
  is_endian : named_value endian_names UndefinedEndian (a_endian a) (m_endian (e_mime e));
  is_offset : offset_value (a_offset a) (m_offset (e_mime e)) (m_extent (e_mime e));
  is_mask : number_value (a_mask a) (m_mask (e_mime e));
  is_priority : number_value (a_priority a) (m_priority (e_mime e));
  is_magic : magic_value (m_type (e_mime e)) (a_magic a) (m_magic (e_mime e)) (m_value (e_mime e)) }.
(** there is something to be read *)
Definition element_ok (a : attributes) : Prop :=
  (forall s, a_stealth a = Some s -> text s) /\ (forall t, a_magic a = Some t -> text t) /\
  (exists ty, named_value data_names StringData (a_data_type a) ty /\ exists w v, magic_value ty (a_magic a) w v) /\
  (exists d, named_value endian_names UndefinedEndian (a_endian a) d) /\
  (exists o x, offset_value (a_offset a) o x) /\ (exists z, number_value (a_mask a) z) /\ (exists z, number_value (a_priority a) z).

Lemma data_read t v : named_value data_names StringData t v ->
  exists z, (match t with None => Ok 0%Z | Some t => ParseWizardOption WizardDataTypeOptions true t end) = Ok z /\ data_type_of z = v /\ ((z =? 1)%Z = true -> v = StringData).
Proof.
  destruct t as [t|]; cbn [named_value].
  - intros (n & I & T & L). assert (exists z, In z (map snd (GetOptionInfo WizardDataTypeOptions)) /\ map lower (WizardOptionToMnemonic WizardDataTypeOptions z) = n /\ data_type_of z = v) as (z & Iz & Ez & Dz).
    { unfold data_names in I. cbn in I. destruct I as [[= <- <-]|[[= <- <-]|[[= <- <-]|[[= <- <-]|[[= <- <-]|[]]]]]].
      - exists 1%Z. cbn; tauto. - exists 2%Z. cbn; tauto. - exists 3%Z. cbn; tauto. - exists 4%Z. cbn; tauto. - exists 0%Z. cbn; tauto. }
    exists z. split; [|split; [exact Dz|]].
    + apply option_round_trip_partial; [discriminate|exact Iz|]. split; [exact T|]. rewrite Ez. exact L.
    + intros Q. apply Z.eqb_eq in Q. subst z. symmetry. exact Dz.
  - intros ->. exists 0%Z. repeat split. 
Qed.
Lemma endian_read a v : named_value endian_names UndefinedEndian (a_endian a) v -> endian_of a = Ok v.
Proof.
  unfold endian_of. destruct (a_endian a) as [t|]; cbn [named_value].
  - intros (n & I & T & L). assert (exists z, In z (map snd (GetOptionInfo WizardEndianOptions)) /\ map lower (WizardOptionToMnemonic WizardEndianOptions z) = n /\
      (if (z =? 0)%Z then UndefinedEndian else if (z =? 1)%Z then LSBEndian else MSBEndian) = v) as (z & Iz & Ez & <-).
    { unfold endian_names in I. cbn in I. destruct I as [[= <- <-]|[[= <- <-]|[[= <- <-]|[]]]].
      - exists 1%Z. cbn; tauto. - exists 2%Z. cbn; tauto. - exists 0%Z. cbn; tauto. }
    rewrite (option_round_trip_partial WizardEndianOptions z t true); [reflexivity|discriminate|exact Iz|]. split; [exact T|]. rewrite Ez. exact L.
  - now intros ->.
Qed.
Lemma substitute_replaced search replace s bb out : text search -> search <> [] -> replaced search replace bb s out -> substitute search replace s = out.
Proof.
  intros T Ne R. unfold substitute. destruct (substitute_string_partial s search replace T Ne) as (b' & o & R' & E). rewrite E by apply Nat.lt_succ_diag_r.
  symmetry. now destruct (replaced_unique _ _ Ne _ _ _ R _ _ R').
Qed.
Lemma token_read t token : token_of t token -> magic_token t = token.
Proof.
  intros (b1 & b2 & b3 & t1 & t2 & R1 & R2 & R3). unfold magic_token.
  rewrite (substitute_replaced (b "&lt;") _ _ _ _ ltac:(repeat constructor) ltac:(discriminate) R1).
  rewrite (substitute_replaced (b "&amp;") _ _ _ _ ltac:(repeat constructor) ltac:(discriminate) R2).
  now rewrite (substitute_replaced (b "&quot;") _ _ _ _ ltac:(repeat constructor) ltac:(discriminate) R3).
Qed.
Lemma number_plain t z : number_text t z -> Magic t t /\ Forall (fun c => c <> 0%N) t.
Proof.
  intros (sp & sg & l & v & -> & Sp & U & S & _).
  assert (H : Forall (fun c => c <> 92 /\ c <> 0)%N (sp ++ sg ++ l)).
  { apply Forall_app. split; [eapply Forall_impl; [|exact Sp]; unfold blank; intros; lia|]. apply Forall_app. split.
    - destruct S as [(-> & _)|[(-> & _)|(-> & _)]]; repeat constructor; lia.
    - assert (G : forall base l ds, Forall2 (digit_is base) l ds -> Forall (fun c => c <> 92 /\ c <> 0)%N l).
      { intros base l0 ds F. induction F as [|c d l0 ds D _ IH]; constructor; [|exact IH]. apply digit_range in D. lia. }
      destruct U as [c l v _ (_ & ds & F & _)|x l v X (_ & ds & F & _)|l v (_ & ds & F & _)]; [now apply G in F| |now apply G in F].
      constructor; [lia|]. constructor; [cbn in X; lia|now apply G in F]. }
  split.
  - induction H as [|c t (C & _) _ IH]; constructor; assumption.
  - eapply Forall_impl; [|exact H]. intros c Q. apply Q.
Qed.
Lemma to_nul_text t : Forall (fun c => c <> 0%N) t -> ConfigureModel.to_nul t = t.
Proof. induction 1 as [|c t C _ IH]; [reflexivity|]. cbn. now replace (c =? 0)%N with false by lia; rewrite IH. Qed.
Lemma number_attribute t z : number_value t z -> number_of t = z.
Proof.
  destruct t as [t|]; cbn [number_value number_of]; [|now intros ->]. intros H. pose proof (number_read t z [] H I) as R. rewrite app_nil_r in R. now rewrite R.
Qed.
Lemma offset_attribute a o x : offset_value (a_offset a) o x -> offset_of a = (o, x).
Proof.
  unfold offset_of. destruct (a_offset a) as [t|]; cbn [offset_value]; [|now intros (-> & ->)]. intros [(H & ->)|(t1 & t2 & -> & H1 & H2)].
  - pose proof (number_read t o [] H I) as R. rewrite app_nil_r in R. now rewrite R.
  - rewrite (number_read t1 o (58%N :: t2) H1 eq_refl). pose proof (number_read t2 x [] H2 I) as R. rewrite app_nil_r in R. now rewrite R.
Qed.
(** ** C225: an element is read as the entry it stands for *)
Theorem element_read : forall file a, element_ok a -> exists e, LoadMimeElement file a = Ok e /\ element_is file a e.
Proof.
  intros file a (St & Tm & (ty & Ty & w & v & Mv) & (d & D) & (o & x & O) & (mk & Mk) & (pr & Pr)).
  unfold LoadMimeElement, data_type_number. destruct (data_read _ _ Ty) as (z & -> & Dz & Z1). cbn [bind].
  rewrite (endian_read a d D). cbn [bind]. rewrite (offset_attribute a o x O). cbn [fst snd].
  assert (M : exists w v, magic_of (negb (z =? 1)%Z) a = Ok (w, v) /\ magic_value ty (a_magic a) w v).
  { unfold magic_of. destruct (a_magic a) as [t|]; [|now exists [], 0%Z]. cbn [magic_value] in *. destruct Mv as (token & Tk & Mv). rewrite (token_read t token Tk).
    destruct ty eqn:Et.
    - rewrite (magic_read token w Mv). cbn [bind]. eexists w, _. split; [reflexivity|]. now exists token.
    - destruct Mv as (Nt & ->). destruct (number_plain token v Nt) as (Mg & Nz). rewrite (magic_read token token Mg). cbn [bind]. exists token, v.
      split; [|now exists token]. do 2 f_equal. destruct (z =? 1)%Z; [now discriminate Z1|]. cbn [negb]. rewrite skipn_all, app_nil_r, to_nul_text by exact Nz.
      pose proof (number_read token v [] Nt I) as R. rewrite app_nil_r in R. now rewrite R.
    - destruct Mv as (Nt & ->). destruct (number_plain token v Nt) as (Mg & Nz). rewrite (magic_read token token Mg). cbn [bind]. exists token, v.
      split; [|now exists token]. do 2 f_equal. destruct (z =? 1)%Z; [now discriminate Z1|]. cbn [negb]. rewrite skipn_all, app_nil_r, to_nul_text by exact Nz.
      pose proof (number_read token v [] Nt I) as R. rewrite app_nil_r in R. now rewrite R.
    - destruct Mv as (Nt & ->). destruct (number_plain token v Nt) as (Mg & Nz). rewrite (magic_read token token Mg). cbn [bind]. exists token, v.
      split; [|now exists token]. do 2 f_equal. destruct (z =? 1)%Z; [now discriminate Z1|]. cbn [negb]. rewrite skipn_all, app_nil_r, to_nul_text by exact Nz.
      pose proof (number_read token v [] Nt I) as R. rewrite app_nil_r in R. now rewrite R. }
  destruct M as (w' & v' & -> & Mv'). cbn [bind fst snd].
  eexists. split; [reflexivity|]. rewrite Dz, (number_attribute _ _ Mk), (number_attribute _ _ Pr).
  constructor; cbn [e_path e_type e_description e_stealth e_mime m_pattern m_type m_endian m_offset m_extent m_mask m_priority m_magic m_value]; try reflexivity; try assumption.
  destruct (a_stealth a) as [s|] eqn:Es.
  - rewrite ConfigureProps.is_true.
    + unfold ConfigureProps.truth, ConfigureProof.fold. split; [intros H; exists s; split; [reflexivity|exact H]|intros (s' & [= <-] & H); exact H].
    + specialize (St s eq_refl). eapply Forall_impl; [|exact St]. cbn. intros; lia.
  - split; [discriminate|]. intros (s & [=] & _).
Qed.
Print Assumptions element_read.

(** ** C226: looking up among the entries that were read *)
(** the entry of least priority that describes the file, the last of them *)
Definition best (f : option (list N)) (data : list N) (l : list mime_entry) (r : option mime_entry) : Prop :=
  match r with
  | None => forall e, In e l -> ~ describes f data (e_mime e)
  | Some e => exists before after, l = before ++ e :: after /\ describes f data (e_mime e) /\
      (forall x, In x before -> describes f data (e_mime x) -> (m_priority (e_mime e) <= m_priority (e_mime x))%Z) /\
      (forall x, In x after -> describes f data (e_mime x) -> (m_priority (e_mime e) < m_priority (e_mime x))%Z)
  end.
Definition usable (e : mime_entry) : Prop := readable (e_mime e).
Lemma search_entries_ok f data : Forall (fun c => (c < 256)%N) data -> match f with Some f => text f | None => True end ->
  forall l tail seen found, Forall usable l -> best f data seen found ->
  exists r, search_entries f data found (l ++ tail) = search_entries f data r tail /\ best f data (seen ++ l) r.
Proof.
  intros By T. induction l as [|e l IH]; intros tail seen found F B; cbn [search_entries app].
  - exists found. rewrite app_nil_r. now split.
  - inversion F as [|? ? F1 F2]; subst. replace (m_offset (e_mime e) <? 0)%Z with false by (destruct F1; lia).
    change (seen ++ e :: l) with (seen ++ [e] ++ l). rewrite app_assoc.
    destruct (match found with Some f0 => (m_priority (e_mime f0) <? m_priority (e_mime e))%Z | None => false end) eqn:Pr.
    + apply IH; [exact F2|]. destruct found as [g|]; [|discriminate]. destruct B as (b1 & a1 & -> & D & X & Y).
      exists b1, (a1 ++ [e]). split; [now rewrite <- app_assoc|]. split; [exact D|]. split; [exact X|].
      intros x I Dx. apply in_app_iff in I. destruct I as [I|[<-|[]]]; [now apply Y|lia].
    + destruct (is_type_ok f data (e_mime e) By T F1) as (y & -> & Y). cbn [bind]. apply IH; [exact F2|]. destruct y.
      * exists seen, []. split; [reflexivity|]. split; [now apply Y|]. split; [|intros x []].
        intros x I Dx. destruct found as [g|]; [|now apply B in Dx]. destruct B as (b1 & a1 & -> & D & X & Z).
        apply in_app_iff in I. destruct I as [I|[<-|I]]; [apply X in I; [lia|exact Dx]|lia|apply Z in I; [lia|exact Dx]].
      * assert (Ne : ~ describes f data (e_mime e)) by (intros X; apply Y in X; discriminate). destruct found as [g|].
        -- destruct B as (b1 & a1 & -> & D & X & Z). exists b1, (a1 ++ [e]). split; [now rewrite <- app_assoc|]. split; [exact D|].
           split; [exact X|]. intros x I Dx. apply in_app_iff in I. destruct I as [I|[<-|[]]]; [now apply Z|contradiction].
        -- intros x I. apply in_app_iff in I. destruct I as [I|[<-|[]]]; [now apply B|exact Ne].
Qed.
Lemma find_best l f data : data <> [] -> Forall (fun c => (c < 256)%N) data -> match f with Some f => text f | None => True end -> Forall usable l ->
  exists r, FindMimeInfo l f data = Ok r /\ best f data l r.
Proof.
  intros Nd By T F. unfold FindMimeInfo. destruct data as [|d0 data0] eqn:Ed; [contradiction|]. rewrite <- Ed in *. clear Ed.
  destruct (search_entries_ok f data By T l [] [] None F ltac:(intros e [])) as (r & E & B). rewrite app_nil_r in E. exists r. split; [exact E|exact B].
Qed.
Lemma load_elements l : Forall (fun p => element_ok (snd p)) l -> forall cache,
  exists es, LoadMimeElements l cache = Ok (cache ++ es) /\ Forall2 (fun p e => element_is (fst p) (snd p) e) l es.
Proof.
  induction 1 as [|[f a] l O _ IH]; intros cache; cbn [LoadMimeElements].
  - exists []. rewrite app_nil_r. split; [reflexivity|constructor].
  - destruct (element_read f a O) as (e & -> & Is). cbn [bind]. destruct (IH (cache ++ [e])) as (es & -> & F). exists (e :: es).
    rewrite <- app_assoc. split; [reflexivity|]. now constructor.
Qed.
(** every element is kept, in order, and the entry found is the best of them *)
Theorem mime_configured : forall l, Forall (fun p => element_ok (snd p)) l ->
  exists es, LoadMimeElements l [] = Ok es /\ Forall2 (fun p e => element_is (fst p) (snd p) e) l es /\
    (Forall usable es -> forall f data, data <> [] -> Forall (fun c => (c < 256)%N) data -> match f with Some f => text f | None => True end ->
      exists r, FindMimeInfo es f data = Ok r /\ best f data es r).
Proof.
  intros l O. destruct (load_elements l O []) as (es & E & F). exists es. split; [exact E|]. split; [exact F|].
  intros U f data Nd By T. now apply find_best.
Qed.
(** the same entry as GetMimeInfo of MimeModel.v finds *)
Theorem find_same : forall l f data, (exists r, FindMimeInfo l f data = Ok r /\ GetMimeInfo (map e_mime l) f data = Ok (option_map e_mime r)) \/
  FindMimeInfo l f data = Fatal /\ GetMimeInfo (map e_mime l) f data = Fatal \/ FindMimeInfo l f data = UB /\ GetMimeInfo (map e_mime l) f data = UB.
Proof.
  intros l f data. unfold FindMimeInfo, GetMimeInfo. destruct data as [|d0 data0] eqn:Ed.
  - left. destruct l as [|e l]; eexists; split; reflexivity.
  - rewrite <- Ed. clear Ed. change (@None mime) with (option_map e_mime None). generalize (@None mime_entry) as found.
    induction l as [|e l IH]; intros found; cbn [map search_entries search_cache].
    + left. exists found. now split.
    + destruct (m_offset (e_mime e) <? 0)%Z; [right; left; now split|]. destruct found as [g|]; cbn [option_map].
      * destruct (m_priority (e_mime g) <? m_priority (e_mime e))%Z; [apply (IH (Some g))|].
        destruct (is_type f data (e_mime e)) as [y| |]; cbn [bind]; [|right; left; now split|right; right; now split].
        destruct y; [apply (IH (Some e))|apply (IH (Some g))].
      * destruct (is_type f data (e_mime e)) as [y| |]; cbn [bind]; [|right; left; now split|right; right; now split].
        destruct y; [apply (IH (Some e))|apply (IH None)].
Qed.
Print Assumptions mime_configured.
Print Assumptions find_same.

(** ** C227: what is written and not looked for *)
(** REFUTED: one element with a negative offset ends the program at every lookup, whatever the file *)
Theorem offset_negative_refuted : forall file a t o, element_ok a -> a_offset a = Some t -> number_text t o -> (o < 0)%Z ->
  exists e, LoadMimeElement file a = Ok e /\
    forall l1 l2 f data, Forall usable l1 -> data <> [] -> Forall (fun c => (c < 256)%N) data -> match f with Some f => text f | None => True end ->
      FindMimeInfo (l1 ++ e :: l2) f data = Fatal.
Proof.
  intros file a t o O At Nt Ng. destruct (element_read file a O) as (e & E & Is). exists e. split; [exact E|]. intros l1 l2 f data U Nd By T.
  assert (Ho : m_offset (e_mime e) = o).
  { unfold LoadMimeElement in E. destruct (data_type_number a) as [d| |]; try discriminate. cbn [bind] in E. destruct (endian_of a) as [d'| |]; try discriminate. cbn [bind] in E.
    destruct (magic_of (negb (d =? 1)%Z) a) as [m| |]; try discriminate. cbn [bind] in E.
    assert (fst (offset_of a) = o) as Q.
    { unfold offset_of. rewrite At. pose proof (number_read t o [] Nt I) as R. rewrite app_nil_r in R. now rewrite R. }
    injection E as <-. exact Q. }
  unfold FindMimeInfo. destruct data as [|d0 data0] eqn:Ed; [contradiction|]. rewrite <- Ed in *. clear Ed.
  destruct (search_entries_ok f data By T l1 (e :: l2) [] None U ltac:(intros x [])) as (r & -> & _). cbn [search_entries].
  now replace (m_offset (e_mime e) <? 0)%Z with true by lia.
Qed.
(** REFUTED: a digit that is written as an escape is not the number, since the text behind it is still there *)
Theorem escaped_number_refuted : forall c a, (48 <= c <= 57)%N -> a_magic a = Some (octal3 c) ->
  exists v, magic_of true a = Ok ([c], v) /\ v <> (Z.of_N c - 48)%Z.
Proof.
  intros c a C M. unfold magic_of. rewrite M.
  assert (In c [48; 49; 50; 51; 52; 53; 54; 55; 56; 57]%N) as I by (cbn; lia). cbn [In] in I.
  repeat (destruct I as [<-|I]; [eexists; split; [reflexivity|vm_compute; discriminate]|]). destruct I.
Qed.
(** REFUTED: an unknown byte order is big-endian, an unknown type of data a string *)
Theorem unknown_names_refuted : forall a,
  (a_endian a = Some (b "little") -> endian_of a = Ok MSBEndian) /\
  (a_data_type a = Some (b "integer") -> exists d, data_type_number a = Ok d /\ data_type_of d = StringData).
Proof.
  intros a. split; intros E.
  - unfold endian_of. rewrite E. reflexivity.
  - unfold data_type_number. rewrite E. exists (-1)%Z. split; reflexivity.
Qed.
(** REFUTED: the text &lt; cannot be written as it is, although the XML parser has already replaced references *)
Theorem entity_refuted : forall t token, token_of t token -> magic_token (b "&lt;" ++ t) = [60%N] ++ token /\ [60%N] ++ token <> b "&lt;" ++ t.
Proof.
  intros t token (b1 & b2 & b3 & t1 & t2 & R1 & R2 & R3). split; [|discriminate]. apply token_read.
  exists true, b2, b3, (b "<" ++ t1), (b "<" ++ t2). split; [eapply replaced_hit; exact R1|]. split; (eapply replaced_skip; [intros u [=]|eassumption]).
Qed.
Print Assumptions offset_negative_refuted.
Print Assumptions escaped_number_refuted.
Print Assumptions unknown_names_refuted.
Print Assumptions entity_refuted.

(** ** C228: WizardToMime *)
Lemma lower_text s : text s -> text (map ConfigureModel.lower s).
Proof.
  intros T. apply Forall_map. eapply Forall_impl; [|exact T]. intros c C. cbv beta in *. unfold ConfigureModel.lower. destruct ((65 <=? c)%N && (c <=? 90)%N) eqn:X; lia.
Qed.
Theorem wizard_type : forall E cache wizard, Forall usable cache -> text wizard -> length wizard + 9 <= E ->
  exists r, best (Some (b "file." ++ map lower wizard)) [32%N] cache r /\
    WizardToMime E cache wizard = Ok (match r with Some e => match e_type e with Some t => t | None => [] end | None => b "image/x-" ++ map lower wizard end).
Proof.
  intros E cache wizard U T L. unfold WizardToMime.
  assert (A : firstn (E - 1) (b "file." ++ wizard) = b "file." ++ wizard) by (apply firstn_all2; rewrite app_length; cbn [length b map list_ascii_of_string]; cbn; lia).
  assert (B : firstn (E - 1) (b "image/x-" ++ wizard) = b "image/x-" ++ wizard) by (apply firstn_all2; rewrite app_length; cbn; lia).
  rewrite A, B. unfold LocaleLower. rewrite map_app. change (map ConfigureModel.lower (b "file.")) with (b "file.").
  destruct (find_best cache (Some (b "file." ++ map ConfigureModel.lower wizard)) [32%N]) as (r & Er & Br);
    [discriminate|repeat constructor|apply Forall_app; split; [repeat constructor|now apply lower_text]|exact U|].
  exists r. split; [exact Br|]. change (b " ") with [32%N]. rewrite Er. cbn [bind]. destruct r; reflexivity.
Qed.
(** REFUTED: an entry for files of any content is the answer for every type that is not known by name *)
Theorem wizard_any_refuted : forall E wizard e t, m_pattern (e_mime e) = None -> m_type (e_mime e) = StringData -> m_offset (e_mime e) = 0%Z -> (0 <= m_extent (e_mime e))%Z ->
  m_magic (e_mime e) = [] \/ m_magic (e_mime e) = [32%N] -> e_type e = Some t -> WizardToMime E [e] wizard = Ok t.
Proof.
  intros E wizard e t P Ty O X M Et. unfold WizardToMime, FindMimeInfo. change (b " ") with [32%N]. cbn [search_entries]. rewrite O. cbn [Z.ltb Z.compare].
  assert (forall f, is_type f [32%N] (e_mime e) = Ok true) as ->.
  { intros f. unfold is_type. rewrite P, Ty. replace (Z.to_nat (m_extent (e_mime e) + 1)) with (S (Z.to_nat (m_extent (e_mime e)))) by lia.
    cbn [search_string]. rewrite O. cbn [Z.to_nat Nat.add]. destruct M as [-> | ->]; reflexivity. }
  cbn [bind]. now rewrite Et.
Qed.
(** REFUTED: a pattern with a capital letter describes no type at all *)
Lemma matches_literal l s c : matches false l s -> In (Lit c) l -> In c s.
Proof.
  induction 1 as [|x l d s M _ IH|l s t _ IH]; intros I; [destruct I| |].
  - destruct I as [->|I]; [left; exact M|right; now apply IH].
  - destruct I as [[=]|I]. apply in_app_iff. right. now apply IH.
Qed.
Theorem wizard_capital_refuted : forall E wizard e l c, text wizard -> length wizard + 9 <= E -> m_pattern (e_mime e) = Some (glob_text l) -> Forall piece_ok l -> text (glob_text l) ->
  (0 <= m_offset (e_mime e))%Z -> In (Lit c) l -> (65 <= c <= 90)%N -> WizardToMime E [e] wizard = Ok (b "image/x-" ++ map lower wizard).
Proof.
  intros E wizard e l c T L P Ok Tp O I C. assert (U : Forall usable [e]).
  { constructor; [|constructor]. split; [exact O|]. intros p Q. rewrite P in Q. injection Q as <-. now exists l. }
  destruct (wizard_type E [e] wizard U T L) as (r & B & ->). destruct r as [x|]; [|reflexivity]. exfalso. cbn [best] in B.
  destruct B as (b1 & a1 & Eq & D & _). assert (x = e) as ->.
  { destruct b1 as [|y b1]; cbn [app] in Eq; [now injection Eq as ->|]. injection Eq as _ Eq. now destruct b1. }
  set (name := b "file." ++ map lower wizard) in *. assert (Tn : text name).
  { apply Forall_app. split; [repeat constructor|exact (lower_text wizard T)]. }
  unfold describes in D. rewrite P in D. unfold named in D.
  assert (G : l = [] \/ matches false l name).
  { destruct D as (l' & El & F' & Tp' & H). destruct (glob_matches false l' name [] [] F' ltac:(now rewrite <- El) Tn) as (y' & G' & Y'). rewrite <- El in G'.
    destruct (glob_matches false l name [] [] Ok Tp Tn) as (y2 & G2 & Y2). apply Y2. rewrite G2 in G'. injection G' as ->. now apply Y'. }
  destruct G as [->|G]; [destruct I|]. pose proof (matches_literal l name c G I) as J. unfold name in J. apply in_app_iff in J. destruct J as [J|J].
  - cbn in J. lia.
  - apply in_map_iff in J. destruct J as (d & Ed & _). unfold lower in Ed. destruct ((65 <=? d)%N && (d <=? 90)%N) eqn:X; lia.
Qed.
Print Assumptions wizard_type.
Print Assumptions wizard_any_refuted.
Print Assumptions wizard_capital_refuted.

(** ** Examples *)
Definition exe : attributes := {| a_data_type := Some (b "Short"); a_description := Some (b "DOS"); a_endian := Some (b "lsb"); a_magic := Some (b "0x5A4D");
  a_mask := None; a_offset := Some (b "0"); a_pattern := None; a_priority := Some (b "50"); a_stealth := Some (b "False"); a_type := Some (b "application/x-dos") |}.
Definition pdf : attributes := {| a_data_type := Some (b "string"); a_description := None; a_endian := None; a_magic := Some (b "%PDF-");
  a_mask := None; a_offset := Some (b "0:1024"); a_pattern := Some (b "*.pdf"); a_priority := Some (b "-010"); a_stealth := None; a_type := Some (b "application/pdf") |}.
Example number_examples : number_text (b " -010") (-8) /\ number_text (b "+0x5a4D") 23117 /\ number_text (b "120") 120 /\ number_text (b "0") 0.
Proof.
  split; [|split; [|split]].
  - exists (b " "), (b "-"), (b "010"), 8%N. split; [reflexivity|]. split; [repeat constructor|]. split; [|split; [right; right; now split|lia]].
    apply unsigned_octal. split; [discriminate|]. exists [0; 1; 0]%N. split; [|reflexivity]. repeat constructor; cbn; lia.
  - exists [], (b "+"), (b "0x5a4D"), 23117%N. split; [reflexivity|]. split; [constructor|]. split; [|split; [right; left; now split|lia]].
    apply (unsigned_hexadecimal 120 (b "5a4D")); [now left|]. split; [discriminate|]. exists [5; 10; 4; 13]%N. split; [|reflexivity]. repeat constructor; cbn; lia.
  - exists [], [], (b "120"), 120%N. split; [reflexivity|]. split; [constructor|]. split; [|split; [left; now split|lia]].
    apply unsigned_decimal; [discriminate|]. split; [discriminate|]. exists [1; 2; 0]%N. split; [|reflexivity]. repeat constructor; cbn; lia.
  - exists [], [], (b "0"), 0%N. split; [reflexivity|]. split; [constructor|]. split; [|split; [left; now split|lia]].
    apply unsigned_octal. split; [discriminate|]. exists [0]%N. split; [|reflexivity]. repeat constructor; cbn; lia.
Qed.
Lemma replaced_none search replace s : (forall u v, s <> u ++ search ++ v) -> replaced search replace false s s.
Proof.
  induction s as [|c s IH]; intros H; constructor.
  - intros t E. apply (H [] t). exact E.
  - apply IH. intros u v E. apply (H (c :: u) v). now rewrite E.
Qed.
Lemma token_plain t : ~ In 38%N t -> token_of t t.
Proof.
  intros H. exists false, false, false, t, t. repeat split; apply replaced_none; intros u v ->; apply H; apply in_app_iff; right; apply in_app_iff; left; now left.
Qed.
Example exe_ok : element_ok exe.
Proof.
  split; [intros s [= <-]; repeat constructor|]. split; [intros s [= <-]; repeat constructor|]. split.
  - exists ShortData. split; [exists (b "short"); split; [cbn; tauto|]; split; [repeat constructor|reflexivity]|].
    exists (b "0x5A4D"), 23117%Z. exists (b "0x5A4D"). split; [apply token_plain; cbn; lia|]. split; [|reflexivity].
    exists [], [], (b "0x5A4D"), 23117%N. split; [reflexivity|]. split; [constructor|]. split; [|split; [left; now split|lia]].
    apply (unsigned_hexadecimal 120 (b "5A4D")); [now left|]. split; [discriminate|]. exists [5; 10; 4; 13]%N. split; [|reflexivity]. repeat constructor; cbn; lia.
  - split; [exists LSBEndian, (b "lsb"); split; [cbn; tauto|]; split; [repeat constructor|reflexivity]|].
    split; [exists 0%Z, 0%Z; left; split; [apply number_examples|reflexivity]|]. split; [now exists 0%Z|].
    exists 50%Z. exists [], [], (b "50"), 50%N. split; [reflexivity|]. split; [constructor|]. split; [|split; [left; now split|lia]].
    apply unsigned_decimal; [discriminate|]. split; [discriminate|]. exists [5; 0]%N. split; [|reflexivity]. repeat constructor; cbn; lia.
Qed.
Example exe_read : LoadMimeElement (b "mime.xml") exe = Ok {| e_path := b "mime.xml"; e_type := Some (b "application/x-dos"); e_description := Some (b "DOS"); e_stealth := false;
  e_mime := mkMime None ShortData LSBEndian 0 0 0 23117 (b "0x5A4D") 50 |}.
Proof. vm_compute. reflexivity. Qed.
Example pdf_found : exists es, LoadMimeElements [(b "mime.xml", exe); (b "mime.xml", pdf)] [] = Ok es /\
  option_map e_type (match FindMimeInfo es None (b "  %PDF-1.4") with Ok r => r | _ => None end) = Some (Some (b "application/pdf")) /\
  option_map e_type (match FindMimeInfo es (Some (b "a.exe")) (b "MZ--") with Ok r => r | _ => None end) = Some (Some (b "application/x-dos")) /\
  WizardToMime 100 es (b "PDF") = Ok (b "application/pdf") /\ WizardToMime 100 es (b "Gif") = Ok (b "image/x-gif").
Proof. eexists. split; [vm_compute; reflexivity|]. split; [|split; [|split]]; vm_compute; reflexivity. Qed.
Example negative_example : match LoadMimeElement (b "mime.xml") {| a_data_type := None; a_description := None; a_endian := None; a_magic := Some (b "x"); a_mask := None; a_offset := Some (b "-1");
    a_pattern := None; a_priority := None; a_stealth := None; a_type := Some (b "t") |} with Ok e => FindMimeInfo [e] None (b "data") = Fatal | _ => False end.
Proof. vm_compute. reflexivity. Qed.
Example digit_example : magic_of true (Build_attributes None None None (Some (b "\065")) None None None None None None) = Ok (b "5", 5065%Z).
Proof. vm_compute. reflexivity. Qed.
