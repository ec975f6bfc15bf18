(** Lemmas on RdfModel: the nodes that are found and what is made of them. *)
From Coq Require Import Arith NArith ZArith Bool String Lia ZifyBool ZifyNat ZifyN List.
From Verif Require Import Base Outcome CStringModel CStringSpec CStringProps OptionModel OptionProps ScanModel ScanProof2
  XmlModel XmlSpec XmlTreeSpec XmlProof XmlProof2 XmlProof3 XmlProof4 XmlProof5 RdfModel RdfProof.
Import ListNotations.

(** * Nodes *)
Lemma same_name_spec s t : same_name s t = true <-> s = t.
Proof. unfold same_name. destruct (list_eq_dec N.eq_dec s t); split; congruence. Qed.
Lemma siblings_all l : forall seen, NoDup (map tag_of l) -> (forall k, In k l -> ~ In (tag_of k) seen) -> siblings seen l = l.
Proof.
  induction l as [|k l IH]; intros seen D S; [reflexivity|]. cbn [map] in D. inversion D as [|? ? D1 D2]; subst. cbn [siblings].
  destruct (existsb (same_name (tag_of k)) seen) eqn:E.
  - apply existsb_exists in E as (t & T & E). apply same_name_spec in E. subst. exfalso. eapply S; [left; reflexivity|exact T].
  - f_equal. apply IH; [exact D2|]. intros j J [Q|Q]; [|eapply S; [right; exact J|exact Q]].
    apply D1. rewrite Q. now apply in_map.
Qed.
Lemma removelast_text (s : list N) c : removelast (s ++ [c]) = s /\ last (s ++ [c]) 0%N = c.
Proof. split; [apply removelast_last|apply last_last]. Qed.
Definition rdf_of (filename : list N) (l : list (list N * list N)) : list N :=
  rdf_head filename ++ flat_map line' l ++ b "  </cipher:Content>" ++ newline ++ b "</rdf:RDF>" ++ newline.
Lemma new_tree_rdf filename rest fuel : rdf_head filename ++ rest <> [] -> last (rdf_head filename ++ rest) 0%N = 10%N -> rest <> [] ->
  NewXMLTree fuel (rdf_head filename ++ rest) = parse fuel 10 (tl (rdf_head filename ++ removelast rest)) 0 Before.
Proof.
  intros N1 L N2. unfold NewXMLTree. rewrite L. rewrite removelast_app by assumption. unfold rdf_head. rewrite <- !app_assoc. reflexivity.
Qed.
Lemma nodes_read filename l : Forall (fun c => c <> 34%N) filename -> Forall nice l -> NoDup (map fst l) ->
  content_nodes (rdf_of filename l) = Some (map (fun f => (b "cipher:" ++ fst f, snd f)) l).
Proof.
  intros F H D. unfold content_nodes.
  set (r1 := flat_map line' l ++ b "  <" ++ b "/cipher:Content>" ++ newline ++ b "</rdf:RDF>").
  assert (rdf_of filename l = rdf_head filename ++ (r1 ++ newline)) as E.
  { unfold rdf_of, r1. rewrite <- !app_assoc. reflexivity. }
  rewrite E.
  assert (exists k, length (rdf_head filename ++ (r1 ++ newline)) = S (S (2 * length l + S (S k)))) as [k Lk].
  { unfold r1. rewrite !app_length. cbn [length]. assert (2 * length l <= length (flat_map line' l)).
    { clear. induction l as [|f l IH]; [cbn; lia|]. cbn [flat_map length]. rewrite app_length. unfold line' at 1. rewrite app_length.
      change (length (b "    <cipher:")) with 12. lia. }
    exists (length (rdf_head filename) + length (flat_map line' l) + 31 - 2 * length l - 4).
    change (length (b "  <")) with 3. change (length (b "/cipher:Content>")) with 16. change (length newline) with 1. change (length (b "</rdf:RDF>")) with 10. lia. }
  rewrite new_tree_rdf; [|discriminate|rewrite app_assoc; apply (removelast_text (rdf_head filename ++ r1) 10%N)|intros K; apply app_eq_nil in K as [_ K]; discriminate K].
  rewrite Lk. change newline with [10%N] at 1. rewrite (proj1 (removelast_text r1 10%N)). unfold r1.
  destruct (text_read filename l k F H) as (a & a' & c & c' & o & kids & -> & K).
  assert (child_with (Xml (b "rdf:RDF") a c [(o, Xml (b "cipher:Content") a' c' kids)]) (b "cipher:Content") = Some (Xml (b "cipher:Content") a' c' kids)) as -> by reflexivity.
  f_equal. cbn [kids_of]. rewrite K, siblings_all.
  - rewrite map_map. reflexivity.
  - rewrite map_map. assert (map (fun x => tag_of (kid x)) l = map (fun n => b "cipher:" ++ n) (map fst l)) as -> by (rewrite map_map; reflexivity).
    apply FinFun.Injective_map_NoDup; [|exact D]. intros x y Q. now apply app_inv_head in Q.
  - intros j _ [].
Qed.

(** * Fields *)
Lemma strtol_number n : (n < 2 ^ 63)%N -> strtol (decimal n) = Z.of_N n.
Proof.
  intros H. destruct (decimal_spec n) as (D & Ne & V & _). unfold strtol.
  destruct (decimal n) as [|c p] eqn:Eq; [contradiction|]. inversion D as [|? ? Hc _]; subst.
  rewrite drop_spaces_stop' by (unfold isdigit in Hc; unfold isspace; lia).
  assert (M : (match c :: p with
               | 45%N :: p => Z.max (- 2 ^ 63) (- digits 0 p)
               | 43%N :: p => Z.min (2 ^ 63 - 1) (digits 0 p)
               | p => Z.min (2 ^ 63 - 1) (digits 0 p) end)%Z = Z.min (2 ^ 63 - 1) (digits 0 (c :: p))).
  { destruct (N.eq_dec c 45) as [->|N45]; [discriminate Hc|].
    destruct (N.eq_dec c 43) as [->|N43]; [discriminate Hc|]. clear - N45 N43.
    destruct c as [|q]; [reflexivity|]. do 6 (destruct q as [q|q|]; try reflexivity; try contradiction). }
  rewrite M, V. lia.
Qed.
Definition option_value (o : WizardOption) (z : Z) : Prop := In z (map snd (GetOptionInfo o)).
Definition valid (s : settings) : Prop :=
  option_value WizardCipherOptions (cipher s) /\ option_value WizardModeOptions (mode s) /\
  option_value WizardAuthenticateOptions (method s) /\ option_value WizardHashOptions (key_hash s) /\
  option_value WizardEntropyOptions (entropy s) /\ option_value WizardHashOptions (hmac s) /\
  (level s <= 9)%N /\ (key_length s < 2 ^ 32)%N /\
  Forall value_text [nonce s; id s; modified s; created s; stamp s; version s].
Definition with_chunksize (s : settings) (n : N) : settings :=
  let '(mkSettings c m n0 a i kh kl e l h _ md cd st v) := s in mkSettings c m n0 a i kh kl e l h n md cd st v.
Lemma mnemonic_text o z : option_value o z -> o <> WizardCommandOptions ->
  ParseWizardOption o false (WizardOptionToMnemonic o z) = Ok z /\ value_text (WizardOptionToMnemonic o z).
Proof.
  intros V O. assert (text (WizardOptionToMnemonic o z) /\ value_text (WizardOptionToMnemonic o z)) as [T T'].
  { assert (forallb (forallb (fun c => (0 <? c) && (c <? 128) && negb (c =? 13) && negb (c =? 38) && negb (c =? 60))%N)
      (map (fun e => WizardOptionToMnemonic o (snd e)) (GetOptionInfo o)) = true) as H by (destruct o; vm_compute; reflexivity).
    rewrite forallb_forall in H. apply in_map_iff in V as (e & <- & V). specialize (H _ (in_map _ _ _ V)). rewrite forallb_forall in H.
    split; apply Forall_forall; intros c C; specialize (H c C); cbv beta in H; try split; lia. }
  split; [|exact T']. apply option_round_trip_partial; [assumption|assumption|split; [exact T|reflexivity]].
Qed.
Lemma decimal_value n : value_text (decimal n).
Proof. destruct (decimal_spec n) as (D & _). eapply Forall_impl; [|exact D]. intros c C. unfold isdigit in C. lia. Qed.
Lemma level_parsed n : (n <= 9)%N -> ParseWizardOption WizardEntropyLevelOptions false (decimal n) = Ok (Z.of_N n).
Proof.
  intros H. assert (n = 0 \/ n = 1 \/ n = 2 \/ n = 3 \/ n = 4 \/ n = 5 \/ n = 6 \/ n = 7 \/ n = 8 \/ n = 9)%N as C by lia.
  repeat (destruct C as [->|C]; [vm_compute; reflexivity|]). subst n. vm_compute. reflexivity.
Qed.
Lemma decide_names : forallb (forallb (fun c => alpha c || (c =? 95) || ((48 <=? c) && (c <=? 58)) || (c =? 45) || (c =? 46))%N)
  (map fst (fields_of (mkSettings 0 0 [] 0 [] 0 0 0 0 0 0 [] [] [] []))) = true.
Proof. vm_compute. reflexivity. Qed.
Lemma fields_names s : map fst (fields_of s) = map fst (fields_of (mkSettings 0 0 [] 0 [] 0 0 0 0 0 0 [] [] [] [])).
Proof. reflexivity. Qed.
Lemma fields_nice s : valid s -> Forall nice (fields_of s).
Proof.
  intros (V1 & V2 & V3 & V4 & V5 & V6 & _ & _ & V7).
  assert (forall l, map fst l = map fst (fields_of s) -> Forall value_text (map snd l) -> Forall nice l) as G.
  { intros l E F. apply Forall_forall. intros f I. split.
    - assert (In (fst f) (map fst l)) as J by now apply in_map. rewrite E, fields_names in J. pose proof decide_names as Dn. rewrite forallb_forall in Dn. specialize (Dn _ J).
      rewrite forallb_forall in Dn. apply Forall_forall. intros c C. specialize (Dn c C). cbv beta in Dn. unfold name_char, letter. unfold alpha in Dn. lia.
    - rewrite Forall_forall in F. apply F. now apply in_map. }
  apply G; [reflexivity|]. clear G. unfold fields_of. cbn [map snd].
  repeat match goal with H : Forall value_text (_ :: _) |- _ => inversion H; clear H; subst end.
  repeat (constructor; [first [assumption | apply decimal_value | apply mnemonic_text; [assumption|discriminate] |
    repeat (constructor; [repeat split; discriminate|]); constructor]|]). constructor.
Qed.
Lemma fields_distinct s : NoDup (map fst (fields_of s)).
Proof.
  rewrite fields_names.
  assert (forall l : list (list N), (fix go l := match l with [] => true | x :: l => negb (existsb (same_name x) l) && go l end) l = true -> NoDup l) as G.
  { induction l as [|x l IH]; intros H; [constructor|]. apply andb_true_iff in H as [H1 H2]. constructor; [|now apply IH].
    intros I. apply negb_true_iff in H1. assert (existsb (same_name x) l = true); [|congruence]. apply existsb_exists. exists x. split; [assumption|now apply same_name_spec]. }
  apply G. vm_compute. reflexivity.
Qed.
Lemma fields_set s init : valid s -> (chunksize s < 2 ^ 63)%N ->
  fold_outcome set_field (fields_of s) init = Ok (with_chunksize s (chunksize s mod 2 ^ 32)).
Proof.
  intros (V1 & V2 & V3 & V4 & V5 & V6 & V7 & V8 & _) C. unfold fields_of.
  destruct init as [c m n a i kh kl e l h cs md cd st v]. destruct s as [c' m' n' a' i' kh' kl' e' l' h' cs' md' cd' st' v'].
  cbn [cipher mode nonce method id key_hash key_length entropy level hmac chunksize modified created stamp version with_chunksize] in *.
  repeat match goal with |- context [fold_outcome set_field ((?t, ?w) :: ?r) (mkSettings ?c ?m ?n ?a ?i ?kh ?kl ?e ?l ?h ?cs ?md ?cd ?st ?v)] =>
    change (fold_outcome set_field ((t, w) :: r) (mkSettings c m n a i kh kl e l h cs md cd st v))
      with (bind (set_field (mkSettings c m n a i kh kl e l h cs md cd st v) (t, w)) (fold_outcome set_field r));
    first
    [ match t with b "type" => change (set_field (mkSettings c m n a i kh kl e l h cs md cd st v) (t, w)) with
        (bind (ParseWizardOption WizardCipherOptions false w) (fun c => Ok (mkSettings c m n a i kh kl e l h cs md cd st v))) end;
      rewrite (proj1 (mnemonic_text _ _ V1 ltac:(discriminate)))
    | match t with b "mode" => change (set_field (mkSettings c m n a i kh kl e l h cs md cd st v) (t, w)) with
        (bind (ParseWizardOption WizardModeOptions false w) (fun m => Ok (mkSettings c m n a i kh kl e l h cs md cd st v))) end;
      rewrite (proj1 (mnemonic_text _ _ V2 ltac:(discriminate)))
    | match t with b "authenticate" => change (set_field (mkSettings c m n a i kh kl e l h cs md cd st v) (t, w)) with
        (bind (ParseWizardOption WizardAuthenticateOptions false w) (fun a => Ok (mkSettings c m n a i kh kl e l h cs md cd st v))) end;
      rewrite (proj1 (mnemonic_text _ _ V3 ltac:(discriminate)))
    | match t with b "key-hash" => change (set_field (mkSettings c m n a i kh kl e l h cs md cd st v) (t, w)) with
        (bind (ParseWizardOption WizardHashOptions false w) (fun kh => Ok (mkSettings c m n a i kh kl e l h cs md cd st v))) end;
      rewrite (proj1 (mnemonic_text _ _ V4 ltac:(discriminate)))
    | match t with b "entropy" => change (set_field (mkSettings c m n a i kh kl e l h cs md cd st v) (t, w)) with
        (bind (ParseWizardOption WizardEntropyOptions false w) (fun e => Ok (mkSettings c m n a i kh kl e l h cs md cd st v))) end;
      rewrite (proj1 (mnemonic_text _ _ V5 ltac:(discriminate)))
    | match t with b "hmac" => change (set_field (mkSettings c m n a i kh kl e l h cs md cd st v) (t, w)) with
        (bind (ParseWizardOption WizardHashOptions false w) (fun h => Ok (mkSettings c m n a i kh kl e l h cs md cd st v))) end;
      rewrite (proj1 (mnemonic_text _ _ V6 ltac:(discriminate)))
    | match t with b "level" => change (set_field (mkSettings c m n a i kh kl e l h cs md cd st v) (t, w)) with
        (bind (ParseWizardOption WizardEntropyLevelOptions false w) (fun l => Ok (mkSettings c m n a i kh kl e (Z.to_N (l mod 2 ^ 32)) h cs md cd st v))) end;
      rewrite (level_parsed _ V7)
    | match t with b "key-length" => change (set_field (mkSettings c m n a i kh kl e l h cs md cd st v) (t, w)) with
        (Ok (mkSettings c m n a i kh (Z.to_N (strtol w mod 2 ^ 32)) e l h cs md cd st v)) end;
      rewrite (strtol_number kl') by lia
    | match t with b "chunksize" => change (set_field (mkSettings c m n a i kh kl e l h cs md cd st v) (t, w)) with
        (Ok (mkSettings c m n a i kh kl e l h (Z.to_N (strtol w mod 2 ^ 32)) md cd st v)) end;
      rewrite (strtol_number cs') by lia
    | match t with b "nonce" => change (set_field (mkSettings c m n a i kh kl e l h cs md cd st v) (t, w)) with (Ok (mkSettings c m w a i kh kl e l h cs md cd st v)) end
    | match t with b "id" => change (set_field (mkSettings c m n a i kh kl e l h cs md cd st v) (t, w)) with (Ok (mkSettings c m n a w kh kl e l h cs md cd st v)) end
    | match t with b "modify-date" => change (set_field (mkSettings c m n a i kh kl e l h cs md cd st v) (t, w)) with (Ok (mkSettings c m n a i kh kl e l h cs w cd st v)) end
    | match t with b "create-date" => change (set_field (mkSettings c m n a i kh kl e l h cs md cd st v) (t, w)) with (Ok (mkSettings c m n a i kh kl e l h cs md w st v)) end
    | match t with b "timestamp" => change (set_field (mkSettings c m n a i kh kl e l h cs md cd st v) (t, w)) with (Ok (mkSettings c m n a i kh kl e l h cs md cd w v)) end
    | match t with b "protocol" => change (set_field (mkSettings c m n a i kh kl e l h cs md cd st v) (t, w)) with (Ok (mkSettings c m n a i kh kl e l h cs md cd st v)) end
    | match t with b "version" => change (set_field (mkSettings c m n a i kh kl e l h cs md cd st v) (t, w)) with (Ok (mkSettings c m n a i kh kl e l h cs md cd st w)) end ];
    cbn [bind]
  end.
  cbn [fold_outcome]. f_equal. rewrite !Z.mod_small by lia. rewrite !N2Z.id. f_equal.
  rewrite <- (N2Z.id (cs' mod 2 ^ 32)), N2Z.inj_mod. reflexivity.
Qed.
