(** Documents: pieces of text are decoded as they are meant. *)
From Coq Require Import Arith NArith ZArith Bool String Lia ZifyBool ZifyNat ZifyN List.
From Verif Require Import Base Outcome CStringModel CStringSpec OptionModel Base64Model ScanModel XmlModel XmlSpec XmlTreeSpec DoctypeModel XmlDocumentModel XmlDocumentSpec XmlProof XmlProof2.
Import ListNotations.

(** ** more steps change nothing *)
Lemma decode_more t st : forall fuel fuel' m out s r, decode fuel t st m out s = Ok (Some r) -> fuel <= fuel' -> decode fuel' t st m out s = Ok (Some r).
Proof.
  induction fuel as [|fuel IH]; intros fuel' m out s r H L; [discriminate|]. destruct fuel' as [|fuel']; [lia|].
  assert (forall m out s, decode fuel t st m out s = Ok (Some r) -> decode fuel' t st m out s = Ok (Some r)) as G by (intros; apply IH; [assumption|lia]).
  cbn [decode] in *. destruct s as [|c rest]; [exact H|].
  destruct (negb (c =? 38)%N && negb (isspace c)); [now apply G|].
  destruct (match st with Cdata => false | _ => starts_with (b "&#") (c :: rest) end).
  - destruct (match tl rest with [] => _ | _ :: _ => _ end) as [v e].
    destruct ((to_int v =? 0)%Z || negb (is 59 (fst (next e)))); [now apply G|].
    destruct (after_semicolon _); [now apply G|discriminate].
  - destruct ((c =? 38)%N && match st with Cdata => false | _ => true end).
    + destruct (find_entity t rest) as [value|]; [|now apply G].
      destruct (after_semicolon (c :: rest)) as [r0|]; [|discriminate].
      destruct (extend m (length value) (length (c :: rest) - length r0 - 1) (c :: rest)) as [m' s'].
      destruct (after_semicolon s'); [now apply G|]. destruct value; [now apply G|discriminate].
    + destruct (match st with Attribute => isspace c | _ => false end); now apply G.
Qed.
Lemma decode_unique t st m out s f f' r r' : decode f t st m out s = Ok (Some r) -> decode f' t st m out s = Ok (Some r') -> r = r'.
Proof.
  intros A B. apply (decode_more t st _ (max f f')) in A; [|lia]. apply (decode_more t st _ (max f f')) in B; [|lia]. congruence.
Qed.

(** ** one piece *)
Definition state_of (attribute : bool) : state := if attribute then Attribute else General.
Lemma state_refs a : state_of a <> Cdata. Proof. destruct a; discriminate. Qed.
Lemma decode_blank t m fuel out c s : isspace c = true -> decode (S fuel) t Attribute m out (c :: s) = decode fuel t Attribute m (out ++ [32%N]) s.
Proof.
  intros H. cbn [decode]. assert (c <> 38%N) as N0 by (intros ->; discriminate). destruct (N.eqb_spec c 38); [congruence|]. rewrite H. cbn [negb andb].
  assert (starts_with (b "&#") (c :: s) = false) as ->.
  { change (starts_with (b "&#") (c :: s)) with ((38 =? c)%N && starts_with (b "#") s). destruct (N.eqb_spec 38 c); [congruence|reflexivity]. }
  reflexivity.
Qed.
Lemma decode_good a t m fuel out c s : good c -> decode (S fuel) t (state_of a) m out (c :: s) = decode fuel t (state_of a) m (out ++ [if a then blank c else c]) s.
Proof.
  intros H. destruct a; cbn [state_of].
  - unfold blank. destruct ((c =? 9) || (c =? 10))%N eqn:E; [apply decode_blank; unfold isspace; lia|].
    apply decode_raw. unfold good in H. split; [lia|]. destruct (N.eq_dec c 32) as [->|]; [auto|left]. unfold isspace. lia.
  - apply decode_raw. unfold good in H. split; [lia|]. right. left. discriminate.
Qed.
Lemma decode_goods a t m v : Forall good v -> forall fuel out s, decode (length v + fuel) t (state_of a) m out (v ++ s) = decode fuel t (state_of a) m (out ++ (if a then map blank v else v)) s.
Proof.
  induction 1 as [|c v H _ IH]; intros fuel out s; [destruct a; now rewrite app_nil_r|]. cbn [length plus app]. rewrite decode_good by assumption. rewrite IH, <- app_assoc. now destruct a.
Qed.
Lemma find_predefined t u s x : find_entity t s = Some x -> find_entity (t ++ u) s = Some x.
Proof. induction t as [|[n v] t IH]; [discriminate|]. cbn [app find_entity]. destruct (starts_with n s); auto. Qed.
Lemma decode_special a t m out c s : In c (map fst specials) ->
  exists m', forall fuel, decode (2 + fuel) (predefined ++ t) (state_of a) m out (38%N :: special_name c ++ [59%N] ++ s) = decode fuel (predefined ++ t) (state_of a) m' (out ++ [c]) s.
Proof.
  intros H. pose proof (state_refs a) as R.
  assert (exists d, find_entity predefined ((special_name c ++ [59%N]) ++ s) = Some (b "&#" ++ d ++ b ";") /\
    after_semicolon (38%N :: (special_name c ++ [59%N]) ++ s) = Some s /\ starts_with (b "&#") (38%N :: (special_name c ++ [59%N]) ++ s) = false /\ special_name c ++ [59%N] <> [] /\
    (forall m' fuel, decode (S fuel) (predefined ++ t) (state_of a) m' out (b "&#" ++ (d ++ b ";") ++ s) = decode fuel (predefined ++ t) (state_of a) m' (out ++ [c]) s)) as (d & F & A & Sw & Ne & D).
  { cbn in H. destruct H as [<-|[<-|[<-|[<-|[<-|[]]]]]];
      [exists (b "60")|exists (b "62")|exists (b "34")|exists (b "39")|exists (b "38")];
      (split; [reflexivity|]; split; [reflexivity|]; split; [reflexivity|]; split; [discriminate|]; intros m' fuel;
       match goal with |- decode _ _ _ _ _ (b "&#" ++ (?d ++ b ";") ++ s) = decode _ _ _ _ (_ ++ [?c]) _ =>
         exact (decode_reference (predefined ++ t) (state_of a) m' fuel out ((d ++ b ";") ++ s) (Z.of_N c) s s R eq_refl ltac:(discriminate) eq_refl) end). }
  destruct (decode_entity (predefined ++ t) (state_of a) m out (special_name c ++ [59%N]) (b "&#" ++ d ++ b ";") s R Sw) as [m' E]; try assumption.
  - now apply find_predefined.
  - discriminate.
  - exists m'. intros fuel. rewrite <- app_assoc in E. cbn [plus]. rewrite E. rewrite <- (app_assoc (b "&#")). apply D.
Qed.

Section Pieces.
  Variable t : entities.
  Variable env : list N -> option (list N).
  (** the entities of the table are those of [env] *)
  Hypothesis table : forall n r, attribute_name n -> ~ In n (map snd specials) -> find_entity (predefined ++ t) (n ++ 59%N :: r) = env n.
  Lemma decode_piece a m out p s : good_piece env a p ->
    exists k m', forall fuel, decode (k + fuel) (predefined ++ t) (state_of a) m out (piece_text p ++ s) = decode fuel (predefined ++ t) (state_of a) m' (out ++ piece_means env a p) s.
  Proof.
    intros H. destruct p as [c|c|n]; cbn [good_piece piece_text piece_means] in *.
    - exists 1, m. intros fuel. apply decode_good. tauto.
    - destruct (decode_special a t m out c s H) as [m' E]. exists 2, m'. intros fuel. rewrite <- E. cbn [app]. now rewrite <- app_assoc.
    - destruct H as (A & Ns & v & Ev & Nv & G). rewrite Ev.
      assert (n <> []) as Nn by (destruct A as (_ & x & r & -> & _); discriminate).
      assert (Forall (fun c => c <> 59 /\ c <> 35)%N n) as Fn by (destruct A as [A _]; eapply Forall_impl; [|exact A]; unfold name_char, letter; intros; lia).
      destruct (decode_entity (predefined ++ t) (state_of a) m out (n ++ [59%N]) v s (state_refs a)) as [m' E].
      + destruct n as [|x n]; [congruence|]. inversion Fn; subst. change (starts_with (b "&#") (38%N :: ((x :: n) ++ [59%N]) ++ s)) with ((35 =? x)%N && true). lia.
      + rewrite <- app_assoc. cbn [app]. rewrite table by assumption. exact Ev.
      + exact Nv.
      + rewrite <- app_assoc. apply (after_semicolon_app (38%N :: n)). constructor; [discriminate|]. eapply Forall_impl; [|exact Fn]. cbv beta. tauto.
      + now destruct n.
      + exists (S (length v)), m'. intros fuel. cbn [app plus]. rewrite E. apply decode_goods. exact G.
  Qed.
  Lemma decode_pieces a l : Forall (good_piece env a) l -> forall m out, exists k, decode k (predefined ++ t) (state_of a) m out (chars_text l) = Ok (Some (out ++ chars_mean env a l)).
  Proof.
    induction 1 as [|p l P _ IH]; intros m out; [exists 1; cbn; now rewrite app_nil_r|].
    cbn [chars_text chars_mean flat_map]. destruct (decode_piece a m out p (chars_text l) P) as (k & m' & E).
    destruct (IH m' (out ++ piece_means env a p)) as [k' E']. exists (k + k'). unfold chars_text in *. rewrite E, E'. now rewrite <- app_assoc.
  Qed.
  Lemma piece_no_cr a p : good_piece env a p -> Forall (fun c => c <> 13%N) (piece_text p).
  Proof.
    destruct p as [c|c|n]; cbn [good_piece piece_text].
    - intros [H _]. constructor; [unfold good in H; lia|constructor].
    - intros H. cbn in H. destruct H as [<-|[<-|[<-|[<-|[<-|[]]]]]]; repeat constructor; discriminate.
    - intros [[A _] _]. constructor; [discriminate|]. apply Forall_app. split; [|repeat constructor; discriminate]. eapply Forall_impl; [|exact A]. unfold name_char, letter. intros. lia.
  Qed.
  Lemma piece_no_nul a p : good_piece env a p -> Forall (fun c => c <> 0%N) (piece_means env a p).
  Proof.
    assert (forall v, Forall good v -> Forall (fun c => c <> 0%N) (if a then map blank v else v)) as G.
    { intros v H. destruct a; [apply Forall_map|]; (eapply Forall_impl; [|exact H]); cbv beta; unfold good, blank; intros c C; [|lia]. destruct ((c =? 9) || (c =? 10))%N; lia. }
    destruct p as [c|c|n]; cbn [good_piece piece_means].
    - intros [H _]. specialize (G [c]). destruct a; apply G; constructor; auto.
    - intros H. cbn in H. destruct H as [<-|[<-|[<-|[<-|[<-|[]]]]]]; repeat constructor; discriminate.
    - intros (_ & _ & v & -> & _ & H). now apply G.
  Qed.
  Lemma Forall_flat {A B} (P : B -> Prop) (f : A -> list B) l : Forall (fun x => Forall P (f x)) l -> Forall P (flat_map f l).
  Proof. induction 1; cbn [flat_map]; [constructor|]. apply Forall_app. now split. Qed.
  (** all pieces of a text, with enough steps *)
  Lemma parse_pieces bound dec a l : Forall (sound_entry bound) (predefined ++ t) -> 5 <= bound -> S bound * length (chars_text l) < dec ->
    Forall (good_piece env a) l -> ParseEntities dec (predefined ++ t) (state_of a) (chars_text l) = Ok (Some (chars_mean env a l)).
  Proof.
    intros Sn B D G. assert (Forall (fun c => c <> 13%N) (chars_text l)) as Cr by (apply Forall_flat; eapply Forall_impl; [|exact G]; apply piece_no_cr).
    destruct (parse_entities_ends bound (predefined ++ t) (state_of a) (chars_text l) dec Sn B D) as [r E].
    unfold ParseEntities in *. rewrite normalize_none in * by exact Cr.
    destruct (decode dec (predefined ++ t) (state_of a) false [] (chars_text l)) as [[r'|]| |] eqn:Ed; try discriminate.
    destruct (decode_pieces a l G false []) as [k Ek]. rewrite (decode_unique _ _ _ _ _ _ _ _ _ Ed Ek). cbn [bind option_map app]. rewrite cstr_none; [reflexivity|].
    apply Forall_flat. eapply Forall_impl; [|exact G]. apply piece_no_nul.
  Qed.
End Pieces.
