(** Lemmas on XmlModel: entity expansion ends and stays in its buffer. *)
From Coq Require Import Arith NArith ZArith Bool String Lia ZifyBool ZifyNat ZifyN List.
From Verif Require Import Base Outcome CStringModel OptionModel Base64Model ScanModel XmlModel XmlSpec XmlProof.
Import ListNotations.
Ltac Zify.zify_post_hook ::= Z.div_mod_to_equations.

(** * strtol *)
Lemma number_spec base : (2 <= base <= 16)%N -> forall p n v r, number base n p = (v, r) ->
  exists q, p = q ++ r /\ Forall (fun c => digitval base c <> None) q /\ (v < (n + 1) * base ^ N.of_nat (length q))%N.
Proof.
  intros B. induction p as [|c p IH]; intros n v r H; cbn [number] in H.
  - injection H as <- <-. exists []. split; [reflexivity|]. split; [constructor|]. cbn. lia.
  - destruct (digitval base c) as [d|] eqn:E.
    + destruct (IH _ _ _ H) as (q & -> & F & L). exists (c :: q). split; [reflexivity|].
      split; [constructor; [congruence|assumption]|]. cbn [length].
      rewrite Nat2N.inj_succ, N.pow_succ_r'.
      assert (d < base)%N. { unfold digitval in E. destruct (hexval c) as [x|]; [|discriminate]. destruct (N.ltb_spec x base); congruence. }
      eapply N.lt_le_trans; [exact L|]. rewrite N.mul_assoc. apply N.mul_le_mono_r. nia.
    + injection H as <- <-. exists []. split; [reflexivity|]. split; [constructor|]. cbn. lia.
Qed.
Lemma digit_not_59 base c : digitval base c <> None -> c <> 59%N.
Proof. intros H ->. now apply H. Qed.
Lemma drop_spaces_pre s : exists q, s = q ++ drop_spaces s /\ Forall (fun c => isspace c = true) q.
Proof.
  induction s as [|c s (q & E & F)]; [exists []; split; [reflexivity|constructor]|]. cbn [drop_spaces].
  destruct (isspace c) eqn:S; [exists (c :: q); split; [cbn; congruence|now constructor]|exists []; split; [reflexivity|constructor]].
Qed.
Lemma strtol_end_spec base s v r : (2 <= base <= 16)%N -> strtol_end base s = (v, r) ->
  v <> 0%Z -> exists q, s = q ++ r /\ Forall (fun c => c <> 59%N) q /\ q <> [] /\ (Z.abs v < Z.of_N base ^ Z.of_nat (length q))%Z.
Proof.
  intros B H V. unfold strtol_end in H. cbv zeta in H.
  destruct (drop_spaces_pre s) as (q0 & Es & F0). set (p := drop_spaces s) in *.
  assert (exists q1 p1 neg, (match p with c :: q => if (c =? 45)%N then (true, q) else if (c =? 43)%N then (false, q) else (false, p) | [] => (false, p) end) = (neg, p1)
    /\ p = q1 ++ p1 /\ Forall (fun c => c <> 59%N) q1) as (q1 & p1 & neg & E1 & Ep & F1).
  { destruct p as [|c q]; [exists [], [], false; repeat split; constructor|].
    destruct (N.eqb_spec c 45); [subst; exists [45%N], q, true; repeat split; repeat constructor; discriminate|].
    destruct (N.eqb_spec c 43); [subst; exists [43%N], q, false; repeat split; repeat constructor; discriminate|].
    exists [], (c :: q), false; repeat split; constructor. }
  rewrite E1 in H. lazy beta iota in H.
  match type of H with match ?m with [] => _ | _ :: _ => _ end = _ => set (p2 := m) in H end.
  assert (exists q2, p1 = q2 ++ p2 /\ Forall (fun c => c <> 59%N) q2) as (q2 & Ep1 & F2).
  { subst p2. destruct p1 as [|z r1]; [exists []; split; [reflexivity|constructor]|].
    destruct ((base =? 16) && (z =? 48))%N eqn:Z; [|exists []; split; [reflexivity|constructor]].
    destruct r1 as [|x [|d q]]; try (exists []; split; [reflexivity|constructor]).
    destruct ((x =? 120) || (x =? 88))%N eqn:X; [|exists []; split; [reflexivity|constructor]].
    destruct (digitval 16 d); [|exists []; split; [reflexivity|constructor]].
    exists [z; x]. split; [reflexivity|]. repeat constructor; lia. }
  clearbody p2. destruct p2 as [|c p3]; [injection H as <- <-; congruence|].
  destruct (digitval base c) as [dv|] eqn:D; [|injection H as <- <-; congruence].
  destruct (number base 0 (c :: p3)) as [n r'] eqn:En. injection H as <- <-.
  destruct (number_spec base B _ _ _ _ En) as (q3 & E3 & F3 & L).
  exists (q0 ++ q1 ++ q2 ++ q3). split; [rewrite Es, Ep, Ep1, E3; now repeat rewrite <- app_assoc|].
  split.
  { repeat (apply Forall_app; split); try assumption.
    - eapply Forall_impl; [|exact F0]. intros a A ->. discriminate.
    - eapply Forall_impl; [|exact F3]. intros a A. now apply (digit_not_59 base). }
  assert (q3 <> []) as N3.
  { intros ->. cbn in E3. subst r'. cbn [number] in En. rewrite D in En.
    destruct (number_spec base B _ _ _ _ En) as (q & E & _). apply (f_equal (@length N)) in E. rewrite app_length in E. cbn in E. lia. }
  split; [intros E; apply app_eq_nil in E as [_ E]; apply app_eq_nil in E as [_ E]; apply app_eq_nil in E as [_ E]; contradiction|].
  assert (Z.of_N n < Z.of_N base ^ Z.of_nat (length q3))%Z as L'.
  { replace (Z.of_N base ^ Z.of_nat (length q3))%Z with (Z.of_N (base ^ N.of_nat (length q3))) by (rewrite N2Z.inj_pow, nat_N_Z; reflexivity). lia. }
  assert (Z.of_N base ^ Z.of_nat (length q3) <= Z.of_N base ^ Z.of_nat (length (q0 ++ q1 ++ q2 ++ q3)))%Z as L''.
  { apply Z.pow_le_mono_r; [lia|]. repeat rewrite app_length. lia. }
  destruct neg; lia.
Qed.

(** * Where the first ';' is *)
Lemma after_semicolon_app q r : Forall (fun c => c <> 59%N) q -> after_semicolon (q ++ 59%N :: r) = Some r.
Proof. induction 1 as [|c q H _ IH]; [reflexivity|]. cbn. destruct (N.eqb_spec c 59); [congruence|assumption]. Qed.
Lemma after_semicolon_inv s r : after_semicolon s = Some r -> exists q, s = q ++ 59%N :: r /\ Forall (fun c => c <> 59%N) q.
Proof.
  revert r. induction s as [|c s IH]; intros r H; [discriminate|]. cbn in H. destruct (N.eqb_spec c 59).
  - injection H as <-. subst. exists []. split; [reflexivity|constructor].
  - destruct (IH _ H) as (q & -> & F). exists (c :: q). split; [reflexivity|now constructor].
Qed.
Lemma after_semicolon_none s : after_semicolon s = None -> ~ In 59%N s.
Proof.
  induction s as [|c s IH]; intros H; [auto|]. cbn in H. destruct (N.eqb_spec c 59); [discriminate|].
  intros [E|E]; [congruence|]. now apply IH.
Qed.
Lemma after_semicolon_some s : In 59%N s -> exists r, after_semicolon s = Some r.
Proof. intros H. destruct (after_semicolon s) as [r|] eqn:E; [now exists r|]. now apply after_semicolon_none in E. Qed.

Lemma to_int_range v : (- 2 ^ 31 <= to_int v < 2 ^ 31)%Z.
Proof. unfold to_int. lia. Qed.
Lemma to_int_small v : (- 2 ^ 31 <= v < 2 ^ 31)%Z -> to_int v = v.
Proof. unfold to_int. intros. lia. Qed.
Lemma to_int_zero v : to_int v <> 0%Z -> v <> 0%Z.
Proof. intros H ->. now apply H. Qed.
Lemma size_bound c k : (c < 2 ^ N.of_nat k)%N -> N.to_nat (N.size c) <= k.
Proof.
  intros H. destruct (N.eq_dec c 0) as [->|Z]; [cbn; lia|]. rewrite N.size_log2 by assumption.
  apply N.log2_lt_pow2 in H; lia.
Qed.
Lemma char_bytes_length v q base : (2 <= base <= 16)%N -> q <> [] -> (Z.abs v < Z.of_N base ^ Z.of_nat (length q))%Z ->
  length (char_bytes (to_int v)) <= 2 + length (q : list N).
Proof.
  intros B Q H. unfold char_bytes. destruct (Z.ltb_spec (to_int v) 128) as [L|L]; [cbn; lia|].
  unfold utf8_of. cbn [length]. rewrite map_length, rev_length, seq_length.
  set (c := Z.to_N (to_int v)). pose proof (to_int_range v) as R. change (2 ^ 31)%Z with 2147483648%Z in R.
  assert (Z.of_N c = to_int v) as Ec by (subst c; lia). clearbody c.
  assert (N.to_nat (N.size c) <= 31) as S by (apply size_bound; change (2 ^ N.of_nat 31)%N with 2147483648%N; lia).
  assert (1 <= length q) by (destruct q; [congruence|cbn; lia]).
  destruct (le_lt_dec 4 (length q)) as [G|G]; [lia|].
  assert (Z.of_N base ^ Z.of_nat (length q) <= 4096)%Z as P.
  { change 4096%Z with (16 ^ 3)%Z. transitivity (16 ^ Z.of_nat (length q))%Z; [apply Z.pow_le_mono_l; lia|apply Z.pow_le_mono_r; lia]. }
  rewrite to_int_small in Ec, L by (change (2 ^ 31)%Z with 2147483648%Z; lia).
  assert (N.to_nat (N.size c) <= 12) by (apply size_bound; change (2 ^ N.of_nat 12)%N with 4096%N; lia).
  lia.
Qed.

(** what the reference branch reads and where it goes on *)
Lemma reference_ok s v e :
  match s with
  | x :: r => if (x =? 120)%N then strtol_end 16 r else strtol_end 10 s
  | [] => (0%Z, [])
  end = (v, 59%N :: e) -> to_int v <> 0%Z ->
  after_semicolon (skipn (length (char_bytes (to_int v))) (b "&#" ++ s)) = Some e /\
  exists q, s = q ++ 59%N :: e.
Proof.
  intros H V. pose proof (to_int_zero v V) as V'.
  assert (forall base pre t, (2 <= base <= 16)%N -> strtol_end base t = (v, 59%N :: e) -> s = pre ++ t -> Forall (fun c => c <> 59%N) pre ->
    after_semicolon (skipn (length (char_bytes (to_int v))) (b "&#" ++ s)) = Some e /\ exists q, s = q ++ 59%N :: e) as G.
  { intros base pre t B E -> Fp. destruct (strtol_end_spec base t _ _ B E V') as (q & -> & F & N & L).
    pose proof (char_bytes_length v q base B N L) as K.
    split; [|exists (pre ++ q); now rewrite app_assoc].
    rewrite (app_assoc pre q), (app_assoc (b "&#")). rewrite skipn_app.
    replace (length (char_bytes (to_int v)) - length (b "&#" ++ pre ++ q)) with 0
      by (repeat rewrite app_length; change (length (b "&#")) with 2; lia).
    apply after_semicolon_app. 
    assert (Forall (fun c => c <> 59%N) (b "&#" ++ pre ++ q)) as A.
    { apply Forall_app. split; [repeat constructor; discriminate|]. apply Forall_app; now split. }
    rewrite <- (firstn_skipn (length (char_bytes (to_int v)))) in A. apply Forall_app in A. apply A. }
  destruct s as [|x r]; [discriminate|]. destruct (N.eqb_spec x 120).
  - apply (G 16%N [x] r); auto; [lia|]. subst. repeat constructor. discriminate.
  - apply (G 10%N [] (x :: r)); auto. lia.
Qed.

(** * Entity expansion ends *)
Definition starts_ref (s : list N) : bool := match s with x :: _ => (x =? 35)%N | [] => false end.
Fixpoint weight (w : nat) (s : list N) : nat :=
  match s with
  | [] => 0
  | c :: s => (if (c =? 38)%N && negb (starts_ref s) then w else 1) + weight w s
  end.
Lemma weight_bound w s : 1 <= w -> length s <= weight w s <= w * length s.
Proof. intros W. induction s as [|c s IH]; cbn [weight length]; [lia|]. destruct ((c =? 38)%N && _); lia. Qed.
Lemma weight_suffix w q r : 1 <= w -> length q + weight w r <= weight w (q ++ r).
Proof. intros W. induction q as [|c q IH]; cbn [weight app length]; [lia|]. destruct ((c =? 38)%N && _); lia. Qed.
Lemma weight_free w q r : ~ In 38%N q -> weight w (q ++ r) = length q + weight w r.
Proof.
  induction q as [|c q IH]; intros H; [reflexivity|]. cbn [weight app length].
  destruct (N.eqb_spec c 38); [destruct H; now left|]. cbn [andb]. rewrite IH; [lia|]. intros K. apply H. now right.
Qed.
Lemma weight_firstn w n : forall s, 1 <= w -> weight w (firstn n s) <= weight w s + (w - 1).
Proof.
  induction n as [|n IH]; intros s W; [cbn; lia|]. destruct s as [|c s]; [cbn; lia|]. cbn [firstn weight].
  destruct (N.eqb_spec c 38); cbn [andb]; [|specialize (IH s W); lia].
  destruct n as [|n]; [cbn [firstn weight starts_ref negb]; destruct (negb (starts_ref s)); pose proof (weight_bound w s W); lia|].
  destruct s as [|d s]; [cbn; lia|].
  change (starts_ref (firstn (S n) (d :: s))) with (starts_ref (d :: s)). specialize (IH (d :: s) W). lia.
Qed.

(** names end with ';', values are predefined or free of '&' *)
Definition sound_entry (bound : nat) (e : list N * list N) : Prop :=
  In 59%N (fst e) /\ (In e predefined \/ ~ In 38%N (snd e) /\ length (snd e) <= bound).
Lemma starts_with_inv p s : starts_with p s = true -> exists r, s = p ++ r.
Proof.
  revert s. induction p as [|x p IH]; intros s H; [now exists s|]. destruct s as [|y s]; [discriminate|].
  cbn in H. apply andb_true_iff in H as [H1 H2]. apply N.eqb_eq in H1. subst. destruct (IH _ H2) as [r ->]. now exists r.
Qed.
Lemma find_entity_inv t s x : find_entity t s = Some x -> exists name, In (name, x) t /\ starts_with name s = true.
Proof.
  induction t as [|[n v] t IH]; [discriminate|]. cbn [find_entity]. destruct (starts_with n s) eqn:E.
  - intros [= ->]. exists n. split; [now left|assumption].
  - intros H. destruct (IH H) as (name & I & S). exists name. split; [now right|assumption].
Qed.

Lemma decode_no_semicolon bound t st : Forall (sound_entry bound) t -> forall s fuel m out, ~ In 59%N s -> length s < fuel ->
  exists r, decode fuel t st m out s = Ok (Some r).
Proof.
  intros T. induction s as [|c s IH]; intros [|fuel] m out H L; try (cbn in L; lia); [now exists out|].
  cbn [length] in L.
  assert (forall o, exists r, decode fuel t st m o s = Ok (Some r)) as G by (intros o; apply IH; [intros K; apply H; now right|lia]).
  cbn [decode]. destruct (negb (c =? 38)%N && negb (isspace c)); [apply G|].
  destruct (match st with Cdata => false | _ => starts_with (b "&#") (c :: s) end) eqn:R.
  - assert (exists u, c :: s = b "&#" ++ u) as [u Eu] by (apply starts_with_inv; now destruct st).
    injection Eu as -> ->. cbn [tl].
    destruct (match u with [] => _ | _ :: _ => _ end) as [v e] eqn:V.
    destruct ((to_int v =? 0)%Z || negb (is 59 (fst (next e)))) eqn:Q; [apply G|].
    destruct e as [|x e]; [cbn in Q; lia|]. cbn [next fst is] in Q.
    assert (x = 59%N) as -> by lia.
    destruct (reference_ok u v e V) as (_ & q & Eq); [lia|]. subst u. exfalso. apply H. right. right. apply in_or_app. right. now left.
  - destruct ((c =? 38)%N && _); [|destruct (match st with Attribute => isspace c | _ => false end); apply G].
    destruct (find_entity t s) as [x|] eqn:F; [|apply G]. exfalso.
    destruct (find_entity_inv _ _ _ F) as (name & I & Sw). destruct (starts_with_inv _ _ Sw) as [r ->].
    rewrite Forall_forall in T. destruct (T _ I) as [N _]. apply H. right. apply in_or_app. now left.
Qed.

Lemma predefined_value e : In e predefined -> exists d, snd e = b "&#" ++ d ++ b ";" /\ length d = 2 /\ ~ In 38%N d.
Proof.
  intros [<-|[<-|[<-|[<-|[<-|[]]]]]]; [exists (b "60")|exists (b "62")|exists (b "34")|exists (b "39")|exists (b "38")];
    (split; [reflexivity|]; split; [reflexivity|]; intros [K|[K|[]]]; discriminate).
Qed.

Lemma decode_ends bound t st : Forall (sound_entry bound) t -> 5 <= bound ->
  forall fuel s m out, weight (S bound) s < fuel -> exists r, decode fuel t st m out s = Ok (Some r).
Proof.
  intros T B. induction fuel as [|fuel IH]; intros s m out L; [lia|].
  destruct s as [|c s]; [now exists out|].
  assert (forall o, exists r, decode fuel t st m o s = Ok (Some r)) as G.
  { intros o. apply IH. cbn [weight] in L. destruct ((c =? 38)%N && _); lia. }
  cbn [decode]. destruct (negb (c =? 38)%N && negb (isspace c)); [apply G|].
  destruct (match st with Cdata => false | _ => starts_with (b "&#") (c :: s) end) eqn:R.
  - assert (exists u, c :: s = b "&#" ++ u) as [u Eu] by (apply starts_with_inv; now destruct st).
    injection Eu as -> ->. cbn [tl].
    destruct (match u with [] => _ | _ :: _ => _ end) as [v e] eqn:V.
    destruct ((to_int v =? 0)%Z || negb (is 59 (fst (next e)))) eqn:Q; [apply G|].
    destruct e as [|x e]; [cbn in Q; lia|]. cbn [next fst is] in Q.
    assert (x = 59%N) as -> by lia.
    destruct (reference_ok u v e V) as (E & q & Eq); [lia|].
    change (38%N :: 35%N :: u) with (b "&#" ++ u) in *. rewrite E. apply IH. subst u.
    rewrite app_assoc in L. pose proof (weight_suffix (S bound) (b "&#" ++ q) (59%N :: e)).
    pose proof (weight_suffix (S bound) [59%N] e). cbn [app length] in *. lia.
  - destruct ((c =? 38)%N && match st with Cdata => false | _ => true end) eqn:A;
      [|destruct (match st with Attribute => isspace c | _ => false end); apply G].
    destruct (find_entity t s) as [x|] eqn:F; [|apply G].
    assert (c = 38%N) as -> by lia.
    destruct (find_entity_inv _ _ _ F) as (name & I & Sw). destruct (starts_with_inv _ _ Sw) as [s' Es].
    rewrite Forall_forall in T. destruct (T _ I) as [N X]. cbn [fst snd] in *.
    destruct (after_semicolon_some (38%N :: s)) as [r Er]; [right; subst s; apply in_or_app; now left|]. rewrite Er.
    assert (starts_ref s = false) as Sr.
    { destruct st; try (cbn in A; discriminate); destruct s as [|y s0]; try reflexivity; cbn in R |- *; destruct (N.eqb_spec y 35); try reflexivity; subst; cbn in R; destruct s0; discriminate. }
    destruct (after_semicolon_inv _ _ Er) as (q & Eq & Fq).
    assert (exists q', q = 38%N :: q') as [q' ->] by (destruct q as [|y q']; [discriminate|injection Eq as <- _; now exists q']).
    injection Eq as Eq.
    assert (S bound + 1 + length q' + weight (S bound) r <= weight (S bound) (38%N :: s)) as Wr.
    { cbn [weight]. change (38 =? 38)%N with true. rewrite Sr. cbn [andb negb]. rewrite Eq.
      pose proof (weight_suffix (S bound) q' (59%N :: r)). pose proof (weight_suffix (S bound) [59%N] r).
      cbn [app length] in *. lia. }
    destruct x as [|x0 x'] eqn:Ex.
    + unfold extend. cbn [length Nat.eqb orb plus]. set (k := _ - _ - _). clearbody k. cbn [app].
      destruct (after_semicolon (firstn k (38%N :: s))) as [r1|] eqn:E1.
      * apply IH. destruct (after_semicolon_inv _ _ E1) as (q1 & Eq1 & Fq1).
        assert (q1 = 38%N :: q' /\ exists n, r1 = firstn n r) as [_ [n ->]].
        { clear - Eq Eq1 Fq Fq1. rewrite Eq in Eq1. revert Eq1. change (38%N :: q' ++ 59%N :: r) with ((38%N :: q') ++ 59%N :: r).
          generalize dependent (38%N :: q'). intros q Fq. revert q1 k Fq1.
          induction Fq as [|c q C _ IHq]; intros q1 k Fq1 H.
          - destruct k; [now destruct q1|]. cbn in H. destruct q1 as [|d q1].
            + injection H as <-. split; [reflexivity|]. now exists k.
            + injection H as <- _. inversion Fq1; congruence.
          - destruct k; [now destruct q1|]. cbn in H. destruct q1 as [|d q1]; [injection H as E _; congruence|].
            injection H as <- H. inversion Fq1; subst. destruct (IHq _ _ H3 H) as [-> K]. now split. }
        pose proof (weight_firstn (S bound) n r). lia.
      * eapply (decode_no_semicolon bound); [now apply Forall_forall|now apply after_semicolon_none|].
        rewrite firstn_length. pose proof (weight_bound (S bound) (38%N :: s)). 
        assert (length (38%N :: s) < weight (S bound) (38%N :: s)); [|lia].
        pose proof (weight_bound (S bound) r). assert (length s = length q' + S (length r)) by (rewrite Eq, app_length; reflexivity). cbn [length]. lia.
    + destruct (extend_keeps m (length (x0 :: x')) (length (38%N :: s) - length r - 1) (38%N :: s)) as [m' E];
        [cbn [length]; lia|cbn; lia|].
      rewrite E, Er. rewrite <- Ex in *. apply IH.
      destruct X as [X|[X1 X2]].
      * destruct (predefined_value _ X) as (d & Ed & Ld & Nd). cbn [snd] in Ed. rewrite Ed.
        change ((b "&#" ++ d ++ b ";") ++ r) with (38%N :: 35%N :: (d ++ b ";") ++ r). cbn [weight starts_ref].
        change (35 =? 35)%N with true. cbn [negb]. rewrite andb_false_r. change (35 =? 38)%N with false. cbn [andb].
        rewrite weight_free.
        -- rewrite app_length, Ld. change (length (b ";")) with 1. lia.
        -- intros K. apply in_app_or in K as [K|[K|[]]]; [contradiction|discriminate].
      * rewrite weight_free by assumption. lia.
Qed.

Lemma normalize_length s : length (normalize s) <= length s.
Proof.
  assert (forall n s, length s <= n -> length (normalize s) <= length s) as G; [|now apply (G (length s))].
  induction n as [|n IH]; intros [|c l] H; cbn in *; try lia.
  destruct (c =? 13)%N; [|cbn; specialize (IH l); lia].
  destruct l as [|d l]; [cbn; lia|]. cbn [length] in H. pose proof (IH (d :: l)). pose proof (IH l).
  destruct (d =? 10)%N; cbn [length] in *; lia.
Qed.
Lemma parse_entities_ends bound t st s fuel : Forall (sound_entry bound) t -> 5 <= bound -> S bound * length s < fuel ->
  exists r, ParseEntities fuel t st s = Ok (Some r).
Proof.
  intros T B F. destruct (decode_ends bound t st T B fuel (normalize s) false []) as [r E].
  - pose proof (weight_bound (S bound) (normalize s)). pose proof (normalize_length s). nia.
  - unfold ParseEntities. rewrite E. now exists (cstr r).
Qed.
Lemma predefined_sound bound : Forall (sound_entry bound) predefined.
Proof.
  apply Forall_forall. intros e H. split; [|now left].
  destruct H as [<-|[<-|[<-|[<-|[<-|[]]]]]]; cbn; tauto.
Qed.

(** * ValidateEntities *)
Lemma skip_matching_predefined t s : exists n v l, skip_matching (predefined ++ t) s = (n, v) :: l /\ In 38%N v.
Proof.
  cbn [predefined app skip_matching]. destruct (starts_with (b "lt;") s) eqn:E1.
  - destruct s as [|c s]; [discriminate|].
    assert (starts_with (b "gt;") (c :: s) = false) as ->.
    { change (starts_with (b "lt;") (c :: s)) with ((108 =? c)%N && starts_with (b "t;") s) in E1.
      change (starts_with (b "gt;") (c :: s)) with ((103 =? c)%N && starts_with (b "t;") s).
      destruct (N.eqb_spec 108 c); [now subst|discriminate]. }
    do 3 eexists. split; [reflexivity|]. now left.
  - do 3 eexists. split; [reflexivity|]. now left.
Qed.
Lemma validate_amp limit t fuel : forall depth tag s, In 38%N s -> validate fuel depth limit tag (predefined ++ t) s = false.
Proof.
  induction fuel as [|fuel IH]; intros depth tag s H; [reflexivity|]. cbn [validate].
  destruct (limit <? depth); [reflexivity|].
  induction s as [|c s IHs]; [destruct H|].
  destruct (N.eqb_spec c 38) as [->|C].
  - destruct (starts_with tag s); [reflexivity|].
    destruct (skip_matching_predefined t s) as (n & v & l & -> & V). now rewrite IH.
  - apply IHs. destruct H; [congruence|assumption].
Qed.
Lemma validate_free limit t fuel depth tag s : depth <= limit -> ~ In 38%N s -> validate (S fuel) depth limit tag t s = true.
Proof.
  intros D H. cbn [validate]. destruct (Nat.ltb_spec limit depth); [lia|].
  induction s as [|c s IH]; [reflexivity|]. destruct (N.eqb_spec c 38); [destruct H; now left|].
  apply IH. intros K. apply H. now right.
Qed.
