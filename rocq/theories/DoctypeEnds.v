(** Document types without parameter entities: reading them ends, and stays inside the text. *)
From Coq Require Import Arith NArith ZArith Bool Lia String List ZifyBool ZifyNat ZifyN.
From Verif Require Import Base Outcome CStringModel OptionModel Base64Model ScanModel XmlModel DoctypeModel XmlProof XmlProof2 DoctypeProof.
Import ListNotations.

(** ** what is left of a text *)
Definition tail_of (r s : list N) : Prop := exists q, s = q ++ r.
Lemma tail_refl s : tail_of s s. Proof. now exists []. Qed.
Lemma tail_trans a c s : tail_of a c -> tail_of c s -> tail_of a s.
Proof. intros [q ->] [p ->]. exists (p ++ q). now rewrite app_assoc. Qed.
Lemma tail_cons c r s : tail_of (c :: r) s -> tail_of r s.
Proof. apply tail_trans. now exists [c]. Qed.
Lemma tail_tl s : tail_of (tl s) s. Proof. destruct s as [|c s]; [now exists []|now exists [c]]. Qed.
Lemma tail_skipn n s : tail_of (skipn n s) s. Proof. exists (firstn n s). now rewrite firstn_skipn. Qed.
Lemma span_split stop s : s = fst (span stop s) ++ snd (span stop s).
Proof. induction s as [|c s IH]; [reflexivity|]. cbn [span]. destruct (stop c); [reflexivity|]. destruct (span stop s). cbn in *. now rewrite <- IH. Qed.
Lemma tail_span stop s a r : span stop s = (a, r) -> tail_of r s.
Proof. intros E. exists a. pose proof (span_split stop s) as H. now rewrite E in H. Qed.
Lemma tail_snd stop s : tail_of (snd (span stop s)) s. Proof. exists (fst (span stop s)). apply span_split. Qed.
Lemma tail_skip p s : tail_of (skip p s) s. Proof. apply tail_snd. Qed.
Lemma tail_strstr x s r : strstr x s = Some r -> tail_of r s.
Proof.
  induction s as [|c s IH]; cbn [strstr].
  - destruct (starts_with x []); [|discriminate]. intros [= <-]. apply tail_refl.
  - destruct (starts_with x (c :: s)); [intros [= <-]; apply tail_refl|]. intros H. eapply tail_trans; [apply IH, H|]. now exists [c].
Qed.
Lemma tail_length r s : tail_of r s -> length r <= length s. Proof. intros [q ->]. rewrite app_length. lia. Qed.
Lemma tail_in c r s : tail_of r s -> ~ In c s -> ~ In c r. Proof. intros [q ->] H K. apply H, in_or_app. now right. Qed.

(** ** the value of an entity *)
Lemma decode_parameter_ends t : forall fuel s m out, ~ In 37%N s -> length s < fuel -> exists r, decode_parameter fuel t m out s = Ok (Some r) /\ length r <= length out + length s.
Proof.
  induction fuel as [|fuel IH]; intros s m out P L; [lia|]. destruct s as [|c s]; [exists out; split; [reflexivity|cbn; lia]|].
  assert (exists r, decode_parameter fuel t m (out ++ [c]) s = Ok (Some r) /\ length r <= length out + length (c :: s)) as G.
  { destruct (IH s m (out ++ [c])) as [r [E B]]; [intros K; apply P; now right|cbn in L; lia|]. exists r. rewrite app_length in B. cbn in *. split; [exact E|lia]. }
  cbn [decode_parameter]. destruct (starts_with (b "&#") (c :: s)) eqn:R.
  - assert (exists u, c :: s = b "&#" ++ u) as [u Eu] by now apply starts_with_inv.
    injection Eu as -> ->. cbn [tl].
    destruct (match u with [] => _ | _ :: _ => _ end) as [v e] eqn:V.
    destruct ((to_int v =? 0)%Z || negb (is 59 (fst (next e)))) eqn:Q; [exact G|].
    destruct e as [|x e]; [cbn in Q; lia|]. cbn [next fst is] in Q. assert (x = 59%N) as -> by lia.
    destruct (reference_ok u v e V) as (E & q & Eq); [lia|].
    change (38%N :: 35%N :: u) with (b "&#" ++ u) in *. rewrite E. set (bytes := char_bytes (to_int v)) in *.
    assert (length bytes + length e < length (b "&#" ++ u)) as B.
    { destruct (after_semicolon_inv _ _ E) as (q' & Eq' & _). assert (length (skipn (length bytes) (b "&#" ++ u)) = length (q' ++ 59%N :: e)) as H by now rewrite Eq'.
      rewrite skipn_length, (app_length q') in H. cbn [length] in H. lia. }
    destruct (IH e m (out ++ bytes)) as [r [Er Br]].
    + intros K. apply P. rewrite Eq. cbn. right; right. apply in_or_app. right. now right.
    + lia.
    + exists r. rewrite app_length in Br. split; [exact Er|lia].
  - destruct (N.eqb_spec c 37) as [->|]; [destruct P; now left|exact G].
Qed.
Lemma cstr_length s : length (cstr s) <= length s.
Proof. induction s as [|c s IH]; [auto|]. cbn. destruct (c =? 0)%N; cbn; lia. Qed.
Lemma normalize_in c s : c <> 10%N -> In c (normalize s) -> In c s.
Proof.
  intros C. assert (forall n s, length s <= n -> In c (normalize s) -> In c s) as G; [|eapply G; reflexivity].
  induction n as [|n IH]; intros u L; [destruct u; [auto|cbn in L; lia]|]. destruct u as [|x u]; [auto|]. cbn in L. cbn [normalize].
  destruct (x =? 13)%N.
  - destruct u as [|y u]; cbn [In] in *; [intuition congruence|]. destruct (y =? 10)%N; intros [K|K]; try congruence.
    + right; right. apply IH; [cbn in L; lia|exact K].
    + right. apply (IH (y :: u)); [lia|exact K].
  - intros [K|K]; [now left|right]. apply IH; [lia|exact K].
Qed.
Lemma parse_parameters_ends fuel t s : ~ In 37%N s -> length s < fuel -> exists v, ParseParameters fuel t s = Ok (Some v) /\ length v <= length s.
Proof.
  intros P L. pose proof (normalize_length s) as B. destruct (decode_parameter_ends t fuel (normalize s) false []) as [r [E R]].
  - intros K. apply P. apply (normalize_in 37%N); [discriminate|exact K].
  - lia.
  - unfold ParseParameters. rewrite E. cbn. exists (cstr r). split; [reflexivity|]. pose proof (cstr_length r). cbn in R. lia.
Qed.

(** ** attributes *)
Definition fits (bound : nat) (d : dtd) : Prop := exists t, general d = predefined ++ t /\ Forall (sound_entry bound) (general d).
Lemma attlist_ends bound dec i e : forall fuel cur x d, fits bound d -> 5 <= bound -> S bound * length x < dec -> length x < fuel ->
  (exists d', attlist fuel dec i e cur x d = Ok (Some (inr d'))) \/
  (exists d' cur' x' n, attlist fuel dec i e cur x d = Ok (Some (inl (d', cur', x', n))) /\ fits bound d' /\ (cur' = 0%N \/ (cur' = cur /\ x' = x) \/ tail_of (cur' :: x') x)).
Proof.
  induction fuel as [|fuel IH]; intros cur x d Fd B D L; [lia|].
  assert (forall cur1 x1 d1, general d1 = general d -> tail_of x1 x -> length x1 < length x -> cur1 = 0%N \/ tail_of (cur1 :: x1) x ->
    (exists d', attlist fuel dec i e cur1 x1 d1 = Ok (Some (inr d'))) \/
    (exists d' cur' x' n, attlist fuel dec i e cur1 x1 d1 = Ok (Some (inl (d', cur', x', n))) /\ fits bound d' /\ (cur' = 0%N \/ (cur' = cur /\ x' = x) \/ tail_of (cur' :: x') x))) as Step.
  { intros cur1 x1 d1 E1 T1 L1 C1. destruct (IH cur1 x1 d1) as [H|(d' & cur' & x' & n & H & F' & K)].
    - unfold fits in *. now rewrite E1.
    - exact B.
    - nia.
    - lia.
    - now left.
    - right. exists d', cur', x', n. split; [exact H|]. split; [exact F'|]. destruct K as [K|[[-> ->]|K]]; [now left| |right; right; now apply tail_trans with x1].
      destruct C1 as [C1|C1]; [now left|right; now right]. }
  cbn [attlist]. pose proof (tail_skip xml_space x) as T0. set (n := skip xml_space x) in *.
  destruct n as [|c n'] eqn:En; [right; exists d, cur, x, []; split; [reflexivity|]; split; [exact Fd|right; now left]|].
  destruct (N.eq_dec c 62) as [->|NE]; [right; exists d, cur, x, (62%N :: n'); split; [reflexivity|]; split; [exact Fd|right; now left]|].
  assert (forall (T : Type) (x y : T), match c with 62%N => x | _ => y end = y) as K.
  { intros T x' y. destruct c as [|p]; [reflexivity|]. do 6 (destruct p as [p|p|]; try reflexivity). contradiction. }
  rewrite K. clear K.
  destruct (span xml_space (c :: n')) as [name x0] eqn:S0. pose proof (tail_span _ _ _ _ S0) as T1.
  destruct x0 as [|c1 x1]; [left; now exists d|].
  pose proof (tail_skip xml_space x1) as T2. set (x2 := skip xml_space x1) in *.
  assert (length x1 < length x) as L1. { pose proof (tail_length _ _ T0). pose proof (tail_length _ _ T1). cbn in *. lia. }
  assert (tail_of x1 x) as U1 by (apply tail_cons with c1; now apply tail_trans with (c :: n')).
  clear T1 S0 T0 En. clearbody n.
  set (tokens := negb (starts_with (b "CDATA") x2)). 
  assert (tail_of (if starts_with (b "NOTATION") x2 then skip xml_space (skipn 8 x2) else x2) x1) as T3.
  { destruct (starts_with (b "NOTATION") x2); [|exact T2]. eapply tail_trans; [apply tail_skip|]. eapply tail_trans; [apply tail_skipn|exact T2]. }
  set (x3 := if starts_with (b "NOTATION") x2 then _ else _) in *.
  destruct (if is 40 (fst (next x3)) then strstr [41%N] x3 else Some (snd (span xml_space x3))) as [x4|] eqn:E4; [|left; now exists d].
  assert (tail_of x4 x1) as T4.
  { eapply tail_trans; [|exact T3]. destruct (is 40 (fst (next x3))); [now apply tail_strstr with [41%N]|]. injection E4 as <-. apply tail_snd. }
  assert (tail_of (let x := skip (fun c => xml_space c || (c =? 41)%N) x4 in if starts_with (b "#FIXED") x then skip xml_space (skipn 6 x) else x) x1) as T5.
  { cbv zeta. destruct (starts_with (b "#FIXED") _); (eapply tail_trans; [|exact T4]); [|apply tail_skip]. eapply tail_trans; [apply tail_skip|]. eapply tail_trans; [apply tail_skipn|apply tail_skip]. }
  cbv zeta in T5. set (x5 := if starts_with (b "#FIXED") (skip _ x4) then _ else _) in *.
  destruct x5 as [|q v] eqn:E5; [left; now exists d|]. clearbody x3. clear E4 T4 T3 T2.
  pose proof (tail_length _ _ T5) as L5. cbn [length] in L5.
  destruct (N.eqb_spec q 35) as [->|Q35].
  - assert (span (fun c => xml_space c || (c =? 62)%N) (35%N :: v) = (35%N :: fst (span (fun c => xml_space c || (c =? 62)%N) v), snd (span (fun c => xml_space c || (c =? 62)%N) v))) as ->.
    { cbn [span]. change (xml_space 35 || (35 =? 62)%N) with false. cbv iota. destruct (span _ v). reflexivity. }
    set (w := 35%N :: fst (span (fun c => xml_space c || (c =? 62)%N) v)). set (r := snd (span (fun c => xml_space c || (c =? 62)%N) v)).
    assert (35%N :: v = w ++ r) as Ev. { unfold w, r. cbn [app]. f_equal. apply span_split. }
    assert (tail_of r v) as Tr by apply tail_snd.
    assert (tail_of r x) as Tx by (eapply tail_trans; [exact Tr|]; apply tail_cons with 35%N; eapply tail_trans; [exact T5|exact U1]).
    assert (length r < length x) as Lr by (pose proof (tail_length _ _ Tr); lia).
    assert (tail_of (last w 0%N :: r) x) as Tc.
    { eapply tail_trans; [|eapply tail_trans; [exact T5|exact U1]]. exists (removelast w). rewrite Ev. change (last w 0%N :: r) with ([last w 0%N] ++ r). rewrite app_assoc.
      rewrite <- (app_removelast_last 0%N) by discriminate. reflexivity. }
    destruct tokens; (apply Step; [reflexivity|exact Tx|exact Lr|now right]).
  - destruct ((q =? 34) || (q =? 39))%N; [|left; now exists d].
    destruct (span (N.eqb q) v) as [value rest] eqn:Sv. destruct rest as [|c2 rest]; [left; now exists d|].
    pose proof (tail_span _ _ _ _ Sv) as Tv. assert (v = value ++ c2 :: rest) as Ev by (pose proof (span_split (N.eqb q) v) as H; now rewrite Sv in H).
    assert (length value < length x) as Lv by (rewrite Ev, app_length in L5; cbn in L5; lia).
    assert (exists u, (if tokens then ParseTokens dec (general d) value else ParseEntities dec (general d) Attribute value) = Ok (Some u)) as [u ->].
    { destruct Fd as [t [_ Ft]]. destruct (parse_entities_ends bound (general d) Attribute value dec Ft B) as [r Er]; [nia|].
      destruct tokens; [unfold ParseTokens; rewrite Er; eexists; reflexivity|eauto]. }
    cbn [bind]. apply Step; [reflexivity| | |now left].
    + apply tail_cons with c2. eapply tail_trans; [exact Tv|]. apply tail_cons with q. eapply tail_trans; [exact T5|exact U1].
    + rewrite Ev, app_length in L5. cbn in L5. lia.
Qed.

(** ** declarations *)
Lemma span_head stop s a r : span stop s = (a, r) -> match s with c :: _ => stop c = false | [] => False end -> length r < length s.
Proof. destruct s as [|c s]; [easy|]. cbn [span]. intros E H. rewrite H in E. destruct (span stop s) as [a' r'] eqn:E'. injection E as <- <-. pose proof (tail_length _ _ (tail_span _ _ _ _ E')). cbn. lia. Qed.
(** what was read fits, too *)
Definition read_fits (bound : nat) (v : verdict) : Prop := match v with Read d => fits bound d | Refused _ => True end.
Lemma declarations_fit bound dec lim : forall fuel n x d, ~ In 37%N x -> fits bound d -> 5 <= bound -> length x <= bound -> S bound * length x < dec -> length x < fuel ->
  exists v, declarations fuel dec lim n x d = Ok (Some v) /\ read_fits bound v.
Proof.
  induction fuel as [|fuel IH]; intros n x d P Fd B Lb D L; [lia|]. cbn [declarations].
  pose proof (tail_snd (one_of [60; 37]%N) x) as T. set (y := snd (span (one_of [60; 37]%N) x)) in *.
  destruct y as [|c0 after] eqn:Ey; [exists (Read d); split; [reflexivity|exact Fd]|]. rewrite <- Ey in *. assert (y <> []) as Ny by (rewrite Ey; discriminate).
  pose proof (tail_length _ _ T) as Ly.
  assert (forall n r d', general d' = general d \/ fits bound d' -> tail_of r y -> length r < length y -> exists v, declarations fuel dec lim n r d' = Ok (Some v) /\ read_fits bound v) as Step.
  { intros n1 r d' Hd Tr Lr. pose proof (tail_trans _ _ _ Tr T) as Tx. apply IH; [now apply (tail_in 37%N r x)| |exact B|lia|nia|lia]. destruct Hd as [E|H]; [|exact H]. unfold fits. now rewrite E. }
  assert (length y = S (length after)) as Lc by now rewrite Ey.
  destruct ((9 <? length y) && starts_with (b "<!ENTITY") y).
  - destruct (negb (xml_space (List.hd 0%N (skipn 8 y)))); [exists (Read d); split; [reflexivity|exact Fd]|].
    pose proof (tail_skipn 8 y) as T1. pose proof (tail_skip xml_space (skipn 8 y)) as T2. set (c := skip xml_space (skipn 8 y)) in *.
    assert (~ In 37%N c) as Pc by (apply (tail_in 37%N c x); [|exact P]; eapply tail_trans; [exact T2|]; eapply tail_trans; [exact T1|exact T]).
    pose proof (tail_skip (fun c => xml_space c || (c =? 37)%N) c) as T3. set (m := skip _ c) in *.
    destruct (negb _); [exists (Read d); split; [reflexivity|exact Fd]|].
    destruct (span xml_space m) as [name z] eqn:Sm. pose proof (tail_span _ _ _ _ Sm) as T4. destruct z as [|c1 z]; [exists (Read d); split; [reflexivity|exact Fd]|].
    assert (tail_of (c1 :: z) y) as Tz by (eapply tail_trans; [exact T4|]; eapply tail_trans; [exact T3|]; eapply tail_trans; [exact T2|exact T1]).
    assert (length z < length y) as Lz by (pose proof (tail_length _ _ Tz); cbn in *; lia). apply tail_cons in Tz.
    assert (exists v, match strstr [62%N] z with Some x0 => declarations fuel dec lim (Some (name ++ 59%N :: z)) x0 d | None => Ok (Some (Read d)) end = Ok (Some v) /\ read_fits bound v) as Other.
    { destruct (strstr [62%N] z) as [r|] eqn:Er; [|exists (Read d); split; [reflexivity|exact Fd]]. apply tail_strstr in Er. apply Step; [now left|now apply tail_trans with z|]. pose proof (tail_length _ _ Er). lia. }
    pose proof (tail_skip xml_space z) as Tv. destruct (skip xml_space z) as [|q v]; [exact Other|].
    destruct ((q =? 34) || (q =? 39))%N; [|exact Other]. clear Other.
    destruct (span (N.eqb q) v) as [value rest] eqn:Sv. assert (v = value ++ rest) as Ev by (pose proof (span_split (N.eqb q) v) as H; now rewrite Sv in H).
    pose proof (tail_length _ _ Tv) as Lv. cbn [length] in Lv.
    assert (tail_of v y) as Tvy by (apply tail_cons with q; eapply tail_trans; [exact Tv|exact Tz]).
    assert (~ In 37%N value) as Pv. { intros K. apply (tail_in 37%N v x); [eapply tail_trans; [exact Tvy|exact T]|exact P|]. rewrite Ev. apply in_or_app. now left. }
    assert (length value + length rest = length v) as Lvv by (rewrite Ev, app_length; reflexivity).
    destruct (parse_parameters_ends dec (parameters d) value Pv) as [u [Eu Lu]]; [nia|]. rewrite Eu. cbn [bind].
    assert (is 37 (fst (next c)) = false) as ->. { destruct c as [|h c]; [reflexivity|]. cbn. destruct (N.eqb_spec h 37); [destruct Pc; now left|reflexivity]. }
    destruct (ValidateEntities lim (name ++ [59%N]) (general d) u) eqn:V; [|exists (Refused d); split; [reflexivity|exact I]].
    assert (fits bound {| general := general d ++ [(name ++ [59%N], u)]; parameters := parameters d; defaults := defaults d; standalone := standalone d |}) as Fu.
    { destruct Fd as [t [Et Ft]]. exists (t ++ [(name ++ [59%N], u)]). cbn [general]. split; [rewrite Et; now rewrite app_assoc|].
      apply Forall_app. split; [exact Ft|]. constructor; [|constructor]. split; [cbn; apply in_or_app; right; now left|right]. cbn. split; [|lia].
      intros K. rewrite Et in V. unfold ValidateEntities in V. rewrite validate_amp in V by exact K. discriminate. }
    destruct rest as [|c2 rest]; [eexists; split; [reflexivity|exact Fu]|]. cbn [length] in Lvv. apply Step; [right; exact Fu| |lia].
    + apply tail_cons with c2. apply tail_trans with v; [exists value; exact Ev|exact Tvy].
  - destruct (starts_with (b "<!ATTLIST") y) eqn:Sa.
    + pose proof (tail_skipn 9 y) as T1. pose proof (tail_skip xml_space (skipn 9 y)) as T2. set (t := skip xml_space (skipn 9 y)) in *.
      destruct t as [|c1 t'] eqn:Et; [exists (Refused d); split; [reflexivity|exact I]|]. rewrite <- Et in *.
      assert (length t < length y) as Lt. { pose proof (tail_length _ _ T2) as K. rewrite skipn_length in K. lia. }
      assert (tail_of t y) as Ty by (eapply tail_trans; [exact T2|exact T1]).
      destruct (span (fun c => xml_space c || (c =? 62)%N) t) as [element z] eqn:Se. pose proof (tail_span _ _ _ _ Se) as Tz. pose proof (tail_length _ _ Tz) as Lz.
      assert (exists v, declarations fuel dec lim n z d = Ok (Some v) /\ read_fits bound v) as G by (apply Step; [now left|eapply tail_trans; [exact Tz|exact Ty]|lia]).
      set (i := match n with Some n => position n (defaults d) | None => 0 end).
      assert (exists v, (let* r := attlist (S (length z)) dec i element 0 (tl z) d in
         match r with None => Ok None | Some (inr d) => Ok (Some (Refused d))
         | Some (inl (d, cur, x, n)) => if (cur =? 0)%N then Ok (Some (Read d)) else declarations fuel dec lim (Some n) (cur :: x) d end) = Ok (Some v) /\ read_fits bound v) as H.
      { pose proof (tail_tl z) as T3. pose proof (tail_length _ _ T3) as L3.
        destruct (attlist_ends bound dec i element (S (length z)) 0%N (tl z) d Fd B) as [[d' E]|(d' & cur' & x' & n' & E & F' & K)]; [nia|lia| |]; rewrite E; cbn [bind]; [exists (Refused d'); split; [reflexivity|exact I]|].
        destruct (N.eqb_spec cur' 0) as [|C]; [exists (Read d'); split; [reflexivity|exact F']|]. destruct K as [K|[[K _]|K]]; [contradiction|contradiction|].
        apply Step; [now right| |].
        - eapply tail_trans; [exact K|]. eapply tail_trans; [exact T3|]. eapply tail_trans; [exact Tz|exact Ty].
        - pose proof (tail_length _ _ K). lia. }
      destruct z as [|c z]; [exact H|]. destruct c as [|p]; [exact H|]. do 6 (destruct p as [p|p|]; try exact H). exact G.
    + destruct (starts_with (b "<!--") y) eqn:Sc.
      * destruct (strstr (b "-->") (skipn 4 y)) as [r|] eqn:Er; [|exists (Read d); split; [reflexivity|exact Fd]]. apply tail_strstr in Er. apply Step; [now left|eapply tail_trans; [exact Er|apply tail_skipn]|].
        pose proof (tail_length _ _ Er) as K. rewrite skipn_length in K. lia.
      * destruct (starts_with (b "<?") y) eqn:Sq.
        -- destruct (strstr (b "?>") (skipn 2 y)) as [r|] eqn:Er; [|exists (Read d); split; [reflexivity|exact Fd]]. apply tail_strstr in Er. apply Step; [now left| |].
           ++ eapply tail_trans; [apply tail_tl|]. eapply tail_trans; [exact Er|apply tail_skipn].
           ++ pose proof (tail_length _ _ Er) as K. rewrite skipn_length in K. pose proof (tail_length _ _ (tail_tl r)). lia.
        -- destruct (N.eqb_spec c0 60) as [->|C].
           ++ rewrite Ey. cbn [strstr]. change (starts_with [62%N] (60%N :: after)) with false. cbv iota.
              destruct (strstr [62%N] after) as [r|] eqn:Er; [|exists (Read d); split; [reflexivity|exact Fd]]. apply tail_strstr in Er.
              apply Step; [now left|rewrite Ey; eapply tail_trans; [exact Er|now exists [60%N]]|]. pose proof (tail_length _ _ Er). lia.
           ++ destruct (standalone d); [|exists (Read d); split; [reflexivity|exact Fd]]. apply Step; [now left|rewrite Ey; now exists [c0]|lia].
Qed.

Lemma declarations_end bound dec lim fuel n x d : ~ In 37%N x -> fits bound d -> 5 <= bound -> length x <= bound -> S bound * length x < dec -> length x < fuel ->
  exists v, declarations fuel dec lim n x d = Ok (Some v).
Proof. intros P F B L D Lf. destruct (declarations_fit bound dec lim fuel n x d P F B L D Lf) as [v [E _]]. now exists v. Qed.
