(** Lemmas on the reader of packet attributes and digest files. *)
From Coq Require Import Arith NArith ZArith Bool String Lia ZifyBool ZifyNat ZifyN List.
From Verif Require Import Base Outcome CStringModel CStringSpec CStringProps CStringProps2 OptionModel ScanModel.
Import ListNotations.

Ltac Zify.zify_post_hook ::= Z.div_mod_to_equations.

Definition nonzero (l : list N) : Prop := Forall (fun c => c <> 0%N) l.
Lemma cstr_nonzero l : nonzero l -> cstr l = l.
Proof.
  induction 1 as [|c l H _ IH]; [reflexivity|]. cbn [cstr]. destruct (N.eqb_spec c 0); [contradiction|]. now rewrite IH.
Qed.
Lemma cstr_length l : length (cstr l) <= length l.
Proof. induction l as [|c l IH]; [constructor|]. cbn [cstr]. destruct (N.eqb_spec c 0); cbn [length]; lia. Qed.

Lemma skip_drop l : skip (fst (next l)) (snd (next l)) = next (drop_spaces l).
Proof.
  destruct l as [|c l]; [reflexivity|]. cbn [next fst snd]. revert c. induction l as [|d l IH]; intros c; cbn [skip at_space drop_spaces].
  - now destruct (isspace c).
  - destruct (isspace c); [apply IH | reflexivity].
Qed.
Lemma drop_spaces_app p l : Forall (fun c => isspace c = true) p -> drop_spaces (p ++ l) = drop_spaces l.
Proof. induction 1 as [|c p H _ IH]; [reflexivity|]. cbn [app drop_spaces]. now rewrite H. Qed.
Lemma drop_spaces_stop c l : isspace c = false -> drop_spaces (c :: l) = c :: l.
Proof. intros H. cbn [drop_spaces]. now rewrite H. Qed.
Lemma drop_spaces_length l : length (drop_spaces l) <= length l.
Proof. induction l as [|c l IH]; [constructor|]. cbn [drop_spaces]. destruct (isspace c); cbn [length]; lia. Qed.
Lemma drop_spaces_suffix l : exists p, l = p ++ drop_spaces l.
Proof.
  induction l as [|c l [p E]]; [now exists []|]. cbn [drop_spaces]. destruct (isspace c); [|now exists []].
  exists (c :: p). cbn [app]. now rewrite <- E.
Qed.
Lemma drop_spaces_head l : match drop_spaces l with c :: _ => isspace c = false | [] => True end.
Proof. induction l as [|c l IH]; [exact I|]. cbn [drop_spaces]. destruct (isspace c) eqn:E; [exact IH | exact E]. Qed.

Section Scan.
Variable E : nat.
Variable s : scanner.

(** the loops as functions of what is left of the file *)
Definition keyL (key l : list N) := get_key E s key (fst (next l)) (snd (next l)).
Definition valueL (v : list N) (len cap : nat) (l : list N) := get_value E s v len cap (fst (next l)) (snd (next l)).
Definition innerL (fuel : nat) (l : list N) (len cap : nat) (toks : list token) :=
  inner E s fuel (fst (next l)) (snd (next l)) len cap toks.

Definition keychar (c : N) : bool := negb (isspace c) && negb (c =? kt s)%N.

Lemma keyL_cons key c l : keyL key (c :: l) =
  if keychar c then keyL (if length key <? E then key ++ [c] else key) l else (key, Some c, l).
Proof.
  unfold keyL, keychar. destruct l as [|d l]; cbn [next fst snd get_key];
    destruct (isspace c); cbn [orb negb andb]; try reflexivity; destruct (c =? kt s)%N; reflexivity.
Qed.
Lemma keyL_ok k l : Forall (fun c => keychar c = true) k ->
  match l with [] => True | c :: _ => keychar c = false end ->
  forall key, length key + length k <= E -> keyL key (k ++ l) = (key ++ k, fst (next l), snd (next l)).
Proof.
  intros K L. induction K as [|c k Hc K IH]; intros key Len.
  - cbn [app]. rewrite app_nil_r. destruct l as [|c l]; [reflexivity|]. rewrite keyL_cons, L. reflexivity.
  - cbn [app length] in *. rewrite keyL_cons, Hc. destruct (Nat.ltb_spec (length key) E); [|lia].
    rewrite IH by (rewrite app_length; cbn [length]; lia). now rewrite <- app_assoc.
Qed.
(** what was read is a run of key characters, cut to the buffer *)
Lemma keyL_run l : forall key, length key <= E ->
  exists k r, l = k ++ r /\ Forall (fun c => keychar c = true) k /\
    keyL key l = (firstn E (key ++ k), fst (next r), snd (next r)).
Proof.
  induction l as [|c l IH]; intros key Len.
  - exists [], []. split; [reflexivity|]. split; [constructor|]. rewrite app_nil_r, firstn_all2 by lia. reflexivity.
  - rewrite keyL_cons. destruct (keychar c) eqn:C.
    + set (key' := if length key <? E then key ++ [c] else key).
      assert (L' : length key' <= E).
      { unfold key'. destruct (Nat.ltb_spec (length key) E); [rewrite app_length; cbn [length]; lia | lia]. }
      destruct (IH key' L') as (k & r & -> & F & Eq). exists (c :: k), r. split; [reflexivity|]. split; [now constructor|].
      rewrite Eq. f_equal. f_equal. unfold key'. destruct (Nat.ltb_spec (length key) E).
      * now rewrite <- app_assoc.
      * rewrite !firstn_app. replace (E - length key) with 0 by lia. cbn [firstn]. now rewrite !app_nil_r.
    + exists [], (c :: l). split; [reflexivity|]. split; [constructor|]. rewrite app_nil_r, firstn_all2 by lia. reflexivity.
Qed.

Lemma valueL_cons v len cap c l : valueL v len cap (c :: l) =
  if (c =? vt s)%N then Ok (v, len, cap, Some c, l)
  else
    let '(v, len, cap) := if len <=? length v + 1 then (cstr v, 2 * len, 2 * len + E) else (v, len, cap) in
    if cap <=? length v then UB
    else match l with
         | [] => Ok (v ++ [c], len, cap, None, [])
         | d :: l' => if negb (hd 0%N (v ++ [c]) =? vt s)%N && isspace d then Ok (v ++ [c], len, cap, Some d, l')
                      else valueL (v ++ [c]) len cap l
         end.
Proof.
  unfold valueL. cbn [next fst snd]. destruct l as [|d l]; cbn [get_value]; (destruct (c =? vt s)%N; [reflexivity|]);
    destruct (len <=? length v + 1); reflexivity.
Qed.

(** what ends a value *)
Definition ends_value (l : list N) : Prop :=
  match l with [] => True | c :: _ => c = vt s \/ isspace c = true end.
Lemma value_tail w l len cap : Forall (fun c => isspace c = false /\ c <> vt s) w -> len <= cap -> ends_value l ->
  forall v, hd 0%N v <> vt s -> v <> [] -> length v + length w + 1 < len ->
  match w ++ l with
  | [] => Ok (v, len, cap, None, [])
  | d :: l' => if isspace d then Ok (v, len, cap, Some d, l') else valueL v len cap (w ++ l)
  end = Ok (v ++ w, len, cap, fst (next l), snd (next l)).
Proof.
  intros W Le Hl. induction W as [|c w [Sc Nc] W IH]; intros v Hv Ne Len.
  - cbn [app]. rewrite app_nil_r. destruct l as [|c l]; [reflexivity|]. destruct (isspace c) eqn:Sc; [reflexivity|].
    destruct Hl as [->|H]; [|congruence]. rewrite valueL_cons, N.eqb_refl. reflexivity.
  - cbn [app length] in *. rewrite Sc, valueL_cons. destruct (N.eqb_spec c (vt s)); [contradiction|].
    destruct (Nat.leb_spec len (length v + 1)); [lia|]. destruct (Nat.leb_spec cap (length v)); [lia|].
    assert (Hh : hd 0%N (v ++ [c]) <> vt s) by (destruct v; [contradiction | exact Hv]).
    destruct (N.eqb_spec (hd 0%N (v ++ [c])) (vt s)); [contradiction|]. cbn [negb andb].
    replace (v ++ c :: w) with ((v ++ [c]) ++ w) by now rewrite <- app_assoc.
    apply IH; [exact Hh | now destruct v | rewrite app_length; cbn [length]; lia].
Qed.
(** a value that is not empty *)
Lemma valueL_ok c w l len cap : c <> vt s -> Forall (fun c => isspace c = false /\ c <> vt s) w -> len <= cap -> ends_value l ->
  length w + 2 < len ->
  valueL [] len cap (c :: w ++ l) = Ok (c :: w, len, cap, fst (next l), snd (next l)).
Proof.
  intros Nc W Le Hl Len. rewrite valueL_cons. destruct (N.eqb_spec c (vt s)); [contradiction|]. cbn [length].
  destruct (Nat.leb_spec len (0 + 1)); [lia|]. cbn [length]. destruct (Nat.leb_spec cap 0); [lia|]. cbn [app hd].
  destruct (N.eqb_spec c (vt s)); [contradiction|]. cbn [negb andb].
  apply (value_tail w l len cap W Le Hl [c]); [assumption | discriminate | cbn [length]; lia].
Qed.

(** ** the turns of the loop *)
Lemma innerL_end fuel l len cap toks : match l with [] => True | c :: _ => isgraph c && negb (c =? 62)%N = false end ->
  innerL (S fuel) l len cap toks = Ok (Some (toks, fst (next l), snd (next l))).
Proof. intros H. unfold innerL. destruct l as [|c l]; [reflexivity|]. cbn [next fst snd inner]. now rewrite H. Qed.

Lemma innerL_punct fuel c l len cap toks : isgraph c && negb (c =? 62)%N = true -> starts s c = false ->
  innerL (S fuel) (c :: l) len cap toks = innerL fuel (drop_spaces l) len cap toks.
Proof.
  intros G S. unfold innerL. cbn [next fst snd inner]. rewrite G, S.
  rewrite (surjective_pairing (next l)). rewrite skip_drop. now destruct (next (drop_spaces l)).
Qed.

Lemma innerL_key fuel l len cap toks :
  match l with [] => False | c :: _ => isgraph c && negb (c =? 62)%N = true /\ starts s c = true end ->
  innerL (S fuel) l len cap toks =
    let '(key, c, rest) := keyL [] l in
    if E <=? length key then UB
    else
      let '(c, rest) := skip c rest in
      let* (value, len, cap, c, rest) :=
        if is (kt s) c then let '(c, rest) := next rest in get_value E s [] len cap c rest
        else Ok ([], len, cap, c, rest) in
      if cap <=? length value then UB
      else let '(c, rest) := skip c rest in
           inner E s fuel c rest len cap (toks ++ [(cstr key, cstr value)]).
Proof.
  intros H. unfold innerL, keyL. destruct l as [|c l]; [contradiction|]. destruct H as [G S].
  cbn [next fst snd inner]. now rewrite G, S.
Qed.

Definition startkey (k : list N) : Prop :=
  match k with [] => False | c :: _ => isgraph c && negb (c =? 62)%N = true /\ starts s c = true end.
Lemma startkey_app k l : startkey k ->
  match k ++ l with [] => False | c :: _ => isgraph c && negb (c =? 62)%N = true /\ starts s c = true end.
Proof. destruct k; [intros [] | intros H; exact H]. Qed.

Lemma skip_next l : skip (fst (next l)) (snd (next l)) = (fst (next (drop_spaces l)), snd (next (drop_spaces l))).
Proof. rewrite skip_drop. apply surjective_pairing. Qed.

(** a key that no value follows *)
Lemma innerL_word fuel k l len cap toks : startkey k -> Forall (fun c => keychar c = true) k -> nonzero k -> length k < E ->
  match l with [] => True | c :: _ => isspace c = true end ->
  match drop_spaces l with [] => True | c :: _ => c <> kt s end -> 0 < cap ->
  innerL (S fuel) (k ++ l) len cap toks = innerL fuel (drop_spaces l) len cap (toks ++ [(k, [])]).
Proof.
  intros S K Nz Len Sp Nk Cap. rewrite innerL_key by now apply startkey_app.
  rewrite (keyL_ok k l K) by (first [cbn [length]; lia | destruct l as [|c l]; [exact I | unfold keychar; now rewrite Sp]]).
  cbn [app]. destruct (Nat.leb_spec E (length k)); [lia|]. rewrite skip_next.
  assert (Is : is (kt s) (fst (next (drop_spaces l))) = false).
  { destruct (drop_spaces l) as [|c d]; [reflexivity|]. cbn [next fst is]. now apply N.eqb_neq. }
  rewrite Is. cbn [bind length]. destruct (Nat.leb_spec cap 0); [lia|].
  assert (D : drop_spaces (drop_spaces l) = drop_spaces l).
  { pose proof (drop_spaces_head l) as Hd. destruct (drop_spaces l) as [|c d]; [reflexivity|]. now apply drop_spaces_stop. }
  rewrite skip_next, D, cstr_nonzero by exact Nz. reflexivity.
Qed.

(** a key and its value *)
Lemma innerL_pair fuel k c w l len cap toks : startkey k -> Forall (fun c => keychar c = true) k -> nonzero k -> length k < E ->
  isspace (kt s) = false -> c <> vt s -> Forall (fun c => isspace c = false /\ c <> vt s) w -> nonzero (c :: w) -> len <= cap ->
  ends_value l -> length w + 2 < len ->
  innerL (S fuel) (k ++ kt s :: c :: w ++ l) len cap toks = innerL fuel (drop_spaces l) len cap (toks ++ [(k, c :: w)]).
Proof.
  intros S K Nz Len Kt Nc W Nw Le Hl Lw. rewrite innerL_key by now apply startkey_app.
  rewrite (keyL_ok k (kt s :: c :: w ++ l) K) by (first [cbn [length]; lia | unfold keychar; now rewrite N.eqb_refl, andb_false_r]).
  cbn [app]. destruct (Nat.leb_spec E (length k)); [lia|]. rewrite skip_next, drop_spaces_stop by exact Kt.
  cbn [next fst snd is]. rewrite N.eqb_refl.
  pose proof (valueL_ok c w l len cap Nc W Le Hl Lw) as V. unfold valueL in V. cbn [next fst snd] in V. rewrite V. cbn [bind].
  destruct (Nat.leb_spec cap (length (c :: w))) as [G|G]; [cbn [length] in G; lia|].
  rewrite skip_next, !cstr_nonzero by assumption. reflexivity.
Qed.

(** ** any file *)
Lemma valueL_safe l : forall v len cap, length v + 1 <= len -> len <= cap ->
  exists v' len' cap' r, valueL v len cap l = Ok (v', len', cap', fst (next r), snd (next r)) /\
    (exists p, l = p ++ r) /\ length v' < cap' /\ 1 <= len' <= cap'.
Proof.
  induction l as [|c l IH]; intros v len cap Lv Le.
  - exists v, len, cap, []. split; [reflexivity|]. split; [now exists []|]. lia.
  - rewrite valueL_cons. destruct (N.eqb_spec c (vt s)) as [->|Nc].
    { exists v, len, cap, (vt s :: l). split; [reflexivity|]. split; [now exists []|]. lia. }
    set (t := if len <=? length v + 1 then _ else _).
    assert (T : exists v1 len1 cap1, t = (v1, len1, cap1) /\ length v1 + 2 <= len1 /\ len1 <= cap1).
    { unfold t. destruct (Nat.leb_spec len (length v + 1)).
      - pose proof (cstr_length v). exists (cstr v), (2 * len), (2 * len + E). split; [reflexivity|]. lia.
      - exists v, len, cap. split; [reflexivity|]. lia. }
    destruct T as (v1 & len1 & cap1 & -> & L1 & L2). destruct (Nat.leb_spec cap1 (length v1)); [lia|].
    destruct l as [|d l].
    + exists (v1 ++ [c]), len1, cap1, []. split; [reflexivity|]. split; [exists [c]; reflexivity|].
      rewrite app_length. cbn [length]. lia.
    + destruct (_ && isspace d) eqn:B.
      * exists (v1 ++ [c]), len1, cap1, (d :: l). split; [reflexivity|]. split; [exists [c]; reflexivity|].
        rewrite app_length. cbn [length]. lia.
      * destruct (IH (v1 ++ [c]) len1 cap1) as (v' & len' & cap' & r & Eq & (p & Ep) & R);
          [rewrite app_length; cbn [length]; lia | lia |].
        exists v', len', cap', r. split; [exact Eq|]. split; [exists (c :: p); cbn [app]; now rewrite <- Ep | exact R].
Qed.

(** the keys of a file fit the buffer *)
Definition keys_fit (file : list N) : Prop :=
  forall p k q, file = p ++ k ++ q -> Forall (fun c => keychar c = true) k -> length k < E.

Lemma innerL_total file : keys_fit file -> forall fuel l len cap toks,
  (exists p, file = p ++ l) -> 1 <= len -> len <= cap ->
  exists r, innerL fuel l len cap toks = Ok r /\ (length l < fuel -> r <> None) /\
    forall toks' c rest, r = Some (toks', c, rest) ->
      exists q, (exists p, file = p ++ q) /\ (c, rest) = next q /\ length q <= length l /\
        match q with [] => True | c :: _ => isgraph c && negb (c =? 62)%N = false /\ (isspace c = false \/ q = l) end.
Proof.
  intros Fit. induction fuel as [|fuel IH]; intros l len cap toks [pl Suf] Le1 Le2.
  - exists None. split; [reflexivity|]. split; [lia|]. intros ? ? ? X. discriminate X.
  - assert (End : match l with [] => True | c :: _ => isgraph c && negb (c =? 62)%N = false end ->
      exists r, innerL (S fuel) l len cap toks = Ok r /\ (length l < S fuel -> r <> None) /\
      forall toks' c rest, r = Some (toks', c, rest) ->
      exists q, (exists p, file = p ++ q) /\ (c, rest) = next q /\ length q <= length l /\
        match q with [] => True | c :: _ => isgraph c && negb (c =? 62)%N = false /\ (isspace c = false \/ q = l) end).
    { intros H. rewrite innerL_end by exact H. eexists. split; [reflexivity|]. split; [discriminate|].
      intros toks' c rest X. injection X as <- <- <-. exists l. split; [now exists pl|]. split; [symmetry; apply surjective_pairing|].
      split; [reflexivity|]. destruct l; [exact I|]. split; [exact H | now right]. }
    (* a turn that goes on with [l'] *)
    assert (Go : forall l' len' cap' toks1, (exists p, l = p ++ l') -> length l' < length l -> 1 <= len' -> len' <= cap' ->
      innerL (S fuel) l len cap toks = innerL fuel (drop_spaces l') len' cap' toks1 ->
      exists r, innerL (S fuel) l len cap toks = Ok r /\ (length l < S fuel -> r <> None) /\
      forall toks' c rest, r = Some (toks', c, rest) ->
      exists q, (exists p, file = p ++ q) /\ (c, rest) = next q /\ length q <= length l /\
        match q with [] => True | c :: _ => isgraph c && negb (c =? 62)%N = false /\ (isspace c = false \/ q = l) end).
    { intros l' len' cap' toks1 [p Ep] Lt L1 L2 ->. pose proof (drop_spaces_length l') as Ld.
      destruct (drop_spaces_suffix l') as [sp Es].
      destruct (IH (drop_spaces l') len' cap' toks1) as (r & Er & Nr & Rr); [|exact L1|exact L2|].
      { exists (pl ++ p ++ sp). rewrite Suf, Ep. rewrite Es at 1. now rewrite <- !app_assoc. }
      exists r. split; [exact Er|]. split; [intros; apply Nr; lia|].
      intros toks' c rest X. destruct (Rr toks' c rest X) as (q & Sq & Eq & Lq & Hq).
      exists q. split; [exact Sq|]. split; [exact Eq|]. split; [lia|]. destruct q as [|d q]; [exact I|].
      destruct Hq as [Hg Hs]. split; [exact Hg|]. left. destruct Hs as [Hs|Hs]; [exact Hs|].
      pose proof (drop_spaces_head l') as Hd. rewrite <- Hs in Hd. exact Hd. }
    destruct l as [|c l]; [now apply End|]. destruct (isgraph c && negb (c =? 62)%N) eqn:G; [|now apply End].
    destruct (starts s c) eqn:St.
    + assert (Kc : keychar c = true -> True) by auto.
      pose proof (innerL_key fuel (c :: l) len cap toks (conj G St)) as Eq.
      destruct (keyL_run (c :: l) [] ltac:(cbn [length]; lia)) as (k & r & Ek & Fk & Kk). rewrite Kk in Eq. cbn [app] in Eq.
      assert (Lk : length k < E) by (apply (Fit pl k r); [now rewrite Suf, Ek | exact Fk]).
      rewrite firstn_all2 in Eq by lia. destruct (Nat.leb_spec E (length k)); [lia|]. rewrite skip_next in Eq.
      assert (Nk : isspace c = false).
      { unfold isgraph in G. unfold isspace. lia. }
      destruct (drop_spaces_suffix r) as [sp Es]. pose proof (drop_spaces_length r) as Ld.
      destruct (drop_spaces r) as [|d dr] eqn:Dr.
      * cbn [next fst snd is bind length] in Eq. destruct (Nat.leb_spec cap 0); [lia|].
        apply (Go [] len cap (toks ++ [(cstr k, cstr [])])); [exists (c :: l); now rewrite app_nil_r | cbn [length]; lia | lia | lia |].
        rewrite Eq. reflexivity.
      * cbn [next fst snd is] in Eq. destruct (N.eqb_spec d (kt s)) as [->|Nd].
        -- destruct (valueL_safe dr [] len cap ltac:(cbn [length]; lia) Le2) as (v' & len' & cap' & q & Ev & (pv & Epv) & Lv & L1 & L2).
           unfold valueL in Ev. rewrite (surjective_pairing (next dr)) in Eq. rewrite Ev in Eq. cbn [bind] in Eq.
           destruct (Nat.leb_spec cap' (length v')); [lia|]. rewrite skip_next in Eq.
           apply (Go q len' cap' (toks ++ [(cstr k, cstr v')])); [| | lia | lia | exact Eq].
           ++ exists (k ++ sp ++ kt s :: pv). rewrite Ek, Es, Epv. now rewrite <- !app_assoc.
           ++ apply (f_equal (@length N)) in Ek, Es, Epv. rewrite !app_length in *. cbn [length] in *. lia.
        -- cbn [bind length] in Eq. destruct (Nat.leb_spec cap 0); [lia|].
           pose proof (skip_next (d :: dr)) as Sn. cbn [next fst snd] in Sn. rewrite Sn in Eq.
           apply (Go (d :: dr) len cap (toks ++ [(cstr k, cstr [])])); [| | lia | lia | exact Eq].
           ++ exists (k ++ sp). rewrite Ek, Es. now rewrite <- !app_assoc.
           ++ (* the first character is in the key *)
              destruct k as [|x k].
              ** exfalso. cbn [app] in Ek. subst r. rewrite drop_spaces_stop in Dr by exact Nk. injection Dr as <- <-.
                 rewrite keyL_cons in Kk. destruct (keychar c) eqn:Kc'.
                 --- destruct (0 <? E) eqn:Z; cbn [length] in Kk; [|lia].
                     destruct (keyL_run l [c] ltac:(cbn [length]; lia)) as (k2 & r2 & _ & _ & K2). cbn [app] in Kk.
                     rewrite Z in Kk. rewrite K2 in Kk. cbn [app] in Kk. destruct E; [lia|]. cbn [firstn] in Kk. discriminate Kk.
                 --- unfold keychar in Kc'. rewrite Nk in Kc'. cbn [negb andb] in Kc'. lia.
              ** apply (f_equal (@length N)) in Ek, Es. rewrite !app_length in *. cbn [length] in *. lia.
    + apply (Go l len cap toks); [now exists [c] | cbn [length]; lia | lia | lia |]. now apply innerL_punct.
Qed.
End Scan.
