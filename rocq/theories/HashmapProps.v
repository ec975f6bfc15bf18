(** Properties of the hash-map: C41, C42, C43, C44. *)
From Coq Require Import NArith ZArith Arith List Bool Lia Permutation ZifyBool ZifyNat ZifyN.
From Verif Require Import Outcome StringInfoModel StringInfoProof StringInfoProps HashmapModel HashmapSpec HashmapProof.
Import ListNotations.

Section Keys.
Variable K : Type.
Variable hash : K -> N.
Variable compare : option (K -> K -> bool).
Hypothesis good : good_methods K hash compare.
Notation inv := (inv K hash compare).
Notation all := (all_entries K).
Notation hstep := (hstep K hash compare).
Notation hrun := (hrun K hash compare).
Notation fm_step := (fm_step K hash compare).
Notation fm_run := (fm_run K hash compare).

Lemma new_inv cap : 0 < cap -> inv (NewHashmap K cap) (fm_empty K).
Proof.
  intros H. split; cbn [NewHashmap hm_map].
  - destruct cap; [lia | discriminate].
  - intros i b e Hi. apply nth_error_In, repeat_spec in Hi. discriminate Hi.
  - rewrite all_repeat_none. constructor.
  - intros k. now rewrite all_repeat_none.
Qed.

(** GetNextKey outside an iteration keeps the entries as well *)
Lemma next_entry_any fuel f : forall m, inv m f ->
  inv (fst (next_entry K fuel m)) f /\ all (hm_map _ (fst (next_entry K fuel m))) = all (hm_map _ m) /\
  hm_entries _ (fst (next_entry K fuel m)) = hm_entries _ m.
Proof.
  induction fuel as [|fuel IH]; intros m H; cbn [next_entry]; [now repeat (split; [assumption || reflexivity|])|].
  unfold get_bucket. destruct (nth (hm_next _ m) (hm_map _ m) None) as [b|] eqn:En.
  2:{ apply (IH (mkHashmap _ (hm_map _ m) (hm_entries _ m) (S (hm_next _ m)) (hm_head_of_list _ m))). now apply inv_meta. }
  assert (Hi : hm_next _ m < length (hm_map _ m)).
  { destruct (Nat.lt_ge_cases (hm_next _ m) (length (hm_map _ m))); [assumption|]. rewrite nth_overflow in En by assumption. discriminate En. }
  destruct (nth_error (b_entries _ b) _) as [e|]; cbn [fst].
  - split; [apply inv_meta with (m := set_bucket K m _ _); now apply inv_cursor|]. split; [|reflexivity].
    now apply all_set_nth with (b := b).
  - match goal with |- context [next_entry K fuel ?x] => destruct (IH x) as (A & B & C) end.
    + apply inv_meta with (m := set_bucket K m _ _). now apply inv_cursor.
    + split; [exact A|]. split; [rewrite B; now apply all_set_nth with (b := b) | exact C].
Qed.

(** one call: the abstract map follows, and the answers agree, but that a put
    in a map that cannot grow says false *)
Definition agrees (out : hout K) (spec : option (hout K)) : Prop :=
  match spec, out with Some (HBool _ true), HBool _ _ => True | Some o, _ => out = o | None, _ => True end.

Lemma hstep_ok m f o : inv m f -> mem_ok K o ->
  inv (fst (hstep m o)) (fst (fm_step f o)) /\ agrees (snd (hstep m o)) (snd (fm_step f o)) /\
  length (all (hm_map _ (fst (hstep m o)))) <= S (length (all (hm_map _ m))) /\
  ((N.of_nat (length (all (hm_map _ m))) < 4194299)%N -> answers K (snd (hstep m o)) (snd (fm_step f o))).
Proof.
  intros H M.
  destruct o as [m1 m2 m3 [key|] v|[key|]|[key|]| | | |]; cbn [HashmapModel.hstep HashmapSpec.fm_step].
  - destruct M as (-> & -> & ->). pose proof (Put_ok K hash compare good true true true m f key v H) as P. cbn zeta in P.
    destruct (PutEntryInHashmap K hash compare true true true m (Some key) v) as [m' r]. cbn [fst snd] in *.
    destruct P as (I & T & Nz & L & _). unfold put_result in I. cbn [negb] in I. rewrite orb_false_r in I.
    destruct (N.eqb_spec v 0) as [->|Nv]; cbn [fst snd agrees answers].
    + assert (r = false) as -> by (destruct r; [exfalso; now apply Nz | reflexivity]). repeat (split; [assumption || reflexivity|]). reflexivity.
    + split; [exact I|]. split; [exact Logic.I|]. split; [exact L|]. intros Sz. rewrite T by (reflexivity || assumption). reflexivity.
  - cbn [PutEntryInHashmap fst snd agrees answers]. repeat (split; [assumption || reflexivity || lia|]). reflexivity.
  - pose proof (Get_ok K hash compare good m f key H) as G. cbn zeta in G.
    assert (A : all (hm_map _ (fst (GetValueFromHashmap K hash compare m (Some key)))) = all (hm_map _ m)).
    { clear - H good. unfold GetValueFromHashmap. destruct (view K hash compare good m f key H) as (p & ob & q & E & L & G & _).
      rewrite G. destruct ob as [b|]; [|reflexivity].
      assert (Hi : slot (hm_capacity _ m) (hash key) < length (hm_map _ m)) by (apply slot_lt; apply H).
      destruct (find_entry K compare (hash key) key (b_entries K b)) as [[j e]|]; cbn [fst]; unfold set_bucket; cbn [hm_map];
        apply all_set_nth with (b := b); assumption || reflexivity. }
    destruct (GetValueFromHashmap K hash compare m (Some key)) as [m' r]. cbn [fst snd] in *. destruct G as [I ->].
    cbn [agrees answers]. rewrite A. repeat (split; [assumption || reflexivity || lia|]). reflexivity.
  - cbn [GetValueFromHashmap fst snd agrees answers]. repeat (split; [assumption || reflexivity || lia|]). reflexivity.
  - pose proof (Remove_ok K hash compare good m f key H) as G. cbn zeta in G.
    assert (A : length (all (hm_map _ (fst (RemoveEntryFromHashmap K hash compare m (Some key))))) <= length (all (hm_map _ m))).
    { clear - H good. unfold RemoveEntryFromHashmap. destruct (view K hash compare good m f key H) as (p & ob & q & E & L & G & _ & _ & Wf).
      rewrite G. destruct ob as [b|]; [|cbn [fst]; lia].
      assert (Hi : slot (hm_capacity _ m) (hash key) < length (hm_map _ m)) by (apply slot_lt; apply H).
      pose proof (find_entry_ok K hash compare good key (b_entries _ b) Wf) as F.
      destruct (find_entry K compare (hash key) key (b_entries K b)) as [[j e]|]; cbn [fst]; unfold set_bucket; cbn [hm_map].
      - destruct F as (l1 & l2 & El & <- & _). rewrite El. rewrite E, <- L, set_nth_app, !all_app, !all_cons.
        cbn [bucket_entries]. rewrite remove_index_entries, El, !app_length. cbn [length]. lia.
      - erewrite (all_set_nth K) by (eassumption || reflexivity). lia. }
    destruct (RemoveEntryFromHashmap K hash compare m (Some key)) as [m' r]. cbn [fst snd] in *. destruct G as [I ->].
    cbn [agrees answers]. split; [exact I|]. split; [reflexivity|]. split; [lia | reflexivity].
  - cbn [RemoveEntryFromHashmap fst snd agrees answers]. repeat (split; [assumption || reflexivity || lia|]). reflexivity.
  - unfold GetNextKeyInHashmap, NextEntry. pose proof (next_entry_any (length (hm_map K m) - hm_next K m) f m H) as (A & B & _).
    destruct (next_entry K _ m) as [m' r]. cbn [fst snd agrees answers] in *. rewrite B.
    split; [exact A|]. split; [exact Logic.I|]. split; [lia | intros; exact Logic.I].
  - unfold GetNextValueInHashmap, NextEntry. pose proof (next_entry_any (length (hm_map K m) - hm_next K m) f m H) as (A & B & _).
    destruct (next_entry K _ m) as [m' r]. cbn [fst snd agrees answers] in *. rewrite B.
    split; [exact A|]. split; [exact Logic.I|]. split; [lia | intros; exact Logic.I].
  - cbn [fst snd agrees answers ResetHashmapIterator hm_map]. split; [now apply inv_meta|]. split; [exact Logic.I|]. split; [lia | intros; exact Logic.I].
  - cbn [fst snd agrees answers]. split; [exact H|]. split; [exact Logic.I|]. split; [lia | intros; exact Logic.I].
Qed.

Lemma hrun_ok ops : forall m f, inv m f -> Forall (mem_ok K) ops ->
  inv (fst (hrun m ops)) (fst (fm_run f ops)) /\
  Forall2 agrees (snd (hrun m ops)) (snd (fm_run f ops)) /\
  ((N.of_nat (length (all (hm_map _ m)) + length ops) < 4194300)%N ->
   Forall2 (answers K) (snd (hrun m ops)) (snd (fm_run f ops))).
Proof.
  induction ops as [|o ops IH]; intros m f H M; cbn [HashmapModel.hrun HashmapSpec.fm_run].
  - cbn [fst snd]. split; [exact H|]. split; constructor.
  - inversion M as [|? ? M1 M2]; subst. pose proof (hstep_ok m f o H M1) as (I & A & L & B).
    destruct (hstep m o) as [m' r]. destruct (fm_step f o) as [f' r']. cbn [fst snd] in *.
    specialize (IH m' f' I M2). destruct (hrun m' ops) as [m'' rs]. destruct (fm_run f' ops) as [f'' rs'].
    cbn [fst snd] in *. destruct IH as (I' & A' & B'). split; [exact I'|]. split; [now constructor|].
    intros Sz. cbn [length] in Sz. constructor; [apply B; lia | apply B'; lia].
Qed.

(** C41: any history of calls on a new hash-map, with memory to be had, answers
    every put, get and removal as the finite map does (growing past 4194301
    buckets is impossible, and needs as many calls) *)
Theorem hashmap_finite_map capacity ops : 0 < capacity -> Forall (mem_ok K) ops ->
  (N.of_nat (length ops) < 4194300)%N ->
  Forall2 (answers K) (snd (hrun (NewHashmap K capacity) ops)) (snd (fm_run (fm_empty K) ops)).
Proof.
  intros C M Sz. apply hrun_ok; [now apply new_inv | exact M |].
  cbn [NewHashmap hm_map]. rewrite all_repeat_none. cbn [length]. lia.
Qed.

(** without the bound: every get and every removal still agrees *)
Theorem hashmap_lookups capacity ops : 0 < capacity -> Forall (mem_ok K) ops ->
  Forall2 agrees (snd (hrun (NewHashmap K capacity) ops)) (snd (fm_run (fm_empty K) ops)).
Proof. intros C M. apply hrun_ok; [now apply new_inv | exact M]. Qed.

(** ** iteration *)

(** what is done with the key just returned *)
Inductive use := Pass | Look | Remove.
(** calls of GetNextKey, each followed by the given use of the key *)
Fixpoint iterate (uses : list use) (m : HashmapInfo K) : list (option K) * HashmapInfo K :=
  match uses with
  | [] => ([], m)
  | u :: uses =>
      let (m, k) := GetNextKeyInHashmap K m in
      let m := match u with
               | Pass => m
               | Look => fst (GetValueFromHashmap K hash compare m k)
               | Remove => fst (RemoveEntryFromHashmap K hash compare m k)
               end in
      let (l, m) := iterate uses m in (k :: l, m)
  end.
(** the map without the keys that were removed *)
Fixpoint used (uses : list use) (ks : list K) (f : fmap K) : fmap K :=
  match uses, ks with
  | Remove :: uses, k :: ks => used uses ks (fm_remove K hash compare f k)
  | _ :: uses, _ :: ks => used uses ks f
  | _, _ => f
  end.

Lemma used_nil uses f : used uses [] f = f.
Proof. now destruct uses as [|[]]. Qed.

Lemma iterate_ok uses : forall m f, inv m f -> iter_ok K m ->
  fst (iterate uses m) = firstn (length uses) (map Some (map (en_key K) (remaining K m)) ++ repeat None (length uses)) /\
  inv (snd (iterate uses m)) (used uses (map (en_key K) (remaining K m)) f).
Proof.
  induction uses as [|u uses IH]; intros m f H O; [split; [reflexivity | exact H]|].
  cbn [iterate length firstn]. unfold GetNextKeyInHashmap.
  pose proof (NextEntry_ok K hash compare f m H O) as (A & _ & O' & R). cbn zeta in *.
  destruct (NextEntry K m) as [m' r]. cbn [fst snd] in *.
  destruct (remaining K m) as [|e l].
  - destruct R as [-> R]. cbn [option_map map app repeat firstn].
    replace (match u with
             | Pass => m'
             | Look => fst (GetValueFromHashmap K hash compare m' None)
             | Remove => fst (RemoveEntryFromHashmap K hash compare m' None)
             end) with m' by now destruct u.
    destruct (IH m' f A O') as [E I]. destruct (iterate uses m') as [ks mz]. cbn [fst snd] in *.
    rewrite R in E, I. cbn [map] in I. rewrite used_nil in *. split; [now rewrite E | exact I].
  - destruct R as (-> & R & J). cbn [option_map map app firstn].
    set (m2 := match u with Pass => m' | _ => _ end).
    set (f2 := match u with Remove => fm_remove K hash compare f (en_key K e) | _ => f end).
    assert (X : inv m2 f2 /\ iter_ok K m2 /\ remaining K m2 = l).
    { unfold m2, f2. destruct u.
      - now split.
      - now rewrite (Get_just_returned K hash compare good f m' e A J).
      - split; [apply (Remove_ok K hash compare good m' f (en_key K e) A)|].
        destruct (Remove_just_returned K hash compare good f m' e A J) as [Y Z]. split; [exact Z|]. now rewrite Y. }
    destruct X as (I2 & O2 & R2). destruct (IH m2 f2 I2 O2) as [E I]. destruct (iterate uses m2) as [ks mz]. cbn [fst snd] in *.
    rewrite R2 in E, I. split; [|unfold f2 in I; destruct u; exact I]. f_equal. rewrite E.
    assert (X : forall (l : list (option K)) n, firstn n (l ++ repeat None n) = firstn n (l ++ repeat None (S n))).
    { clear. intros l n. rewrite !firstn_app. f_equal. destruct (Nat.le_gt_cases (length l) n).
      - replace (S n) with (n + 1) by lia. rewrite repeat_app, firstn_app, repeat_length.
        replace (n - length l - n) with 0 by lia. cbn [firstn]. now rewrite app_nil_r.
      - replace (n - length l) with 0 by lia. reflexivity. }
    apply X.
Qed.

Lemma entries_key_list m f : inv m f -> key_list K hash compare f (map (en_key K) (all (hm_map _ m))).
Proof.
  intros H. split.
  - pose proof (i_distinct _ _ _ _ _ H) as D. clear - D. induction D as [|e l F D IH]; cbn [map]; constructor; [|exact IH].
    apply Forall_forall. intros k Hk. apply in_map_iff in Hk. destruct Hk as (x & <- & Hx).
    rewrite Forall_forall in F. now apply F.
  - intros k. rewrite (i_lookup _ _ _ _ _ H). split.
    + intros Hk. destruct (existsb (fun e => same K hash compare k (en_key K e)) (all (hm_map _ m))) eqn:E.
      * apply existsb_exists in E. destruct E as (e & I & S). exists (en_key K e). split; [now apply in_map | exact S].
      * exfalso. apply Hk. apply lookup_none. intros e I. destruct (same K hash compare k (en_key K e)) eqn:S; [|reflexivity].
        rewrite <- E. symmetry. apply existsb_exists. now exists e.
    + intros (k' & I & S). apply in_map_iff in I. destruct I as (e & <- & I).
      rewrite (lookup_in K hash compare good k _ e (i_distinct _ _ _ _ _ H) I S). discriminate.
Qed.

(** C42: after a reset the iterator returns every key once and then NULL, also
    when some of the keys are looked up or removed right after they are returned;
    the map that is left has lost the keys removed and nothing else *)
Theorem hashmap_iteration capacity ops : 0 < capacity -> Forall (mem_ok K) ops ->
  let m := fst (hrun (NewHashmap K capacity) ops) in
  let f := fst (fm_run (fm_empty K) ops) in
  exists ks, key_list K hash compare f ks /\
    forall uses, fst (iterate uses (ResetHashmapIterator K m)) = firstn (length uses) (map Some ks ++ repeat None (length uses)) /\
      forall k, snd (GetValueFromHashmap K hash compare (snd (iterate uses (ResetHashmapIterator K m))) (Some k)) =
        fm_get K (used uses ks f) k.
Proof.
  intros C M. cbn zeta. destruct (hrun_ok ops _ _ (new_inv capacity C) M) as (H & _).
  set (m := fst (hrun _ _)) in *. set (f := fst (fm_run _ _)) in *.
  exists (map (en_key K) (all (hm_map _ m))). split; [now apply entries_key_list|].
  intros uses. destruct (iterate_ok uses (ResetHashmapIterator K m) f) as [E I].
  - now apply inv_meta.
  - intros X. discriminate X.
  - split; [exact E|]. intros k. now apply Get_ok.
Qed.

(** ** count *)

(** every put is of a key that is not there *)
Fixpoint fresh_puts (f : fmap K) (ops : list (hop K)) : Prop :=
  match ops with
  | [] => True
  | o :: t => match o with HPut _ _ _ _ (Some k) _ => f k = None | _ => True end /\ fresh_puts (fst (fm_step f o)) t
  end.

Lemma count_run ops : forall m f, inv m f -> Forall (mem_ok K) ops -> fresh_puts f ops ->
  (N.of_nat (length (all (hm_map _ m)) + length ops) < 4194300)%N ->
  hm_entries _ m = N.of_nat (length (all (hm_map _ m))) ->
  hm_entries _ (fst (hrun m ops)) = N.of_nat (length (all (hm_map _ (fst (hrun m ops))))).
Proof.
  induction ops as [|o ops IH]; intros m f H M Fr Sz E; cbn [HashmapModel.hrun fst]; [exact E|].
  inversion M as [|? ? M1 M2]; subst. destruct Fr as [Fr1 Fr2]. cbn [length] in Sz.
  pose proof (hstep_ok m f o H M1) as (I & _ & L & _).
  assert (E' : hm_entries _ (fst (hstep m o)) = N.of_nat (length (all (hm_map _ (fst (hstep m o)))))).
  { destruct o as [m1 m2 m3 [key|] v|[key|]|[key|]| | | |]; cbn [HashmapModel.hstep] in *; try exact E.
    - destruct M1 as (-> & -> & ->). pose proof (Put_ok K hash compare good true true true m f key v H) as P. cbn zeta in P.
      destruct (N.eq_dec v 0) as [->|Nv]; [exact E|].
      destruct (PutEntryInHashmap K hash compare true true true m (Some key) v) as [m' r]. cbn [fst snd] in *.
      destruct P as (_ & T & _ & _ & P). destruct (P (T eq_refl eq_refl eq_refl Nv ltac:(lia)) Fr1) as [P1 P2].
      rewrite P1, P2, E. rewrite N.mod_small by (unfold size64; lia). lia.
    - assert (A : hm_entries _ (fst (GetValueFromHashmap K hash compare m (Some key))) = hm_entries _ m /\
                  all (hm_map _ (fst (GetValueFromHashmap K hash compare m (Some key)))) = all (hm_map _ m)).
      { clear - H good. unfold GetValueFromHashmap. destruct (view K hash compare good m f key H) as (p & ob & q & E & L & G & _).
        rewrite G. destruct ob as [b|]; [|now split].
        assert (Hi : slot (hm_capacity _ m) (hash key) < length (hm_map _ m)) by (apply slot_lt; apply H).
        destruct (find_entry K compare (hash key) key (b_entries K b)) as [[j e]|]; cbn [fst]; unfold set_bucket; cbn [hm_map];
          (split; [reflexivity|]); apply all_set_nth with (b := b); assumption || reflexivity. }
      destruct (GetValueFromHashmap K hash compare m (Some key)) as [m' r]. cbn [fst snd] in *. destruct A as [-> ->]. exact E.
    - clear - H good E Sz. unfold RemoveEntryFromHashmap. destruct (view K hash compare good m f key H) as (p & ob & q & Em & L & G & _ & _ & Wf).
      rewrite G. destruct ob as [b|]; [|exact E].
      assert (Hi : slot (hm_capacity _ m) (hash key) < length (hm_map _ m)) by (apply slot_lt; apply H).
      pose proof (find_entry_ok K hash compare good key (b_entries _ b) Wf) as F.
      destruct (find_entry K compare (hash key) key (b_entries K b)) as [[j e]|]; cbn [fst hm_entries hm_map]; unfold set_bucket; cbn [hm_map hm_entries].
      + destruct F as (l1 & l2 & El & <- & _). rewrite El. rewrite E. rewrite Em, <- L, set_nth_app, !all_app, !all_cons.
        rewrite Em, !all_app, !all_cons in Sz. cbn [bucket_entries] in *. rewrite El in *. rewrite remove_index_entries.
        rewrite !app_length in *. cbn [length] in *.
        set (n := length (all p) + (length l1 + length l2 + length (all q))).
        replace (length (all p) + (length l1 + S (length l2) + length (all q))) with (S n) in * by (unfold n; lia).
        fold n. replace (length (all p) + (length l1 + length l2 + length (all q))) with n by reflexivity.
        replace (N.of_nat (S n) + (size64 - 1))%N with (N.of_nat n + 1 * size64)%N by (unfold size64; lia).
        rewrite N.mod_add by discriminate. apply N.mod_small. unfold size64. lia.
      + erewrite (all_set_nth K) by (eassumption || reflexivity). exact E.
    - unfold GetNextKeyInHashmap, NextEntry. pose proof (next_entry_any (length (hm_map K m) - hm_next K m) f m H) as (_ & B & C).
      destruct (next_entry K _ m) as [m' r]. cbn [fst] in *. rewrite B, C. exact E.
    - unfold GetNextValueInHashmap, NextEntry. pose proof (next_entry_any (length (hm_map K m) - hm_next K m) f m H) as (_ & B & C).
      destruct (next_entry K _ m) as [m' r]. cbn [fst] in *. rewrite B, C. exact E. }
  destruct (hstep m o) as [m' r]. cbn [fst] in *. specialize (IH m' (fst (fm_step f o)) I M2 Fr2 ltac:(lia) E').
  destruct (hrun m' ops). exact IH.
Qed.

(** C43 for histories that never overwrite a key *)
Theorem hashmap_count_partial capacity ops : 0 < capacity -> Forall (mem_ok K) ops ->
  (N.of_nat (length ops) < 4194300)%N -> fresh_puts (fm_empty K) ops ->
  exists ks, key_list K hash compare (fst (fm_run (fm_empty K) ops)) ks /\
    GetNumberOfEntriesInHashmap K (fst (hrun (NewHashmap K capacity) ops)) = N.of_nat (length ks).
Proof.
  intros C M Sz Fr. destruct (hrun_ok ops _ _ (new_inv capacity C) M) as (H & _).
  exists (map (en_key K) (all (hm_map _ (fst (hrun (NewHashmap K capacity) ops))))).
  split; [now apply entries_key_list|]. rewrite map_length. unfold GetNumberOfEntriesInHashmap.
  apply (count_run ops _ (fm_empty K) (new_inv capacity C) M Fr); cbn [NewHashmap hm_map hm_entries]; rewrite all_repeat_none; cbn [length]; [lia | reflexivity].
Qed.

(** ** when memory runs out *)

(** the map after a put for which memory may have been missing *)
Theorem hashmap_put_any_memory mem1 mem2 mem3 m f key v : inv m f ->
  inv (fst (PutEntryInHashmap K hash compare mem1 mem2 mem3 m (Some key) v)) (put_result K hash compare mem1 mem2 f key v).
Proof. intros H. apply (Put_ok K hash compare good mem1 mem2 mem3 m f key v H). Qed.
End Keys.

(** * C44 *)

Lemma xorshift_inj a b s : (0 < s)%N -> N.lxor a (N.shiftr a s) = N.lxor b (N.shiftr b s) -> a = b.
Proof.
  intros Hs E. apply N.lxor_eq. assert (X : N.lxor a b = N.shiftr (N.lxor a b) s).
  { rewrite N.shiftr_lxor. apply N.lxor_eq_0_iff. transitivity (N.lxor (N.lxor a (N.shiftr a s)) (N.lxor b (N.shiftr b s))).
    - apply N.bits_inj. intros i. rewrite !N.lxor_spec. now destruct (N.testbit a i), (N.testbit b i), (N.testbit (N.shiftr a s) i), (N.testbit (N.shiftr b s) i).
    - rewrite E. apply N.lxor_nilpotent. }
  set (d := N.lxor a b) in *. destruct (N.eq_dec d 0) as [|Nz]; [assumption|]. exfalso.
  rewrite N.shiftr_div_pow2 in X. pose proof (N.div_lt d (2 ^ s) ltac:(lia)) as Lt.
  assert (1 < 2 ^ s)%N by (apply N.pow_gt_1; lia). specialize (Lt H). lia.
Qed.

Lemma mul_step_inj (c : Z) (k : Z) a b fa fb : (a < 2 ^ 64)%N -> (b < 2 ^ 64)%N -> Z.gcd (2 ^ 64) c = 1%Z ->
  (exists t, Z.of_N fa = c * Z.of_N a + k + t * 2 ^ 64)%Z -> (exists t, Z.of_N fb = c * Z.of_N b + k + t * 2 ^ 64)%Z ->
  fa = fb -> a = b.
Proof.
  intros Ha Hb G (t & Ea) (u & Eb) E. rewrite E in Ea. rewrite Ea in Eb.
  assert (D : (2 ^ 64 | c * (Z.of_N a - Z.of_N b))%Z).
  { exists (u - t)%Z. clear - Eb. generalize dependent (2 ^ 64)%Z. intros M Eb. nia. }
  apply Z.gauss in D; [|exact G]. destruct D as [q D].
  change (2 ^ 64)%N with 18446744073709551616%N in *. change (2 ^ 64)%Z with 18446744073709551616%Z in *.
  assert (q = 0)%Z by lia. lia.
Qed.

Definition step1 (h : N) : N := ((h + (2 ^ 64 - 1 - (N.shiftl h 9) mod 2 ^ 64)) mod 2 ^ 64)%N.
Definition step3 (h : N) : N := ((h + N.shiftl h 4) mod 2 ^ 64)%N.
Lemma step1_lin a : (exists t, Z.of_N (step1 a) = -511 * Z.of_N a + -1 + t * 2 ^ 64)%Z.
Proof.
  unfold step1. rewrite N.shiftl_mul_pow2. change (2 ^ 9)%N with 512%N.
  pose proof (N.mod_lt (a * 512) (2 ^ 64) ltac:(discriminate)) as L1. pose proof (N.div_mod' (a * 512) (2 ^ 64)) as E1.
  set (A := ((a * 512) mod 2 ^ 64)%N) in *. set (q := ((a * 512) / 2 ^ 64)%N) in *. clearbody A q.
  pose proof (N.div_mod' (a + (2 ^ 64 - 1 - A)) (2 ^ 64)) as E2.
  set (F := ((a + (2 ^ 64 - 1 - A)) mod 2 ^ 64)%N) in *. set (r := ((a + (2 ^ 64 - 1 - A)) / 2 ^ 64)%N) in *. clearbody F r.
  exists (1 + Z.of_N q - Z.of_N r)%Z. change (2 ^ 64)%N with 18446744073709551616%N in *. change (2 ^ 64)%Z with 18446744073709551616%Z in *. lia.
Qed.
Lemma step3_lin a : (exists t, Z.of_N (step3 a) = 17 * Z.of_N a + 0 + t * 2 ^ 64)%Z.
Proof.
  unfold step3. rewrite N.shiftl_mul_pow2. change (2 ^ 4)%N with 16%N.
  pose proof (N.div_mod' (a + a * 16) (2 ^ 64)) as E2.
  set (F := ((a + a * 16) mod 2 ^ 64)%N) in *. set (r := ((a + a * 16) / 2 ^ 64)%N) in *. clearbody F r.
  exists (- Z.of_N r)%Z. change (2 ^ 64)%N with 18446744073709551616%N in *. change (2 ^ 64)%Z with 18446744073709551616%Z in *. lia.
Qed.

Lemma hash_pointer_unfold a : HashPointerType a =
  let h := step3 (N.lxor (step1 (a mod 2 ^ 64)) (N.shiftr (step1 (a mod 2 ^ 64)) 14)) in N.lxor h (N.shiftr h 10).
Proof. reflexivity. Qed.

(** a xor with a shift of itself does not grow *)
Lemma xorshift_lt a s : (a < 2 ^ 64)%N -> (N.lxor a (N.shiftr a s) < 2 ^ 64)%N.
Proof.
  intros H. destruct (N.eq_dec (N.lxor a (N.shiftr a s)) 0) as [->|Nz]; [reflexivity|].
  apply N.log2_lt_pow2; [lia|]. destruct (N.eq_dec a 0) as [->|Na]; [now rewrite N.shiftr_0_l in Nz|].
  pose proof (N.log2_lxor a (N.shiftr a s)) as L. pose proof (N.log2_shiftr a s) as L2.
  apply N.log2_lt_pow2 in H; [|lia]. lia.
Qed.

(** C44 *)
Theorem hash_pointer_injective a b : (a < 2 ^ 64)%N -> (b < 2 ^ 64)%N -> HashPointerType a = HashPointerType b -> a = b.
Proof.
  intros Ha Hb. rewrite !hash_pointer_unfold. cbn zeta. rewrite (N.mod_small a), (N.mod_small b) by assumption.
  intros E. apply xorshift_inj in E; [|reflexivity].
  assert (L : forall x, (step1 x < 2 ^ 64)%N) by (intros x; apply N.mod_lt; discriminate).
  apply (mul_step_inj 17 0 _ _ _ _ (xorshift_lt _ _ (L a)) (xorshift_lt _ _ (L b)) eq_refl (step3_lin _) (step3_lin _)) in E.
  apply xorshift_inj in E; [|reflexivity].
  exact (mul_step_inj (-511) (-1) _ _ _ _ Ha Hb eq_refl (step1_lin a) (step1_lin b) E).
Qed.

(** so a map keyed by pointers, without a comparison, has the pointers as keys *)
Theorem pointer_keys_distinct a b : (a < 2 ^ 64)%N -> (b < 2 ^ 64)%N -> same N HashPointerType None a b = true <-> a = b.
Proof.
  intros Ha Hb. unfold same. rewrite N.eqb_eq. split; [now apply hash_pointer_injective | congruence].
Qed.

Example hash_pointer_ex : HashPointerType 1 <> HashPointerType 2 /\ (HashPointerType 1 < 2 ^ 64)%N /\ HashPointerType (2 ^ 64 - 1) <> 0%N.
Proof. vm_compute. repeat split; discriminate. Qed.

(** * the methods of the library are good *)
Theorem pointer_methods : good_methods N HashPointerType None.
Proof.
  split; unfold same.
  - intros. apply N.eqb_refl.
  - intros k k'. rewrite !N.eqb_eq. congruence.
  - intros k k' k''. rewrite !N.eqb_eq. congruence.
  - intros k k'. now rewrite N.eqb_eq.
Qed.

Lemma string_eq p : forall q, CompareHashmapString p q = true <-> p = q.
Proof.
  induction p as [|a p IH]; intros [|b q]; cbn [CompareHashmapString]; split; intros H; try discriminate; try reflexivity.
  - apply andb_true_iff in H. destruct H as [H1 H2]. apply N.eqb_eq in H1. apply IH in H2. congruence.
  - injection H as -> ->. rewrite N.eqb_refl. cbn [andb]. now apply IH.
Qed.
Theorem string_methods junk : good_methods (list N) (HashStringType junk) (Some CompareHashmapString).
Proof.
  split; unfold same.
  - intros. now apply string_eq.
  - intros k k'. rewrite !string_eq. congruence.
  - intros k k' k''. rewrite !string_eq. congruence.
  - intros k k'. rewrite string_eq. congruence.
Qed.

Definition StringKey := { s : StringInfo | wf s }.
Lemma stringinfo_eq (p q : StringKey) : CompareHashmapStringInfo (proj1_sig p) (proj1_sig q) = true <->
  contents (proj1_sig p) = contents (proj1_sig q).
Proof.
  destruct p as [p Hp], q as [q Hq]. cbn [proj1_sig]. unfold CompareHashmapStringInfo. rewrite stringinfo_compare by assumption.
  rewrite <- lex_eq. destruct (lex (contents p) (contents q)); split; congruence.
Qed.
Theorem stringinfo_methods : good_methods StringKey (fun p => HashStringInfoType (proj1_sig p))
  (Some (fun p q => CompareHashmapStringInfo (proj1_sig p) (proj1_sig q))).
Proof.
  split; unfold same.
  - intros k. now apply stringinfo_eq.
  - intros k k' H. apply stringinfo_eq in H. apply stringinfo_eq. congruence.
  - intros k k' k'' H H'. apply stringinfo_eq in H. apply stringinfo_eq in H'. apply stringinfo_eq. congruence.
  - intros k k' H. apply stringinfo_eq in H. unfold HashStringInfoType. unfold contents in H. now rewrite H.
Qed.

(** * examples and refutations *)

Definition ptr_run := hrun N HashPointerType None.
Definition put (k v : N) : hop N := HPut N true true true (Some k) v.

(** two keys in one bucket that grows, overwrite, removal *)
Example hashmap_ex :
  let ops := [put 5 50; put 6 60; put 5 51; HGet N (Some 5); HGet N (Some 6); HRemove N (Some 5); HGet N (Some 5); HGet N (Some 7)]%N in
  0 < 1 /\ Forall (mem_ok N) ops /\
  snd (ptr_run (NewHashmap N 1) ops) =
    [HBool N true; HBool N true; HBool N true; HVal N 51; HVal N 60; HVal N 51; HVal N 0; HVal N 0]%N /\
  hm_capacity N (fst (ptr_run (NewHashmap N 1) ops)) = 31%N.
Proof. split; [constructor|]. split; [repeat constructor | vm_compute; split; reflexivity]. Qed.

(** a hash that puts everything in one bucket *)
Definition one_bucket (k : N) : N := 3.
Definition eq_keys : option (N -> N -> bool) := Some N.eqb.
Theorem one_bucket_methods : good_methods N one_bucket eq_keys.
Proof.
  split; unfold same, eq_keys; intros *; rewrite ?N.eqb_eq; try congruence; reflexivity.
Qed.
Definition one_run := hrun N one_bucket eq_keys.

Example hashmap_iteration_ex :
  let ops := [put 5 50; put 6 60; put 7 70]%N in
  let r := iterate N one_bucket eq_keys [Look; Remove; Pass; Remove; Look] (ResetHashmapIterator N (fst (one_run (NewHashmap N 8) ops))) in
  fst r = [Some 7; Some 6; Some 5; None; None]%N /\
  map (fun k => snd (GetValueFromHashmap N one_bucket eq_keys (snd r) (Some k))) [5; 6; 7]%N = [50; 0; 70]%N.
Proof. vm_compute. split; reflexivity. Qed.

Example hashmap_count_ex :
  let ops := [put 5 50; put 6 60; HRemove N (Some 5); put 5 51; HGet N (Some 6)]%N in
  fresh_puts N one_bucket eq_keys (fm_empty N) ops /\
  GetNumberOfEntriesInHashmap N (fst (one_run (NewHashmap N 8) ops)) = 2%N.
Proof. vm_compute. repeat split. Qed.

(** C43 fails: an overwritten key is counted twice (1563) *)
Theorem hashmap_count_refuted : exists ops ks,
  Forall (mem_ok N) ops /\ key_list N one_bucket eq_keys (fst (fm_run N one_bucket eq_keys (fm_empty N) ops)) ks /\
  GetNumberOfEntriesInHashmap N (fst (one_run (NewHashmap N 8) ops)) <> N.of_nat (length ks).
Proof.
  exists [put 5 50; put 5 51]%N, [5%N]. split; [repeat constructor|]. split.
  - split; [repeat constructor|]. intros k. cbn [fm_run fm_step fst put N.eqb]. unfold fm_put, same, eq_keys, fm_empty. split.
    + intros H. exists 5%N. split; [now left|]. destruct (k =? 5)%N; [reflexivity|contradiction].
    + intros (k' & [<-|[]] & ->). discriminate.
  - vm_compute. discriminate.
Qed.

(** the count can even wrap below zero: a put that fails to grow is stored but
    not counted, and its removal is *)
Theorem hashmap_count_wraps_refuted : exists ops,
  snd (one_run (NewHashmap N 1) ops) = [HBool N false; HVal N 50; HVal N 50; HVal N (2 ^ 64 - 1)]%N.
Proof.
  exists [HPut N true true false (Some 5%N) 50%N; HGet N (Some 5%N); HRemove N (Some 5%N); HCount N]. vm_compute. reflexivity.
Qed.

(** a put that reports failure has stored its value (1557-1562), or has removed
    the value the key had (1536-1556) *)
Theorem hashmap_failed_put_refuted :
  (exists ops, snd (one_run (NewHashmap N 1) ops) = [HBool N false; HVal N 50]%N /\
     ops = [HPut N true true false (Some 5%N) 50%N; HGet N (Some 5%N)]) /\
  (exists ops, snd (one_run (NewHashmap N 8) ops) = [HBool N true; HBool N false; HVal N 0]%N /\
     ops = [put 5 50; HPut N true false true (Some 5%N) 51%N; HGet N (Some 5%N)]%N).
Proof. split; eexists; (split; [|reflexivity]); vm_compute; reflexivity. Qed.

(** a lookup of another key while iterating disturbs the iterator: a key may be
    skipped, or returned again and again *)
Theorem hashmap_iteration_lookup_refuted :
  (snd (one_run (NewHashmap N 8) [put 5 50; put 6 60; HReset N; HNextKey N; HGet N (Some 5); HNextKey N]) =
    [HBool N true; HBool N true; HUnit N; HKey N (Some 6); HVal N 50; HKey N None])%N /\
  forall n, exists outs,
   (snd (one_run (NewHashmap N 8) ([put 5 50; put 6 60; HReset N; HNextKey N] ++
      concat (repeat [HNextKey N; HGet N (Some 6)] n))) =
    outs ++ concat (repeat [HKey N (Some 5); HVal N 60] n))%N.
Proof.
  split; [vm_compute; reflexivity|]. intros n.
  assert (App : forall a b m, snd (one_run m (a ++ b)) = snd (one_run m a) ++ snd (one_run (fst (one_run m a)) b)).
  { clear. unfold one_run. induction a as [|o a IH]; intros b m; [reflexivity|]. cbn [app hrun].
    destruct (hstep N one_bucket eq_keys m o) as [m' r]. specialize (IH b m').
    destruct (hrun N one_bucket eq_keys m' (a ++ b)) as [? ?], (hrun N one_bucket eq_keys m' a) as [? ?]. cbn [fst snd app] in *. now rewrite IH. }
  set (a := [put 5 50; put 6 60; HReset N; HNextKey N]%N). rewrite App. eexists. f_equal.
  set (m := fst (one_run (NewHashmap N 8) a)). vm_compute in m.
  induction n as [|n IH]; [reflexivity|]. cbn [repeat concat]. rewrite App.
  replace (fst (one_run m [HNextKey N; HGet N (Some 6%N)])) with m by (vm_compute; reflexivity).
  rewrite IH. f_equal.
Qed.

Print Assumptions hashmap_finite_map.
Print Assumptions hashmap_lookups.
Print Assumptions hashmap_iteration.
Print Assumptions hashmap_count_partial.
Print Assumptions hashmap_put_any_memory.
Print Assumptions hash_pointer_injective.
Print Assumptions pointer_keys_distinct.
Print Assumptions pointer_methods.
Print Assumptions string_methods.
Print Assumptions stringinfo_methods.
Print Assumptions hashmap_count_refuted.
Print Assumptions hashmap_count_wraps_refuted.
Print Assumptions hashmap_failed_put_refuted.
Print Assumptions hashmap_iteration_lookup_refuted.
