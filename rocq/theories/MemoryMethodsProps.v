(** C288-C289: memory methods (MemoryMethodsModel.v). *)
From Coq Require Import Arith NArith Bool Lia List.
From Verif Require Import Base Outcome MemoryMethodsModel.
Import ListNotations.

(** * What a program means: variables that hold bytes *)
Definition store := nat -> option (list N).
(** the bytes of count times quantum, at least one; none when the product does not fit into 64 bits or count is 0 *)
Definition bytes_of (count quantum : N) : option nat :=
  if (count =? 0)%N then None else if (count * quantum <? 2 ^ 64)%N then Some (Nat.max 1 (N.to_nat (count * quantum))) else None.
(** the first n bytes of what was there, and then what is found in new memory *)
Definition stretched (junk : nat -> N) (old : list N) (n : nat) : list N := firstn n old ++ map junk (seq (length old) (n - length old)).
Definition means (st : store) (o : op) : option store :=
  match o with
  | Acquire v count quantum ok junk =>
      Some (assign st v (match bytes_of count quantum with Some n => if ok then Some (map junk (seq 0 n)) else None | None => None end))
  | Resize v count quantum r junk =>
      Some (assign st v (match bytes_of count quantum, r with
                         | None, _ | _, Null => None
                         | Some n, _ => Some (stretched junk (match st v with Some old => old | None => [] end) n)
                         end))
  | Relinquish v => Some (assign st v None)
  | Write v i x =>
      match st v with
      | Some c => if i <? length c then Some (assign st v (Some (firstn i c ++ x :: skipn (S i) c))) else None
      | None => None
      end
  | Set_ _ _ _ => Some st
  end.
Fixpoint meaning (ops : list op) (st : store) : option store :=
  match ops with [] => Some st | o :: ops => match means st o with Some st => meaning ops st | None => None end end.
(** The methods are replaced all three, by those of one allocator, and while nothing is held (or by those in use). *)
Fixpoint polite (x : nat) (ops : list op) (st : store) : Prop :=
  match ops with
  | [] => True
  | Set_ a r d :: ops =>
      let is y := (a = Some y \/ a = None /\ y = x) /\ (r = Some y \/ r = None /\ y = x) /\ (d = Some y \/ d = None /\ y = x) in
      exists y, is y /\ (y = x \/ forall v, st v = None) /\ polite y ops st
  | o :: ops => match means st o with Some st => polite x ops st | None => True end
  end.

(** the blocks are those the variables hold, one each, and all are of the allocator in use *)
Record agrees (x : nat) (st : store) (m : memory) (vs : variables) : Prop := {
  ag_methods : GetWizardMemoryMethods m = (x, x, x);
  ag_bytes : forall v, match vs v with None => st v = None | Some p => exists c, In (p, (x, c)) (blocks m) /\ st v = Some c end;
  ag_apart : forall v w p, vs v = Some p -> vs w = Some p -> v = w;
  ag_held : forall p b, In (p, b) (blocks m) -> exists v, vs v = Some p;
  ag_once : NoDup (map fst (blocks m));
  ag_new : forall p b, In (p, b) (blocks m) -> p < next m }.

Lemma find_in l p b : NoDup (map fst l) -> In (p, b) l -> find p l = Some b.
Proof.
  induction l as [|[q c] l IH]; intros N H; [destruct H|]. cbn [find]. inversion N as [|? ? N1 N2]; subst. destruct H as [H|H].
  - injection H as -> ->. now rewrite Nat.eqb_refl.
  - destruct (Nat.eqb_spec q p) as [->|X]; [|now apply IH]. exfalso. apply N1. now apply (in_map fst) in H.
Qed.
Lemma drop_in l p q b : In (q, b) (drop p l) <-> In (q, b) l /\ q <> p.
Proof. unfold drop. rewrite filter_In. cbn [fst]. rewrite negb_true_iff, Nat.eqb_neq. tauto. Qed.
Lemma drop_nodup l p : NoDup (map fst l) -> NoDup (map fst (drop p l)).
Proof.
  induction l as [|[q c] l IH]; intros N; [constructor|]. inversion N as [|? ? N1 N2]; subst. unfold drop. cbn [filter fst].
  destruct (negb (q =? p)); [|now apply IH]. cbn [map fst]. constructor; [|now apply IH].
  intros H. apply N1. apply in_map_iff in H as [[q' b] [E H]]. cbn in E. subst q'. apply filter_In in H as [H _]. now apply (in_map fst) in H.
Qed.
Lemma bytes_asked count quantum : bytes_of count quantum = if overflows count quantum then None else Some (asked (wmul 64 count quantum)).
Proof.
  unfold bytes_of, overflows, asked, wmul, wrap. destruct (N.eqb_spec count 0) as [->|C]; [reflexivity|]. cbn [orb].

  assert (P : (count * quantum / count = quantum)%N) by (rewrite N.mul_comm; now apply N.div_mul).
  destruct (N.ltb_spec (count * quantum) (2 ^ 64)) as [L|L].
  - rewrite (N.mod_small _ _ L), P, N.eqb_refl. cbn [negb]. f_equal. destruct (N.eqb_spec (count * quantum) 0) as [->|Z]; [reflexivity|lia].
  - destruct (N.eqb_spec quantum ((count * quantum) mod 2 ^ 64 / count)) as [E|E]; [|reflexivity]. exfalso.
    pose proof (N.mod_upper_bound (count * quantum) (2 ^ 64) ltac:(discriminate)) as U.
    pose proof (N.mul_div_le ((count * quantum) mod 2 ^ 64) count C) as D. rewrite <- E in D. lia.
Qed.
Lemma variable x st m vs v : agrees x st m vs -> match vs v with None => st v = None | Some p => exists c, find p (blocks m) = Some (x, c) /\ In (p, (x, c)) (blocks m) /\ st v = Some c end.
Proof.
  intros A. pose proof (ag_bytes _ _ _ _ A v) as B. destruct (vs v) as [p|]; [|exact B]. destruct B as [c [I E]]. exists c. split; [|now split].
  apply find_in; [exact (ag_once _ _ _ _ A)|exact I].
Qed.
(** a variable is given up *)
Lemma gives x st m vs v : agrees x st m vs ->
  exists m', RelinquishWizardMemory m (vs v) = Ok m' /\ agrees x (assign st v None) m' (assign vs v None) /\ next m' = next m.
Proof.
  intros A. pose proof (variable x st m vs v A) as B. destruct A as [M Y P H N W]. destruct (vs v) as [p|] eqn:V.
  - destruct B as [c [F [I E]]]. cbn [RelinquishWizardMemory]. rewrite F. injection M as M1 M2 M3. rewrite M3, Nat.eqb_refl. eexists. split; [reflexivity|]. split; [|reflexivity].
    split; cbn [with_blocks blocks next].
    + unfold GetWizardMemoryMethods. cbn. congruence.
    + intros w. unfold assign. destruct (Nat.eqb_spec w v) as [->|Wv]; [reflexivity|]. specialize (Y w). destruct (vs w) as [q|] eqn:Vw; [|exact Y]. destruct Y as [d [Id Ed]]. exists d. split; [|exact Ed].
      apply drop_in. split; [exact Id|]. intros ->. apply Wv. now apply (P w v p).
    + intros w u q. unfold assign. destruct (w =? v); [discriminate|]. destruct (u =? v); [discriminate|]. apply P.
    + intros q b Q. apply drop_in in Q as [Q X]. destruct (H q b Q) as [w Hw]. exists w. unfold assign. destruct (Nat.eqb_spec w v) as [->|]; [|exact Hw]. congruence.
    + now apply drop_nodup.
    + intros q b Q. apply drop_in in Q as [Q _]. now apply (W q b).
  - exists m. split; [reflexivity|]. split; [|reflexivity]. split; [exact M| | | |exact N|exact W].
    + intros w. unfold assign. destruct (Nat.eqb_spec w v) as [->|]; [reflexivity|apply Y].
    + intros w u q. unfold assign. destruct (w =? v); [discriminate|]. destruct (u =? v); [discriminate|]. apply P.
    + intros q b Q. destruct (H q b Q) as [w Hw]. exists w. unfold assign. destruct (Nat.eqb_spec w v) as [->|]; [congruence|exact Hw].
Qed.
(** an empty variable gets a new block *)
Lemma takes x st m vs v c : agrees x st m vs -> vs v = None ->
  agrees x (assign st v (Some c)) (with_blocks m ((next m, (x, c)) :: blocks m) (S (next m))) (assign vs v (Some (next m))).
Proof.
  intros [M Y P H N W] V. assert (New : forall w, vs w <> Some (next m)).
  { intros w Hw. specialize (Y w). rewrite Hw in Y. destruct Y as [d [Id _]]. apply W in Id. lia. }
  split; cbn [with_blocks blocks next].
  - unfold GetWizardMemoryMethods in *. cbn. exact M.
  - intros w. unfold assign. destruct (Nat.eqb_spec w v) as [->|Wv]; [exists c; split; [now left|reflexivity]|]. specialize (Y w). destruct (vs w) as [q|]; [|exact Y]. destruct Y as [d [Id Ed]]. exists d. split; [now right|exact Ed].
  - intros w u q. unfold assign. destruct (Nat.eqb_spec w v) as [->|], (Nat.eqb_spec u v) as [->|]; intros E1 E2; [reflexivity| | |now apply (P w u q)].
    + injection E1 as <-. now destruct (New u).
    + injection E2 as <-. now destruct (New w).
  - intros q b [Q|Q]; [injection Q as <- <-; exists v; unfold assign; now rewrite Nat.eqb_refl|]. destruct (H q b Q) as [w Hw]. exists w. unfold assign. destruct (Nat.eqb_spec w v) as [->|]; [congruence|exact Hw].
  - cbn [map fst]. constructor; [|exact N]. intros Q. apply in_map_iff in Q as [[q b] [E Q]]. cbn in E. subst q. apply W in Q. lia.
  - intros q b [Q|Q]; [injection Q as <- <-; lia|]. apply W in Q. lia.
Qed.
(** the bytes of a variable change in their place *)
Lemma changes x st m vs v p c c' : agrees x st m vs -> vs v = Some p -> In (p, (x, c)) (blocks m) ->
  agrees x (assign st v (Some c')) (with_blocks m ((p, (x, c')) :: drop p (blocks m)) (next m)) vs.
Proof.
  intros [M Y P H N W] V I. split; cbn [with_blocks blocks next].
  - unfold GetWizardMemoryMethods in *. cbn. exact M.
  - intros w. unfold assign. destruct (Nat.eqb_spec w v) as [->|Wv]; [rewrite V; exists c'; split; [now left|reflexivity]|]. specialize (Y w). destruct (vs w) as [q|] eqn:Vw; [|exact Y]. destruct Y as [d [Id Ed]].
    exists d. split; [|exact Ed]. right. apply drop_in. split; [exact Id|]. intros ->. apply Wv. now apply (P w v p).
  - exact P.
  - intros q b [Q|Q]; [injection Q as <- <-; now exists v|]. apply drop_in in Q as [Q _]. now apply (H q b).
  - cbn [map fst]. constructor; [|now apply drop_nodup]. intros Q. apply in_map_iff in Q as [[q b] [E Q]]. cbn in E. subst q. apply drop_in in Q as [_ Q]. now apply Q.
  - intros q b [Q|Q]; [injection Q as <- <-; now apply (W p (x, c))|]. apply drop_in in Q as [Q _]. now apply (W q b).
Qed.
Lemma assign_same {A} (f : nat -> option A) v x : assign f v x v = x.
Proof. unfold assign. now rewrite Nat.eqb_refl. Qed.
Lemma agrees_ext x st st' m vs vs' : (forall v, st v = st' v) -> (forall v, vs v = vs' v) -> agrees x st m vs -> agrees x st' m vs'.
Proof.
  intros E F [M Y P H N W]. split; [exact M| | | |exact N|exact W].
  - intros v. rewrite <- F, <- E. apply Y.
  - intros v w p. rewrite <- !F. apply P.
  - intros p b I. destruct (H p b I) as [v Hv]. exists v. now rewrite <- F.
Qed.
Lemma assign_twice {A} (f : nat -> option A) v x y : forall w, assign (assign f v x) v y w = assign f v y w.
Proof. intros w. unfold assign. now destruct (w =? v). Qed.
Lemma renewed x st m vs v c : agrees x (assign st v None) m (assign vs v None) ->
  agrees x (assign st v (Some c)) (with_blocks m ((next m, (x, c)) :: blocks m) (S (next m))) (assign vs v (Some (next m))).
Proof.
  intros A. apply (takes _ _ _ _ v c) in A; [|apply assign_same]. eapply agrees_ext; [| |exact A]; intros w; apply assign_twice.
Qed.
Lemma stepped x st m vs o : agrees x st m vs -> (forall a r d, o <> Set_ a r d) ->
  match means st o with
  | Some st' => exists m' vs', step (m, vs) o = Ok (m', vs') /\ agrees x st' m' vs'
  | None => step (m, vs) o = UB
  end.
Proof.
  intros A NS. destruct o as [v count quantum ok junk|v count quantum r junk|v|v i y|a r d]; cbn [means step].
  - destruct (gives x st m vs v A) as [m' [-> [A' Nx]]]. cbn [bind]. rewrite bytes_asked. unfold AcquireQuantumMemory. destruct (overflows count quantum); [now exists m', (assign vs v None)|].
    unfold AcquireWizardMemory. destruct ok; [|now exists m', (assign vs v None)]. do 2 eexists. split; [reflexivity|].
    pose proof (ag_methods _ _ _ _ A') as Ms. unfold GetWizardMemoryMethods in Ms. injection Ms as -> _ _. now apply renewed.
  - rewrite bytes_asked. unfold ResizeQuantumMemory. destruct (gives x st m vs v A) as [m' [G [A' Nx]]]. destruct (overflows count quantum).
    + rewrite G. cbn [bind fst snd]. now exists m', (assign vs v None).
    + pose proof (variable x st m vs v A) as B. pose proof (ag_methods _ _ _ _ A) as Ms. unfold GetWizardMemoryMethods in Ms. injection Ms as M1 M2 M3. destruct (vs v) as [p|] eqn:V.
      * destruct B as [c [F [I E]]]. unfold ResizeWizardMemory. rewrite F, M2, Nat.eqb_refl, E. destruct r.
        -- rewrite G. cbn [bind fst snd]. now exists m', (assign vs v None).
        -- cbn [bind fst snd]. do 2 eexists. split; [reflexivity|]. eapply agrees_ext; [| |eapply changes; [exact A|exact V|exact I]]; [reflexivity|].
           intros w. unfold assign. destruct (Nat.eqb_spec w v) as [->|]; [exact V|reflexivity].
        -- cbn [bind fst snd]. do 2 eexists. split; [reflexivity|]. cbn [RelinquishWizardMemory] in G. rewrite F, M3, Nat.eqb_refl in G. injection G as <-.
           apply (renewed _ _ _ _ _ (stretched junk c (asked (wmul 64 count quantum)))) in A'. exact A'.
      * cbn [ResizeWizardMemory bind fst snd]. rewrite B. cbn [RelinquishWizardMemory] in G. injection G as <-. unfold AcquireWizardMemory. destruct r; [now exists m, (assign vs v None)| |];
          (do 2 eexists; split; [reflexivity|]; cbn [fst snd]; rewrite M1; unfold stretched; rewrite firstn_nil; cbn [app length]; rewrite Nat.sub_0_r; now apply renewed).
  - destruct (gives x st m vs v A) as [m' [-> [A' _]]]. cbn [bind]. now exists m', (assign vs v None).
  - pose proof (variable x st m vs v A) as B. destruct (vs v) as [p|] eqn:V; [|now rewrite B]. destruct B as [c [F [I E]]]. rewrite E, F. unfold mem_write. cbn [length].
    destruct (Nat.ltb_spec i (length c)) as [L|L].
    + destruct (Nat.leb_spec (i + 1) (length c)); [|lia]. cbn [bind]. do 2 eexists. split; [reflexivity|].
      assert (splice c i [y] = firstn i c ++ y :: skipn (S i) c) as -> by (unfold splice; cbn [length]; now rewrite Nat.add_1_r).
      eapply changes; [exact A|exact V|exact I].
    + destruct (Nat.leb_spec (i + 1) (length c)); [lia|reflexivity].
  - now destruct (NS a r d).
Qed.
(** C288: programs do what they mean, and every block is the one of one variable; none is left when the variables are empty *)
Theorem methods_refine : forall ops x st m vs, agrees x st m vs -> polite x ops st ->
  match meaning ops st with
  | Some st' => exists y m' vs', run ops (m, vs) = Ok (m', vs') /\ agrees y st' m' vs'
  | None => run ops (m, vs) = UB
  end.
Proof.
  induction ops as [|o ops IH]; intros x st m vs A P; [now exists x, m, vs|].
  unfold run in *. cbn [meaning fold_outcome].
  assert (D : (exists a r d, o = Set_ a r d) \/ forall a r d, o <> Set_ a r d) by (destruct o; [right; discriminate..|left; now exists a, r, d]).
  destruct D as [[a [r [d ->]]]|D].
  - cbn [polite] in P. destruct P as [y [[Ia [Ir Id]] [Y P]]]. cbn [means step bind]. apply (IH y); [|exact P].
    destruct A as [M B Ap H N W]. unfold GetWizardMemoryMethods in M. injection M as M1 M2 M3. split; [| |exact Ap|exact H|exact N|exact W].
    + unfold GetWizardMemoryMethods, SetWizardMemoryMethods. cbn. rewrite M1, M2, M3. destruct Ia as [->|[-> ->]], Ir as [->|[-> Er]], Id as [->|[-> Ed]]; cbn; congruence.
    + intros v. specialize (B v). destruct Y as [->|Y]; [exact B|]. destruct (vs v) as [p|]; [|exact B]. destruct B as [c [_ E]]. rewrite Y in E. discriminate.
  - pose proof (stepped x st m vs o A D) as S. assert (P' : match means st o with Some st => polite x ops st | None => True end) by (destruct o; try exact P; now destruct (D a r d)).
    destruct (means st o) as [st1|]; [|now rewrite S]. destruct S as [m1 [vs1 [-> A1]]]. cbn [bind]. now apply (IH x).
Qed.
Definition empty {A} : nat -> option A := fun _ => None.
Lemma fresh_agrees : agrees 0 empty fresh empty.
Proof. split; try reflexivity; cbn; try constructor; try contradiction; discriminate. Qed.
Theorem methods_start : forall ops, polite 0 ops empty ->
  match meaning ops empty with
  | Some st => exists m vs, run ops (fresh, empty) = Ok (m, vs) /\
      (forall v, option_map (fun p => option_map snd (find p (blocks m))) (vs v) = option_map Some (st v)) /\
      ((forall v, st v = None) -> blocks m = [])
  | None => run ops (fresh, empty) = UB
  end.
Proof.
  intros ops P. pose proof (methods_refine ops 0 empty fresh empty fresh_agrees P) as R. destruct (meaning ops empty) as [st|]; [|exact R].
  destruct R as [y [m [vs [R A]]]]. exists m, vs. split; [exact R|]. split.
  - intros v. pose proof (variable _ _ _ _ v A) as B. destruct (vs v) as [p|]; [|now rewrite B]. destruct B as [c [F [_ E]]]. rewrite E. cbn. now rewrite F.
  - intros Z. destruct (blocks m) as [|[p b] l] eqn:Bl; [reflexivity|]. destruct (ag_held _ _ _ _ A p b) as [v V]; [rewrite Bl; now left|]. pose proof (ag_bytes _ _ _ _ A v) as B. rewrite V, Z in B. now destruct B as [c [_ B]].
Qed.
Example methods_ex :
  let ops := [Set_ (Some 7) (Some 7) (Some 7); Acquire 1 2 2 true (fun _ => 9%N); Write 1 3 5; Resize 1 3 2 Moves (fun _ => 8%N); Resize 1 2 (2 ^ 63) Stays (fun _ => 0%N); Set_ (Some 0) (Some 0) (Some 0)] in
  option_map (fun st => st 1) (meaning (firstn 4 ops) empty) = Some (Some [9; 9; 9; 5; 8; 8]%N) /\
  option_map (fun st => st 1) (meaning ops empty) = Some None /\ polite 0 ops empty.
Proof.
  cbv zeta. split; [vm_compute; reflexivity|]. split; [vm_compute; reflexivity|]. cbn [polite]. exists 7. split; [auto|]. split; [now right|].
  cbn [means]. change (bytes_of 2 2) with (Some 4). cbn [assign Nat.eqb Nat.ltb Nat.leb length map seq]. exists 0. split; [auto|]. split; [right|exact I].
  intros v. unfold assign, empty. now destruct (v =? 1).
Qed.
(** What GetWizardMemoryMethods gave brings the methods back, whatever was set in between. *)
Theorem methods_back : forall m a r d, let '(x, y, z) := GetWizardMemoryMethods m in
  SetWizardMemoryMethods (SetWizardMemoryMethods m a r d) (Some x) (Some y) (Some z) = m.
Proof. now intros [x y z l n] a r d. Qed.

(** C289 fails: whatever program has led here, a block that is held when the methods are replaced can neither be given
    back nor resized *)
Theorem methods_switched_refuted : forall x st m vs v y, agrees x st m vs -> st v <> None -> y <> x ->
  run [Set_ (Some y) (Some y) (Some y); Relinquish v] (m, vs) = UB /\
  forall count quantum r junk, run [Set_ (Some y) (Some y) (Some y); Resize v count quantum r junk] (m, vs) = UB.
Proof.
  intros x st m vs v y A V Y. pose proof (variable _ _ _ _ v A) as B. destruct (vs v) as [p|] eqn:E; [|contradiction]. destruct B as [c [F _]].
  assert (X : (x =? y) = false) by (apply Nat.eqb_neq; congruence).
  assert (R : RelinquishWizardMemory (SetWizardMemoryMethods m (Some y) (Some y) (Some y)) (Some p) = UB) by (cbn [RelinquishWizardMemory SetWizardMemoryMethods blocks destroy_ or_else]; now rewrite F, X).
  unfold run. cbn [fold_outcome step bind]. rewrite E. split; [now rewrite R|]. intros count quantum r junk. unfold ResizeQuantumMemory.
  destruct (overflows count quantum); [now rewrite R|]. cbn [ResizeWizardMemory SetWizardMemoryMethods blocks resize_ or_else]. now rewrite F, X.
Qed.
(** NULL keeps a method: after the others have been replaced, no new block can be given back *)
Theorem methods_part_refuted : forall x st m vs v y count quantum junk, agrees x st m vs -> y <> x -> bytes_of count quantum <> None ->
  run [Set_ (Some y) (Some y) None; Acquire v count quantum true junk; Relinquish v] (m, vs) = UB.
Proof.
  intros x st m vs v y count quantum junk A Y B. destruct (gives x st m vs v A) as [m' [G [A' _]]].
  assert (X : (y =? x) = false) by now apply Nat.eqb_neq. unfold run. cbn [fold_outcome step bind].
  assert (R : RelinquishWizardMemory (SetWizardMemoryMethods m (Some y) (Some y) None) (vs v) = Ok (SetWizardMemoryMethods m' (Some y) (Some y) None)).
  { destruct (vs v) as [p|]; cbn [RelinquishWizardMemory] in *; [|now injection G as <-]. cbn [SetWizardMemoryMethods blocks destroy_ or_else]. destruct (find p (blocks m)) as [[a c]|]; [|discriminate].
    destruct (a =? destroy_ m); [now injection G as <-|discriminate]. }
  rewrite R. cbn [bind]. rewrite bytes_asked in B. unfold AcquireQuantumMemory. destruct (overflows count quantum); [now destruct B|]. cbn [AcquireWizardMemory bind step fold_outcome].
  rewrite assign_same. cbn [RelinquishWizardMemory with_blocks blocks find next acquire_ SetWizardMemoryMethods or_else destroy_]. rewrite Nat.eqb_refl.
  pose proof (ag_methods _ _ _ _ A') as Ms. unfold GetWizardMemoryMethods in Ms. injection Ms as _ _ M3. now rewrite M3, X.
Qed.
Example methods_refuted_ex : agrees 0 empty fresh empty /\ bytes_of 3 5 = Some 15 /\
  exists m vs, run [Acquire 4 3 5 true (fun _ => 1%N)] (fresh, empty) = Ok (m, vs) /\ vs 4 = Some 1.
Proof. split; [exact fresh_agrees|]. split; [reflexivity|]. do 2 eexists. split; [vm_compute; reflexivity|reflexivity]. Qed.
Print Assumptions methods_refine.
Print Assumptions methods_start.
Print Assumptions methods_back.
Print Assumptions methods_switched_refuted.
Print Assumptions methods_part_refuted.
