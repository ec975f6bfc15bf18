(** C61: allocation sizes; C76: the resource counters of virtual memory. *)
From Coq Require Import ZArith NArith List Bool Lia.
From Coq Require Import ZifyBool ZifyNat ZifyN.
From Verif Require Import Base BaseLemmas Outcome ResourceModel ResourceSpec ResourceProps MemoryModel.
Import ListNotations.
Local Open Scope N_scope.

(** ** C61 *)
Lemma check_exact M c q : 0 < M -> c <> 0 -> q < M -> (q = (c * q) mod M / c <-> c * q < M).
Proof.
  intros P C Q. split; intros H.
  - assert (c * q <= (c * q) mod M) by (rewrite H at 1; apply N.mul_div_le; lia).
    pose proof (N.mod_upper_bound (c * q) M). lia.
  - rewrite N.mod_small by lia. rewrite N.mul_comm, N.div_mul; lia.
Qed.

(** the request is the exact product, and it is refused only when the product
    does not fit or nothing was asked for *)
Theorem acquire_quantum_memory (count quantum : N) : word 64 count -> word 64 quantum ->
  match AcquireQuantumMemory count quantum with
  | Some bytes => bytes = N.max 1 (count * quantum) /\ bytes < 2 ^ 64
  | None => count = 0 \/ 2 ^ 64 <= count * quantum
  end.
Proof.
  unfold word, AcquireQuantumMemory, AcquireWizardMemory, wmul, wrap. intros C Q. set (M := 2 ^ 64) in *.
  assert (P : 1 < M) by reflexivity. clearbody M.
  destruct (N.eqb_spec count 0) as [->|Z]; [now left|]. cbn [orb].
  pose proof (check_exact M count quantum ltac:(lia) Z Q) as E.
  destruct (N.eqb_spec quantum ((count * quantum) mod M / count)) as [H|H]; cbn [negb].
  - apply E in H. rewrite N.mod_small by lia. destruct (N.eqb_spec (count * quantum) 0) as [W|W]; [rewrite W; cbn; lia|]. lia.
  - right. apply N.le_ngt. intros L. now apply H, E.
Qed.

Theorem resize_quantum_memory (count quantum : N) : word 64 count -> word 64 quantum ->
  match ResizeQuantumMemory count quantum with
  | Some bytes => bytes = N.max 1 (count * quantum) /\ bytes < 2 ^ 64
  | None => count = 0 \/ 2 ^ 64 <= count * quantum
  end.
Proof. exact (acquire_quantum_memory count quantum). Qed.

(** aligned blocks are at least as long as asked for, whole cache lines long,
    and refused only when the rounded length does not fit *)
Lemma land_round x k : N.land x (N.lxor (N.ones k) (N.ones 64)) = x mod 2 ^ 64 / 2 ^ k * 2 ^ k \/ 64 < k.
Proof.
  destruct (N.le_gt_cases k 64) as [H|H]; [left|now right]. apply N.bits_inj. intros i.
  rewrite N.land_spec, N.lxor_spec. destruct (N.lt_ge_cases i k) as [L|L].
  - rewrite N.mul_pow2_bits_low by lia. rewrite !N.ones_spec_low by lia. cbn. apply andb_false_r.
  - rewrite N.mul_pow2_bits_high by lia. rewrite N.div_pow2_bits. replace (i - k + k) with i by lia.
    rewrite (N.ones_spec_high k i) by lia. destruct (N.lt_ge_cases i 64) as [L2|L2].
    + rewrite N.ones_spec_low, N.mod_pow2_bits_low by lia. apply andb_true_r.
    + rewrite N.ones_spec_high, N.mod_pow2_bits_high by lia. apply andb_false_r.
Qed.

Lemma aligned_extent size : size < 2 ^ 64 -> AlignedExtent size 64 = (size + 63) mod 2 ^ 64 / 64 * 64.
Proof.
  intros H. unfold AlignedExtent, wnot, wadd, wrap. change (64 - 1) with (N.ones 6).
  destruct (land_round ((size + N.ones 6) mod 2 ^ 64) 6) as [->|?]; [|lia].
  rewrite N.mod_mod by discriminate. reflexivity.
Qed.

Theorem acquire_aligned_memory (page count quantum : N) : word 64 count -> word 64 quantum ->
  match AcquireAlignedMemory page count quantum with
  | Some (alignment, extent) =>
      count * quantum <= extent < count * quantum + 64 /\ extent mod 64 = 0 /\ extent < 2 ^ 64 /\
      (alignment = 64 \/ alignment = page)
  | None => count * quantum = 0 \/ 2 ^ 64 < count * quantum + 64
  end.
Proof.
  unfold word, AcquireAlignedMemory, CACHE_LINE_SIZE, wmul, wrap. intros C Q.
  destruct (N.eqb_spec count 0) as [->|Z]; [now left|]. cbn [orb].
  pose proof (check_exact (2 ^ 64) count quantum ltac:(lia) Z Q) as E. 
  destruct (N.eqb_spec quantum ((count * quantum) mod 2 ^ 64 / count)) as [H|H]; cbn [negb].
  2:{ right. apply N.lt_nge. intros L. apply H, E. lia. }
  apply E in H. rewrite N.mod_small by lia. rewrite aligned_extent by lia. clear E. remember (count * quantum) as s eqn:Es. clear Es.
  set (x := (s + 63) mod 2 ^ 64). pose proof (N.div_mod x 64 ltac:(lia)) as D. pose proof (N.mod_upper_bound x 64 ltac:(lia)) as U.
  assert (X : s + 63 < 2 ^ 64 /\ x = s + 63 \/ 2 ^ 64 <= s + 63 /\ x < 63).
  { unfold x. destruct (N.lt_ge_cases (s + 63) (2 ^ 64)) as [L|L]; [left; now rewrite N.mod_small|right].
    split; [exact L|]. replace (s + 63) with (s + 63 - 2 ^ 64 + 1 * 2 ^ 64) by lia. rewrite N.mod_add, N.mod_small by lia. lia. }
  destruct (N.eqb_spec s 0) as [->|S0]; [now left|]. cbn [orb].
  destruct (N.ltb_spec (x / 64 * 64) s) as [L|L].
  - right. lia.
  - assert (x / 64 * 64 < 2 ^ 64) by lia. split; [lia|]. split; [apply N.mod_mul; lia|]. split; [assumption|].
    destruct (N.shiftr page 1 <? s); auto.
Qed.

(** ** OverAllocateMemory: enough, and less than twice what is needed *)
Lemma double_until_ok : forall n length e, 256 <= e -> e < 2 * N.max 256 length -> length < 2 ^ 32 -> length <= e * 2 ^ N.of_nat n ->
  exists x, double_until (S n) e length = Some x /\ length <= x /\ x < 2 * N.max 256 length.
Proof.
  induction n as [|n IH]; intros length e H1 H2 H3 H7; remember (2 ^ 32) as M eqn:EM.
  - cbn [double_until]. change (2 ^ N.of_nat 0) with 1 in H7. destruct (N.ltb_spec e length); [lia|]. exists e. auto.
  - change (double_until (S (S n)) e length) with (if e <? length then double_until (S n) (wmul 64 e 2) length else Some e).
    destruct (N.ltb_spec e length) as [L|L]; [|exists e; auto].
    unfold wmul, wrap. rewrite N.mod_small.
    2:{ change (2 ^ 64) with (2 ^ 32 * 2 ^ 32). rewrite <- EM. assert (4 < M) by (rewrite EM; reflexivity). nia. }
    replace (N.of_nat (S n)) with (1 + N.of_nat n) in H7 by lia. rewrite N.pow_add_r in H7. change (2 ^ 1) with 2 in H7.
    apply IH; lia.
Qed.

Theorem over_allocate_memory (length : N) :
  exists x, (forall fuel, (10 <= fuel)%nat -> OverAllocateMemory fuel length = Some x) /\ length <= x /\ x < 2 * N.max 256 length.
Proof.
  unfold OverAllocateMemory. destruct (N.ltb_spec length 131072) as [L|L].
  - destruct (double_until_ok 9 length 256) as (x & E & B); [lia|lia|change (2 ^ 32) with 4294967296; lia|change (2 ^ N.of_nat 9) with 512; lia|].
    exists x. split; [|exact B]. intros fuel F. assert (M : forall f e x, double_until f e length = Some x -> forall g, (f <= g)%nat -> double_until g e length = Some x).
    { clear. induction f as [|f IH]; intros e x E g G; [discriminate|]. destruct g as [|g]; [lia|]. cbn [double_until] in *.
      destruct (e <? length); [|exact E]. apply (IH _ _ E). lia. }
    now apply (M _ _ _ E).
  - exists length. split; [reflexivity|]. lia.
Qed.

(** ** C76: virtual memory *)
Local Open Scope Z_scope.

(** with no limits, acquiring and giving back leaves every counter as it was,
    and in between it is up by the length in the counters of the kind of
    memory obtained *)
Definition charged (v : vtype) (t : rtype) : bool :=
  match v, t with
  | Aligned, MemoryResource => true
  | Mapped _, MapResource => true
  | Mapped true, DiskResource => true
  | _, _ => false
  end.
Definition unlimited (s : resource_info) : Prop :=
  forall t, counted t -> limit s t = (2 ^ 64 - 1)%N.
Definition room (s : resource_info) (n : N) : Prop :=
  forall t, counted t -> 0 <= used s t /\ used s t + Z.of_N n < 2 ^ 63.

Definition up (s s' : resource_info) (n : N) (c : rtype -> bool) : Prop :=
  forall u, limit s' u = limit s u /\ used s' u = used s u + (if c u then Z.of_N n else 0).

Lemma up_acquire s s' n c t : up s s' n c -> unlimited s -> room s n -> counted t -> c t = false ->
  exists s2, AcquireWizardResource s' t n = (s2, true) /\ up s s2 n (fun u => rtype_eqb t u || c u).
Proof.
  intros U L R C F. destruct (U t) as (Ul & Uu). rewrite F in Uu. destruct (R t C) as (R1 & R2). specialize (L t C).
  destruct (acquire_ok s' t n C) as (A1 & A2 & A3); [lia|lia|left; now rewrite Ul|].
  assert (G : may_grant (limit s' t) (used s' t) n = true) by (unfold may_grant; rewrite Ul, L; reflexivity). rewrite G in *.
  destruct (AcquireWizardResource s' t n) as [s2 b]. cbn [fst snd] in *. subst b. exists s2. split; [reflexivity|].
  intros u. rewrite A2, A3. destruct (U u) as (-> & ->). split; [reflexivity|].
  destruct (rtype_eqb_spec t u) as [<-|]; cbn [andb orb]; [rewrite F|destruct (c u)]; lia.
Qed.
Lemma up_relinquish s s' n c t : up s s' n c -> room s n -> counted t -> c t = true ->
  exists s2, RelinquishWizardResource s' t n = Ok s2 /\ up s s2 n (fun u => negb (rtype_eqb t u) && c u).
Proof.
  intros U R C F. destruct (U t) as (Ul & Uu). rewrite F in Uu. destruct (R t C) as (R1 & R2).
  destruct (relinquish_some s' t n C) as (s2 & E); [lia|lia|]. exists s2. split; [exact E|].
  apply relinquish_ok in E as (_ & A2 & A3); [|assumption|lia|lia].
  intros u. rewrite A2, A3. destruct (U u) as (-> & ->). split; [reflexivity|].
  destruct (rtype_eqb_spec t u) as [<-|]; cbn [andb negb]; [rewrite F|destruct (c u)]; lia.
Qed.
Lemma up_ext s s' n c c' : (forall t, c t = c' t) -> up s s' n c -> up s s' n c'.
Proof. intros E U t. rewrite <- E. apply U. Qed.

Ltac counters := let t := fresh in intros t; destruct t; reflexivity.

Theorem virtual_memory_balance_partial (page : N) (o : answers) (s : resource_info) (count quantum : N) :
  unlimited s -> room s (count * quantum) -> word 64 quantum ->
  match AcquireVirtualMemory page o s count quantum with
  | Ok (Some m, s1) =>
      mi_length m = (count * quantum)%N /\ up s s1 (mi_length m) (charged (mi_type m)) /\
      exists s2, RelinquishVirtualMemory s1 m = Ok s2 /\ forall u, used s2 u = used s u /\ limit s2 u = limit s u
  | Ok (None, s1) => forall u, used s1 u = used s u /\ limit s1 u = limit s u
  | _ => False
  end.
Proof.
  intros L R Q. unfold AcquireVirtualMemory.
  assert (P : (count * quantum < 2 ^ 63)%N) by (destruct (R MemoryResource ltac:(discriminate)); lia).
  assert (E : wmul 64 count quantum = (count * quantum)%N) by (unfold wmul, wrap; rewrite N.mod_small by lia; reflexivity).
  rewrite E. clear E. destruct (N.eqb_spec count 0) as [->|Z]; [intros u; split; reflexivity|]. cbn [orb].
  assert (E : (quantum =? count * quantum / count)%N = true) by (apply N.eqb_eq; rewrite N.mul_comm, N.div_mul; lia).
  rewrite E. clear E. cbn [negb]. remember (count * quantum)%N as n eqn:En. clear En P.
  assert (U0 : up s s n (fun _ => false)) by (intros u; split; [reflexivity|cbn; lia]).
  assert (FIN : forall s1 m, mi_length m = n -> up s s1 n (charged (mi_type m)) ->
    mi_length m = n /\ up s s1 (mi_length m) (charged (mi_type m)) /\
    exists s2, RelinquishVirtualMemory s1 m = Ok s2 /\ forall u, used s2 u = used s u /\ limit s2 u = limit s u).
  { intros s1 [ty len] El U. cbn [mi_length mi_type] in *. subst len. split; [reflexivity|]. split; [exact U|].
    assert (D : forall s2, up s s2 n (fun _ => false) -> forall u, used s2 u = used s u /\ limit s2 u = limit s u).
    { intros s2 U2 u. destruct (U2 u) as (-> & ->). split; [lia|reflexivity]. }
    unfold RelinquishVirtualMemory. cbn [mi_length mi_type]. destruct ty as [|[|]|].
    - destruct (up_relinquish s s1 n _ MemoryResource U R) as (s2 & -> & U2); [discriminate|reflexivity|].
      exists s2. split; [reflexivity|]. apply D. revert U2. apply up_ext. counters.
    - destruct (up_relinquish s s1 n _ MapResource U R) as (s2 & -> & U2); [discriminate|reflexivity|]. cbn [bind].
      destruct (up_relinquish s s2 n _ DiskResource U2 R) as (s3 & -> & U3); [discriminate|reflexivity|].
      exists s3. split; [reflexivity|]. apply D. revert U3. apply up_ext. counters.
    - destruct (up_relinquish s s1 n _ MapResource U R) as (s2 & -> & U2); [discriminate|reflexivity|]. cbn [bind].
      exists s2. split; [reflexivity|]. apply D. revert U2. apply up_ext. counters.
    - exists s1. split; [reflexivity|]. apply D. revert U. apply up_ext. counters. }
  assert (D : forall s2, up s s2 n (fun _ => false) -> forall u, used s2 u = used s u /\ limit s2 u = limit s u).
  { intros s2 U2 u. destruct (U2 u) as (-> & ->). split; [lia|reflexivity]. }
  destruct (up_acquire s s n _ MemoryResource U0 L R) as (s1 & -> & U1); [discriminate|reflexivity|].
  assert (MAP : match
    (let* s0 := RelinquishWizardResource s1 MemoryResource n in
     let '(s2, granted) := AcquireWizardResource s0 MapResource n in
     if granted
     then if a_anonymous o then Ok (Some (mkMI (Mapped false) n), s2)
          else let '(s3, granted0) := AcquireWizardResource s2 DiskResource n in
               if granted0 && a_file o then Ok (Some (mkMI (Mapped true) n), s3)
               else let* s4 := RelinquishWizardResource s3 DiskResource n in
                    let* s5 := RelinquishWizardResource s4 MapResource n in
                    (if a_malloc o then Ok (Some (mkMI Unaligned n), s5) else Ok (None, s5))
     else let* s3 := RelinquishWizardResource s2 MapResource n in (if a_malloc o then Ok (Some (mkMI Unaligned n), s3) else Ok (None, s3)))
    with
    | Ok (Some m, s1) =>
      mi_length m = n /\ up s s1 (mi_length m) (charged (mi_type m)) /\
      exists s2, RelinquishVirtualMemory s1 m = Ok s2 /\ forall u, used s2 u = used s u /\ limit s2 u = limit s u
    | Ok (None, s1) => forall u, used s1 u = used s u /\ limit s1 u = limit s u
    | _ => False
    end).
  { destruct (up_relinquish s s1 n _ MemoryResource U1 R) as (s2 & -> & U2); [discriminate|reflexivity|]. cbn [bind].
    destruct (up_acquire s s2 n _ MapResource U2 L R) as (s3 & -> & U3); [discriminate|reflexivity|].
    destruct (a_anonymous o).
    - apply FIN; [reflexivity|]. revert U3. apply up_ext. counters.
    - destruct (up_acquire s s3 n _ DiskResource U3 L R) as (s4 & -> & U4); [discriminate|reflexivity|]. cbn [andb].
      destruct (a_file o).
      + apply FIN; [reflexivity|]. revert U4. apply up_ext. counters.
      + destruct (up_relinquish s s4 n _ DiskResource U4 R) as (s5 & -> & U5); [discriminate|reflexivity|]. cbn [bind].
        destruct (up_relinquish s s5 n _ MapResource U5 R) as (s6 & -> & U6); [discriminate|reflexivity|]. cbn [bind].
        destruct (a_malloc o).
        * apply FIN; [reflexivity|]. revert U6. apply up_ext. counters.
        * apply D. revert U6. apply up_ext. counters. }
  destruct (AcquireAlignedMemory page 1 n); [destruct (a_aligned o)|]; [|exact MAP..].
  apply FIN; [reflexivity|]. revert U1. apply up_ext. counters.
Qed.

(** a request above the memory limit ends the process, although it is nothing
    but a refused request: 2 GiB under the built-in limits *)
Theorem virtual_memory_abort_refuted :
  exists n, (n < 2 ^ 40)%N /\ forall page o, AcquireVirtualMemory page o initial 1 n = Fatal.
Proof. exists (2 ^ 31)%N. split; [reflexivity|]. intros page o. vm_compute. reflexivity. Qed.

(** when others hold at least as much, a refused request takes their holding
    off the books: 1.4 GiB held, 1 GiB refused, 0.4 GiB recorded *)
Theorem virtual_memory_steals_refuted :
  exists held n s, run initial [Acquire MemoryResource held] = Ok (s, [true]) /\ used s MemoryResource = Z.of_N held /\
    forall page o, a_anonymous o = true ->
    exists s1, AcquireVirtualMemory page o s 1 n = Ok (Some (mkMI (Mapped false) n), s1) /\
      used s1 MemoryResource = Z.of_N held - Z.of_N n /\ (0 < n)%N.
Proof.
  exists 1400000000%N, 1000000000%N. eexists. split; [vm_compute; reflexivity|]. split; [reflexivity|].
  intros page o H. unfold AcquireVirtualMemory. cbn -[Z.modulo Z.sub Z.add N.mul]. rewrite H. eexists. split; [vm_compute; reflexivity|]. split; reflexivity.
Qed.

Example acquire_quantum_memory_ex :
  AcquireQuantumMemory 5 7 = Some 35%N /\ AcquireQuantumMemory (2 ^ 33) (2 ^ 31) = None /\ AcquireQuantumMemory 3 0 = Some 1%N.
Proof. repeat split; vm_compute; reflexivity. Qed.
Example acquire_aligned_memory_ex :
  AcquireAlignedMemory 4096 3 1000 = Some (4096, 3008)%N /\ AcquireAlignedMemory 4096 1 (2 ^ 64 - 10) = None.
Proof. split; vm_compute; reflexivity. Qed.
Example over_allocate_memory_ex : OverAllocateMemory 10 257 = Some 512%N /\ OverAllocateMemory 10 131071 = Some 131072%N.
Proof. split; vm_compute; reflexivity. Qed.
Example virtual_memory_ex :
  let s := mkRI 0 100 200 300 4 (2^64-1) (2^64-1) (2^64-1) (2^64-1) (2^64-1) in
  unlimited s /\ room s (10 * 1000) /\
  (exists s1, AcquireVirtualMemory 4096 (mkAns false false true true) s 10 1000 = Ok (Some (mkMI (Mapped true) 10000), s1) /\
     used s1 DiskResource = 10300 /\ used s1 MapResource = 10200 /\ used s1 MemoryResource = 100).
Proof.
  split; [|split].
  - intros []; intros H; reflexivity || now destruct H.
  - intros []; intros H; (now destruct H) || (cbn; lia).
  - eexists. split; [vm_compute; reflexivity|]. repeat split; reflexivity.
Qed.

Print Assumptions acquire_quantum_memory.
Print Assumptions resize_quantum_memory.
Print Assumptions acquire_aligned_memory.
Print Assumptions over_allocate_memory.
Print Assumptions virtual_memory_balance_partial.
Print Assumptions virtual_memory_abort_refuted.
Print Assumptions virtual_memory_steals_refuted.
