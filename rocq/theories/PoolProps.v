(** The embeddable allocator of memory.c: what programs may rely on, and where it fails. *)
From Coq Require Import Arith NArith ZArith Bool List Lia Sorted ZifyBool ZifyNat ZifyN.
From Verif Require Import Outcome PoolModel PoolProof PoolProof2 PoolProof3 PoolProof4 PoolProof5 PoolProof6 PoolSpec PoolProof7 PoolProof8 PoolProof9.
Import ListNotations.
Local Open Scope N_scope.
Ltac Zify.zify_post_hook ::= Z.div_mod_to_equations.

(** ** Blocks are apart, lie in memory the system gave, and keep what is stored in them *)
Theorem allocator_blocks k st v : history k st v -> separate v /\ usable st v /\ intact st v.
Proof.
  intros Hi. destruct (j_history _ _ _ Hi) as (ch & L & H). split; [exact (j_apart _ _ _ _ _ H)|]. split.
  - intros a n A. destruct (j_live _ _ _ _ _ H _ _ A) as (s & Hs & Ls). destruct (held_facts _ _ _ _ _ (j_good _ _ _ _ _ H) Hs) as (A1 & A2 & A3 & A4). split; [lia|]. split; [exact A2|].
    intros q Q. apply held_used in Hs as (pv & Hs). pose proof (i_in _ _ _ _ _ (j_good _ _ _ _ _ H) _ _ (8 * (q / 8)) Hs) as In. unfold extent in In. cbn [c_kind ending c_size] in In.
    specialize (In ltac:(lia) ltac:(lia) ltac:(lia)). apply inside_some in In as (u & l & U & U1 & U2). exists u, l. split; [exact U|]. lia.
  - intros q x D. exact (proj1 (j_data _ _ _ _ _ H _ _ D)).
Qed.
(** ** No legal call reads or writes outside the segments or fails an assertion; a block is
    refused only if the system refuses memory or for the sizes ExpandHeap does not serve *)
Theorem allocator_progress k st v c fuel : history k st v -> legal c st v -> (4 * k + 8 <= fuel)%nat ->
  exists r st', run fuel c st = Ok (r, st') /\
  match c with
  | Acquire size segment => r = 0 -> segment = None \/ ~ roomy size
  | Resize p size segment => r = 0 -> p = 0 /\ (segment = None \/ ~ roomy size)
  | _ => True
  end.
Proof.
  intros Hi Le Fu. destruct (j_history _ _ _ Hi) as (ch & L & H). destruct (j_step _ _ _ _ _ c fuel H Le Fu) as (r & st' & ch' & L' & E & _ & R). eauto.
Qed.
(** a new block was not in use before *)
Theorem allocator_fresh k st v size segment fuel r st' : history k st v -> legal (Acquire size segment) st v -> (4 * k + 8 <= fuel)%nat ->
  AcquireWizardMemory fuel size segment st = Ok (r, st') -> live v r = None /\ forall a n, live v a = Some n -> r <> 0 -> a + n <= r \/ r + asked size <= a.
Proof.
  intros Hi (Mo & Fa) Fu E. destruct (j_history _ _ _ Hi) as (ch & L & H). pose proof (one_call _ _ _ (Acquire size segment) fuel r st' Hi (conj Mo Fa) Fu E) as Hi'.
  destruct (obtain_stage fuel st ch L size segment (j_good _ _ _ _ _ H) (j_settled _ _ _ _ _ H) (j_shape _ _ _ _ _ H) Mo Fa) as (x & st1 & ch' & L' & T & S & Hx & X0); [intros i; pose proof (j_len _ _ _ _ _ H i); lia|].
  rewrite (acquire_taken _ _ _ _ _ _ (j_num _ _ _ _ _ H) T) in E. injection E as <- <-.
  assert (live v x = None) as Lx by (destruct (live v x) as [n|] eqn:V; [destruct (j_live _ _ _ _ _ H _ _ V) as (s & Hs & _); congruence|reflexivity]).
  split; [exact Lx|]. intros a n A Xn. destruct (allocator_blocks _ _ _ Hi') as (Sp & _). cbn [after] in Sp. unfold obtained in Sp. destruct (N.eqb_spec x 0); [contradiction|].
  assert (a <> x) as Nax by congruence. apply Sp; cbn [live]; [now rewrite give_other|apply give_same|assumption].
Qed.

(** ** The layout: each segment is divided into blocks without gaps; a block is free or
    belongs to the program; no two neighbours are free *)
Theorem allocator_layout k st v s l : history k st v -> In (s, l) (mapped st) -> exists bs, layout st s l bs /\ no_two_free st bs /\
  forall b, In b bs -> (is_free st b /\ live v b = None) \/ (~ is_free st b /\ exists n, live v b = Some n /\ n + 24 <= size_in st b).
Proof.
  intros Hi I. destruct (j_history _ _ _ Hi) as (ch & L & H). destruct (layout_exists _ _ _ (j_good _ _ _ _ _ H) (j_settled _ _ _ _ _ H) (j_shape _ _ _ _ _ H) s l I) as (bs & T). exists bs. split; [exact T|]. split; [exact (layout_no_two _ _ _ (j_good _ _ _ _ _ H) (j_settled _ _ _ _ _ H) (j_shape _ _ _ _ _ H) _ _ _ T)|].
  intros b B. apply (laid_free_or_live _ _ _ _ _ H). now exists s, l, bs.
Qed.
Theorem allocator_live_laid k st v b n : history k st v -> live v b = Some n -> laid st b.
Proof. intros Hi V. destruct (j_history _ _ _ Hi) as (ch & L & H). exact (live_laid _ _ _ _ _ H b n V). Qed.
(** ** Nothing is lost: when the program has given everything back, every segment is one
    free block again *)
Theorem allocator_no_leak k st v s l : history k st v -> (forall b, live v b = None) -> In (s, l) (mapped st) ->
  layout st s l [s + 32] /\ is_free st (s + 32) /\ size_in st (s + 32) + 96 = l.
Proof. intros Hi V I. destruct (j_history _ _ _ Hi) as (ch & L & H). exact (all_free _ _ _ _ _ H s l V I). Qed.

(** ** The smallest free block that is large enough is taken and cut to what is needed; the
    system is asked only if there is none *)
Theorem allocator_best_fit k st v size segment fuel r st' : history k st v -> legal (Acquire size segment) st v -> (4 * k + 8 <= fuel)%nat ->
  AcquireWizardMemory fuel size segment st = Ok (r, st') ->
  (r <> 0 -> size_in st' r = needed size) /\
  ((mapped st' = mapped st /\ laid st r /\ is_free st r /\ needed size <= size_in st r /\
    forall b, laid st b -> is_free st b -> needed size <= size_in st b -> size_in st r <= size_in st b) \/
   (forall b, laid st b -> is_free st b -> size_in st b < needed size)).
Proof.
  intros Hi (Mo & Fa) Fu E. destruct (j_history _ _ _ Hi) as (ch & L & H). destruct (asked_pos size) as (Z1 & Z2 & _). pose proof (round_asked size (proj1 Mo)) as Ra. destruct Mo as [Mo1 Mo2].
  assert (asked size + 55 < 2 ^ 64) as Z3 by lia. fold (needed size) in Ra.
  pose proof E as E'. split.
  - intros R0. destruct (obtain_stage fuel st ch L size segment (j_good _ _ _ _ _ H) (j_settled _ _ _ _ _ H) (j_shape _ _ _ _ _ H) (conj Mo1 Mo2) Fa) as (x & st1 & ch' & L' & T & S & Hx & X0); [intros i; pose proof (j_len _ _ _ _ _ H i); lia|].
    rewrite (acquire_taken _ _ _ _ _ _ (j_num _ _ _ _ _ H) T) in E. injection E as <- <-. destruct (N.eqb_spec x 0); [contradiction|].
    pose proof (g_held _ _ _ _ _ _ _ _ S x) as Q. rewrite give_same in Q. apply held_used in Q as (pv & Q). destruct (header_ok _ _ _ _ _ (g_good _ _ _ _ _ _ _ _ S) Q Logic.I) as (_ & Eh & M & _). unfold size_in. rewrite Eh. cbn [c_size c_prev] in *. rewrite <- Ra. destruct pv; cbn [b2n]; lia.
  - destruct (acquire_ok fuel st ch L (asked size) (j_good _ _ _ _ _ H) (j_settled _ _ _ _ _ H) Z1 Z3) as [(_ & Q)|(x & s & pv & st1 & ch' & L' & E1 & X & Ns & Be & M & _)]; [intros i; pose proof (j_len _ _ _ _ _ H i); lia| |].
    + right. intros b B F. destruct (laid_chunk _ _ _ (j_good _ _ _ _ _ H) (j_settled _ _ _ _ _ H) (j_shape _ _ _ _ _ H) b B) as (c & C & Ec). apply (chunk_free _ _ _ (j_good _ _ _ _ _ H) (j_settled _ _ _ _ _ H) _ _ C Ec) in F. rewrite (chunk_size _ _ _ (j_good _ _ _ _ _ H) (j_settled _ _ _ _ _ H) _ _ C). rewrite <- Ra. exact (Q _ _ C F).
    + left. unfold AcquireWizardMemory, activate in E. pose proof (j_num _ _ _ _ _ H). destruct (N.eqb_spec (number st) 1024); [lia|]. cbv zeta in E. rewrite at_least_asked, E1 in E. cbn [bind] in E.
      pose proof (i_al _ _ _ _ _ (j_good _ _ _ _ _ H) _ _ X). destruct (N.eqb_spec x 0); [lia|]. injection E as <- <-. rewrite Ra in *.
      split; [exact M|]. split; [exact (chunk_laid _ _ _ (j_good _ _ _ _ _ H) (j_settled _ _ _ _ _ H) (j_shape _ _ _ _ _ H) _ _ X eq_refl)|]. split; [apply (chunk_free _ _ _ (j_good _ _ _ _ _ H) (j_settled _ _ _ _ _ H) _ _ X); reflexivity|]. rewrite (chunk_size _ _ _ (j_good _ _ _ _ _ H) (j_settled _ _ _ _ _ H) _ _ X). cbn [c_size]. split; [exact Ns|].
      intros b B F Nb. destruct (laid_chunk _ _ _ (j_good _ _ _ _ _ H) (j_settled _ _ _ _ _ H) (j_shape _ _ _ _ _ H) b B) as (c & C & Ec). apply (chunk_free _ _ _ (j_good _ _ _ _ _ H) (j_settled _ _ _ _ _ H) _ _ C Ec) in F. rewrite (chunk_size _ _ _ (j_good _ _ _ _ _ H) (j_settled _ _ _ _ _ H) _ _ C) in *. exact (Be _ _ C F Nb).
Qed.

(** ** Concrete histories *)
Definition result (o : outcome (N * pool)) : N * pool := match o with Ok x => x | _ => (0, initial) end.
Definition is_ok {A} (o : outcome A) : bool := match o with Ok _ => true | _ => false end.
Lemma result_ok o : is_ok o = true -> o = Ok (fst (result o), snd (result o)).
Proof. destruct o as [[r st]| |]; cbn; intros; [reflexivity|discriminate|discriminate]. Qed.
Definition seg : N := 65536.
Definition st1 := snd (result (run 8 (Acquire 100 (Some seg)) initial)).
Definition st2 := snd (result (run 12 (Store 65571 7) st1)).
Definition st3 := snd (result (run 16 (Acquire 4000 None) st2)).
Definition st4 := snd (result (run 20 (Resize 65568 300 (Some 9000000)) st3)).
Definition st5 := snd (result (run 24 (Relinquish 65696) st4)).
Example pool_results :
  map (fun o => fst (result o)) [run 8 (Acquire 100 (Some seg)) initial; run 16 (Acquire 4000 None) st2; run 20 (Resize 65568 300 (Some 9000000)) st3; run 24 (Relinquish 65696) st4] = [65568; 65696; 69728; 0].
Proof. vm_compute. reflexivity. Qed.
Definition v1 := mkView (give 65568 100 (fun _ => None)) (fun _ => None).
Lemma moderate_st st size : size + 2097248 < 2 ^ 64 -> number st = 1 -> moderate st size.
Proof. intros. split; [assumption|]. lia. Qed.
Example history_5 : exists v, history 5 st5 v /\ live v 69728 = Some 300 /\ live v 65568 = None /\ live v 65696 = None /\ data v 69731 = Some 7.
Proof.
  assert (history 1 st1 v1) as H1.
  { refine (one_call 0 initial (mkView (fun _ => None) (fun _ => None)) (Acquire 100 (Some seg)) 8 65568 st1 no_call _ _ _); [|lia|vm_compute; reflexivity].
    split; [split; reflexivity|]. cbn [fair]. split; [discriminate|]. split; [reflexivity|]. intros b l []. }
  set (v2 := after (Store 65571 7) 0 v1).
  assert (history 2 st2 v2) as H2.
  { refine (one_call 1 st1 v1 (Store 65571 7) 12 0 st2 H1 _ _ _); [|lia|vm_compute; reflexivity]. split; [lia|]. exists 65568, 100. split; [reflexivity|lia]. }
  set (v3 := after (Acquire 4000 None) 65696 v2).
  assert (history 3 st3 v3) as H3.
  { refine (one_call 2 st2 v2 (Acquire 4000 None) 16 65696 st3 H2 _ _ _); [|lia|vm_compute; reflexivity]. split; [apply moderate_st; [reflexivity|vm_compute; reflexivity]|exact I]. }
  set (v4 := after (Resize 65568 300 (Some 9000000)) 69728 v3).
  assert (history 4 st4 v4) as H4.
  { refine (one_call 3 st3 v3 (Resize 65568 300 (Some 9000000)) 20 69728 st4 H3 _ _ _); [|lia|vm_compute; reflexivity]. split; [apply moderate_st; [reflexivity|vm_compute; reflexivity]|]. split.
    - cbn [fair]. split; [discriminate|]. split; [reflexivity|]. assert (mapped st3 = [(65536, 2097152)]) as -> by (vm_compute; reflexivity). intros b l [Q|[]]. injection Q as <- <-. right. vm_compute. discriminate.
    - right. split; [vm_compute; discriminate|]. split; [discriminate|]. vm_compute. discriminate. }
  exists (after (Relinquish 65696) 0 v4). split; [|repeat split; vm_compute; reflexivity].
  refine (one_call 4 st4 v4 (Relinquish 65696) 24 0 st5 H4 _ _ _); [|lia|vm_compute; reflexivity]. right. vm_compute. discriminate.
Qed.
(** the block given back joins its free neighbour before it *)
Example layout_5 : layout st5 seg 2097152 [65568; 69728; 70080] /\ is_free st5 65568 /\ size_in st5 65568 = 4160.
Proof.
  split; [|split; vm_compute; reflexivity]. assert (mapped st5 = [(65536, 2097152)]) as M by (vm_compute; reflexivity). split; [rewrite M; now left|].
  change (seg + 32) with 65568. change (seg + 2097152 - 64) with 2162624.
  constructor; [vm_compute; discriminate|]. replace (65568 + size_in st5 65568) with 69728 by (vm_compute; reflexivity).
  constructor; [vm_compute; discriminate|]. replace (69728 + size_in st5 69728) with 70080 by (vm_compute; reflexivity).
  constructor; [vm_compute; discriminate|]. replace (70080 + size_in st5 70080) with 2162624 by (vm_compute; reflexivity). constructor.
Qed.
Example byte_5 : byte st5 69731 = 7.
Proof. vm_compute. reflexivity. Qed.

(** ** Refuted: a block is at least as large as was asked for.  Near the largest size the
    sum in AllocationPolicy's argument wraps around *)
Theorem huge_request_refuted : exists r st', AcquireWizardMemory 8 (2 ^ 64 - 1) (Some seg) initial = Ok (r, st') /\ r <> 0 /\ size_in st' r = 32.
Proof. eexists _, _. split; [vm_compute; reflexivity|]. split; [discriminate|]. vm_compute. reflexivity. Qed.
(** for 2^64 - 55 the size becomes 0 and the assertion in AllocationPolicy fails *)
Theorem huge_request_aborts_refuted fuel segment : AcquireWizardMemory fuel (2 ^ 64 - 55) segment initial = Fatal.
Proof. vm_compute. reflexivity. Qed.
(** ** Refuted: a segment is large enough for the block it was made for *)
Theorem request_after_growth_refuted : (exists st', AcquireWizardMemory 8 2097056 (Some seg) initial = Ok (0, st') /\ mapped st' = [(seg, 2097152)]) /\
  run 8 (Acquire 100 (Some seg)) initial = Ok (65568, st1) /\ ResizeWizardMemory 12 65568 2097056 (Some 9000000) st1 = Fatal.
Proof. split; [eexists; split; vm_compute; reflexivity|]. split; vm_compute; reflexivity. Qed.
(** this does not happen for sizes at least 55 bytes short of such a boundary *)
Theorem most_sizes_roomy size : 1 <= (asked size + 96) mod 2097152 <= 2097097 -> roomy size.
Proof. unfold roomy, segment_length. intros H. lia. Qed.
Example most_sizes_100 : roomy 100.
Proof. apply most_sizes_roomy. vm_compute. split; discriminate. Qed.

Print Assumptions allocator_blocks.
Print Assumptions allocator_progress.
Print Assumptions allocator_fresh.
Print Assumptions allocator_layout.
Print Assumptions allocator_live_laid.
Print Assumptions allocator_no_leak.
Print Assumptions allocator_best_fit.
Print Assumptions huge_request_refuted.
Print Assumptions huge_request_aborts_refuted.
Print Assumptions request_after_growth_refuted.
Print Assumptions most_sizes_roomy.
