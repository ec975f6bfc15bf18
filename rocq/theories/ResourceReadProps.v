(** C299-C300: what the library tells about resources. *)
From Coq Require Import ZArith NArith List Bool Lia.
From Verif Require Import Base Outcome ResourceModel ResourceSpec ResourceProps ResourceReadModel.
Import ListNotations.
Local Open Scope Z_scope.

(** The limit told is the one set last, or the one at the start: for all calls, whatever they ask for and whatever was answered. *)
Theorem limit_read : forall cs s bs t, run initial cs = Ok (s, bs) ->
  GetWizardResourceLimit s (Some t) = limit_after t cs (GetWizardResourceLimit initial (Some t)).
Proof.
  intros cs. generalize initial. induction cs as [|c cs IH]; intros s0 s bs t R; [now injection R as <- <-|]. cbn [run] in R.
  destruct (step s0 c) as [[s1 b]| |] eqn:S; try discriminate. cbn [bind] in R. destruct (run s1 cs) as [[s2 bs']| |] eqn:R1; try discriminate.
  cbn [bind] in R. injection R as <- <-. rewrite (IH s1 s2 bs' t R1). unfold GetWizardResourceLimit.
  assert (L : limit s1 t = limit_after t [c] (limit s0 t)).
  { destruct c as [u n|u n|u l]; cbn [step limit_after] in *.
    - injection S as S. replace s1 with (fst (AcquireWizardResource s0 u n)) by now rewrite S. unfold AcquireWizardResource.
      destruct u; cbn [fst]; rewrite ?limit_set; try reflexivity; destruct (_ || _); cbn [fst]; rewrite ?limit_set; reflexivity.
    - unfold RelinquishWizardResource in S. destruct u; cbn [bind] in S; [injection S as <- _; apply limit_set|..];
        cbv zeta in S; destruct (0 <=? _); try discriminate; cbn [bind] in S; injection S as <- _; apply limit_set.
    - injection S as <- _. apply limit_lim. }
  rewrite L. destruct c; reflexivity.
Qed.

(** What is told to be used is what was granted and not given back, while the counters cannot overflow. *)
Theorem resource_read : forall cs s bs t, Forall modest cs -> run initial cs = Ok (s, bs) -> fits cs bs (fun _ => 0) -> counted t ->
  Z.of_N (GetWizardResource s (Some t)) = held t cs bs.
Proof.
  intros cs s bs t F R B C. destruct (run_ok cs initial s bs) as (_ & U & _).
  - intros u Cu. destruct u; [now destruct Cu|..]; (split; [cbn; lia|]); unfold sane_limit; cbn; lia.
  - exact F.
  - exact R.
  - intros pre u n post E. specialize (B pre u n post E). destruct u; exact B.
  - destruct (U t C) as (E & _ & P). replace (held t cs bs) with (used s t) by (rewrite E; destruct t; [now destruct C|reflexivity..]).
    unfold GetWizardResource. rewrite Z2N.id by (apply Z.mod_pos_bound; lia). apply Z.mod_small. lia.
Qed.

Example resource_read_ex :
  let cs := [Acquire FileResource 700; Acquire FileResource 68; Relinquish FileResource 100] in
  Forall modest cs /\ fits cs [true; false; true] (fun _ => 0) /\
  exists s, run initial cs = Ok (s, [true; false; true]) /\ held FileResource cs [true; false; true] = 600 /\ GetWizardResource s (Some FileResource) = 600%N.
Proof.
  cbv zeta. split; [repeat constructor; discriminate|]. split.
  - intros [|c [|c' [|c'' [|? ?]]]] t n post E; try discriminate; injection E as; subst; try discriminate; reflexivity.
  - eexists. split; [vm_compute; reflexivity|]. split; reflexivity.
Qed.

(** The area told is the one last asked for or given back: nothing is summed up. *)
Fixpoint last_area (cs : list call) (a : N) : N :=
  match cs with
  | [] => a
  | (Acquire AreaResource n | Relinquish AreaResource n) :: cs => last_area cs n
  | _ :: cs => last_area cs a
  end.
Lemma signed_back n : (n < 2 ^ 64)%N -> Z.to_N (signed (Z.of_N n) mod 2 ^ 64) = n.
Proof.
  intros H. unfold signed. rewrite Zminus_mod, Z.mod_mod, <- Zminus_mod by lia. replace (Z.of_N n + 2 ^ 63 - 2 ^ 63) with (Z.of_N n) by lia.
  rewrite Z.mod_small by lia. apply N2Z.id.
Qed.
Definition word_sized (c : call) : Prop := match c with Acquire _ n | Relinquish _ n | SetLimit _ n => (n < 2 ^ 64)%N end.
Theorem area_read : forall cs s bs, Forall word_sized cs -> run initial cs = Ok (s, bs) -> GetWizardResource s (Some AreaResource) = last_area cs 0.
Proof.
  intros cs s bs W R. change 0%N with (GetWizardResource initial (Some AreaResource)). revert s bs W R. generalize initial.
  induction cs as [|c cs IH]; intros s0 s bs W R; [now injection R as <- <-|]. inversion W as [|? ? Wc W']; subst. cbn [run] in R.
  destruct (step s0 c) as [[s1 b]| |] eqn:S; try discriminate. cbn [bind] in R. destruct (run s1 cs) as [[s2 bs']| |] eqn:R1; try discriminate.
  cbn [bind] in R. injection R as <- <-. rewrite (IH s1 s2 bs' W' R1).
  assert (L : GetWizardResource s1 (Some AreaResource) = last_area [c] (GetWizardResource s0 (Some AreaResource))).
  { unfold GetWizardResource. destruct c as [u n|u n|u l]; cbn [step word_sized] in *.
    - injection S as S. replace s1 with (fst (AcquireWizardResource s0 u n)) by now rewrite S. unfold AcquireWizardResource.
      destruct u; cbn [fst last_area]; [rewrite used_set; apply signed_back; exact Wc|..]; destruct (_ || _); cbn [fst]; rewrite ?used_set; reflexivity.
    - unfold RelinquishWizardResource in S. destruct u; cbn [bind last_area] in *; [injection S as <- _; rewrite used_set; apply signed_back; exact Wc|..];
        cbv zeta in S; destruct (0 <=? _); try discriminate; cbn [bind] in S; injection S as <- _; rewrite used_set; reflexivity.
    - injection S as <- _. rewrite used_lim. reflexivity. }
  rewrite L. destruct c as [[] n|[] n|[] l]; reflexivity.
Qed.
Example read_ex :
  let cs := [Acquire FileResource 700; Acquire AreaResource 5; Relinquish FileResource 100; SetLimit FileResource 10; Acquire FileResource 1] in
  exists s, run initial cs = Ok (s, [true; true; true; true; false]) /\ GetWizardResource s (Some FileResource) = 600%N /\
    GetWizardResourceLimit s (Some FileResource) = 10%N /\ GetWizardResource s (Some AreaResource) = 5%N /\ Forall word_sized cs.
Proof. eexists. split; [vm_compute; reflexivity|]. repeat split. repeat constructor. Qed.

(** C300 fails: an area that was given back is still told to be used, whatever its size; one that was refused too *)
Theorem area_given_back_refuted : forall n, (0 < n < 2 ^ 64)%N -> exists s bs, run initial [Acquire AreaResource n; Relinquish AreaResource n] = Ok (s, bs) /\
  GetWizardResource s (Some AreaResource) = n.
Proof.
  intros n H. destruct (run initial [Acquire AreaResource n; Relinquish AreaResource n]) as [[s bs]| |] eqn:R; try discriminate. exists s, bs. split; [reflexivity|].
  rewrite (area_read [Acquire AreaResource n; Relinquish AreaResource n] s bs); [reflexivity| |exact R]. repeat constructor; apply H.
Qed.
(** C300 fails: after granted requests of 2^63 and 2^62 bytes more is told to be used than the limit *)
Theorem read_wraps_refuted : exists s, run initial [Acquire MemoryResource (2 ^ 63); Acquire MemoryResource (2 ^ 62)] = Ok (s, [true; true]) /\
  (GetWizardResourceLimit s (Some MemoryResource) < GetWizardResource s (Some MemoryResource))%N.
Proof. eexists. split; [vm_compute; reflexivity|reflexivity]. Qed.
(** C300 fails: the unit is not the megabyte of the comment at resource.c:543 *)
Theorem megabytes_refuted : exists s, run initial [Acquire MemoryResource 1048576] = Ok (s, [true]) /\ GetWizardResource s (Some MemoryResource) = 1048576%N.
Proof. eexists. split; [vm_compute; reflexivity|reflexivity]. Qed.

Print Assumptions limit_read.
Print Assumptions resource_read.
Print Assumptions area_read.
Print Assumptions area_given_back_refuted.
Print Assumptions read_wraps_refuted.
Print Assumptions megabytes_refuted.
