(** The limits a process starts with. *)
From Coq Require Import Arith NArith ZArith Bool Lia String List ZifyBool ZifyNat ZifyN.
From Verif Require Import Base Outcome CStringModel OptionModel ScanModel ScanProof2 ResourceModel LimitModel.
Import ListNotations.
Local Open Scope Z_scope.

Definition name_of (t : rtype) : string :=
  match t with AreaResource => "WIZARD_AREA_LIMIT" | MemoryResource => "WIZARD_MEMORY_LIMIT" | MapResource => "WIZARD_MAP_LIMIT" | DiskResource => "WIZARD_DISK_LIMIT" | FileResource => "WIZARD_FILE_LIMIT" end.
Lemma used_set s t u v : used (set_limit s t v) u = used s u.
Proof. destruct s, t, u; reflexivity. Qed.
Lemma used_env env n t u s : used (from_env env n t s) u = used s u.
Proof. unfold from_env. destruct (env n); [apply used_set|reflexivity]. Qed.
Lemma limit_same s t v : limit (set_limit s t v) t = v.
Proof. destruct s, t; reflexivity. Qed.
Lemma limit_other s t u v : t <> u -> limit (set_limit s t v) u = limit s u.
Proof. destruct s, t, u; congruence || reflexivity. Qed.
Lemma limit_env_same env n t s v : env n = Some v -> limit (from_env env n t s) t = strtoul v.
Proof. unfold from_env. intros ->. apply limit_same. Qed.
Lemma limit_env_none env n t s u : env n = None -> limit (from_env env n t s) u = limit s u.
Proof. unfold from_env. now intros ->. Qed.
Lemma limit_env_other env n t s u : t <> u -> limit (from_env env n t s) u = limit s u.
Proof. unfold from_env. intros H. destruct (env n); [now apply limit_other|reflexivity]. Qed.
(** * C154: the environment decides *)
Lemma strtoul_digit c p : isdigit c = true -> strtoul (c :: p) = Z.to_N (if 2 ^ 64 - 1 <? digits 0 (c :: p) then 2 ^ 64 - 1 else digits 0 (c :: p)).
Proof.
  intros Hc. unfold strtoul.
  assert (drop_spaces (c :: p) = c :: p) as -> by (cbn [drop_spaces]; replace (isspace c) with false by (unfold isdigit in Hc; unfold isspace; lia); reflexivity).
  destruct (N.eq_dec c 45) as [->|N45]; [discriminate Hc|]. destruct (N.eq_dec c 43) as [->|N43]; [discriminate Hc|].
  destruct c as [|q]; [reflexivity|]. do 6 (destruct q as [q|q|]; try reflexivity); congruence.
Qed.
Lemma strtoul_decimal n : (n < 2 ^ 64)%N -> strtoul (decimal n) = n.
Proof.
  intros L. destruct (decimal_spec n) as (D & Ne & V & _). destruct (decimal n) as [|c p] eqn:Eq; [contradiction|]. inversion D as [|? ? Hc _]; subst.
  rewrite strtoul_digit, V by exact Hc. destruct (Z.ltb_spec (2 ^ 64 - 1) (Z.of_N n)); [lia|]. apply N2Z.id.
Qed.
Theorem limit_environment env pages pagesize files s t v : env (name_of t) = Some v -> limit (ResourceComponentGenesis env pages pagesize files s) t = strtoul v.
Proof.
  intros H. unfold ResourceComponentGenesis. destruct t; cbn [name_of] in H; cbv zeta;
    repeat first [rewrite limit_env_other by discriminate | rewrite limit_other by discriminate]; now apply limit_env_same.
Qed.
Theorem limit_number env pages pagesize files s t n : (n < 2 ^ 64)%N -> env (name_of t) = Some (decimal n) -> limit (ResourceComponentGenesis env pages pagesize files s) t = n.
Proof. intros L H. rewrite (limit_environment _ _ _ _ _ _ _ H). now apply strtoul_decimal. Qed.
Theorem genesis_used env pages pagesize files s t : used (ResourceComponentGenesis env pages pagesize files s) t = used s t.
Proof. unfold ResourceComponentGenesis. now rewrite used_env, used_set, !used_env, !used_set. Qed.
Example limit_number_ex : limit (ResourceComponentGenesis (fun n => if string_dec n "WIZARD_MEMORY_LIMIT" then Some (decimal 5000) else None) 4194304 4096 1024 initial) MemoryResource = 5000%N.
Proof. vm_compute. reflexivity. Qed.
(** Units are not understood: what follows the number is ignored. *)
Lemma digits_stop p q : forall n, Forall (fun c => isdigit c = true) p -> match q with [] => True | c :: _ => isdigit c = false end -> digits n (p ++ q) = digits n p.
Proof. induction p as [|c p IH]; intros n F Q; cbn [app digits]; [destruct q as [|c q]; cbn [digits]; [reflexivity|now rewrite Q]|]. inversion F as [|? ? H F']; subst. rewrite H. now apply IH. Qed.
Theorem limit_unit_refuted env pages pagesize files s t n unit : (n < 2 ^ 64)%N -> match unit with [] => False | c :: _ => isdigit c = false end -> env (name_of t) = Some (decimal n ++ unit) ->
  limit (ResourceComponentGenesis env pages pagesize files s) t = n.
Proof.
  intros L U H. rewrite (limit_environment _ _ _ _ _ _ _ H). rewrite <- (strtoul_decimal n L) at 2. destruct (decimal_spec n) as (D & Ne & _).
  destruct (decimal n) as [|c p] eqn:Eq; [contradiction|]. inversion D as [|? ? Hc Hp]; subst.
  cbn [app]. rewrite !strtoul_digit by exact Hc.
  assert (digits 0 (c :: p ++ unit) = digits 0 (c :: p)) as -> by (apply (digits_stop (c :: p) unit); [exact D|destruct unit; [exact I|exact U]]). reflexivity.
Qed.
Example limit_unit_ex : limit (ResourceComponentGenesis (fun n => if string_dec n "WIZARD_MEMORY_LIMIT" then Some (b "2GiB") else None) 4194304 4096 1024 initial) MemoryResource = 2%N.
Proof. vm_compute. reflexivity. Qed.
(** A negative number is as good as no limit. *)
Theorem limit_negative_refuted env pages pagesize files s t n : (0 < n < 2 ^ 64)%N -> env (name_of t) = Some (45%N :: decimal n) ->
  limit (ResourceComponentGenesis env pages pagesize files s) t = (2 ^ 64 - n)%N.
Proof.
  intros L H. rewrite (limit_environment _ _ _ _ _ _ _ H). unfold strtoul. change (drop_spaces (45%N :: decimal n)) with (45%N :: decimal n). cbv zeta.
  destruct (decimal_spec n) as (_ & _ & V & _). rewrite V. destruct (Z.ltb_spec (2 ^ 64 - 1) (Z.of_N n)); [lia|].
  replace (- Z.of_N n) with (Z.of_N (2 ^ 64 - n) + (-1) * 2 ^ 64) by lia. rewrite Z_mod_plus_full, Z.mod_small by lia. apply N2Z.id.
Qed.
Print Assumptions limit_negative_refuted.
Example limit_negative_ex : limit (ResourceComponentGenesis (fun n => if string_dec n "WIZARD_DISK_LIMIT" then Some (b "-1") else None) 4194304 4096 1024 initial) DiskResource = (2 ^ 64 - 1)%N.
Proof. vm_compute. reflexivity. Qed.
(** * C155: without it, files are three quarters of those that can be open *)
Theorem limit_files env pages pagesize files s : env (name_of FileResource) = None -> 86 <= files < 2 ^ 60 -> let l := Z.of_N (limit (ResourceComponentGenesis env pages pagesize files s) FileResource) in 64 <= l <= files /\ 4 * l <= 3 * files < 4 * l + 4.
Proof.
  intros H R. unfold ResourceComponentGenesis. cbv zeta. rewrite limit_env_none by exact H. rewrite limit_same. unfold files_of. rewrite Z.quot_div_nonneg by lia.
  pose proof (Z.div_mod (3 * files) 4). pose proof (Z.mod_pos_bound (3 * files) 4). lia.
Qed.
Theorem limit_few_files_refuted env pages pagesize files s : env (name_of FileResource) = None -> 0 < files < 64 -> files < Z.of_N (limit (ResourceComponentGenesis env pages pagesize files s) FileResource).
Proof.
  intros H R. unfold ResourceComponentGenesis. cbv zeta. rewrite limit_env_none by exact H. rewrite limit_same. unfold files_of. rewrite Z.quot_div_nonneg by lia.
  pose proof (Z.div_mod (3 * files) 4). pose proof (Z.mod_pos_bound (3 * files) 4). lia.
Qed.
(** and memory is not what the machine has: it is counted in mebibytes but limits are bytes (891-896 and 1005) *)
Lemma limit_memory_default env pages pagesize files s : env (name_of MemoryResource) = None -> limit (ResourceComponentGenesis env pages pagesize files s) MemoryResource = memory_of pages pagesize.
Proof.
  intros H. cbn [name_of] in H. unfold ResourceComponentGenesis. cbv zeta.
  do 4 first [rewrite limit_env_other by discriminate | rewrite limit_other by discriminate]. rewrite limit_env_none by exact H. rewrite limit_env_other, limit_other by discriminate. apply limit_same.
Qed.
Theorem limit_memory_refuted env pages pagesize files s : env (name_of MemoryResource) = None -> 512 <= pages < 2 ^ 52 -> 1024 <= pagesize < 2 ^ 30 -> pages * pagesize < 2 ^ 62 ->
  Z.of_N (limit (ResourceComponentGenesis env pages pagesize files s) MemoryResource) * 2 ^ 18 < pages * pagesize.
Proof.
  intros H P Q R. rewrite limit_memory_default by exact H. unfold memory_of. destruct (Z.leb_spec pagesize 0); [lia|]. destruct (Z.leb_spec pages 0); [lia|]. cbn [orb].
  rewrite !Z.quot_div_nonneg by lia. set (a := (pages + 512) / 1024). set (c := (pagesize + 512) / 1024).
  assert (0 <= a /\ 1024 * a <= pages + 512) as [A1 A2] by (unfold a; split; [apply Z.div_pos; lia|apply Z.mul_div_le; lia]).
  assert (0 <= c /\ 1024 * c <= pagesize + 512) as [C1 C2] by (unfold c; split; [apply Z.div_pos; lia|apply Z.mul_div_le; lia]).
  assert (512 * a <= pages) as A3 by lia. assert (512 * c < pagesize) as C3 by lia.
  assert (a * c * 2 ^ 18 < pages * pagesize) as K. { replace (a * c * 2 ^ 18) with ((512 * a) * (512 * c)) by (change (2 ^ 18) with (512 * 512); ring). nia. }
  rewrite Z.mod_small by nia. rewrite Z2N.id by nia. exact K.
Qed.
(** so on an ordinary machine not even a mebibyte can be acquired *)
Theorem mebibyte_refuted env pages pagesize files : env (name_of MemoryResource) = None -> 512 <= pages < 2 ^ 52 -> 1024 <= pagesize < 2 ^ 30 -> pages * pagesize <= 2 ^ 38 ->
  snd (AcquireWizardResource (ResourceComponentGenesis env pages pagesize files initial) MemoryResource (2 ^ 20)) = false.
Proof.
  intros H P Q R. set (s := ResourceComponentGenesis env pages pagesize files initial).
  assert (Z.of_N (limit s MemoryResource) * 2 ^ 18 < pages * pagesize) as L by (apply limit_memory_refuted; [exact H|exact P|exact Q|lia]).
  assert (Z.of_N (limit s MemoryResource) < 2 ^ 20) as L' by lia.
  assert (used s MemoryResource = 0) as U by (unfold s; rewrite genesis_used; reflexivity).
  unfold AcquireWizardResource. assert (forall x v u, limit (set_used x MemoryResource v) u = limit x u) as G by (intros [] v []; reflexivity).
  assert (forall x v, used (set_used x MemoryResource v) MemoryResource = v) as G' by (intros [] v; reflexivity). rewrite G, G', U.
  change (signed (0 + Z.of_N (2 ^ 20))) with (2 ^ 20). assert (signed (Z.of_N (limit s MemoryResource)) = Z.of_N (limit s MemoryResource)) as -> by (unfold signed; rewrite Z.mod_small; lia).
  destruct (N.eqb_spec (limit s MemoryResource) WizardResourceInfinity) as [K|_]; [exfalso; unfold WizardResourceInfinity in K; lia|]. destruct (Z.ltb_spec (2 ^ 20) (Z.of_N (limit s MemoryResource))); [lia|]. reflexivity.
Qed.
Example machine_ex : memory_of 4194304 4096 = 16384%N /\ 4194304 * 4096 = 16 * 2 ^ 30.
Proof. split; reflexivity. Qed.
Print Assumptions limit_environment.
Print Assumptions limit_number.
Print Assumptions genesis_used.
Print Assumptions limit_unit_refuted.
Print Assumptions limit_files.
Print Assumptions limit_few_files_refuted.
Print Assumptions limit_memory_refuted.
Print Assumptions mebibyte_refuted.
