(** The permutation of sha3.c is Keccak-f[1600]. *)
From Coq Require Import NArith Arith List Lia Bool ZifyBool ZifyNat ZifyN.
From Verif Require Import Base BaseLemmas PackLemmas Mem32 Sha2Model Sha3Model Sha3Spec.
Import ListNotations.

Definition bits_of (st : list N) : list bool := flat_map (low_bits 64) st.

Lemma low_bits_len k x : length (low_bits k x) = k.
Proof. unfold low_bits. now rewrite map_length, seq_length. Qed.

Lemma nth_low_bits k x z : z < k -> nth z (low_bits k x) false = N.testbit x (N.of_nat z).
Proof.
  intros H. unfold low_bits.
  rewrite (nth_indep _ false (N.testbit x (N.of_nat 0))) by (rewrite map_length, seq_length; lia).
  rewrite (map_nth (fun i => N.testbit x (N.of_nat i))), seq_nth by lia. reflexivity.
Qed.

Lemma nth_flat_low k (st : list N) : forall i z, z < k ->
  nth (k * i + z) (flat_map (low_bits k) st) false = N.testbit (get st i) (N.of_nat z).
Proof.
  induction st as [|a st IH]; intros i z Hz.
  - unfold get. cbn [flat_map]. destruct i; destruct (k * _ + z); reflexivity.
  - cbn [flat_map]. destruct i as [|i].
    + rewrite app_nth1 by (rewrite low_bits_len; lia). rewrite Nat.mul_0_r. cbn [Nat.add].
      now apply nth_low_bits.
    + rewrite app_nth2 by (rewrite low_bits_len; nia). rewrite low_bits_len.
      replace (k * S i + z - k) with (k * i + z) by nia. now apply IH.
Qed.

Lemma A_bits st x y z : z < 64 -> A (bits_of st) x y z = N.testbit (get st (5 * y + x)) (N.of_nat z).
Proof. intros H. unfold A, bits_of. now apply nth_flat_low. Qed.

Lemma map_flat_map {X Y Z} (g : Y -> Z) (h : X -> list Y) l :
  map g (flat_map h l) = flat_map (fun a => map g (h a)) l.
Proof. induction l; cbn; [reflexivity|]. now rewrite map_app, IHl. Qed.

Lemma flat_map_flat_map {X Y Z} (f : Y -> list Z) (h : X -> list Y) l :
  flat_map f (flat_map h l) = flat_map (fun a => flat_map f (h a)) l.
Proof. induction l; cbn; [reflexivity|]. now rewrite flat_map_app, IHl. Qed.

Lemma flat_map_map' {X Y Z} (f : Y -> list Z) (h : X -> Y) l :
  flat_map f (map h l) = flat_map (fun a => f (h a)) l.
Proof. induction l; cbn; [reflexivity|]. now rewrite IHl. Qed.

Lemma flat_map_ext_in' {X Y} (f g : X -> list Y) l :
  (forall a, In a l -> f a = g a) -> flat_map f l = flat_map g l.
Proof.
  induction l; intros H; cbn; [reflexivity|].
  rewrite H by (left; reflexivity). rewrite IHl; [reflexivity|]. intros; apply H; now right.
Qed.

Lemma map_get_seq (st : list N) : map (get st) (seq 0 (length st)) = st.
Proof.
  induction st as [|a st IH]; [reflexivity|]. cbn [length seq map]. f_equal.
  rewrite <- seq_shift, map_map. exact IH.
Qed.

Lemma build_ok st f : length st = 25 ->
  (forall x y z, x < 5 -> y < 5 -> z < 64 -> N.testbit (get st (5 * y + x)) (N.of_nat z) = f x y z) ->
  bits_of st = build f.
Proof.
  intros L H. rewrite <- (map_get_seq st), L.
  change (seq 0 25) with (flat_map (fun y => map (fun x => 5 * y + x) (seq 0 5)) (seq 0 5)).
  unfold bits_of, build. rewrite flat_map_map', flat_map_flat_map.
  apply flat_map_ext_in'. intros y Hy. apply in_seq in Hy. rewrite flat_map_map'.
  apply flat_map_ext_in'. intros x Hx. apply in_seq in Hx.
  unfold low_bits. apply map_ext_in. intros z Hz. apply in_seq in Hz. apply H; lia.
Qed.

(** ** the five steps on words *)

Ltac destruct5 x H :=
  destruct x as [|[|[|[|[|x]]]]]; [| | | | |exfalso; clear -H; lia]; clear H.
Ltac list25 s L :=
  do 25 (destruct s as [|? s]; [discriminate L|]); destruct s; [clear L|discriminate L].

Lemma fold_keep {X} (f : list N -> X -> list N) l :
  (forall s x, length (f s x) = length s) -> forall s, length (fold_left f l s) = length s.
Proof. intros H. induction l as [|x l IH]; intros s; [reflexivity|]. cbn [fold_left]. now rewrite IH, H. Qed.

Lemma for_xy_length body s : (forall s x y, length (body s x y) = length s) ->
  length (@for_xy (list N) body s) = length s.
Proof. intros H. unfold for_xy. apply fold_keep. intros. apply fold_keep. intros. apply H. Qed.

Lemma for_xy_upd (g : nat -> nat -> N -> N) s : length s = 25 ->
  let s' := for_xy (fun s x y => upd s (SHA3Index x y) (g x y (get s (SHA3Index x y)))) s in
  length s' = 25 /\
  forall x y, x < 5 -> y < 5 -> get s' (5 * y + x) = g x y (get s (5 * y + x)).
Proof.
  intros L s'. split.
  - subst s'. rewrite for_xy_length; [exact L|]. intros. apply upd_length.
  - intros x y Hx Hy. subst s'. list25 s L.
    destruct5 x Hx; destruct5 y Hy; reflexivity.
Qed.

Lemma theta_words s : length s = 25 ->
  length (sha3_theta s) = 25 /\
  forall x y, x < 5 -> y < 5 ->
    get (sha3_theta s) (5 * y + x) = N.lxor (get s (5 * y + x)) (get (theta_D (theta_C s)) x).
Proof. exact (for_xy_upd (fun x y v => N.lxor v (get (theta_D (theta_C s)) x)) s). Qed.

Lemma rho_words rho s : length s = 25 ->
  length (sha3_rho rho s) = 25 /\
  forall x y, x < 5 -> y < 5 ->
    get (sha3_rho rho s) (5 * y + x) = SHA3RotateLeft (get s (5 * y + x)) (get rho (SHA3Index x y)).
Proof. exact (for_xy_upd (fun x y v => SHA3RotateLeft v (get rho (SHA3Index x y))) s). Qed.

Lemma theta_C_ok s x : x < 5 ->
  get (theta_C s) x =
  N.lxor (N.lxor (N.lxor (N.lxor (get s (0 + x)) (get s (5 + x))) (get s (10 + x))) (get s (15 + x))) (get s (20 + x)).
Proof. intros H. destruct5 x H; reflexivity. Qed.

Lemma theta_D_ok C x : x < 5 ->
  get (theta_D C) x = N.lxor (SHA3RotateLeft (get C ((x + 1) mod 5)) 1) (get C ((x + 4) mod 5)).
Proof. intros H. destruct5 x H; reflexivity. Qed.

Lemma pi_words s : length s = 25 ->
  length (sha3_pi s) = 25 /\
  forall x y, x < 5 -> y < 5 -> get (sha3_pi s) (5 * y + x) = get s (5 * x + (x + 3 * y) mod 5).
Proof.
  intros L. split.
  - unfold sha3_pi. rewrite for_xy_length; [exact L|]. intros. apply upd_length.
  - intros x y Hx Hy. list25 s L. destruct5 x Hx; destruct5 y Hy; reflexivity.
Qed.

Lemma chi_words s : length s = 25 ->
  length (sha3_chi s) = 25 /\
  forall x y, x < 5 -> y < 5 -> get (sha3_chi s) (5 * y + x) =
    N.lxor (get s (5 * y + x))
      (N.land (wnot 64 (get s (5 * y + (x + 1) mod 5))) (get s (5 * y + (x + 2) mod 5))).
Proof.
  intros L. split.
  - unfold sha3_chi. rewrite fold_keep; [exact L|]. intros. apply fold_keep. intros. apply upd_length.
  - intros x y Hx Hy. list25 s L. destruct5 x Hx; destruct5 y Hy; reflexivity.
Qed.

Lemma iota_words rounds i s : length s = 25 ->
  length (sha3_iota rounds i s) = 25 /\
  forall x y, x < 5 -> y < 5 -> get (sha3_iota rounds i s) (5 * y + x) =
    if (x =? 0) && (y =? 0) then N.lxor (get s (5 * y + x)) (get rounds i) else get s (5 * y + x).
Proof.
  intros L. split.
  - unfold sha3_iota. now rewrite upd_length.
  - intros x y Hx Hy. list25 s L. destruct5 x Hx; destruct5 y Hy; reflexivity.
Qed.

(** ** bits *)

Lemma rotate_bit x off z : word 64 x -> (off < 64)%N -> z < 64 ->
  N.testbit (SHA3RotateLeft x off) (N.of_nat z) =
  N.testbit x (N.of_nat ((z + (64 - N.to_nat off)) mod 64)).
Proof.
  intros Hx Ho Hz. unfold SHA3RotateLeft. destruct (N.eqb_spec off 0) as [->|N0]; cbn [negb].
  - do 2 f_equal. change (N.to_nat 0) with 0. rewrite Nat.sub_0_r.
    replace (z + 64) with (z + 1 * 64) by lia. rewrite Nat.mod_add by lia. rewrite Nat.mod_small by lia. reflexivity.
  - rewrite N.lxor_spec, wshl_testbit, N.shiftr_spec by lia.
    destruct (Nat.lt_ge_cases z (N.to_nat off)) as [L|G].
    + rewrite Nat.mod_small by lia.
      replace (N.of_nat (z + (64 - N.to_nat off))) with (N.of_nat z + (64 - off))%N by lia.
      replace (off <=? N.of_nat z)%N with false by lia.
      rewrite ?andb_false_r, ?andb_false_l. now destruct (N.testbit x _).
    + replace (z + (64 - N.to_nat off)) with (z - N.to_nat off + 1 * 64) by lia.
      rewrite Nat.mod_add, Nat.mod_small by lia.
      rewrite (testbit_high 64 x (N.of_nat z + _)) by (try assumption; lia).
      replace (N.of_nat (z - N.to_nat off)) with (N.of_nat z - off)%N by lia.
      replace (off <=? N.of_nat z)%N with true by lia.
      replace (N.of_nat z <? 64)%N with true by lia.
      rewrite xorb_false_r. reflexivity.
Qed.

Lemma word_rotate x off : word 64 x -> (off < 64)%N -> word 64 (SHA3RotateLeft x off).
Proof.
  intros H Ho. unfold SHA3RotateLeft. destruct (negb _); [|exact H].
  apply word_lxor; [apply word_wshl | now apply word_shiftr].
Qed.

Definition state_ok (s : list N) : Prop := length s = 25 /\ words 64 s.

Lemma words_get s : length s = 25 ->
  (forall x y, x < 5 -> y < 5 -> word 64 (get s (5 * y + x))) -> words 64 s.
Proof.
  intros L H. apply Forall_nth. intros i d Hi. rewrite L in Hi.
  rewrite (nth_indep _ d 0%N) by lia. 
  replace i with (5 * (i / 5) + i mod 5) by (symmetry; apply Nat.div_mod; lia).
  apply H; [apply Nat.mod_upper_bound; lia | apply Nat.div_lt_upper_bound; lia].
Qed.

Lemma theta_ok s : state_ok s -> state_ok (sha3_theta s) /\ bits_of (sha3_theta s) = theta (bits_of s).
Proof.
  intros [L W].
  destruct (theta_words s L) as [L' G].
  assert (WC : forall x, x < 5 -> word 64 (get (theta_C s) x)).
  { intros x Hx. rewrite theta_C_ok by exact Hx.
    repeat apply word_lxor; now apply get_word. }
  assert (WD : forall x, x < 5 -> word 64 (get (theta_D (theta_C s)) x)).
  { intros x Hx. rewrite theta_D_ok by exact Hx. apply word_lxor.
    - apply word_rotate; [apply WC, Nat.mod_upper_bound; lia | lia].
    - apply WC, Nat.mod_upper_bound; lia. }
  split; [split; [exact L'|]|].
  - apply words_get; [exact L'|]. intros x y Hx Hy. rewrite G by assumption.
    apply word_lxor; [now apply get_word | now apply WD].
  - apply build_ok; [exact L'|]. intros x y z Hx Hy Hz. rewrite G by assumption.
    rewrite N.lxor_spec, A_bits by exact Hz. f_equal.
    rewrite theta_D_ok by exact Hx. rewrite N.lxor_spec, xorb_comm. unfold thetaD.
    assert (TC : forall x z, x < 5 -> z < 64 ->
              N.testbit (get (theta_C s) x) (N.of_nat z) = thetaC (bits_of s) x z).
    { intros x0 z0 Hx0 Hz0. rewrite theta_C_ok by exact Hx0. unfold thetaC.
      rewrite !A_bits by exact Hz0. rewrite !N.lxor_spec. reflexivity. }
    f_equal.
    + apply TC; [apply Nat.mod_upper_bound; lia | exact Hz].
    + rewrite rotate_bit; [|apply WC, Nat.mod_upper_bound; lia | lia | exact Hz].
      change (64 - N.to_nat 1) with 63. apply TC; apply Nat.mod_upper_bound; lia.
Qed.

(** the tables *)
Definition rho_table : list N := SHA3InitializeRho (repeat 0%N 25).

Lemma SHA3InitializeRho_table r : length r = 25 -> SHA3InitializeRho r = rho_table.
Proof. intros L. list25 r L. reflexivity. Qed.

Lemma rho_table_ok x y : x < 5 -> y < 5 ->
  get rho_table (5 * y + x) = N.of_nat (rho_offset x y mod 64).
Proof. intros Hx Hy. destruct5 x Hx; destruct5 y Hy; reflexivity. Qed.

Lemma rho_ok s : state_ok s ->
  state_ok (sha3_rho rho_table s) /\ bits_of (sha3_rho rho_table s) = rho (bits_of s).
Proof.
  intros [L W].
  destruct (rho_words rho_table s L) as [L' G].
  assert (E : forall x y, x < 5 -> y < 5 -> get rho_table (SHA3Index x y) = N.of_nat (rho_offset x y mod 64)).
  { intros x y Hx Hy. rewrite <- rho_table_ok by assumption. unfold SHA3Index.
    rewrite !Nat.mod_small by lia. f_equal. lia. }
  assert (B : forall x y, (N.of_nat (rho_offset x y mod 64) < 64)%N).
  { intros x y. pose proof (Nat.mod_upper_bound (rho_offset x y) 64). lia. }
  split; [split; [exact L'|]|].
  - apply words_get; [exact L'|]. intros x y Hx Hy. rewrite G, E by assumption.
    apply word_rotate; [now apply get_word | apply B].
  - apply build_ok; [exact L'|]. intros x y z Hx Hy Hz. rewrite G, E by assumption.
    rewrite rotate_bit by (try assumption; try apply B; now apply get_word).
    rewrite Nat2N.id. rewrite A_bits by (apply Nat.mod_upper_bound; lia). reflexivity.
Qed.

Lemma pi_ok s : state_ok s -> state_ok (sha3_pi s) /\ bits_of (sha3_pi s) = pi (bits_of s).
Proof.
  intros [L W]. destruct (pi_words s L) as [L' G]. split; [split; [exact L'|]|].
  - apply words_get; [exact L'|]. intros x y Hx Hy. rewrite G by assumption. now apply get_word.
  - apply build_ok; [exact L'|]. intros x y z Hx Hy Hz. rewrite G, A_bits by assumption. reflexivity.
Qed.

Lemma chi_ok s : state_ok s -> state_ok (sha3_chi s) /\ bits_of (sha3_chi s) = chi (bits_of s).
Proof.
  intros [L W]. destruct (chi_words s L) as [L' G]. split; [split; [exact L'|]|].
  - apply words_get; [exact L'|]. intros x y Hx Hy. rewrite G by assumption.
    apply word_lxor; [now apply get_word | apply word_land_r; now apply get_word].
  - apply build_ok; [exact L'|]. intros x y z Hx Hy Hz. rewrite G, !A_bits by assumption.
    rewrite N.lxor_spec, N.land_spec, wnot_testbit by lia. rewrite xorb_true_r. reflexivity.
Qed.

Definition round_table : list N := SHA3InitializeRoundConstants.

Lemma round_table_bits : map (low_bits 64) round_table = map (fun i => map (RC i) (seq 0 64)) (seq 0 24).
Proof. lazy. reflexivity. Qed.

Lemma round_table_words : words 64 round_table.
Proof.
  apply Forall_forall. intros x Hx. unfold word. apply N.ltb_lt.
  revert x Hx. apply forallb_forall. lazy. reflexivity.
Qed.

Lemma round_table_ok i z : i < 24 -> z < 64 -> N.testbit (get round_table i) (N.of_nat z) = RC i z.
Proof.
  intros Hi Hz. rewrite <- (nth_low_bits 64) by exact Hz.
  unfold get. change (low_bits 64 (nth i round_table 0%N)) with (low_bits 64 (nth i round_table 0%N)).
  rewrite <- (map_nth (low_bits 64)). rewrite round_table_bits.
  rewrite (nth_indep _ _ (map (RC 0) (seq 0 64))) by (rewrite map_length, seq_length; lia).
  rewrite (map_nth (fun i => map (RC i) (seq 0 64))), seq_nth by lia. cbn [Nat.add].
  rewrite (nth_indep _ _ (RC i 0)) by (rewrite map_length, seq_length; lia).
  rewrite map_nth, seq_nth by lia. reflexivity.
Qed.

Lemma iota_ok s i : i < 24 -> state_ok s ->
  state_ok (sha3_iota round_table i s) /\ bits_of (sha3_iota round_table i s) = iota (bits_of s) i.
Proof.
  intros Hi [L W]. destruct (iota_words round_table i s L) as [L' G]. split; [split; [exact L'|]|].
  - apply words_get; [exact L'|]. intros x y Hx Hy. rewrite G by assumption.
    destruct (_ && _); [apply word_lxor|]; try (now apply get_word).
    apply get_word, round_table_words.
  - apply build_ok; [exact L'|]. intros x y z Hx Hy Hz. rewrite G, !A_bits by assumption.
    destruct (_ && _); [|reflexivity]. rewrite N.lxor_spec, round_table_ok by assumption. reflexivity.
Qed.

Lemma fold_sim {S T I} (f : S -> I -> S) (g : T -> I -> T) (P : S -> Prop) (Q : I -> Prop) (h : S -> T) :
  (forall s i, Q i -> P s -> P (f s i) /\ h (f s i) = g (h s) i) ->
  forall l s, Forall Q l -> P s -> P (fold_left f l s) /\ h (fold_left f l s) = fold_left g l (h s).
Proof.
  intros H. induction l as [|i l IH]; intros s Hl Hs; [now split|]. inversion_clear Hl as [|? ? Hi Hl'].
  cbn [fold_left]. destruct (H s i Hi Hs) as [H1 H2]. rewrite <- H2. now apply IH.
Qed.

Notation round_w := (sha3_round rho_table round_table).

Lemma round_w_ok s i : i < 24 -> state_ok s ->
  state_ok (round_w s i) /\ bits_of (round_w s i) = Rnd (bits_of s) i.
Proof.
  intros Hi H0. unfold sha3_round, Rnd.
  destruct (theta_ok _ H0) as [H1 E1]. destruct (rho_ok _ H1) as [H2 E2].
  destruct (pi_ok _ H2) as [H3 E3]. destruct (chi_ok _ H3) as [H4 E4].
  destruct (iota_ok _ i Hi H4) as [H5 E5].
  rewrite E5, E4, E3, E2, E1. now split.
Qed.

Lemma rounds_index : Forall (fun i => i < 24) (seq 0 24).
Proof. apply Forall_forall. intros i Hi. apply in_seq in Hi. lia. Qed.

Theorem permutation_ok s : state_ok s ->
  state_ok (SHA3PermutationOnWords rho_table round_table s) /\
  bits_of (SHA3PermutationOnWords rho_table round_table s) = keccak_f (bits_of s).
Proof.
  intros H. unfold SHA3PermutationOnWords, keccak_f.
  generalize (seq 0 24), rounds_index. intros l Hl. exact (fold_sim round_w Rnd state_ok _ bits_of round_w_ok l s Hl H).
Qed.
