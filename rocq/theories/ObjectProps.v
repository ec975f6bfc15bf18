(** What objects are in memory: what is given back, what is copied, what is left (properties C232-C239). *)
From Coq Require Import NArith Bool Arith List Lia Permutation.
From Coq Require Import ZifyBool ZifyNat.
From Verif Require Import Base Outcome ObjectModel ObjectProof ObjectWorld.
Import ListNotations.

(** objects without pass phrases, whose trees may have nodes *)
Definition plain : flags := {| phrases := false; nodes := true |}.
Definition phrased : flags := {| phrases := true; nodes := true |}.
(** the functions that destroy, by class; those of trees and keys have loops and are stated apart *)
Definition destroyers : list (class * (nat -> heap -> outcome heap)) :=
  [(Raw, Relinquish); (StringC, DestroyStringInfo); (AESC, DestroyAESInfo); (ArrayC, DestroyArrayInfo); (CipherC, DestroyCipherInfo); (CRC64C, DestroyCRC64Info); (MessageC, DestroyMessageInfo); (SHA3C, DestroySHA3Info);
   (HashC, DestroyHashInfo); (HMACC, DestroyHMACInfo); (RandomC, DestroyRandomInfo); (KeyringC, DestroyKeyringInfo); (SecretC, DestroySecretInfo); (AuthenticateC, DestroyAuthenticateInfo)].
(** exactly the blocks of fp are given back *)
Definition given_back (h h' : heap) (fp : list nat) : Prop :=
  length h' = length h /\ (forall a, In a fp -> (exists x, get h a = Some (Live x)) /\ exists y, get h' a = Some (Dead y)) /\ (forall a, ~ In a fp -> get h' a = get h a).
Lemma destroyed_given_back h h' fp : destroyed h h' (fun a => In a fp) -> given_back h h' fp.
Proof. intros (L & D & S). split; [exact L|]. split; [|exact S]. intros a A. destruct (D a A) as (x & y & X & Y & _). eauto. Qed.
Lemma destroyers_free c D : In (c, D) destroyers -> frees plain D c.
Proof.
  cbn. intros I. repeat (destruct I as [I|I]; [injection I as <- <-|]); [apply relinquish_frees|apply string_frees|apply aes_frees|apply array_frees|apply cipher_frees|apply crc_frees|apply message_frees|apply sha3_frees|
    apply hash_frees|apply hmac_frees|apply random_frees|apply keyring_frees|now apply secret_frees|now apply authenticate_frees|contradiction].
Qed.

(** C232 *)
Theorem destroy_gives_back : forall c D h p fp, In (c, D) destroyers -> p <> 0 -> own plain h c p fp -> NoDup fp -> exists h', D p h = Ok h' /\ given_back h h' fp.
Proof. intros c D h p fp I Np O N. destruct (destroyers_free c D I h p fp Np O N) as (h' & E & K). exists h'. split; [exact E|now apply destroyed_given_back]. Qed.
Theorem destroy_tree_gives_back : forall fuel h p fp, p <> 0 -> own plain h SplayC p fp -> NoDup fp -> length fp <= fuel -> exists h', DestroySplayTree fuel p h = Ok (Some h') /\ given_back h h' fp.
Proof. intros fuel h p fp Np O N L. destruct (splay_frees plain fuel h p fp Np O N L) as (h' & E & K). exists h'. split; [exact E|now apply destroyed_given_back]. Qed.
Theorem destroy_key_gives_back : forall fuel h p fp, p <> 0 -> own plain h KeyC p fp -> NoDup fp -> length fp <= fuel -> exists h', DestroyKeyInfo fuel p h = Ok (Some h') /\ given_back h h' fp.
Proof. intros fuel h p fp Np O N L. destruct (key_frees plain fuel h p fp Np O N L) as (h' & E & K). exists h'. split; [exact E|now apply destroyed_given_back]. Qed.
(** destroyed objects may not be used: a second call ends in undefined behaviour *)
Theorem destroy_twice : forall c D h p fp h', In (c, D) destroyers -> p <> 0 -> own plain h c p fp -> NoDup fp -> D p h = Ok h' -> D p h' = UB.
Proof.
  intros c D h p fp h' I Np O N E. destruct (destroy_gives_back c D h p fp I Np O N) as (h1 & E1 & _ & K & _). rewrite E in E1. injection E1 as <-.
  assert (In p fp) by (inversion O; [congruence|now left]). destruct (K p H) as (_ & y & Y). assert (Ld : load h' p = UB) by (unfold load; now rewrite Y). destruct p as [|p']; [contradiction|].
  assert (Ck : check (S p') h' = UB) by (unfold check; now rewrite Ld).
  cbn in I. repeat (destruct I as [I|I]; [injection I as <- <-; try (unfold DestroyStringInfo, DestroyAESInfo, DestroyArrayInfo, DestroyCRC64Info, DestroyMessageInfo, DestroySHA3Info, DestroyHashInfo, DestroyHMACInfo, DestroyRandomInfo, DestroyCipherInfo, DestroyKeyringInfo, DestroySecretInfo, DestroyAuthenticateInfo, destroy_object; now rewrite Ck); unfold Relinquish; now rewrite Ld|]). contradiction.
Qed.

(** C233: programs *)
Definition setter_class (s : setter) : class :=
  match s with KeyringId | KeyringKey | KeyringNonce => KeyringC | SecretId => SecretC | AuthenticateId => AuthenticateC | CipherNonce => CipherC | StringDatum => StringC end.
(** only hashes and ciphers that there are *)
Definition sound_request (r : request) : Prop :=
  match r with
  | NewHash k | NewHMAC k | NewRandom k _ _ | NewSecret _ k _ _ | NewAuthenticate _ k _ _ => (2 <= k <= 14)%N
  | NewCipher k _ _ => (2 <= k <= 5)%N
  | NewString _ | NewKeyring _ => True
  end.
(** [t]: the variables which have an object, and its class.  A program makes objects in free variables,
    destroys what it made, and sets members of objects to the contents of strings in other variables. *)
Fixpoint proper (ops : list op) (t : nat -> option class) : Prop :=
  match ops with
  | [] => True
  | New v r :: ops => t v = None /\ sound_request r /\ proper ops (fun w => if Nat.eqb w v then Some (request_class r) else t w)
  | Set_ s v w :: ops => v <> w /\ t v = Some (setter_class s) /\ t w = Some StringC /\ proper ops t
  | Delete v :: ops => t v <> None /\ proper ops (fun w => if Nat.eqb w v then None else t w)
  end.
(** the variables that have an object in the end *)
Fixpoint holds (ops : list op) (t : nat -> option class) : nat -> option class :=
  match ops with
  | [] => t
  | New v r :: ops => holds ops (fun w => if Nat.eqb w v then Some (request_class r) else t w)
  | Set_ _ _ _ :: ops => holds ops t
  | Delete v :: ops => holds ops (fun w => if Nat.eqb w v then None else t w)
  end.
Definition live (h : heap) (a : nat) : Prop := exists x, get h a = Some (Live x).
Lemma hash_known k : (2 <= k <= 14)%N -> hash_class k <> None.
Proof. unfold hash_class. intros L. destruct (k =? 2)%N eqn:A; [discriminate|]. destruct ((3 <=? k) && (k <=? 9))%N eqn:B; [discriminate|]. destruct ((10 <=? k) && (k <=? 14))%N eqn:C; [discriminate|]. lia. Qed.
Lemma cipher_known k : (2 <= k <= 5)%N -> cipher_class k <> None.
Proof. unfold cipher_class. intros L. destruct (k =? 2)%N eqn:A; [discriminate|]. destruct ((3 <=? k) && (k <=? 5))%N eqn:B; [discriminate|]. lia. Qed.
Lemma request_builds r : sound_request r -> builds plain (acquire_request r) (request_class r).
Proof.
  destruct r; cbn; intros S; [apply string_builds|apply cipher_builds, cipher_known, S|apply hash_builds, hash_known, S|apply hmac_builds, hash_known, S|apply random_builds, hash_known, S|apply keyring_builds|apply secret_builds, hash_known, S|apply authenticate_builds, hash_known, S].
Qed.
Lemma request_destroyed r : frees plain (destroy (request_class r)) (request_class r).
Proof. destruct r; apply destroyers_free; cbn; tauto. Qed.
Lemma setter_modifies s : modifies plain (call_setter s) (setter_class s).
Proof. destruct s; [apply keyring_id_modifies|apply keyring_key_modifies|apply keyring_nonce_modifies|apply secret_id_modifies|apply authenticate_id_modifies|apply cipher_nonce_modifies|apply string_modifies]. Qed.
(** the state of a program: the variables and the blocks of their objects *)
Definition state (h : heap) (e : variables) (t : nat -> option class) (fs : list (list nat)) : Prop :=
  length fs = length e /\ NoDup (map fst e) /\ (forall v, t v = option_map fst (find v e)) /\ Forall (fun x => exists r, fst (snd x) = request_class r) e /\
  world plain [] h (map (fun '((_, (c, p)), f) => (c, p, f)) (combine e fs)).
Lemma find_split v x : forall e, find v e = Some x -> exists e1 e2, e = e1 ++ (v, x) :: e2 /\ ~ In v (map fst e1).
Proof.
  induction e as [|(w, y) e IH]; cbn; [discriminate|]. destruct (Nat.eqb v w) eqn:Q.
  - intros [= ->]. apply Nat.eqb_eq in Q. subst w. exists [], e. split; [reflexivity|intros []].
  - intros F. destruct (IH F) as (e1 & e2 & -> & N). exists ((w, y) :: e1), e2. split; [reflexivity|]. cbn. apply Nat.eqb_neq in Q. intros [I|I]; [now apply Q|contradiction].
Qed.
Lemma find_none v : forall e, ~ In v (map fst e) -> find v e = None.
Proof. induction e as [|(w, y) e IH]; cbn; [reflexivity|]. intros N. destruct (Nat.eqb v w) eqn:Q; [apply Nat.eqb_eq in Q; exfalso; apply N; now left|]. apply IH. tauto. Qed.
Lemma find_in v : forall e, find v e = None -> ~ In v (map fst e).
Proof. induction e as [|(w, y) e IH]; cbn; [tauto|]. destruct (Nat.eqb v w) eqn:Q; [discriminate|]. intros F [I|I]; [subst; rewrite Nat.eqb_refl in Q; discriminate|now apply IH]. Qed.
Lemma remove_none v : forall e, ~ In v (map fst e) -> remove v e = e.
Proof. unfold remove. induction e as [|(w, y) e IH]; cbn; [reflexivity|]. intros N. destruct (Nat.eqb v w) eqn:Q; [apply Nat.eqb_eq in Q; exfalso; apply N; now left|]. cbn. f_equal. apply IH. tauto. Qed.
Lemma remove_split v x e1 e2 : ~ In v (map fst e1) -> ~ In v (map fst e2) -> remove v (e1 ++ (v, x) :: e2) = e1 ++ e2.
Proof. intros N1 N2. unfold remove. rewrite filter_app. cbn. rewrite Nat.eqb_refl. cbn. fold (remove v e1) (remove v e2). now rewrite !remove_none. Qed.
Lemma find_app v e1 e2 : find v (e1 ++ e2) = match find v e1 with Some x => Some x | None => find v e2 end.
Proof. induction e1 as [|(w, y) e1 IH]; cbn; [reflexivity|]. now destruct (Nat.eqb v w). Qed.
Definition roots (e : variables) (fs : list (list nat)) : list (class * nat * list nat) := map (fun '((_, (c, p)), f) => (c, p, f)) (combine e fs).
Lemma roots_app e1 e2 f1 f2 : length e1 = length f1 -> roots (e1 ++ e2) (f1 ++ f2) = roots e1 f1 ++ roots e2 f2.
Proof. revert f1. induction e1 as [|(v, (c, p)) e1 IH]; intros [|f f1] L; try discriminate; [reflexivity|]. cbn. f_equal. apply IH. now injection L. Qed.
Lemma split_fs {A B} (e1 e2 : list A) (x : A) (fs : list B) : length fs = length (e1 ++ x :: e2) -> exists f1 f f2, fs = f1 ++ f :: f2 /\ length e1 = length f1 /\ length e2 = length f2.
Proof.
  revert fs. induction e1 as [|y e1 IH]; intros [|f fs] L; try discriminate.
  - exists [], f, fs. cbn in *. split; [reflexivity|]. split; [reflexivity|lia].
  - cbn in L. destruct (IH fs ltac:(lia)) as (f1 & g & f2 & -> & L1 & L2). exists (f :: f1), g, f2. cbn. split; [reflexivity|]. split; lia.
Qed.
Lemma step_ok o h e t fs ops : state h e t fs -> proper (o :: ops) t -> exists h' e' fs', step o h e = Ok (h', e') /\
  state h' e' (match o with New v r => fun w => if Nat.eqb w v then Some (request_class r) else t w | Set_ _ _ _ => t | Delete v => fun w => if Nat.eqb w v then None else t w end) fs'.
Proof.
  intros (L & N & T & R & W) P. fold (roots e fs) in W. destruct o as [v r|s v w|v].
  - destruct P as (Tv & Sr & _). rewrite T in Tv. assert (Fv : find v e = None) by (destruct (find v e); [discriminate|reflexivity]). pose proof (find_in v e Fv) as Nv.
    destruct (world_new plain [] h _ _ _ W (request_builds r Sr h)) as (h' & p & fp & E & W' & _). exists h', ((v, (request_class r, p)) :: e), (fp :: fs). cbn [step]. rewrite E. cbn [bind]. rewrite remove_none by exact Nv.
    split; [reflexivity|]. split; [cbn; lia|]. split; [cbn; now constructor|]. split; [|split; [constructor; [now exists r|exact R]|exact W']].
    intros u. cbn. destruct (Nat.eqb u v) eqn:Q; [reflexivity|]. apply T.
  - destruct P as (D & Tv & Tw & _). rewrite T in Tv, Tw. destruct (find v e) as [(cv, p)|] eqn:Fv; [|discriminate]. destruct (find w e) as [(cw, q)|] eqn:Fw; [|discriminate]. cbn in Tv, Tw. injection Tv as ->. injection Tw as ->.
    destruct (find_split v _ e Fv) as (e1 & e2 & Ee & N1). destruct (split_fs e1 e2 (v, (setter_class s, p)) fs) as (f1 & f & f2 & Ef & L1 & L2); [now rewrite <- Ee|].
    assert (N2 : ~ In v (map fst e2)). { rewrite Ee, map_app in N. cbn in N. apply NoDup_remove_2 in N. intros I. apply N, in_app_iff. now right. }
    assert (Ro : roots e fs = roots e1 f1 ++ (setter_class s, p, f) :: roots e2 f2) by (rewrite Ee, Ef; now apply roots_app).
    (* the string *)
    assert (Iq : exists fq, In (StringC, q, fq) (roots e1 f1 ++ roots e2 f2)).
    { assert (Fw' : find w (e1 ++ e2) = Some (StringC, q)). { rewrite Ee, find_app in Fw. rewrite find_app. destruct (find w e1); [exact Fw|]. cbn in Fw. destruct (Nat.eqb w v) eqn:Q; [apply Nat.eqb_eq in Q; congruence|exact Fw]. }
      rewrite <- (roots_app e1 e2 f1 f2 L1). assert (L3 : length (f1 ++ f2) = length (e1 ++ e2)) by (rewrite !app_length; lia). revert L3 Fw'. generalize (e1 ++ e2), (f1 ++ f2). clear.
      induction l as [|(u, (c, p)) l IH]; intros [|g gs] L F; try discriminate. cbn in F. destruct (Nat.eqb w u).
      - injection F as -> ->. exists g. now left.
      - destruct (IH gs ltac:(cbn in L; lia) F) as (fq & I). exists fq. now right. }
    destruct Iq as (fq & Iq). apply in_split in Iq. destruct Iq as (r1 & r2 & Er). rewrite Ro in W.
    assert (Pm : Permutation (roots e1 f1 ++ (setter_class s, p, f) :: roots e2 f2) ((setter_class s, p, f) :: (StringC, q, fq) :: r1 ++ r2)).
    { apply Permutation_sym, Permutation_cons_app. rewrite Er. apply Permutation_cons_app. reflexivity. }
    apply (world_perm _ _ _ _ _ Pm) in W. destruct (world_set plain [] h _ (call_setter s) (setter_class s) p f q fq W (setter_modifies s)) as (h' & f' & E & W').
    exists h', e, (f1 ++ f' :: f2). cbn [step]. rewrite Fv, Fw. rewrite E. cbn [bind]. split; [reflexivity|].
    split; [rewrite <- L, Ef, !app_length; reflexivity|]. split; [exact N|]. split; [exact T|]. split; [exact R|]. fold (roots e (f1 ++ f' :: f2)). rewrite Ee, roots_app by exact L1. change (roots ((v, (setter_class s, p)) :: e2) (f' :: f2)) with ((setter_class s, p, f') :: roots e2 f2).
    revert W'. apply world_perm. apply Permutation_cons_app. rewrite Er. apply Permutation_cons_app. reflexivity.
  - destruct P as (Tv & _). rewrite T in Tv. destruct (find v e) as [(c, p)|] eqn:Fv; [|contradiction]. clear Tv.
    destruct (find_split v _ e Fv) as (e1 & e2 & Ee & N1). destruct (split_fs e1 e2 (v, (c, p)) fs) as (f1 & f & f2 & Ef & L1 & L2); [now rewrite <- Ee|].
    assert (N2 : ~ In v (map fst e2)). { rewrite Ee, map_app in N. cbn in N. apply NoDup_remove_2 in N. intros I. apply N, in_app_iff. now right. }
    assert (Ro : roots e fs = roots e1 f1 ++ (c, p, f) :: roots e2 f2) by (rewrite Ee, Ef; now apply roots_app). rewrite Ro in W.
    assert (Pm : Permutation (roots e1 f1 ++ (c, p, f) :: roots e2 f2) ((c, p, f) :: roots e1 f1 ++ roots e2 f2)) by apply Permutation_sym, Permutation_middle.
    apply (world_perm _ _ _ _ _ Pm) in W. assert (exists r, c = request_class r) as (r & Er).
    { rewrite Forall_forall in R. destruct (R (v, (c, p))) as (r & Q); [rewrite Ee; apply in_app_iff; right; now left|]. now exists r. }
    assert (Fr : frees plain (destroy c) c) by (rewrite Er; apply request_destroyed).
    destruct (world_delete plain [] h _ _ _ _ _ W Fr) as (h' & E & W' & _). exists h', (e1 ++ e2), (f1 ++ f2). cbn [step]. rewrite Fv. rewrite E. cbn [bind].
    rewrite Ee at 1. rewrite remove_split by assumption. split; [reflexivity|]. split; [rewrite !app_length; lia|]. split; [rewrite Ee, map_app in N; cbn in N; rewrite map_app; now apply NoDup_remove_1 in N|]. split; [|split].
    + intros u. destruct (Nat.eqb u v) eqn:Q.
      * apply Nat.eqb_eq in Q. subst u. rewrite find_app, !find_none; trivial.
      * rewrite T, Ee, !find_app. cbn. rewrite Q. reflexivity.
    + rewrite Ee in R. apply Forall_app in R. destruct R as (R1 & R2). inversion_clear R2. now apply Forall_app.
    + fold (roots (e1 ++ e2) (f1 ++ f2)). now rewrite roots_app.
Qed.
Lemma run_ok : forall ops h e t fs, state h e t fs -> proper ops t -> exists h' e' fs', run ops h e = Ok (h', e') /\ state h' e' (holds ops t) fs'.
Proof.
  induction ops as [|o ops IH]; intros h e t fs S P; [exists h, e, fs; now split|]. destruct (step_ok o h e t fs ops S P) as (h1 & e1 & fs1 & E1 & S1). cbn [run]. rewrite E1. cbn [bind].
  assert (P1 : proper ops (match o with New v r => fun w => if Nat.eqb w v then Some (request_class r) else t w | Set_ _ _ _ => t | Delete v => fun w => if Nat.eqb w v then None else t w end)) by (destruct o; apply P).
  destruct (IH h1 e1 _ fs1 S1 P1) as (h2 & e2 & fs2 & E2 & S2). exists h2, e2, fs2. split; [exact E2|]. destruct o; exact S2.
Qed.
Lemma roots_blocks : forall (e : variables) fs, length fs = length e -> blocks (roots e fs) = concat fs.
Proof. unfold blocks. intros e fs L. f_equal. revert fs L. induction e as [|(v, (c, p)) e IH]; intros [|f fs] L; try discriminate; [reflexivity|]. cbn. f_equal. apply IH. now injection L. Qed.
Lemma state_live h e t fs : state h e t fs -> forall a, live h a <-> In a (concat fs).
Proof.
  intros (L & _ & _ & _ & (F & _ & X)) a. fold (roots e fs) in *. pose proof (roots_blocks e fs L) as Eb.
  rewrite <- Eb. split.
  - intros (x & G). destruct (in_dec Nat.eq_dec a (blocks (roots e fs))) as [I|I]; [exact I|]. destruct X as (_ & _ & _ & D). destruct (D a) as (y & Y); [apply get_bound in G; cbn; lia|exact I|]. congruence.
  - intros I. apply (good_bound plain h _ a F I).
Qed.
Theorem objects_history : forall ops, proper ops (fun _ => None) ->
  exists h e fs, run ops [] [] = Ok (h, e) /\
    (forall v, holds ops (fun _ => None) v = option_map fst (find v e)) /\
    Forall2 (fun x f => snd (snd x) <> 0 /\ own plain h (fst (snd x)) (snd (snd x)) f) e fs /\ NoDup (concat fs) /\
    (forall a, live h a <-> In a (concat fs)).
Proof.
  intros ops P. assert (S0 : state [] [] (fun _ => None) []).
  { split; [reflexivity|]. split; [constructor|]. split; [reflexivity|]. split; [constructor|]. apply world_nil. }
  destruct (run_ok ops [] [] _ [] S0 P) as (h & e & fs & E & S). exists h, e, fs. split; [exact E|]. pose proof (state_live _ _ _ _ S) as Lv. destruct S as (L & N & T & R & (F & Nb & X)). split; [exact T|]. split; [|split; [|exact Lv]].
  - clear - L F. revert fs L F. induction e as [|(v, (c, p)) e IH]; intros [|f fs] L F; try discriminate; constructor; cbn in F; inversion_clear F as [|? ? G F']; [exact G|]. apply IH; [now injection L|exact F'].
  - rewrite <- (roots_blocks e fs L). exact Nb.
Qed.
Theorem nothing_left : forall ops, proper ops (fun _ => None) -> (forall v, holds ops (fun _ => None) v = None) -> exists h, run ops [] [] = Ok (h, []) /\ forall a, ~ live h a.
Proof.
  intros ops P Z. destruct (objects_history ops P) as (h & e & fs & E & T & F & _ & Lv). assert (e = []).
  { destruct e as [|(v, x) e]; [reflexivity|]. specialize (T v). rewrite Z in T. cbn in T. rewrite Nat.eqb_refl in T. discriminate. }
  subst e. inversion F; subst. exists h. split; [exact E|]. intros a A. apply Lv in A. exact A.
Qed.

(** C234: keys *)
Theorem key_life : forall n e mk k i h, exists h1 p fp, AcquireKeyInfo n e mk k i h = Ok (h1, p) /\ p <> 0 /\ own plain h1 KeyC p fp /\ NoDup fp /\
  (forall a, a <= length h -> get h1 a = get h a) /\ (forall a, live h1 a <-> live h a \/ In a fp) /\
  forall fuel, length fp <= fuel -> exists h2, DestroyKeyInfo fuel p h1 = Ok (Some h2) /\ (forall a, a <= length h -> get h2 a = get h a) /\ forall a, live h2 a <-> live h a.
Proof.
  intros n e mk k i h. destruct (key_builds plain n e mk k i eq_refl h h (base_refl h)) as (h1 & p & fp & E & Np & O & N & (L & S1 & F & D)). exists h1, p, fp. split; [exact E|]. split; [exact Np|]. split; [exact O|]. split; [exact N|]. split; [exact S1|].
  assert (Lv : forall a, live h1 a <-> live h a \/ In a fp).
  { intros a. split.
    - intros (x & G). destruct (in_dec Nat.eq_dec a fp) as [I|I]; [now right|]. left. destruct (Nat.le_gt_cases a (length h)) as [A|A]; [exists x; now rewrite <- S1|]. destruct (D a) as (y & Y); [apply get_bound in G; lia|exact I|]. congruence.
    - intros [(x & G)|I]; [exists x; rewrite S1; [exact G|apply get_bound in G; lia]|]. now apply (own_live plain h1 KeyC p fp). }
  split; [exact Lv|]. intros fuel Lf. destruct (destroy_key_gives_back fuel h1 p fp Np O N Lf) as (h2 & E2 & L2 & D2 & S2). exists h2. split; [exact E2|]. split.
  - intros a A. rewrite S2; [now apply S1|]. intros I. apply F in I. lia.
  - intros a. split.
    + intros (x & G). destruct (in_dec Nat.eq_dec a fp) as [I|I]; [destruct (D2 a I) as (_ & y & Y); congruence|]. rewrite S2 in G by exact I. destruct (proj1 (Lv a)) as [A|A]; [now exists x|exact A|contradiction].
    + intros (x & G). exists x. rewrite S2; [rewrite S1; [exact G|apply get_bound in G; lia]|]. intros I. apply F in I. apply get_bound in G. lia.
Qed.

(** C235: what is set is a copy *)
(** member i of the object p *)
Definition member (h : heap) (p i q : nat) : Prop := exists x, get h p = Some (Live x) /\ pointer i x = q.
Lemma set_copy_copies i c cs0 h p fp q fq l : (forall k cs, members c k = Some cs -> cs = cs0) -> nth_error cs0 i = Some StringC -> p <> 0 -> q <> 0 -> own plain h c p fp -> NoDup fp -> own plain h StringC q fq -> (forall a, In a fq -> ~ In a fp) -> text h q l ->
  exists h' r, set_copy i p q h = Ok h' /\ length h < r /\ member h' p i r /\ text h' r l /\ text h' q l /\ (forall j m, j <> i -> member h p j m -> member h' p j m) /\ (forall a, a <= length h -> ~ In a fp -> get h' a = get h a).
Proof.
  intros M E Np Nq O N Oq D T. destruct (own_open _ _ _ _ _ Np O N) as (x & cs & fps & Op & Cx & Sx & Mx & Px & ->). pose proof (M _ _ Mx). subst cs.
  destruct (set_copy_ok plain h p x cs0 fps i q fq l Op E Nq Oq T D) as (h' & f & r & Es & Nr & Lr & (G' & _) & (_ & Sm & _) & T1 & T2). pose proof Op as (G & Os & _). destruct (owns_lengths _ _ _ _ _ Os) as (Lp & _). assert (Li : i < length cs0) by (apply nth_error_Some; congruence).
  exists h', r. split; [exact Es|]. split; [exact Lr|]. split; [eexists; split; [exact G'|]; unfold pointer; cbn [pointers with_pointers]; apply nth_update_same; lia|]. split; [exact T1|]. split; [exact T2|]. split; [|exact Sm].
  intros j m J (y & Gy & Py). rewrite G in Gy. injection Gy as <-. eexists. split; [exact G'|]. unfold pointer in *. cbn [pointers with_pointers]. now rewrite nth_update_other.
Qed.
(** the setters of keyrings and secrets and the members that they set *)
Definition copiers : list (class * nat * (nat -> nat -> heap -> outcome heap)) := [(KeyringC, 1, SetKeyringId); (KeyringC, 2, SetKeyringKey); (KeyringC, 3, SetKeyringNonce); (SecretC, 1, SetSecretId)].
Theorem setters_copy : forall c i f h p fp q fq l, In (c, i, f) copiers -> p <> 0 -> q <> 0 -> own plain h c p fp -> NoDup fp -> own plain h StringC q fq -> (forall a, In a fq -> ~ In a fp) -> text h q l ->
  exists h' r, f p q h = Ok h' /\ length h < r /\ member h' p i r /\ text h' r l /\ text h' q l /\ (forall j m, j <> i -> member h p j m -> member h' p j m) /\ (forall a, a <= length h -> ~ In a fp -> get h' a = get h a).
Proof.
  intros c i f h p fp q fq l I Np Nq O N Oq D T. assert (Ck : exists x, check p h = Ok x) by (destruct (own_open _ _ _ _ _ Np O N) as (x & cs & fps & (G & _) & _ & Sx & _); exists x; now apply check_ok). destruct Ck as (x & Ck).
  cbn in I. repeat (destruct I as [I|I]; [injection I as <- <- <-|]); [| | | |contradiction].
  1-3: unfold SetKeyringId, SetKeyringKey, SetKeyringNonce; rewrite Ck; cbn [bind]; eapply (set_copy_copies _ KeyringC [Raw; StringC; StringC; StringC]); eauto; now intros k cs [= <-].
  eapply (set_copy_copies _ SecretC secret_members); eauto; now intros k cs [= <-].
Qed.
Theorem authenticate_id_copies : forall h p fp q fq l, p <> 0 -> q <> 0 -> own plain h AuthenticateC p fp -> NoDup fp -> own plain h StringC q fq -> (forall a, In a fq -> ~ In a fp) -> text h q l ->
  exists h' s r, SetAuthenticateId p q h = Ok h' /\ member h p 0 s /\ member h' p 0 s /\ member h' s 1 r /\ length h < r /\ text h' r l /\ text h' q l.
Proof.
  intros h p fp q fq l Np Nq O N Oq D T. destruct (own_open _ _ _ _ _ Np O N) as (x & cs & fps & Op & Cx & Sx & Mx & Px & ->). pose proof Op as (G & Os & _). unfold SetAuthenticateId. rewrite (check_ok _ _ _ G Sx). cbn [bind].
  cbn [members] in Mx. destruct (kind x =? 1)%N eqn:K; [|discriminate]. injection Mx as <-. unfold present in Px. rewrite Cx in Px. pose proof (owns_nth _ _ _ _ _ Os 0 SecretC eq_refl) as O0. fold (pointer 0 x) in O0.
  inversion_clear N as [|? ? N1 N2]. destruct (setters_copy SecretC 1 SetSecretId h (pointer 0 x) (nth 0 fps []) q fq l) as (h' & r & E & Lr & M1 & T1 & T2 & _ & Sm); trivial; [cbn; tauto|now apply nodup_nth| |].
  { intros a A I. apply (D a A). right. apply in_concat_nth. now exists 0. }
  exists h', (pointer 0 x), r. split; [destruct (pointer 0 x); [contradiction|exact E]|]. split; [now exists x|]. split; [|auto]. exists x. split; [|reflexivity]. rewrite Sm; [exact G|apply get_bound in G; lia|]. intros I. apply N1, in_concat_nth. now exists 0.
Qed.
(** SetStringInfo: as many bytes as there were; those of the source, then zeros *)
Definition overwritten (l m r : list N) : Prop := length r = length l /\ forall i, i < length l -> nth i r 0%N = nth i m 0%N.
Lemma copied_overwritten l m : overwritten l m (copied l m).
Proof.
  unfold overwritten, copied. split; [rewrite app_length, firstn_length, repeat_length; lia|]. intros i Li. destruct (Nat.lt_ge_cases i (length m)) as [A|A].
  - rewrite app_nth1 by (rewrite firstn_length; lia). revert m i Li A. induction (length l) as [|n IH]; intros [|y m] [|i] Li A; cbn in *; try lia. apply IH; lia.
  - rewrite (nth_overflow m) by exact A. rewrite app_nth2 by (rewrite firstn_length; lia). destruct (nth_in_or_default (i - length (firstn (length l) m)) (repeat 0%N (length l - length m)) 0%N) as [I|I]; [now apply repeat_spec in I|exact I].
Qed.
Theorem string_overwritten : forall h p fp q fq l m, p <> 0 -> q <> 0 -> own plain h StringC p fp -> NoDup fp -> own plain h StringC q fq -> (forall a, In a fq -> ~ In a fp) -> text h p l -> text h q m ->
  exists h' r, SetStringInfo p q h = Ok h' /\ text h' p r /\ overwritten l m r /\ text h' q m.
Proof.
  intros h p fp q fq l m Np Nq O N Oq D T1 T2. destruct (set_string_ok plain h p fp q fq l m Np Nq O N Oq D T1 T2) as (h' & E & _ & _ & T3 & T4). exists h', (copied l m). split; [exact E|]. split; [exact T3|]. split; [apply copied_overwritten|exact T4].
Qed.
Theorem nonce_overwritten : forall h p fp q fq l m n, p <> 0 -> q <> 0 -> own plain h CipherC p fp -> NoDup fp -> own plain h StringC q fq -> (forall a, In a fq -> ~ In a fp) -> member h p 1 n -> text h n l -> text h q m ->
  exists h' r, SetCipherNonce p q h = Ok h' /\ member h' p 1 n /\ text h' n r /\ overwritten l m r /\ text h' q m.
Proof.
  intros h p fp q fq l m n Np Nq O N Oq D Mn T1 T2. destruct (own_open _ _ _ _ _ Np O N) as (x & cs & fps & Op & Cx & Sx & Mx & Px & ->). pose proof Op as (G & Os & _). destruct Mn as (x' & Gx & Pn). rewrite G in Gx. injection Gx as <-. subst n.
  unfold SetCipherNonce. rewrite (check_ok _ _ _ G Sx). cbn [bind]. cbn [members] in Mx. destruct (cipher_class (kind x)) as [c|] eqn:K; [|discriminate]. injection Mx as <-. unfold present in Px. rewrite Cx in Px. pose proof (owns_nth _ _ _ _ _ Os 1 StringC eq_refl) as O1. fold (pointer 1 x) in O1.
  inversion_clear N as [|? ? N1 N2]. destruct (set_string_ok plain h (pointer 1 x) (nth 1 fps []) q fq l m Px Nq O1 (nodup_nth fps 1 N2) Oq) as (h' & E & _ & (_ & Sm & _) & T3 & T4); trivial.
  { intros a A I. apply (D a A). right. apply in_concat_nth. now exists 1. }
  exists h', (copied l m). split; [exact E|]. split; [|split; [exact T3|split; [apply copied_overwritten|exact T4]]]. exists x. split; [|reflexivity]. rewrite Sm; [exact G|apply get_bound in G; lia|]. intros I. apply N1, in_concat_nth. now exists 1.
Qed.

(** C236: string.c:838, hash.c:213, random.c:275, secret.c:216 and the others say "zeros memory associated with"; nothing is zeroed but the first eight bytes of a seed *)
Theorem destroy_zeros_refuted : forall c D h p fp h', In (c, D) destroyers -> p <> 0 -> own plain h c p fp -> NoDup fp -> D p h = Ok h' ->
  forall a x, In a fp -> get h a = Some (Live x) -> exists y, get h' a = Some (Dead y) /\ skipn 8 (bytes y) = skipn 8 (bytes x) /\ (class_of x <> RandomC -> bytes y = bytes x).
Proof.
  intros c D h p fp h' I Np O N E a x A G. destruct (destroyers_free c D I h p fp Np O N) as (h1 & E1 & (_ & K & _)). rewrite E in E1. injection E1 as <-. destruct (K a A) as (x' & y & G' & Y & (_ & B)). rewrite G in G'. injection G' as <-.
  exists y. split; [exact Y|]. destruct (class_of x); (split; [try exact B; now rewrite B|try (intros _; exact B); congruence]).
Qed.
(** C237 *)
Theorem passphrase_leaks_refuted : forall h p fp w, p <> 0 -> own phrased h SecretC p fp -> NoDup fp -> member h p 0 w -> w <> 0 ->
  exists h' x, DestroySecretInfo p h = Ok h' /\ get h w = Some (Live x) /\ get h' w = Some (Live x) /\ (exists y, get h' p = Some (Dead y)) /\ forall a, In a fp -> a <> w -> exists y, get h' a = Some (Dead y).
Proof.
  intros h p fp w Np O N (x & G & Pw) Nw. destruct (own_open _ _ _ _ _ Np O N) as (x' & cs & fps & Op & Cx & Sx & Mx & Px & ->). pose proof Op as (G' & Os & Nd). rewrite G in G'. injection G' as <-. injection Mx as <-.
  destruct (secret_gen phrased h p x fps Op Cx Sx) as (h' & E & (_ & D & S1)). pose proof (owns_nth _ _ _ _ _ Os 0 Raw eq_refl) as O0. fold (pointer 0 x) in O0. rewrite Pw in O0. destruct (owns_lengths _ _ _ _ _ Os) as (_ & Lf). cbn in Lf.
  inversion O0 as [|? ? xw ? fw Gw Cw _ Mw _ Ow Q1 Q2 Q3]; [congruence|]. subst. cbn [members] in Mw. injection Mw as <-. inversion Ow; subst. cbn [concat] in Q3. inversion_clear Nd as [|? ? N1 N2].
  assert (Iw : In (pointer 0 x) (nth 0 fps [])) by (rewrite <- Q3; now left).
  assert (Z : ~ In (pointer 0 x) (p :: concat (update 0 [] fps))).
  { intros [A|A]; [apply N1; rewrite A; apply in_concat_nth; now exists 0|]. apply in_concat_nth in A. destruct A as ([|j] & A); [rewrite nth_update_same in A by lia; contradiction|]. rewrite nth_update_other in A by discriminate. now apply (nodup_disjoint fps 0 (S j) _ N2 ltac:(discriminate) Iw). }
  exists h', xw. split; [exact E|]. split; [exact Gw|]. split; [now rewrite S1|]. split; [destruct (D p) as (u & v & _ & V & _); [now left|eauto]|].
  intros a A Na. destruct (D a) as (u & v & _ & V & _); [|eauto]. destruct A as [A|A]; [now left|right]. apply in_concat_nth in A. destruct A as (j & A). apply in_concat_nth. exists j. destruct j as [|j]; [|now rewrite nth_update_other]. rewrite <- Q3 in A. destruct A as [A|[]]. congruence.
Qed.
(** C238: an object's own member as the value *)
Definition own_value_setters : list (class * (nat -> heap -> outcome nat) * (nat -> nat -> heap -> outcome heap)) :=
  [(KeyringC, GetKeyringKey, SetKeyringKey); (KeyringC, GetKeyringNonce, SetKeyringNonce); (SecretC, GetSecretId, SetSecretId)].
Lemma set_copy_own i c cs0 h p fp q : (forall k cs, members c k = Some cs -> cs = cs0) -> nth_error cs0 i = Some StringC -> p <> 0 -> own plain h c p fp -> NoDup fp -> member h p i q -> q <> 0 -> set_copy i p q h = UB.
Proof.
  intros M E Np O N (x & G & Pq) Nq. destruct (own_open _ _ _ _ _ Np O N) as (x' & cs & fps & Op & Cx & Sx & Mx & Px & ->). pose proof (M _ _ Mx). subst cs. pose proof Op as (G' & Os & Nd). rewrite G in G'. injection G' as <-.
  destruct (destroy_member_ok plain h p x cs0 fps i DestroyStringInfo StringC Op E (string_frees plain)) as (h1 & E1 & O1 & L1 & D1 & S1). unfold set_copy. rewrite E1. cbn [bind].
  pose proof (owns_nth _ _ _ _ _ Os i StringC E) as Oi. fold (pointer i x) in Oi. rewrite Pq in Oi. assert (Iq : In q (nth i fps [])) by (inversion Oi; [congruence|now left]). destruct (D1 q Iq) as (u & v & _ & V & _).
  unfold acquire_member, CloneStringInfo, check. destruct q; [contradiction|]. unfold load. now rewrite V.
Qed.
Theorem own_value_refuted : forall c G S h p fp q, In (c, G, S) own_value_setters -> p <> 0 -> own plain h c p fp -> NoDup fp -> G p h = Ok q -> q <> 0 -> S p q h = UB.
Proof.
  intros c G S h p fp q I Np O N E Nq. destruct (own_open _ _ _ _ _ Np O N) as (x & cs & fps & (Gx & _) & _ & Sx & _). pose proof (check_ok _ _ _ Gx Sx) as Ck.
  cbn in I. repeat (destruct I as [I|I]; [injection I as <- <- <-|]); [| | |contradiction].
  - unfold GetKeyringKey, get_member in E. rewrite Ck in E. injection E as E. unfold SetKeyringKey. rewrite Ck. cbn [bind]. apply (set_copy_own 2 KeyringC [Raw; StringC; StringC; StringC] h p fp); trivial; [now intros k cs' [= <-]|now exists x].
  - unfold GetKeyringNonce, get_member in E. rewrite Ck in E. injection E as E. unfold SetKeyringNonce. rewrite Ck. cbn [bind]. apply (set_copy_own 3 KeyringC [Raw; StringC; StringC; StringC] h p fp); trivial; [now intros k cs' [= <-]|now exists x].
  - unfold GetSecretId, get_member in E. rewrite Ck in E. injection E as E. apply (set_copy_own 1 SecretC secret_members h p fp); trivial; [now intros k cs' [= <-]|now exists x].
Qed.
Theorem own_id_refuted : forall h p fp q, p <> 0 -> own plain h AuthenticateC p fp -> NoDup fp -> GetAuthenticateId p h = Ok q -> q <> 0 -> SetAuthenticateId p q h = UB.
Proof.
  intros h p fp q Np O N E Nq. destruct (own_open _ _ _ _ _ Np O N) as (x & cs & fps & (G & Os & Nd) & Cx & Sx & Mx & Px & ->). pose proof (check_ok _ _ _ G Sx) as Ck. unfold GetAuthenticateId in E. rewrite Ck in E. cbn [bind] in E. unfold SetAuthenticateId. rewrite Ck. cbn [bind].
  cbn [members] in Mx. destruct (kind x =? 1)%N; [|discriminate]. injection Mx as <-. unfold present in Px. rewrite Cx in Px. pose proof (owns_nth _ _ _ _ _ Os 0 SecretC eq_refl) as O0. fold (pointer 0 x) in O0. inversion_clear N as [|? ? N1 N2].
  pose proof (own_value_refuted SecretC GetSecretId SetSecretId h (pointer 0 x) (nth 0 fps []) q ltac:(cbn; tauto) Px O0 (nodup_nth fps 0 N2) E Nq) as U. destruct (pointer 0 x); [contradiction|exact U].
Qed.
(** C239: the nonce of a cipher set to itself is zeros *)
Theorem own_nonce_refuted : forall h p fp n l, p <> 0 -> own plain h CipherC p fp -> NoDup fp -> GetCipherNonce p h = Ok n -> text h n l ->
  exists h', SetCipherNonce p n h = Ok h' /\ member h' p 1 n /\ text h' n (repeat 0%N (length l)).
Proof.
  intros h p fp n l Np O N E T. destruct (own_open _ _ _ _ _ Np O N) as (x & cs & fps & (G & Os & Nd) & Cx & Sx & Mx & Px & ->). pose proof (check_ok _ _ _ G Sx) as Ck. unfold GetCipherNonce, get_member in E. rewrite Ck in E. injection E as <-. unfold SetCipherNonce. rewrite Ck. cbn [bind].
  cbn [members] in Mx. destruct (cipher_class (kind x)) as [c|] eqn:K; [|discriminate]. injection Mx as <-. unfold present in Px. rewrite Cx in Px. pose proof (owns_nth _ _ _ _ _ Os 1 StringC eq_refl) as O1. fold (pointer 1 x) in O1. inversion_clear Nd as [|? ? N1 N2].
  assert (Pn : forall a, In a (nth 1 fps []) -> a <> p) by (intros a A ->; apply N1, in_concat_nth; now exists 1). pose proof (nodup_nth fps 1 N2) as Nn.
  set (n := pointer 1 x) in *. destruct (own_string _ _ _ _ Px O1) as (y & d & Gy & Cy & Sy & Py & P0 & Gd & Cd & Sd & Pd & Ef & _). destruct T as (y' & d' & Y1 & _ & Y2 & Y3). rewrite Gy in Y1. injection Y1 as <-. rewrite Gd in Y2. injection Y2 as <-.
  rewrite Ef in *. set (dp := pointer 0 y) in *. assert (Dn : n <> dp) by (intros Z; inversion_clear Nn as [|? ? M1 _]; apply M1; rewrite <- Z; now left).
  unfold SetStringInfo. rewrite (check_ok _ _ _ Gy Sy). cbn [bind]. fold dp. rewrite (load_ok _ _ _ Gd). cbn [bind]. rewrite Y3. destruct l as [|l0 l'] eqn:El.
  - exists h. split; [reflexivity|]. split; [now exists x|]. exists y, d. auto.
  - rewrite <- El in *. unfold store. rewrite (load_ok _ _ _ Gd). cbn [bind]. set (d1 := with_bytes d (repeat 0%N (length l))). pose proof (get_bound _ _ _ Gd) as Bd. assert (G1 : get (set h dp (Live d1)) dp = Some (Live d1)) by now apply get_set_same.
    rewrite !(load_ok _ _ _ G1). cbn [bind]. set (d2 := with_bytes d1 _). eexists. split; [reflexivity|]. assert (F : forall a, a <> dp -> get (set (set h dp (Live d1)) dp (Live d2)) a = get h a) by (intros a A; now rewrite !get_set_other).
    split; [exists x; split; [|reflexivity]; rewrite F; [exact G|intros Z; apply (Pn dp); [cbn; tauto|congruence]]|].
    exists y, d2. split; [rewrite F; [exact Gy|exact Dn]|]. split; [exact Cy|]. split; [apply get_set_same; rewrite set_length; lia|]. unfold d2, d1. cbn [bytes with_bytes]. rewrite repeat_length, skipn_zeros, Nat.sub_diag. cbn [repeat]. rewrite app_nil_r. apply firstn_all2. now rewrite repeat_length.
Qed.

(** ** Examples *)
Ltac owned := first [apply own_null | eapply own_block; [reflexivity|reflexivity|reflexivity|reflexivity|cbn; repeat split; discriminate|cbn [pointers]; owneds]]
with owneds := first [apply owns_nil | eapply owns_cons; [owned|owneds]].
(** a string "abc", and a keyring with a key of two bytes *)
Definition small : heap :=
  [Live (mkBlock StringC true 0 [] [2]); Live (mkBlock Raw true 0 [97; 98; 99]%N []);
   Live (mkBlock KeyringC true 0 [] [0; 0; 4; 0]); Live (mkBlock StringC true 0 [] [5]); Live (mkBlock Raw true 0 [7; 8]%N [])].
Example small_own : own plain small KeyringC 3 [3; 4; 5] /\ NoDup [3; 4; 5] /\ own plain small StringC 1 [1; 2] /\ text small 1 [97; 98; 99]%N /\ (forall a, In a [1; 2] -> ~ In a [3; 4; 5]).
Proof.
  split; [change [3; 4; 5] with (3 :: concat [[]; []; [4; 5]; []]); eapply own_block; try reflexivity; cbn [pointers]; repeat (apply owns_cons; [first [apply own_null|change [4; 5] with (4 :: concat [5 :: concat []]); owned]|]); apply owns_nil|].
  split; [repeat constructor; cbn; lia|]. split; [change [1; 2] with (1 :: concat [2 :: concat []]); owned|]. split; [now do 2 eexists|]. intros a A B. cbn in A, B. lia.
Qed.
(** the key is destroyed, the new one is behind the heap and is a copy; all is given back, the bytes are left *)
Example small_set : exists h, SetKeyringKey 3 1 small = Ok h /\ member h 3 2 6 /\ text h 6 [97; 98; 99]%N /\ text h 1 [97; 98; 99]%N /\ (exists y, get h 5 = Some (Dead y) /\ bytes y = [7; 8]%N).
Proof. eexists. split; [vm_compute; reflexivity|]. split; [now eexists|]. split; [now do 2 eexists|]. split; [now do 2 eexists|]. now eexists. Qed.
Example small_destroyed : exists h, DestroyKeyringInfo 3 small = Ok h /\ given_back small h [3; 4; 5] /\ (exists y, get h 5 = Some (Dead y) /\ bytes y = [7; 8]%N) /\ DestroyKeyringInfo 3 h = UB.
Proof.
  destruct small_own as (O & N & _). destruct (destroy_gives_back KeyringC DestroyKeyringInfo small 3 [3; 4; 5] ltac:(cbn; tauto) ltac:(lia) O N) as (h & E & B). exists h. split; [exact E|]. split; [exact B|]. vm_compute in E. injection E as <-. split; [now eexists|reflexivity].
Qed.
Example small_own_value : GetKeyringKey 3 small = Ok 4 /\ SetKeyringKey 3 4 small = UB.
Proof. now vm_compute. Qed.
Example small_overwritten : exists h, SetStringInfo 4 1 small = Ok h /\ text h 4 [97; 98]%N.
Proof. eexists. split; [vm_compute; reflexivity|]. now do 2 eexists. Qed.
Example longer_overwritten : exists h, SetStringInfo 1 4 small = Ok h /\ text h 1 [7; 8; 0]%N.
Proof. eexists. split; [vm_compute; reflexivity|]. now do 2 eexists. Qed.
(** a program with objects of all classes *)
Definition program : list op :=
  [New 0 (NewString [97; 98]%N); New 1 (NewSecret (Some [47]%N) 7 [1]%N [2]%N); New 2 (NewKeyring None); New 3 (NewCipher 4 [3]%N [4]%N); New 4 (NewAuthenticate None 12 [5]%N [6]%N); New 5 (NewHMAC 2); New 6 (NewRandom 3 [7]%N [8]%N); New 7 (NewHash 8);
   Set_ SecretId 1 0; Set_ KeyringKey 2 0; Set_ KeyringKey 2 0; Set_ CipherNonce 3 0; Set_ AuthenticateId 4 0; Delete 0].
Definition rest : list op := map Delete [1; 2; 3; 4; 5; 6; 7].
Definition count_live (h : heap) : nat := length (filter (fun c => match c with Live _ => true | Dead _ => false end) h).
Example program_proper : proper program (fun _ => None) /\ proper (program ++ rest) (fun _ => None) /\ (forall v, holds (program ++ rest) (fun _ => None) v = None).
Proof. split; [cbn; repeat split; discriminate|]. split; [cbn; repeat split; discriminate|]. intros v. cbn. now do 8 (destruct v as [|v]; [reflexivity|]). Qed.
Example program_run : match run program [] [], run (program ++ rest) [] [] with Ok (h1, e1), Ok (h2, e2) => (length h1, count_live h1, length e1, count_live h2, length e2) = (249, 221, 7, 0, 0) | _, _ => False end.
Proof. vm_compute. reflexivity. Qed.
(** a key: its tree has the session key under the id *)
Example key_run : match AcquireKeyInfo [1]%N [2]%N [3]%N [4]%N [5]%N [] with Ok (h, p) => match DestroyKeyInfo 100 p h with Ok (Some h') => (Nat.ltb 20 (count_live h), count_live h') = (true, 0) | _ => False end | _ => False end.
Proof. vm_compute. reflexivity. Qed.
(** a secret with a pass phrase *)
Definition secret : outcome (heap * nat) := let* r := AcquireSecretInfo None 7 [1]%N [2]%N [] in let '(h, p) := r in let '(h, q) := alloc h (mkBlock Raw true 0 [112; 119]%N []) in let* h := SetSecretPassphrase p q h in Ok (h, p).
Example secret_run : match secret with
  | Ok (h, p) => match DestroySecretInfo p h with Ok h' => exists w x, member h p 0 w /\ get h' w = Some (Live x) /\ bytes x = [112; 119]%N | _ => False end
  | _ => False end.
Proof. vm_compute. do 2 eexists. split; [eexists; split; reflexivity|]. split; reflexivity. Qed.
(** with a pass phrase and an id *)
Definition small_secret : heap := [Live (mkBlock Raw true 0 [112; 119]%N []); Live (mkBlock SecretC true 0 [] [1; 3; 0; 0; 0; 0; 0; 0; 0]); Live (mkBlock StringC true 0 [] [4]); Live (mkBlock Raw true 0 [7]%N [])].
Example small_secret_own : exists fp, own phrased small_secret SecretC 2 fp /\ NoDup fp /\ member small_secret 2 0 1.
Proof. eexists. split; [owned|]. split; [vm_compute; repeat (constructor; [intros I; cbn in I; lia|]); constructor|]. now eexists. Qed.
Example small_secret_left : match DestroySecretInfo 2 small_secret with Ok h => map (fun c => match c with Live _ => true | Dead _ => false end) h = [true; false; false; false] | _ => False end.
Proof. reflexivity. Qed.
(** the nonce of a cipher set to itself *)
Example own_nonce_run : match AcquireCipherInfo 2 [5; 6; 7]%N [2]%N [] with
  | Ok (h, p) => exists n, GetCipherNonce p h = Ok n /\ text h n [5; 6; 7]%N /\ match SetCipherNonce p n h with Ok h' => text h' n [0; 0; 0]%N | _ => False end
  | _ => False end.
Proof. vm_compute. eexists. split; [reflexivity|]. split; now do 2 eexists. Qed.

Print Assumptions destroy_gives_back.
Print Assumptions destroy_tree_gives_back.
Print Assumptions destroy_key_gives_back.
Print Assumptions destroy_twice.
Print Assumptions objects_history.
Print Assumptions nothing_left.
Print Assumptions key_life.
Print Assumptions setters_copy.
Print Assumptions authenticate_id_copies.
Print Assumptions string_overwritten.
Print Assumptions nonce_overwritten.
Print Assumptions destroy_zeros_refuted.
Print Assumptions passphrase_leaks_refuted.
Print Assumptions own_value_refuted.
Print Assumptions own_id_refuted.
Print Assumptions own_nonce_refuted.
