(** The libraries are called as they ask to be called, failures are reported, and what becomes of
    the coders (zip.c, bzip.c, lzma.c, entropy.c). *)
From Coq Require Import NArith List Bool Lia.
From Verif Require Import CoderModel.
Import ListNotations.

(** ** What the libraries ask for (zlib.h, bzlib.h, lzma/base.h), and how many coders are held

    A coder is held from a successful Init to End.  A coder that is not held may not be coded
    with; only lzma_end may be called on one that is not held. *)
Inductive coder := Idle | Held (e : entropy).
(** a call on the coder of the stream at hand; None: not allowed *)
Definition obey (k : coder) (v : event) : option coder :=
  match v, k with
  | Called (Init e) OK, Idle => Some (Held e)
  | Called (Init e) _, Idle => Some Idle
  | Called (Code e) _, Held e' =>
      match e, e' with BZIP, BZIP | LZMA, LZMA | ZIP, ZIP => Some (Held e') | _, _ => None end
  | Called (End e) _, Held e' =>
      match e, e' with BZIP, BZIP | LZMA, LZMA | ZIP, ZIP => Some Idle | _, _ => None end
  | Called (End LZMA) _, Idle => Some Idle
  | Called _ _, _ => None
  | _, _ => Some k
  end.
Fixpoint obeys (k : coder) (t : trace) : option coder :=
  match t with
  | [] => Some k
  | v :: t => match obey k v with Some k' => obeys k' t | None => None end
  end.
Definition is_thrown (v : event) : bool := match v with Thrown => true | _ => false end.
Definition thrown (t : trace) : nat := length (filter is_thrown t).
(** the last length that chaos was given *)
Definition last_room (t : trace) : option N :=
  fold_left (fun acc v => match v with Room n => Some n | _ => acc end) t None.

(** what a request adds to what has happened *)
Definition adds lib tot (r : request) (t0 : trace) (b : bool) (t : trace) : Prop :=
  perform lib tot r t0 = (b, t0 ++ t).

Ltac run := cbv [perform Zip IncreaseLZMA RestoreLZMA bind ret invoke set_length set_total_out throw] in *.

Lemma perform_adds : forall lib tot r t0, exists b t, adds lib tot r t0 b t.
Proof.
  intros lib tot r t0. unfold adds.
  destruct r as [[] n|[] n]; run;
  repeat match goal with |- context [match lib ?t ?c with _ => _ end] => destruct (lib t c) end;
  eexists; eexists; rewrite <- ?app_assoc; cbn [app]; reflexivity.
Qed.

(** all the runs there are, by the answers of the library *)
Ltac cases H :=
  unfold adds in H; run;
  repeat match type of H with context [match ?lib ?t ?c with OK => _ | StreamEnd => _ | Failed => _ end] => destruct (lib t c) eqn:? end;
  rewrite <- ?app_assoc in H; cbn [app] in H; injection H as <- H; apply app_inv_head in H; subst.

(** ** The rules are kept *)
Theorem rules_kept : forall lib tot r t0 b t, adds lib tot r t0 b t -> obeys Idle t <> None.
Proof. intros lib tot r t0 b t H. destruct r as [[] n|[] n]; cases H; cbn [obeys obey]; repeat match goal with |- context [lib ?t ?c] => destruct (lib t c) end; cbn [obeys obey]; discriminate. Qed.

(** ** Failure is reported once, success without a report *)
Theorem reported : forall lib tot r t0 b t, adds lib tot r t0 b t -> thrown t = if b then 0 else 1.
Proof. intros lib tot r t0 b t H. destruct r as [[] n|[] n]; cases H; reflexivity. Qed.

(** and what is a failure is decided by the answers of the library: zip and bzip succeed just if every call is answered as it
    should be; lzma just if the coder is made and the last call to code does not fail, when coding also the first (how lzma_end
    ends is not known: it returns nothing) *)
Definition entropy_of (r : request) : entropy := match r with Increase e _ | Restore e _ => e end.
Definition wanted (v : event) : bool :=
  match v with Called (Init _) OK | Called (Code _) StreamEnd | Called (End _) OK => true | Called _ _ => false | _ => true end.
Theorem zip_failures : forall lib tot r t0 b t, entropy_of r <> LZMA -> adds lib tot r t0 b t -> b = forallb wanted t.
Proof.
  intros lib tot r t0 b t E H. destruct r as [[] n|[] n]; try (destruct (E eq_refl)); cases H; reflexivity.
Qed.
Definition codes (t : trace) : list status := concat (map (fun v => match v with Called (Code _) s => [s] | _ => [] end) t).
Definition inits (t : trace) : list status := concat (map (fun v => match v with Called (Init _) s => [s] | _ => [] end) t).
Theorem lzma_failures : forall lib tot r t0 b t, entropy_of r = LZMA -> adds lib tot r t0 b t ->
  b = match inits t, codes t, r with
      | [OK], [OK; OK], _ | [OK], [OK; StreamEnd], _ => true
      | [OK], [_; OK], Restore _ _ | [OK], [_; StreamEnd], Restore _ _ => true
      | _, _, _ => false
      end.
Proof.
  intros lib tot r t0 b t E H. destruct r as [[] n|[] n]; try discriminate E; cases H; cbn;
  repeat match goal with |- context [lib ?t ?c] => destruct (lib t c) end; reflexivity.
Qed.

(** ** After a success, the coder is no longer held *)
Theorem success_idle : forall lib tot r t0 t, adds lib tot r t0 true t -> obeys Idle t = Some Idle.
Proof.
  intros lib tot r t0 t H. destruct r as [[] n|[] n]; unfold adds in H; run;
  repeat match type of H with context [match ?lib ?t ?c with OK => _ | StreamEnd => _ | Failed => _ end] => destruct (lib t c) eqn:? end;
  try discriminate H; rewrite <- ?app_assoc in H; cbn [app] in H; injection H as H; apply app_inv_head in H; subst; reflexivity.
Qed.
(** lzma: nor after a failure *)
Theorem lzma_idle : forall lib tot r t0 b t, entropy_of r = LZMA -> adds lib tot r t0 b t -> obeys Idle t = Some Idle.
Proof.
  intros lib tot r t0 b t E H. destruct r as [[] n|[] n]; try discriminate E; cases H; cbn [obeys obey];
  reflexivity.
Qed.

(** ** zip, bzip: held after a failure to code, and only then *)
Definition is_code_failure (e : entropy) (v : event) : bool :=
  match v with
  | Called (Code e') s => match e, e' with BZIP, BZIP | LZMA, LZMA | ZIP, ZIP => match s with StreamEnd => false | _ => true end | _, _ => false end
  | _ => false
  end.
Theorem zip_held : forall lib tot r t0 b t, entropy_of r <> LZMA -> adds lib tot r t0 b t ->
  obeys Idle t = Some (if existsb (is_code_failure (entropy_of r)) t then Held (entropy_of r) else Idle).
Proof.
  intros lib tot r t0 b t E H. destruct r as [[] n|[] n]; try (destruct (E eq_refl)); cases H; reflexivity.
Qed.

(** ** Any number of requests: as many coders are never ended as zip and bzip failed to code *)
(** the coders of a stream that are held at the end *)
Fixpoint held_count (k : coder) (t : trace) : nat :=
  match t with
  | [] => match k with Idle => 0 | Held _ => 1 end
  | v :: t => match obey k v with Some k' => held_count k' t | None => 0 end
  end.
(** the requests that were made, each with what it added *)
Inductive session lib tot : trace -> list request -> list bool -> list trace -> trace -> Prop :=
| session_nil : forall t0, session lib tot t0 [] [] [] t0
| session_cons : forall t0 r rs b bs t ts t1, adds lib tot r t0 b t -> session lib tot (t0 ++ t) rs bs ts t1 ->
    session lib tot t0 (r :: rs) (b :: bs) (t :: ts) t1.
Lemma performs_session : forall lib tot rs t0, exists bs ts t1,
  performs lib tot rs t0 = (bs, t1) /\ session lib tot t0 rs bs ts t1 /\ t1 = t0 ++ concat ts.
Proof.
  induction rs as [|r rs IH]; intros t0.
  - exists [], [], t0. repeat split; [constructor|cbn; now rewrite app_nil_r].
  - destruct (perform_adds lib tot r t0) as [b [t H]]. destruct (IH (t0 ++ t)) as [bs [ts [t1 [E [Hs Ht]]]]].
    exists (b :: bs), (t :: ts), t1. repeat split.
    + cbn [performs]. unfold bind. unfold adds in H. rewrite H, E. reflexivity.
    + econstructor; eassumption.
    + cbn [concat]. now rewrite app_assoc.
Qed.
Definition leaks (r : request) (t : trace) : bool :=
  match entropy_of r with LZMA => false | e => existsb (is_code_failure e) t end.
Lemma held_count_obeys : forall t k k', obeys k t = Some k' -> held_count k t = match k' with Idle => 0 | Held _ => 1 end.
Proof.
  induction t as [|v t IH]; intros k k' H; cbn [obeys held_count] in *.
  - injection H as <-. reflexivity.
  - destruct (obey k v) as [k1|]; [|discriminate]. now apply IH.
Qed.
Theorem held_by_requests : forall lib tot t0 rs bs ts t1, session lib tot t0 rs bs ts t1 ->
  list_sum (map (held_count Idle) ts) = length (filter (fun p => leaks (fst p) (snd p)) (combine rs ts)).
Proof.
  induction 1 as [|t0 r rs b bs t ts t1 H Hs IH]; [reflexivity|].
  cbn [map combine filter fst snd]. change (list_sum (held_count Idle t :: map (held_count Idle) ts)) with (held_count Idle t + list_sum (map (held_count Idle) ts)).
  rewrite IH. unfold leaks at 2.
  destruct (entropy_of r) eqn:E.
  - assert (N : entropy_of r <> LZMA) by (rewrite E; discriminate).
    rewrite (held_count_obeys _ _ _ (zip_held _ _ _ _ _ _ N H)), E. destruct (existsb (is_code_failure BZIP) t); reflexivity.
  - rewrite (held_count_obeys _ _ _ (lzma_idle _ _ _ _ _ _ E H)). reflexivity.
  - assert (N : entropy_of r <> LZMA) by (rewrite E; discriminate).
    rewrite (held_count_obeys _ _ _ (zip_held _ _ _ _ _ _ N H)), E. destruct (existsb (is_code_failure ZIP) t); reflexivity.
Qed.

(** ** Chaos is as long as what the library made, and no longer than the room it was given *)
(** the library keeps within the last room it was given *)
Definition within tot : Prop := forall t n, last_room t = Some n -> (tot t <= n)%N.
Definition room_of (r : request) : N := match r with Increase _ n | Restore _ n => n end.
Theorem success_length : forall lib tot r t0 t, within tot -> adds lib tot r t0 true t ->
  exists n, last_room (t0 ++ t) = Some n /\ (n <= room_of r)%N /\ exists s s', t = s ++ Room n :: s' /\ n = tot (t0 ++ s).
Proof.
  intros lib tot r t0 t W H.
  destruct r as [[] n|[] n]; unfold adds in H; run;
  repeat match type of H with context [match ?lib ?t ?c with OK => _ | StreamEnd => _ | Failed => _ end] => destruct (lib t c) eqn:? end;
  try discriminate H; rewrite <- ?app_assoc in H; cbn [app] in H; injection H as H; apply app_inv_head in H; subst;
  (eexists; split; [unfold last_room; rewrite fold_left_app; cbn [fold_left]; reflexivity|]; split;
   [apply W; unfold last_room; rewrite fold_left_app; reflexivity|]).
  all: match goal with |- exists s s', ?l = _ /\ _ =>
         match l with
         | [?a; ?b; ?c; ?d; ?e] => first [exists [a; b; c], [e]; split; reflexivity | exists [a;b;c;d], []; split; reflexivity]
         | [?a; ?b; ?c; ?d; ?e; ?f] => exists [a; b; c; d], [f]; split; reflexivity
         end end.
Qed.

(** ** The coder is always ended: refuted *)
Theorem ended_refuted : ~ (forall lib tot r t0 b t, adds lib tot r t0 b t -> obeys Idle t = Some Idle).
Proof.
  intros H.
  specialize (H (fun _ c => match c with Init _ => OK | _ => Failed end) (fun _ => 0%N) (Restore ZIP 10) [] false
    [Called (Init ZIP) OK; Room 10; Called (Code ZIP) Failed; Thrown] eq_refl).
  discriminate.
Qed.

(** ** Examples *)
Definition works (t : trace) (c : call) : status := match c with Code _ => StreamEnd | _ => OK end.
Example zip_works : adds works (fun _ => 7%N) (Increase ZIP 20) [] true
  [Called (Init ZIP) OK; Room 20; Called (Code ZIP) StreamEnd; Room 7; Called (End ZIP) OK].
Proof. reflexivity. Qed.
(** the third request is of a damaged message *)
Definition third_fails (t : trace) (c : call) : status :=
  match c with Code _ => if Nat.ltb (length t) 11 then StreamEnd else Failed | _ => OK end.
Example session_example :
  exists ts t1, session third_fails (fun _ => 7%N) [] [Increase BZIP 20; Restore BZIP 30; Restore BZIP 40; Restore LZMA 50] [true; true; false; false] ts t1
  /\ list_sum (map (held_count Idle) ts) = 1.
Proof.
  destruct (performs_session third_fails (fun _ => 7%N) [Increase BZIP 20; Restore BZIP 30; Restore BZIP 40; Restore LZMA 50]%list []) as [bs [ts [t1 [E [H _]]]]].
  vm_compute in E. injection E as <- <-. exists ts. eexists. split; [exact H|].
  rewrite (held_by_requests _ _ _ _ _ _ _ H).
  repeat match goal with H : session _ _ _ _ _ _ _ |- _ => inversion H; clear H; subst end.
  repeat match goal with H : adds _ _ _ _ _ _ |- _ => vm_compute in H; injection H; clear H; intros; subst end.
  reflexivity.
Qed.

Print Assumptions rules_kept.
Print Assumptions reported.
Print Assumptions zip_failures.
Print Assumptions lzma_failures.
Print Assumptions success_idle.
Print Assumptions lzma_idle.
Print Assumptions zip_held.
Print Assumptions held_by_requests.
Print Assumptions success_length.
Print Assumptions ended_refuted.
