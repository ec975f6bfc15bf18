(** Proofs about configuration files. *)
From Coq Require Import NArith ZArith Bool Arith Lia Permutation Sorted List ZifyBool ZifyNat ZifyN.
From Verif Require Import Base Outcome GlobModel PathModel ConfigureModel.
Import ListNotations.

Definition zero_free (s : list N) : Prop := Forall (fun c => c <> 0%N) s.
Definition fold (s : list N) : list N := map lower s.

(** the order of texts: a prefix comes first *)
Fixpoint text_le (p q : list N) : Prop :=
  match p, q with
  | [], _ => True
  | _ :: _, [] => False
  | c :: p, d :: q => (c < d)%N \/ c = d /\ text_le p q
  end.
Lemma lower_pos c : c <> 0%N -> lower c <> 0%N.
Proof. unfold lower. destruct (_ && _); lia. Qed.
Lemma strcasecmp_le p : forall q, zero_free p -> zero_free q -> (strcasecmp p q <= 0)%Z <-> text_le (fold p) (fold q).
Proof.
  induction p as [|c p IH]; intros [|d q] Hp Hq; cbn [strcasecmp fold map text_le]; try lia.
  - inversion Hp; subst. pose proof (lower_pos c ltac:(assumption)). lia.
  - inversion Hp; subst. inversion Hq; subst. destruct (N.eqb_spec (lower c) (lower d)) as [E|E].
    + rewrite IH by assumption. change (map lower p) with (fold p). change (map lower q) with (fold q). intuition lia.
    + intuition lia.
Qed.
Lemma strcasecmp_zero p : forall q, zero_free p -> zero_free q -> strcasecmp p q = 0%Z <-> fold p = fold q.
Proof.
  induction p as [|c p IH]; intros [|d q] Hp Hq; cbn [strcasecmp fold map]; try (split; [reflexivity|lia]).
  - inversion Hq; subst. pose proof (lower_pos d ltac:(assumption)). split; [lia|discriminate].
  - inversion Hp; subst. pose proof (lower_pos c ltac:(assumption)). split; [lia|discriminate].
  - inversion Hp; subst. inversion Hq; subst. destruct (N.eqb_spec (lower c) (lower d)) as [E|E].
    + rewrite IH by assumption. unfold fold. split; [intros ->; congruence|congruence].
    + split; [lia|intros [= X _]; contradiction].
Qed.
Lemma text_le_total p : forall q, text_le p q \/ text_le q p.
Proof.
  induction p as [|c p IH]; intros [|d q]; cbn [text_le]; auto. destruct (N.lt_total c d) as [L|[->|L]]; auto. destruct (IH q); auto.
Qed.
Lemma text_le_trans p : forall q r, text_le p q -> text_le q r -> text_le p r.
Proof.
  induction p as [|c p IH]; intros [|d q] [|e r]; cbn [text_le]; auto; try contradiction.
  intros [A|[-> A]] [B|[-> B]]; auto; [left; lia|]. right. split; [reflexivity|]. eapply IH; eauto.
Qed.
Lemma text_le_antisym p : forall q, text_le p q -> text_le q p -> p = q.
Proof.
  induction p as [|c p IH]; intros [|d q]; cbn [text_le]; auto; try contradiction.
  intros [A|[-> A]] [B|[B' B]]; try lia. f_equal. now apply IH.
Qed.
Lemma text_le_refl p : text_le p p.
Proof. induction p; cbn; auto. Qed.

(** what a sort is *)
Definition sorts (sort : forall A : Type, (A -> A -> Z) -> list A -> list A) : Prop := forall (A : Type) (cmp : A -> A -> Z) (l : list A),
  Permutation (sort A cmp l) l /\
  ((forall x y, In x l -> In y l -> (cmp x y <= 0 \/ cmp y x <= 0)%Z) ->
   (forall x y z, In x l -> In y l -> In z l -> (cmp x y <= 0 -> cmp y z <= 0 -> cmp x z <= 0)%Z) ->
   StronglySorted (fun x y => (cmp x y <= 0)%Z) (sort A cmp l)).
(** insertion sort is one *)
Fixpoint insert {A} (cmp : A -> A -> Z) (x : A) (l : list A) : list A :=
  match l with [] => [x] | y :: l => if (cmp x y <=? 0)%Z then x :: y :: l else y :: insert cmp x l end.
Definition insertion_sort (A : Type) (cmp : A -> A -> Z) (l : list A) : list A := fold_right (insert cmp) [] l.
Lemma insert_perm {A} (cmp : A -> A -> Z) x l : Permutation (insert cmp x l) (x :: l).
Proof. induction l as [|y l IH]; cbn; [reflexivity|]. destruct (_ <=? _)%Z; [reflexivity|]. rewrite IH. apply perm_swap. Qed.
Lemma insertion_sorts : sorts insertion_sort.
Proof.
  intros A cmp l. split; [induction l as [|x l IH]; cbn; [reflexivity|]; now rewrite insert_perm, IH|].
  intros T R. assert (Permutation (insertion_sort A cmp l) l) as _ by (clear; induction l as [|x l IH]; cbn; [reflexivity|]; now rewrite insert_perm, IH).
  induction l as [|x l IH]; cbn [insertion_sort fold_right]; [constructor|].
  assert (forall m, (forall y, In y m -> In y l) -> StronglySorted (fun x y => (cmp x y <= 0)%Z) m -> StronglySorted (fun x y => (cmp x y <= 0)%Z) (insert cmp x m)) as G.
  { induction m as [|y m IHm]; intros I S; cbn [insert]; [repeat constructor|]. inversion S as [|? ? S' F]; subst.
    assert (In y l) by (apply I; now left).
    destruct (Z.leb_spec (cmp x y) 0) as [L|L].
    - constructor; [assumption|]. constructor; [assumption|]. rewrite Forall_forall in *. intros z Z1.
      apply (R x y z); [now left|now right|right; apply I; now right|assumption|now apply F].
    - constructor; [apply IHm; [intros; apply I; now right|assumption]|]. apply Forall_forall. intros z Z1.
      apply (Permutation_in z (insert_perm cmp x m)) in Z1. destruct Z1 as [<-|Z1].
      + destruct (T x y) as [?|?]; [now left|now right|lia|assumption].
      + rewrite Forall_forall in F. now apply F. }
  apply G.
  - intros y Y. assert (Permutation (insertion_sort A cmp l) l) as Q by (clear; induction l as [|z l IH]; cbn; [reflexivity|]; now rewrite insert_perm, IH).
    now apply (Permutation_in y Q).
  - apply IH; [intros; apply T; now right|intros x0 y z ? ? ?; apply R; now right].
Qed.
