(** What the C string functions should do, on byte strings. *)
From Coq Require Import NArith List Bool.
Import ListNotations.
Local Open Scope N_scope.

(** the characters of a C string: non-zero bytes *)
Definition text (s : list N) : Prop := Forall (fun c => 0 < c < 256) s.

(** ASCII lower case *)
Definition lower (c : N) : N := if (65 <=? c) && (c <=? 90) then c + 32 else c.

(** RFC 4648 base 16, in lower case *)
Definition hex_digit (v : N) : N := if v <? 10 then 48 + v else 87 + v.
Definition hex_of (s : list N) : list N := flat_map (fun c => [hex_digit (c / 16); hex_digit (c mod 16)]) s.

(** the C locale's white space, and the two quotes *)
Definition space (c : N) : bool := existsb (N.eqb c) [9; 10; 11; 12; 13; 32].
Definition quote (c : N) : bool := existsb (N.eqb c) [34; 39].
Fixpoint ltrim (s : list N) : list N := match s with [] => [] | c :: t => if space c then ltrim t else s end.
Definition rtrim (s : list N) : list N := rev (ltrim (rev s)).
Definition lquote (s : list N) : list N := match s with [] => [] | c :: t => if quote c then t else s end.
Definition rquote (s : list N) : list N := rev (lquote (rev s)).
(** leading white space and a quote go, trailing white space and a quote go, a
    newline becomes a space *)
Definition strip (s : list N) : list N :=
  map (fun c => if c =? 10 then 32 else c) (rquote (rtrim (lquote (ltrim s)))).

(** [out] is [s] with the occurrences of [search], left to right without overlap,
    replaced; the flag: there was one *)
Inductive replaced (search replace : list N) : bool -> list N -> list N -> Prop :=
| replaced_nil : replaced search replace false [] []
| replaced_hit b s out : replaced search replace b s out -> replaced search replace true (search ++ s) (replace ++ out)
| replaced_skip b c s out : (forall t, c :: s <> search ++ t) -> replaced search replace b s out ->
    replaced search replace b (c :: s) (c :: out).

(** there is only one such [out] *)
Lemma replaced_unique search replace : search <> [] ->
  forall b s out, replaced search replace b s out -> forall b' out', replaced search replace b' s out' -> b = b' /\ out = out'.
Proof.
  intros NE b s out R. induction R as [|b s out R IH|b c s out NM R IH]; intros b' out' R'.
  - remember [] as s eqn:E in R'. destruct R' as [|x y z U|x c' y z U V]; [auto| |discriminate].
    apply app_eq_nil in E as (V & _). contradiction.
  - remember (search ++ s) as u eqn:E in R'. destruct R' as [|x y z U|x c' y z U V].
    + symmetry in E. apply app_eq_nil in E as (V & _). contradiction.
    + apply app_inv_head in E. subst y. destruct (IH _ _ U) as (-> & ->). auto.
    + exfalso. apply (U s). exact E.
  - remember (c :: s) as u eqn:E in R'. destruct R' as [|x y z U|x c' y z U V].
    + discriminate.
    + exfalso. apply (NM y). symmetry. exact E.
    + injection E as -> ->. destruct (IH _ _ V) as (-> & ->). auto.
Qed.
