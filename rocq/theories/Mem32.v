(** Loading and storing words byte by byte with shifts and masks, the idiom of
    the Push/Pop/Read/Write macros, and its meaning as byte order. *)
From Coq Require Import Arith NArith List Lia.
From Verif Require Import Base BaseLemmas PackLemmas.
Import ListNotations.
Local Open Scope N_scope.

(** p[0] | p[1]<<8 | p[2]<<16 | p[3]<<24 *)
Definition load32le (p : list N) : N :=
  N.lor (N.lor (N.lor (get p 0) (N.shiftl (get p 1) 8))
    (N.shiftl (get p 2) 16)) (N.shiftl (get p 3) 24).
(** p[i] = (v >> 8*i) & 0xff *)
Definition store32le (v : N) : list N :=
  [N.land v 0xff; N.land (N.shiftr v 8) 0xff; N.land (N.shiftr v 16) 0xff; N.land (N.shiftr v 24) 0xff].

Lemma load32le_val p : bytes p -> length p = 4%nat -> load32le p = le_val p.
Proof.
  intros H L. destruct p as [|a [|b [|c [|d [|]]]]]; try discriminate.
  repeat match goal with H : bytes (_ :: _) |- _ => inversion H; clear H; subst
                       | H : Forall _ (_ :: _) |- _ => inversion H; clear H; subst end.
  unfold load32le, get; cbn [nth]. now apply load4.
Qed.

Lemma store32le_bytes v : store32le v = le_bytes 4 v.
Proof.
  unfold store32le. cbn [le_bytes]. rewrite !land_255, !N.shiftr_div_pow2.
  change (2 ^ 8) with 256. change (2 ^ 16) with (256 * 256). change (2 ^ 24) with (256 * (256 * 256)).
  rewrite <- !N.div_div by discriminate. reflexivity.
Qed.

(** lists of words *)
Lemma words_pack_xor l m : words 32 l -> bytes m -> length m = (4 * length l)%nat ->
  flat_map store32le (map2 N.lxor l (map load32le (chunks 4 m))) =
  xor_list m (flat_map (le_bytes 4) l).
Proof.
  revert m. induction l as [|x l IH]; intros m Hl Hm Lm.
  - destruct m; [reflexivity|cbn in Lm; lia].
  - inversion Hl as [|? ? Hx Hl']; subst.
    destruct m as [|a [|b [|c [|d m]]]]; try (cbn [length] in Lm; lia).
    change (a :: b :: c :: d :: m) with ([a; b; c; d] ++ m) in *.
    apply bytes_app in Hm as [Hm4 Hm].
    rewrite chunks_cons by (auto; lia). cbn [map map2 flat_map].
    rewrite IH; auto; [|rewrite app_length in Lm; cbn [length] in Lm; lia].
    unfold xor_list at 2. rewrite map2_app by (rewrite le_bytes_length; reflexivity).
    f_equal. rewrite load32le_val by auto. rewrite store32le_bytes.
    rewrite <- (word_le_bytes4 x Hx) at 1.
    rewrite lxor_le_val by (auto using le_bytes_bytes; rewrite le_bytes_length; reflexivity).
    rewrite xor_list_comm. fold (xor_list [a; b; c; d] (le_bytes 4 x)).
    set (y := xor_list [a; b; c; d] (le_bytes 4 x)).
    assert (length y = 4%nat) as Ly by (subst y; rewrite xor_list_length; [reflexivity|now rewrite le_bytes_length]).
    rewrite <- Ly at 1. apply le_bytes_le_val. subst y. apply bytes_xor_list; auto using le_bytes_bytes.
Qed.

Lemma flat_map_length4 (f : N -> list N) l : (forall x, length (f x) = 4%nat) ->
  length (flat_map f l) = (4 * length l)%nat.
Proof. intros H. induction l; cbn [flat_map length]; [reflexivity|]. rewrite app_length, H, IHl. lia. Qed.
Lemma flat_map_bytes (f : N -> list N) l : (forall x, bytes (f x)) -> bytes (flat_map f l).
Proof. intros H. induction l; cbn [flat_map]; [constructor|]. apply bytes_app; auto. Qed.

Lemma Forall_firstn_ {A} (P : A -> Prop) n l : Forall P l -> Forall P (firstn n l).
Proof. intros H. rewrite <- (firstn_skipn n l) in H. now apply Forall_app in H. Qed.
Lemma Forall_skipn_ {A} (P : A -> Prop) n l : Forall P l -> Forall P (skipn n l).
Proof. intros H. rewrite <- (firstn_skipn n l) in H. now apply Forall_app in H. Qed.
Lemma Forall_slice {A} (P : A -> Prop) i n l : Forall P l -> Forall P (slice l i n).
Proof. intros H. apply Forall_firstn_, Forall_skipn_, H. Qed.
Lemma bytes_slice i n l : bytes l -> bytes (slice l i n).
Proof. apply Forall_slice. Qed.
Lemma slice_length {A} (l : list A) i n : (i + n <= length l)%nat -> length (slice l i n) = n.
Proof. intros H. unfold slice. rewrite firstn_length, skipn_length. lia. Qed.
