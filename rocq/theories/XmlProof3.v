(** Lemmas on XmlModel: character references and declared entities. *)
From Coq Require Import Arith NArith ZArith Bool String Lia ZifyBool ZifyNat ZifyN List.
From Verif Require Import Base Outcome CStringModel OptionModel Base64Model ScanModel ScanProof2 XmlModel XmlSpec XmlProof XmlProof2.
Import ListNotations.
Ltac Zify.zify_post_hook ::= Z.div_mod_to_equations.

(** * UTF-8 *)
Lemma code_points_three fuel c x y s : (224 <= c < 240)%N -> (128 <= x < 192)%N -> (128 <= y < 192)%N ->
  code_points (S fuel) (c :: x :: y :: s) = option_map (cons ((c - 224) * 4096 + (x - 128) * 64 + (y - 128))%N) (code_points fuel s).
Proof.
  intros H K L. cbn [code_points]. destruct (N.ltb_spec c 128); [lia|].
  replace ((194 <=? c) && (c <? 224) && cont x)%N with false by lia.
  replace ((224 <=? c) && (c <? 240) && cont x && cont y)%N with true by (unfold cont; lia).
  destruct s as [|z s]; reflexivity.
Qed.
Lemma code_points_four fuel c x y z s : (240 <= c < 245)%N -> (128 <= x < 192)%N -> (128 <= y < 192)%N -> (128 <= z < 192)%N ->
  code_points (S fuel) (c :: x :: y :: z :: s) =
  option_map (cons ((c - 240) * 262144 + (x - 128) * 4096 + (y - 128) * 64 + (z - 128))%N) (code_points fuel s).
Proof.
  intros H K L M. cbn [code_points]. destruct (N.ltb_spec c 128); [lia|].
  replace ((194 <=? c) && (c <? 224) && cont x)%N with false by lia.
  replace ((224 <=? c) && (c <? 240) && cont x && cont y)%N with false by lia.
  replace ((240 <=? c) && (c <? 245) && cont x && cont y && cont z)%N with true by (unfold cont; lia).
  reflexivity.
Qed.

Lemma below k x (P : N -> bool) : (x < N.of_nat k)%N -> forallb P (map N.of_nat (seq 0 k)) = true -> P x = true.
Proof.
  intros H F. rewrite forallb_forall in F. apply F. rewrite <- (N2Nat.id x). apply in_map, in_seq. lia.
Qed.
Lemma low_bits c : N.lor 128 (N.land c 63) = (128 + c mod 64)%N.
Proof.
  change 63%N with (N.ones 6). rewrite N.land_ones. change (2 ^ 6)%N with 64%N.
  apply N.eqb_eq. apply (below 64 _ (fun x => N.lor 128 x =? 128 + x)%N); [|reflexivity]. apply N.mod_lt. discriminate.
Qed.
Lemma lead2 x : (x < 32)%N -> N.modulo (N.lor (N.shiftl 255 6) x) 256 = (192 + x)%N.
Proof. intros H. apply N.eqb_eq. now apply (below 32 _ (fun x => N.modulo (N.lor (N.shiftl 255 6) x) 256 =? 192 + x)%N). Qed.
Lemma lead3 x : (x < 16)%N -> N.modulo (N.lor (N.shiftl 255 5) x) 256 = (224 + x)%N.
Proof. intros H. apply N.eqb_eq. now apply (below 16 _ (fun x => N.modulo (N.lor (N.shiftl 255 5) x) 256 =? 224 + x)%N). Qed.
Lemma lead4 x : (x < 8)%N -> N.modulo (N.lor (N.shiftl 255 4) x) 256 = (240 + x)%N.
Proof. intros H. apply N.eqb_eq. now apply (below 8 _ (fun x => N.modulo (N.lor (N.shiftl 255 4) x) 256 =? 240 + x)%N). Qed.
Lemma size_lower c k : (2 ^ N.of_nat k <= c)%N -> k < N.to_nat (N.size c).
Proof.
  intros H. assert (0 < 2 ^ N.of_nat k)%N by (apply N.neq_0_lt_0, N.pow_nonzero; discriminate).
  rewrite N.size_log2 by lia. apply N.log2_le_pow2 in H; lia.
Qed.
Lemma utf8_of_code c : (128 <= c < 1114112)%N -> utf8_text (utf8_of c) [c].
Proof.
  intros H. unfold utf8_text, utf8_of.
  destruct (N.ltb_spec c 2048) as [A|A]; [|destruct (N.ltb_spec c 65536) as [B|B]].
  - assert (7 < N.to_nat (N.size c) <= 11) by (split; [apply size_lower; change (2 ^ N.of_nat 7)%N with 128%N; lia|apply size_bound; exact A]).
    replace ((N.to_nat (N.size c) - 2) / 5) with 1 by lia.
    cbn [seq rev app map length]. change (N.of_nat (7 - 1)) with 6%N. change (6 * N.of_nat 1)%N with 6%N. change (6 * N.of_nat 0)%N with 0%N.
    rewrite N.shiftr_0_r, low_bits, N.shiftr_div_pow2. change (2 ^ 6)%N with 64%N. rewrite lead2 by lia.
    rewrite code_points_two by lia. cbn [code_points option_map]. do 2 f_equal. lia.
  - assert (11 < N.to_nat (N.size c) <= 16) by (split; [apply size_lower; change (2 ^ N.of_nat 11)%N with 2048%N; lia|apply size_bound; exact B]).
    replace ((N.to_nat (N.size c) - 2) / 5) with 2 by lia.
    cbn [seq rev app map length]. change (N.of_nat (7 - 2)) with 5%N. change (6 * N.of_nat 2)%N with 12%N.
    change (6 * N.of_nat 1)%N with 6%N. change (6 * N.of_nat 0)%N with 0%N.
    rewrite N.shiftr_0_r, !low_bits, !N.shiftr_div_pow2. change (2 ^ 6)%N with 64%N. change (2 ^ 12)%N with 4096%N.
    rewrite lead3 by lia. rewrite code_points_three by lia. cbn [code_points option_map]. do 2 f_equal. lia.
  - assert (16 < N.to_nat (N.size c) <= 21) by (split; [apply size_lower; change (2 ^ N.of_nat 16)%N with 65536%N; lia|apply size_bound; change (2 ^ N.of_nat 21)%N with 2097152%N; lia]).
    replace ((N.to_nat (N.size c) - 2) / 5) with 3 by lia.
    cbn [seq rev app map length]. change (N.of_nat (7 - 3)) with 4%N. change (6 * N.of_nat 3)%N with 18%N. change (6 * N.of_nat 2)%N with 12%N.
    change (6 * N.of_nat 1)%N with 6%N. change (6 * N.of_nat 0)%N with 0%N.
    rewrite N.shiftr_0_r, !low_bits, !N.shiftr_div_pow2. change (2 ^ 6)%N with 64%N. change (2 ^ 12)%N with 4096%N. change (2 ^ 18)%N with 262144%N.
    rewrite lead4 by lia. rewrite code_points_four by lia. cbn [code_points option_map]. do 2 f_equal. lia.
Qed.
Lemma char_bytes_code c : (0 < c < 1114112)%N -> utf8_text (char_bytes (Z.of_N c)) [c].
Proof.
  intros H. unfold char_bytes. destruct (Z.ltb_spec (Z.of_N c) 128).
  - replace (Z.to_N (Z.of_N c mod 256)) with c by lia. unfold utf8_text. cbn [length]. now rewrite code_points_low by lia.
  - rewrite N2Z.id. apply utf8_of_code. lia.
Qed.

(** * Numbers *)
Lemma digit_digitval base c : digitval base c = digit base c.
Proof.
  unfold digitval, hexval, digit, isdigit.
  destruct ((48 <=? c) && (c <=? 57))%N eqn:A; [reflexivity|].
  destruct ((97 <=? c) && (c <=? 102))%N eqn:B; [replace (c - 97 + 10)%N with (c - 87)%N by lia; reflexivity|].
  destruct ((65 <=? c) && (c <=? 70))%N eqn:C; [replace (c - 65 + 10)%N with (c - 55)%N by lia; reflexivity|reflexivity].
Qed.
Lemma number_numeral base l r : forall n v, numeral base n l = Some v -> number base n (l ++ 59%N :: r) = (v, 59%N :: r).
Proof.
  induction l as [|c l IH]; intros n v H; cbn [numeral] in H.
  - injection H as ->. cbn [app number]. unfold digitval. reflexivity.
  - cbn [app number]. rewrite digit_digitval. destruct (digit base c) as [d|]; [|discriminate].
    rewrite (N.mul_comm base n). now apply IH.
Qed.
Lemma digit_range base c d : digit base c = Some d -> (48 <= c <= 57 \/ 97 <= c <= 102 \/ 65 <= c <= 70)%N.
Proof.
  unfold digit. destruct ((48 <=? c) && (c <=? 57))%N eqn:A; [lia|].
  destruct ((97 <=? c) && (c <=? 102))%N eqn:B; [lia|]. destruct ((65 <=? c) && (c <=? 70))%N eqn:C; [lia|discriminate].
Qed.
Lemma strtol_numeral base l r v : l <> [] -> numeral base 0 l = Some v -> (v < 2 ^ 63)%N ->
  strtol_end base (l ++ 59%N :: r) = (Z.of_N v, 59%N :: r).
Proof.
  intros Ne H V. destruct l as [|c l]; [congruence|].
  assert (exists d, digit base c = Some d) as [d D] by (cbn [numeral] in H; destruct (digit base c) as [d|]; [now exists d|discriminate]).
  pose proof (digit_range _ _ _ D) as R.
  unfold strtol_end. cbn [app drop_spaces]. replace (isspace c) with false by (unfold isspace; lia).
  replace (c =? 45)%N with false by lia. replace (c =? 43)%N with false by lia. cbv zeta.
  assert ((if ((base =? 16) && (c =? 48))%N
           then match l ++ 59%N :: r with
                | x :: ((d :: _) as q) => if (x =? 120)%N || (x =? 88)%N
                                          then match digitval 16 d with Some _ => q | None => c :: l ++ 59%N :: r end
                                          else c :: l ++ 59%N :: r
                | _ => c :: l ++ 59%N :: r end
           else c :: l ++ 59%N :: r) = c :: l ++ 59%N :: r) as ->.
  { destruct ((base =? 16) && (c =? 48))%N; [|reflexivity].
    destruct l as [|x l]; cbn [app]; [now destruct r|].
    assert (exists e, digit base x = Some e) as [e E].
    { cbn [numeral] in H. rewrite D in H. destruct (digit base x) as [e|]; [now exists e|discriminate]. }
    pose proof (digit_range _ _ _ E). replace ((x =? 120) || (x =? 88))%N with false by lia. now destruct (l ++ 59%N :: r). }
  rewrite digit_digitval, D. change (c :: l ++ 59%N :: r) with ((c :: l) ++ 59%N :: r).
  rewrite (number_numeral _ _ _ _ _ H). f_equal. lia.
Qed.

(** * A reference within a text *)
Lemma decode_plain t m s : plain_text s -> forall fuel out r,
  decode (length s + fuel) t General m out (s ++ r) = decode fuel t General m (out ++ s) r.
Proof.
  induction 1 as [|c s (_ & _ & C) _ IH]; intros fuel out r; [now rewrite app_nil_r|].
  cbn [length plus app]. rewrite decode_raw; [|split; [exact C|right; left; discriminate]].
  rewrite IH. now rewrite <- app_assoc.
Qed.
Lemma decode_end t m out fuel : decode (S fuel) t General m out [] = Ok (Some out).
Proof. reflexivity. Qed.
Lemma plain_no_cr s : plain_text s -> Forall (fun c => c <> 13%N) s.
Proof. intros H. eapply Forall_impl; [|exact H]. cbv beta. tauto. Qed.
Lemma plain_no_nul s : plain_text s -> Forall (fun c => c <> 0%N) s.
Proof. intros H. eapply Forall_impl; [|exact H]. cbv beta. tauto. Qed.

Lemma numeral_digits base l : forall n v, numeral base n l = Some v -> Forall (fun c => c <> 13%N) l.
Proof.
  induction l as [|c l IH]; intros n v H; [constructor|]. cbn in H. destruct (digit base c) eqn:D; [|discriminate].
  apply digit_range in D. constructor; [lia|]. eapply IH, H.
Qed.
Lemma char_bytes_nonzero c : (0 < c < 1114112)%N -> Forall (fun x => x <> 0%N) (char_bytes (Z.of_N c)).
Proof.
  intros H. unfold char_bytes. destruct (Z.ltb_spec (Z.of_N c) 128); [constructor; [lia|constructor]|].
  unfold utf8_of. rewrite N2Z.id.
  pose proof (utf8_of_code c ltac:(lia)) as U. unfold utf8_of, utf8_text in U.
  set (i := (N.to_nat (N.size c) - 2) / 5) in *. constructor.
  - intros E. rewrite E in U. cbn [length] in U. rewrite code_points_low in U by reflexivity.
    destruct (code_points _ _); [|discriminate]. injection U as E0 _. lia.
  - apply Forall_forall. intros x X. apply in_map_iff in X as (j & <- & _). rewrite low_bits. lia.
Qed.
Lemma parse_reference t pre post s c fuel : plain_text pre -> plain_text post -> char_ref s c -> (0 < c < 1114112)%N ->
  length pre + length post + 1 < fuel ->
  ParseEntities fuel t General (pre ++ s ++ post) = Ok (Some (pre ++ char_bytes (Z.of_N c) ++ post)).
Proof.
  intros P Q (l & Ne & R) C F.
  assert (exists u, s = b "&#" ++ u /\ Forall (fun c => c <> 13%N) s /\ forall r,
    match u ++ r with x :: r' => if (x =? 120)%N then strtol_end 16 r' else strtol_end 10 (u ++ r) | [] => (0%Z, []) end = (Z.of_N c, 59%N :: r)) as (u & -> & Fs & U).
  { destruct R as [[-> H]|[-> H]].
    - exists (l ++ [59%N]). split; [reflexivity|]. split.
      { constructor; [discriminate|]. constructor; [discriminate|]. apply Forall_app. split; [eapply numeral_digits, H|repeat constructor; discriminate]. }
      intros r. rewrite <- app_assoc. cbn [app]. destruct l as [|x l]; [congruence|].
      assert (exists d, digit 10 x = Some d) as [d D] by (cbn [numeral] in H; destruct (digit 10 x) as [d|]; [now exists d|discriminate]).
      apply digit_range in D. cbn [app]. destruct (N.eqb_spec x 120); [lia|].
      change (x :: l ++ 59%N :: r) with ((x :: l) ++ 59%N :: r). apply strtol_numeral; [discriminate|assumption|].
      change (2 ^ 63)%N with 9223372036854775808%N. lia.
    - exists (120%N :: l ++ [59%N]). split; [reflexivity|]. split.
      { constructor; [discriminate|]. constructor; [discriminate|]. constructor; [discriminate|]. apply Forall_app. split; [eapply numeral_digits, H|repeat constructor; discriminate]. }
      intros r. cbn [app]. change (120 =? 120)%N with true. cbv iota. rewrite <- app_assoc. apply strtol_numeral; try assumption.
      change (2 ^ 63)%N with 9223372036854775808%N. lia. }
  unfold ParseEntities. rewrite normalize_none.
  2:{ apply Forall_app. split; [now apply plain_no_cr|]. apply Forall_app. split; [assumption|now apply plain_no_cr]. }
  replace fuel with (length pre + S (length post + S (fuel - length pre - length post - 2))) by lia.
  rewrite decode_plain by assumption. rewrite <- (app_assoc (b "&#")).
  assert (to_int (Z.of_N c) = Z.of_N c) as T by (apply to_int_small; change (2 ^ 31)%Z with 2147483648%Z; lia).
  destruct (reference_ok (u ++ post) (Z.of_N c) post (U post)) as [A _]; [lia|].
  rewrite (decode_reference t General false _ _ (u ++ post) (Z.of_N c) post post); [|discriminate|apply U|lia|assumption].
  rewrite T. pose proof (decode_plain t false post Q (S (fuel - length pre - length post - 2)) (([] ++ pre) ++ char_bytes (Z.of_N c)) []) as D.
  rewrite app_nil_r in D. rewrite D, decode_end. cbn [bind option_map app]. rewrite cstr_none; [now rewrite <- app_assoc|].
  apply Forall_app. split; [apply Forall_app; split; [now apply plain_no_nul|now apply char_bytes_nonzero]|now apply plain_no_nul].
Qed.
