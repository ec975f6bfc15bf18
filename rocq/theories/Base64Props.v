(** C48: Base64. *)
From Coq Require Import NArith ZArith Arith List Bool Lia.
From Coq Require Import ZifyBool ZifyNat ZifyN.
From Verif Require Import Base BaseLemmas Outcome CStringModel CStringSpec CStringProps Base64Model Base64Spec.
Import ListNotations.
Ltac Zify.zify_post_hook ::= Z.div_mod_to_equations.

(** ** The alphabet *)
Lemma code_letter v : (v < 64)%N -> code v = letter v.
Proof.
  intros V. assert (H : forallb (fun v => (code v =? letter v)%N) (map N.of_nat (seq 0 64)) = true) by (vm_compute; reflexivity).
  apply (sweep _ _ v) in H; [cbv beta in H; lia|]. cbn. lia.
Qed.
Lemma letter_ok v : (v < 64)%N -> index_of (letter v) Base64 0 = Some v /\ (0 < letter v < 256)%N /\ white (letter v) = false /\ letter v <> 61%N.
Proof.
  intros V. assert (H : forallb (fun v => match index_of (letter v) Base64 0 with Some w => (w =? v)%N | None => false end &&
    ((0 <? letter v) && (letter v <? 256))%N && negb (white (letter v)) && negb (letter v =? 61)%N) (map N.of_nat (seq 0 64)) = true) by (vm_compute; reflexivity).
  apply (sweep _ _ v) in H; [|cbn; lia]. cbv beta in H. apply andb_prop in H as (H & H4). apply andb_prop in H as (H & H3). apply andb_prop in H as (H1 & H2).
  split; [|split; [lia|split; [now destruct (white (letter v))|lia]]].
  destruct (index_of (letter v) Base64 0) as [w|]; [|discriminate]. f_equal. lia.
Qed.
Lemma index_of_some c : forall t i v, index_of c t i = Some v -> (i <= v < i + N.of_nat (length t))%N /\ nth (N.to_nat (v - i)) t 0%N = c.
Proof.
  induction t as [|x t IH]; intros i v H; cbn [index_of] in H; [discriminate|]. cbn [length]. destruct (N.eqb_spec x c) as [->|N].
  - injection H as <-. split; [lia|]. now rewrite N.sub_diag.
  - apply IH in H as (B & E). split; [lia|]. replace (N.to_nat (v - i)) with (S (N.to_nat (v - (i + 1)))) by lia. exact E.
Qed.
Lemma index_letter c v : index_of c Base64 0 = Some v -> (v < 64)%N /\ c = letter v.
Proof.
  intros H. apply index_of_some in H as (B & E). rewrite N.sub_0_r in E. change (0 + N.of_nat (length Base64))%N with 64%N in B.
  split; [lia|]. rewrite <- code_letter by lia. now symmetry.
Qed.
Lemma index_pad : index_of 61 Base64 0 = None. Proof. reflexivity. Qed.

(** ** Encoding *)
Lemma encode_loop_ok d : forall n p s, length p <= n -> bytes p -> 4 * ((length p + 2) / 3) < length d + 1 ->
  exists p0 p1 d', p = p0 ++ p1 /\ length p1 < 3 /\ 4 * (length p0 / 3) + length d' = length d /\ 4 * ((length p1 + 2) / 3) < length d' + 1 /\
   (forall x, encoding (p0 ++ x) = encoding p0 ++ encoding x) /\ bytes p1 /\
   encode_loop p (length s) (s ++ d) = Ok (s ++ encoding p0 ++ d', p1, length s + length (encoding p0)).
Proof.
  revert d. intros d n. revert d. induction n as [|n IH]; intros d p s L B R.
  - destruct p; [|cbn in L; lia]. exists [], [], d. cbn. rewrite Nat.add_0_r. repeat split; try lia; constructor.
  - assert (small : length p < 3 -> encode_loop p (length s) (s ++ d) = Ok (s ++ d, p, length s) -> exists p0 p1 d',
      p = p0 ++ p1 /\ length p1 < 3 /\ 4 * (length p0 / 3) + length d' = length d /\ 4 * ((length p1 + 2) / 3) < length d' + 1 /\
      (forall x, encoding (p0 ++ x) = encoding p0 ++ encoding x) /\ bytes p1 /\
      encode_loop p (length s) (s ++ d) = Ok (s ++ encoding p0 ++ d', p1, length s + length (encoding p0))).
    { intros L3 E. exists [], p, d. cbn [app encoding length]. rewrite Nat.add_0_r. repeat split; try assumption. }
    destruct p as [|a [|b [|c p]]]; [apply small; [cbn; lia|reflexivity]|apply small; [cbn; lia|reflexivity]|apply small; [cbn; lia|reflexivity]|]. clear small.
    inversion B as [|? ? A B1]; subst. inversion B1 as [|? ? BB B2]; subst. inversion B2 as [|? ? C B3]; subst.
    cbn [length] in L, R.
    assert (Q : quad a b c = [letter ((a * 65536 + b * 256 + c) / 262144); letter ((a * 65536 + b * 256 + c) / 4096 mod 64);
                              letter ((a * 65536 + b * 256 + c) / 64 mod 64); letter ((a * 65536 + b * 256 + c) mod 64)]%N).
    { unfold quad. change 3%N with (N.ones 2). change 15%N with (N.ones 4). change 63%N with (N.ones 6). rewrite !N.land_ones, !N.shiftr_div_pow2, !N.shiftl_mul_pow2.
      change (2 ^ 2)%N with 4%N. change (2 ^ 4)%N with 16%N. change (2 ^ 6)%N with 64%N. rewrite !code_letter by lia. repeat apply (f_equal2 cons); try reflexivity; apply f_equal; lia. }
    assert (LD : 4 <= length d) by lia.
    cbn [encode_loop]. replace (s ++ d) with (s ++ firstn 4 d ++ skipn 4 d) by now rewrite firstn_skipn.
    rewrite (write_app s (firstn 4 d) (quad a b c) (skipn 4 d)) by (rewrite firstn_length; cbn [quad length]; lia). cbn [bind].
    destruct (IH (skipn 4 d) p (s ++ quad a b c)) as (p0 & p1 & d' & -> & L1 & LD' & R' & EX & B1' & EQ); [lia|assumption|rewrite skipn_length; lia|].
    exists (a :: b :: c :: p0), p1, d'. split; [reflexivity|]. split; [assumption|]. split; [rewrite skipn_length in LD'; cbn [length]; lia|]. split; [assumption|].
    split; [intros x; cbn [app encoding]; now rewrite EX|]. split; [assumption|].
    rewrite app_length, <- !app_assoc in EQ. change (length (quad a b c)) with 4 in EQ. rewrite EQ. cbn [encoding]. rewrite Q. cbn [app length].
    replace (length s + 4 + length (encoding p0)) with (length s + S (S (S (S (length (encoding p0)))))) by lia. reflexivity.
Qed.

(** C48: the encoding of RFC 4648 with its length, inside the buffer *)
Theorem base64_encode : forall junk b, bytes b ->
  exists r, Base64Encode junk b = Ok (encoding b ++ 0%N :: r, length (encoding b)).
Proof.
  intros junk b B. unfold Base64Encode. set (d := map junk _).
  assert (LD : length d = 4 * length b / 3 + 4) by (unfold d; now rewrite map_length, seq_length).
  destruct (encode_loop_ok d (length b) b [] (le_n _) B ltac:(lia)) as (p0 & p1 & d' & -> & L1 & LD' & R & EX & B1 & EQ).
  cbn [app length Nat.add] in EQ. rewrite EQ. cbn [bind]. rewrite EX. rewrite app_length in LD.
  assert (fin : forall x d1, encoding p0 ++ d' = encoding p0 ++ d1 -> length x < length d1 ->
    exists r, (let* e := mem_write (encoding p0 ++ d1) (length (encoding p0)) x in
               let* e := mem_write e (length (encoding p0) + length x) [0%N] in Ok (e, length (encoding p0) + length x)) =
      Ok ((encoding p0 ++ x) ++ 0%N :: r, length (encoding p0 ++ x))).
  { intros x d1 _ LX. assert (E1 : d1 = firstn (length x) d1 ++ skipn (length x) d1) by now rewrite firstn_skipn.
    rewrite E1. rewrite (write_app (encoding p0) (firstn (length x) d1) x) by (rewrite firstn_length; lia). cbn [bind].
    destruct (skipn (length x) d1) as [|y d2] eqn:E2; [assert (Z : length (skipn (length x) d1) = 0) by (now rewrite E2); rewrite skipn_length in Z; lia|].
    rewrite app_assoc, <- app_length. rewrite write_cons. cbn [bind]. now exists d2. }
  destruct p1 as [|x [|y [|z p1]]]; [| | |cbn in L1; lia].
  - cbn [encode_rest bind encoding]. rewrite app_nil_r. cbn [length] in *. rewrite !Nat.add_0_r in *.
    destruct d' as [|y d2]; [cbn [length] in *; lia|]. rewrite write_cons. cbn [bind]. now exists d2.
  - inversion B1 as [|? ? X _]; subst. cbn [encode_rest encoding].
    replace [code (N.shiftr x 2); code (N.shiftl (N.land x 3) 4 + N.shiftr 0 4); 61%N; 61%N] with (encoding [x]).
    2:{ cbn [encoding]. unfold padding. change 3%N with (N.ones 2). rewrite !N.land_ones, !N.shiftr_div_pow2, !N.shiftl_mul_pow2.
        change (2 ^ 2)%N with 4%N. change (2 ^ 4)%N with 16%N. rewrite !code_letter by lia. repeat apply (f_equal2 cons); try reflexivity; apply f_equal; lia. }
    cbn [length] in *. destruct (fin (encoding [x]) d' eq_refl ltac:(cbn [encoding length]; lia)) as (r & F). exists r. change (length (encoding [x])) with 4 in F.
    cbn [encoding] in F |- *. rewrite <- F. clear F. destruct (mem_write _ _ _) as [e| |]; reflexivity.
  - inversion B1 as [|? ? X B2]; subst. inversion B2 as [|? ? Y _]; subst. cbn [encode_rest encoding].
    replace [code (N.shiftr x 2); code (N.shiftl (N.land x 3) 4 + N.shiftr y 4); code (N.shiftl (N.land y 15) 2 + N.shiftr 0 6); 61%N] with (encoding [x; y]).
    2:{ cbn [encoding]. unfold padding. change 3%N with (N.ones 2). change 15%N with (N.ones 4). rewrite !N.land_ones, !N.shiftr_div_pow2, !N.shiftl_mul_pow2.
        change (2 ^ 2)%N with 4%N. change (2 ^ 4)%N with 16%N. change (2 ^ 6)%N with 64%N. rewrite !code_letter by lia. repeat apply (f_equal2 cons); try reflexivity; apply f_equal; lia. }
    cbn [length] in *. destruct (fin (encoding [x; y]) d' eq_refl ltac:(cbn [encoding length]; lia)) as (r & F). exists r. change (length (encoding [x; y])) with 4 in F.
    cbn [encoding] in F |- *. rewrite <- F. clear F. destruct (mem_write _ _ _) as [e| |]; reflexivity.
Qed.
Print Assumptions base64_encode.
Example base64_encode_ex : exists r, Base64Encode (fun _ => 7%N) [119; 105; 122; 33]%N = Ok ([100; 50; 108; 54; 73; 81; 61; 61; 0]%N ++ r, 8).
Proof. eexists. vm_compute. reflexivity. Qed.

(** ** Decoding *)
Definition ix (c : N) : option N := index_of c Base64 0.
(** the decoder on text without white space, four characters at a time *)
Fixpoint sd (f : list N) : option (list N) :=
  match f with
  | [] => Some []
  | c0 :: c1 :: c2 :: c3 :: t =>
      match ix c0, ix c1 with
      | Some v0, Some v1 =>
          if (c2 =? 61) && (c3 =? 61) then
            match t with [] => if v1 mod 16 =? 0 then Some [v0 * 4 + v1 / 16] else None | _ => None end
          else
            match ix c2 with
            | Some v2 =>
                if c3 =? 61 then
                  match t with [] => if v2 mod 4 =? 0 then Some [v0 * 4 + v1 / 16; v1 mod 16 * 16 + v2 / 4] else None | _ => None end
                else
                  match ix c3 with
                  | Some v3 =>
                      match sd t with
                      | Some x => Some (v0 * 4 + v1 / 16 :: v1 mod 16 * 16 + v2 / 4 :: v2 mod 4 * 64 + v3 :: x)
                      | None => None
                      end
                  | None => None
                  end
            | None => None
            end
      | _, _ => None
      end
  | _ => None
  end%N.

Lemma sd_encoding : forall n x, length x <= n -> bytes x -> sd (encoding x) = Some x.
Proof.
  induction n as [|n IH]; intros x L B; [destruct x; [reflexivity|cbn in L; lia]|].
  destruct x as [|a [|b [|c x]]]; [reflexivity| | |].
  - inversion B as [|? ? A _]; subst. cbn [encoding sd]. unfold ix, padding.
    rewrite !(fun v V => proj1 (letter_ok v V)) by lia. change ((61 =? 61)%N && (61 =? 61)%N) with true. cbv iota.
    replace (_ =? 0)%N with true by lia. do 2 f_equal. lia.
  - inversion B as [|? ? A B1]; subst. inversion B1 as [|? ? BB _]; subst. cbn [encoding sd]. unfold ix, padding.
    rewrite !(fun v V => proj1 (letter_ok v V)) by lia.
    destruct (N.eqb_spec (letter ((a * 65536 + b * 256) / 64 mod 64)) 61) as [E|_]; [apply letter_ok in E; [contradiction|lia]|].
    cbn [andb]. change (61 =? 61)%N with true. cbv iota. replace (_ =? 0)%N with true by lia. f_equal. f_equal; [lia|]. f_equal. lia.
  - inversion B as [|? ? A B1]; subst. inversion B1 as [|? ? BB B2]; subst. inversion B2 as [|? ? C B3]; subst. cbn [encoding sd]. unfold ix.
    rewrite !(fun v V => proj1 (letter_ok v V)) by lia.
    destruct (N.eqb_spec (letter ((a * 65536 + b * 256 + c) / 64 mod 64)) 61) as [E|_]; [apply letter_ok in E; [contradiction|lia]|].
    destruct (N.eqb_spec (letter ((a * 65536 + b * 256 + c) mod 64)) 61) as [E|_]; [apply letter_ok in E; [contradiction|lia]|].
    cbn [andb]. rewrite IH by (try assumption; cbn [length] in L; lia). f_equal. f_equal; [lia|]. f_equal; [lia|]. f_equal; lia.
Qed.
Lemma encoding_sd : forall n f x, length f <= n -> sd f = Some x -> bytes x /\ encoding x = f.
Proof.
  induction n as [|n IH]; intros f x L H.
  { destruct f; [|cbn in L; lia]. injection H as <-. split; [constructor|reflexivity]. }
  destruct f as [|c0 [|c1 [|c2 [|c3 t]]]]; try discriminate; [injection H as <-; split; [constructor|reflexivity]|]. cbn [sd length] in *.
  destruct (ix c0) as [v0|] eqn:E0; [|discriminate]. destruct (ix c1) as [v1|] eqn:E1; [|discriminate].
  apply index_letter in E0 as (V0 & ->). apply index_letter in E1 as (V1 & ->).
  destruct ((c2 =? 61) && (c3 =? 61))%N eqn:P.
  - destruct t; [|discriminate]. destruct (N.eqb_spec (v1 mod 16) 0) as [Z|]; [|discriminate]. injection H as <-. split; [repeat constructor; lia|].
    cbn [encoding]. unfold padding. assert (C : (c2 = 61 /\ c3 = 61)%N) by lia. destruct C as (-> & ->). f_equal; [f_equal; lia|]. f_equal. f_equal. lia.
  - destruct (ix c2) as [v2|] eqn:E2; [|discriminate]. apply index_letter in E2 as (V2 & ->).
    destruct (N.eqb_spec c3 61) as [->|N3].
    + destruct t; [|discriminate]. destruct (N.eqb_spec (v2 mod 4) 0) as [Z|]; [|discriminate]. injection H as <-. split; [repeat constructor; lia|].
      cbn [encoding]. unfold padding. f_equal; [f_equal; lia|]. f_equal; [f_equal; lia|]. f_equal. f_equal. lia.
    + destruct (ix c3) as [v3|] eqn:E3; [|discriminate]. apply index_letter in E3 as (V3 & ->).
      destruct (sd t) as [y|] eqn:S; [|discriminate]. injection H as <-. destruct (IH t y ltac:(lia) S) as (B & <-).
      split; [repeat (constructor; [lia|]); exact B|]. cbn [encoding].
      f_equal; [f_equal; lia|]. f_equal; [f_equal; lia|]. f_equal; [f_equal; lia|]. f_equal. f_equal. lia.
Qed.

Lemma white_eq c : isspace c = white c.
Proof. unfold isspace, white. cbn [existsb]. lia. Qed.
Definition dense (s : list N) : list N := filter (fun c => negb (white c)) s.
Lemma peel r s : text s ->
  (dense s = [] /\ (forall i st d, decode_loop (s ++ 0%N :: r) i st d = decode_loop (0%N :: r) i st d) /\ skip_space (s ++ 0%N :: r) = Ok (0%N :: r)) \/
  exists c s', dense s = c :: dense s' /\ text s' /\ (0 < c < 256)%N /\ white c = false /\
    (forall i st d, decode_loop (s ++ 0%N :: r) i st d = decode_loop (c :: s' ++ 0%N :: r) i st d) /\ skip_space (s ++ 0%N :: r) = Ok (c :: s' ++ 0%N :: r).
Proof.
  induction s as [|c s IH]; intros T; [left; repeat split|]. apply text_cons in T as (C & T). cbn [dense filter]. destruct (white c) eqn:W; cbn [negb].
  - assert (D : forall i st d, decode_loop ((c :: s) ++ 0%N :: r) i st d = decode_loop (s ++ 0%N :: r) i st d).
    { intros. cbn [app decode_loop]. destruct (N.eqb_spec c 0); [lia|]. now rewrite white_eq, W. }
    assert (K : skip_space ((c :: s) ++ 0%N :: r) = skip_space (s ++ 0%N :: r)).
    { cbn [app skip_space]. destruct (N.eqb_spec c 0); [lia|]. now rewrite white_eq, W. }
    destruct (IH T) as [(A & B & E)|(c' & s' & A & TS & C' & W' & B & E)]; [left|right].
    + split; [exact A|]. split; [intros; rewrite D; apply B|]. now rewrite K.
    + exists c', s'. repeat split; try assumption; try lia; [intros; rewrite D; apply B|now rewrite K].
  - right. exists c, s. repeat split; try assumption; try lia. cbn [app skip_space]. destruct (N.eqb_spec c 0); [lia|]. now rewrite white_eq, W.
Qed.

(** one character in each state *)
Section Step.
Variables (c : N) (t : list N).
Hypothesis (C : (0 < c < 256)%N) (W : white c = false) (P : c <> 61%N).
Lemma step_none i st d : ix c = None -> decode_loop (c :: t) i st d = Ok None.
Proof using C W P.
  intros H. cbn [decode_loop]. destruct (N.eqb_spec c 0); [lia|]. rewrite white_eq, W. destruct (N.eqb_spec c 61); [contradiction|].
  unfold ix in H. now rewrite H.
Qed.
Lemma rd_nth b x d : rd (b ++ x :: d) (length b) = Ok x. Proof. apply rd_app. Qed.
Lemma step0 b x d v : ix c = Some v -> decode_loop (c :: t) (length b) 0 (b ++ x :: d) = decode_loop t (length b) 1 (b ++ (v * 4)%N :: d).
Proof using C W P.
  intros H. cbn [decode_loop]. destruct (N.eqb_spec c 0); [lia|]. rewrite white_eq, W. destruct (N.eqb_spec c 61); [contradiction|].
  unfold ix in H. rewrite H. rewrite write_cons. cbn [bind]. apply index_letter in H as (V & _). unfold wshl, wrap. rewrite N.shiftl_mul_pow2.
  change (2 ^ 2)%N with 4%N. change (2 ^ 8)%N with 256%N. rewrite N.mod_small by lia. reflexivity.
Qed.
Lemma lor_low a b k : (b < 2 ^ k)%N -> N.lor (a * 2 ^ k) b = (a * 2 ^ k + b)%N.
Proof.
  intros B. rewrite <- N.shiftl_mul_pow2. rewrite <- N.lxor_lor, N.add_nocarry_lxor; [reflexivity| |];
    (apply N.bits_inj; intros n; rewrite N.land_spec, N.bits_0; destruct (N.lt_ge_cases n k);
     [rewrite N.shiftl_spec_low by assumption; reflexivity|]; rewrite (testbit_high k b) by assumption; apply andb_false_r).
Qed.
Lemma step_or b p v w x d : mem_or (b ++ p :: x :: d) (length b) v = Ok (b ++ N.lor p v :: x :: d) /\
  forall k : list N -> outcome (option (list N * nat * nat * list N)),
  (let* e := mem_write (b ++ N.lor p v :: x :: d) (length b + 1) [w] in k e) = k (b ++ [N.lor p v] ++ w :: d).
Proof.
  split.
  - unfold mem_or. rewrite rd_app. cbn [bind]. now rewrite write_cons.
  - intros k. replace (b ++ N.lor p v :: x :: d) with ((b ++ [N.lor p v]) ++ x :: d) by (rewrite <- app_assoc; reflexivity).
    replace (length b + 1) with (length (b ++ [N.lor p v])) by (rewrite app_length; reflexivity). rewrite write_cons. cbn [bind]. now rewrite <- app_assoc.
Qed.
Lemma step1 b u x d v : ix c = Some v -> (u < 64)%N ->
  decode_loop (c :: t) (length b) 1 (b ++ (u * 4)%N :: x :: d) = decode_loop t (length b + 1) 2 (b ++ [(u * 4 + v / 16)%N] ++ (v mod 16 * 16)%N :: d).
Proof using C W P.
  intros H U. cbn [decode_loop]. destruct (N.eqb_spec c 0); [lia|]. rewrite white_eq, W. destruct (N.eqb_spec c 61); [contradiction|].
  unfold ix in H. rewrite H. apply index_letter in H as (V & _).
  destruct (step_or b (u * 4) (N.shiftr v 4) (wshl 8 (N.land v 15) 4) x d) as (E & K). rewrite E. cbn [bind]. rewrite K.
  rewrite N.shiftr_div_pow2. change 15%N with (N.ones 4). rewrite N.land_ones. unfold wshl, wrap. rewrite N.shiftl_mul_pow2.
  change (u * 4)%N with (u * 2 ^ 2)%N. rewrite lor_low by (change (2 ^ 4)%N with 16%N; change (2 ^ 2)%N with 4%N; lia).
  change (2 ^ 2)%N with 4%N. change (2 ^ 4)%N with 16%N. change (2 ^ 8)%N with 256%N. rewrite N.mod_small by lia. reflexivity.
Qed.
Lemma step2 b u x d v : ix c = Some v -> (u < 16)%N ->
  decode_loop (c :: t) (length b) 2 (b ++ (u * 16)%N :: x :: d) = decode_loop t (length b + 1) 3 (b ++ [(u * 16 + v / 4)%N] ++ (v mod 4 * 64)%N :: d).
Proof using C W P.
  intros H U. cbn [decode_loop]. destruct (N.eqb_spec c 0); [lia|]. rewrite white_eq, W. destruct (N.eqb_spec c 61); [contradiction|].
  unfold ix in H. rewrite H. apply index_letter in H as (V & _).
  destruct (step_or b (u * 16) (N.shiftr v 2) (wshl 8 (N.land v 3) 6) x d) as (E & K). rewrite E. cbn [bind]. rewrite K.
  rewrite N.shiftr_div_pow2. change 3%N with (N.ones 2). rewrite N.land_ones. unfold wshl, wrap. rewrite N.shiftl_mul_pow2.
  change (u * 16)%N with (u * 2 ^ 4)%N. rewrite lor_low by (change (2 ^ 4)%N with 16%N; change (2 ^ 2)%N with 4%N; lia).
  change (2 ^ 2)%N with 4%N. change (2 ^ 6)%N with 64%N. change (2 ^ 8)%N with 256%N. change (2 ^ 4)%N with 16%N. rewrite N.mod_small by lia. reflexivity.
Qed.
Lemma step3 b u d v : ix c = Some v -> (u < 4)%N ->
  decode_loop (c :: t) (length b) 3 (b ++ (u * 64)%N :: d) = decode_loop t (length b + 1) 0 (b ++ [(u * 64 + v)%N] ++ d).
Proof using C W P.
  intros H U. cbn [decode_loop]. destruct (N.eqb_spec c 0); [lia|]. rewrite white_eq, W. destruct (N.eqb_spec c 61); [contradiction|].
  unfold ix in H. rewrite H. apply index_letter in H as (V & _). unfold mem_or. rewrite rd_app. cbn [bind]. rewrite write_cons. cbn [bind].
  change (u * 64)%N with (u * 2 ^ 6)%N. rewrite lor_low by (change (2 ^ 6)%N with 64%N; lia). change (2 ^ 6)%N with 64%N. reflexivity.
Qed.
End Step.
Lemma pad_stop t i st d : decode_loop (61%N :: t) i st d = Ok (Some (61%N :: t, i, st, d)).
Proof. reflexivity. Qed.
Lemma tail_ok r s i d x : text s -> rd d i = Ok x -> decode_tail (s ++ 0%N :: r) i d = Ok (match dense s with [] => N.eqb x 0 | _ => false end).
Proof.
  intros T R. unfold decode_tail. destruct (peel r s T) as [(-> & _ & ->)|(c & s' & -> & _ & C & _ & _ & ->)]; cbn [bind rd nth_error].
  - cbn [N.eqb negb]. rewrite R. reflexivity.
  - destruct (N.eqb_spec c 0); [lia|]. reflexivity.
Qed.
Lemma decode_main r : forall n s b d, length (dense s) <= n -> text s -> (length (dense s) + 3) / 4 * 3 <= length d ->
  match sd (dense s) with
  | Some x => exists e, (let* q := decode_loop (s ++ 0%N :: r) (length b) 0 (b ++ d) in decode_end q) = Ok (Some (b ++ x ++ e, length b + length x))
  | None => (let* q := decode_loop (s ++ 0%N :: r) (length b) 0 (b ++ d) in decode_end q) = Ok None
  end.
Proof.
  induction n as [|n IH]; intros s b d L T R.
  - destruct (peel r s T) as [(E & D & _)|(c & s' & E & _)]; rewrite E in *; [|cbn in L; lia]. cbn [sd]. exists d. rewrite D. cbn. now rewrite Nat.add_0_r.
  - destruct (peel r s T) as [(E & D & _)|(c0 & s0 & E & T0 & C0 & W0 & D0 & _)]; rewrite E in *.
    { cbn [sd]. exists d. rewrite D. cbn. now rewrite Nat.add_0_r. }
    rewrite D0. clear D0. cbn [length] in L, R. destruct d as [|x0 [|x1 [|x2 d]]]; [cbn [length] in R; lia|cbn [length] in R; lia|cbn [length] in R; lia|].
    destruct (N.eq_dec c0 61) as [->|P0].
    { replace (sd (61%N :: dense s0)) with (@None (list N)) by (cbn [sd]; destruct (dense s0) as [|? [|? [|? ?]]]; reflexivity). rewrite pad_stop. reflexivity. }
    destruct (ix c0) as [v0|] eqn:E0.
    2:{ replace (sd (c0 :: dense s0)) with (@None (list N)) by (cbn [sd]; rewrite E0; destruct (dense s0) as [|? [|? [|? ?]]]; reflexivity).
        rewrite step_none by assumption. reflexivity. }
    assert (V0 := proj1 (index_letter _ _ E0)). rewrite (step0 c0 _ C0 W0 P0 b x0 _ v0 E0).
    (* the second character *)
    destruct (peel r s0 T0) as [(E1 & D1 & _)|(c1 & s1 & E1 & T1 & C1 & W1 & D1 & _)]; rewrite E1 in *.
    { rewrite D1. reflexivity. }
    rewrite D1. clear D1. destruct (N.eq_dec c1 61) as [->|P1].
    { replace (sd (c0 :: 61%N :: dense s1)) with (@None (list N)) by (cbn [sd]; rewrite E0; destruct (dense s1) as [|? [|? ?]]; reflexivity).
      rewrite pad_stop. reflexivity. }
    destruct (ix c1) as [v1|] eqn:I1.
    2:{ replace (sd (c0 :: c1 :: dense s1)) with (@None (list N)) by (cbn [sd]; rewrite E0, I1; destruct (dense s1) as [|? [|? ?]]; reflexivity).
        rewrite step_none by assumption. reflexivity. }
    assert (V1 := proj1 (index_letter _ _ I1)). rewrite (step1 c1 _ C1 W1 P1 b v0 x1 _ v1 I1 V0).
    (* the third *)
    destruct (peel r s1 T1) as [(E2 & D2 & _)|(c2 & s2 & E2 & T2 & C2 & W2 & D2 & _)]; rewrite E2 in *.
    { rewrite D2. reflexivity. }
    rewrite D2. clear D2.
    assert (R2 : rd (b ++ [(v0 * 4 + v1 / 16)%N] ++ (v1 mod 16 * 16)%N :: x2 :: d) (length b + 1) = Ok (v1 mod 16 * 16)%N).
    { rewrite app_assoc. replace (length b + 1) with (length (b ++ [(v0 * 4 + v1 / 16)%N])) by (rewrite app_length; reflexivity). apply rd_app. }
    destruct (N.eq_dec c2 61) as [->|P2].
    { rewrite pad_stop. cbn [bind decode_end rd nth_error]. change (negb (61 =? 61)%N) with false. cbv iota. cbn [tl].
      destruct (peel r s2 T2) as [(E3 & _ & K3)|(c3 & s3 & E3 & T3 & C3 & W3 & _ & K3)]; rewrite E3, K3; cbn [bind rd nth_error].
      { reflexivity. }
      destruct (N.eqb_spec c3 61) as [->|P3]; cbn [negb].
      - cbn [tl]. rewrite (tail_ok r s3 _ _ _ T3 R2). cbn [bind sd]. rewrite E0, I1. change ((61 =? 61)%N && (61 =? 61)%N) with true. cbv iota.
        destruct (dense s3); [|reflexivity]. destruct (N.eqb_spec (v1 mod 16) 0) as [Z|Z].
        + exists ((v1 mod 16 * 16)%N :: x2 :: d). rewrite Z. reflexivity.
        + destruct (N.eqb_spec (v1 mod 16 * 16) 0); [lia|]. reflexivity.
      - cbn [sd]. rewrite E0, I1. change (61 =? 61)%N with true. destruct (N.eqb_spec c3 61); [contradiction|]. cbn [andb].
        change (ix 61) with (@None N). reflexivity. }
    destruct (ix c2) as [v2|] eqn:I2.
    2:{ replace (sd (c0 :: c1 :: c2 :: dense s2)) with (@None (list N)).
        2:{ cbn [sd]. rewrite E0, I1. destruct (dense s2) as [|? ?]; [reflexivity|]. destruct (N.eqb_spec c2 61); [contradiction|]. cbn [andb]. now rewrite I2. }
        rewrite step_none by assumption. reflexivity. }
    assert (V2 := proj1 (index_letter _ _ I2)). rewrite app_assoc.
    replace (length b + 1) with (length (b ++ [(v0 * 4 + v1 / 16)%N])) by (rewrite app_length; reflexivity).
    rewrite (step2 c2 _ C2 W2 P2 _ (v1 mod 16) x2 d v2 I2 ltac:(lia)). set (b1 := b ++ [(v0 * 4 + v1 / 16)%N]).
    (* the fourth *)
    destruct (peel r s2 T2) as [(E3 & D3 & _)|(c3 & s3 & E3 & T3 & C3 & W3 & D3 & _)]; rewrite E3 in *.
    { rewrite D3. reflexivity. }
    rewrite D3. clear D3.
    assert (R3 : rd (b1 ++ [(v1 mod 16 * 16 + v2 / 4)%N] ++ (v2 mod 4 * 64)%N :: d) (length b1 + 1) = Ok (v2 mod 4 * 64)%N).
    { rewrite app_assoc. replace (length b1 + 1) with (length (b1 ++ [(v1 mod 16 * 16 + v2 / 4)%N])) by (rewrite app_length; reflexivity). apply rd_app. }
    cbn [sd]. rewrite E0, I1, I2. destruct (N.eqb_spec c2 61); [contradiction|]. cbn [andb].
    destruct (N.eqb_spec c3 61) as [->|P3].
    { rewrite pad_stop. cbn [bind decode_end rd nth_error]. change (negb (61 =? 61)%N) with false. cbv iota. cbn [tl].
      rewrite (tail_ok r s3 _ _ _ T3 R3). cbn [bind]. destruct (dense s3); [|reflexivity]. destruct (N.eqb_spec (v2 mod 4) 0) as [Z|Z].
      - exists ((v2 mod 4 * 64)%N :: d). rewrite Z. change (0 * 64 =? 0)%N with true. cbv iota. unfold b1. rewrite <- !app_assoc, app_length. cbn [app length].
        replace (length b + 1 + 1) with (length b + 2) by lia. reflexivity.
      - destruct (N.eqb_spec (v2 mod 4 * 64) 0); [lia|]. reflexivity. }
    destruct (ix c3) as [v3|] eqn:I3; [|rewrite step_none by assumption; reflexivity].
    rewrite app_assoc. replace (length b1 + 1) with (length (b1 ++ [(v1 mod 16 * 16 + v2 / 4)%N])) by (rewrite app_length; reflexivity).
    rewrite (step3 c3 _ C3 W3 P3 _ (v2 mod 4) d v3 I3 ltac:(lia)).
    set (b2 := b1 ++ [(v1 mod 16 * 16 + v2 / 4)%N]). rewrite app_assoc. set (b3 := b2 ++ [(v2 mod 4 * 64 + v3)%N]).
    replace (length b2 + 1) with (length b3) by (unfold b3; rewrite app_length; reflexivity).
    assert (L3 : length (dense s3) <= n) by (cbn [length] in L; lia).
    assert (R3' : (length (dense s3) + 3) / 4 * 3 <= length d) by (cbn [length] in R; lia).
    specialize (IH s3 b3 d L3 T3 R3'). destruct (sd (dense s3)) as [x|]; [|exact IH]. destruct IH as (e & IH). exists e. rewrite IH.
    unfold b3, b2, b1. rewrite <- !app_assoc, !app_length. cbn [app length]. do 3 f_equal. lia.
Qed.

(** C48: Base64Decode reads and writes only the text and its buffer, and accepts exactly
    the encodings, with white space anywhere *)
Theorem base64_decode : forall junk s r, text s -> s <> [] ->
  exists o, Base64Decode junk (s ++ 0%N :: r) = Ok o /\
    forall b, (exists e, o = Some (b ++ e, length b)) <-> bytes b /\ encoding b = filter (fun c => negb (white c)) s.
Proof.
  intros junk s r T NE. unfold Base64Decode. rewrite strlen_text by assumption. cbn [bind].
  assert (LS : 0 < length s) by (destruct s; [contradiction|cbn; lia]).
  destruct (Nat.eqb_spec ((length s + 3) / 4) 0); [lia|].
  assert (LF : length (dense s) <= length s) by (unfold dense; clear; induction s as [|c s IH]; [cbn; lia|]; cbn [filter]; destruct (negb (white c)); cbn [length]; lia).
  set (d := map junk _). assert (LD : length d = (length s + 3) / 4 * 3) by (unfold d; now rewrite map_length, seq_length).
  pose proof (decode_main r (length (dense s)) s [] d (le_n _) T ltac:(lia)) as M. cbn [app length] in M.
  change (filter (fun c => negb (white c)) s) with (dense s).
  destruct (sd (dense s)) as [x|] eqn:S.
  - destruct M as (e & M). exists (Some (x ++ e, length x)). split; [exact M|]. destruct (encoding_sd _ _ _ (le_n _) S) as (BX & EX). intros b. split.
    + intros (e' & E). injection E as E1 E2. assert (b = x); [|now subst b].
      transitivity (firstn (length b) (b ++ e')); [now rewrite firstn_app, Nat.sub_diag, firstn_all, app_nil_r|].
      rewrite <- E1, <- E2. now rewrite firstn_app, Nat.sub_diag, firstn_all, app_nil_r.
    + intros (B & E). exists e. rewrite <- E in S. rewrite (sd_encoding _ b (le_n _) B) in S. now injection S as ->.
  - exists None. split; [exact M|]. intros b. split; [intros (e & E); discriminate|]. intros (B & E). rewrite <- E in S.
    rewrite (sd_encoding _ b (le_n _) B) in S. discriminate.
Qed.
Print Assumptions base64_decode.
(** d2l 6IQ== *)
Example base64_decode_ex : exists e, Base64Decode (fun _ => 7%N) [100; 50; 108; 32; 54; 73; 81; 61; 61; 10; 0]%N = Ok (Some ([119; 105; 122; 33]%N ++ e, 4)).
Proof. eexists. vm_compute. reflexivity. Qed.

Lemma encoding_text : forall n b, length b <= n -> bytes b -> text (encoding b) /\ dense (encoding b) = encoding b.
Proof.
  assert (W61 : white padding = false) by reflexivity.
  assert (LL : forall v t, (v < 64)%N -> text t /\ dense t = t -> text (letter v :: t) /\ dense (letter v :: t) = letter v :: t).
  { intros v t V (T & D). destruct (letter_ok v V) as (_ & B & W & _). split; [now apply text_cons|]. cbn [dense filter]. rewrite W. cbn [negb]. unfold dense in D. now rewrite D. }
  assert (LP : forall t, text t /\ dense t = t -> text (padding :: t) /\ dense (padding :: t) = padding :: t).
  { intros t (T & D). split; [apply text_cons; split; [unfold padding; lia|exact T]|]. cbn [dense filter]. rewrite W61. cbn [negb]. unfold dense in D. now rewrite D. }
  induction n as [|n IH]; intros b L B.
  { destruct b; [|cbn in L; lia]. split; [constructor|reflexivity]. }
  destruct b as [|x [|y [|z b]]]; [split; [constructor|reflexivity]| | |]; cbn [encoding].
  - inversion B as [|? ? X _]; subst. apply LL; [lia|]. apply LL; [lia|]. apply LP, LP. split; [constructor|reflexivity].
  - inversion B as [|? ? X B1]; subst. inversion B1 as [|? ? Y _]; subst. apply LL; [lia|]. apply LL; [lia|]. apply LL; [lia|]. apply LP. split; [constructor|reflexivity].
  - inversion B as [|? ? X B1]; subst. inversion B1 as [|? ? Y B2]; subst. inversion B2 as [|? ? Z B3]; subst.
    apply LL; [lia|]. apply LL; [lia|]. apply LL; [lia|]. apply LL; [lia|]. apply IH; [cbn [length] in L; lia|exact B3].
Qed.
(** C48: the round trip *)
Theorem base64_round_trip : forall junk junk' b, bytes b -> b <> [] ->
  exists s n, Base64Encode junk b = Ok (s, n) /\ exists e, Base64Decode junk' s = Ok (Some (b ++ e, length b)).
Proof.
  intros junk junk' b B NE. destruct (base64_encode junk b B) as (r & E). exists (encoding b ++ 0%N :: r), (length (encoding b)). split; [exact E|].
  destruct (encoding_text _ b (le_n _) B) as (T & D).
  assert (NZ : encoding b <> []) by (destruct b as [|x [|y [|z b]]]; [contradiction|discriminate|discriminate|discriminate]).
  destruct (base64_decode junk' (encoding b) r T NZ) as (o & EO & H). rewrite EO. destruct (proj2 (H b)) as (e & ->); [|now exists e].
  split; [exact B|]. symmetry. exact D.
Qed.
Print Assumptions base64_round_trip.
