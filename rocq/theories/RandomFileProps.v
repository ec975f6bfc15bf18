(** Properties of the reservoir file of wizard/random.c: C28, C70. *)
From Coq Require Import NArith Arith List Lia Bool ZifyBool ZifyNat ZifyN.
From Verif Require Import Base BaseLemmas Mem32 HashModel HashProps HmacModel HmacProps FileModel FileProps ReadLemmas HashProof Crc64Model Crc64Spec Crc64Props MdProof RandomModel RandomProof RandomProps.
Import ListNotations.

Local Opaque GetWizardMagick GetStringInfoCRC.

Section Run.
Variables (fuel : nat) (lsb : bool) (junk : list N).
Notation M := (GetWizardMagick fuel lsb junk WizardMagick).
Notation F := (GetWizardMagick fuel lsb junk RandomFiletype).

Definition is_1_0 (major minor : N) : bool := ((major =? 1) && (minor =? 0))%N.

(** the layout of a reservoir file: version 1.0 has no timestamp *)
Definition layout (major minor timestamp : N) (e : list N) (crc : N) : list N :=
  M ++ F ++ le_bytes 2 major ++ le_bytes 2 minor ++ (if is_1_0 major minor then [] else le_bytes 8 timestamp) ++
  le_bytes 4 (N.of_nat (length e)) ++ e ++ le_bytes 8 crc.

Definition same (a b : list N) : bool := if list_eq_dec N.eq_dec a b then true else false.
Definition body (s : list N) : option (list N) :=
  match take 4 s with
  | None => None
  | Some (len, s) =>
      match take (N.to_nat (le_val len)) s with
      | None => None
      | Some (e, s) =>
          match take 8 s with
          | None => None
          | Some (crc, _) => if (le_val crc =? GetStringInfoCRC junk e)%N then Some e else None
          end
      end
  end.
Definition parse (s : list N) : option (list N * N * N) :=
  match take (length M) s with
  | None => None
  | Some (m, s) =>
      if same m M then
        match take (length F) s with
        | None => None
        | Some (m, s) =>
            if same m F then
              match take 2 s with
              | None => None
              | Some (major, s) =>
                  match take 2 s with
                  | None => None
                  | Some (minor, s) =>
                      option_map (fun e => (e, le_val major, le_val minor))
                        (if is_1_0 (le_val major) (le_val minor) then body s
                         else match take 8 s with None => None | Some (_, s) => body s end)
                  end
              end
            else None
        end
      else None
  end.

(** what GetEntropyFromReservoir computes *)
Lemma get_parse r B stale : bytes B ->
  match parse B with
  | Some (e, major, minor) => exists r', GetEntropyFromReservoir fuel lsb junk r B stale = (Some e, r') /\
      r_protocol_major r' = major /\ r_protocol_minor r' = minor /\ r_hmac r' = r_hmac r /\
      (is_1_0 major minor = true -> r_timestamp r' = r_timestamp r)
  | None => fst (GetEntropyFromReservoir fuel lsb junk r B stale) = None
  end.
Proof.
  intros Bb. unfold parse, GetEntropyFromReservoir. set (m := M). set (ft := F).
  pose proof (read_chunk_at (mkFile B 0) B (length m) eq_refl) as R.
  destruct (take (length m) B) as [[x s]|] eqn:T; [|destruct R as (x & f' & ->); reflexivity].
  destruct R as (f1 & -> & A1). destruct (take_bytes _ _ _ _ Bb T) as [_ B1]. clear T. cbn [negb orb].
  unfold same at 1. destruct (list_eq_dec N.eq_dec x m) as [_|_]; cbn [negb]; [|reflexivity].
  pose proof (read_chunk_at f1 s (length ft) A1) as R.
  destruct (take (length ft) s) as [[x2 s2]|] eqn:T; [|destruct R as (x2 & f' & ->); reflexivity].
  destruct R as (f2 & -> & A2). destruct (take_bytes _ _ _ _ B1 T) as [_ B2]. clear T. cbn [negb orb].
  unfold same at 1. destruct (list_eq_dec N.eq_dec x2 ft) as [_|_]; cbn [negb]; [|reflexivity].
  pose proof (read_value_at 2 value16 f2 s2 (r_protocol_major r) A2 value16_spec B2) as R. unfold ReadFile16Bits.
  destruct (take 2 s2) as [[mj s3]|] eqn:T.
  2:{ destruct R as (v & f' & ->). destruct (read_value 2 value16 f' _) as [[? ?] ?].
      destruct (if _ || _ then _ else _) as [[? ?] ?]. destruct (ReadFile32Bits _ _) as [[? ?] ?]. reflexivity. }
  destruct R as (f3 & -> & A3). destruct (take_bytes _ _ _ _ B2 T) as [_ B3]. clear T.
  pose proof (read_value_at 2 value16 f3 s3 (r_protocol_minor r) A3 value16_spec B3) as R.
  destruct (take 2 s3) as [[mn s4]|] eqn:T.
  2:{ destruct R as (v & f' & ->). 
      destruct (if _ || _ then _ else _) as [[? ?] ?]. destruct (ReadFile32Bits _ _) as [[? ?] ?]. reflexivity. }
  destruct R as (f4 & -> & A4). destruct (take_bytes _ _ _ _ B3 T) as [_ B4]. clear T.
  set (major := le_val mj). set (minor := le_val mn).
  (* the part after the timestamp *)
  assert (Body : forall ts f s, at_ f s -> bytes s ->
    let g := (let r' := mkRandomInfo (r_hmac r) (r_nonce r) (r_reservoir r) (r_i r) (r_seed r) major minor ts in
      let '(s4, len, f) := ReadFile32Bits f stale in
      if negb (true && true && true && s4) then (None, r')
      else
        let '(s5, entropy, f) := read_chunk f (N.to_nat len) in
        let '(s6, crc, f) := ReadFile64Bits f 0%N in
        if negb (s5 && s6) || negb (crc =? GetStringInfoCRC junk entropy)%N then (None, r')
        else (Some entropy, r')) in
    match body s with
    | Some e => g = (Some e, mkRandomInfo (r_hmac r) (r_nonce r) (r_reservoir r) (r_i r) (r_seed r) major minor ts)
    | None => fst g = None
    end).
  { clear - junk. intros ts f s A Bs. cbv zeta. unfold body.
    pose proof (read_value_at 4 value32 f s stale A value32_spec Bs) as R. unfold ReadFile32Bits.
    destruct (take 4 s) as [[ln s5]|] eqn:T; [|destruct R as (v & f' & ->); reflexivity].
    destruct R as (f5 & -> & A5). destruct (take_bytes _ _ _ _ Bs T) as [_ B5]. clear T. cbn [andb negb].
    pose proof (read_chunk_at f5 s5 (N.to_nat (le_val ln)) A5) as R.
    destruct (take (N.to_nat (le_val ln)) s5) as [[e s6]|] eqn:T.
    2:{ destruct R as (v & f' & ->). destruct (ReadFile64Bits _ _) as [[? ?] ?]. reflexivity. }
    destruct R as (f6 & -> & A6). destruct (take_bytes _ _ _ _ B5 T) as [_ B6]. clear T.
    pose proof (read_value_at 8 value64 f6 s6 0%N A6 value64_spec B6) as R. unfold ReadFile64Bits.
    destruct (take 8 s6) as [[c s7]|]; [|destruct R as (v & f' & ->); reflexivity].
    destruct R as (f7 & -> & _). cbn [andb negb orb]. destruct (_ =? _)%N; reflexivity. }
  unfold is_1_0. rewrite <- negb_andb. destruct ((major =? 1)%N && (minor =? 0)%N) eqn:V; cbn [negb].
  - specialize (Body (r_timestamp r) f4 s4 A4 B4). cbv zeta in Body. destruct (body s4) as [e|]; cbn [option_map].
    + eexists. split; [exact Body|]. cbn. auto.
    + exact Body.
  - pose proof (read_value_at 8 value64 f4 s4 stale A4 value64_spec B4) as R. change (read_value 8 value64) with ReadFile64Bits in R.
    destruct (take 8 s4) as [[ts s5]|] eqn:T.
    + destruct R as (f5 & -> & A5). destruct (take_bytes _ _ _ _ B4 T) as [_ B5].
      specialize (Body (le_val ts) f5 s5 A5 B5). cbv zeta in Body. destruct (body s5) as [e|]; cbn [option_map].
      * eexists. split; [exact Body|]. cbn. rewrite V. repeat split. discriminate.
      * exact Body.
    + destruct R as (v & f' & ->). destruct (ReadFile32Bits _ _) as [[? ?] ?]. reflexivity.
Qed.

Lemma same_refl l : same l l = true.
Proof. unfold same. now destruct (list_eq_dec _ l l). Qed.
(** parsing what has the header of a well-formed file *)
Lemma parse_header major minor ts s : (major < 65536)%N -> (minor < 65536)%N ->
  parse (M ++ F ++ le_bytes 2 major ++ le_bytes 2 minor ++ (if is_1_0 major minor then [] else le_bytes 8 ts) ++ s) =
  option_map (fun e => (e, major, minor)) (body s).
Proof.
  intros H1 H2. unfold parse. generalize M, F. intros m f. rewrite (take_app (length m)), same_refl, (take_app (length f)), same_refl by reflexivity.
  rewrite (take_app 2), (take_app 2) by apply le_bytes_length. rewrite !le_val_small by assumption.
  destruct (is_1_0 major minor); [reflexivity|]. now rewrite take_app by apply le_bytes_length.
Qed.
Lemma body_eval e crc rest : (N.of_nat (length e) < 2 ^ 32)%N -> (crc < 2 ^ 64)%N ->
  body (le_bytes 4 (N.of_nat (length e)) ++ e ++ le_bytes 8 crc ++ rest) =
  if (crc =? GetStringInfoCRC junk e)%N then Some e else None.
Proof.
  intros H1 H2. unfold body. rewrite take_app by apply le_bytes_length. rewrite le_val_small by exact H1. rewrite Nat2N.id.
  rewrite take_app by reflexivity. rewrite take_app by apply le_bytes_length. rewrite le_val_small by exact H2. reflexivity.
Qed.
Lemma layout_parse major minor ts e crc rest : (major < 65536)%N -> (minor < 65536)%N ->
  (N.of_nat (length e) < 2 ^ 32)%N -> (crc < 2 ^ 64)%N ->
  parse (layout major minor ts e crc ++ rest) = if (crc =? GetStringInfoCRC junk e)%N then Some (e, major, minor) else None.
Proof.
  intros. unfold layout. rewrite <- !app_assoc. rewrite parse_header, body_eval by assumption. now destruct (_ =? _)%N.
Qed.

(** the saved record is a layout *)
Lemma record_layout r : is_1_0 (r_protocol_major r) (r_protocol_minor r) = false ->
  reservoir_record fuel lsb junk r =
  layout (r_protocol_major r) (r_protocol_minor r) (r_timestamp r) (saved_entropy r) (GetStringInfoCRC junk (saved_entropy r)).
Proof.
  intros V. unfold reservoir_record, layout. now rewrite V, !buffer16_spec, buffer32_spec, !buffer64_spec.
Qed.
Lemma write_chunk_start old d : f_bytes (write_chunk (mkFile old 0) d) = d ++ skipn (length d) old.
Proof. reflexivity. Qed.
Lemma save_bytes r old : SaveEntropyToReservoir fuel lsb junk r old =
  reservoir_record fuel lsb junk r ++ skipn (length (reservoir_record fuel lsb junk r)) old.
Proof. exact (write_chunk_start old (reservoir_record fuel lsb junk r)). Qed.

Lemma crc_bound e : bytes e -> (GetStringInfoCRC junk e < 2 ^ 64)%N.
Proof. intros B. exact (proj1 (GetStringInfoCRC_is_crc64 junk e B)). Qed.
Local Transparent GetStringInfoCRC.
Lemma crc_burst a x y b : bytes (a ++ x ++ b) -> bytes y -> length x = length y -> length x <= 8 -> x <> y ->
  GetStringInfoCRC junk (a ++ x ++ b) <> GetStringInfoCRC junk (a ++ y ++ b).
Proof.
  intros B1 B2 L L8 NE E. apply (CRC64_burst_bytes (mkCRC64Info 0 junk) (mkCRC64Info 0 junk) a x y b B1 B2 L L8 NE).
  rewrite !FinalizeCRC64_be. unfold GetStringInfoCRC in E. now rewrite E.
Qed.
Local Opaque GetStringInfoCRC.
End Run.

Section Claims.
Variables (fuel : nat) (lsb : bool) (junk : list N).
Hypothesis Hjunk : length junk = 64.
Hypothesis Hfuel : 3 <= fuel.
Notation Get := (GetEntropyFromReservoir fuel lsb junk).
Notation Save := (SaveEntropyToReservoir fuel lsb junk).

Local Transparent GetWizardMagick.
Lemma magick_bytes tag : bytes tag -> (N.of_nat (length tag) < 2 ^ 29)%N -> bytes (GetWizardMagick fuel lsb junk tag).
Proof.
  intros B L. unfold GetWizardMagick.
  destruct (hash_total fuel lsb junk Hjunk Hfuel SHA2256Hash (AcquireHashInfo junk SHA2256Hash) [tag]) as (h & R & _ & Bh).
  - apply Acquire_ok.
  - constructor; [now split | constructor].
  - cbn [concat]. rewrite app_nil_r. eapply N.lt_trans; [exact L | reflexivity].
  - cbn [map app] in R. now rewrite R.
Qed.
Local Opaque GetWizardMagick.
Lemma magick_ok : bytes (GetWizardMagick fuel lsb junk WizardMagick) /\ bytes (GetWizardMagick fuel lsb junk RandomFiletype).
Proof. split; apply magick_bytes; try reflexivity; repeat constructor. Qed.
Lemma layout_bytes major minor ts e crc : bytes e -> bytes (layout fuel lsb junk major minor ts e crc).
Proof.
  intros B. destruct magick_ok as [B1 B2]. unfold layout. revert B1 B2.
  generalize (GetWizardMagick fuel lsb junk WizardMagick), (GetWizardMagick fuel lsb junk RandomFiletype). intros m f B1 B2.
  assert (B3 : bytes (if is_1_0 major minor then [] else le_bytes 8 ts)) by (destruct (is_1_0 _ _); [constructor | apply le_bytes_bytes]).
  unfold bytes in *. rewrite !Forall_app. exact (conj B1 (conj B2 (conj (le_bytes_bytes _ _) (conj (le_bytes_bytes _ _) (conj B3 (conj (le_bytes_bytes _ _) (conj B (le_bytes_bytes _ _)))))))).
Qed.

(** a generator as AcquireRandomInfo leaves it (protocol 1.1), or as it is after
    reading a file of any version but 1.0 *)
Record savable (r : RandomInfo) : Prop := {
  s_major : (r_protocol_major r < 65536)%N;
  s_minor : (r_protocol_minor r < 65536)%N;
  s_version : is_1_0 (r_protocol_major r) (r_protocol_minor r) = false;
  s_bytes : bytes (saved_entropy r);
  s_length : (N.of_nat (length (saved_entropy r)) < 2 ^ 32)%N
}.

(** C28: what was saved, over whatever the file held, is read back by any
    generator *)
Theorem reservoir_round_trip : forall r r0 old stale, savable r -> bytes old ->
  fst (Get r0 (Save r old) stale) = Some (saved_entropy r).
Proof.
  intros r r0 old stale [H1 H2 V B L] Bo. rewrite save_bytes, record_layout by exact V. set (rest := skipn _ old).
  assert (Br : bytes rest) by now apply Forall_skipn_.
  pose proof (get_parse fuel lsb junk r0 _ stale (proj2 (Forall_app _ _ _) (conj (layout_bytes (r_protocol_major r) (r_protocol_minor r) (r_timestamp r) _ (GetStringInfoCRC junk (saved_entropy r)) B) Br))) as G.
  rewrite layout_parse, N.eqb_refl in G; auto using crc_bound. now destruct G as (r' & -> & _).
Qed.

(** C28: at most eight consecutive bytes of the entropy changed *)
Theorem reservoir_corruption : forall r r0 rest stale a x y b, savable r -> bytes rest ->
  saved_entropy r = a ++ x ++ b -> bytes y -> length x = length y -> length x <= 8 -> x <> y ->
  fst (Get r0 (layout fuel lsb junk (r_protocol_major r) (r_protocol_minor r) (r_timestamp r) (a ++ y ++ b)
                 (GetStringInfoCRC junk (saved_entropy r)) ++ rest) stale) = None.
Proof.
  intros r r0 rest stale a x y b [H1 H2 V B L] Br E By Lx L8 NE. rewrite E in *.
  assert (By' : bytes (a ++ y ++ b)). { apply Forall_app in B as [Ba B]. apply Forall_app in B as [_ Bb]. apply Forall_app; split; [exact Ba|]. apply Forall_app; now split. }
  match goal with |- fst (Get _ ?X _) = _ => pose proof (get_parse fuel lsb junk r0 X stale (proj2 (Forall_app _ _ _) (conj (layout_bytes _ _ _ _ _ By') Br))) as G end.
  rewrite layout_parse in G; auto using crc_bound.
  - destruct (N.eqb_spec (GetStringInfoCRC junk (a ++ x ++ b)) (GetStringInfoCRC junk (a ++ y ++ b))) as [K|K].
    + now apply crc_burst in K.
    + exact G.
  - rewrite !app_length in L |- *. now rewrite <- Lx.
Qed.
(** the stored CRC changed *)
Theorem reservoir_crc_changed : forall r r0 rest stale crc, savable r -> bytes rest -> (crc < 2 ^ 64)%N ->
  crc <> GetStringInfoCRC junk (saved_entropy r) ->
  fst (Get r0 (layout fuel lsb junk (r_protocol_major r) (r_protocol_minor r) (r_timestamp r) (saved_entropy r) crc ++ rest) stale) = None.
Proof.
  intros r r0 rest stale crc [H1 H2 V B L] Br Hc NE.
  match goal with |- fst (Get _ ?X _) = _ => pose proof (get_parse fuel lsb junk r0 X stale (proj2 (Forall_app _ _ _) (conj (layout_bytes _ _ _ _ _ B) Br))) as G end.
  rewrite layout_parse in G; auto. apply N.eqb_neq in NE. rewrite NE in G. exact G.
Qed.

Lemma le_bytes_of n b : length b = n -> bytes b -> le_bytes n (le_val b) = b.
Proof. intros <- B. now apply le_bytes_le_val. Qed.
(** C28: whatever is accepted is a complete record, with its checksum *)
Theorem reservoir_accepts_only_records : forall r B stale e r', bytes B -> Get r B stale = (Some e, r') ->
  exists major minor ts rest, (major < 65536)%N /\ (minor < 65536)%N /\ (N.of_nat (length e) < 2 ^ 32)%N /\
    B = layout fuel lsb junk major minor ts e (GetStringInfoCRC junk e) ++ rest.
Proof.
  intros r B stale e r' Bb E. pose proof (get_parse fuel lsb junk r B stale Bb) as G. rewrite E in G.
  destruct (parse fuel lsb junk B) as [[[e' major] minor]|] eqn:P; [|discriminate].
  destruct G as (r1 & G & _). injection G as <- _. unfold parse in P.
  destruct (take _ B) as [[m s]|] eqn:T1; [|discriminate]. unfold same in P. destruct (list_eq_dec _ m _) as [->|]; [|discriminate].
  apply take_inv in T1 as [-> _]. apply Forall_app in Bb as [_ Bb].
  destruct (take _ s) as [[m2 s2]|] eqn:T2; [|discriminate]. destruct (list_eq_dec _ m2 _) as [->|]; [|discriminate].
  apply take_inv in T2 as [-> _]. apply Forall_app in Bb as [_ Bb].
  destruct (take 2 s2) as [[mj s3]|] eqn:T3; [|discriminate]. apply take_inv in T3 as [-> L3]. apply Forall_app in Bb as [B3 Bb].
  destruct (take 2 s3) as [[mn s4]|] eqn:T4; [|discriminate]. apply take_inv in T4 as [-> L4]. apply Forall_app in Bb as [B4 Bb].
  assert (K : exists ts s5, s4 = (if is_1_0 (le_val mj) (le_val mn) then [] else le_bytes 8 ts) ++ s5 /\ body junk s5 = Some e /\ major = le_val mj /\ minor = le_val mn).
  { destruct (is_1_0 _ _).
    - destruct (body junk s4) eqn:Eb; [|discriminate]. injection P as <- <- <-. exists 0%N, s4. auto.
    - destruct (take 8 s4) as [[ts s5]|] eqn:T5; [|discriminate]. apply take_inv in T5 as [-> L5]. apply Forall_app in Bb as [B5 Bb].
      destruct (body junk s5) eqn:Eb; [|discriminate]. injection P as <- <- <-. exists (le_val ts), s5.
      rewrite <- L5, le_bytes_le_val by exact B5. auto. }
  clear P. destruct K as (ts & s5 & -> & P & -> & ->).
  assert (B5 : bytes s5) by now apply Forall_app in Bb as [_ Bb].
  unfold body in P. destruct (take 4 s5) as [[ln s6]|] eqn:T6; [|discriminate]. apply take_inv in T6 as [-> L6]. apply Forall_app in B5 as [B6 B5].
  destruct (take _ s6) as [[e1 s7]|] eqn:T7; [|discriminate]. apply take_inv in T7 as [-> L7]. apply Forall_app in B5 as [B7 B5].
  destruct (take 8 s7) as [[c s8]|] eqn:T8; [|discriminate]. apply take_inv in T8 as [-> L8]. apply Forall_app in B5 as [B8 B5].
  destruct (N.eqb_spec (le_val c) (GetStringInfoCRC junk e1)) as [Ec|]; [|discriminate]. injection P as ->.
  exists (le_val mj), (le_val mn), ts, s8.
  split; [pose proof (le_val_bound mj B3) as K; now rewrite L3 in K|]. split; [pose proof (le_val_bound mn B4) as K; now rewrite L4 in K|].
  split; [rewrite L7, N2Nat.id; pose proof (le_val_bound ln B6) as K; now rewrite L6 in K|].
  unfold layout. rewrite <- Ec, L7, N2Nat.id. rewrite <- !app_assoc.
  now rewrite (le_bytes_of 2 mj), (le_bytes_of 2 mn), (le_bytes_of 4 ln), (le_bytes_of 8 c) by assumption.
Qed.

Lemma layout_length major minor ts e crc : length (layout fuel lsb junk major minor ts e crc) =
  length (GetWizardMagick fuel lsb junk WizardMagick) + length (GetWizardMagick fuel lsb junk RandomFiletype) +
  (if is_1_0 major minor then 0 else 8) + 16 + length e.
Proof.
  unfold layout. generalize (GetWizardMagick fuel lsb junk WizardMagick), (GetWizardMagick fuel lsb junk RandomFiletype). intros m f.
  rewrite !app_length, !le_bytes_length. destruct (is_1_0 major minor); cbn [length]; rewrite ?le_bytes_length; lia.
Qed.
Lemma layout_prefix major minor ts e crc major' minor' ts' e' crc' rest tail :
  (major < 65536)%N -> (minor < 65536)%N -> (major' < 65536)%N -> (minor' < 65536)%N ->
  (N.of_nat (length e) < 2 ^ 32)%N -> (N.of_nat (length e') < 2 ^ 32)%N ->
  layout fuel lsb junk major minor ts e crc ++ rest = layout fuel lsb junk major' minor' ts' e' crc' ++ tail ->
  major = major' /\ minor = minor' /\ length e = length e'.
Proof.
  intros H1 H2 H3 H4 L L' E. unfold layout in E. rewrite <- !app_assoc in E.
  apply app_inv_head in E. apply app_inv_head in E.
  apply app_inj_length in E as [E1 E]; [|now rewrite !le_bytes_length].
  apply app_inj_length in E as [E2 E]; [|now rewrite !le_bytes_length].
  apply (f_equal le_val) in E1, E2. rewrite !le_val_small in E1 by assumption. rewrite !le_val_small in E2 by assumption.
  subst major' minor'.
  apply app_inj_length in E as [_ E]; [|destruct (is_1_0 _ _); rewrite ?le_bytes_length; reflexivity].
  apply app_inj_length in E as [E3 _]; [|now rewrite !le_bytes_length].
  apply (f_equal le_val) in E3. rewrite !le_val_small in E3 by assumption. split; [reflexivity|]. split; [reflexivity | lia].
Qed.

(** C28: a record cut short anywhere is refused *)
Theorem reservoir_truncation : forall r r0 stale n, savable r ->
  n < length (reservoir_record fuel lsb junk r) -> fst (Get r0 (firstn n (reservoir_record fuel lsb junk r)) stale) = None.
Proof.
  intros r r0 stale n [H1 H2 V B L] Hn. rewrite record_layout in * by exact V.
  set (crc := GetStringInfoCRC junk (saved_entropy r)) in *.
  remember (layout fuel lsb junk (r_protocol_major r) (r_protocol_minor r) (r_timestamp r) (saved_entropy r) crc) as lay eqn:El.
  assert (Bl : bytes lay) by (rewrite El; now apply layout_bytes).
  destruct (Get r0 (firstn n lay) stale) as [[e|] r'] eqn:E; [|reflexivity]. exfalso.
  pose proof (Forall_firstn_ _ n lay Bl) as Bf.
  destruct (reservoir_accepts_only_records _ _ _ _ _ Bf E) as (mj & mn & ts & rest & Hj & Hm & Le & K).
  pose proof (firstn_skipn n lay) as S. rewrite K, <- app_assoc in S.
  pose proof (layout_prefix mj mn ts e (GetStringInfoCRC junk e) (r_protocol_major r) (r_protocol_minor r) (r_timestamp r)
    (saved_entropy r) crc (rest ++ skipn n lay) [] Hj Hm H1 H2 Le L) as Q. rewrite app_nil_r, <- El in Q.
  destruct (Q S) as (-> & -> & Q1).
  apply (f_equal (@length N)) in K. rewrite firstn_length, app_length, layout_length, Q1 in K.
  apply (f_equal (@length N)) in El. rewrite layout_length in El. lia.
Qed.

(** every generator AcquireRandomInfo has seeded can be saved *)
Theorem acquired_savable : forall hash timestamp chaos entropy r,
  seed_RandomInfo fuel lsb junk (fresh_RandomInfo junk hash timestamp) chaos entropy = Some r -> savable r.
Proof.
  intros hash ts chaos entropy r E. destruct (saved_state_carries_no_entropy_refuted fuel lsb junk hash ts chaos entropy r E) as (Es & _ & _).
  assert (P : r_protocol_major r = 1%N /\ r_protocol_minor r = 1%N).
  { unfold seed_RandomInfo in E. destruct (InitializeHMAC _ _ _ _ chaos); [|discriminate]. destruct (InitializeHMAC _ _ _ _ entropy); [|discriminate].
    injection E as <-. now split. }
  destruct P as [P1 P2]. constructor; rewrite ?P1, ?P2, ?Es; try reflexivity.
  - apply repeat0_bytes.
  - rewrite repeat_length. assert (GetHashDigestsize hash <= 128) by (pose proof (digest_le_block hash); destruct hash; cbn in *; lia).
    apply N.le_lt_trans with 128%N; [lia | reflexivity].
Qed.

Lemma version_1_0 major minor : is_1_0 major minor = true -> (major < 65536)%N /\ (minor < 65536)%N.
Proof. unfold is_1_0. clear. intros V. apply andb_true_iff in V as [V1 V2]. lia. Qed.

(** C70 (refuted): having read a file of version 1.0, which has no timestamp,
    the generator takes over that version, but SaveEntropyToReservoir writes the
    timestamp all the same: the file it leaves is refused from then on.  (Its
    low 32 bits are then taken for the length of the entropy.) *)
Theorem reservoir_1_0_saved_unreadable_refuted : forall r B stale e r' old r1 stale1, bytes B -> bytes old ->
  Get r B stale = (Some e, r') -> is_1_0 (r_protocol_major r') (r_protocol_minor r') = true ->
  bytes (saved_entropy r) -> (N.of_nat (8 + length (saved_entropy r)) < r_timestamp r mod 2 ^ 32)%N ->
  length old <= length (reservoir_record fuel lsb junk r') ->
  fst (Get r1 (Save r' old) stale1) = None.
Proof.
  intros r B stale e r' old r1 stale1 Bb Bo E V Be Ht Lo. pose proof (get_parse fuel lsb junk r B stale Bb) as G. rewrite E in G.
  destruct (parse fuel lsb junk B) as [[[e' major] minor]|]; [|discriminate]. destruct G as (r2 & G & Gj & Gm & Gh & Gt).
  injection G as <- <-. rewrite Gj, Gm in V. specialize (Gt V). assert (Es : saved_entropy r' = saved_entropy r) by (unfold saved_entropy; now rewrite Gh).
  rewrite save_bytes, skipn_all2, app_nil_r by exact Lo.
  assert (Er : reservoir_record fuel lsb junk r' = GetWizardMagick fuel lsb junk WizardMagick ++ GetWizardMagick fuel lsb junk RandomFiletype ++
    le_bytes 2 major ++ le_bytes 2 minor ++ (if is_1_0 major minor then [] else le_bytes 8 0) ++
    le_bytes 4 (r_timestamp r) ++ le_bytes 4 (r_timestamp r / 2 ^ 32) ++ le_bytes 4 (N.of_nat (length (saved_entropy r))) ++
    saved_entropy r ++ le_bytes 8 (GetStringInfoCRC junk (saved_entropy r))).
  { unfold reservoir_record. rewrite V, Es, Gj, Gm, Gt, !buffer16_spec, buffer32_spec, !buffer64_spec.
    change (le_bytes 8 (r_timestamp r)) with (le_bytes (4 + 4) (r_timestamp r)). rewrite le_bytes_app, <- !app_assoc. reflexivity. }
  assert (Br : bytes (reservoir_record fuel lsb junk r')).
  { rewrite Er, V. destruct magick_ok as [B1 B2]. revert B1 B2. clear - Be.
    generalize (GetWizardMagick fuel lsb junk WizardMagick), (GetWizardMagick fuel lsb junk RandomFiletype). intros m f B1 B2.
    unfold bytes in *. cbn [app]. rewrite !Forall_app.
    exact (conj B1 (conj B2 (conj (le_bytes_bytes _ _) (conj (le_bytes_bytes _ _) (conj (le_bytes_bytes _ _) (conj (le_bytes_bytes _ _) (conj (le_bytes_bytes _ _) (conj Be (le_bytes_bytes _ _))))))))). }
  pose proof (get_parse fuel lsb junk r1 _ stale1 Br) as G. rewrite Er in G.
  assert (Hv : (major < 65536)%N /\ (minor < 65536)%N) by exact (version_1_0 _ _ V).
  rewrite parse_header in G by apply Hv.
  match type of G with context [body junk ?s] => assert (Bn : body junk s = None) end.
  { unfold body. rewrite take_app by apply le_bytes_length. rewrite le_val_le_bytes. change (256 ^ N.of_nat 4)%N with (2 ^ 32)%N.
    match goal with |- context [take ?n ?s] => destruct (take n s) as [[x t]|] eqn:T; [|reflexivity] end.
    pose proof T as T'. apply take_inv in T' as [T' Lx]. apply (f_equal (@length N)) in T'. rewrite !app_length, !le_bytes_length, Lx in T'.
    clear - T' Ht. set (k := (r_timestamp r mod 2 ^ 32)%N) in *. rewrite take_none by lia. reflexivity. }
  rewrite Bn in G. rewrite Er. exact G.
Qed.
End Claims.

(** Examples *)
Definition ex_r (minor : N) : RandomInfo :=
  mkRandomInfo (mkHMACInfo (AcquireHashInfo [] SHA2256Hash) (map N.of_nat (seq 100 32)) [] []) [] [] 0 [] 1 minor 100.
Definition ex_file : list N := SaveEntropyToReservoir 3 true (repeat 0%N 64) (ex_r 1) [1; 2; 3]%N.
Definition ex_read (file : list N) : option (list N) := fst (GetEntropyFromReservoir 3 true (repeat 0%N 64) (ex_r 7) file 0).
Example reservoir_savable_ex : savable (ex_r 1).
Proof. constructor; try reflexivity. repeat constructor. Qed.
Example reservoir_ex :
  length ex_file = 120 /\ ex_read ex_file = Some (map N.of_nat (seq 100 32)) /\
  ex_read (firstn 90 ex_file ++ [0%N] ++ skipn 91 ex_file) = None /\ ex_read (firstn 119 ex_file) = None.
Proof. vm_compute. repeat split; reflexivity. Qed.
(** a version 1.0 file, read and saved again *)
Example reservoir_1_0_ex :
  let j := repeat 0%N 64 in
  let b := layout 3 true j 1 0 0 [1; 2; 3]%N (GetStringInfoCRC j [1; 2; 3]%N) in
  let '(e, r') := GetEntropyFromReservoir 3 true j (ex_r 1) b 0 in
  (match e with Some [1; 2; 3]%N => true | _ => false end) && is_1_0 (r_protocol_major r') (r_protocol_minor r') &&
  (match fst (GetEntropyFromReservoir 3 true j (ex_r 1) (SaveEntropyToReservoir 3 true j r' b) 0) with None => true | _ => false end) = true.
Proof. vm_compute. reflexivity. Qed.

Print Assumptions reservoir_round_trip.
Print Assumptions reservoir_corruption.
Print Assumptions reservoir_crc_changed.
Print Assumptions reservoir_accepts_only_records.
Print Assumptions reservoir_truncation.
Print Assumptions acquired_savable.
Print Assumptions reservoir_1_0_saved_unreadable_refuted.
