(** C124-C125: what is compressed is restored. *)
From Coq Require Import Arith NArith Lia ZifyNat ZifyN List Bool.
From Verif Require Import EntropyModel.
Import ListNotations.
Local Open Scope N_scope.

(** ** Specification: what the libraries promise *)
Definition sound (L : libraries) : Prop :=
  (forall m, bzip_decompress L (bzip_compress L m) = Some m /\ len (bzip_compress L m) <= len m + len m / 100 + 600) /\
  (forall m, zip_decompress L (zip_compress L m) = Some m /\ len (zip_compress L m) <= deflate_bound L (len m)) /\
  (forall m, lzma_decode L (lzma_encode L m) = (m, Ended) /\ len (lzma_encode L m) <= len m + len m / 3 + 128).
(** and that a part of a stream is no stream: it is decoded to a part of the text *)
Definition streams (L : libraries) : Prop :=
  forall m k, k < len (lzma_encode L m) -> exists j, lzma_decode L (take k (lzma_encode L m)) = (take j m, More).
(** the room that is needed for a message *)
Definition room (L : libraries) (e : entropy) (n : N) : N :=
  match e with BZIPEntropy => n + n / 100 + 600 | ZIPEntropy => N.max n (deflate_bound L n) | LZMAEntropy => n end.

(** ** Proofs *)
Lemma take_all n l : len l <= n -> take n l = l.
Proof. unfold take, len. intros H. apply firstn_all2. lia. Qed.
Lemma len_take n l : n <= len l -> len (take n l) = n.
Proof. unfold take, len. intros H. rewrite firstn_length. lia. Qed.
Lemma uint_small n : n < 2 ^ 32 -> uint n = n.
Proof. intros H. unfold uint. now apply N.mod_small. Qed.
Lemma zip_like compress decompress bound m n : len m < 2 ^ 32 -> bound (len m) < 2 ^ 32 -> len m <= n -> n < 2 ^ 32 ->
  decompress (compress m) = Some m -> len (compress m) <= bound (len m) ->
  exists c, Increase compress bound m = Some c /\ Restore decompress n c = Some m.
Proof.
  intros L B G Ln D C. exists (compress m). unfold Increase, Restore. rewrite (uint_small (len m)), take_all by lia. rewrite (uint_small (bound (len m))) by exact B.
  destruct (N.leb_spec (len (compress m)) (bound (len m))); [|lia]. split; [reflexivity|].
  rewrite (uint_small (len (compress m))), take_all by lia. rewrite D, (uint_small n) by exact Ln. destruct (N.leb_spec (len m) n); [reflexivity|lia].
Qed.

(** ** C124: for each of the codings, with room for the text, the text is restored *)
Theorem entropy_round_trip : forall L e m n, sound L -> len m <= n -> n < 2 ^ 32 \/ e = LZMAEntropy -> room L e (len m) < 2 ^ 32 \/ e = LZMAEntropy ->
  exists c, IncreaseEntropy L e m = Some c /\ RestoreEntropy L e n c = Some m.
Proof.
  intros L e m n (Sb & Sz & Sl) G Ln R. destruct e; cbn [IncreaseEntropy RestoreEntropy room] in *.
  - destruct Ln as [Ln|]; [|discriminate]. destruct R as [R|]; [|discriminate]. destruct (Sb m) as (D & C).
    apply zip_like; try assumption. unfold BZIPBound. lia.
  - destruct (Sl m) as (D & C). exists (lzma_encode L m). unfold IncreaseLZMA, RestoreLZMA, decoder_calls. unfold LZMAMaxExtent.
    destruct (N.leb_spec (len (lzma_encode L m)) (len m + len m / 3 + 128)); [|lia]. split; [reflexivity|]. rewrite D.
    destruct (N.leb_spec (len m) n); [|lia]. now rewrite take_all.
  - destruct Ln as [Ln|]; [|discriminate]. destruct R as [R|]; [|discriminate]. destruct (Sz m) as (D & C). apply zip_like; try assumption; lia.
Qed.
Print Assumptions entropy_round_trip.
(** libraries that keep their promises: the text after its length *)
Definition counted (s : list N) : list N * verdict :=
  match s with
  | [] => ([], More)
  | n :: s => if len s <? n then (s, More) else (take n s, Ended)
  end.
Definition identity_libraries : libraries :=
  {| bzip_compress := fun m => m; bzip_decompress := fun s => Some s; zip_compress := fun m => m; zip_decompress := fun s => Some s; deflate_bound := fun n => n;
     lzma_encode := fun m => len m :: m; lzma_decode := counted |}.
Example identity_sound : sound identity_libraries.
Proof.
  repeat split; cbn; try lia.
  - rewrite N.ltb_irrefl. now rewrite take_all by lia.
  - unfold len. cbn [length]. lia.
Qed.
Example identity_streams : streams identity_libraries.
Proof.
  intros m k K. cbn in *. unfold take. destruct (N.to_nat k) as [|k'] eqn:Ek; [exists 0; reflexivity|]. cbn [firstn counted].
  exists (N.of_nat k'). unfold len in *. cbn [length] in K. rewrite firstn_length.
  destruct (N.ltb_spec (N.of_nat (Nat.min k' (length m))) (N.of_nat (length m))); [|lia]. now rewrite Nat2N.id.
Qed.
Example round_trip_example : exists c, IncreaseEntropy identity_libraries ZIPEntropy [1; 2; 3] = Some c /\ RestoreEntropy identity_libraries ZIPEntropy 3 c = Some [1; 2; 3].
Proof. apply (entropy_round_trip identity_libraries ZIPEntropy [1; 2; 3] 3 identity_sound); try (left; reflexivity). vm_compute. discriminate. Qed.

(** what is restored never is longer than asked for *)
Theorem restore_fits : forall L e n c m, RestoreEntropy L e n c = Some m -> len m <= n.
Proof.
  intros L e n c m H.
  assert (Z : forall d, Restore d n c = Some m -> len m <= n).
  { intros d. unfold Restore. destruct (d _) as [t|]; [|discriminate]. destruct (N.leb_spec (len t) (uint n)) as [G|]; [|discriminate]. intros [= <-].
    unfold uint in G. pose proof (N.mod_le n (2 ^ 32) ltac:(discriminate)). lia. }
  destruct e; cbn [RestoreEntropy] in H; [now apply (Z _ H)| |now apply (Z _ H)].
  unfold RestoreLZMA, decoder_calls in H. destruct (lzma_decode L c) as (t, v). assert (T : len (take n t) <= n) by (unfold take, len; rewrite firstn_length; lia).
  destruct (len t <=? n); [destruct v|]; try discriminate H; try (injection H as <-; exact T).
  - destruct c; [discriminate H|injection H as <-; exact T].
  - destruct (take n t); [discriminate H|injection H as <-; exact T].
Qed.
Print Assumptions restore_fits.
(** a destination that is too small is an error for zip and bzip2 *)
Theorem restore_small : forall L e m n, sound L -> e <> LZMAEntropy -> n < len m -> len m < 2 ^ 32 -> room L e (len m) < 2 ^ 32 ->
  exists c, IncreaseEntropy L e m = Some c /\ RestoreEntropy L e n c = None.
Proof.
  intros L e m n (Sb & Sz & Sl) Ne G Lm R.
  assert (Z : forall compress decompress bound, bound (len m) < 2 ^ 32 -> decompress (compress m) = Some m -> len (compress m) <= bound (len m) ->
    exists c, Increase compress bound m = Some c /\ Restore decompress n c = None).
  { intros compress decompress bound B D C. exists (compress m). unfold Increase, Restore. rewrite (uint_small (len m)), take_all by lia. rewrite (uint_small (bound (len m))) by exact B.
    destruct (N.leb_spec (len (compress m)) (bound (len m))); [|lia]. split; [reflexivity|].
    rewrite (uint_small (len (compress m))), take_all by lia. rewrite D, (uint_small n) by lia. destruct (N.leb_spec (len m) n); [lia|reflexivity]. }
  destruct e; cbn [IncreaseEntropy RestoreEntropy room] in *; [|contradiction|].
  - destruct (Sb m) as (D & C). apply Z; try assumption.
  - destruct (Sz m) as (D & C). apply Z; try assumption. lia.
Qed.
Print Assumptions restore_small.

(** ** C125: refuted *)
(** a message of 4 GiB and k bytes is compressed to its first k bytes, without an error *)
Theorem zip_long_refuted : forall L m k, sound L -> len m = 2 ^ 32 + k -> k < 2 ^ 32 -> 2 ^ 32 <= deflate_bound L (len m) -> len (zip_compress L (take k m)) <= deflate_bound L (len m) - 2 ^ 32 ->
  deflate_bound L (len m) < 2 ^ 33 ->
  exists c, IncreaseEntropy L ZIPEntropy m = Some c /\ forall n, k <= n -> n < 2 ^ 32 -> RestoreEntropy L ZIPEntropy n c = Some (take k m).
Proof.
  intros L m k (_ & Sz & _) Lm K B1 C B2. destruct (Sz (take k m)) as (D & _). exists (zip_compress L (take k m)). cbn [IncreaseEntropy RestoreEntropy].
  assert (U : uint (len m) = k).
  { unfold uint. rewrite Lm. replace (2 ^ 32 + k) with (k + 1 * 2 ^ 32) by lia. rewrite N.mod_add by discriminate. now apply N.mod_small. }
  assert (V : uint (deflate_bound L (len m)) = deflate_bound L (len m) - 2 ^ 32).
  { unfold uint. replace (deflate_bound L (len m)) with ((deflate_bound L (len m) - 2 ^ 32) + 1 * 2 ^ 32) at 1 by lia.
    rewrite N.mod_add by discriminate. apply N.mod_small. change (2 ^ 33) with (2 ^ 32 + 2 ^ 32) in B2. lia. }
  unfold Increase, Restore. rewrite U, V. destruct (N.leb_spec (len (zip_compress L (take k m))) (deflate_bound L (len m) - 2 ^ 32)); [|lia].
  split; [reflexivity|]. intros n Kn Ln.
  assert (B3 : deflate_bound L (len m) - 2 ^ 32 < 2 ^ 32) by (change (2 ^ 33) with (2 ^ 32 + 2 ^ 32) in B2; lia).
  rewrite (uint_small (len (zip_compress L (take k m)))), take_all by lia. rewrite D, (uint_small n) by exact Ln.
  rewrite len_take by lia. destruct (N.leb_spec k n); [reflexivity|lia].
Qed.
Print Assumptions zip_long_refuted.
Example zip_long_example : let m := repeat 7 (N.to_nat (2 ^ 32 + 3)) in
  sound identity_libraries /\ len m = 2 ^ 32 + 3 /\ len (zip_compress identity_libraries (take 3 m)) <= deflate_bound identity_libraries (len m) - 2 ^ 32.
Proof.
  intros m. assert (Lm : len m = 2 ^ 32 + 3) by (unfold len, m; rewrite repeat_length; apply N2Nat.id).
  split; [exact identity_sound|]. split; [exact Lm|]. cbn [zip_compress deflate_bound identity_libraries]. rewrite len_take by lia. rewrite Lm. lia.
Qed.
(** a destination that is too small is no error for lzma: the text is cut *)
Theorem lzma_small_refuted : forall L m n, sound L -> 0 < n -> n < len m ->
  exists c, IncreaseEntropy L LZMAEntropy m = Some c /\ RestoreEntropy L LZMAEntropy n c = Some (take n m).
Proof.
  intros L m n (_ & _ & Sl) P G. destruct (Sl m) as (D & C). exists (lzma_encode L m). cbn [IncreaseEntropy RestoreEntropy].
  unfold IncreaseLZMA, RestoreLZMA, decoder_calls, LZMAMaxExtent.
  destruct (N.leb_spec (len (lzma_encode L m)) (len m + len m / 3 + 128)); [|lia]. split; [reflexivity|]. rewrite D.
  destruct (N.leb_spec (len m) n); [lia|]. assert (Ln : len (take n m) = n) by (apply len_take; lia). destruct (take n m); [cbn in Ln; lia|reflexivity].
Qed.
Print Assumptions lzma_small_refuted.
(** nor is a stream that was cut: part of the text is restored as if it were all *)
Theorem lzma_cut_refuted : forall L m k n, sound L -> streams L -> len m <= n -> 0 < k -> k < len (lzma_encode L m) ->
  exists j, RestoreEntropy L LZMAEntropy n (take k (lzma_encode L m)) = Some (take j m).
Proof.
  intros L m k n _ St G P K. destruct (St m k K) as (j & D). exists j. cbn [RestoreEntropy]. unfold RestoreLZMA, decoder_calls. rewrite D.
  assert (T : len (take j m) <= n) by (unfold take, len in *; rewrite firstn_length; lia). destruct (N.leb_spec (len (take j m)) n); [|lia].
  rewrite (take_all n (take j m)) by exact T. assert (Lk : len (take k (lzma_encode L m)) = k) by (apply len_take; lia).
  destruct (take k (lzma_encode L m)); [cbn in Lk; lia|reflexivity].
Qed.
Print Assumptions lzma_cut_refuted.
