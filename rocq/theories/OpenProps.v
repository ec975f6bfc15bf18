(** C165, C166: how names are opened. *)
From Coq Require Import NArith ZArith Bool String Arith Lia ZifyBool ZifyNat ZifyN List.
From Verif Require Import Base Outcome CStringModel CStringSpec CStringProps OptionModel CommandModel CommandProps PathModel PathProps ScanModel ScanProof3 ScanProps OpenModel.
Import ListNotations.
Local Open Scope nat_scope.

Section Open.
Variables zlib bzip has_popen : bool.
Variable MaxBuffer E : nat.
Variable isdir : list N -> Z.
Variable accessible : list N -> bool.
Variable writable : list N -> bool.
Variables fd process : list N -> bool.
Variable map_ : nat -> bool.
Notation Open files := (OpenBlob zlib bzip has_popen MaxBuffer E isdir accessible files writable fd process map_).

(** a name that is not special *)
Definition ordinary (name : list N) : Prop :=
  ascii name /\ name <> b "-" /\ map lower (firstn 3 name) <> b "fd:" /\ List.hd 0%N name <> 124%N.
Lemma fd_compare name : ascii name -> LocaleNCompare (name ++ [0%N]) (b "fd:" ++ [0%N]) 3 = Ok (first_difference (firstn 3 name) (b "fd:")).
Proof. intros A. change (b "fd:" ++ [0%N]) with (b "fd:" ++ 0%N :: []). rewrite locale_ncompare_eq; [reflexivity|now apply ascii_text|repeat constructor; lia]. Qed.
Lemma ascii_firstn n s : ascii s -> ascii (firstn n s).
Proof. unfold ascii. rewrite !Forall_forall. intros H x I. apply H. revert I. rewrite <- (firstn_skipn n s) at 2. intros I. apply in_or_app. now left. Qed.
Lemma open_ordinary files name w c : ordinary name -> Open files name w c =
  if match files name with Some n => is_fifo n | None => false end then Ok (Some Fifo)
  else if w then open_write zlib bzip E isdir accessible writable name c else Ok (open_read zlib bzip MaxBuffer files map_ name c).
Proof.
  intros (A & N1 & N2 & N3). unfold OpenBlob. rewrite is_name_false; [|exact A|repeat constructor; lia|].
  2:{ intros Q. apply N1. destruct name as [|x [|y l]]; try discriminate Q. cbn in Q. injection Q as Q. unfold lower in Q.
      destruct ((65 <=? x)%N && (x <=? 90)%N) eqn:Z; [lia|]. now rewrite Q. }
  rewrite fd_compare by exact A. cbn [bind].
  assert ((first_difference (firstn 3 name) (b "fd:") =? 0)%Z = false) as ->.
  { apply Z.eqb_neq. intros Q. apply first_difference_zero in Q; [|apply ascii_text; now apply ascii_firstn|repeat constructor; lia].
    rewrite !ascii_map_lower in Q by (try (now apply ascii_firstn); repeat constructor; lia). apply N2.
    change (b "fd:") with (map lower (b "fd:")). revert Q. generalize (map lower (firstn 3 name)), (map lower (b "fd:")). induction l as [|a l IH]; intros [|c' m] Q; try discriminate Q; [reflexivity|].
    cbn [map] in Q. injection Q as Q1 Q2. f_equal; [lia|now apply IH]. }
  destruct (N.eqb_spec (List.hd 0%N name) 124); [contradiction|]. now rewrite andb_false_r.
Qed.

Variables gzip gunzip bzip2 bunzip2 : list N -> list N.
Notation read := (delivered gunzip bunzip2).
Notation leave := (left_behind gzip bzip2).
(** what zlib and bzlib are for *)
Definition libraries : Prop :=
  (forall d, gunzip (gzip d) = d) /\ (forall d, firstn 3 (gzip d) = [31; 139; 8]%N) /\ (forall d, bunzip2 (bzip2 d) = d) /\ (forall d, firstn 3 (bzip2 d) = [66; 90; 104]%N).
Definition marked (d : list N) : Prop := firstn 3 d = [31; 139; 8]%N \/ firstn 3 d = [66; 90; 104]%N.
(** the marks of RFC 1952 (with the method deflate) and of bzip2 *)
Lemma marks : gzip_mark = [31; 139; 8]%N /\ bzip_mark = [66; 90; 104]%N.
Proof. split; reflexivity. Qed.
(** ** C165: what is written in a file is read from it again: without compression always; with it, if it was compressed or does not look like that *)
Theorem written_read : forall files files' name c w d, libraries -> ordinary name -> (forall n, files name = Some n -> is_fifo n = false) ->
  Open files name true c = Ok (Some w) -> files' name = Some (mkNode false (leave w d)) -> (c = true -> w = Plain -> ~ marked d) ->
  exists w', Open files' name false c = Ok (Some w') /\ read w' (leave w d) = d.
Proof.
  intros files files' name c w d (G1 & G2 & B1 & B2) O F W L U. unfold marked in U. destruct marks as [M1 M2]. rewrite <- M1, <- M2 in *. rewrite open_ordinary in W |- * by exact O. rewrite L. cbn [is_fifo].
  destruct (match files name with Some n => is_fifo n | None => false end) eqn:Q.
  { destruct (files name) as [n|] eqn:Fn; [|discriminate]. now rewrite (F n eq_refl) in Q. }
  unfold open_write in W. destruct (GetPathComponent E isdir accessible name ExtensionPath) as [x| |]; try discriminate W. cbn [bind] in W.
  destruct (writable name); [|discriminate W]. injection W as W. unfold open_read. rewrite L. cbn [content].
  assert (Z : w = Gzip /\ zlib = true /\ c = true \/ w = Bzip /\ bzip = true /\ c = true \/ w = Plain).
  { revert W. destruct (zlib && _) eqn:X1; [apply andb_prop in X1 as [? X1]; apply andb_prop in X1 as [? _]; intros <-; tauto|].
    destruct (bzip && _) eqn:X2; [apply andb_prop in X2 as [? X2]; apply andb_prop in X2 as [? _]; intros <-; tauto|]. intros <-. tauto. }
  destruct Z as [(-> & -> & ->)|[(-> & -> & ->)| ->]]; cbn [left_behind].
  - unfold is_mark. rewrite G2. cbn [andb]. exists Gzip. split; [reflexivity|]. apply G1.
  - unfold is_mark. rewrite B2. destruct (list_eq_dec N.eq_dec bzip_mark gzip_mark) as [X|_]; [discriminate X|]. rewrite !andb_false_r.
    destruct (list_eq_dec N.eq_dec bzip_mark bzip_mark) as [_|X]; [|contradiction]. cbn [andb]. exists Bzip. split; [reflexivity|]. apply B1.
  - assert (M : forall m, m = gzip_mark \/ m = bzip_mark -> c && is_mark m d = false).
    { intros m Hm. destruct c; [|reflexivity]. cbn [andb]. unfold is_mark. destruct (list_eq_dec N.eq_dec (firstn 3 d) m) as [X|]; [|reflexivity].
      exfalso. apply (U eq_refl eq_refl). destruct Hm; subst m; tauto. }
    rewrite !M by tauto. rewrite !andb_false_r. destruct ((MaxBuffer <? length d) && map_ (length d)); eexists; split; reflexivity.
Qed.
(** names that say gz or Z are compressed, and others not *)
Theorem written_way : forall files r e c, ordinary (r ++ 46%N :: e) -> files (r ++ 46%N :: e) = None -> plain E accessible (r ++ 46%N :: e) -> free 47 e -> free 46 e -> free 63 e ->
  Open files (r ++ 46%N :: e) true c =
    Ok (if writable (r ++ 46%N :: e) then
          Some (if zlib && c && (existsb (fun x => if list_eq_dec N.eq_dec (map lower e) x then true else false) [b "z"; b "gz"]) then Gzip
                else if bzip && c && (if list_eq_dec N.eq_dec (map lower e) (b "bz2") then true else false) then Bzip else Plain)
        else None).
Proof.
  intros files r e c O Fn P F1 F2 F3. rewrite open_ordinary by exact O. rewrite Fn. unfold open_write.
  destruct (root_extension E isdir accessible r e P F1 F2 F3) as (_ & ->). cbn [bind].
  assert (Ae : ascii e). { destruct O as (A & _). unfold ascii in *. apply Forall_app in A as [_ A]. now inversion A. }
  assert (K : forall n, ascii n -> is_name e n = if list_eq_dec N.eq_dec (map lower e) (map lower n) then true else false).
  { intros n An. destruct (list_eq_dec N.eq_dec (map lower e) (map lower n)) as [Q|Q]; [now apply is_name_iff|now apply is_name_false]. }
  rewrite !K by (repeat constructor; lia). change (map lower (b "Z")) with (b "z"). change (map lower (b "gz")) with (b "gz"). change (map lower (b "bz2")) with (b "bz2").
  cbn [existsb]. rewrite orb_false_r, !andb_assoc. reflexivity.
Qed.

(** ** C166: a name opens the file of this name, and the bytes of the file are read *)
(** with compression, which encipher and decipher cannot switch off, the bytes of a file that begins like a compressed one are not read *)
Theorem marked_refuted : forall files name n, ordinary name -> files name = Some n -> is_fifo n = false ->
  (zlib = true -> firstn 3 (content n) = [31; 139; 8]%N -> exists w, Open files name false true = Ok (Some w) /\ read w (content n) = gunzip (content n)) /\
  (bzip = true -> firstn 3 (content n) = [66; 90; 104]%N -> exists w, Open files name false true = Ok (Some w) /\ read w (content n) = bunzip2 (content n)).
Proof.
  intros files name n O L F. destruct marks as [<- <-]. rewrite open_ordinary by exact O. rewrite L, F. unfold open_read. rewrite L. unfold is_mark. split; intros -> ->.
  - exists Gzip. split; reflexivity.
  - change (if list_eq_dec N.eq_dec bzip_mark gzip_mark then true else false) with false. cbn [andb]. rewrite andb_false_r. exists Bzip. split; reflexivity.
Qed.
(** copying such a file to a name that does not say so leaves another file; nothing that unpacks to something else survives *)
Theorem copy_refuted : forall files name n output w, ordinary name -> ordinary output -> files name = Some n -> is_fifo n = false -> zlib = true -> firstn 3 (content n) = [31; 139; 8]%N ->
  (forall m, files output = Some m -> is_fifo m = false) -> Open files output true true = Ok (Some w) -> w = Plain -> gunzip (content n) <> content n ->
  exists w', Open files name false true = Ok (Some w') /\ leave w (read w' (content n)) <> content n.
Proof.
  intros files name n output w O1 O2 L F Z M F2 W -> G. destruct (marked_refuted files name n O1 L F) as (K & _). destruct (K Z M) as (w' & X & Y).
  exists w'. split; [exact X|]. rewrite Y. exact G.
Qed.
(** a name that begins with a bar is a command line, whatever files there are; '-' and fd: name descriptors *)
Theorem command_refuted : forall files line w c, has_popen = true -> process line = true -> ascii line -> Open files (124%N :: line) w c = Ok (Some (Command line)).
Proof.
  intros files line w c P Q A. unfold OpenBlob.
  assert (A' : ascii (124%N :: line)) by (constructor; [lia|exact A]).
  rewrite is_name_false; [|exact A'|repeat constructor; lia|discriminate].
  rewrite fd_compare by exact A'. cbn [bind]. change (firstn 3 (124%N :: line)) with (124%N :: firstn 2 line). rewrite P. cbn [andb List.hd List.tl].
  assert ((first_difference (124%N :: firstn 2 line) (b "fd:") =? 0)%Z = false) as ->; [|change (124 =? 124)%N with true; cbv iota; now rewrite Q].
  apply Z.eqb_neq. intros X. apply first_difference_zero in X; [|constructor; [lia|]; apply ascii_text; now apply ascii_firstn|repeat constructor; lia]. discriminate X.
Qed.
Theorem special_refuted : forall files w c n, ascii n -> fd n = true ->
  Open files (b "-") w c = Ok (Some Standard) /\ Open files (b "fd:" ++ n) w c = Ok (Some (Descriptor n)) /\ Open files (b "FD:" ++ n) w c = Ok (Some (Descriptor n)).
Proof.
  intros files w c n A F. split; [reflexivity|].
  assert (K : forall p, p = b "fd:" \/ p = b "FD:" -> Open files (p ++ n) w c = Ok (Some (Descriptor n))); [|split; apply K; tauto].
  intros p Hp. assert (A' : ascii (p ++ n)). { unfold ascii in *. apply Forall_app. split; [|exact A]. destruct Hp; subst p; repeat constructor; lia. }
  unfold OpenBlob. rewrite is_name_false; [|exact A'|repeat constructor; lia|destruct Hp; subst p; discriminate].
  rewrite fd_compare by exact A'. cbn [bind]. destruct Hp; subst p; cbn [b app firstn skipn]; change (firstn 0 n) with (@nil N); (replace (first_difference _ _ =? 0)%Z with true by (vm_compute; reflexivity)); now rewrite F.
Qed.

(** a digest file runs commands: its names are opened by OpenBlob.  [output] is what a command prints *)
Variable stdin_ : list N.
Variable run : list N -> list N.
Variable other : list N -> list N.
Definition contents (files : list N -> option node) (name : list N) : option (list N) :=
  match Open files name false false with
  | Ok (Some (Command line)) => Some (run line)
  | Ok (Some Standard) => Some stdin_
  | Ok (Some (Descriptor n)) => Some (other n)
  | Ok (Some w) => option_map (fun n => read w (content n)) (files name)
  | _ => None
  end.
Theorem digest_command_refuted : forall files canonical hexof t e fuel line, 80 < E -> 37 < fuel -> has_popen = true -> process line = true -> ascii line ->
  simple_entry E e -> d_path e = 124%N :: line -> canonical (d_path e) = d_path e -> names_hash (d_alg e) t ->
  exists reports status, AuthenticateDigest E (contents files) hexof fuel (write_digest canonical [e]) = Ok (Some (reports, status)) /\
    (In (124%N :: line) reports <-> d_hex e <> hexof t (run line)).
Proof.
  intros files canonical hexof t e fuel line E80 Fu P Q A S D C Nh.
  destruct (digest_verified_partial E canonical (contents files) hexof [e] fuel (fun _ => t) E80) as (reports & status & H & K).
  { intros e' [<-|[]]. tauto. } { cbn. lia. }
  exists reports, status. split; [exact H|]. rewrite K. unfold contents. rewrite command_refuted by assumption. split.
  - intros (e' & content' & [<-|[]] & _ & [= <-] & X). exact X.
  - intros X. exists e, (run line). split; [now left|]. split; [exact D|]. split; [reflexivity|exact X].
Qed.
End Open.

(** ** Examples *)
Definition no_files (_ : list N) : option node := None.
Definition yes {A} (_ : A) : bool := true.
Example ordinary_example : ordinary (b "dir/a.txt.gz").
Proof. split; [cbn; repeat (apply Forall_cons; [lia|]); apply Forall_nil|]. repeat split; discriminate. Qed.
Example way_example : OpenBlob true true true 100 4096 (fun _ => (-1)%Z) (fun _ => false) no_files yes yes yes yes (b "a.tar.GZ") true true = Ok (Some Gzip) /\
  OpenBlob true true true 100 4096 (fun _ => (-1)%Z) (fun _ => false) no_files yes yes yes yes (b "a.txt") true true = Ok (Some Plain).
Proof. split; vm_compute; reflexivity. Qed.
(** libraries that do nothing but add and drop the mark *)
Example libraries_example : libraries (app gzip_mark) (skipn 3) (app bzip_mark) (skipn 3).
Proof. repeat split. Qed.
(** a file beginning with BZh is read by bzlib *)
Example marked_example : OpenBlob true true true 100 4096 (fun _ => (-1)%Z) (fun _ => false) (fun _ => Some (mkNode false (b "BZhello"))) yes yes yes yes (b "notes.txt") false true = Ok (Some Bzip).
Proof. vm_compute. reflexivity. Qed.
Example command_example : OpenBlob true true true 100 4096 (fun _ => (-1)%Z) (fun _ => false) no_files yes yes yes yes (b "|reboot") false false = Ok (Some (Command (b "reboot"))).
Proof. vm_compute. reflexivity. Qed.
Definition evil : entry := sample_entry (b "|reboot") (b "0a").
Example evil_example : simple_entry 4096 evil /\ d_path evil = 124%N :: b "reboot" /\ names_hash (d_alg evil) 7.
Proof.
  assert (S : forall w, forallb (fun c => (33 <=? c) && (c <? 256) && negb (c =? 34) && negb (c =? 39) && negb (c =? 60) && negb (c =? 62) && negb (c =? 63))%N w = true ->
    w <> [] -> length w <= 30 -> simple 4096 w).
  { intros w H1 H2 H3. split; [exact (b_plain w H1)|]. split; [exact H2|]. change 4096 with (44 + 4052). lia. }
  split; [repeat split; apply S; try reflexivity; try discriminate; vm_compute; lia|]. split; [reflexivity|]. exists (b "SHA2-256"); split; [vm_compute; tauto | reflexivity].
Qed.

Print Assumptions written_read.
Print Assumptions written_way.
Print Assumptions marked_refuted.
Print Assumptions copy_refuted.
Print Assumptions command_refuted.
Print Assumptions special_refuted.
Print Assumptions digest_command_refuted.
