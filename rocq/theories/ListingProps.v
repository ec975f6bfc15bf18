(** The utility keyring: what it lists, and what it cannot do. *)
From Coq Require Import NArith ZArith Bool String Arith Lia ZifyBool ZifyNat ZifyN List.
From Verif Require Import Base BaseLemmas Mem32 Outcome CStringModel StringInfoModel OptionModel ScanModel FileModel FileProps ReadLemmas RandomModel KeyringModel KeyringSpec KeyringProof
  CStringSpec CStringProps2 CommandModel CommandProps TokenModel ListingModel.
Import ListNotations.
Local Open Scope nat_scope.

(** * The listing *)
(** what an entry is listed as: nothing of the key *)
Record public := { p_id : list N; p_nonce : list N; p_time : N; p_major : N; p_minor : N }.
Definition visible (e : entry) : public :=
  {| p_id := e_id e; p_nonce := e_nonce e; p_time := if old_version (e_major e) (e_minor e) then e_word e else e_timestamp e; p_major := e_major e; p_minor := e_minor e |}.
Definition newline : list N := [10%N].
Definition element (name value : string) (text : list N) : list N := b "    <" ++ b name ++ b value ++ text ++ b "</" ++ b name ++ b ">" ++ newline.

Section Listing.
Variable format_time : N -> list N.
Definition listed (canonical : list N) (p : public) : list N :=
  b "  <keyring:Key rdf:about=""" ++ hex_of (p_id p) ++ b """>" ++ newline ++
  b "    <keyring:memberOf rdf:resource=""" ++ canonical ++ b """/>" ++ newline ++
  element "keyring:nonce" ">" (hex_of (p_nonce p)) ++
  element "keyring:timestamp" ">" (format_time (p_time p)) ++
  element "keyring:protocol" ">" (decimal (p_major p) ++ b "." ++ decimal (p_minor p)) ++
  b "  </keyring:Key>" ++ newline.
Lemma hex_eq s : bytes s -> hex s = hex_of s.
Proof. intros B. unfold hex. rewrite hex_string_eq by exact B. apply removelast_last. Qed.
Lemma key_text_eq canonical e : bytes (e_id e) -> bytes (e_nonce e) ->
  key_text format_time canonical (e_id e) (e_nonce e) (if old_version (e_major e) (e_minor e) then e_word e else e_timestamp e) (e_major e) (e_minor e) = listed canonical (visible e).
Proof.
  intros A B. unfold key_text, listed, element, visible, newline. cbn [p_id p_nonce p_time p_major p_minor]. rewrite !hex_eq by assumption.
  rewrite <- !app_assoc. reflexivity.
Qed.
Lemma print_head t canonical f major minor len ts e s : entry_ok e -> at_ f (entry_head e ++ s) -> exists f', at_ f' s /\
  print_loop format_time (S t) canonical f major minor len ts =
    let '(s10, nonce, f2) := read_chunk f' (length (e_nonce e)) in
    if negb s10 then Fatal else
    let ts := if old_version (e_major e) (e_minor e) then e_word e else e_timestamp e in
    let* rest := print_loop format_time t canonical f2 (e_major e) (e_minor e) (N.of_nat (length (e_nonce e))) ts in
    Ok (key_text format_time canonical (e_id e) nonce ts (e_major e) (e_minor e) ++ rest).
Proof.
  intros ((W & M & m & T & I & K & Nn) & _ & _ & _) A.
  cbn [print_loop]. unfold entry_head in A. rewrite <- !app_assoc in A.
  destruct (read32_app f _ _ 0%N A) as (f1 & -> & A1); [reflexivity|]. cbn [negb]. change (negb (0xabacadab =? WizardSignature)%N) with false. cbv iota.
  destruct (read32_app f1 _ _ len A1 W) as (f2 & -> & A2).
  destruct (read16_app f2 _ _ major A2 M) as (f3 & -> & A3).
  destruct (read16_app f3 _ _ minor A3 m) as (f4 & -> & A4).
  fold (old_version (e_major e) (e_minor e)).
  assert (exists f5, (if old_version (e_major e) (e_minor e) then (true, e_word e, f4) else ReadFile64Bits f4 ts) =
     (true, if old_version (e_major e) (e_minor e) then e_word e else e_timestamp e, f5) /\
     at_ f5 (le_bytes 4 (N.of_nat (length (e_id e))) ++ e_id e ++ le_bytes 4 (N.of_nat (length (e_key e))) ++ e_key e ++ le_bytes 4 (N.of_nat (length (e_nonce e))) ++ s)) as (f5 & -> & A5).
  { destruct (old_version _ _); cbn [app] in A4; [eauto|]. destruct (read64_app f4 _ _ ts A4 T) as (f5 & -> & A5). eauto. }
  destruct (read32_app f5 _ _ (e_word e) A5 I) as (f6 & -> & A6). cbn [andb negb].
  destruct (read_chunk_app f6 _ _ (N.to_nat (N.of_nat (length (e_id e)))) A6) as (f7 & -> & A7); [lia|].
  destruct (read32_app f7 _ _ (N.of_nat (length (e_id e))) A7 K) as (f8 & -> & A8). cbn [andb negb].
  destruct (read_chunk_app f8 _ _ (N.to_nat (N.of_nat (length (e_key e)))) A8) as (f9 & -> & A9); [lia|].
  destruct (read32_app f9 _ _ (N.of_nat (length (e_key e))) A9 Nn) as (f10 & -> & A10). cbn [andb negb].
  exists f10. split; [exact A10|]. rewrite Nat2N.id. reflexivity.
Qed.
Lemma print_entries canonical es : forall t f major minor len ts s, Forall entry_ok es -> at_ f (concat (map entry_bytes es) ++ s) -> exists f' major' minor' len' ts', at_ f' s /\
  print_loop format_time (length es + t) canonical f major minor len ts =
    let* rest := print_loop format_time t canonical f' major' minor' len' ts' in Ok (concat (map (fun e => listed canonical (visible e)) es) ++ rest).
Proof.
  induction es as [|e es IH]; intros t f major minor len ts s F A; cbn [map concat length Nat.add app] in *.
  - exists f, major, minor, len, ts. split; [exact A|]. destruct (print_loop _ _ _ _ _ _ _ _); reflexivity.
  - inversion_clear F as [|? ? O F']. unfold entry_bytes in A at 1. rewrite <- !app_assoc in A.
    destruct (print_head (length es + t) canonical f major minor len ts e _ O A) as (f1 & A1 & ->).
    destruct (read_chunk_app f1 _ _ (length (e_nonce e)) A1 eq_refl) as (f2 & -> & A2). cbn [negb]. cbv zeta.
    destruct (IH t f2 (e_major e) (e_minor e) (N.of_nat (length (e_nonce e))) (if old_version (e_major e) (e_minor e) then e_word e else e_timestamp e) s F' A2)
      as (f' & mj & mn & ln & ts' & A' & ->). exists f', mj, mn, ln, ts'. split; [exact A'|].
    destruct O as (_ & B1 & _ & B2). rewrite key_text_eq by assumption. destruct (print_loop _ _ _ f' _ _ _ _); cbn [bind]; [|reflexivity|reflexivity]. now rewrite <- app_assoc.
Qed.
Lemma print_inv t : forall canonical f major minor len ts s, at_ f s -> bytes s -> length s < t ->
  print_loop format_time t canonical f major minor len ts = Fatal \/
  exists es tail, s = concat (map entry_bytes es) ++ tail /\ Forall entry_ok es /\ length tail < 4.
Proof.
  induction t as [|t IH]; intros canonical f major minor len ts s A B LT; [lia|].
  destruct (le_lt_dec 4 (length s)) as [L4|L4]; [|right; exists [], s; repeat split; [constructor|exact L4]].
  cbn [print_loop].
  destruct (ReadFile32Bits f 0%N) as [[s0 v0] f0] eqn:R0. destruct s0; cbn [negb].
  2:{ exfalso. pose proof (read_chunk_at f s 4 A) as R. unfold take in R. destruct (Nat.leb_spec 4 (length s)); [|lia]. destruct R as (f' & R & _).
      unfold ReadFile32Bits, read_value in R0. rewrite R in R0. discriminate. }
  destruct (N.eqb_spec v0 WizardSignature) as [->|]; cbn [negb]; [|now left].
  destruct (read32_inv _ _ _ _ _ A B R0) as (t0 & -> & _ & A0 & B0). clear A B R0.
  destruct (ReadFile32Bits f0 len) as [[s1 v1] f1] eqn:R1.
  destruct (ReadFile16Bits f1 major) as [[s2 v2] f2] eqn:R2.
  destruct (ReadFile16Bits f2 minor) as [[s3 v3] f3] eqn:R3.
  destruct (if (v2 =? 1)%N && (v3 =? 0)%N then (true, v1, f3) else ReadFile64Bits f3 ts) as [[s4 v4] f4] eqn:R4.
  destruct (ReadFile32Bits f4 v1) as [[s5 v5] f5] eqn:R5.
  destruct (s1 && s2 && s3 && s4 && s5) eqn:ST; cbn [negb]; [|now left].
  destruct s1, s2, s3, s4, s5; try discriminate ST. clear ST.
  destruct (read32_inv _ _ _ _ _ A0 B0 R1) as (t1 & -> & V1 & A1 & B1). clear A0 R1.
  destruct (read16_inv _ _ _ _ _ A1 B1 R2) as (t2 & -> & V2 & A2 & B2). clear A1 R2.
  destruct (read16_inv _ _ _ _ _ A2 B2 R3) as (t3 & -> & V3 & A3 & B3). clear A2 R3.
  assert (X : exists u t4, (u < 2 ^ 64)%N /\ t3 = (if old_version v2 v3 then [] else le_bytes 8 u) ++ t4 /\ at_ f4 t4 /\ bytes t4).
  { unfold old_version. destruct ((v2 =? 1)%N && (v3 =? 0)%N).
    - injection R4 as <- <-. exists 0%N, t3. repeat split; assumption.
    - destruct (read64_inv _ _ _ _ _ A3 B3 R4) as (t4 & -> & V4 & A4 & B4). exists v4, t4. repeat split; assumption. }
  destruct X as (u & t4 & U & -> & A4 & B4). clear A3 R4.
  destruct (read32_inv _ _ _ _ _ A4 B4 R5) as (t5 & -> & V5 & A5 & B5). clear A4 R5.
  destruct (read_chunk f5 (N.to_nat v5)) as [[s6 id] f6] eqn:R6.
  destruct (ReadFile32Bits f6 v5) as [[s7 v7] f7] eqn:R7.
  destruct s6, s7; cbn [andb negb]; try (now left).
  destruct (read_chunk_inv _ _ _ _ _ A5 R6) as (t6 & -> & L6 & A6). clear A5 R6. apply Forall_app in B5 as [I6 B6].
  destruct (read32_inv _ _ _ _ _ A6 B6 R7) as (t7 & -> & V7 & A7 & B7). clear A6 R7.
  destruct (read_chunk f7 (N.to_nat v7)) as [[s8 key] f8] eqn:R8.
  destruct (ReadFile32Bits f8 v7) as [[s9 v9] f9] eqn:R9.
  destruct s8, s9; cbn [andb negb]; try (now left).
  destruct (read_chunk_inv _ _ _ _ _ A7 R8) as (t8 & -> & L8 & A8). clear A7 R8. apply Forall_app in B7 as [I8 B8].
  destruct (read32_inv _ _ _ _ _ A8 B8 R9) as (t9 & -> & V9 & A9 & B9). clear A8 R9.
  destruct (read_chunk f9 (N.to_nat v9)) as [[s10 nonce] f10] eqn:R10.
  destruct s10; cbn [negb]; [|now left].
  destruct (read_chunk_inv _ _ _ _ _ A9 R10) as (t10 & -> & L10 & A10). apply Forall_app in B9 as [I9 B10].
  destruct (IH canonical f10 v2 v3 v9 v4 t10 A10 B10) as [->|(es & tail & E & F & L)]; [|now left|].
  { clear - LT. repeat rewrite app_length in LT. rewrite le_bytes_length in LT at 1. lia. }
  right. exists (mkEntry v1 v2 v3 u id key nonce :: es), tail. split; [|split; [|exact L]].
  - cbn [map concat]. unfold entry_bytes at 1, entry_head. cbn [e_word e_major e_minor e_timestamp e_id e_key e_nonce]. rewrite L6, L8, L10, !N2Nat.id, E, <- !app_assoc. reflexivity.
  - constructor; [|exact F]. unfold entry_ok. cbn [e_word e_major e_minor e_timestamp e_id e_key e_nonce]. repeat split; try assumption; lia.
Qed.
Section Run.
Variables (fuel : nat) (lsb : bool) (junk : list N).
Notation H := (keyring_magick fuel lsb junk ++ keyring_filetype fuel lsb junk).
Notation Print := (PrintKeyringProperties format_time fuel lsb junk).
Definition about (canonical : list N) (mtime now : N) : list N :=
  b "  <keyring:Keyring rdf:about=""" ++ canonical ++ b """>" ++ newline ++
  element "keyring:modify-date" ">" (format_time mtime) ++ element "keyring:create-date" ">" (format_time mtime) ++ element "keyring:timestamp" ">" (format_time now) ++
  b "  </keyring:Keyring>" ++ newline.
Lemma print_header s canonical mtime now ts : exists f, at_ f s /\
  Print (Some (H ++ s)) canonical mtime now ts = let* keys := print_loop format_time (S (length (H ++ s))) canonical f 0 0 0 ts in Ok (about canonical mtime now ++ keys).
Proof.
  unfold PrintKeyringProperties. assert (A : at_ (mkFile (H ++ s) 0) (keyring_magick fuel lsb junk ++ keyring_filetype fuel lsb junk ++ s)) by (unfold at_; cbn [f_pos f_bytes skipn]; now rewrite <- app_assoc).
  destruct (read_chunk_app _ _ _ _ A eq_refl) as (f1 & -> & A1). rewrite same_string_refl. cbn [negb orb].
  destruct (read_chunk_app _ _ _ _ A1 eq_refl) as (f2 & -> & A2). rewrite same_string_refl. cbn [negb orb].
  exists f2. split; [exact A2|]. replace (keyring_text format_time canonical mtime now) with (about canonical mtime now); [reflexivity|].
  unfold about, keyring_text, element, newline. rewrite <- !app_assoc. reflexivity.
Qed.
(** C162.  Every keyring is listed: its entries one by one, in their order, each with its id, nonce, time and protocol. *)
Theorem listing_complete : forall es tail canonical mtime now ts, Forall entry_ok es -> length tail < 4 ->
  Print (Some (keyring_bytes H es ++ tail)) canonical mtime now ts = Ok (about canonical mtime now ++ concat (map (fun e => listed canonical (visible e)) es)).
Proof.
  intros es tail canonical mtime now ts F L. unfold keyring_bytes. rewrite <- app_assoc.
  destruct (print_header (concat (map entry_bytes es) ++ tail) canonical mtime now ts) as (f & A & ->).
  assert (exists t, S (length (H ++ concat (map entry_bytes es) ++ tail)) = length es + S t) as (t & ->).
  { pose proof (entries_length es) as E. unfold entries in E. exists (length (H ++ concat (map entry_bytes es) ++ tail) - length es). rewrite !app_length. lia. }
  destruct (print_entries canonical es (S t) f 0%N 0%N 0%N ts tail F A) as (f' & mj & mn & ln & ts' & A' & ->).
  assert (print_loop format_time (S t) canonical f' mj mn ln ts' = Ok []) as ->; [|cbn [bind]; now rewrite app_nil_r].
  cbn [print_loop]. assert (exists v f2, ReadFile32Bits f' 0%N = (false, v, f2)) as (v & f2 & ->); [|reflexivity].
  destruct (ReadFile32Bits f' 0%N) as [[[|] v] f2] eqn:E; [|eauto]. exfalso. unfold ReadFile32Bits, read_value in E.
  destruct (read_chunk f' 4) as [[st x] f3] eqn:R. destruct st; [|discriminate E]. destruct (read_chunk_inv _ _ _ _ _ A' R) as (s' & -> & Lx & _). rewrite app_length in L. lia.
Qed.
(** The keys themselves, and even their lengths, do not show: two keyrings that differ in them only have the same listing. *)
Theorem listing_secret : forall es es' tail tail' canonical mtime now ts ts', Forall entry_ok es -> Forall entry_ok es' -> length tail < 4 -> length tail' < 4 ->
  map visible es = map visible es' ->
  Print (Some (keyring_bytes H es ++ tail)) canonical mtime now ts = Print (Some (keyring_bytes H es' ++ tail')) canonical mtime now ts'.
Proof.
  intros es es' tail tail' canonical mtime now ts ts' F F' L L' E. rewrite !listing_complete by assumption.
  rewrite <- (map_map visible (listed canonical) es), <- (map_map visible (listed canonical) es'), E. reflexivity.
Qed.
(** Any other file, one with a damaged header, record or end, stops the program: the path of the file that was just destroyed is asked for. *)
Theorem listing_damaged_refuted : forall file canonical mtime now ts, bytes file ->
  ~ (exists es tail, file = keyring_bytes H es ++ tail /\ Forall entry_ok es /\ length tail < 4) ->
  Print (Some file) canonical mtime now ts = Fatal.
Proof.
  intros file canonical mtime now ts B. unfold PrintKeyringProperties. generalize (keyring_magick fuel lsb junk), (keyring_filetype fuel lsb junk). intros m ft ND.
  destruct (read_chunk (mkFile file 0) (length m)) as [[s1 x1] f1] eqn:R1.
  destruct s1; cbn [negb orb]; [|reflexivity]. destruct (same_string x1 m) eqn:S1; cbn [negb]; [|reflexivity]. apply same_string_spec in S1. subst x1.
  destruct (read_chunk f1 (length ft)) as [[s2 x2] f2] eqn:R2.
  destruct s2; cbn [negb orb]; [|reflexivity]. destruct (same_string x2 ft) eqn:S2; cbn [negb]; [|reflexivity]. apply same_string_spec in S2. subst x2.
  destruct (read_chunk_inv (mkFile file 0) file _ _ _ eq_refl R1) as (t1 & -> & _ & A1).
  destruct (read_chunk_inv _ _ _ _ _ A1 R2) as (t2 & -> & _ & A2).
  assert (B2 : bytes t2) by (apply Forall_app in B as [_ B]; now apply Forall_app in B).
  destruct (print_inv (S (length (m ++ ft ++ t2))) canonical f2 0%N 0%N 0%N ts t2 A2 B2) as [-> | (es & tail & E & F & L)]; [rewrite !app_length; lia|reflexivity|].
  exfalso. apply ND. exists es, tail. split; [|now split]. subst t2. unfold keyring_bytes. now rewrite <- !app_assoc.
Qed.
End Run.
End Listing.

(** * The command *)
Section Command.
Variable expand : list (list N) -> outcome (list (list N)).
Variable can_open : list N -> bool.
Variable print : option (list N) -> outcome (list N).
Notation Command := (KeyringCommand expand can_open print).
(** a name that is not an option and not, but for its first character, the word export *)
Definition keyring_name (a : list N) : Prop := exists c a', a = c :: a' /\ IsWizardOption a = false /\ ascii a' /\ map lower a' <> b "export".
Lemma name_exports a rest : keyring_name a -> rest <> [] -> exports (a :: rest) = exports rest.
Proof.
  intros (c & a' & -> & _ & A & NE) R. destruct rest as [|r rest]; [contradiction|]. change (exports ((c :: a') :: r :: rest)) with (if is_name a' (b "export") then Ok true else exports (r :: rest)).
  rewrite is_name_false; [reflexivity|exact A| |exact NE]. cbn. repeat (apply Forall_cons; [lia|]). apply Forall_nil.
Qed.
Lemma names_exports names rest : Forall keyring_name names -> rest <> [] -> exports (names ++ rest) = exports rest.
Proof. intros F R. induction F as [|a names K F IH]; [reflexivity|]. cbn [app]. rewrite name_exports; [exact IH|exact K|]. destruct names; [exact R|discriminate]. Qed.
Lemma names_list text names : forall fuel rest, Forall keyring_name names -> (forall a, In a names -> print (Some a) = Ok (text a)) -> rest <> [] ->
  list_keyrings print (length names + fuel) (names ++ rest) = let* r := list_keyrings print fuel rest in Ok (option_map (app (concat (map text names))) (fst r), snd r).
Proof.
  induction names as [|a names IH]; intros fuel rest F P R.
  - cbn. destruct (list_keyrings print fuel rest) as [[[x|] y]| |]; reflexivity.
  - inversion_clear F as [|? ? K F']. destruct K as (c & a' & -> & O & _). cbn [length Nat.add app].
    assert (exists r0 rs, names ++ rest = r0 :: rs) as (r0 & rs & E) by (destruct names; [destruct rest; [contradiction|do 2 eexists; reflexivity]|do 2 eexists; reflexivity]).
    cbn [list_keyrings]. rewrite E. unfold one. rewrite O. cbn [negb bind]. rewrite (P (c :: a')) by now left. cbn [bind]. rewrite <- E.
    rewrite IH; [|exact F'|intros x Hx; apply P; now right|exact R]. destruct (list_keyrings print fuel rest) as [[[x|] y]| |]; cbn [bind fst snd option_map]; try reflexivity.
    cbn [map concat]. now rewrite app_assoc.
Qed.
Lemma command_run args args' : 2 <= length args -> expand args = Ok args' -> exports args' = Ok false -> can_open (last args' []) = true ->
  Command args = (let* r := list_keyrings print (length args') args' in
            match r with
            | (_, false) => Ok (Quit (Some (last args' [])))
            | (None, true) => Ok (Broken (last args' []))
            | (Some text, true) =>
                let* more := match args' with [_] => print None | _ => Ok [] end in
                Ok (Listed (last args' []) (head_text ++ text ++ more ++ tail_text))
            end).
Proof. intros L E X O. unfold KeyringCommand. destruct args as [|a [|a2 args]]; cbn [length] in L; [lia..|]. destruct a; rewrite E; cbn [bind]; rewrite X; cbn [bind]; rewrite O; reflexivity. Qed.
Lemma last_snoc {A} (l : list A) x d : last (l ++ [x]) d = x.
Proof. apply last_last. Qed.

(** C163.  The keyrings named on the command line are listed, in their order, in the file named last *)
Theorem keyring_lists : forall args names output text, 2 <= length args -> expand args = Ok (names ++ [output]) -> names <> [] -> Forall keyring_name names ->
  (forall a, In a names -> print (Some a) = Ok (text a)) -> can_open output = true ->
  Command args = Ok (Listed output (head_text ++ concat (map text names) ++ tail_text)).
Proof.
  intros args names output text L E NE F P O. rewrite (command_run args _ L E); [|now rewrite names_exports by (assumption || discriminate)|now rewrite last_snoc].
  rewrite last_snoc, app_length. cbn [length]. rewrite (names_list text) by (assumption || discriminate). cbn [list_keyrings bind fst snd option_map].
  rewrite app_nil_r. destruct names as [|a [|a2 names]]; [contradiction|reflexivity|reflexivity].
Qed.
(** with one argument, the default keyring *)
Theorem keyring_default : forall output text, output <> [] -> ascii output -> ~ In (map lower (List.tl output)) [b "version"; b "-version"] ->
  expand [output] = Ok [output] -> print None = Ok text -> can_open output = true ->
  Command [output] = Ok (Listed output (head_text ++ text ++ tail_text)).
Proof.
  intros output text NE A V E P O. unfold KeyringCommand. destruct output as [|c name]; [contradiction|]. inversion_clear A as [|? ? A1 A2]. cbn [List.tl] in V.
  rewrite !is_name_false; [|cbn; repeat (apply Forall_cons; [lia|]); apply Forall_nil|exact A2|intros Q; apply V; rewrite <- Q; right; left; reflexivity|cbn; repeat (apply Forall_cons; [lia|]); apply Forall_nil|exact A2|intros Q; apply V; rewrite <- Q; left; reflexivity].
  cbn [orb]. rewrite E. cbn [bind exports last]. rewrite O. cbn [negb length list_keyrings bind]. rewrite P. cbn [bind]. reflexivity.
Qed.
(** whatever is listed is one RDF element *)
Theorem keyring_framed : forall args output text, Command args = Ok (Listed output text) ->
  exists attributes body, ~ In 62%N attributes /\
    text = b "<?xml version=""1.0""?>" ++ [10%N] ++ b "<rdf:RDF " ++ attributes ++ b ">" ++ [10%N] ++ body ++ b "</rdf:RDF>" ++ [10%N].
Proof.
  intros args output text H.
  assert (X : exists body, text = head_text ++ body ++ tail_text).
  { unfold KeyringCommand in H. destruct args as [|a args]; [discriminate|]. destruct a as [|c a].
    - destruct args as [|a2 args]; [discriminate|]. cbn [andb] in H. destruct (expand _) as [args'| |]; try discriminate. cbn [bind] in H.
      destruct (exports args') as [[]| |]; try discriminate; cbn [bind] in H.
      + destruct (ExportKeyring _ _) as [[x []]| |]; discriminate.
      + destruct (negb _); [discriminate|]. destruct (list_keyrings _ _ _) as [[[t|] []]| |]; try discriminate. cbn [bind] in H.
        destruct (match args' with [_] => print None | _ => Ok [] end) as [more| |]; try discriminate. cbn [bind] in H. injection H as _ <-. exists (t ++ more). now rewrite <- app_assoc.
    - match type of H with (if ?x then _ else _) = _ => destruct x; [discriminate|] end. destruct (expand _) as [args'| |]; try discriminate. cbn [bind] in H.
      destruct (exports args') as [[]| |]; try discriminate; cbn [bind] in H.
      + destruct (ExportKeyring _ _) as [[x []]| |]; discriminate.
      + destruct (negb _); [discriminate|]. destruct (list_keyrings _ _ _) as [[[t|] []]| |]; try discriminate. cbn [bind] in H.
        destruct (match args' with [_] => print None | _ => Ok [] end) as [more| |]; try discriminate. cbn [bind] in H. injection H as _ <-. exists (t ++ more). now rewrite <- app_assoc. }
  destruct X as (body & ->).
  exists (b "xmlns:rdf=""http://www.w3.org/1999/02/22-rdf-syntax-ns#""" ++ [10%N] ++ b "         xmlns:keyring=""https://urban-warrior.org/WizardsToolkit/keyring/1.0/"""), body.
  split; [vm_compute; intuition discriminate|]. reflexivity.
Qed.
(** options that are not known fail, and so does an output that cannot be written *)
Definition options : list (list N) := [b "debug"; b "export"; b "help"; b "list"; b "log"; b "version"].
Theorem keyring_unknown : forall args names o rest output text, 2 <= length args -> expand args = Ok (names ++ o :: rest ++ [output]) -> Forall keyring_name (names ++ rest) ->
  (forall a, In a names -> print (Some a) = Ok (text a)) -> IsWizardOption o = true -> ascii o -> ~ In (map lower (List.tl o)) options ->
  Command args = Ok (if can_open output then Broken output else Unopened).
Proof.
  intros args names o rest output text L E F P I A U. apply Forall_app in F as [F1 F2].
  assert (X : exports (names ++ o :: rest ++ [output]) = Ok false).
  { rewrite names_exports by (assumption || discriminate). destruct o as [|c d]; [discriminate|].
    assert (R : exports (rest ++ [output]) = Ok false) by (now rewrite names_exports by (assumption || discriminate)).
    destruct (rest ++ [output]) as [|r rs] eqn:Q; [destruct rest; discriminate|].
    change (exports ((c :: d) :: r :: rs)) with (if is_name d (b "export") then Ok true else exports (r :: rs)). rewrite is_name_false; [exact R|now inversion A|cbn; repeat (apply Forall_cons; [lia|]); apply Forall_nil|].
    intros Z. apply U. cbn [List.tl]. rewrite Z. right; left; reflexivity. }
  assert (LA : last (names ++ o :: rest ++ [output]) [] = output) by (rewrite app_comm_cons, app_assoc; apply last_last).
  destruct (can_open output) eqn:O.
  2:{ unfold KeyringCommand. destruct args as [|a [|a2 args]]; cbn [length] in L; [lia..|]. destruct a; rewrite E; cbn [bind]; rewrite X; cbn [bind]; rewrite LA, O; reflexivity. }
  rewrite (command_run args _ L E X) by now rewrite LA. rewrite LA, app_length. rewrite (names_list text) by (assumption || discriminate).
  destruct o as [|c [|d t]]; [discriminate|discriminate|]. cbn [length].
  assert (exists r0 rs, rest ++ [output] = r0 :: rs) as (r0 & rs & ->) by (destruct rest; cbn; eauto). cbn [list_keyrings].
  assert (one false (c :: d :: t) None (r0 :: rs) = Ok Refuse) as ->; [|reflexivity].
  assert (W : forall n, In n options -> ascii n /\ map lower n = n). { intros n J. repeat (destruct J as [<-|J]; [split; [cbn; repeat (apply Forall_cons; [lia|]); apply Forall_nil|reflexivity]|]). contradiction. }
  assert (A2 : ascii (d :: t)) by now inversion A. cbn [List.tl] in U.
  assert (K1 : forall n, In n options -> is_name n (d :: t) = false).
  { intros n J. destruct (W n J) as (An & Ln). apply is_name_false; try assumption. rewrite Ln. intros ->. contradiction. }
  assert (K3 : forall n, In n options -> is_name (c :: d :: t) (45%N :: n) = false).
  { intros n J. destruct (W n J) as (An & Ln). apply is_name_false; [assumption|constructor; [lia|assumption]|]. cbn [map]. rewrite Ln. intros Q. apply (f_equal (@List.tl N)) in Q. cbn [List.tl] in Q. apply U. change (In (lower d :: map lower t) options). rewrite Q. exact J. }
  unfold one. rewrite I. cbn [negb andb List.tl List.hd].
  assert (K4 : is_name (b "-help") (d :: t) = false).
  { apply is_name_false; [cbn; repeat (apply Forall_cons; [lia|]); apply Forall_nil|assumption|]. cbn in I. apply andb_prop in I as [_ Al]. cbn. unfold isalpha in Al. intros Q. injection Q as Q _. unfold lower in Q. destruct ((65 <=? d)%N && (d <=? 90)%N) eqn:Z; lia. }
  change (b "-debug") with (45%N :: b "debug"). change (b "-list") with (45%N :: b "list"). change (b "-version") with (45%N :: b "version").
  rewrite (K3 (b "debug")), (K1 (b "help")), K4, (K3 (b "list")), (K1 (b "log")), (K3 (b "version")) by (cbn; tauto).
  repeat match goal with |- (if ?x then _ else _) = _ => destruct x end; reflexivity.
Qed.

(** ** What does not work *)
(** no key is ever exported and the program left in good order: the arguments are freed twice, the id is missing, or help is printed *)
Theorem export_refuted : forall args args', 2 <= length args -> expand args = Ok args' -> exports args' = Ok true ->
  Command args = UB \/ Command args = Fatal \/ Command args = Ok (Quit None).
Proof.
  intros args args' L E X. unfold KeyringCommand. destruct args as [|a [|a2 args]]; cbn [length] in L; [lia..|].
  destruct a; rewrite E; cbn [bind]; rewrite X; cbn [bind]; destruct (ExportKeyring _ _) as [[? []]| |]; cbn [bind snd]; tauto.
Qed.
(** the two lines of the usage: with no keyring the arguments are freed twice; with a keyring that is named, NULL is the id of a key *)
Theorem export_usage_refuted : forall id ring output x, HexStringToStringInfo (id ++ [0%N]) = Ok x -> keyring_name ring ->
  (expand [b "-export"; id; output] = Ok [b "-export"; id; output] -> Command [b "-export"; id; output] = UB) /\
  (expand [b "-export"; id; ring; output] = Ok [b "-export"; id; ring; output] -> Command [b "-export"; id; ring; output] = Fatal).
Proof.
  intros id ring output x X (c & r & -> & O & _). split; intros E; unfold KeyringCommand.
  - change (b "-export") with (45%N :: b "export") in *. rewrite E. cbn [bind]. change (exports [45%N :: b "export"; id; output]) with (Ok true : outcome bool). cbn [bind length ExportKeyring].
    change (one true (45%N :: b "export") None [id; output]) with (let* x := HexStringToStringInfo (id ++ [0%N]) in Ok (Go id (Some (firstn (slen x) (datum x))) [output])).
    rewrite X. reflexivity.
  - change (b "-export") with (45%N :: b "export") in *. rewrite E. cbn [bind]. change (exports [45%N :: b "export"; id; c :: r; output]) with (Ok true : outcome bool). cbn [bind length ExportKeyring].
    change (one true (45%N :: b "export") None [id; c :: r; output]) with (let* x := HexStringToStringInfo (id ++ [0%N]) in Ok (Go id (Some (firstn (slen x) (datum x))) [c :: r; output])).
    rewrite X. cbn [bind]. unfold one. rewrite O. reflexivity.
Qed.
(** -help alone lists the default keyring in a file of this name; -list empties the file that is named as what to list *)
Theorem help_refuted : forall text, expand [b "-help"] = Ok [b "-help"] -> print None = Ok text -> can_open (b "-help") = true ->
  Command [b "-help"] = Ok (Listed (b "-help") (head_text ++ text ++ tail_text)).
Proof.
  intros text E P O. apply keyring_default; try assumption; [discriminate|cbn; repeat (apply Forall_cons; [lia|]); apply Forall_nil|]. cbn. intros [Q|[Q|[]]]; discriminate Q.
Qed.
Theorem list_refuted : expand [b "-list"; b "cipher"] = Ok [b "-list"; b "cipher"] -> can_open (b "cipher") = true ->
  Command [b "-list"; b "cipher"] = Ok (Quit (Some (b "cipher"))).
Proof. intros E O. erewrite command_run; [|cbn; lia|exact E|reflexivity|exact O]. vm_compute. reflexivity. Qed.
(** the parameter of -log is listed as a keyring, and when it is missing the output is taken for it *)
Theorem log_refuted : forall format output, In 37%N format ->
  (forall text, expand [b "-log"; format; output] = Ok [b "-log"; format; output] -> exports [format; output] = Ok false -> can_open output = true -> print (Some format) = Ok text ->
     Command [b "-log"; format; output] = Ok (Listed output (head_text ++ text ++ tail_text))) /\
  (forall text, expand [b "-log"; format] = Ok [b "-log"; format] -> can_open format = true -> print (Some format) = Ok text ->
     Command [b "-log"; format] = Ok (Listed format (head_text ++ text ++ tail_text))).
Proof.
  intros format output I. assert (P : existsb (N.eqb 37) format = true) by (apply existsb_exists; exists 37%N; split; [exact I|reflexivity]).
  split; intros text E.
  - intros X O T. erewrite command_run; [|cbn; lia|exact E|exact X|exact O]. cbn [length list_keyrings last].
    change (one false (b "-log") None [format; output]) with (Ok (if existsb (N.eqb 37) format then Go format None [output] else Refuse) : outcome turn). rewrite P. cbn [bind]. rewrite T. cbn [bind fst snd option_map].
    now rewrite app_nil_r.
  - intros O T. erewrite command_run; [|cbn; lia|exact E|reflexivity|exact O]. cbn [length list_keyrings last].
    change (one false (b "-log") None [format]) with (Ok (if existsb (N.eqb 37) format then Go format None [] else Refuse) : outcome turn). rewrite P. cbn [bind]. rewrite T. cbn [bind fst snd option_map].
    now rewrite app_nil_r.
Qed.
End Command.

(** ** Examples *)
Definition a_print (p : option (list N)) : outcome (list N) := Ok (b "[" ++ match p with Some a => a | None => b "default" end ++ b "]").
Example lists_example : KeyringCommand Ok (fun _ => true) a_print [b "a.xdm"; b "b.xdm"; b "out.rdf"] = Ok (Listed (b "out.rdf") (head_text ++ b "[a.xdm][b.xdm]" ++ tail_text)).
Proof.
  apply (keyring_lists Ok (fun _ => true) a_print _ [b "a.xdm"; b "b.xdm"] (b "out.rdf") (fun a => b "[" ++ a ++ b "]")); try reflexivity; [cbn; lia|discriminate|].
  repeat constructor; do 2 eexists; (split; [reflexivity|]); (split; [reflexivity|]); (split; [cbn; repeat (apply Forall_cons; [lia|]); apply Forall_nil|discriminate]).
Qed.
Example default_example : KeyringCommand Ok (fun _ => true) a_print [b "out.rdf"] = Ok (Listed (b "out.rdf") (head_text ++ b "[default]" ++ tail_text)).
Proof. vm_compute. reflexivity. Qed.
Example unknown_example : KeyringCommand Ok (fun _ => true) a_print [b "a.xdm"; b "-import"; b "out.rdf"] = Ok (Broken (b "out.rdf")).
Proof. vm_compute. reflexivity. Qed.
Example export_example : KeyringCommand Ok (fun _ => true) a_print [b "-export"; b "0af1"; b "out.xdm"] = UB /\ KeyringCommand Ok (fun _ => true) a_print [b "-export"; b "0af1"; b "a.xdm"; b "out.xdm"] = Fatal.
Proof. vm_compute. split; reflexivity. Qed.
Example hex_example : exists x, HexStringToStringInfo (b "0af1" ++ [0%N]) = Ok x /\ firstn (slen x) (datum x) = [10; 241]%N.
Proof. eexists. split; vm_compute; reflexivity. Qed.
Definition an_entry : entry := (mkEntry 7 1 1 1000 [1; 2] [9; 9; 9] [255])%N.
Definition other_entry : entry := (mkEntry 8 1 1 1000 [1; 2] [5] [255])%N.
Example entry_example : entry_ok an_entry /\ entry_ok other_entry /\ visible an_entry = visible other_entry /\ an_entry <> other_entry.
Proof. repeat split; try (cbn; lia); try (repeat constructor; lia); try (cbn; repeat (apply Forall_cons; [unfold byte in *; lia|]); apply Forall_nil). discriminate. Qed.
Example text_example : listed (fun _ => b "T") (b "k") (visible an_entry) =
  b "  <keyring:Key rdf:about=""0102"">" ++ [10%N] ++ b "    <keyring:memberOf rdf:resource=""k""/>" ++ [10%N] ++ b "    <keyring:nonce>ff</keyring:nonce>" ++ [10%N] ++
  b "    <keyring:timestamp>T</keyring:timestamp>" ++ [10%N] ++ b "    <keyring:protocol>1.1</keyring:protocol>" ++ [10%N] ++ b "  </keyring:Key>" ++ [10%N].
Proof. vm_compute. reflexivity. Qed.
(** a keyring with four bytes that are no signature *)
Example damaged_example (H : list N) : ~ (exists es tail, H ++ [0; 0; 0; 0]%N = keyring_bytes H es ++ tail /\ Forall entry_ok es /\ length tail < 4).
Proof.
  intros (es & tail & Q & _ & L). unfold keyring_bytes in Q. rewrite <- app_assoc in Q. apply app_inv_head in Q.
  destruct es as [|e es]; cbn [map concat app] in Q; [subst tail; cbn in L; lia|]. unfold entry_bytes at 1, entry_head in Q. cbn in Q. discriminate Q.
Qed.

Print Assumptions listing_complete.
Print Assumptions listing_secret.
Print Assumptions listing_damaged_refuted.
Print Assumptions keyring_lists.
Print Assumptions keyring_default.
Print Assumptions keyring_framed.
Print Assumptions keyring_unknown.
Print Assumptions export_refuted.
Print Assumptions export_usage_refuted.
Print Assumptions help_refuted.
Print Assumptions list_refuted.
Print Assumptions log_refuted.
