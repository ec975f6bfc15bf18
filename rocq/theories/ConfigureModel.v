(** Where configuration files are searched, how they are loaded, looked up and listed
    (wizard/configure.c; the lists also in mime.c and log.c).

    A file is given by the elements of its XML tree this code looks at; the XML parser
    is modelled in XmlModel.v.  qsort is an argument. *)
From Coq Require Import NArith ZArith Bool Arith List.
From Verif Require Import Base Outcome GlobModel PathModel.
Import ListNotations.

(** strcasecmp in the C locale *)
Definition lower (c : N) : N := if (65 <=? c)%N && (c <=? 90)%N then (c + 32)%N else c.
Fixpoint strcasecmp (p q : list N) : Z :=
  match p, q with
  | [], [] => 0%Z
  | [], d :: _ => (- Z.of_N (lower d))%Z
  | c :: _, [] => Z.of_N (lower c)
  | c :: p, d :: q => if (lower c =? lower d)%N then strcasecmp p q else (Z.of_N (lower c) - Z.of_N (lower d))%Z
  end.

Definition slash_text : list N := [47]%N.
Definition toolkit : list N := [87; 105; 122; 97; 114; 100; 115; 84; 111; 111; 108; 107; 105; 116]%N.   (* WizardsToolkit *)
Definition dot_config : list N := [46; 99; 111; 110; 102; 105; 103]%N.                                 (* .config *)

Section Paths.
(** WizardPathExtent *)
Variable P : nat.
(** CopyWizardString, ConcatenateWizardString and FormatLocaleString into a buffer of P bytes *)
Definition fit (s : list N) : list N := firstn (P - 1) s.

(** strchr for the list separator: the text before it and the text behind it *)
Fixpoint colon (s : list N) : list N * option (list N) :=
  match s with
  | [] => ([], None)
  | c :: s => if (c =? 58)%N then ([], Some s) else let (x, y) := colon s in (c :: x, y)
  end.
Definition ends_in_slash (s : list N) : bool := match rev s with c :: _ => (c =? 47)%N | [] => true end.
(** configure.c:709-717: one turn *)
Definition search_element (s : list N) : list N :=
  let path := fst (colon (fit s)) in if ends_in_slash path then path else fit (path ++ slash_text).
(** configure.c:707-719 *)
Fixpoint search_list (fuel : nat) (s : list N) : list (list N) :=
  match fuel with
  | O => []
  | S fuel => search_element s :: match snd (colon s) with Some s => search_list fuel s | None => [] end
  end.

(** the variables of the environment; a value may be missing *)
Record environment := { wizard_configure_path : option (list N); xdg_config_home : option (list N); localappdata : option (list N);
  appdata : option (list N); userprofile : option (list N); home : option (list N) }.
Definition orelse {A} (x y : option A) : option A := match x with Some _ => x | None => y end.

(** configure.c:677-880; fixed is what is compiled in (configure.c:722-746), or found by WIZARD_HOME and the client path *)
Definition GetConfigurePaths (env : environment) (fixed : list (list N)) (filename : list N) : list (list N) :=
  match wizard_configure_path env with Some s => search_list (S (length s)) s | None => [] end
  ++ fixed
  ++ match orelse (xdg_config_home env) (orelse (localappdata env) (orelse (appdata env) (userprofile env))) with
     | Some h => [fit (h ++ slash_text ++ toolkit ++ slash_text ++ filename)]
     | None => []
     end
  ++ match home env with Some h => [fit (h ++ slash_text ++ dot_config ++ slash_text ++ toolkit ++ slash_text)] | None => [] end.

(** configure.c:594-656; the files read, with their names *)
Definition GetConfigureOptions {D} (file : list N -> option D) (env : environment) (fixed : list (list N)) (filename : list N) : list (list N * D) :=
  flat_map (fun element => let path := fit (element ++ filename) in match file path with Some xml => [(path, xml)] | None => [] end)
           (GetConfigurePaths env fixed filename).
End Paths.

(** ** Loading *)
Record element := { e_name : option (list N); e_stealth : option (list N); e_value : option (list N) }.
(** the attributes "file" of the include elements, and the configure elements *)
Record document := { includes : list (option (list N)); elements : list element }.
Record entry := { path : list N; name : option (list N); stealth : bool; value : option (list N) }.
(** utility.c:910-923: true, on, yes and 1 in any case *)
Definition IsWizardTrue (s : list N) : bool :=
  existsb (fun t => (strcasecmp s t =? 0)%Z) [[116; 114; 117; 101]; [111; 110]; [121; 101; 115]; [49]]%N.

Section Load.
Variable P : nat.
Variable isdir : list N -> Z.
Variable accessible : list N -> bool.
(** FileToXML *)
Variable file : list N -> option document.
(** whether a name that starts with a slash is taken as it is: false in configure.c:1107-1111,
    true in mime.c:837-844 and log.c:1513-1520 *)
Variable absolute : bool.

(** configure.c:1107-1111 *)
Definition include_path (filename attribute : list N) : outcome (list N) :=
  let* p := GetPathComponent P isdir accessible filename HeadPath in
  let p := match p with [] => [] | _ => fit P (p ++ slash_text) end in
  Ok (if absolute && match attribute with 47%N :: _ => true | _ => false end then fit P attribute else fit P (p ++ attribute)).
(** configure.c:1125-1150 *)
Definition entry_of (filename : list N) (e : element) : entry :=
  {| path := filename; name := e_name e; stealth := match e_stealth e with Some s => IsWizardTrue s | None => false end; value := e_value e |}.
(** configure.c:1088-1120: the includes; next loads a file *)
Fixpoint load_includes (next : list N -> list entry -> outcome (list entry)) (filename : list N) (l : list (option (list N)))
  (cache : list entry) : outcome (list entry) :=
  match l with
  | [] => Ok cache
  | None :: l => load_includes next filename l cache
  | Some a :: l => let* p := include_path filename a in let* cache := next p cache in load_includes next filename l cache
  end.
(** configure.c:1064-1160; rest is 201 - depth: at 0 an include is refused with an error *)
Fixpoint load (rest : nat) (filename : list N) (xml : document) (cache : list entry) : outcome (list entry) :=
  let* cache :=
    match rest with
    | O => Ok cache
    | S rest => load_includes (fun p cache => match file p with Some xml => load rest p xml cache | None => Ok cache end) filename (includes xml) cache
    end in
  Ok (cache ++ map (entry_of filename) (elements xml)).
(** configure.c:113-164: the built-in entries, and then the files found *)
Fixpoint load_options (l : list (list N * document)) (cache : list entry) : outcome (list entry) :=
  match l with [] => Ok cache | (p, xml) :: l => let* cache := load 201 p xml cache in load_options l cache end.
End Load.

(** ** Looking up *)
(** configure.c:353-359: the entry and the entries before and behind it *)
Fixpoint search (n : list N) (before cache : list entry) : outcome (option (list entry * entry * list entry)) :=
  match cache with
  | [] => Ok None
  | e :: l => match name e with
              | None => UB                                             (* strcasecmp of NULL *)
              | Some m => if (strcasecmp n m =? 0)%Z then Ok (Some (before, e, l)) else search n (before ++ [e]) l
              end
  end.
(** configure.c:333-367: the entry, which is moved to the front *)
Definition GetConfigureInfo (n : option (list N)) (cache : list entry) : outcome (option entry * list entry) :=
  let first := Ok (hd_error cache, cache) in
  match n with
  | None => first
  | Some n =>
      if (strcasecmp n [42]%N =? 0)%Z then first
      else let* r := search n [] cache in
           Ok (match r with None => (None, cache) | Some (l1, e, l2) => (Some e, e :: l1 ++ l2) end)
  end.

(** ** Lists *)
Section Lists.
Variable sort : forall A : Type, (A -> A -> Z) -> list A -> list A.
(** configure.c:445-453; the same in mime.c:469-477, log.c:498-506 *)
Fixpoint select (pattern : list N) (cache : list entry) : outcome (list entry) :=
  match cache with
  | [] => Ok []
  | e :: l =>
      if stealth e then select pattern l
      else match name e with
           | None => UB                                                (* GlobExpression of NULL *)
           | Some m => let* b := GlobExpression (m ++ [0%N]) (pattern ++ [0%N]) false in
                       let* r := select pattern l in Ok (if b then e :: r else r)
           end
  end.
Definition name_of (e : entry) : list N := match name e with Some m => m | None => [] end.
(** configure.c:400-411 *)
Definition ConfigureInfoCompare (x y : entry) : Z :=
  if (strcasecmp (path x) (path y) =? 0)%Z then strcasecmp (name_of x) (name_of y) else strcasecmp (path x) (path y).
(** configure.c:418-459; None if there are no entries *)
Definition GetConfigureInfoList (pattern : list N) (cache : list entry) : outcome (option (list entry)) :=
  match cache with
  | [] => Ok None
  | _ => let* l := select pattern cache in Ok (Some (sort entry ConfigureInfoCompare l))
  end.
(** configure.c:492-501: the comparison of two places of the array, each of which holds a text *)
Definition ConfigureCompare (x y : N * list N) : Z := strcasecmp (snd x) (snd y).
(** mime.c:521-530: the bytes of the two places themselves, up to the first zero; a place holds an address *)
Fixpoint address_bytes (n : nat) (a : N) : list N := match n with O => [] | S n => (a mod 256)%N :: address_bytes n (a / 256)%N end.
Fixpoint to_nul (s : list N) : list N := match s with [] => [] | c :: s => if (c =? 0)%N then [] else c :: to_nul s end.
Definition MimeCompare (x y : N * list N) : Z := strcasecmp (to_nul (address_bytes 8 (fst x))) (to_nul (address_bytes 8 (fst y))).
(** configure.c:508-548 and mime.c:536-577; the copies of the names and where malloc put them *)
Definition name_list (compare : N * list N -> N * list N -> Z) (malloc : nat -> N) (pattern : list N) (cache : list entry) : outcome (option (list (list N))) :=
  match cache with
  | [] => Ok None
  | _ => let* l := select pattern cache in
         Ok (Some (map snd (sort (N * list N)%type compare (combine (map malloc (seq 0 (length l))) (map name_of l)))))
  end.
Definition GetConfigureList := name_list ConfigureCompare.
Definition GetMimeList := name_list MimeCompare.
End Lists.
