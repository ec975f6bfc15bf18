(** Model of wizard/option.c: the option tables, ParseWizardOption,
    WizardOptionToMnemonic and IsWizardOption.

    Strings are given without their terminating NUL, a position in a string is
    the rest of it.  [token] is a local buffer of 4096 bytes: a token that is
    empty makes option.c:481-482 read [token+1], which was never written (or
    holds the end of an earlier token); that is [UB] here.  [isspace] and
    [isalpha] are those of the C locale. *)
From Coq Require Import NArith ZArith Bool String Ascii List.
From Verif Require Import Base Outcome CStringModel.
Import ListNotations.
Local Open Scope Z_scope.

Fixpoint b (s : string) : list N :=
  match s with EmptyString => [] | String c s => N_of_ascii c :: b s end.

(** ** The tables; the values are those of the enumerations *)
(** option.c:58-64 *)
Definition AuthenticateOptions : list (list N * Z) :=
  [(b "Undefined", 0); (b "Public", 2); (b "Secret", 1)].
(** option.c:65-74 *)
Definition CipherOptions : list (list N * Z) :=
  [(b "Undefined", 0); (b "AES", 2); (b "Chacha", 3); (b "None", 1);
   (b "Serpent", 4); (b "Twofish", 5)].
(** option.c:75-114 *)
Definition CommandOptions : list (list N * Z) :=
  [(b "+authenticate", 1); (b "-authenticate", 1); (b "+chunksize", 1); (b "-chunksize", 1);
   (b "+decipher", 0); (b "-decipher", 0); (b "+debug", 1); (b "-debug", 1);
   (b "+entropy", 1); (b "-entropy", 1); (b "+hash", 1); (b "-hash", 1);
   (b "+help", 0); (b "-help", 0); (b "+key", 1); (b "-key", 1);
   (b "+key-length", 1); (b "-key-length", 1); (b "+mac", 1); (b "-mac", 1);
   (b "+level", 1); (b "-level", 1); (b "+list", 1); (b "-list", 1);
   (b "+log", 1); (b "-log", 1); (b "+mode", 1); (b "-mode", 1);
   (b "+properties", 1); (b "-properties", 1); (b "+random", 1); (b "-random", 1);
   (b "+verbose", 0); (b "-verbose", 0); (b "+version", 1); (b "-version", 1)].
(** option.c:115-123 *)
Definition DataTypeOptions : list (list N * Z) :=
  [(b "Undefined", 0); (b "Byte", 2); (b "Long", 4); (b "Short", 3);
   (b "String", 1)].
(** option.c:124-130 *)
Definition EndianOptions : list (list N * Z) :=
  [(b "Undefined", 0); (b "LSB", 1); (b "MSB", 2)].
(** option.c:131-144 *)
Definition EntropyLevelOptions : list (list N * Z) :=
  [(b "0", 0); (b "1", 1); (b "2", 2); (b "3", 3);
   (b "4", 4); (b "5", 5); (b "6", 6); (b "7", 7);
   (b "8", 8); (b "9", 9)].
(** option.c:145-153 *)
Definition EntropyOptions : list (list N * Z) :=
  [(b "Undefined", 0); (b "None", 1); (b "BZip", 3); (b "LZMA", 4);
   (b "Zip", 2)].
(** option.c:154-161 *)
Definition KeyLengthOptions : list (list N * Z) :=
  [(b "256", 256); (b "512", 512); (b "1024", 1024); (b "2048", 2048)].
(** option.c:162-184 *)
Definition HashOptions : list (list N * Z) :=
  [(b "Undefined", 0); (b "CRC64", 2); (b "MD5", 3); (b "None", 1);
   (b "SHA1", 4); (b "SHA224", 6); (b "SHA256", 7); (b "SHA384", 8);
   (b "SHA512", 9); (b "SHA2", 5); (b "SHA2-224", 6); (b "SHA2-256", 7);
   (b "SHA2-384", 8); (b "SHA2-512", 9); (b "SHA3", 10); (b "SHA3-224", 11);
   (b "SHA3-256", 12); (b "SHA3-384", 13); (b "SHA3-512", 14)].
(** option.c:185-200 *)
Definition ListOptions : list (list N * Z) :=
  [(b "Authenticate", 0); (b "Cipher", 1); (b "Command", 2); (b "DataType", 3);
   (b "Debug", 4); (b "Endian", 5); (b "Entropy", 6); (b "EntropyLevel", 7);
   (b "Hash", 9); (b "KeyLength", 8); (b "List", 10); (b "Mode", 11)].
(** option.c:201-215 *)
Definition LogWizardEventOptions : list (list N * Z) :=
  [(b "All", 2147483646); (b "Blob", 4); (b "Deprecate", 64); (b "Configure", 32);
   (b "Exception", 128); (b "Locale", 256); (b "None", 0); (b "Resource", 1024);
   (b "Trace", 1); (b "User", 8192); (b "Warning", 4096)].
(** option.c:216-225 *)
Definition ModeOptions : list (list N * Z) :=
  [(b "Undefined", 0); (b "CBC", 1); (b "CFB", 2); (b "CTR", 3);
   (b "ECB", 4); (b "OFB", 5)].
(** option.c:226-235 *)
Definition ResourceOptions : list (list N * Z) :=
  [(b "Undefined", 0); (b "Area", 1); (b "Disk", 2); (b "File", 3);
   (b "Map", 4); (b "Memory", 5)].

(** option.h:37-55 *)
Inductive WizardOption :=
| WizardAuthenticateOptions | WizardCipherOptions | WizardCommandOptions | WizardDataTypeOptions
| WizardDebugOptions | WizardEndianOptions | WizardEntropyOptions | WizardEntropyLevelOptions
| WizardKeyLengthOptions | WizardHashOptions | WizardListOptions | WizardModeOptions
| WizardLogEventOptions | WizardResourceOptions.

(** option.c:260-281 *)
Definition GetOptionInfo (option : WizardOption) : list (list N * Z) :=
  match option with
  | WizardAuthenticateOptions => AuthenticateOptions
  | WizardCipherOptions => CipherOptions
  | WizardCommandOptions => CommandOptions
  | WizardDataTypeOptions => DataTypeOptions
  | WizardDebugOptions => LogWizardEventOptions
  | WizardEndianOptions => EndianOptions
  | WizardEntropyOptions => EntropyOptions
  | WizardEntropyLevelOptions => EntropyLevelOptions
  | WizardKeyLengthOptions => KeyLengthOptions
  | WizardHashOptions => HashOptions
  | WizardListOptions => ListOptions
  | WizardLogEventOptions => LogWizardEventOptions
  | WizardModeOptions => ModeOptions
  | WizardResourceOptions => ResourceOptions
  end.

(** option.c:469-479, the first entry with the name, in any letter case *)
Fixpoint lookup (info : list (list N * Z)) (token : list N) : option Z :=
  match info with
  | [] => None
  | (mnemonic, type) :: info =>
      match LocaleCompare (token ++ [0%N]) (mnemonic ++ [0%N]) with
      | Ok 0 => Some type
      | _ => lookup info token
      end
  end.

(** option.c:452-454 *)
Fixpoint skip_separators (p : list N) : list N :=
  match p with
  | c :: p' => if isspace c || (c =? 44)%N then skip_separators p' else p
  | [] => []
  end.
(** 455-456 *)
Definition skip_sign (p : list N) : list N :=
  match p with c :: p' => if (c =? 45)%N || (c =? 43)%N then p' else p | [] => [] end.
(** 457-459 *)
Definition skip_bang (p : list N) : list N :=
  match p with c :: p' => if (c =? 33)%N then p' else p | [] => [] end.
(** 460-468, at most [room] characters; the token and the rest *)
Fixpoint take_token (room : nat) (p : list N) : list N * list N :=
  match p, room with
  | c :: p', S r => if isspace c || (c =? 44)%N then ([], p) else let '(t, q) := take_token r p' in (c :: t, q)
  | _, _ => ([], p)
  end.
Definition WizardPathExtent : nat := 16 * 256.   (* 4096 *)

(** strchr *)
Fixpoint find_char (c : N) (p : list N) : option (list N) :=
  match p with [] => None | d :: p' => if (d =? c)%N then Some p else find_char c p' end.

(** 484-487: delete every [c] after the first character; CopyWizardString
    copies at most [4096 - strlen(q) - 1] characters *)
Fixpoint squeeze (fuel : nat) (c : N) (token : list N) : list N :=
  match fuel with
  | O => token
  | S f =>
      match find_char c (tl token) with
      | None => token
      | Some q => squeeze f c (firstn (length token - length q) token ++ firstn (WizardPathExtent - length q - 1) (tl q))
      end
  end.

(** 473-476 and 491-494 *)
Definition apply_type (token : list N) (types type : Z) : Z :=
  match token with
  | c :: _ => if (c =? 33)%N then Z.land types (Z.lnot type) else Z.lor types type
  | [] => Z.lor types type
  end.

(** option.c:422-504, ParseWizardOption; one round of the loop per unit of
    fuel ([Fatal]: the fuel ran out) *)
Fixpoint parse_loop (fuel : nat) (info : list (list N * Z)) (many : bool) (p : list N) (types : Z) : outcome Z :=
  match fuel with
  | O => Fatal
  | S f =>
      let p := skip_bang (skip_sign (skip_separators p)) in
      let '(token, p) := take_token (WizardPathExtent - 1) p in
      let next (types : Z) : outcome Z :=
        if many then match find_char 44 p with Some p => parse_loop f info many p types | None => Ok types end   (* 450, 500 *)
        else Ok types in
      match lookup info token with
      | Some type => next (apply_type token types type)
      | None =>
          match token with
          | [] => UB
          | _ :: t =>
              match find_char 45 t, find_char 95 t with
              | None, None => Ok (-1)
              | _, _ =>
                  let token := squeeze (length token) 95 (squeeze (length token) 45 token) in
                  match lookup info token with
                  | Some type => next (apply_type token types type)
                  | None => Ok (-1)                                                                       (* 498-499 *)
                  end
              end
          end
      end
  end.
Definition ParseWizardOption (option : WizardOption) (many : bool) (options : list N) : outcome Z :=
  parse_loop (S (length options)) (GetOptionInfo option) many options 0.

(** option.c:531-549, WizardOptionToMnemonic *)
Fixpoint mnemonic_of (info : list (list N * Z)) (type : Z) : list N :=
  match info with
  | [] => b "undefined"
  | (mnemonic, t) :: info => if type =? t then mnemonic else mnemonic_of info type
  end.
Definition WizardOptionToMnemonic (option : WizardOption) (type : Z) : list N :=
  mnemonic_of (GetOptionInfo option) type.

(** option.c:330-341, IsWizardOption *)
Definition isalpha (c : N) : bool := ((65 <=? c) && (c <=? 90) || (97 <=? c) && (c <=? 122))%N.
Definition IsWizardOption (s : list N) : bool :=
  match s with
  | c :: d :: _ => ((c =? 45) || (c =? 43))%N && isalpha d
  | _ => false
  end.
