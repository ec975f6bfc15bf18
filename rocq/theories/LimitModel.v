(** Model of the limits a process starts with: ResourceComponentGenesis, wizard/resource.c:887-960.

    [pages], [pagesize] and [files] are what sysconf returns (negative: unknown), [env] is the environment.
    GetEnvironmentValue (string.c:1177-1186) copies the value; ConstantString on it is not modelled (OneString.v has it).
    PixelCacheThreshold is not defined. *)
From Coq Require Import NArith ZArith Bool String List.
From Verif Require Import Base Outcome CStringModel OptionModel ScanModel ResourceModel.
Import ListNotations.
Local Open Scope Z_scope.

(** StringToUnsignedLong, string-private.h:59-62: strtoul in base 10 (ISO C 7.22.1.4) on 64 bits *)
Definition strtoul (p : list N) : N :=
  let clip v := if 2 ^ 64 - 1 <? v then 2 ^ 64 - 1 else v in
  Z.to_N (match drop_spaces p with
          | 45%N :: p => let v := digits 0 p in if 2 ^ 64 - 1 <? v then 2 ^ 64 - 1 else (- v) mod 2 ^ 64
          | 43%N :: p => clip (digits 0 p)
          | p => clip (digits 0 p)
          end).
(** 914-916 *)
Definition memory_of (pages pagesize : Z) : N :=
  if (pagesize <=? 0) || (pages <=? 0) then 2048%N
  else Z.to_N ((((pages + 512) ÷ 1024) * ((pagesize + 512) ÷ 1024)) mod 2 ^ 64).
(** 950-951 *)
Definition files_of (files : Z) : N := Z.to_N (Z.max ((3 * files) ÷ 4) 64).
Definition from_env (env : string -> option (list N)) (name : string) (t : rtype) (s : resource_info) : resource_info :=
  match env name with Some v => set_limit s t (strtoul v) | None => s end.
Definition ResourceComponentGenesis (env : string -> option (list N)) (pages pagesize files : Z) (s : resource_info) : resource_info :=
  let memory := memory_of pages pagesize in
  let s := set_limit s AreaResource (memory / 8) in
  let s := set_limit s MemoryResource memory in
  let s := set_limit s MapResource ((2 * memory) mod 2 ^ 64)%N in
  let s := from_env env "WIZARD_AREA_LIMIT" AreaResource s in
  let s := from_env env "WIZARD_MEMORY_LIMIT" MemoryResource s in
  let s := from_env env "WIZARD_MAP_LIMIT" MapResource s in
  let s := from_env env "WIZARD_DISK_LIMIT" DiskResource s in
  let s := set_limit s FileResource (files_of files) in
  from_env env "WIZARD_FILE_LIMIT" FileResource s.
