(** What a KeyInfo is: a map from ids to keys. *)
From Coq Require Import NArith List.
From Verif Require Import Base Outcome HashModel HashSpec HashProps KeyModel.
Import ListNotations.

Definition keys := list N -> option (list N).
Definition put (f : keys) (id key : list N) : keys := fun i => if list_eq_dec N.eq_dec i id then Some key else f i.
Definition no_keys : keys := fun _ => None.

Definition then_ (r : kout) (rs : outcome (list kout)) : outcome (list kout) :=
  match rs with Ok rs => Ok (r :: rs) | Fatal => Fatal | UB => UB end.

(** a history of calls and what it returns: a key that was set is what its id
    gives until it is set again; an id that was not set is fatal; a generated
    key's id is its keyed SHA-256 digest; setting a new id fails when there is no
    memory *)
Inductive key_run : keys -> list kop -> outcome (list kout) -> Prop :=
| run_nil f : key_run f [] (Ok [])
| run_set f rnd mem id key ops r : mem = true \/ f id <> None -> key_run (put f id key) ops r ->
    key_run f (KSet rnd mem id key :: ops) (then_ (KBool true) r)
| run_set_fails f rnd id key ops r : f id = None -> key_run f ops r ->
    key_run f (KSet rnd false id key :: ops) (then_ (KBool false) r)
| run_generate f rnd mac_key key id ops r : is_hmac (is_hash SHA2256Hash) 64 mac_key key id -> key_run (put f id key) ops r ->
    key_run f (KGenerate rnd mac_key key :: ops) (then_ (KString id) r)
| run_get f id key ops r : f id = Some key -> key_run f ops r -> key_run f (KGet id :: ops) (then_ (KString key) r)
| run_get_absent f id ops : f id = None -> key_run f (KGet id :: ops) Fatal.
