(** What a keyring is: a list of entries, and its bytes on disk. *)
From Coq Require Import NArith List Bool.
From Verif Require Import Base.
Import ListNotations.

Record entry := mkEntry {
  e_word : N;       (* a reserved word; version 1.0 keeps the timestamp here *)
  e_major : N;
  e_minor : N;
  e_timestamp : N;
  e_id : list N;
  e_key : list N;
  e_nonce : list N
}.
Definition old_version (major minor : N) : bool := ((major =? 1) && (minor =? 0))%N.

Definition entry_head (e : entry) : list N :=
  le_bytes 4 0xabacadab ++ le_bytes 4 (e_word e) ++ le_bytes 2 (e_major e) ++ le_bytes 2 (e_minor e) ++
  (if old_version (e_major e) (e_minor e) then [] else le_bytes 8 (e_timestamp e)) ++
  le_bytes 4 (N.of_nat (length (e_id e))) ++ e_id e ++
  le_bytes 4 (N.of_nat (length (e_key e))) ++ e_key e ++
  le_bytes 4 (N.of_nat (length (e_nonce e))).
Definition entry_bytes (e : entry) : list N := entry_head e ++ e_nonce e.

Definition entry_ok (e : entry) : Prop :=
  (e_word e < 2 ^ 32 /\ e_major e < 2 ^ 16 /\ e_minor e < 2 ^ 16 /\ e_timestamp e < 2 ^ 64 /\
   N.of_nat (length (e_id e)) < 2 ^ 32 /\ N.of_nat (length (e_key e)) < 2 ^ 32 /\ N.of_nat (length (e_nonce e)) < 2 ^ 32)%N /\
  bytes (e_id e) /\ bytes (e_key e) /\ bytes (e_nonce e).

Definition keyring_bytes (header : list N) (es : list entry) : list N := header ++ concat (map entry_bytes es).

(** the first entry with the id *)
Fixpoint lookup (id : list N) (es : list entry) : option entry :=
  match es with
  | [] => None
  | e :: es => if list_eq_dec N.eq_dec (e_id e) id then Some e else lookup id es
  end.

(** ** what clients should see: handles, and one map from ids to secrets *)
Record handle := mkHandle { h_id : list N; h_key : list N; h_nonce : list N }.
Inductive op :=
| Acquire (h : nat) (now : N)
| SetId (h : nat) (s : list N)
| SetKey (h : nat) (s : list N)
| SetNonce (h : nat) (s : list N)
| Export (h : nat) (ts : N)
| Import (h : nat) (now ts : N).

Definition update {A} (m : nat -> A) (h : nat) (x : A) : nat -> A := fun i => if Nat.eqb i h then x else m i.
Definition store := list (list N * (list N * list N)).
Fixpoint stored (id : list N) (m : store) : option (list N * list N) :=
  match m with
  | [] => None
  | (i, x) :: m => if list_eq_dec N.eq_dec i id then Some x else stored id m
  end.
(** one call: its result, the handles and the keyring after it *)
Definition spec_step (o : op) (s : (nat -> handle) * store) : bool * ((nat -> handle) * store) :=
  let (hs, m) := s in
  match o with
  | Acquire h _ => (true, (update hs h (mkHandle [] [] []), m))
  | SetId h x => (true, (update hs h (mkHandle x (h_key (hs h)) (h_nonce (hs h))), m))
  | SetKey h x => (true, (update hs h (mkHandle (h_id (hs h)) x (h_nonce (hs h))), m))
  | SetNonce h x => (true, (update hs h (mkHandle (h_id (hs h)) (h_key (hs h)) x), m))
  | Export h _ =>
      match stored (h_id (hs h)) m with
      | Some (key, nonce) => (true, (update hs h (mkHandle (h_id (hs h)) key nonce), m))
      | None => (false, s)
      end
  | Import h _ _ =>
      match stored (h_id (hs h)) m with
      | Some _ => (false, s)
      | None => (true, (hs, m ++ [(h_id (hs h), (h_key (hs h), h_nonce (hs h)))]))
      end
  end.
Fixpoint spec_run (ops : list op) (s : (nat -> handle) * store) : list bool * ((nat -> handle) * store) :=
  match ops with
  | [] => ([], s)
  | o :: ops => let (r, s) := spec_step o s in let (rs, s) := spec_run ops s in (r :: rs, s)
  end.
