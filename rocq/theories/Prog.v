(** The storage trait and the effects of the ledger code.

    The ledger ([VAppState::execute]) is generic in its two stores.  Here it is written once as a
    program over the operations of the storage trait; running the program with a given
    implementation of the trait gives the behaviour of the code on that store. *)
From Verif Require Export Env.
Open Scope N_scope.

(** ** The storage trait *)

(** [Storage<K, V>], crates/vapp/src/storage.rs 12-27, for keys represented by [N].
    Rust hands out references into the store: [entry(k)?.or_default()] is [sto_entry], which leaves
    the default value behind when the key was absent, and [sto_put] is the write through the
    [&mut V] obtained from [entry] or [get_mut]. *)
Record storage (V St : Type) : Type := Storage {
  sto_insert : N -> V -> St -> result St panic;
  sto_entry : N -> St -> result (V * St) panic;
  sto_get : N -> St -> result (option V * St) panic;
  sto_get_mut : N -> St -> result (option V * St) panic;
  sto_put : N -> V -> St -> St
}.
Arguments Storage {V St}.
Arguments sto_insert {V St}.
Arguments sto_entry {V St}.
Arguments sto_get {V St}.
Arguments sto_get_mut {V St}.
Arguments sto_put {V St}.

(** [VAppState<A, R>], crates/vapp/src/state.rs 40-70. *)
Record vstate (A R : Type) : Type := VState {
  vs_domain : N;
  vs_tx_id : N;
  vs_onchain_tx_id : N;
  vs_onchain_block : N;
  vs_onchain_log_index : N;
  vs_accounts : A;
  vs_transactions : R
}.
Arguments VState {A R}.
Arguments vs_domain {A R}.
Arguments vs_tx_id {A R}.
Arguments vs_onchain_tx_id {A R}.
Arguments vs_onchain_block {A R}.
Arguments vs_onchain_log_index {A R}.
Arguments vs_accounts {A R}.
Arguments vs_transactions {A R}.

(** ** Programs *)

(** A computation over the state of the ledger: the operations [execute_inner] performs
    (crates/vapp/src/state.rs 179-983), in the order it performs them. *)
Inductive prog (X : Type) : Type :=
| Ret (x : X)
| Fail (e : panic)
| AccEntry (k : N) (c : account -> prog X)
| AccGet (k : N) (c : option account -> prog X)
| AccGetMut (k : N) (c : option account -> prog X)
| AccPut (k : N) (a : account) (c : prog X)
| TxEntry (k : N) (c : bool -> prog X)
| TxInsert (k : N) (b : bool) (c : prog X)
| GetDomain (c : N -> prog X)
| GetCursor (c : N -> N -> N -> prog X)
| SetCursor (tx_id block log_index : N) (c : prog X).
Arguments Ret {X}.
Arguments Fail {X}.
Arguments AccEntry {X}.
Arguments AccGet {X}.
Arguments AccGetMut {X}.
Arguments AccPut {X}.
Arguments TxEntry {X}.
Arguments TxInsert {X}.
Arguments GetDomain {X}.
Arguments GetCursor {X}.
Arguments SetCursor {X}.

(** Sequencing ([?] and [;] of Rust, crates/vapp/src/state.rs throughout).  (160-981.) *)
Fixpoint bind {X Y} (p : prog X) (f : X -> prog Y) : prog Y :=
  match p with
  | Ret x => f x
  | Fail e => Fail e
  | AccEntry k c => AccEntry k (fun a => bind (c a) f)
  | AccGet k c => AccGet k (fun o => bind (c o) f)
  | AccGetMut k c => AccGetMut k (fun o => bind (c o) f)
  | AccPut k a c => AccPut k a (bind c f)
  | TxEntry k c => TxEntry k (fun b => bind (c b) f)
  | TxInsert k b c => TxInsert k b (bind c f)
  | GetDomain c => GetDomain (fun d => bind (c d) f)
  | GetCursor c => GetCursor (fun i b l => bind (c i b l) f)
  | SetCursor i b l c => SetCursor i b l (bind c f)
  end.

Notation "'let!' x := m 'in' k" := (bind m (fun x => k))
  (at level 200, x pattern, m at level 100, k at level 200, right associativity).
Notation "'do!' m 'in' k" := (bind m (fun _ => k))
  (at level 200, m at level 100, k at level 200, right associativity).

(** Lift a pure fallible computation ([?] on a function that does not touch the state).  (As in
    crates/vapp/src/state.rs 162-163.) *)
Definition lift {X} (r : result X panic) : prog X :=
  match r with Ok x => Ret x | Err e => Fail e end.

(** [option.ok_or(e)?].  (As in crates/vapp/src/state.rs 608-640.) *)
Definition ok_or {X} (o : option X) (e : panic) : prog X :=
  match o with Some x => Ret x | None => Fail e end.

(** [if !cond { return Err(e) }].  (As in crates/vapp/src/state.rs 130-152.) *)
Definition ensure (cond : bool) (e : panic) : prog unit :=
  if cond then Ret tt else Fail e.

(** [self.accounts.entry(k)?.or_default()].  (As in crates/vapp/src/state.rs 345, 447, 948.) *)
Definition acc_entry (k : N) : prog account := AccEntry k Ret.
(** [self.accounts.get(&k)?].  (As in crates/vapp/src/state.rs 317, 435, 542.) *)
Definition acc_get (k : N) : prog (option account) := AccGet k Ret.
(** [self.accounts.get_mut(&k)?].  (As in crates/vapp/src/state.rs 358.) *)
Definition acc_get_mut (k : N) : prog (option account) := AccGetMut k Ret.
(** A write through a [&mut Account] obtained just before.  (As in crates/vapp/src/state.rs 345-362.) *)
Definition acc_put (k : N) (a : account) : prog unit := AccPut k a (Ret tt).
(** [*self.transactions.entry(k)?.or_default()].  (As in crates/vapp/src/state.rs 289, 402, 495, 679.) *)
Definition tx_entry (k : N) : prog bool := TxEntry k Ret.
(** [self.transactions.insert(k, b)?].  (As in crates/vapp/src/state.rs 296, 409, 502, 944.) *)
Definition tx_insert (k : N) (b : bool) : prog unit := TxInsert k b (Ret tt).
(** [self.domain].  (As in crates/vapp/src/state.rs 270, 391, 484, 655.) *)
Definition get_domain : prog N := GetDomain Ret.
(** [(self.onchain_tx_id, self.onchain_block, self.onchain_log_index)].  (As in crates/vapp/src/state.rs
    124-154.) *)
Definition get_cursor : prog (N * N * N) := GetCursor (fun i b l => Ret (i, b, l)).
(** Assignment to the three on-chain cursor fields.  (As in crates/vapp/src/state.rs 194-196, 225-227.) *)
Definition set_cursor (i b l : N) : prog unit := SetCursor i b l (Ret tt).

(** ** Running a program on a store *)

Section run.
  Context {A R : Type} (SA : storage account A) (SR : storage bool R).

  (** Replace the accounts store ([&mut self.accounts], crates/vapp/src/state.rs 65). *)
  Definition with_accounts (a : A) (s : vstate A R) : vstate A R :=
    VState (vs_domain s) (vs_tx_id s) (vs_onchain_tx_id s) (vs_onchain_block s)
      (vs_onchain_log_index s) a (vs_transactions s).

  (** Replace the transactions store ([&mut self.transactions], crates/vapp/src/state.rs 69). *)
  Definition with_transactions (r : R) (s : vstate A R) : vstate A R :=
    VState (vs_domain s) (vs_tx_id s) (vs_onchain_tx_id s) (vs_onchain_block s)
      (vs_onchain_log_index s) (vs_accounts s) r.

  (** Assign the three on-chain cursor fields, crates/vapp/src/state.rs 194-196, 225-227. *)
  Definition with_cursor (i b l : N) (s : vstate A R) : vstate A R :=
    VState (vs_domain s) (vs_tx_id s) i b l (vs_accounts s) (vs_transactions s).

  (** Run a program against the stores ([execute_inner(&mut self, ..)],
      crates/vapp/src/state.rs 179-983).  On failure the state returned is the one reached so far,
      as with [&mut self]. *)
  Fixpoint run {X} (p : prog X) (s : vstate A R) : vstate A R * result X panic :=
    match p with
    | Ret x => (s, Ok x)
    | Fail e => (s, Err e)
    | AccEntry k c =>
        match sto_entry SA k (vs_accounts s) with
        | Ok (v, a) => run (c v) (with_accounts a s)
        | Err e => (s, Err e)
        end
    | AccGet k c =>
        match sto_get SA k (vs_accounts s) with
        | Ok (o, a) => run (c o) (with_accounts a s)
        | Err e => (s, Err e)
        end
    | AccGetMut k c =>
        match sto_get_mut SA k (vs_accounts s) with
        | Ok (o, a) => run (c o) (with_accounts a s)
        | Err e => (s, Err e)
        end
    | AccPut k v c => run c (with_accounts (sto_put SA k v (vs_accounts s)) s)
    | TxEntry k c =>
        match sto_entry SR k (vs_transactions s) with
        | Ok (b, r) => run (c b) (with_transactions r s)
        | Err e => (s, Err e)
        end
    | TxInsert k b c =>
        match sto_insert SR k b (vs_transactions s) with
        | Ok r => run c (with_transactions r s)
        | Err e => (s, Err e)
        end
    | GetDomain c => run (c (vs_domain s)) s
    | GetCursor c => run (c (vs_onchain_tx_id s) (vs_onchain_block s) (vs_onchain_log_index s)) s
    | SetCursor i b l c => run c (with_cursor i b l s)
    end.
End run.

(** ** The plain map as a store *)

(** A store that is only a map from indices to values: the reference against which the two real
    stores are compared.  [index] is [StorageKey::index], crates/vapp/src/storage.rs 39-77. *)
Definition map_storage {V} (dflt : V) (index : N -> N) : storage V (gmap N V) :=
  {| sto_insert k v m := Ok (<[index k := v]> m);
     sto_entry k m := let v := default dflt (m !! index k) in Ok (v, <[index k := v]> m);
     sto_get k m := Ok (m !! index k, m);
     sto_get_mut k m := Ok (m !! index k, m);
     sto_put k v m := <[index k := v]> m |}.

(** [Address::index], crates/vapp/src/storage.rs 56-59: the address as a number. *)
Definition address_index (a : N) : N := a.

(** [RequestId::index], crates/vapp/src/storage.rs 69-72: the first 20 of the 32 bytes. *)
Definition request_index (id : N) : N := from_be (take 20 (be_bytes 32 id)).

Global Arguments request_index : simpl never.
