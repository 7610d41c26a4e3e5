(** Vocabulary for the theorems about sparse storage and the state-transition program. *)
From Verif Require Export History MerkleSpec StepSpec.
Open Scope N_scope.

(** ** Batches *)

(** Executing a batch on a full ledger, whatever the results. *)
Fixpoint run_batch (E : env) (s : full_state) (txs : list tx) : full_state * list exec_result :=
  match txs with
  | [] => (s, [])
  | t :: ts =>
      let '(s1, r) := execute_full E t s in
      let '(s2, rs) := run_batch E s1 ts in (s2, r :: rs)
  end.

(** Executing a batch on a sparse state. *)
Fixpoint sparse_batch (E : env) (s : sparse_state) (txs : list tx) : sparse_state * list exec_result :=
  match txs with
  | [] => (s, [])
  | t :: ts =>
      let '(s1, r) := execute_sparse E t s in
      let '(s2, rs) := sparse_batch E s1 ts in (s2, r :: rs)
  end.

(** The receipts of a batch, in order. *)
Fixpoint batch_receipts (rs : list exec_result) : list receipt :=
  match rs with
  | [] => []
  | ResOk (Some r) :: rest => r :: batch_receipts rest
  | _ :: rest => batch_receipts rest
  end.

(** No transaction of the batch panicked. *)
Definition calm (rs : list exec_result) : Prop := Forall (fun r => ~ is_panic r) rs.

(** A batch in which every transaction follows the transition relation of the specification. *)
Inductive spec_run (E : env) : ledger -> list tx -> list exec_result -> ledger -> Prop :=
| spec_run_nil l : spec_run E l [] [] l
| spec_run_cons l t r l1 ts rs l' :
    lstep E l t l1 r -> spec_run E l1 ts rs l' -> spec_run E l (t :: ts) (r :: rs) l'.

(** Two full ledgers hold the same data, whatever their caches and key tracking. *)
Definition same_ledger (s1 s2 : full_state) : Prop :=
  vs_domain s1 = vs_domain s2 /\ vs_tx_id s1 = vs_tx_id s2 /\ cursor s1 = cursor s2 /\
  accounts s1 = accounts s2 /\ flags s1 = flags s2.

(** The keys recorded as touched. *)
Definition touched_accounts (s : full_state) : gset N := mk_touched (vs_accounts s).
Definition touched_requests (s : full_state) : gset N := mk_touched (vs_transactions s).

(** Two full ledgers hold the same data for these keys, and the same counters. *)
Definition same_on (account_keys request_keys : gset N) (s1 s2 : full_state) : Prop :=
  vs_domain s1 = vs_domain s2 /\ vs_tx_id s1 = vs_tx_id s2 /\ cursor s1 = cursor s2 /\
  (forall k, k ∈ account_keys -> accounts s1 !! k = accounts s2 !! k) /\
  (forall k, k ∈ request_keys -> flags s1 !! request_index k = flags s2 !! request_index k).

(** ** Agreement of a sparse and a full state *)

(** The keys for which a sparse state has data, as indices. *)
Definition known_accounts (s : sparse_state) : gset N := sp_witnessed (vs_accounts s).
Definition known_requests (s : sparse_state) : gset N := sp_witnessed (vs_transactions s).

(** What reading a key of a sparse storage gives; [None] is a refusal. *)
Definition sparse_read {V} (cfg : tree_cfg V) (k : N) (s : sparse V) : option (option V) :=
  match sto_get (sparse_storage cfg) k s with Ok (v, _) => Some v | Err _ => None end.

Record agrees (sp : sparse_state) (s : full_state) : Prop := {
  ag_domain : vs_domain sp = vs_domain s;
  ag_tx_id : vs_tx_id sp = vs_tx_id s;
  ag_cursor : (vs_onchain_tx_id sp, vs_onchain_block sp, vs_onchain_log_index sp) = cursor s;
  ag_accounts : forall i, i ∈ known_accounts sp -> sp_inner (vs_accounts sp) !! i = accounts s !! i;
  ag_requests : forall i, i ∈ known_requests sp -> sp_inner (vs_transactions sp) !! i = flags s !! i
}.

(** ** Well-typed data: what the Rust types enforce *)

(** A 256-bit word, a 160-bit address, a 64-bit counter. *)
Definition is_word (x : N) : Prop := x < 2 ^ 256.
Definition is_address (x : N) : Prop := x < 2 ^ 160.
Definition is_u64 (x : N) : Prop := x < 2 ^ 64.

Definition typed_account (a : account) : Prop :=
  is_word (acc_balance a) /\ is_address (acc_owner a) /\ is_address (acc_signer a) /\ is_word (acc_bips a).

Definition typed_counters {A R} (s : vstate A R) : Prop :=
  is_word (vs_domain s) /\ is_u64 (vs_tx_id s) /\ is_u64 (vs_onchain_tx_id s) /\
  is_u64 (vs_onchain_block s) /\ is_u64 (vs_onchain_log_index s).

Definition typed_full (s : full_state) : Prop :=
  typed_counters s /\
  (forall k a, accounts s !! k = Some a -> is_address k /\ typed_account a).

Definition typed_input (i : stf_input) : Prop :=
  is_word (si_accounts_root i) /\ is_word (si_requests_root i) /\ typed_counters (si_state i) /\
  (forall p, p ∈ si_account_proofs i -> is_address (mp_key p) /\ Forall is_word (mp_path p) /\
     forall a, mp_value p = Some a -> typed_account a) /\
  (forall p, p ∈ si_request_proofs i -> Forall is_word (mp_path p)).

(** ** The strings hashed *)

(** No two of these strings have the same hash, and none hashes to zero. *)
Definition collision_free (hash : bytes -> N) (l : list bytes) : Prop :=
  (forall a b, a ∈ l -> b ∈ l -> hash a = hash b -> a = b) /\ (forall a, a ∈ l -> hash a <> 0).

(** The strings hashed when checking a proof of an account, respectively of a processed flag. *)
Definition account_strings (E : env) (p : mproof account) : list bytes :=
  map abi_account (proof_values p) ++
  map (fun lr => abi_pair lr.1 lr.2) (proof_pairs (account_tree E) p).
Definition request_strings (E : env) (p : mproof bool) : list bytes :=
  map abi_bool (proof_values p) ++
  map (fun lr => abi_pair lr.1 lr.2) (proof_pairs (request_tree E) p).

(** The same for the proof the full ledger itself gives for a key. *)
Definition own_account_strings (E : env) (s : full_state) (k : N) : list bytes :=
  match (merkle_proof (account_tree E) k (vs_accounts s)).1 with
  | Ok p => account_strings E p
  | Err _ => []
  end.
Definition own_request_strings (E : env) (s : full_state) (k : N) : list bytes :=
  match (merkle_proof (request_tree E) k (vs_transactions s)).1 with
  | Ok p => request_strings E p
  | Err _ => []
  end.

(** The string whose hash is the root of a state. *)
Definition container_string {A R} (s : vstate A R) (accounts_root requests_root : N) : bytes :=
  abi_container (vs_domain s) (vs_tx_id s) (vs_onchain_tx_id s) (vs_onchain_block s)
    (vs_onchain_log_index s) accounts_root requests_root.
Definition full_string (E : env) (s : full_state) : bytes :=
  container_string s (merkle_root (account_tree E) (vs_accounts s))
    (merkle_root (request_tree E) (vs_transactions s)).

(** All strings hashed when the program checks its input, and when the full ledger checks its own root and
    its own proofs for the same keys. *)
Definition stf_strings (E : env) (i : stf_input) (s : full_state) : list bytes :=
  container_string (si_state i) (si_accounts_root i) (si_requests_root i) :: full_string E s ::
  flat_map (fun p => account_strings E p ++ own_account_strings E s (mp_key p)) (si_account_proofs i) ++
  flat_map (fun p => request_strings E p ++ own_request_strings E s (mp_key p)) (si_request_proofs i).

(** All strings hashed when two full ledgers check their roots and their proofs of the given keys. *)
Definition two_state_strings (E : env) (s1 s2 : full_state) (account_keys request_keys : list N)
    : list bytes :=
  full_string E s1 :: full_string E s2 ::
  flat_map (fun k => own_account_strings E s1 k ++ own_account_strings E s2 k) account_keys ++
  flat_map (fun k => own_request_strings E s1 k ++ own_request_strings E s2 k) request_keys.
